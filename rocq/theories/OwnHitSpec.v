(** Specification vocabulary for C73: what may be asked of objects that record their own hits. *)
From Coq Require Import Reals List.
From Verif Require Import Mat4 HitModel HitSpec OwnHitModel.
Open Scope R_scope.

(** Observed over emitted frequency, or 1 for a disk told to pretend that its flux is uniform. *)
Definition page_shift (o : object) (uniform : bool) (h : hit) : R := if uniform then 1 else shift o h.
(** A spectral quantity is asked for. *)
Definition spectral (d : data) : Prop := d_spectrum d <> None \/ d_Q d <> None \/ d_U d <> None \/ d_V d <> None.
(** The sixteen numbers of an impact: the object's eight, then the photon's. *)
Definition impact_of (h : hit) (y : nat -> R) : Prop := forall i, (i < 8)%nat -> y i = h_obj h i /\ y (8 + i)%nat = h_ph h i.
(** Both states have the same quantity asked for or not asked for, with [v] if it is. *)
Definition recorded (before after : option R) (v : R) : Prop := match before with Some _ => after = Some v | None => after = None end.
