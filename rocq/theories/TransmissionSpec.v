(** Specification vocabulary for C16. *)
From Coq Require Import List Reals.
From Verif Require Import Outcome Mat4 TransmissionModel.
Import ListNotations.
Open Scope nat_scope.

Section Spec.
  Context {T : Type} (one : T) (mul : T -> T -> T).

  Definition product (l : list T) : T := fold_left mul l one.

  (** The factors applied to a channel since the last reset (or change of
      spectrometer), in order. *)
  Fixpoint since (same : option nat -> bool) (acc : list T) (l : list (op T)) : list T :=
    match l with
    | [] => acc
    | SetSpectro _ :: l | Reset :: l => since same [] l
    | Transmit i t :: l => since same (if same i then acc ++ [t] else acc) l
    | Resize _ :: l => since same acc l
    end.
  Definition is_chan (i : nat) (c : option nat) : bool := match c with Some j => Nat.eqb i j | None => false end.
  Definition factors (i : nat) (l : list (op T)) : list T := since (is_chan i) [] l.

  (** The spectrometer set last. *)
  Fixpoint last_spectro (o : option nat) (l : list (op T)) : option nat :=
    match l with
    | [] => o
    | SetSpectro o' :: l => last_spectro o' l
    | _ :: l => last_spectro o l
    end.
  Definition no_resize (l : list (op T)) : Prop := forall n, ~ In (Resize n) l.

  (** Factors of the transmission at the observed frequency: changing for a
      spectrometer without channels (or none) does not reset this one. *)
  Fixpoint since_fobs (acc : list T) (l : list (op T)) : list T :=
    match l with
    | [] => acc
    | Reset :: l => since_fobs [] l
    | SetSpectro (Some (S _)) :: l => since_fobs [] l
    | SetSpectro _ :: l => since_fobs acc l
    | Transmit None t :: l => since_fobs (acc ++ [t]) l
    | Transmit (Some _) _ :: l => since_fobs acc l
    | Resize _ :: l => since_fobs acc l
    end.
End Spec.

(** Radiative transfer: what leaves the first cell of a list (nearest to the observer)
    is what it emits plus its transmission of what comes from behind. *)
Fixpoint formal_solution (l : list (vec * mat)) : vec :=
  match l with [] => vzero | (s, o) :: l => vadd s (mvec o (formal_solution l)) end.
Definition total (l : list vec) : vec := fold_right vadd vzero l.
