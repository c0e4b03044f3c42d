(** What "every pixel is computed on its own" means, for PropertiesPix.v. *)
From Coq Require Import Reals List Bool Arith.
From Verif Require Import Outcome Mat4 RayNumModel PixModel.
Import ListNotations.
Open Scope R_scope.

(** Two records in which the same quantities are requested, whatever they hold. *)
Definition both {A} (a b : option A) : Prop := match a, b with Some _, Some _ | None, None => True | _, _ => False end.
Definition same_request (a b : option pdata) : Prop :=
  match a, b with
  | None, None => True
  | Some a, Some b =>
      both (d_int a) (d_int b) /\ both (d_time a) (d_time b) /\ both (d_dist a) (d_dist b) /\ both (d_dmin a) (d_dmin b) /\
      both (d_red a) (d_red b) /\ both (d_nbc a) (d_nbc b) /\ both (d_spec a) (d_spec b) /\ both (d_Q a) (d_Q b) /\
      both (d_U a) (d_U b) /\ both (d_V a) (d_V b) /\ both (d_bin a) (d_bin b) /\ both (d_imp a) (d_imp b) /\
      both (d_u1 a) (d_u1 b) /\ both (d_u2 a) (d_u2 b) /\ both (d_u3 a) (d_u3 b) /\ both (d_u4 a) (d_u4 b) /\ both (d_u5 a) (d_u5 b)
  | _, _ => False
  end.

Section PixSpec.
  Context {X Mem Conf Cst Trk : Type}.
  Notation photon := (photon X Mem Conf Cst).
  Notation world := (world X Mem Conf Cst Trk).
  (** A photon that can trace a ray backwards: never used, or with room before its initial
      point.  Nothing is said of what its arrays, its transmissions, its step, its constants of
      motion and its integrator hold. *)
  Definition usable (p : photon) : Prop :=
    unused (q_line _ _ _ _ p) \/ (1 <= l_i0 (q_line _ _ _ _ p) < l_size (q_line _ _ _ _ p))%nat.
  (** The settings with which the scenery traces: its own photon gets the spectrometer and the
      frequency of the screen first. *)
  Definition settings (s : scene) (cached : bool) (a : par X) : par X :=
    if cached then mkPar X (s_spr s) (s_freq s) (a_polar X a) (a_tmin X a) (a_maxiter X a) (a_secondary X a) (a_rest X a) else a.
  Definition same_settings (s : scene) (cached : bool) (p q : photon) : Prop :=
    settings s cached (q_par _ _ _ _ p) = settings s cached (q_par _ _ _ _ q) /\ n_31 _ _ (q_integ _ _ _ _ p) = n_31 _ _ (q_integ _ _ _ _ q).

  (** One request: a pixel, the coordinates of an impact, and the record to fill. *)
  Definition request := (pix * option (list R) * option pdata)%type.
  (** The ray of the request goes back in time, and the basis of the polarisation is computed
      if the photon uses it. *)
  Definition backwards (s : scene) (cached : bool) (p : photon) (r : request) : Prop :=
    let a := settings s cached (q_par _ _ _ _ p) in
    snd (fst r) = None -> (a_tmin X a <= g_ray (fst (fst r)) 0%nat)%R /\ (a_polar X a = true -> s_polar s = true).
  (** What the caller gets: the record, and the returned value or the exception. *)
  Definition answer := (option pdata * outcome bool)%type.
  Definition alone (w : world) (junk : nat -> R) (s : scene) (cached : bool) (p : photon) (r : request) : answer :=
    let '(g, ic, d) := r in let '(_, d, o) := pixel _ _ _ _ _ w junk s cached g ic p d in (d, o).
  (** Requests served one after the other by the same photon; after an exception the caller may
      go on.  [junk k] is what the uncomputed vectors hold at the k-th request. *)
  Fixpoint series (w : world) (junk : nat -> nat -> R) (s : scene) (cached : bool) (p : photon) (rs : list request) : list answer :=
    match rs with
    | [] => []
    | (g, ic, d) :: rs =>
        let '(p', d', o) := pixel _ _ _ _ _ w (junk O) s cached g ic p d in
        (d', o) :: series w (fun k => junk (S k)) s cached p' rs
    end.
End PixSpec.
