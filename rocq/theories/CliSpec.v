(** What a command line asks for, for PropertiesCli.v. *)
From Coq Require Import Ascii String List Bool ZArith.
From Verif Require Import Outcome TextModel CliModel.
Import ListNotations.
Open Scope Z_scope. Open Scope list_scope.

(** [s] is the number [n] in decimal. *)
Inductive spells : str -> Z -> Prop :=
| spells_one d : (d < 10)%nat -> spells [ascii_of_nat (48 + d)] (Z.of_nat d)
| spells_more s n d : spells s n -> (d < 10)%nat -> spells (s ++ [ascii_of_nat (48 + d)]) (10 * n + Z.of_nat d).
Definition maybe (s : str) (o : option Z) : Prop := match o with Some n => spells s n | None => s = [] end.

(** What is asked for along an axis: where to start, where to end, the step; one pixel;
    from:to and from:to:step, where any part can be missing. *)
Inductive request := First (n : Z) | Last (n : Z) | Every (n : Z) | Just (n : Z) | FromTo (n m : option Z) | FromToBy (n m k : option Z).
(** The option [o] is the request [w], or is not about pixels. *)
Definition asks (o : opt) (w : option (axis * request)) : Prop :=
  match o, w with
  | Bound a true s, Some (b, First n) => a = b /\ spells s n
  | Bound a false s, Some (b, Last n) => a = b /\ spells s n
  | Step a s, Some (b, Every n) => a = b /\ spells s n
  | Spec a s, Some (b, Just n) => a = b /\ spells s n
  | Spec a s, Some (b, FromTo n m) => a = b /\ exists s1 s2, s = s1 ++ ":"%char :: s2 /\ maybe s1 n /\ maybe s2 m
  | Spec a s, Some (b, FromToBy n m k) => a = b /\ exists s1 s2 s3, s = s1 ++ ":"%char :: s2 ++ ":"%char :: s3 /\ maybe s1 n /\ maybe s2 m /\ maybe s3 k
  | (Bound _ _ _ | Step _ _ | Spec _ _), _ => False
  | _, None => True
  | _, Some _ => False
  end.
(** Its numbers are from 1 to the largest int. *)
Definition int (n : Z) : Prop := 1 <= n < 2 ^ 31.
Definition int_if (o : option Z) : Prop := match o with Some n => int n | None => True end.
Definition fits (w : option (axis * request)) : Prop :=
  match w with
  | None => True
  | Some (_, r) => match r with First n | Last n | Every n | Just n => int n | FromTo n m => int_if n /\ int_if m | FromToBy n m k => int_if n /\ int_if m /\ int_if k end
  end.
(** What a request says of the first pixel, of the last one (any number: no limit), of the step. *)
Definition or_else {A} (o : option A) (d : A) : A := match o with Some a => a | None => d end.
Definition first_said (r : request) : option Z := match r with First n | Just n => Some n | FromTo n _ | FromToBy n _ _ => Some (or_else n 1) | _ => None end.
Definition last_said (r : request) : option (option Z) := match r with Last n | Just n => Some (Some n) | FromTo _ m | FromToBy _ m _ => Some m | _ => None end.
Definition step_said (r : request) : option Z := match r with Every n => Some n | Just _ | FromTo _ _ => Some 1 | FromToBy _ _ k => Some (or_else k 1) | _ => None end.
(** The last word on axis [a], or [d]. *)
Definition latest {A} (f : request -> option A) (a : axis) (ws : list (option (axis * request))) (d : A) : A :=
  fold_left (fun v w => match w with Some (b, r) => if axis_eqb a b then or_else (f r) v else v | None => v end) ws d.
(** The pixels asked for along axis [a], in an image of [res] pixels. *)
Definition chosen (res : Z) (ws : list (option (axis * request))) (a : axis) (p : Z) : Prop :=
  p <= res /\ match latest last_said a ws None with Some m => p <= m | None => True end /\
  exists k, 0 <= k /\ p = latest first_said a ws 1 + k * latest step_said a ws 1.

(** An option Name or Name=value *)
Definition says (arg name val : str) : Prop := ~ In "="%char name /\ (arg = name /\ val = [] \/ arg = name ++ "="%char :: val).
(** What happens to the scene, option after option, and the files written on the way. *)
Section Follows.
  Variables (S : Type) (setting : nat -> S -> str -> outcome S) (set_parameter : S -> str -> str -> str -> outcome (S * bool)).
  Definition elsewhere (o : opt) : Prop := match o with NoSigfpe | Bound _ _ _ | Step _ _ | Spec _ _ | Impact _ => True | _ => False end.
  Inductive follows : str -> S -> list opt -> S -> list (str * S) -> Prop :=
  | follows_nil u s : follows u s [] s []
  | follows_set u s k a s1 l s2 fs : setting k s a = Ok s1 -> follows u s1 l s2 fs -> follows u s (Setting k a :: l) s2 fs
  | follows_unit u s v l s2 fs : follows v s l s2 fs -> follows u s (Unit (Some v) :: l) s2 fs
  | follows_no_unit u s l s2 fs : follows [] s l s2 fs -> follows u s (Unit None :: l) s2 fs
  | follows_param u s arg name val s1 l s2 fs : says arg name val -> set_parameter s name val u = Ok (s1, false) -> follows u s1 l s2 fs -> follows u s (Param arg :: l) s2 fs
  | follows_write u s f l s2 fs : follows u s l s2 fs -> follows u s (Write f :: l) s2 ((f, s) :: fs)
  | follows_other u s o l s2 fs : elsewhere o -> follows u s l s2 fs -> follows u s (o :: l) s2 fs.
End Follows.
