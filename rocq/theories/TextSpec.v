(** Specification vocabulary for C21-C23 and C46. *)
From Coq Require Import Ascii String List Bool Arith.
From Verif Require Import TextModel.
Import ListNotations.
Open Scope nat_scope. Open Scope list_scope.

Definition free (d : ascii -> bool) (w : str) : Prop := forall c, In c w -> d c = false.

(** [pieces d s ws]: [ws] are the maximal non-empty delimiter-free pieces of [s], in
    order. *)
Inductive pieces (d : ascii -> bool) : str -> list str -> Prop :=
| pieces_nil : pieces d [] []
| pieces_delim c s ws : d c = true -> pieces d s ws -> pieces d (c :: s) ws
| pieces_last w : w <> [] -> free d w -> pieces d w [w]
| pieces_word w c s ws : w <> [] -> free d w -> d c = true -> pieces d s ws -> pieces d (w ++ c :: s) (w :: ws).

(** A separator: one or more delimiters. *)
Definition separator (d : ascii -> bool) (s : str) : Prop := s <> [] /\ forall c, In c s -> d c = true.

(** Words with a separator before each but the first. *)
Fixpoint joined (l : list (str * str)) : str := match l with [] => [] | (sep, w) :: l => sep ++ w ++ joined l end.

(** What an entry of the plug-in list asks for. *)
Inductive asks : str -> str * nat -> Prop :=
| asks_nofail n : asks (lit "nofail:" ++ n) (n, 1)
| asks_nowarn n : asks (lit "nowarn:" ++ n) (n, 2)
| asks_plain e : (forall n, e <> lit "nofail:" ++ n) -> (forall n, e <> lit "nowarn:" ++ n) -> asks e (e, 0).

(** Entries separated by commas. *)
Fixpoint commas (l : list str) : str :=
  match l with [] => [] | [e] => e | e :: l => e ++ ","%char :: commas l end.

Definition absolute (s : str) : Prop := exists r, s = slash :: r.

(** What separates numbers in an array: spaces, tabs and newlines. *)
Definition space (c : ascii) : bool := match nat_of_ascii c with 9 | 10 | 32 => true | _ => false end.
