(** What choosing an integrator means: a table of names, and the last choice wins. *)
From Coq Require Import Reals List Bool String.
From Verif Require Import TextModel IntegModel.
Import ListNotations.

(** The names the documentation offers. *)
Definition table : list (string * integ_kind) :=
  [("Legacy", Legacy); ("runge_kutta_cash_karp54", Boost CashKarp54); ("runge_kutta_fehlberg78", Boost Fehlberg78);
   ("runge_kutta_dopri5", Boost Dopri5); ("runge_kutta_cash_karp54_classic", Boost CashKarp54Classic)]%string.
(** Available in this build. *)
Definition available (with_boost : bool) (k : integ_kind) : Prop := match k with Legacy => True | Boost _ => with_boost = true end.
Definition names (with_boost : bool) (s : str) (k : integ_kind) : Prop := available with_boost k /\ exists n, In (n, k) table /\ s = lit n.
(** The last available integrator asked for in a history, else the first one. *)
Inductive chosen (with_boost : bool) (first : integ_kind) : list wl_op -> integ_kind -> Prop :=
  | ch_none : chosen with_boost first [] first
  | ch_set l k0 s k : chosen with_boost first l k0 -> names with_boost s k -> chosen with_boost first (l ++ [WSet (SIntegrator s)]) k
  | ch_bad l k0 s : chosen with_boost first l k0 -> (forall k, ~ names with_boost s k) -> chosen with_boost first (l ++ [WSet (SIntegrator s)]) k0
  | ch_other l k0 o : chosen with_boost first l k0 -> (forall s, o <> WSet (SIntegrator s)) -> chosen with_boost first (l ++ [o]) k0.
