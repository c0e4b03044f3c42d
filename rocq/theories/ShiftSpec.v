(** A space-time and the same one moved. *)
From Coq Require Import Reals Arith List.
From Verif Require Import Mat4 CoefModel CoefSpec DefMetricModel DefMetricSpec ShiftModel.
Import ListNotations.
Open Scope R_scope.

(** A geometry: the metric, its inverse, and the derivatives of the metric, at each position. *)
Record geometry := mkGeo { g_low : vec -> mat; g_up : vec -> mat; g_der : vec -> cube }.
(** The Christoffel symbols of a geometry, (1/2) g^{ak} (d_mu g_{k nu} + d_nu g_{k mu} - d_k g_{mu nu}). *)
Definition g_chr (G : geometry) (x : vec) : cube :=
  fun a mu nu => / 2 * sum4 (fun k => g_up G x a k * (g_der G x mu k nu + g_der G x nu k mu - g_der G x k mu nu)).
(** What is at x in the moved geometry was at x - off. *)
Definition moved_by (off : vec) (G : geometry) : geometry :=
  let back := fun x i => x i - off i in
  mkGeo (fun x => g_low G (back x)) (fun x => g_up G (back x)) (fun x => g_der G (back x)).
(** The answer a geometry gives to a call. *)
Definition tells (G : geometry) (q : query) (a : answer) : Prop :=
  match q, a with
  | QGc x mu nu, ANum v => v = g_low G x mu nu
  | QGm x, AMat g => meq g (g_low G x)
  | QUpc x mu nu, ANum v => v = g_up G x mu nu
  | QUpm x, AMat g => meq g (g_up G x)
  | QJac x, ACube c => ceq c (g_der G x)
  | QUj x, ABoth g c => meq g (g_up G x) /\ ceq c (g_der G x)
  | QChc x a mu nu, ANum v => v = g_chr G x a mu nu
  | QChm x, ACube c => ceq c (g_chr G x)
  | _, _ => False
  end.
(** The geometry a metric's class gives to its callers. *)
Definition geometry_of (invert : mat -> mat) (o : class) : geometry := mkGeo (m_g o) (m_up invert o) (m_jac o).
(** A geometry without contradiction: the inverse is the inverse, the derivatives are those of the metric. *)
Definition proper (G : geometry) (x : vec) : Prop :=
  (meq (mmul (g_low G x) (g_up G x)) mid /\ meq (mmul (g_up G x) (g_low G x)) mid)
  /\ (forall i j, (i < 4)%nat -> (j < 4)%nat -> g_low G x i j = g_low G x j i)
  /\ forall d mu nu, (d < 4)%nat -> (mu < 4)%nat -> (nu < 4)%nat -> partial (g_low G) x d mu nu (g_der G x d mu nu).
(** The positions of a line y follow a geodesic of the geometry, with the parameter tau: its second derivative is the one the Christoffel symbols give. *)
Definition geodesic (G : geometry) (y v : R -> vec) : Prop :=
  forall tau i, (i < 4)%nat ->
    derivable_pt_lim (fun s => y s i) tau (v tau i)
    /\ derivable_pt_lim (fun s => v s i) tau (- sum4 (fun m => sum4 (fun n => g_chr G (y tau) i m n * v tau m * v tau n))).
(** The last value of the right size. *)
Definition last_offset (l : list hop) : list R :=
  fold_left (fun v o => match o with SetOffset w => if Nat.eqb (length w) 4 then w else v | _ => v end) l [0; 0; 0; 0].
