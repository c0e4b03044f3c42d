(** Four by four matrices and four-vectors of reals (Eigen::Matrix4d, Eigen::Vector4d;
    double[4][4]).  Indices above 3 are never used. *)
From Coq Require Import Reals Lra Lia.
Open Scope R_scope.

Definition mat := nat -> nat -> R.
Definition vec := nat -> R.
Definition sum4 (f : nat -> R) : R := f 0%nat + f 1%nat + f 2%nat + f 3%nat.
Definition mmul (a b : mat) : mat := fun i j => sum4 (fun k => a i k * b k j).
Definition mvec (a : mat) (v : vec) : vec := fun i => sum4 (fun k => a i k * v k).
Definition mid : mat := fun i j => if Nat.eqb i j then 1 else 0.
Definition vadd (u v : vec) : vec := fun i => u i + v i.
Definition vzero : vec := fun _ => 0.

(** Equality of the sixteen (four) elements. *)
Definition meq (a b : mat) : Prop := forall i j, (i < 4)%nat -> (j < 4)%nat -> a i j = b i j.
Definition veq (u v : vec) : Prop := forall i, (i < 4)%nat -> u i = v i.

Ltac four i H := destruct i as [|[|[|[|i]]]]; [ | | | | exfalso; clear - H; lia].

Lemma sum4_ext f g : (forall k, (k < 4)%nat -> f k = g k) -> sum4 f = sum4 g.
Proof. intros H. unfold sum4. rewrite !H by auto. reflexivity. Qed.
Lemma mmul_assoc a b c : meq (mmul (mmul a b) c) (mmul a (mmul b c)).
Proof. intros i j _ _. unfold mmul, sum4. ring. Qed.
Lemma mvec_mmul a b v : veq (mvec (mmul a b) v) (mvec a (mvec b v)).
Proof. intros i _. unfold mvec, mmul, sum4. ring. Qed.
Lemma mvec_add a u v : veq (mvec a (vadd u v)) (vadd (mvec a u) (mvec a v)).
Proof. intros i _. unfold mvec, vadd, sum4. ring. Qed.
Lemma mvec_mid v : veq (mvec mid v) v.
Proof. intros i Hi. four i Hi; unfold mvec, mid, sum4; cbn; ring. Qed.
Lemma mmul_mid_r a : meq (mmul a mid) a.
Proof. intros i j Hi Hj. four j Hj; unfold mmul, mid, sum4; cbn; ring. Qed.
Lemma mmul_mid_l a : meq (mmul mid a) a.
Proof. intros i j Hi Hj. four i Hi; unfold mmul, mid, sum4; cbn; ring. Qed.
Lemma mvec_ext a b u v : meq a b -> veq u v -> veq (mvec a u) (mvec b v).
Proof. intros H1 H2 i Hi. unfold mvec. apply sum4_ext. intros k Hk. rewrite H1, H2 by auto. reflexivity. Qed.
Lemma mmul_ext a a' b b' : meq a a' -> meq b b' -> meq (mmul a b) (mmul a' b').
Proof. intros H1 H2 i j Hi Hj. unfold mmul. apply sum4_ext. intros k Hk. rewrite H1, H2 by auto. reflexivity. Qed.
Lemma vadd_ext u u' v v' : veq u u' -> veq v v' -> veq (vadd u v) (vadd u' v').
Proof. intros H1 H2 i Hi. unfold vadd. rewrite H1, H2 by auto. reflexivity. Qed.
Lemma veq_trans u v w : veq u v -> veq v w -> veq u w.
Proof. intros H1 H2 i Hi. rewrite H1, H2 by auto. reflexivity. Qed.
Lemma veq_sym u v : veq u v -> veq v u.
Proof. intros H i Hi. symmetry. auto. Qed.
Lemma veq_refl v : veq v v. Proof. intros i _. reflexivity. Qed.
Lemma meq_refl a : meq a a. Proof. intros i j _ _. reflexivity. Qed.
Lemma meq_sym a b : meq a b -> meq b a. Proof. intros H i j Hi Hj. symmetry. auto. Qed.
Lemma meq_trans a b c : meq a b -> meq b c -> meq a c.
Proof. intros H1 H2 i j Hi Hj. rewrite H1, H2 by auto. reflexivity. Qed.
