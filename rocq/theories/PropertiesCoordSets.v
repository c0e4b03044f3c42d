(** C04: pixel sets enumerate exactly the requested pixels, once each and in
    order.  [pixels1 s l] / [pixels2 s l] (CoordSetsSpec) say that the loop
    [for (s.begin(); s.valid(); ++s) use( *s )] terminates and sees exactly [l]. *)
From Coq Require Import List ZArith Bool Sorted.
From Verif Require Import Outcome CoordSetsModel CoordSetsSpec CoordSetsProofs.
Import ListNotations.
Open Scope Z_scope.

Theorem C04_range : forall A mi ma d,
  size_t mi -> size_t d -> d <> 0 -> mi <= ma -> ma + d < W64 ->
  exists s l, mk_range mi ma d = Ok (s : set1 A) /\ pixels1 s l /\
    StronglySorted Z.lt l /\
    (forall p, In p l <-> mi <= p <= ma /\ (p - mi) mod d = 0) /\
    Z.of_nat (length l) = size1 s.
Proof. exact @range_pixels. Qed.
Print Assumptions C04_range.

Example C04_range_nonvacuous :
  (size_t 3 /\ size_t 4 /\ 4 <> 0 /\ 3 <= 12 /\ 12 + 4 < W64) /\
  exists s, mk_range 3 12 4 = Ok (s : set1 unit) /\ pixels1 s [3; 7; 11] /\ size1 s = 3.
Proof.
  split; [unfold size_t, W64; repeat split; discriminate || reflexivity|].
  eexists. split; [reflexivity|]. split; [exists 9%nat; vm_compute; reflexivity | reflexivity].
Qed.

(** [index()] counts 0, 1, 2, ... along the iteration. *)
Theorem C04_range_index : forall A mi ma d s,
  size_t mi -> size_t d -> d <> 0 -> mi <= ma -> ma + d < W64 ->
  mk_range mi ma d = Ok (s : set1 A) ->
  visits begin1 valid1 (fun s => Ok (index1 s)) incr1 s
         (map Z.of_nat (seq 0 (Z.to_nat (size1 s)))).
Proof. exact @range_index. Qed.
Print Assumptions C04_range_index.

(** A null step is undefined behaviour (integer division by zero). *)
Theorem C04_range_zero_step_refuted : forall A mi ma, mk_range mi ma 0 = (UB : outcome (set1 A)).
Proof. reflexivity. Qed.

(** Reversed bounds: nothing is visited but [size] announces elements. *)
Theorem C04_range_reversed_refuted :
  exists mi ma d (s : set1 unit), size_t mi /\ size_t ma /\ size_t d /\ d <> 0 /\
    mk_range mi ma d = Ok s /\ pixels1 s [] /\ 0 < size1 s.
Proof.
  exists 5, 2, 1. eexists. split; [split; [discriminate|reflexivity]|].
  split; [split; [discriminate|reflexivity]|]. split; [split; [discriminate|reflexivity]|].
  split; [discriminate|]. split; [reflexivity|]. split; [exists 1%nat; reflexivity|reflexivity].
Qed.

(** Without the hypothesis [ma + d < 2^64] the iteration need not end. *)
Theorem C04_range_wrap_refuted :
  exists mi ma d (s : set1 unit), size_t mi /\ size_t ma /\ size_t d /\ d <> 0 /\ mi <= ma /\
    mk_range mi ma d = Ok s /\ never_ends begin1 valid1 deref1 incr1 s.
Proof.
  exists 0, (W64 - 1), 1. eexists.
  split; [split; [discriminate|reflexivity]|]. split; [split; [discriminate|reflexivity]|].
  split; [split; [discriminate|reflexivity]|]. split; [discriminate|]. split; [discriminate|].
  split; [reflexivity|]. apply range_wrap_never_ends.
Qed.
Print Assumptions C04_range_wrap_refuted.

Theorem C04_indices : forall A b sz, size_t sz -> sz <= Z.of_nat (length b) ->
  exists s, mk_indices (Some b) sz = Ok (s : set1 A) /\
    pixels1 s (firstn (Z.to_nat sz) b) /\ size1 s = sz.
Proof. exact @indices_pixels. Qed.
Print Assumptions C04_indices.

Theorem C04_angles : forall A (b : list A) sz, size_t sz -> sz <= Z.of_nat (length b) ->
  exists s, mk_angles (Some b) sz = Ok s /\
    anglesof1 s (firstn (Z.to_nat sz) b) /\ size1 s = sz.
Proof. exact @angles_angles. Qed.
Print Assumptions C04_angles.

Theorem C04_repeat_angle : forall A (v : A) sz, size_t sz ->
  anglesof1 (mk_repeat v sz) (repeat v (Z.to_nat sz)) /\ size1 (mk_repeat v sz) = sz.
Proof. exact @repeat_angles. Qed.
Print Assumptions C04_repeat_angle.

(** A null index list of non-null announced size is dereferenced. *)
Theorem C04_null_indices_refuted :
  exists s : set1 unit, mk_indices None 1 = Ok s /\ valid1 s = true /\ deref1 s = UB.
Proof. eexists; repeat split. Qed.

Theorem C04_grid : forall A (i j : set1 A) li lj,
  pixels1 i li -> pixels1 j lj -> pixels2 (mk_grid i j) (row_major li lj).
Proof. exact @grid_visits. Qed.
Print Assumptions C04_grid.

Theorem C04_grid_each_once : forall li lj, NoDup li -> NoDup lj ->
  NoDup (row_major li lj) /\
  forall i j, In (i, j) (row_major li lj) <-> In i li /\ In j lj.
Proof. intros li lj Hi Hj; split; [exact (row_major_NoDup li lj Hi Hj) | exact (row_major_In li lj)]. Qed.
Print Assumptions C04_grid_each_once.

Theorem C04_grid_size : forall A (i j : set1 A) li lj,
  Z.of_nat (length li) = size1 i -> Z.of_nat (length lj) = size1 j ->
  size1 i * size1 j < W64 ->
  Z.of_nat (length (row_major li lj)) = size2 (mk_grid i j).
Proof. exact @grid_size. Qed.
Print Assumptions C04_grid_size.

Example C04_grid_nonvacuous : exists i j : set1 unit,
  mk_range 1 2 1 = Ok i /\ mk_indices (Some [7; 4; 9]) 3 = Ok j /\
  pixels1 i [1; 2] /\ pixels1 j [7; 4; 9] /\
  pixels2 (mk_grid i j) [(1,7); (2,7); (1,4); (2,4); (1,9); (2,9)] /\ size2 (mk_grid i j) = 6.
Proof.
  do 2 eexists. split; [reflexivity|]. split; [reflexivity|].
  split; [exists 9%nat; vm_compute; reflexivity|]. split; [exists 9%nat; vm_compute; reflexivity|].
  split; [exists 9%nat; vm_compute; reflexivity|reflexivity].
Qed.

(** Two axes sharing one set object: the grid never ends. *)
Theorem C04_grid_aliased_refuted : exists s : set1 unit, mk_range 0 1 1 = Ok s /\
  never_ends begin1 valid1 deref1 alias_grid_incr s.
Proof. eexists; split; [reflexivity|apply alias_never]. Qed.
Print Assumptions C04_grid_aliased_refuted.

(** Buckets pair their two sets; they are refused unless kinds and sizes match. *)
Theorem C04_bucket_accepts : forall A (a d : set1 A),
  (kind1 a = kind1 d /\ size1 a = size1 d) <-> exists s, mk_bucket a d = Ok s.
Proof. exact @bucket_ok. Qed.
Print Assumptions C04_bucket_accepts.

Theorem C04_bucket_pixels : forall A (a d : set1 A) s la ld, mk_bucket a d = Ok s ->
  pixels1 a la -> pixels1 d ld -> pixels2 s (combine la ld).
Proof. exact @bucket_pixels. Qed.
Print Assumptions C04_bucket_pixels.

Theorem C04_bucket_angles : forall A (a d : set1 A) s la ld, mk_bucket a d = Ok s ->
  anglesof1 a la -> anglesof1 d ld -> anglesof2 s (combine la ld).
Proof. exact @bucket_angles. Qed.
Print Assumptions C04_bucket_angles.

Theorem C04_bucket_size : forall A T (a d : set1 A) s (la ld : list T), mk_bucket a d = Ok s ->
  Z.of_nat (length la) = size1 a -> Z.of_nat (length ld) = size1 d ->
  Z.of_nat (length (combine la ld)) = size2 s /\ kind2 s = kind1 a /\ kind2 s = kind1 d.
Proof. exact @bucket_size. Qed.
Print Assumptions C04_bucket_size.

Example C04_bucket_nonvacuous : exists a d s,
  mk_angles (Some [10; 20; 30]%nat) 3 = Ok a /\ d = mk_repeat 5%nat 3 /\ mk_bucket a d = Ok s /\
  anglesof2 s [(10,5); (20,5); (30,5)]%nat /\ size2 s = 3 /\ kind2 s = KAngle.
Proof.
  do 3 eexists. split; [reflexivity|]. split; [reflexivity|]. split; [reflexivity|].
  split; [exists 9%nat; vm_compute; reflexivity|]. split; reflexivity.
Qed.

(** The empty set is empty. *)
Theorem C04_empty : forall A, pixels2 (Empty : set2 A) [] /\ size2 (Empty : set2 A) = 0.
Proof. intros A; split; [exists 1%nat; reflexivity|reflexivity]. Qed.
Print Assumptions C04_empty.
