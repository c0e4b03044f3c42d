(** C05: multi-threaded rayTrace; C06: MPI rayTrace.
    [e] is the scene: requested outputs, number of spectral channels,
    resolution, mask, optional impact coordinates, and the physics of a pixel.
    A schedule is any list of thread numbers; an arrival order any list of
    worker numbers. *)
From Coq Require Import List ZArith Bool Lia.
From Verif Require Import Outcome CoordSetsModel CoordSetsSpec QuantityModel QuantitySpec QuantityProofs
  RayTraceModel RayTraceSpec RayTraceProofs RayTraceProofs2 RayTraceProofs3.
Import ListNotations.
Open Scope list_scope.
Open Scope Z_scope.

(** Under every schedule: no fault; tasks are handed out once each, in set order;
    the number of useful steps is bounded by a constant, reached exactly when all
    threads have returned; then the image is that of a sequential computation. *)
Theorem C05_threads : forall A V (e : env A V) p ncells s0 (m0 : mem V) l n,
  e_data e = Some p ->
  no_sharing p ncells (Z.of_nat (e_nb e)) -> ncells <= 2 ^ 63 ->
  tasks_of s0 l -> readable_at_end s0 -> Z.of_nat (length l) < W64 ->
  (forall t cell, In (t, cell) (placed e (palloc p) l) -> 0 <= cell < ncells) ->
  NoDup (map snd (placed e (palloc p) l)) ->
  (forall t ip, well_behaved (Z.of_nat (e_nb e)) (e_trace e t ip)) ->
  (0 < n)%nat ->
  exists bound, forall sched, exists st, texec e sched (tstart n s0 m0) = Ok st /\
    length (t_workers st) = n /\
    (exists rest, placed e (palloc p) l = t_hist st ++ rest) /\
    (moves e sched (tstart n s0 m0) <= bound)%nat /\
    (all_done st -> t_hist st = placed e (palloc p) l /\
       image e (fun _ v => v) p (Z.of_nat (e_nb e)) (placed e (palloc p) l) m0 (t_mem st)) /\
    (moves e sched (tstart n s0 m0) = bound -> all_done st).
Proof. exact @threads_main. Qed.
Print Assumptions C05_threads.

(** The result depends neither on the schedule nor on the number of threads. *)
Theorem C05_deterministic : forall A V (e : env A V) p ncells s0 (m0 : mem V) l n n' sched sched' st st',
  e_data e = Some p ->
  no_sharing p ncells (Z.of_nat (e_nb e)) -> ncells <= 2 ^ 63 ->
  tasks_of s0 l -> readable_at_end s0 -> Z.of_nat (length l) < W64 ->
  (forall t cell, In (t, cell) (placed e (palloc p) l) -> 0 <= cell < ncells) ->
  NoDup (map snd (placed e (palloc p) l)) ->
  (forall t ip, well_behaved (Z.of_nat (e_nb e)) (e_trace e t ip)) ->
  (0 < n)%nat -> (0 < n')%nat ->
  texec e sched (tstart n s0 m0) = Ok st -> all_done st ->
  texec e sched' (tstart n' s0 m0) = Ok st' -> all_done st' ->
  forall a, t_mem st a = t_mem st' a.
Proof.
  intros A V e p ncells s0 m0 l n n' sched sched' st st' Hd Hns Hnc Ht Hend Hlen Hc Hnd Hwb Hn Hn' E Hdone E' Hdone'.
  destruct (threads_main e p ncells s0 m0 l n Hd Hns Hnc Ht Hend Hlen Hc Hnd Hwb Hn) as [b H].
  destruct (threads_main e p ncells s0 m0 l n' Hd Hns Hnc Ht Hend Hlen Hc Hnd Hwb Hn') as [b' H'].
  destruct (H sched) as (x & Ex & _ & _ & _ & Hx & _). rewrite E in Ex. injection Ex as <-.
  destruct (H' sched') as (x & Ex & _ & _ & _ & Hx' & _). rewrite E' in Ex. injection Ex as <-.
  apply (image_det _ _ _ _ _ _ _ _ (proj2 (Hx Hdone)) (proj2 (Hx' Hdone'))).
Qed.
Print Assumptions C05_deterministic.

(** The case of the command line tool: any window and step of the image, the cube
    layout of C08, any number of threads. *)
Theorem C05_gyoto_cube : forall A V (e : env A V) z res ipct provided mi ma di mj ja dj (m0 : mem V) n,
  0 < res -> res * res < 2 ^ 31 -> e_npix e = res ->
  e_data e = Some (cube_layout z (Z.of_nat (e_nb e)) res ipct provided) ->
  1 <= mi -> mi <= ma -> ma <= res -> 0 < di < 2 ^ 32 ->
  1 <= mj -> mj <= ja -> ja <= res -> 0 < dj < 2 ^ 32 ->
  (forall t ip, well_behaved (Z.of_nat (e_nb e)) (e_trace e t ip)) -> (0 < n)%nat ->
  exists si sj bound, mk_range mi ma di = Ok si /\ mk_range mj ja dj = Ok sj /\
  forall sched, exists st, texec e sched (tstart n (mk_grid si sj) m0) = Ok st /\
    (moves e sched (tstart n (mk_grid si sj) m0) <= bound)%nat /\
    (moves e sched (tstart n (mk_grid si sj) m0) = bound -> all_done st) /\
    (all_done st ->
      let p := cube_layout z (Z.of_nat (e_nb e)) res ipct provided in
      let at_pixel i j q c := slot p ((j - 1) * res + (i - 1)) q c in
      (forall i j q c a, selected mi ma di i -> selected mj ja dj j -> 0 <= c < width (Z.of_nat (e_nb e)) q ->
         at_pixel i j q c = Some a ->
         t_mem st a = expected e (TPixel i j) (impacts e (TPixel i j) ((j - 1) * res + (i - 1))) q c) /\
      (forall a, (forall i j q c, selected mi ma di i -> selected mj ja dj j ->
                    0 <= c < width (Z.of_nat (e_nb e)) q -> at_pixel i j q c <> Some a) ->
         t_mem st a = m0 a)).
Proof. exact @gyoto_cube. Qed.
Print Assumptions C05_gyoto_cube.

(** A masked pixel gets the documented defaults, whatever the physics. *)
Theorem C05_masked : forall A V (e : env A V) i j ip q c, e_mask e i j = false ->
  expected e (TPixel i j) ip q c = match q with
    | EmissionTime | MinDistance | FirstDmin | ImpactCoords => e_dmax e
    | _ => e_zero e end.
Proof.
  intros A V e i j ip q c H. unfold expected, masked. rewrite H. destruct q; reflexivity.
Qed.
Print Assumptions C05_masked.

(** Non-vacuity: a 3x3 image, intensity and two channels of spectrum, pixel (2,1)
    masked, two threads. *)
Definition demo_trace (t : task unit) (ip : option (list Z)) : hprog Z :=
  match t with
  | TPixel i j => HWr Intensity 0 (10 * i + j) (HRd Intensity 0 (fun v => HWr Spectrum 1 (v + 100) HDone))
  | TAngle _ _ => HDone
  end.
Definition demo_z := Z.lor (qmask Intensity) (qmask Spectrum).
Definition demo_env : env unit Z :=
  mkEnv unit Z (Some (cube_layout demo_z 2 3 false false)) 2 3 0 999 (fun i j => negb ((i =? 2) && (j =? 1)))
    None demo_trace.

Example C05_nonvacuous :
  (e_data demo_env = Some (cube_layout demo_z (Z.of_nat (e_nb demo_env)) 3 false false)) /\
  (forall t ip, well_behaved (Z.of_nat (e_nb demo_env)) (e_trace demo_env t ip)) /\
  exists si sj st, mk_range 1 3 1 = Ok si /\ mk_range 1 2 1 = Ok sj /\
    texec demo_env (flat_map (fun _ => [1%nat; 0%nat; 0%nat]) (seq 0 200)) (tstart 2 (mk_grid si sj) (fun _ => -5)) = Ok st /\
    all_done st /\
    map (fun k => t_mem st (0%nat, k)) (map Z.of_nat (seq 0 27)) =
      [11; 0; 31; 12; 22; 32; -5; -5; -5;   0; 0; 0; 0; 0; 0; -5; -5; -5;
       111; 0; 131; 112; 122; 132; -5; -5; -5].
Proof.
  split; [reflexivity|]. split.
  { intros [i j|[] []] ip; cbn; [|exact I]. repeat split; lia. }
  do 3 eexists. split; [reflexivity|]. split; [reflexivity|]. split; [vm_compute; reflexivity|].
  split; [repeat constructor|vm_compute; reflexivity].
Qed.

(** A set of listed pixels is read one element past the end of its buffer before
    the loop notices that it is finished. *)
Theorem C05_end_read_refuted : exists (e : env unit Z) i j sched,
  mk_indices (Some [1; 2]) 2 = Ok i /\ mk_indices (Some [1]) 1 = Ok j /\
  e_data e = Some (cube_layout (qmask Intensity) 0 2 false false) /\
  tasks_of (mk_grid i j) [TPixel 1 1; TPixel 2 1] /\
  texec e sched (tstart 1 (mk_grid i j) (fun _ => 0)) = UB.
Proof.
  exists (mkEnv unit Z (Some (cube_layout (qmask Intensity) 0 2 false false)) 0 2 0 999 (fun _ _ => true) None (fun _ _ => HDone)).
  do 2 eexists. exists (repeat 0%nat 20). split; [reflexivity|]. split; [reflexivity|]. split; [reflexivity|].
  split; [exists 5%nat; reflexivity|vm_compute; reflexivity].
Qed.

(** The empty set makes the call fail. *)
Theorem C05_empty_refuted : forall A V (e : env A V) m n, (0 < n)%nat ->
  texec e [0; 0]%nat (tstart n Empty m) = Throw.
Proof. intros A V e m [|n] H; [lia|reflexivity]. Qed.

(** Asking for no output record at all is a null dereference. *)
Theorem C05_null_data_refuted : forall A V (e : env A V) s m n t, (0 < n)%nat ->
  e_data e = None -> valid2 s = true -> get_task s = Ok t -> texec e [0; 0]%nat (tstart n s m) = UB.
Proof.
  intros A V e s m [|n] t Hn Hd Hv Hg; [lia|]. cbn [texec tstart repeat tstep t_workers nth_error bind set_nth t_set].
  cbn. rewrite Hg. cbn. rewrite Hv, Hd. reflexivity.
Qed.

(** A set that was already iterated is not rewound: nothing is computed. *)
Theorem C05_not_rewound_refuted : exists (e : env unit Z) s l sched st,
  tasks_of s l /\ l <> [] /\ texec e sched (tstart 1 s (fun _ => 7)) = Ok st /\ all_done st /\
  forall sched' st', texec e sched' (tstart 1 (t_set st) (fun _ => 7)) = Ok st' ->
    t_hist st' = [] /\ forall a, t_mem st' a = 7.
Proof.
  exists (mkEnv unit Z (Some (cube_layout (qmask Intensity) 0 2 false false)) 0 2 0 999 (fun _ _ => true) None (fun _ _ => HDone)).
  exists (Grid (Range 1 2 1 2 1) (Range 1 1 1 1 1)), [TPixel 1 1; TPixel 2 1], (repeat 0%nat 20). eexists.
  split; [exists 5%nat; reflexivity|]. split; [discriminate|]. split; [vm_compute; reflexivity|].
  split; [repeat constructor|]. cbn [t_set]. 
  assert (G : forall sched' w st', texec (mkEnv unit Z (Some (cube_layout (qmask Intensity) 0 2 false false)) 0 2 0 999 (fun _ _ => true) None (fun _ _ => HDone))
     sched' (mkT (Grid (Range 1 2 1 2 1) (Range 1 1 1 1 2)) 0 (fun _ => 7) [w] []) = Ok st' -> (w = WStart \/ w = WIdle \/ w = WDone) ->
     t_hist st' = [] /\ forall a, t_mem st' a = 7).
  { induction sched' as [|k sched' IH]; intros w st' H Hw; [injection H as <-; auto|].
    destruct k as [|[|k]]; [|apply (IH w st'); assumption|apply (IH w st'); assumption].
    destruct Hw as [ -> | [ -> | -> ] ]; [apply (IH WIdle st')|apply (IH WDone st')|apply (IH WDone st')]; auto. }
  intros sched' st' H. apply (G sched' WStart st'); auto.
Qed.

(** Pixel numbers start at 1: pixel 0 is stored before the start of the buffer. *)
Theorem C05_pixel_zero_refuted : forall V (e : env unit V) p m cnt,
  e_data e = Some p -> palloc p = true -> 0 <= e_npix e < 2 ^ 31 ->
  exists st, tstep e 0 (mkT (Grid (Range 0 1 1 2 0) (Range 1 1 1 1 1)) cnt m [WIdle] []) = Ok st /\
    t_workers st = [WWork (TPixel 0 1) (W64 - 1) (pixel_prog e (advance p (-1)) (TPixel 0 1) (ipct_arg e (TPixel 0 1) (W64 - 1)))].
Proof.
  intros V e p m cnt Hd Ha Hn. eexists. cbn [tstep t_workers nth_error t_set get_task kind2 deref2 deref1 bind valid2 valid1].
  cbn. rewrite Hd. split; [reflexivity|]. cbn [t_workers set_nth cell_of]. rewrite Ha.
  unfold wrap. cbn. reflexivity.
Qed.

(** ** C06 *)

(** With at most one spectral quantity (see C06_message_refuted otherwise): under
    every order of arrival, no fault, each task sent once, each result stored at
    its place, at most [length l + n] messages and the loop ends exactly then. *)
Theorem C06_mpi_partial : forall A V (e : env A V) conv fresh p ncells s0 (m0 : mem V) l n,
  e_data e = Some p ->
  (length (filter (has (quantities_of p)) [Spectrum; StokesQ; StokesU; StokesV; BinSpectrum]) <= 1)%nat ->
  no_sharing p ncells (Z.of_nat (e_nb e)) -> ncells <= 2 ^ 63 ->
  tasks_of s0 l -> Z.of_nat (length l) < W64 ->
  (forall t cell, In (t, cell) (placed e (palloc p) l) -> 0 <= cell < ncells) ->
  NoDup (map snd (placed e (palloc p) l)) ->
  (forall t ip, well_behaved (Z.of_nat (e_nb e)) (e_trace e t ip)) ->
  (0 < n)%nat ->
  forall arrivals, exists st, mexec e conv fresh arrivals (mstart n s0 m0) = Ok st /\
    length (m_procs st) = n /\
    (exists rest, placed e (palloc p) l = m_hist st ++ rest) /\
    (received e conv fresh arrivals (mstart n s0 m0) <= length l + n)%nat /\
    (m_working st = 0 -> Forall (eq PStopped) (m_procs st) /\ m_hist st = placed e (palloc p) l /\
       image e conv p (Z.of_nat (e_nb e)) (placed e (palloc p) l) m0 (m_mem st)) /\
    (m_working st <> 0 -> exists w, pending w st = true) /\
    (received e conv fresh arrivals (mstart n s0 m0) = (length l + n)%nat -> m_working st = 0).
Proof. exact @mpi_main. Qed.
Print Assumptions C06_mpi_partial.

(** Without unit conversion, the processes compute the image of the threads. *)
Theorem C06_same_as_threads_partial : forall A V (e : env A V) fresh p ncells s0 (m0 : mem V) l n n' sched arrivals st st',
  e_data e = Some p ->
  (length (filter (has (quantities_of p)) [Spectrum; StokesQ; StokesU; StokesV; BinSpectrum]) <= 1)%nat ->
  no_sharing p ncells (Z.of_nat (e_nb e)) -> ncells <= 2 ^ 63 ->
  tasks_of s0 l -> readable_at_end s0 -> Z.of_nat (length l) < W64 ->
  (forall t cell, In (t, cell) (placed e (palloc p) l) -> 0 <= cell < ncells) ->
  NoDup (map snd (placed e (palloc p) l)) ->
  (forall t ip, well_behaved (Z.of_nat (e_nb e)) (e_trace e t ip)) ->
  (0 < n)%nat -> (0 < n')%nat ->
  texec e sched (tstart n s0 m0) = Ok st -> all_done st ->
  mexec e (fun _ v => v) fresh arrivals (mstart n' s0 m0) = Ok st' -> m_working st' = 0 ->
  forall a, t_mem st a = m_mem st' a.
Proof.
  intros A V e fresh p ncells s0 m0 l n n' sched arr st st' Hd Hsp Hns Hnc Ht Hend Hlen Hc Hnd Hwb Hn Hn' E Hdone E' Hz.
  destruct (threads_main e p ncells s0 m0 l n Hd Hns Hnc Ht Hend Hlen Hc Hnd Hwb Hn) as [b H].
  destruct (H sched) as (x & Ex & _ & _ & _ & Hx & _). rewrite E in Ex. injection Ex as <-.
  destruct (mpi_main e (fun _ v => v) fresh p ncells s0 m0 l n' Hd Hsp Hns Hnc Ht Hlen Hc Hnd Hwb Hn' arr) as (x & Ex & _ & _ & _ & Hx' & _).
  rewrite E' in Ex. injection Ex as <-. destruct (Hx' Hz) as (_ & _ & Him).
  apply (image_det _ _ _ _ _ _ _ _ (proj2 (Hx Hdone)) Him).
Qed.
Print Assumptions C06_same_as_threads_partial.

Example C06_nonvacuous :
  (length (filter (has (quantities_of (cube_layout demo_z 2 3 false false))) [Spectrum; StokesQ; StokesU; StokesV; BinSpectrum]) <= 1)%nat /\
  exists si sj st, mk_range 1 3 1 = Ok si /\ mk_range 1 2 1 = Ok sj /\
    mexec demo_env (fun q v => match q with Intensity => 2 * v | _ => v end) (fun _ => 77)
      [1; 0; 1; 1; 2; 0; 1; 2; 0]%nat (mstart 3 (mk_grid si sj) (fun _ => -5)) = Ok st /\
    m_working st = 0 /\
    map (fun k => m_mem st (0%nat, k)) (map Z.of_nat (seq 0 27)) =
      [22; 0; 62; 24; 44; 64; -5; -5; -5;   0; 0; 0; 0; 0; 0; -5; -5; -5;
       111; 0; 131; 112; 122; 132; -5; -5; -5].
Proof.
  split; [vm_compute; lia|].
  do 3 eexists. split; [reflexivity|]. split; [reflexivity|]. split; [vm_compute; reflexivity|].
  split; vm_compute; reflexivity.
Qed.

(** With two spectral quantities the delivered values are wrong. *)
Theorem C06_two_spectra_refuted : exists (e : env unit Z) p s arrivals st a,
  e_data e = Some p /\ no_sharing p 1 2 /\ tasks_of s [TPixel 1 1] /\
  mexec e (fun _ v => v) (fun _ => 0) arrivals (mstart 1 s (fun _ => 0)) = Ok st /\ m_working st = 0 /\
  slot p 0 Spectrum 1 = Some a /\
  m_mem st a <> expected e (TPixel 1 1) None Spectrum 1.
Proof.
  exists (mkEnv unit Z (Some (cube_layout (Z.lor (qmask Spectrum) (qmask StokesQ)) 2 1 false false)) 2 1 0 999 (fun _ _ => true) None
    (fun _ _ => HWr Spectrum 0 1 (HWr Spectrum 1 2 (HWr StokesQ 0 3 (HWr StokesQ 1 4 HDone))))).
  eexists. exists (Grid (Range 1 1 1 1 1) (Range 1 1 1 1 1)), [0; 0]%nat. eexists. eexists.
  split; [reflexivity|]. split; [apply (cube_no_sharing_ns _ 2 1); lia|]. split; [exists 3%nat; reflexivity|].
  split; [vm_compute; reflexivity|]. split; [reflexivity|]. split; [reflexivity|]. vm_compute. discriminate.
Qed.

(** A team without workers returns at once, having computed nothing. *)
Theorem C06_no_worker_refuted : forall A V (e : env A V) conv fresh s m arrivals,
  mexec e conv fresh arrivals (mstart 0 s m) = Ok (mstart 0 s m).
Proof. induction arrivals as [|w arr IH]; cbn; [reflexivity|exact IH]. Qed.
Print Assumptions C06_no_worker_refuted.
