(** One pixel of an image, ray-traced with a photon that served before: lib/Scenery.C:704-800
    with updatePhoton (317-323), Worldline::setInitCoord and reInit (lib/Worldline.C:413-447,
    499-517), IntegState init (lib/WorldlineIntegState.C:62-79, 199-246), the resetting of the
    transmissions (lib/Photon.C:191-212), Photon::hit (283-1092) and Properties::init
    (lib/Astrobj.C:1944-1963).  No proofs here.

    The question is what is left in the photon by earlier rays, so every member that a ray
    leaves behind is here: the arrays of the worldline with whatever they hold, the capacity,
    the indices, the step, the transmissions, the constants of motion, the integrator.

    Simplifications.  The metric, the object and the integrator's arithmetic are arbitrary
    functions ([world]) of the settings of the photon and of what the code gives them; Impact
    sees the stored points from imin_ to imax_ and the transmissions of existing channels
    (getCoord and getTransmission refuse the rest: WorldlineModel, TransmissionModel).  An
    object that remembers earlier calls is not described.  The bookkeeping of image orders is
    an arbitrary function of what it reads (TraceModel has it in detail).  The scan of the
    points already computed (Photon.C:323-363) finds none, since setInitCoord was just called:
    only its first index is modelled. *)
From Coq Require Import Reals List Bool Arith.
From Verif Require Import Outcome Mat4 RayNumModel.
Import ListNotations.
Open Scope R_scope.

(** tau and coord[0..15] *)
Record cell := mkCell { c_tau : R; c_x : nat -> R }.
(** x_size_, imin_, i0_, imax_ and the arrays *)
Record line := mkLine { l_size : nat; l_imin : nat; l_i0 : nat; l_imax : nat; l_arr : nat -> cell }.
(** transmission_freqobs_, transmission_, transmissionMatrix_, transmissionMatrix_freqobs_ *)
Record lamp := mkLamp { f_obs : R; f_chan : nat -> R; f_mat : nat -> mat; f_matobs : mat }.

(** The members of Astrobj::Properties that belong to the pixel; [None]: not requested. *)
Record pdata := mkD { d_int : option R; d_time : option R; d_dist : option R; d_dmin : option (R * bool); d_red : option R; d_nbc : option R;
  d_spec : option (list R); d_Q : option (list R); d_U : option (list R); d_V : option (list R); d_bin : option (list R);
  d_imp : option (list R); d_u1 : option R; d_u2 : option R; d_u3 : option R; d_u4 : option R; d_u5 : option R }.
Definition put {A B} (o : option A) (b : B) : option B := match o with Some _ => Some b | None => None end.
(** Properties::init, Astrobj.C:1944-1963; [big] is DBL_MAX *)
Definition d_init (big : R) (n : nat) (d : pdata) : pdata :=
  let z := repeat 0 n in
  mkD (put (d_int d) 0) (put (d_time d) big) (put (d_dist d) big) (put (d_dmin d) (big, false)) (put (d_red d) 0) (put (d_nbc d) 0)
      (put (d_spec d) z) (put (d_Q d) z) (put (d_U d) z) (put (d_V d) z) (put (d_bin d) z)
      (put (d_imp d) (repeat big 16)) (put (d_u1 d) 0) (put (d_u2 d) 0) (put (d_u3 d) 0) (put (d_u4 d) 0) (put (d_u5 d) 0).

(** A call of transmit: Photon.C:1213-1234 *)
Inductive top := TObs (t : R) | TChan (i : nat) (t : R) | TMat (i : nat) (m : mat) | TMatObs (m : mat).

Section Pix.
  Variables (X Mem Conf Cst Trk : Type).
  (** What the user sets: the spectrometer (its number of channels), the observed frequency,
      parallelTransport, tmin, maxiter, secondary, and the rest: metric, object, tolerances,
      the kind of integrator. *)
  Record par := mkPar { a_spr : option nat; a_freq : R; a_polar : bool; a_tmin : R; a_maxiter : nat; a_secondary : bool; a_rest : X }.
  (** The integrator: integ_31_; adaptive_, parallel_transport_, check_basis_, gg_; delta_; norm_;
      normref_; the state of the stepper, or coord_ of Legacy. *)
  Record integ := mkI { n_31 : bool; n_conf : Conf; n_delta : R; n_norm : R; n_ref : R; n_mem : Mem }.
  (** What steps change of it: delta_, norm_, normref_ and the stepper. *)
  Definition motion := (R * R * R * Mem)%type.
  Definition moved (n : integ) (m : motion) : integ := let '(h, a, b, k) := m in mkI (n_31 n) (n_conf n) h a b k.
  Record photon := mkP { q_par : par; q_line : line; q_delta : R; q_cross : nat; q_lamp : lamp; q_integ : integ; q_cst : Cst; q_stop : bool }.
  Definition set_line l p := mkP (q_par p) l (q_delta p) (q_cross p) (q_lamp p) (q_integ p) (q_cst p) (q_stop p).
  Definition set_lamp l p := mkP (q_par p) (q_line p) (q_delta p) (q_cross p) l (q_integ p) (q_cst p) (q_stop p).
  Definition set_integ n p := mkP (q_par p) (q_line p) (q_delta p) (q_cross p) (q_lamp p) n (q_cst p) (q_stop p).
  Definition set_cst k p := mkP (q_par p) (q_line p) (q_delta p) (q_cross p) (q_lamp p) (q_integ p) k (q_stop p).
  Definition set_stop b p := mkP (q_par p) (q_line p) (q_delta p) (q_cross p) (q_lamp p) (q_integ p) (q_cst p) b.
  Definition set_delta h p := mkP (q_par p) (q_line p) h (q_cross p) (q_lamp p) (q_integ p) (q_cst p) (q_stop p).
  Definition set_cross n p := mkP (q_par p) (q_line p) (q_delta p) n (q_lamp p) (q_integ p) (q_cst p) (q_stop p).
  Definition set_par a p := mkP a (q_line p) (q_delta p) (q_cross p) (q_lamp p) (q_integ p) (q_cst p) (q_stop p).

  (** transmission_freqobs_, and the transmissions of the existing channels *)
  Definition light := (R * list R * list mat)%type.
  Record world := mkW {
    w_big : R;                                       (* DBL_MAX *)
    w_kind : par -> coordkind;                       (* metric_->coordKind() *)
    w_conf : par -> Conf;                            (* what Generic::init reads of the line *)
    w_reset : par -> bool -> Mem -> Mem;                     (* init(): setup_stepper, or nothing *)
    w_start : par -> bool -> cell -> Mem;                    (* init(line, coord, delta): a new stepper, or coord_ = coord *)
    w_norm : par -> cell -> R;                       (* gg_->norm *)
    w_consts : par -> bool;                          (* setParticleProperties stores constants *)
    w_props : par -> cell -> Cst;
    w_next : par -> option Cst -> integ -> cell -> motion * option (cell * bool);   (* deltaMax, nextStep *)
    w_halts : par -> cell -> bool;                   (* isStopCondition, or coord[1] is not a number *)
    w_shadow : par -> bool;                          (* object_->showshadow() *)
    w_rmax : par -> R;
    w_impact : par -> option Cst -> integ -> list cell -> nat -> light -> nat -> option pdata -> motion * list top * option pdata * option (bool * bool);
                                                     (* Impact: returned value and stopcond, [None] if it throws *)
    w_trk : Trk;                                     (* Photon.C:440-470 *)
    w_track : par -> cell -> cell -> cell -> Trk -> nat -> option pdata -> Trk * nat * option pdata * option bool;
                                                     (* 733-1083: throws, or whether to return 0 *)
    w_process : par -> cell -> list R -> R * list R -> option pdata -> list top * option pdata * bool  (* processHitQuantities without parallel transport: the matrices are not read *)
  }.
  Variable w : world.

  (** ** Transmissions *)
  Definition chans (a : par) : nat := match a_spr a with Some n => n | None => O end.
  (** resetTransmission, Photon.C:191-197 *)
  Definition reset_chan (a : par) (l : lamp) : lamp :=
    mkLamp 1 (fun i => if Nat.ltb i (chans a) then 1 else f_chan l i) (f_mat l) (f_matobs l).
  (** resetTransmissionMatrix, 199-212; the array is null without channels (177-189) *)
  Definition reset_mat (a : par) (l : lamp) : lamp :=
    if Nat.eqb (chans a) 0 then l
    else mkLamp (f_obs l) (f_chan l) (fun i => if Nat.ltb i (chans a) then mid else f_mat l i) mid.
  Definition seen (a : par) (l : lamp) : light := (f_obs l, map (f_chan l) (seq 0 (chans a)), map (f_mat l) (seq 0 (chans a))).
  (** transmit, 1213-1234: an index that is not a channel is refused *)
  Definition transmit (a : par) (t : top) (l : lamp) : option lamp :=
    match t with
    | TObs x => Some (mkLamp (f_obs l * x) (f_chan l) (f_mat l) (f_matobs l))
    | TChan i x => if Nat.ltb i (chans a) then Some (mkLamp (f_obs l) (fun j => if Nat.eqb j i then f_chan l j * x else f_chan l j) (f_mat l) (f_matobs l)) else None
    | TMat i m => if Nat.ltb i (chans a) then Some (mkLamp (f_obs l) (f_chan l) (fun j => if Nat.eqb j i then mmul (f_mat l j) m else f_mat l j) (f_matobs l)) else None
    | TMatObs m => Some (mkLamp (f_obs l) (f_chan l) (f_mat l) (mmul (f_matobs l) m))
    end.
  (** Several calls; the second result tells that one was refused. *)
  Fixpoint transmits (a : par) (ts : list top) (l : lamp) : lamp * bool :=
    match ts with
    | [] => (l, false)
    | t :: ts => match transmit a t l with Some l => transmits a ts l | None => (l, true) end
    end.
  (** getTransmissionMax, 1186-1210 *)
  Definition maxof (l : list R) : R := fold_left (fun m x => if Rltb m x then x else m) l 0.
  Definition brightest (a : par) (s : light) : R :=
    let '(o, c, m) := s in
    match a_spr a with None => o | Some _ => if a_polar a then maxof (map (fun m => m 0%nat 0%nat) m) else maxof c end.

  (** ** Arrays *)
  Definition rd (l : line) (i : nat) : outcome cell := if Nat.ltb i (l_size l) then Ok (l_arr l i) else UB.
  (** xStore, Worldline.C:520-541 *)
  Definition wr (l : line) (i : nat) (c : cell) : outcome line :=
    if Nat.ltb i (l_size l) then Ok (mkLine (l_size l) (l_imin l) (l_i0 l) (l_imax l) (fun j => if Nat.eqb j i then c else l_arr l j)) else UB.
  (** xExpand, 248-312: the new memory holds anything, here what was there *)
  Definition expand (back : bool) (l : line) : line * nat :=
    let off := if back then l_size l else O in
    (mkLine (2 * l_size l) (l_imin l + off) (l_i0 l + off) (l_imax l + off)
            (fun j => if Nat.leb (l_imin l + off) j && Nat.leb j (l_imax l + off) then l_arr l (j - off) else l_arr l j),
     if back then l_size l else l_size l - 1)%nat.
  (** What Impact(this, ind, data) can see: the stored points, and where [ind] is among them. *)
  Definition view (l : line) : list cell := map (l_arr l) (seq (l_imin l) (S (l_imax l) - l_imin l)).

  (** ** Setting up a ray *)
  (** IntegState::Generic::init(), WorldlineIntegState.C:62-69, and Boost::init(), 199-237 *)
  Definition integ_init (a : par) (n : integ) : integ := mkI (n_31 n) (w_conf w a) (n_delta n) (n_norm n) (n_ref n) (w_reset w a (n_31 n) (n_mem n)).
  (** init(line, coord, delta), 70-79, 240-246, 129-140 *)
  Definition integ_start (a : par) (c : cell) (h : R) (n : integ) : integ :=
    mkI (n_31 n) (w_conf w a) h (w_norm w a c) (w_norm w a c) (w_start w a (n_31 n) c).
  Definition set_x (c : cell) (i : nat) (v : R) : cell := mkCell (c_tau c) (fun j => if Nat.eqb j i then v else c_x c j).
  (** reInit, Worldline.C:500-517: a particle is kicked off the z axis *)
  Definition kicked (a : par) (c : cell) : cell :=
    match w_kind w a with Spherical => if Reqb (c_x c 2) 0 then set_x c 2 (/ 10 ^ 10) else c | _ => c end.
  (** setInitCoord(coord, 0, Ephi, Etheta), 413-447; getMass() is 0.  Without parallel transport
      the arrays of the basis do not exist and [x 8], ... are not read by anything. *)
  Definition setup (x : nat -> R) (p : photon) : outcome photon :=
    let a := q_par p in let l := q_line p in
    let i := if Nat.eqb (l_i0 l) 0 && Nat.eqb (l_imin l) 1 && Nat.eqb (l_imax l) 0 then (l_size l - 1)%nat else l_i0 l in
    let x := if a_polar a then x else fun k => if Nat.ltb k 8 then x k else 0 in
    bind (wr (mkLine (l_size l) i i i (l_arr l)) i (kicked a (mkCell 0 x))) (fun l =>
    Ok (set_integ (integ_init a (q_integ p))
       (set_cst (if w_consts w a then w_props w a (kicked a (mkCell 0 x)) else q_cst p) (set_line l p)))).

  (** ** Photon::hit *)
  Definition consts (p : photon) : option Cst := if w_consts w (q_par p) then Some (q_cst p) else None.
  Definition radius (a : par) (c : cell) : option R :=
    match w_kind w a with
    | Spherical => Some (c_x c 1)
    | Cartesian => Some (sqrt (c_x c 1 * c_x c 1 + c_x c 2 * c_x c 2 + c_x c 3 * c_x c 3))
    | Unspecified => None
    end.
  Definition height (c : cell) : R := c_x c 1 * cos (c_x c 2).
  Definition with_spec (d : pdata) (s : option (list R)) : pdata :=
    mkD (d_int d) (d_time d) (d_dist d) (d_dmin d) (d_red d) (d_nbc d) s (d_Q d) (d_U d) (d_V d) (d_bin d) (d_imp d) (d_u1 d) (d_u2 d) (d_u3 d) (d_u4 d) (d_u5 d).
  Definition with_imp (d : pdata) (s : option (list R)) : pdata :=
    mkD (d_int d) (d_time d) (d_dist d) (d_dmin d) (d_red d) (d_nbc d) (d_spec d) (d_Q d) (d_U d) (d_V d) (d_bin d) s (d_u1 d) (d_u2 d) (d_u3 d) (d_u4 d) (d_u5 d).
  (** 598-612 *)
  Definition shaded (a : par) (d : option pdata) : option pdata :=
    if w_shadow w a then option_map (fun d => with_spec d (put (d_spec d) (repeat (10 ^ 10) (chans a)))) d else d.
  (** 708-711 *)
  Definition left_with (c : cell) (d : option pdata) : option pdata :=
    option_map (fun d => with_imp d match d_imp d with
      | Some l => if Reqb (nth 0 l 0) (w_big w) then Some (repeat (w_big w) 8 ++ map (c_x c) (seq 0 8)) else Some l
      | None => None end) d.

  (** The result of a call: the photon as it is left, the record, and [Throw] or the value. *)
  Definition res := (photon * option pdata * outcome bool)%type.

  (** 677-714: Impact; the photon, the record, hitt, stopcond and whether the loop is left.
      processHitQuantities, and the steps on request in getCoord, may set stopcond too. *)
  Definition meet (back : bool) (c : cell) (r rprev : R) (hitt : bool) (p : photon) (d : option pdata)
    : photon * option pdata * outcome (bool * bool * bool) :=
    let a := q_par p in
    if Rltb r (w_rmax w a) then
      let '(n, ts, d, o) := w_impact w a (consts p) (q_integ p) (view (q_line p))
                             (if back then O else (l_imax (q_line p) - l_imin (q_line p))%nat) (seen a (q_lamp p)) (q_cross p) d in
      let (l, refused) := transmits a ts (q_lamp p) in
      let p := set_lamp l (set_integ (moved (q_integ p) n) p) in
      if refused then (p, d, Throw) else
      match o with
      | None => (p, d, Throw)
      | Some (h, stop) =>
          let hitt := hitt || h in
          let stop := stop || (hitt && match d with None => true | Some _ => false end) || Rltb (brightest a (seen a (q_lamp p))) (/ 10 ^ 6) in
          (set_stop stop p, d, Ok (hitt, stop, false))
      end
    else if Rltb rprev r then (set_stop true p, left_with c d, Ok (hitt, true, true))
    else (p, d, Ok (hitt, false, false)).

  (** The loop of 577-1086; [n] is maxiter_ minus count. *)
  Fixpoint loop (n : nat) (back : bool) (p : photon) (ind : nat) (c : cell) (tk : Trk) (hitt : bool) (rprev : R) (d : option pdata) : res :=
    let a := q_par p in
    let (i, s) := w_next w a (consts p) (q_integ p) c in
    let p := set_integ (moved (q_integ p) i) p in
    match s with
    | None => (p, d, Throw)
    | Some (c, stop) =>
        let p := set_stop stop p in
        match rd (q_line p) (l_i0 (q_line p)), rd (q_line p) ind with
        | Ok c0, Ok cp =>
            if negb (a_secondary a) && Rltb (height c * height c0) 0 && Rltb (height cp * height c0) 0 then (p, d, Ok false)
            else if stop then (p, shaded a d, Ok hitt)
            else if Reqb (c_x c 0) (c_x cp 0) || w_halts w a c then (set_stop true p, d, Ok hitt)
            else match n with
            | O => (set_stop true p, d, Ok hitt)
            | S n =>
                match (if back then match ind with O => UB | S i => Ok i end else Ok (S ind)) with
                | Ok ind =>
                    match wr (q_line p) ind c with
                    | Ok l =>
                        let l := if back then mkLine (l_size l) (l_imin l - 1) (l_i0 l) (l_imax l) (l_arr l)
                                 else mkLine (l_size l) (l_imin l) (l_i0 l) (S (l_imax l)) (l_arr l) in
                        let p := set_line l p in
                        if negb (Nat.eqb (l_imin l) ind) && negb (Nat.eqb (l_imax l) ind) then (p, d, Throw) else
                        match radius a c with
                        | None => (p, d, Throw)
                        | Some r =>
                            let '(p, d, m) := meet back c r rprev hitt p d in
                            match m with
                            | Ok (hitt, stop, leave) =>
                                if leave then (p, d, Ok hitt) else
                                let stop := stop || (if back then Rltb (c_x c 0) (a_tmin a) else Rltb (a_tmin a) (c_x c 0)) in
                                let (l, ind) := if negb stop && (if back then Nat.eqb (l_imin (q_line p)) 0 else Nat.eqb ind (l_size (q_line p)))
                                                then expand back (q_line p) else (q_line p, ind) in
                                let p := set_line l (set_stop stop p) in
                                let '(tk, cross, d, o) := w_track w a c0 cp c tk (q_cross p) d in
                                let p := set_cross cross p in
                                match o with
                                | None => (p, d, Throw)
                                | Some true => (p, d, Ok false)
                                | Some false => if stop then (p, d, Ok hitt) else loop n back p ind c tk hitt r d
                                end
                            | Throw => (p, d, Throw) | UB => (p, d, UB)
                            end
                        end
                    | _ => (p, d, UB)
                    end
                | _ => (p, d, UB)
                end
            end
        | _, _ => (p, d, UB)
        end
    end.
  (** Photon::hit(data) on a photon that was just set up: imin_ == imax_ == i0_.  With i0_ == 0
      the first index of the scan backwards, i0_+dir, is above everything: x0_[ind] is read
      outside the array (323-327). *)
  Definition hit (p : photon) (d : option pdata) : res :=
    let a := q_par p in
    let p := set_lamp (reset_mat a (reset_chan a (q_lamp p))) p in
    match rd (q_line p) (l_i0 (q_line p)) with
    | Ok c0 =>
        match radius a c0 with
        | None => (p, d, Throw)
        | Some _ =>
            let back := negb (Rltb (c_x c0 0) (a_tmin a)) in
            if back && Nat.eqb (l_i0 (q_line p)) 0 then (p, d, UB) else
            let p := set_integ (integ_start a c0 (q_delta p * (if back then -1 else 1)) (q_integ p)) (set_stop false p) in
            loop (a_maxiter a) back p (l_i0 (q_line p)) c0 (w_trk w) false (w_big w) d
        end
    | _ => (p, d, UB)
    end.

  (** ** Scenery *)
  (** A pixel (i, j) or a direction (alpha, delta): whether the mask lets it through, and the ray
      of getRayTriad, position, momentum, Ephi, Etheta. *)
  Record pix := mkPix { g_open : bool; g_ray : nat -> R }.
  (** delta_, ph_.parallelTransport(), the spectrometer and the frequency of the screen *)
  Record scene := mkS { s_delta : R; s_polar : bool; s_spr : option nat; s_freq : R }.
  (** updatePhoton, 317-323.  Simplification: spectrometer(), Photon.C:233-237, also allocates the
      transmissions anew; here they stay what they are. *)
  Definition update (s : scene) (p : photon) : photon :=
    let a := q_par p in
    set_par (mkPar (s_spr s) (s_freq s) (a_polar a) (a_tmin a) (a_maxiter a) (a_secondary a) (a_rest a)) (set_delta (s_delta s) p).

  (** operator()(i, j, data, impactcoords, ph), 704-767.  [cached]: no photon was passed and [p] is
      the photon of the scenery.  [junk]: what the arrays Ephi and Etheta hold when they are not
      computed.  operator()(a, d, data, ph), 769-800, is the same with an open pixel and no
      impactcoords. *)
  Definition pixel (junk : nat -> R) (s : scene) (cached : bool) (g : pix) (ic : option (list R)) (p : photon) (d : option pdata) : res :=
    let d := option_map (d_init (w_big w) (match s_spr s with Some n => n | None => O end)) d in
    if negb (g_open g) then (p, d, Ok false) else
    let p := if cached then update s p else p in
    let p := set_cross 0 (set_delta (s_delta s) p) in
    let a := q_par p in
    match ic with
    | Some ic =>
        if a_polar a then (p, d, Throw) else
        if Reqb (nth 0 ic 0) (w_big w) then (p, d, Ok false) else
        match setup (fun k => nth (8 + k) ic 0) p with
        | Ok p =>
            let p := set_lamp (reset_chan a (q_lamp p)) p in
            match rd (q_line p) (l_i0 (q_line p)) with
            | Ok c0 =>
                let '(ts, d, ok) := w_process w a c0 ic (fst (seen a (q_lamp p))) d in
                let (l, refused) := transmits a ts (q_lamp p) in
                (set_lamp l p, d, if ok && negb refused then Ok false else Throw)
            | _ => (p, d, UB)
            end
        | Throw => (p, d, Throw) | UB => (p, d, UB)
        end
    | None =>
        let x := fun k => if Nat.ltb k 8 || s_polar s then g_ray g k else junk k in
        match setup x p with Ok p => hit p d | Throw => (p, d, Throw) | UB => (p, d, UB) end
    end.

  (** ** Photons *)
  (** Photon::Photon(), Photon.C:59-67, Worldline::Worldline, Worldline.C:41-63: what the memory
      holds is arbitrary *)
  Definition unused (l : line) : Prop := l_i0 l = 0%nat /\ l_imin l = 1%nat /\ l_imax l = 0%nat /\ (2 <= l_size l)%nat.
  (** The copy constructor, Photon.C:69-93 and Worldline.C:65-135: the new arrays hold [fresh]
      outside of the stored range, a new integrator is built, which has integ_31_ false
      (WorldlineIntegState.C:59-60), the transmissions are copied, but only the first matrix
      is (90). *)
  Definition clone (fresh : nat -> cell) (cf : Conf) (h n1 n2 : R) (m : Mem) (p : photon) : photon :=
    let l := q_line p in
    mkP (q_par p) (mkLine (l_size l) (l_imin l) (l_i0 l) (l_imax l)
                          (fun j => if Nat.leb (l_imin l) j && Nat.leb j (l_imax l) then l_arr l j else fresh j))
        (q_delta p) (q_cross p)
        (mkLamp (f_obs (q_lamp p)) (f_chan (q_lamp p)) (fun i => match i with O => f_mat (q_lamp p) 0%nat | S _ => mid end) (f_matobs (q_lamp p)))
        (mkI false cf h n1 n2 m) (q_cst p) (q_stop p).
End Pix.
