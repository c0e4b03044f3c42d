(** Writing and reading shared objects in a scene file: lib/Factory.C:314-530 (readers),
    534-616, 637-655 (constructors), 677-728 (writers); lib/Object.C:368-375, 399-419;
    lib/Scenery.C:88-93; lib/Photon.C:55-57; lib/ComplexAstrobj.C:183-195.  No proofs here.

    Objects are numbers.  The document is the list of the shared elements in the order they
    are created, with the object and whether the parent element is the root.  Parameters
    that are not objects are left out. *)
From Coq Require Import List Bool Arith.
From Verif Require Import Outcome.
Import ListNotations.

Inductive cls := Metric | Astrobj | Screen.
Definition cls_eqb (a b : cls) : bool :=
  match a, b with Metric, Metric | Astrobj, Astrobj | Screen, Screen => true | _, _ => false end.

(** What the fillElement of an object writes, in order: references to a shared object
    (fmp->metric(...), fmp->astrobj(...), fmp->screen(...)) and children with their own
    element (makeChild), such as SubAstrobj or Spectrum. *)
Inductive item := Ref (c : cls) (o : option nat) | Inline (o : nat).

(** [memo]: gg_, obj_, screen_; [el]: whether gg_el_, obj_el_ is set; [doc]: the document;
    [done]: the objects whose fillElement has returned (history, not in the code). *)
Record wstate := mkW { memo : cls -> option nat; el : cls -> bool; doc : list (cls * nat * bool); done : list nat }.
Definition upd {A} (f : cls -> A) (c : cls) (a : A) : cls -> A := fun d => if cls_eqb d c then a else f d.

Section Write.
  Context (items : nat -> list item).

  (** The test before creating the element: gg_el_, obj_el_ not set (680, 697); for screens,
      screen_ not set (719). *)
  Definition missing (s : wstate) (c : cls) : bool :=
    match c with
    | Screen => match memo s c with None => true | Some _ => false end
    | _ => negb (el s c)
    end.

  Definition other (m : option nat) (o : nat) : bool := match m with Some x => negb (Nat.eqb x o) | None => false end.

  (** fillElement of object [o], whose element is the root if [root]; the metric, astrobj and
      screen writers, 677-728, are the case [Ref]. *)
  Fixpoint write (fuel : nat) (s : wstate) (o : nat) (root : bool) : outcome wstate :=
    match fuel with
    | O => UB
    | S fuel =>
        bind ((fix go (s : wstate) (l : list item) : outcome wstate :=
                match l with
                | [] => Ok s
                | Ref _ None :: l => go s l
                | Ref c (Some x) :: l =>
                    if other (memo s c) x then Throw
                    else if missing s c then
                      bind (write fuel (mkW (upd (memo s) c (Some x)) (upd (el s) c true) (doc s ++ [(c, x, root)]) (done s)) x false)
                           (fun s => go s l)
                    else go s l
                | Inline x :: l => bind (write fuel s x false) (fun s => go s l)
                end) s (items o))
             (fun s => Ok (mkW (memo s) (el s) (doc s) (o :: done s)))
    end.

  (** The constructors: what gg_, obj_, screen_ and the elements are before the object is
      filled.  [m] and [a]: the metric and the astrobj of the scenery, screen or photon. *)
  Inductive root := RScenery | RScreen | RMetric | RAstrobj | RPhoton.
  Definition init (k : root) (o : nat) (m a : option nat) : wstate :=
    match k with
    | RScenery | RPhoton => mkW (fun c => match c with Metric => m | Astrobj => a | Screen => None end) (fun _ => false) [] []
    | RScreen => mkW (fun c => match c with Metric => m | Astrobj => None | Screen => Some o end) (fun _ => false) [] []
    | RMetric => mkW (fun c => match c with Metric => Some o | _ => None end) (fun c => cls_eqb c Metric) [] []
    | RAstrobj => mkW (fun c => match c with Astrobj => Some o | _ => None end) (fun c => cls_eqb c Astrobj) [] []
    end.
  Definition write_file (fuel : nat) (k : root) (o : nat) (m a : option nat) : outcome wstate := write fuel (init k o m a) o true.
End Write.

(** Scenery::fillElement writes the metric, the screen and the astrobj, then its properties,
    which name them again; the properties of a photon are the astrobj, then the metric. *)
Definition scenery_items (m s a : option nat) : list item := [Ref Metric m; Ref Screen s; Ref Astrobj a; Ref Metric m; Ref Screen s; Ref Astrobj a].
Definition photon_items (m a : option nat) : list item := [Ref Astrobj a; Ref Metric m].

(** Reading. *)
Inductive rcls := GMetric | GScreen | GAstrobj | GPhoton | GScenery.
Definition rcls_eqb (a b : rcls) : bool :=
  match a, b with GMetric, GMetric | GScreen, GScreen | GAstrobj, GAstrobj | GPhoton, GPhoton | GScenery, GScenery => true | _, _ => false end.
(** [rmemo]: gg_, screen_, obj_, photon_, scenery_; [next]: next new object; [log]: all
    requests so far with their answers; [builds]: elements turned into objects. *)
Record rstate := mkR { rmemo : rcls -> option nat; next : nat; log : list (rcls * option nat); builds : list rcls }.
Definition rinit : rstate := mkR (fun _ => None) 0 [] [].

Section Read.
  (** [has c]: an element of this class is the root or a child of the root; [needs c]: what
      the constructor of this element asks the factory for, in order. *)
  Context (has : rcls -> bool) (needs : rcls -> list rcls).

  Definition answer (s : rstate) (c : rcls) (a : option nat) : rstate := mkR (rmemo s) (next s) ((c, a) :: log s) (builds s).
  (** metric(), astrobj(), photon(), scenery(), screen(), 314-415, 487-530 *)
  Fixpoint read (fuel : nat) (s : rstate) (c : rcls) : outcome (rstate * option nat) :=
    match fuel with
    | O => UB
    | S fuel =>
        match rmemo s c with
        | Some x => Ok (answer s c (Some x), Some x)
        | None =>
            if has c then
              bind ((fix go (s : rstate) (l : list rcls) : outcome rstate :=
                      match l with [] => Ok s | d :: l => bind (read fuel s d) (fun r => go (fst r) l) end) s (needs c))
                   (fun s => let s := mkR (fun d => if rcls_eqb d c then Some (next s) else rmemo s d) (S (next s)) (log s) (c :: builds s) in
                             Ok (answer s c (rmemo s c), rmemo s c))
            else Ok (answer s c None, None)
        end
    end.
  Fixpoint reads (fuel : nat) (s : rstate) (l : list rcls) : outcome rstate :=
    match l with [] => Ok s | c :: l => bind (read fuel s c) (fun r => reads fuel (fst r) l) end.
End Read.
