(** What is expected of the tables of an atmosphere, for PropertiesAtmo.v. *)
From Coq Require Import Reals List Arith.
From Verif Require Import AtmoModel.
Import ListNotations.

(** A table, if there, has [n] numbers *)
Definition sized (n : nat) (t : option (list R)) : Prop := match t with Some l => List.length l = n | None => True end.
(** Every table has the number of rows that the object says: what the emission relies on *)
Definition fits (s : atmo) : Prop :=
  sized (a_nnu s * a_ni s * a_nsg s) (a_emission s) /\ sized (a_nnu s) (a_freq s) /\ sized (a_ni s) (a_cosi s) /\ sized (a_nsg s) (a_grav s).
(** What the caller and the file give is as long as they say *)
Definition honest (o : at_op) : Prop :=
  match o with
  | AIntensity (Some (l, nn, ni, ng)) => List.length l = nn * ni * ng
  | AFile _ (Some f) => sized (f_nnu f * f_ni f * f_nsg f) (f_emission f)
  | _ => True
  end.
(** A file that is complete: its three axes have the sizes of its image *)
Definition complete (f : file) (e q c g : list R) : Prop :=
  f_emission f = Some e /\ f_freq f = Numbers q /\ f_cosi f = Numbers c /\ f_grav f = Numbers g /\
  List.length e = f_nnu f * f_ni f * f_nsg f /\ List.length q = f_nnu f /\ List.length c = f_ni f /\ List.length g = f_nsg f.
(** No file was met that could not be read to its end *)
Fixpoint files_fine (s : atmo) (l : list at_op) : Prop :=
  match l with [] => True | o :: l => (match o with AFile _ _ => snd (at_do s o) = true | _ => True end) /\ files_fine (fst (at_do s o)) l end.
Definition tables (s : atmo) := (a_emission s, a_freq s, a_cosi s, a_grav s, (a_nnu s, a_ni s, a_nsg s)).
