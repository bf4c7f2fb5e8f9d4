(** Specification vocabulary for files that differ in the numbers given to flashes, groups
    and events, in the order of the rows and in the unit of energy. *)
From Coq Require Import List ZArith QArith Bool Permutation.
From Verif Require Import Base Traversal Glm Lut LutSpec AccumSpec RowOrderSpec.
Import ListNotations.

(** Numbers in [ids] are given different numbers. *)
Definition one_to_one (f : Z -> Z) (ids : list Z) : Prop := forall a b, In a ids -> In b ids -> f a = f b -> a = b.
(** [k] times a value. *)
Definition times (k : Q) (v : fval) : fval := option_map (fun e => k * e)%Q v.
(** The same observation with the flash renumbered and the energy in another unit. *)
Definition other (ff : Z -> Z) (k : Q) (o : obs) : obs :=
  mkObs (o_lon o) (o_lat o) (times k (o_energy o)) (o_area o) (o_x o) (o_y o) (ff (o_flash o)) (o_nchild o) (o_nevent o).
(** The same flash, group and event under other numbers: [ff], [fg] and [fe] renumber
    flashes, groups and events. *)
Definition flash_as (ff : Z -> Z) (k : Q) (r : row obs) : row obs := mkRow (ff (rid r)) (rpid r) (other (fun i => i) k (rdat r)).
Definition group_as (ff fg : Z -> Z) (k : Q) (r : row obs) : row obs := mkRow (fg (rid r)) (ff (rpid r)) (other (fun i => i) k (rdat r)).
Definition event_as (ff fg fe : Z -> Z) (k : Q) (r : row obs) : row obs := mkRow (fe (rid r)) (fg (rpid r)) (other ff k (rdat r)).
(** [ds'] holds the lightning of [ds] under other numbers, in any order, with all energies
    multiplied by [k]. *)
Definition relabelled (k : Q) (ds ds' : list (table obs)) : Prop :=
  exists F G E F' G' E' ff fg fe, ds = [F; G; E] /\ ds' = [F'; G'; E'] /\
    one_to_one ff (map rid F) /\ one_to_one fg (map rid G) /\ one_to_one fe (map rid E) /\
    Permutation F' (map (flash_as ff k) F) /\ Permutation G' (map (group_as ff fg k) G) /\ Permutation E' (map (event_as ff fg fe k) E).
(** Rows of event lookup tables with the same pixel and the same numbers, energies
    multiplied by [k]. *)
Definition same_but_energy (k : Q) (r r' : lutrow) : Prop :=
  lu_id r = lu_id r' /\ feq (lu_x r) (lu_x r') /\ feq (lu_y r) (lu_y r') /\ feq (times k (lu_energy r)) (lu_energy r') /\
  lu_count r = lu_count r' /\ lu_fcount r = lu_fcount r' /\ lu_gcount r = lu_gcount r' /\
  feq (lu_farea r) (lu_farea r') /\ feq (lu_garea r) (lu_garea r') /\ feq (lu_minarea r) (lu_minarea r').
