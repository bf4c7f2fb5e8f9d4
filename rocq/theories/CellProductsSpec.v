(** Specification vocabulary for the products of one cell. *)
From Coq Require Import List ZArith QArith Bool Permutation.
From Verif Require Import Base Traversal Glm Lut LutSpec Accum AccumSpec Poly PolySpec BBox BBoxSpec Slice SliceSpec Pipeline PipelineSpec ChunkSpec ReachSpec.
Import ListNotations.

(** The numbers that the five summed grids of a run hold for cell ([kx], [ky]). *)
Record products (g : grids) (kx ky : nat) (energy flashes groups flash_area group_area : Q) : Prop := {
  p_energy : is_num (g_at (gr_energy g) (Z.of_nat kx) (Z.of_nat ky)) energy;
  p_flashes : is_num (g_at (gr_fcount g) (Z.of_nat kx) (Z.of_nat ky)) flashes;
  p_groups : is_num (g_at (gr_gcount g) (Z.of_nat kx) (Z.of_nat ky)) groups;
  p_flash_area : is_num (g_at (gr_farea g) (Z.of_nat kx) (Z.of_nat ky)) flash_area;
  p_group_area : is_num (g_at (gr_garea g) (Z.of_nat kx) (Z.of_nat ky)) group_area }.
(** All values [v] of the rows of level [k] (0 flashes, 1 groups, 2 events) of the files
    are within the bounds. *)
Definition all_between (files : list (list (table obs))) (k : nat) (v : row obs -> fval) (lo hi : Q) : Prop :=
  forall ds r x, In ds files -> In r (nth k ds []) -> v r = Some x -> (lo <= x)%Q /\ (x <= hi)%Q.
(** All values [v] of the rows of level [k] of the files are above zero. *)
Definition all_above_zero (files : list (list (table obs))) (k : nat) (v : row obs -> fval) : Prop :=
  forall ds r x, In ds files -> In r (nth k ds []) -> v r = Some x -> (0 < x)%Q.
Definition area_of (r : row obs) : fval := o_area (rdat r).
Definition energy_of (r : row obs) : fval := o_energy (rdat r).
(** No pixel outline of the tables has size zero. *)
Definition solid (quad : fval -> fval -> poly) (tables : list (list lutrow)) : Prop :=
  forall r, In r (List.concat tables) -> ~ (size (quad (lu_x r) (lu_y r)) == 0)%Q.
(** The part of the outline of a table row that lies in a cell. *)
Definition part clip tree quad (xe ye : list Q) (kx ky : nat) (r : lutrow) : Q :=
  let m := regular_xy xe ye in let p := quad (lu_x r) (lu_y r) in size_in clip m p (nearby tree m p) (ky, kx).
(** [n] rows of level [k] were selected from a file. *)
Definition selected set_order (q : option query) (k : nat) (ds : list (table obs)) (n : nat) : Prop :=
  (nth_error ds 2 = Some [] /\ n = 0%nat) \/
  ((exists v E, nth_error ds 2 = Some (v :: E)) /\ exists sel, selection set_order ds q sel /\ n = List.length (nth k sel [])).
(** A run over readable files that ended and returned the grids [g]; at least one cell
    in each direction. *)
Record run set_order weird clip tree quad (xe ye : list Q) (chunk_size : nat) files q (g : grids) : Prop := {
  run_order : forall l, Permutation (set_order l) l;
  run_nx : (1 < List.length xe)%nat; run_ny : (1 < List.length ye)%nat;
  run_x : increasing xe; run_y : increasing ye; run_clip : proper clip;
  run_chunk : (0 < chunk_size)%nat; run_query : forall q', q = Some q' -> q_check q' = true;
  run_files : Forall usable files;
  run_done : grid_files set_order weird clip tree quad xe ye chunk_size files q = Ok g }.
