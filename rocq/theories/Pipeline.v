(** Model of the path of the data from opened files to the target grids
    (glmtools/io/mimic_lma.py 30-243, glmtools/grid/make_grids.py 366-574, 846-938),
    in the fixed grid, lookup table mode and for a single time frame. *)
From Coq Require Import List ZArith QArith Qabs Bool.
From Verif Require Import Base Traversal Glm Lut Accum Poly BBox Slice Regroup.
Import ListNotations.
Open Scope Z_scope.

Local Notation tbl := (table obs).

(** [np.array_split(l, n)]: the first [len(l) mod n] parts have one element more. *)
Fixpoint take_parts {A} (sizes : list nat) (l : list A) : list (list A) :=
  match sizes with [] => [] | n :: r => firstn n l :: take_parts r (skipn n l) end.
(** [np.array_split(l, n)] (mimic_lma.py 88), n > 0. *)
Definition array_split {A} (l : list A) (n : nat) : list (list A) :=
  let q := Nat.div (List.length l) n in
  let r := Nat.modulo (List.length l) n in
  take_parts (repeat (S q) r ++ repeat q (n - r)) l.
(** mimic_lma.py 86: the number of chunks, for chunk_size > 0. *)
Definition n_chunks (chunk_size n : nat) : nat := Nat.max (Nat.div n chunk_size) 1.

Section Pipeline.
Variable set_order : list Z -> list Z.
Variable weird : fval -> Z.
Variable clip : poly -> poly -> list poly.
Variable tree : Q * Q -> list (Z * Z).
(** The quadrilateral of the pixel at a position (quads_from_corner_lookup with the
    packaged table of corners, mimic_lma.py 167-179). *)
Variable quad : fval -> fval -> poly.
Variable m : mesh.

(** mimic_lma.py 115-212, up to the merged rows: fast_fixed_grid_read_chunk. *)
Definition chunk_weighted (ds : list tbl) : res (list weighted) :=
  L <- get_lutevents weird lut_scale lut_range lut_range ds ;;
  let event_polys := map (fun r => quad (lu_x r) (lu_y r)) L in
  sl <- slice clip tree m event_polys NoBox ;;
  let '(chopped_polys, poly_areas) := sl in
  rows <- split_event_data m chopped_polys poly_areas (map lu_id L) ;;
  replicate_and_weight_new L rows.
(** mimic_lma.py 115-243: the merged rows of a chunk. *)
Definition read_chunk (ds : list tbl) : res (list cellrow) := W <- chunk_weighted ds ;; regroup W.

(** mimic_lma.py 73-93: the datasets of the chunks.  [None] is the call without any
    selection. *)
Definition flash_chunks (chunk_size : nat) (ds : list tbl) (q : option query) : res (list (list tbl)) :=
  flash_data <- match q with None => Ok ds | Some q => subset_flashes set_order ds q end ;;
  match flash_data with
  | F :: _ =>
      let flash_ids := map rid F in
      let parts := array_split flash_ids (n_chunks chunk_size (List.length flash_ids)) in
      if Nat.eqb (List.length F) 0 then Ok [] else map_res (get_flashes ds) parts
  | [] => Err AttributeError
  end.
(** mimic_lma.py 95-113: one batch per chunk; a chunk without rows is not sent (229-230)
    but cannot occur, since merging raises for it. *)
Definition read_flashes (chunk_size : nat) (ds : list tbl) (q : option query) : res (list (list cellrow)) :=
  chunks <- flash_chunks chunk_size ds q ;; map_res read_chunk chunks.

(** make_grids.py 890-912: all files; those without events are skipped. *)
Definition read_files (chunk_size : nat) (files : list (list tbl)) (q : option query) : res (list (list cellrow)) :=
  bs <- map_res (fun ds => match nth_error ds 2 with
                           | Some [] => Ok []
                           | Some _ => read_flashes chunk_size ds q
                           | None => Err AttributeError end) files ;;
  Ok (List.concat bs).

(** make_grids.py 406-574: the grids of one frame, made of the columns by direct
    indexing with 'mesh_xi' and 'mesh_yi'.  Coroutines get the batches in order. *)
Definition items (col : cellrow -> fval) (rows : list cellrow) : list item :=
  map (fun r => mkItem (ce_xi r) (ce_yi r) (col r)) rows.
(** The grids made by direct indexing. *)
Record grids := mkGrids { gr_energy : grid; gr_fcount : grid; gr_farea : grid; gr_minarea : grid; gr_gcount : grid; gr_garea : grid }.
(** make_grids.py 406-574: each column accumulated on a grid of zeros. *)
Definition make_grids (nx ny : Z) (batches : list (list cellrow)) : res grids :=
  let z := zeros nx ny in
  e <- accumulate z (map (items ce_power) batches) ;;
  fc <- accumulate z (map (items ce_fcount) batches) ;;
  fa <- accumulate z (map (items ce_farea) batches) ;;
  mn <- accumulate_min z (map (items ce_minarea) batches) ;;
  gc <- accumulate z (map (items ce_gcount) batches) ;;
  ga <- accumulate z (map (items ce_garea) batches) ;;
  Ok (mkGrids e fc fa mn gc ga).
End Pipeline.

(** make_grids.py 846-913: proc_each_grid up to the writing, with the mesh of 879-885. *)
Definition grid_files set_order weird clip tree quad (xedge yedge : list Q) chunk_size files q : res grids :=
  batches <- read_files set_order weird clip tree quad (mkMesh (meshgrid_x xedge yedge) (meshgrid_y xedge yedge) true) chunk_size files q ;;
  make_grids (Z.of_nat (List.length xedge) - 1) (Z.of_nat (List.length yedge) - 1) batches.
