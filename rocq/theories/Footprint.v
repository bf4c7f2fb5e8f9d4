(** Model of read_flash_chunk (glmtools/io/mimic_lma.py 320-579) when it splits events,
    groups and flashes by a mesh, with join_polys (glmtools/grid/clipping.py 448-465) and
    the dataset constructors of glmtools/grid/split_events.py 87-169. *)
From Coq Require Import List ZArith QArith Qabs Bool String.
From Verif Require Import Base Traversal Glm Lut Accum Poly BBox Slice Points.
Import ListNotations.
Open Scope Z_scope.

Local Notation tbl := (table obs).

(** mimic_lma.py 591-597: a row of event_dtype, with the three columns about the mesh.
    Rounding to '<f4' is not modelled. *)
Record shard := mkShard
  { k_id : Z; k_alt : Q; k_lat : fval; k_lon : fval; k_time : fval; k_power : fval;
    k_frac : fval; k_xi : Z; k_yi : Z }.
(** mimic_lma.py 974-1010: the dictionary with keys 'flash', 'group' and 'event'. *)
Record sbatch := mkSBatch
  { s_flash : list shard * list parent; s_group : list shard * list parent; s_event : list shard * list parent }.

Section Footprint.
Variable clip : poly -> poly -> list poly.
Variable tree : Q * Q -> list (Z * Z).
(** pyclipper's union of polygons (join_polys, clipping.py 448-465, with the conversion
    to integers and back). *)
Variable join : list poly -> list poly.
(** A table of corner offsets, and the polygon that quads_from_corner_lookup makes with
    it (ccd.py 53-115), given the factor of inflation, around a position. *)
Variable corner_table : Type.
Variable quad : corner_table -> Q -> fval -> fval -> poly.
(** Fixed grid coordinates to longitude and latitude (mimic_lma.py 435-436). *)
Variable to_lonlat : Q * Q -> fval * fval.
(** What [np.empty_like] finds in memory. *)
Variable junk : nat -> shard.

(** mimic_lma.py 452-455 and 504-507: poly_index, in the order of its keys. *)
Definition poly_index (ids : list Z) (polys : list poly) : list (Z * list poly) :=
  map (fun k => (k, map snd (filter (fun e => fst e =? k) (combine ids polys)))) (zunique ids).
(** mimic_lma.py 457-462 and 509-514: the joined polygons of all parents. *)
Definition union_polys (index : list (Z * list poly)) : list poly :=
  List.concat (map (fun e => join (snd e)) index).
(** The same lines: the id of the parent of each joined polygon. *)
Definition union_ids (index : list (Z * list poly)) : list Z :=
  List.concat (map (fun e => repeat (fst e) (List.length (join (snd e)))) index).

(** split_events.py 154-169: the rows of the parents in the order of the children.
    [entity] is the parent_id and [k] the level of its dimension; the variables named in
    [names] are those of the rows. *)
Definition replicate_level (tv : traversal obs) (entity : string) (k : nat) (children : list split)
  : res (list (split * row obs)) :=
  ds <- reduce_to_entities tv entity (map sp_parent children) ;;
  match nth_error ds k with
  | None => Err AttributeError
  | Some T => if Nat.eqb (List.length T) (List.length children) then Ok (combine children T) else Err ValueError
  end.
(** mimic_lma.py 411-447, 464-500 and 517-554: slice the polygons, make the table of the
    pieces and replicate the values of the parents. *)
Definition split_level (tv : traversal obs) (m : mesh) (b : boxarg) (entity : string) (k : nat) (polys : list poly) (ids : list Z)
  : res (list (split * row obs)) :=
  sl <- slice clip tree m polys b ;;
  rows <- split_event_data m (fst sl) (snd sl) ids ;;
  replicate_level tv entity k rows.

(** mimic_lma.py 416-443: the centroid of a piece as longitude and latitude. *)
Definition centroid (fixed_grid : bool) (s : split) : fval * fval :=
  if fixed_grid then to_lonlat (sp_x s, sp_y s) else (Some (sp_x s), Some (sp_y s)).
(** The child rows are filled alike in 635-645, 700-710 and 766-776; the energy is
    weighted by the share of the polygon (split_events.py 161-165; mimic_lma.py 496-499, 550-553). *)
Definition fill_shards (fixed_grid : bool) (base : option Z) (time : Z -> Z) (l : list (split * row obs)) : list shard :=
  map (fun e => let '(s, r) := e in let '(lon, lat) := centroid fixed_grid s in
         mkShard (i4 (sp_parent s)) 0 lat lon (since base (time (rid r)))
           (fmul (o_energy (rdat r)) (sp_frac s)) (option_map Qabs (sp_mesh_frac s)) (i4 (sp_i s)) (i4 (sp_j s))) l.
(** mimic_lma.py 630-633, 695-698, 761-764: without parents the rows are left unset. *)
Definition level_of (parents : list parent) (shards : list shard) : list shard * list parent :=
  match parents with [] => (map junk (seq 0 (List.length shards)), []) | _ => (shards, parents) end.

(** mimic_lma.py 375-409: where the events are, on the grid that the table is for.
    (The date computed in 402-404 is not used.) *)
Definition place (fixed_grid : bool) (e : row obs) : fval * fval :=
  if fixed_grid then (o_x (rdat e), o_y (rdat e)) else (o_lon (rdat e), o_lat (rdat e)).
(** mimic_lma.py 320-579: read_flash_chunk of [ds] with the dataset [tv] as glm, the mesh
    as clip_events and target=None; corner_pickle=None is not replaced and cannot be opened. *)
Definition split_chunk (tv : traversal obs) (ck : clock) (base : option Z) (fixed_grid : bool) (m : mesh)
  (corner_pickle : option corner_table) (ds : list tbl) : res sbatch :=
  match ds with
  | [F; G; E] =>
      lut <- match corner_pickle with Some l => Ok l | None => Err TypeError end ;;
      let polys inflate := map (fun e => quad lut inflate (fst (place fixed_grid e)) (snd (place fixed_grid e))) E in
      let event_polys := polys 1%Q in
      let event_polys_inflated := polys (102 # 100)%Q in
      ev <- split_level tv m NoBox "event_id" 2 event_polys (map rid E) ;;
      let gi := poly_index (map rpid E) event_polys_inflated in
      gr <- split_level tv m TrueBox "group_id" 1 (union_polys gi) (union_ids gi) ;;
      let fi := poly_index (map (fun e => o_flash (rdat e)) E) event_polys_inflated in
      fl <- split_level tv m TrueBox "flash_id" 0 (union_polys fi) (union_ids fi) ;;
      let n := List.length E in
      Ok (mkSBatch
        (level_of (fill_parents (t_first ck) (t_last ck) base (fun f => o_area (rdat f)) n F) (fill_shards fixed_grid base (t_first ck) fl))
        (level_of (fill_parents (t_group ck) (t_group ck) base (fun g => o_area (rdat g)) n G) (fill_shards fixed_grid base (t_group ck) gr))
        (level_of (fill_parents (t_event ck) (t_event ck) base (fun _ => Some 0%Q) n E) (fill_shards fixed_grid base (t_event ck) ev)))
  | _ => Err AttributeError
  end.
End Footprint.
