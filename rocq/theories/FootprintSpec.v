(** Specification vocabulary for footprints split by a mesh. *)
From Coq Require Import List ZArith QArith Qabs Bool Sorted.
From Verif Require Import Base Traversal TraversalSpec Glm GlmSpec Lut LutSpec Poly PolySpec BBox BBoxSpec Slice SliceSpec Points PointsSpec Footprint.
Import ListNotations.
Open Scope Z_scope.

Local Notation tbl := (table obs).

(** [k] is made of the piece [e] (a polygon in a cell) of the polygon [p] that belongs to
    the flash, group or event [r]: the id and time of [r], the centroid of the piece, the
    share of the energy of [r] that the piece has of [p], the part of the cell that it
    covers, and the indices of the cell. *)
Record is_shard (to_lonlat : Q * Q -> fval * fval) (fixed_grid : bool) (m : mesh) (base : option Z) (time : Z -> Z)
  (r : row obs) (p : poly) (e : poly * (nat * nat)) (k : shard) : Prop :=
  { sh_id : low_bits 32 (rid r) (k_id k);
    sh_place : exists x y, (x == vertex_average fst (fst e))%Q /\ (y == vertex_average snd (fst e))%Q /\
                 (k_lon k, k_lat k) = if fixed_grid then to_lonlat (x, y) else (Some x, Some y);
    sh_alt : (k_alt k == 0)%Q;
    sh_time : seconds_from base (time (rid r)) (k_time k);
    sh_power : exists share, is_share share (size (fst e)) (size p) /\ is_product (k_power k) (o_energy (rdat r)) share;
    sh_frac : ~ (size p == 0)%Q -> is_share (k_frac k) (size (fst e)) (size (cell_quad m (snd e)));
    sh_cell : low_bits 32 (Z.of_nat (fst (snd e))) (k_xi k) /\ low_bits 32 (Z.of_nat (snd (snd e))) (k_yi k) }.

(** The points of all pieces of a list of polygons, each with what it belongs to. *)
Definition shards_of clip tree to_lonlat fixed_grid m b base time (items : list (poly * row obs)) (out : list shard) : Prop :=
  exists blocks, out = List.concat blocks /\
    Forall2 (fun it block => exists cells, looked_up tree m b (fst it) cells /\
               Forall2 (is_shard to_lonlat fixed_grid m base time (snd it) (fst it)) (cut clip m (fst it) cells) block)
      items blocks.

(** The polygons of the events that belong to [i]. *)
Definition polygons_of (key : row obs -> Z) (outline : row obs -> poly) (E : tbl) (i : Z) : list poly :=
  map outline (filter (fun e => key e =? i) E).
(** The separate parts of the footprints of the rows of [T] that have events, in
    ascending order of their ids. *)
Definition footprints (join : list poly -> list poly) (key : row obs -> Z) (outline : row obs -> poly) (T E : tbl)
  (items : list (poly * row obs)) : Prop :=
  exists T', StronglySorted Z.lt (map rid T') /\
    (forall r, In r T' <-> In r T /\ exists e, In e E /\ key e = rid r) /\
    items = flat_map (fun r => map (fun p => (p, r)) (join (polygons_of key outline E (rid r)))) T'.

(** Power of the points that carry an id. *)
Definition powers_of (i : Z) (ks : list shard) : list fval := map k_power (filter (fun k => k_id k =? i) ks).
(** The part [s] of the polygon [p] that lies in the cells looked up for it. *)
Definition share_of clip tree m b (p : poly) (s : Q) : Prop :=
  exists cells, looked_up tree m b p cells /\ (s == qsum (map (fun e => size (fst e)) (cut clip m p cells)) / size p)%Q.

(** A dataset [F G E] taken from the flashes of an opened file [Fg Gg Eg], a mesh, a table of
    corners and libraries with which the chunk can be split. *)
Record can_split clip tree (join : list poly -> list poly) (m : mesh) (outline : Q -> row obs -> poly) (tv : traversal obs)
  (Fg Gg Eg F G E : tbl) : Prop :=
  { cs_mesh : exists M N, mesh_ok tree m M N;
    cs_clip : proper clip;
    cs_join : forall ps p, In p (join ps) -> p <> [];
    cs_outline : forall inflate e, In e E -> outline inflate e <> [];
    cs_cells : forall e, In e E -> exists cells, looked_up tree m NoBox (outline 1%Q e) cells /\ List.length cells <> 1%nat;
    cs_open : trav_init [Fg; Gg; Eg] entity_ids parent_ids = Ok tv;
    cs_file : derived_ok Fg Gg Eg;
    cs_chunk : derived_ok F G E;
    cs_some : F <> [] /\ G <> [] /\ E <> [];
    cs_from : incl F Fg /\ incl G Gg /\ incl E Eg }.
