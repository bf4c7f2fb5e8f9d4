(** Model of the slicing of polygons by a quadrilateral mesh
    (glmtools/grid/clipping.py 392-446, 467-653) and of the table of pieces made
    from it (glmtools/grid/split_events.py, glmtools/io/mimic_lma.py 246-317). *)
From Coq Require Import List ZArith QArith Qabs Bool String.
From Verif Require Import Base Traversal Glm Lut Accum Poly BBox.
Import ListNotations.
Open Scope Z_scope.

(** Float division; NaN and the infinities that NumPy returns for a zero divisor are
    both [None] here. *)
Definition qdiv (a b : Q) : fval := if Qeq_bool b 0 then None else Some (a / b)%Q.
(** Product of floats with NaN (mimic_lma.py 313). *)
Definition fmul (a b : fval) : fval := match a, b with Some x, Some y => Some (x * y)%Q | _, _ => None end.
(** [np.repeat(a, counts)] *)
Definition np_repeat {A} (a : list A) (counts : list nat) : res (list A) :=
  if Nat.eqb (List.length a) (List.length counts) then Ok (List.concat (map2 (@repeat A) a counts))
  else Err ValueError.

(** The pieces of one polygon: vertices, fraction of the area of the polygon, and
    index of the cell along the first and second dimension of the mesh. *)
Record pieces := mkPieces { pc_polys : list poly; pc_fracs : list fval; pc_i : list Z; pc_j : list Z }.

(** What may be passed as [bbox] to slice. *)
Inductive boxarg := NoBox | TrueBox | FalseBox | Box (b : Q * Q * Q * Q).

Section Slice.
(** pyclipper: [clip p q] are the pieces of quad [q] inside polygon [p]
    (clip_poly_pair, 392-404, with the conversion to integers and back of 422-441). *)
Variable clip : poly -> poly -> list poly.
(** The KD-tree of a mesh that is not regular. *)
Variable tree : Q * Q -> list (Z * Z).

(** clipping.py 406-446: clip_polys_by_one_poly. *)
Definition clip_polys_by_one_poly (polys : list poly) (p : poly) : list poly * list nat :=
  let all_clip_polys := map (clip p) polys in
  (List.concat all_clip_polys, map (@List.length poly) all_clip_polys).

(** clipping.py 625-653: make_sub_polys; the debug message is left out. *)
Definition make_sub_polys (args : poly * Q * (list poly * list Z * list Z)) : res pieces :=
  let '(p, area, (quads, quad_x_idx, quad_y_idx)) := args in
  let '(all_clip_polys, count_per_quad) := clip_polys_by_one_poly quads p in
  clip_x_idx <- np_repeat quad_x_idx count_per_quad ;;
  clip_y_idx <- np_repeat quad_y_idx count_per_quad ;;
  frac_areas <- map_res (fun c => a <- area_of c ;; Ok (option_map Qabs (qdiv a area))) all_clip_polys ;;
  Ok (mkPieces all_clip_polys frac_areas clip_x_idx clip_y_idx).

(** [p.mean(axis=0)], [np.min(p, axis=0)], [np.max(p, axis=0)] of a polygon with vertices. *)
Definition vertex_mean (p : poly) : Q * Q := (qmean (map fst p), qmean (map snd p)).
(** Minimum of two numbers (clipping.py 577). *)
Definition qmin (a b : Q) : Q := if Qlt_bool b a then b else a.
(** Maximum of two numbers (clipping.py 578). *)
Definition qmax (a b : Q) : Q := if Qlt_bool a b then b else a.
(** clipping.py 577-579: the bounding box of a polygon. *)
Definition extent (p : poly) : Q * Q * Q * Q :=
  let xs := map fst p in let ys := map snd p in
  (fold_left qmin (tl xs) (hd 0%Q xs), fold_left qmax (tl xs) (hd 0%Q xs),
   fold_left qmin (tl ys) (hd 0%Q ys), fold_left qmax (tl ys) (hd 0%Q ys)).

(** [a[i, j]] for a two-dimensional array with [n0] rows. *)
Definition index2 {A} (a : arr A) (i j : Z) : res A :=
  i' <- norm_index (Z.of_nat (List.length a)) i ;;
  match nth_error a (Z.to_nat i') with
  | None => Err IndexError
  | Some r => j' <- norm_index (Z.of_nat (List.length r)) j ;;
              match nth_error r (Z.to_nat j') with None => Err IndexError | Some v => Ok v end
  end.

(** clipping.py 574-591: the cells looked up for one polygon.  [recalc_bbox] is unbound
    unless [bbox == True] (565-566).  Without a box the index arrays have been squeezed:
    with exactly one cell they have no dimension left and cannot be given the shape
    (4,) taken from the squeezed quads (586-590). *)
Definition find_cells (m : mesh) (bbox : boxarg) (p : poly) : res (list (Z * Z)) :=
  match bbox with
  | NoBox => idx <- quads_nearest tree m (vertex_mean p) ;;
             if Nat.eqb (List.length idx) 1 then Err ValueError else Ok idx
  | TrueBox => quads_in_bbox m (extent p)
  | FalseBox | Box _ => Err UnboundLocalError
  end.
(** clipping.py 574-591: the quads with their indices. *)
Definition find_quads (m : mesh) (bbox : boxarg) (p : poly) : res (list poly * list Z * list Z) :=
  idx <- find_cells m bbox p ;;
  quads <- map_res (fun c => index2 (polys_from_quadmesh (me_x m) (me_y m)) (fst c) (snd c)) idx ;;
  Ok (quads, map fst idx, map snd idx).

(** clipping.py 475-607: slice. *)
Definition slice (m : mesh) (polys : list poly) (bbox : boxarg) : res (list pieces * list Q) :=
  areas <- map_res (fun p => a <- area_of p ;; Ok (Qabs a)) polys ;;
  all_quads <- map_res (find_quads m bbox) polys ;;
  sub_polys <- map_res make_sub_polys (combine (combine polys areas) all_quads) ;;
  Ok (sub_polys, areas).

(** clipping.py 609-620: quad_frac_from_poly_frac_area. *)
Definition quad_frac_from_poly_frac_area (m : mesh) (frac_areas : list fval) (total_area : Q)
  (quad_x_idx quad_y_idx : list Z) : res (list fval) :=
  areas <- quad_areas (me_x m) (me_y m) ;;
  quads <- map_res (fun c => index2 areas (fst c) (snd c)) (combine quad_x_idx quad_y_idx) ;;
  Ok (map2 (fun f a => match f with Some v => qdiv (v * total_area) a | None => None end) frac_areas quads).

(** One row of the array made by split_event_data (split_events.py 58-66). *)
Record split := mkSplit
  { sp_x : Q; sp_y : Q; sp_frac : fval; sp_mesh_frac : fval; sp_i : Z; sp_j : Z; sp_parent : Z }.

(** split_events.py 29-44: the rows of one polygon; gen_sq_mean (13-16) is the mean of
    the vertices.  [zip] stops at the shortest. *)
Definition split_one (m : mesh) (e : pieces * Q * Z) : res (list split) :=
  let '(pc, total_area, evid) := e in
  quad_fracs <- quad_frac_from_poly_frac_area m (pc_fracs pc) total_area (pc_i pc) (pc_j pc) ;;
  Ok (map (fun r => let '(sq, fr, i, j, mf) := r in
                    mkSplit (fst (vertex_mean sq)) (snd (vertex_mean sq)) fr mf i j evid)
        (combine (combine (combine (combine (pc_polys pc) (pc_fracs pc)) (pc_i pc)) (pc_j pc)) quad_fracs)).
(** split_events.py 18-44, 46-85: gen_split_events and split_event_data (the rows; the
    polygons are returned besides and are not modelled). *)
Definition split_event_data (m : mesh) (chopped : list pieces) (poly_areas : list Q) (event_ids : list Z)
  : res (list split) :=
  l <- map_res (split_one m) (combine (combine chopped poly_areas) event_ids) ;;
  Ok (List.concat l).
End Slice.

(** mimic_lma.py 246-317 with its default arguments: replication of the rows of the
    event lookup table and weighting.  A label that is missing raises KeyError;
    repeated labels in the table raise too (the class of the exception is simplified). *)
Record weighted := mkWeighted
  { w_split : split; w_energy : fval; w_count : fval; w_fcount : fval; w_gcount : fval;
    w_farea : fval; w_garea : fval; w_minarea : fval }.
(** [parent_data.loc[{parent_id: k}]] (mimic_lma.py 305). *)
Definition loc1 (parents : list lutrow) (k : Z) : res lutrow :=
  match filter (fun r => lu_id r =? k) parents with [r] => Ok r | _ => Err KeyError end.
(** A count as a number. *)
Definition of_count (n : nat) : fval := Some (inject_Z (Z.of_nat n)).
(** mimic_lma.py 307-315 for one child. *)
Definition weight_row (s : split) (r : lutrow) : weighted :=
  mkWeighted s (fmul (lu_energy r) (sp_frac s))
    (fmul (of_count (lu_count r)) (sp_mesh_frac s)) (fmul (of_count (lu_fcount r)) (sp_mesh_frac s))
    (fmul (of_count (lu_gcount r)) (sp_mesh_frac s))
    (fmul (lu_farea r) (sp_mesh_frac s)) (fmul (lu_garea r) (sp_mesh_frac s)) (lu_minarea r).
(** mimic_lma.py 246-317: replicate_and_weight_split_child_dataset_new. *)
Definition replicate_and_weight_new (parents : list lutrow) (children : list split) : res (list weighted) :=
  replicated <- map_res (loc1 parents) (map sp_parent children) ;;
  Ok (map2 weight_row children replicated).

(** split_events.py 135-169 with its default arguments, on a GLM dataset [tv]: energy
    weighted by the fraction of the area, and the ids of the parents.  xarray refuses
    arrays of another length than the split events. *)
Record split_event := mkSE { se_split : split; se_energy : fval; se_flash : Z; se_group : Z }.
(** split_events.py 135-169: replicate_and_weight_split_child_dataset. *)
Definition replicate_and_weight (tv : traversal obs) (children : list split) : res (list split_event) :=
  ds <- reduce_to_entities tv "event_id" (map sp_parent children) ;;
  match nth_error ds 2 with
  | None => Err AttributeError
  | Some E => if Nat.eqb (List.length E) (List.length children)
              then Ok (map2 (fun s e => mkSE s (fmul (o_energy (rdat e)) (sp_frac s)) (o_flash (rdat e)) (rpid e)) children E)
              else Err ValueError
  end.
