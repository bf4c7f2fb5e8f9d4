(** Specification vocabulary for slicing and splitting. *)
From Coq Require Import List ZArith QArith Qabs Bool.
From Verif Require Import Base Glm Lut LutSpec Poly PolySpec BBox BBoxSpec Slice.
Import ListNotations.

(** The quadrilateral of the cell with indices (i, j). *)
Definition cell_quad (m : mesh) (c : nat * nat) : poly :=
  let '(i, j) := c in
  [node (me_x m) (me_y m) i j; node (me_x m) (me_y m) i (S j);
   node (me_x m) (me_y m) (S i) (S j); node (me_x m) (me_y m) (S i) j].
Definition zpair (c : nat * nat) : Z * Z := (Z.of_nat (fst c), Z.of_nat (snd c)).
(** Polygon [p] cut by the cells [cells]: all pieces, each with the cell it lies in. *)
Definition cut (clip : poly -> poly -> list poly) (m : mesh) (p : poly) (cells : list (nat * nat))
  : list (poly * (nat * nat)) :=
  flat_map (fun c => map (fun q => (q, c)) (clip p (cell_quad m c))) cells.
Definition size (p : poly) : Q := Qabs (signed_area p).
(** [f] is the quotient a / b, or not a number when b = 0. *)
Definition is_share (f : fval) (a b : Q) : Prop :=
  (b == 0 -> f = None)%Q /\ (~ b == 0 -> is_num f (a / b))%Q.
(** The four lists of [pc] describe the same pieces [l] of polygon [p], in the same order. *)
Definition aligned (pc : pieces) (p : poly) (l : list (poly * (nat * nat))) : Prop :=
  pc_polys pc = map fst l /\
  pc_i pc = map (fun e => Z.of_nat (fst (snd e))) l /\
  pc_j pc = map (fun e => Z.of_nat (snd (snd e))) l /\
  Forall2 (fun f e => is_share f (size (fst e)) (size p)) (pc_fracs pc) l.

(** A usable mesh of M x N vertices: regular and made by np.meshgrid, or not regular
    with a tree that answers with valid cells. *)
Definition mesh_ok (tree : Q * Q -> list (Z * Z)) (m : mesh) (M N : nat) : Prop :=
  (2 <= M)%nat /\ (2 <= N)%nat /\ shape M N (me_x m) /\ shape M N (me_y m) /\
  (if me_regular m
   then exists xs ys at_, edges_ok xs /\ edges_ok ys /\ made_from xs ys m at_
   else forall p c, In c (tree p) -> exists i j, c = zpair (i, j) /\ (S i < M)%nat /\ (S j < N)%nat).
(** The lookup used for one polygon. *)
Definition looked_up (tree : Q * Q -> list (Z * Z)) (m : mesh) (b : boxarg) (p : poly) (cells : list (nat * nat)) : Prop :=
  match b with
  | NoBox => quads_nearest tree m (vertex_mean p) = Ok (map zpair cells)
  | TrueBox => quads_in_bbox m (extent p) = Ok (map zpair cells)
  | _ => False
  end.
(** The clipping library returns polygons with vertices. *)
Definition proper (clip : poly -> poly -> list poly) : Prop := forall p q c, In c (clip p q) -> c <> [].
(** The pieces cover the polygon: their sizes add up to its size. *)
Definition covered (p : poly) (l : list (poly * (nat * nat))) : Prop :=
  (qsum (map (fun e => size (fst e)) l) == size p)%Q.

(** [s] is the row of piece [e] (of polygon [p] with identifier [id]): its own parent,
    the indices of its cell, the mean of its vertices, its share of the polygon and its
    share of the (signed) area of the cell. *)
Definition vertex_average (f : pt -> Q) (p : poly) : Q := (qsum (map f p) / inject_Z (Z.of_nat (List.length p)))%Q.
Record is_row (m : mesh) (p : poly) (id : Z) (s : split) (e : poly * (nat * nat)) : Prop :=
  { row_parent : sp_parent s = id;
    row_cell : (sp_i s, sp_j s) = zpair (snd e);
    row_x : (sp_x s == vertex_average fst (fst e))%Q;
    row_y : (sp_y s == vertex_average snd (fst e))%Q;
    row_frac : is_share (sp_frac s) (size (fst e)) (size p);
    row_mesh_frac : ~ (size p == 0)%Q -> is_share (sp_mesh_frac s) (size (fst e)) (signed_area (cell_quad m (snd e))) }.

(** [v] is the product of two floats, NaN absorbing. *)
Definition is_product (v a b : fval) : Prop :=
  match a, b with Some x, Some y => is_num v (x * y)%Q | _, _ => v = None end.
(** [w] is piece [s] with the values of table row [r]: energy shared by area of the
    polygon, counts and areas by coverage of the cell, the minimum as it is. *)
Record inherits (w : weighted) (s : split) (r : lutrow) : Prop :=
  { inh_split : w_split w = s;
    inh_id : sp_parent s = lu_id r;
    inh_energy : is_product (w_energy w) (lu_energy r) (sp_frac s);
    inh_count : is_product (w_count w) (Some (inject_Z (Z.of_nat (lu_count r)))) (sp_mesh_frac s);
    inh_fcount : is_product (w_fcount w) (Some (inject_Z (Z.of_nat (lu_fcount r)))) (sp_mesh_frac s);
    inh_gcount : is_product (w_gcount w) (Some (inject_Z (Z.of_nat (lu_gcount r)))) (sp_mesh_frac s);
    inh_farea : is_product (w_farea w) (lu_farea r) (sp_mesh_frac s);
    inh_garea : is_product (w_garea w) (lu_garea r) (sp_mesh_frac s);
    inh_min : w_minarea w = lu_minarea r }.
(** Energies of the pieces of one parent. *)
Definition energies_of (id : Z) (W : list weighted) : list fval :=
  map w_energy (filter (fun w => Z.eqb (sp_parent (w_split w)) id) W).
