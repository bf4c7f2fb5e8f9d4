(** Specification vocabulary for the merging of split events by cell. *)
From Coq Require Import List ZArith QArith Qabs Bool.
From Verif Require Import Base Glm Lut LutSpec Slice Regroup.
Import ListNotations.
Open Scope Z_scope.

(** The mesh cell of a split event, and of a merged row. *)
Definition cell_of (w : weighted) : Z * Z := (sp_i (w_split w), sp_j (w_split w)).
Definition row_cell (r : cellrow) : Z * Z := (ce_xi r, ce_yi r).
(** The split events in one cell. *)
Definition in_cell (W : list weighted) (c : Z * Z) : list weighted :=
  filter (fun w => (sp_i (w_split w) =? fst c) && (sp_j (w_split w) =? snd c)) W.
(** Absolute fraction of the cell. *)
Definition abs_frac (w : weighted) : fval := option_map Qabs (sp_mesh_frac (w_split w)).
Definition average (l : list Q) : Q := (qsum l / inject_Z (Z.of_nat (List.length l)))%Q.
(** [v] is the least of the numbers in [l], NaN when there is none. *)
Definition least_number (l : list fval) (v : fval) : Prop :=
  (exists q, In (Some q) l) /\ least_of l v \/ (forall q, ~ In (Some q) l) /\ v = None.
(** [r] merges exactly the split events of its cell: sums (without the missing
    values), minima and mean position. *)
Record merged (W : list weighted) (r : cellrow) : Prop :=
  { mg_some : in_cell W (row_cell r) <> [];
    mg_power : is_num (ce_power r) (total (map w_energy (in_cell W (row_cell r))));
    mg_frac : is_num (ce_frac r) (total (map abs_frac (in_cell W (row_cell r))));
    mg_count : is_num (ce_count r) (total (map w_count (in_cell W (row_cell r))));
    mg_fcount : is_num (ce_fcount r) (total (map w_fcount (in_cell W (row_cell r))));
    mg_gcount : is_num (ce_gcount r) (total (map w_gcount (in_cell W (row_cell r))));
    mg_farea : is_num (ce_farea r) (total (map w_farea (in_cell W (row_cell r))));
    mg_garea : is_num (ce_garea r) (total (map w_garea (in_cell W (row_cell r))));
    mg_min : least_number (map w_minarea (in_cell W (row_cell r))) (ce_minarea r);
    mg_x : (ce_x r == average (map (fun w => sp_x (w_split w)) (in_cell W (row_cell r))))%Q;
    mg_y : (ce_y r == average (map (fun w => sp_y (w_split w)) (in_cell W (row_cell r))))%Q;
    mg_id : In (ce_id r) (map (fun w => sp_parent (w_split w)) (in_cell W (row_cell r))) /\
            forall i, In i (map (fun w => sp_parent (w_split w)) (in_cell W (row_cell r))) -> ce_id r <= i }.
