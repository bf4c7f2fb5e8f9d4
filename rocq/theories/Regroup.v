(** Model of the merging of split events by mesh cell before accumulation
    (glmtools/io/mimic_lma.py 808-888, 939-971). *)
From Coq Require Import List ZArith QArith Qabs Bool.
From Verif Require Import Base Glm Lut Slice.
Import ListNotations.
Open Scope Z_scope.

(** pandas reductions of a column skip NaN: the sum of no number is 0, the minimum of
    no number is NaN. *)
Definition pd_sum (l : list fval) : fval :=
  Some (fold_left (fun s v => match v with Some q => (s + q)%Q | None => s end) l 0%Q).
(** Minimum of two values where NaN is skipped. *)
Definition pd_min2 (a b : fval) : fval :=
  match a, b with
  | Some x, Some y => Some (if Qlt_bool y x then y else x)
  | None, _ => b
  | _, None => a
  end.
(** [.min()] of a column (mimic_lma.py 862). *)
Definition pd_min (l : list fval) : fval := fold_left pd_min2 l None.
(** Minimum and mean of a column of a group, which has at least one row. *)
Definition zmin (l : list Z) : Z := fold_left Z.min (tl l) (hd 0 l).
(** Maximum of a column of integers (mimic_lma.py 831). *)
Definition zmax (l : list Z) : Z := fold_left Z.max (tl l) (hd 0 l).
(** [.mean()] of a column (mimic_lma.py 863). *)
Definition pd_mean (l : list Q) : Q := (fold_left Qplus l 0 / inject_Z (Z.of_nat (List.length l)))%Q.

(** One row of the array sent to the accumulators (mimic_lma.py 809-821); time is left out, and
    rounding to four byte floats is ignored. *)
Record cellrow := mkCell
  { ce_id : Z; ce_x : Q; ce_y : Q; ce_frac : fval; ce_xi : Z; ce_yi : Z; ce_power : fval;
    ce_count : fval; ce_fcount : fval; ce_gcount : fval; ce_farea : fval; ce_garea : fval; ce_minarea : fval }.

(** mimic_lma.py 862-886: the row made from the split events of one group. *)
Definition merge_row (B : list weighted) : cellrow :=
  mkCell (zmin (map (fun w => sp_parent (w_split w)) B))
    (pd_mean (map (fun w => sp_x (w_split w)) B)) (pd_mean (map (fun w => sp_y (w_split w)) B))
    (pd_sum (map (fun w => option_map Qabs (sp_mesh_frac (w_split w))) B))
    (zmin (map (fun w => sp_i (w_split w)) B)) (zmin (map (fun w => sp_j (w_split w)) B))
    (pd_sum (map w_energy B)) (pd_sum (map w_count B)) (pd_sum (map w_fcount B)) (pd_sum (map w_gcount B))
    (pd_sum (map w_farea B)) (pd_sum (map w_garea B)) (pd_min (map w_minarea B)).

(** mimic_lma.py 808-888.  [max()] of an empty array raises (831).  Groups come in
    increasing order of the key (862-864). *)
Definition regroup (W : list weighted) : res (list cellrow) :=
  match W with
  | [] => Err ValueError
  | _ =>
      let xi_max := zmax (map (fun w => sp_i (w_split w)) W) in
      let key w := sp_j (w_split w) * (xi_max + 1) + sp_i (w_split w) in
      Ok (map (fun k => merge_row (filter (fun w => key w =? k) W)) (zunique (map key W)))
  end.
