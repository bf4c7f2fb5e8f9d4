(** Model of glmtools/grid/accumulate.py: accumulation of batches of values on a
    two-dimensional grid addressed by index pairs. *)
From Coq Require Import List ZArith QArith Bool.
From Verif Require Import Base Glm Lut.
Import ListNotations.
Open Scope Z_scope.

(** A two-dimensional float array.  [g_at] is meaningful for 0 <= a < g_n0 and
    0 <= b < g_n1 only. *)
Record grid := mkGrid { g_n0 : Z; g_n1 : Z; g_at : Z -> Z -> fval }.
(** [np.zeros((n0, n1))] *)
Definition zeros (n0 n1 : Z) : grid := mkGrid n0 n1 (fun _ _ => Some 0%Q).

(** NumPy index along an axis of length [n]; negative indices count from the end. *)
Definition norm_index (n i : Z) : res Z :=
  if (0 <=? i) && (i <? n) then Ok i
  else if (- n <=? i) && (i <? 0) then Ok (i + n)
  else Err IndexError.

(** One row of the dataset sent to an accumulator: dataset[x_idx], dataset[y_idx]
    and dataset[var_name].astype(grid.dtype) (rounding to the grid's type ignored). *)
Record item := mkItem { it_x : Z; it_y : Z; it_v : fval }.

(** The cells addressed by [grid[yi, xi]]; all indices are checked first. *)
Definition address (g : grid) (it : item) : res (Z * Z) :=
  a <- norm_index (g_n0 g) (it_y it) ;; b <- norm_index (g_n1 g) (it_x it) ;; Ok (a, b).
(** accumulate.py 58-59, 96-107: all the index pairs of a batch. *)
Definition addresses (g : grid) (its : list item) : res (list (Z * Z)) := map_res (address g) its.

(** [grid[yi, xi] = vals]: assignments in order, so that the last one stays. *)
Definition put (g : grid) (p : Z * Z) (v : fval) : grid :=
  mkGrid (g_n0 g) (g_n1 g) (fun a b => if (a =? fst p) && (b =? snd p) then v else g_at g a b).
(** accumulate.py 59, 105-108: an assignment through index arrays. *)
Fixpoint put_all (g : grid) (ps : list ((Z * Z) * fval)) : grid :=
  match ps with [] => g | (p, v) :: r => put_all (put g p v) r end.

(** accumulate.py 54-59, body of the loop of accumulate_var_on_grid_direct_idx:
    [grid[yi, xi] += v] reads all cells, adds, then writes all cells. *)
Definition add_batch (g : grid) (its : list item) : res grid :=
  ps <- addresses g its ;;
  let sums := map (fun pi => (fst pi, fadd (g_at g (fst (fst pi)) (snd (fst pi))) (it_v (snd pi)))) (combine ps its) in
  Ok (put_all g sums).

(** accumulate.py 93-107, body of the loop of
    accumulate_minvar_on_grid_direct_idx.  [prev > 0] is false for NaN. *)
Definition is_pos (v : fval) : bool := match v with Some q => Qlt_bool 0 q | None => false end.
(** accumulate.py 93-109: one batch of the minimum accumulator. *)
Definition min_batch (g : grid) (its : list item) : res grid :=
  ps <- addresses g its ;;
  let prev := map (fun p => g_at g (fst p) (snd p)) ps in
  let rows := combine (combine ps its) prev in
  let gridzero := filter (fun r => negb (is_pos (snd r))) rows in
  let gridnonzero := filter (fun r => is_pos (snd r)) rows in
  let g1 := put_all g (map (fun r => (fst (fst r), it_v (snd (fst r)))) gridzero) in
  Ok (put_all g1 (map (fun r => (fst (fst r), np_min2 (it_v (snd (fst r))) (snd r))) gridnonzero)).

(** The coroutines fed with a sequence of batches; an exception ends them. *)
Definition accumulate (g : grid) (batches : list (list item)) : res grid := fold_res add_batch batches g.
(** accumulate.py 65-111: the minimum accumulator fed with a sequence of batches. *)
Definition accumulate_min (g : grid) (batches : list (list item)) : res grid := fold_res min_batch batches g.

(** accumulate.py 9-24, select_dataset: what is forwarded for each pair received. *)
Definition select_dataset (use_event_data : bool) (sent : list (list item * list item)) : list (list item) :=
  filter (fun b => negb (Nat.eqb (List.length b) 0))
    (map (fun p => if use_event_data then fst p else snd p) sent).
