(** Model of the accumulation on grids of single precision, bit exact: the grids of
    glmtools/grid/make_grids.py 422-423, 477-480, 538-540 have dtype float32, and
    glmtools/grid/accumulate.py 54-59 converts the values to that type and adds them in it.
    Accum.v has the same code with exact numbers. *)
From Coq Require Import List ZArith Bool Floats.SpecFloat.
From Verif Require Import Base Unsigned Accum.
Import ListNotations.
Open Scope Z_scope.

(** IEEE 754 binary32, round to nearest even, from the standard library. *)
Notation f32 := spec_float.
(** Sum of binary32 numbers. *)
Definition single_add : f32 -> f32 -> f32 := SFadd 24 128.
(** [.astype(grid.dtype)] (accumulate.py 59): binary64 to binary32. *)
Definition to_single (x : f64) : f32 :=
  match x with S754_finite s m e => binary_round 24 128 s m e | _ => x end.

(** A two-dimensional array of binary32 numbers, meaningful inside its shape. *)
Record sgrid := mkSGrid { s_n0 : Z; s_n1 : Z; s_at : Z -> Z -> f32 }.
(** [np.zeros(grid_shape, dtype='float32')] (make_grids.py 423). *)
Definition szeros (n0 n1 : Z) : sgrid := mkSGrid n0 n1 (fun _ _ => S754_zero false).
(** One row of the dataset: dataset[x_idx], dataset[y_idx] and dataset[var_name]. *)
Record sitem := mkSItem { si_x : Z; si_y : Z; si_v : f64 }.
(** The cell addressed by [grid[yi, xi]] (accumulate.py 58-59). *)
Definition saddress (g : sgrid) (it : sitem) : res (Z * Z) :=
  a <- norm_index (s_n0 g) (si_y it) ;; b <- norm_index (s_n1 g) (si_x it) ;; Ok (a, b).
(** [grid[yi, xi] = vals] for one pair of indices. *)
Definition sput (g : sgrid) (p : Z * Z) (v : f32) : sgrid :=
  mkSGrid (s_n0 g) (s_n1 g) (fun a b => if (a =? fst p) && (b =? snd p) then v else s_at g a b).
(** The assignments through index arrays, in order. *)
Fixpoint sput_all (g : sgrid) (ps : list ((Z * Z) * f32)) : sgrid :=
  match ps with [] => g | (p, v) :: r => sput_all (sput g p v) r end.
(** accumulate.py 54-59, body of the loop of accumulate_var_on_grid_direct_idx. *)
Definition sadd_batch (g : sgrid) (its : list sitem) : res sgrid :=
  ps <- map_res (saddress g) its ;;
  Ok (sput_all g (map (fun pi => (fst pi, single_add (s_at g (fst (fst pi)) (snd (fst pi))) (to_single (si_v (snd pi))))) (combine ps its))).
(** The coroutine fed with a sequence of batches. *)
Definition saccumulate (g : sgrid) (batches : list (list sitem)) : res sgrid := fold_res sadd_batch batches g.
