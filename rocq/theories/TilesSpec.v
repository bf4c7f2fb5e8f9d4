(** Specification vocabulary for tiles. *)
From Coq Require Import List ZArith QArith Qround Bool String.
From Verif Require Import Base Glm Lut FileName Imagery Tiles.
Import ListNotations.
Open Scope Q_scope.

(** Equal lists of numbers. *)
Definition qlist_eq (a b : list Q) : Prop := Forall2 Qeq a b.
(** Centres of the [m] cells of size [d] from [lo]. *)
Definition cells (lo d : Q) (m : nat) : list Q := map (fun k => lo + (inject_Z (Z.of_nat k) + (1 # 2)) * d) (seq 0 m).
(** Coordinates written for a tile: centres of its grid, without the padding. *)
Definition tile_x (dx : Q) (t : tile) : list Q := slice_list (pad_slice (t_npx t)) (centers (grid_edges (t_xbnd t) dx)).
Definition tile_y (dy : Q) (t : tile) : list Q := slice_list (pad_slice (t_npy t)) (centers (grid_edges (t_ybnd t) dy)).
(** Tiles of a row or a column, in order. *)
Definition in_row (j : nat) (ts : list tile) : list tile := filter (fun t => Nat.eqb (t_j t) j) ts.
Definition in_col (i : nat) (ts : list tile) : list tile := filter (fun t => Nat.eqb (t_i t) i) ts.
