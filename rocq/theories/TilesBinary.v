(** Model of the bounds and tiles of a grid in binary64, bit exact:
    examples/grid/make_GLM_grids.py 245-253 (bounds of the grid) and
    glmtools/grid/make_grids.py 612-637 (subdivide_bnd), 654-658 and 671-680 (padding),
    738-749 (removal of the padding).  Tiles.v has the same code with exact numbers. *)
From Coq Require Import List ZArith Bool Floats.SpecFloat.
From Verif Require Import Base Unsigned.
Import ListNotations.
Open Scope Z_scope.

(** The next integer above (numpy's ceil in the length of arange); None for infinities
    and NaN. *)
Definition fceil (x : f64) : option Z :=
  match x with
  | S754_zero _ => Some 0
  | S754_finite s m e =>
      let z := if s then - Zpos m else Zpos m in
      Some (if 0 <=? e then z * 2 ^ e else - ((- z) / 2 ^ (- e)))
  | _ => None
  end.
(** [0.5] and [2.0]. *)
Definition half : f64 := S754_finite false 4503599627370496 (-53).
(** [2.0] (make_GLM_grids.py 247). *)
Definition two : f64 := of_int 2.

(** make_GLM_grids.py 245-252, one axis: the first and the last element of
    [(np.arange(n+1) - (n+1)/2.0)*d + ctr + 0.5*d], which are the smallest and the largest
    for a positive [d]. *)
Definition bound_at (n k : Z) (d ctr : f64) : f64 :=
  fadd (fadd (fmul (fsub (of_int k) (fdiv (of_int (n + 1)) two)) d) ctr) (fmul half d).
(** make_GLM_grids.py 251-252. *)
Definition bounds (n : Z) (d ctr : f64) : f64 * f64 := (bound_at n 0 d ctr, bound_at n n d ctr).

(** make_grids.py 635: [np.arange(s+1)*delta*dn + bnd[0]], element [k]. *)
Definition edge_at (b0 delta : f64) (dn : Z) (k : nat) : f64 :=
  fadd (fmul (fmul (of_int (Z.of_nat k)) delta) (of_int dn)) b0.
(** make_grids.py 612-637, for s >= 1.  None: a conversion to an integer raises. *)
Definition subdivide (bnd : f64 * f64) (delta : f64) (s : nat) : option (list f64) :=
  match to_int (fdiv (fsub (snd bnd) (fst bnd)) delta) with
  | None => None
  | Some n =>
      match to_int (fdiv (of_int n) (of_int (Z.of_nat s))) with
      | None => None
      | Some dn => Some (map (edge_at (fst bnd) delta dn) (seq 0 s) ++ [snd bnd])
      end
  end.

(** make_grids.py 640: [28.0e-6]. *)
Definition f28e6 : f64 := S754_finite false 8264141345021879 (-68).
(** make_grids.py 640: [100*28.0e-6]. *)
Definition pad_angle : f64 := fmul (of_int 100) f28e6.
(** make_grids.py 655-656: cells of padding on each side. *)
Definition pad_cells (d : f64) : option Z := to_int (fdiv pad_angle d).
(** make_grids.py 671-680: bounds of tile [i] on one axis with padding (lines 657-658). *)
Definition tile_bounds (edges : list f64) (i : nat) (np : Z) (d : f64) : f64 * f64 :=
  (fsub (nth i edges S754_nan) (fmul (of_int np) d), fadd (nth (S i) edges S754_nan) (fmul (of_int np) d)).
(** lmatools FlashGridder: number of cells between the edges
    [np.arange(bnd[0], bnd[1]+d, d)]. *)
Definition grid_cells (bnd : f64 * f64) (d : f64) : option Z :=
  match fceil (fdiv (fsub (fadd (snd bnd) d) (fst bnd)) d) with Some k => Some (k - 1) | None => None end.
(** make_grids.py 738-749: columns (or rows) of tile [i] after the removal of the padding. *)
Definition tile_cells (bnd : f64 * f64) (d : f64) (s i : nat) : option Z :=
  match subdivide bnd d s, pad_cells d with
  | Some edges, Some np =>
      match grid_cells (tile_bounds edges i np d) d with Some k => Some (Z.max 0 (k - 2 * np)) | None => None end
  | _, _ => None
  end.
