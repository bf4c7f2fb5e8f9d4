(** Model of the coordinates of the pixels in binary64, bit exact: the edges of the cells
    that lmatools makes from the bounds, their centres (glmtools/io/imagery.py 490-491), the
    removal of the padding (glmtools/grid/make_grids.py 720-736) and the packing of the
    coordinates (imagery.py 186-212).  Output.v and Tiles.v have the same with exact
    numbers. *)
From Coq Require Import List ZArith QArith Bool Floats.SpecFloat.
From Verif Require Import Base BBox Imagery Output FloatProofs Unsigned TilesBinary.
Import ListNotations.
Open Scope Z_scope.

(** Element [k] of [np.arange(b0, .., d)] (called by lmatools' FlashGridder for xedge and
    yedge): numpy computes the first two elements and continues with their difference. *)
Definition arange_at (b0 d : f64) (k : nat) : f64 :=
  match k with
  | O => b0
  | S O => fadd b0 d
  | _ => fadd b0 (fmul (of_int (Z.of_nat k)) (fsub (fadd b0 d) b0))
  end.
(** lmatools FlashGridder: [np.arange(bnd[0], bnd[1]+d, d)], the attribute xedge or yedge
    (make_grids.py 65, imagery.py 487-488). *)
Definition cell_edges (bnd : f64 * f64) (d : f64) : option (list f64) :=
  match grid_cells bnd d with
  | Some c => Some (map (arange_at (fst bnd) d) (seq 0 (Z.to_nat (c + 1))))
  | None => None
  end.
(** imagery.py 490-491: [(xedge[:-1] + xedge[1:])/2.0]. *)
Fixpoint centres (e : list f64) : list f64 :=
  match e with a :: ((b :: _) as t) => fdiv (fadd a b) two :: centres t | _ => [] end.
(** make_grids.py 720-736: [slice(np, -np)], or everything when np is 0. *)
Definition trim {A} (np : Z) (l : list A) : list A :=
  firstn (List.length l - 2 * Z.to_nat np) (skipn (Z.to_nat np) l).
(** make_grids.py 640-683, imagery.py 490-491: the coordinates along one axis in the file
    of tile [i] of [s]. *)
Definition tile_centres (bnd : f64 * f64) (d : f64) (s i : nat) : option (list f64) :=
  match subdivide bnd d s, pad_cells d with
  | Some edges, Some np =>
      match cell_edges (tile_bounds edges i np d) d with Some e => Some (trim np (centres e)) | None => None end
  | _, _ => None
  end.
(** clipping.py 333-339: the cell of a location, from np.digitize(.., right=True).
    Comparisons of binary64 numbers are exact, so the values are compared. *)
Definition cell_of (e : list f64) (v : f64) : res Z := match digitize (map vq e) (vq v) with Ok i => Ok (i - 1) | Err x => Err x end.

(** imagery.py 187-191: [0.000056] and [0.151844]. *)
Definition f56e6 : f64 := S754_finite false 8264141345021879 (-67).
(** imagery.py 188, 191. *)
Definition f151844 (negative : bool) : f64 := S754_finite negative 5470756654547565 (-55).
(** xarray's encoding of a coordinate (imagery.py 186-212): the offset is taken away, the
    result divided by the scale, rounded (np.around, exact) and stored as int16. *)
Definition pack64 (scale offset v : f64) : Z := int16 (round_even (vq (fdiv (fsub v offset) scale))).
(** imagery.py 187-189: the code of a column. *)
Definition x_code (v : f64) : Z := pack64 f56e6 (f151844 true) v.
(** imagery.py 190-192: the code of a row. *)
Definition y_code (v : f64) : Z := pack64 (S754_finite true 8264141345021879 (-67)) (f151844 false) v.
