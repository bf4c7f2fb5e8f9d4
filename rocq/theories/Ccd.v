(** Model of the pixel lookups of glmtools/io/ccd.py: the index arrays of the nearest
    pixel lookup (172-218) and the polygons of events from the table of corner offsets
    (53-148). *)
From Coq Require Import List ZArith QArith Bool.
From Verif Require Import Base.
Import ListNotations.
Open Scope Z_scope.

(** A two dimensional array, row by row. *)
Definition arr2 (A : Type) := list (list A).
(** Its shape; an array without rows has no columns here (numpy can have an array of
    shape (0, n), which is not modelled). *)
Definition shape {A} (a : arr2 A) : nat * nat := (length a, length (hd [] a)).

(** An array of coordinates: plain, or masked with a full mask (true = masked) or with
    the scalar mask that numpy uses for "nothing masked". *)
Inductive maskval := NoMask | Mask (m : arr2 bool).
(** The arguments lons and lats of ccd.py 172-184: values and the attribute mask, if
    any. *)
Record ndarray := mkArr { nd_data : arr2 Q; nd_mask : option maskval }.

(** [lats.mask | lons.mask], with the scalar False broadcast. *)
Definition mask_at (m : maskval) (i j : nat) : bool :=
  match m with NoMask => false | Mask a => nth j (nth i a []) true end.
(** ccd.py 203-208.  The attribute mask exists for masked arrays only. *)
Definition good_pixels (lons lats : ndarray) : res (arr2 bool) :=
  let '(nx, ny) := shape (nd_data lats) in
  match nd_mask lats, nd_mask lons with
  | None, None => Ok (repeat (repeat true ny) nx)
  | Some a, Some b =>
      Ok (map (fun i => map (fun j => negb (mask_at a i j || mask_at b i j)) (seq 0 ny)) (seq 0 nx))
  | _, _ => Err AttributeError
  end.

(** [np.meshgrid(x, y)]: x along the columns, y along the rows. *)
Definition meshgrid (x y : list nat) : arr2 nat * arr2 nat :=
  (map (fun _ => x) y, map (fun yv => map (fun _ => yv) x) y).
(** [X.T] for an array of [ny] rows of [nx] columns. *)
Definition transpose {A} (d : A) (nx : nat) (a : arr2 A) : arr2 A :=
  map (fun i => map (fun row => nth i row d) a) (seq 0 nx).
(** [a[good].flatten()]: the elements where [good] holds, row by row. *)
Definition select {A} (a : arr2 A) (good : arr2 bool) : list A :=
  map fst (filter snd (combine (List.concat a) (List.concat good))).

(** ccd.py 200-218.  The KDTree is built on the rows (lon, lat) returned as the first
    component. *)
Definition create_pixel_lookup (lons lats : ndarray) : res (list (Q * Q) * list nat * list nat) :=
  let '(nx, ny) := shape (nd_data lons) in
  let x := seq 0 nx in
  let y := seq 0 ny in
  good <- good_pixels lons lats ;;
  let '(X, Y) := meshgrid x y in
  let Xgood := select (transpose O nx X) good in
  let Ygood := select (transpose O nx Y) good in
  let flatlat := select (nd_data lats) good in
  let flatlon := select (nd_data lons) good in
  Ok (combine flatlon flatlat, Xgood, Ygood).

(** * Polygons of events *)
Definition fval := option Q.
(** NumPy addition with NaN (ccd.py 111-112). *)
Definition fplus (a b : fval) : fval := match a, b with Some x, Some y => Some (x + y)%Q | _, _ => None end.
(** NumPy product with NaN (ccd.py 111-112). *)
Definition fmult (a b : fval) : fval := match a, b with Some x, Some y => Some (x * y)%Q | _, _ => None end.

(** A node of the table: its location, and its offsets, corner by corner. *)
Record node := mkNode { n_lon : Q; n_lat : Q; n_off : list (fval * fval) }.

Section QUADS.
(** scipy's interpolators, given the locations with their values, at one location:
    linear (NaN outside of the triangulation) and nearest neighbour. *)
Variable linear : list (Q * Q * fval) -> Q * Q -> fval.
Variable nearest : list (Q * Q * fval) -> Q * Q -> fval.

(** ccd.py 82-112 for one coordinate of one corner and one pixel. *)
Definition offset_at (table : list (Q * Q * fval)) (extrapolate : bool) (p : Q * Q) : fval :=
  match linear table p with
  | Some v => Some v
  | None => if extrapolate then nearest table p else None
  end.

(** ccd.py 53-115: the corners of each pixel, in the order of the table. *)
Definition quads_from_corner_lookup (table : list node) (n_corners : nat) (nadir_lon inflate : Q)
  (extrapolate : bool) (pixels : list (Q * Q)) : list (list (fval * fval)) :=
  let grid f ci := map (fun n => (n_lon n + nadir_lon, n_lat n, f (nth ci (n_off n) (None, None)))%Q) table in
  map (fun p =>
    map (fun ci =>
      let dlon := offset_at (grid fst ci) extrapolate p in
      let dlat := offset_at (grid snd ci) extrapolate p in
      (fplus (Some (fst p)) (fmult dlon (Some inflate)), fplus (Some (snd p)) (fmult dlat (Some inflate))))
      (seq 0 n_corners)) pixels.
End QUADS.

(** ccd.py 134-148: the table read from a file with one array per corner and
    coordinate: nw, sw, se, ne. *)
Definition read_official_corner_lut (lons lats : arr2 Q) (xc yc : list (arr2 fval)) : arr2 node :=
  map (fun i => map (fun j =>
      mkNode (nth j (nth i lons []) 0%Q) (nth j (nth i lats []) 0%Q)
        (map (fun c => (nth j (nth i (nth c xc []) []) None, nth j (nth i (nth c yc []) []) None)) (seq 0 4)))
      (seq 0 (length (nth i lats [])))) (seq 0 (length lats)).
