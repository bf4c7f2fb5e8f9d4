(** Model of the lookup of mesh cells near a point or in a bounding box
    (glmtools/grid/clipping.py, class QuadMeshSubset, lines 116-390). *)
From Coq Require Import List ZArith QArith Bool.
From Verif Require Import Base Glm Poly.
Import ListNotations.
Open Scope Z_scope.

(** [a <= b] of numbers. *)
Definition qle (a b : Q) : bool := Qle_bool a b.
(** Whether bins are sorted, as np.digitize checks. *)
Fixpoint monotone (le : Q -> Q -> bool) (l : list Q) : bool :=
  match l with a :: ((b :: _) as r) => le a b && monotone le r | _ => true end.
(** Number of elements with a property. *)
Definition count {A} (p : A -> bool) (l : list A) : Z := Z.of_nat (List.length (filter p l)).

(** [np.digitize(v, bins, right=True)]: for increasing bins the number of bins below
    [v], for decreasing bins the number of bins not below [v]. *)
Definition digitize (bins : list Q) (v : Q) : res Z :=
  if monotone qle bins then Ok (count (fun b => Qlt_bool b v) bins)
  else if monotone (fun a b => qle b a) bins then Ok (count (fun b => qle v b) bins)
  else Err ValueError.

(** Consecutive integers from [a] up to but not including [b]. *)
Definition range (a b : Z) : list Z := map (fun k => a + Z.of_nat k) (seq 0 (Z.to_nat (b - a))).

(** clipping.py 129-150: the arguments of QuadMeshSubset that are kept. *)
Record mesh := mkMesh { me_x : arr Q; me_y : arr Q; me_regular : bool }.

(** clipping.py 189-214: one-dimensional edges of a regular mesh.  [true] when x
    varies along the second dimension.  [np.allclose(.., 0.0)]: within 1e-8. *)
Definition col0 (a : arr Q) : list Q := map (fun r => hd 0%Q r) a.
(** [a[0,:]] (clipping.py 197-208). *)
Definition row0 (a : arr Q) : list Q := hd [] a.
(** [.mean()] (clipping.py 194). *)
Definition qmean (l : list Q) : Q := (qsum l / inject_Z (Z.of_nat (List.length l)))%Q.
(** clipping.py 194: the test of the first column of xedge. *)
Definition x_along_dim1 (m : mesh) : bool :=
  let c := col0 (me_x m) in
  forallb (fun v => qle (qmean c - v) (1 # 100000000) && qle (- (1 # 100000000)) (qmean c - v)) c.
(** clipping.py 199, 207: X_edge1d. *)
Definition x_edge1d (m : mesh) : list Q := if x_along_dim1 m then row0 (me_x m) else col0 (me_x m).
(** clipping.py 200, 208: Y_edge1d. *)
Definition y_edge1d (m : mesh) : list Q := if x_along_dim1 m then col0 (me_y m) else row0 (me_y m).

(** clipping.py 329-348: the half-open range of cells along one axis, if a limit is valid. *)
Definition axis_range (edges : list Q) (lim : Q * Q) (pad : Z) : res (option (Z * Z)) :=
  let n := Z.of_nat (List.length edges) - 1 in
  i0 <- digitize edges (fst lim) ;;
  i1 <- digitize edges (snd lim) ;;
  let idx := filter (fun i => (0 <=? i) && (i <? n)) [i0 - 1; i1 - 1] in
  match idx with
  | [] => Ok None
  | i :: r => let lo := fold_left Z.min r i in
              let hi := fold_left Z.max r i in
              Ok (Some (Z.max (lo - pad) 0, Z.min (hi + 1 + pad) n))
  end.

(** clipping.py 302-352: _quads_in_bbox_fast; index pairs into the first and second
    dimension of the mesh, in row-major order. *)
Definition quads_in_bbox_fast (m : mesh) (bbox : Q * Q * Q * Q) (pad : Z) : res (list (Z * Z)) :=
  let '(x0, x1, y0, y1) := bbox in
  rx <- axis_range (x_edge1d m) (x0, x1) pad ;;
  ry <- axis_range (y_edge1d m) (y0, y1) pad ;;
  match rx, ry with
  | Some (xa, xb), Some (ya, yb) =>
      let '(d0, d1) := if x_along_dim1 m then (range ya yb, range xa xb) else (range xa xb, range ya yb) in
      Ok (list_prod d0 d1)
  | _, _ => Ok []
  end.

(** clipping.py 354-390: quads_in_bbox; the brute-force search for a mesh that is not
    regular keeps quads with one corner within the x limits and one corner (perhaps
    another) within the y limits. *)
Definition within (lim : Q * Q) (v : Q) : bool := qle (fst lim) v && qle v (snd lim).
(** clipping.py 382-387: whether a quad is kept. *)
Definition good_quad (bbox : Q * Q * Q * Q) (q : poly) : bool :=
  let '(x0, x1, y0, y1) := bbox in
  existsb (fun p => within (x0, x1) (fst p)) q && existsb (fun p => within (y0, y1) (snd p)) q.
(** [np.where(mask)]: positions in row-major order. *)
Fixpoint where_row (i j : Z) (mask : list bool) : list (Z * Z) :=
  match mask with [] => [] | b :: r => (if b then [(i, j)] else []) ++ where_row i (j + 1) r end.
(** [np.where] of all rows (clipping.py 388). *)
Fixpoint where_ (i : Z) (mask : arr bool) : list (Z * Z) :=
  match mask with [] => [] | r :: m => where_row i 0 r ++ where_ (i + 1) m end.
(** clipping.py 354-390: quads_in_bbox. *)
Definition quads_in_bbox (m : mesh) (bbox : Q * Q * Q * Q) : res (list (Z * Z)) :=
  if me_regular m then quads_in_bbox_fast m bbox 2
  else Ok (where_ 0 (map (map (good_quad bbox)) (polys_from_quadmesh (me_x m) (me_y m)))).

(** clipping.py 233-270: query_tree and quads_nearest.  The KD-tree of a mesh that is
    not regular is the parameter [tree], which returns index pairs.  The squeeze of
    line 269 leaves the shape alone except when there is exactly one quad; that case
    raises later, in slice (see Slice.v). *)
Definition quads_nearest (tree : Q * Q -> list (Z * Z)) (m : mesh) (p : Q * Q) : res (list (Z * Z)) :=
  if me_regular m then quads_in_bbox_fast m (fst p, fst p, snd p, snd p) 2 else Ok (tree p).
