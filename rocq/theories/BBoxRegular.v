(** Model of the lookup of mesh cells by arithmetic: _quads_in_bbox_regular
    (glmtools/grid/clipping.py, class QuadMeshSubset, 272-300).  Numbers are exact. *)
From Coq Require Import List ZArith QArith Qround Bool.
From Verif Require Import Base Glm Poly BBox.
Import ListNotations.
Open Scope Z_scope.

(** clipping.py 152-157: one row of the centres, the mean of four corners. *)
Fixpoint ctr_row (r r' : list Q) : list Q :=
  match r, r' with
  | a :: ((b :: _) as t), c :: ((d :: _) as t') => ((a + d + c + b) / 4)%Q :: ctr_row t t'
  | _, _ => []
  end.
(** clipping.py 152-157: X_ctr or Y_ctr, when they are not given. *)
Fixpoint ctr2 (a : arr Q) : arr Q :=
  match a with r :: ((r' :: _) as t) => ctr_row r r' :: ctr2 t | _ => [] end.
(** clipping.py 197, 205: X_ctr1d. *)
Definition x_ctr1d (m : mesh) : list Q := if x_along_dim1 m then row0 (ctr2 (me_x m)) else col0 (ctr2 (me_x m)).
(** clipping.py 198, 206: Y_ctr1d. *)
Definition y_ctr1d (m : mesh) : list Q := if x_along_dim1 m then col0 (ctr2 (me_y m)) else row0 (ctr2 (me_y m)).

Section Numbers.
(** [.astype('int32')] of a whole number: what is outside the range of 32 bits is left open. *)
Variable i32 : Z -> Z.
(** clipping.py 281-291, one axis: the limits of the slice. *)
Definition axis_slice (ctrs : list Q) (lim : Q * Q) (pad : Z) : res (Z * Z) :=
  match ctrs with
  | c0 :: c1 :: _ =>
      let d := (c1 - c0)%Q in
      let n := Z.of_nat (List.length ctrs) in
      let cut i := let j := if i <? 0 then 0 else i in if n + 1 <? j then n + 1 else j in
      Ok (cut (i32 (Qfloor ((fst lim - c0) / d)) - pad), cut (i32 (Qfloor ((snd lim - c0) / d)) + pad))
  | _ => Err IndexError
  end.
(** [np.arange(0, n)[slice(a, b)]] for [0 <= a], [0 <= b]. *)
Definition sliced (n : nat) (ab : Z * Z) : list Z := range (fst ab) (Z.min (snd ab) (Z.of_nat n)).
(** clipping.py 272-300: _quads_in_bbox_regular, for limits given as an array. *)
Definition quads_in_bbox_regular (m : mesh) (bbox : Q * Q * Q * Q) (pad : Z) : res (list (Z * Z)) :=
  let '(x0, x1, y0, y1) := bbox in
  rx <- axis_slice (x_ctr1d m) (x0, x1) pad ;;
  ry <- axis_slice (y_ctr1d m) (y0, y1) pad ;;
  let ix := sliced (List.length (x_ctr1d m)) rx in
  let iy := sliced (List.length (y_ctr1d m)) ry in
  Ok (if x_along_dim1 m then list_prod iy ix else list_prod ix iy).
End Numbers.
