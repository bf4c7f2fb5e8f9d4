(** Reference geometry for C103: the part of a polygon inside a cell.

    Nothing here models code of /repo; these definitions say what the answer of the
    clipping library (glmtools/grid/clipping.py lines 392-446, which calls pyclipper)
    has to be for a convex polygon and a cell of a regular grid. *)
From Coq Require Import List ZArith QArith Qabs Bool.
From Verif Require Import Base Poly PolySpec BBox BBoxSpec SliceSpec.
Import ListNotations.
Open Scope Q_scope.

(** * Half planes, given by a function that is not negative inside *)
Definition right_of (c : Q) (a : pt) : Q := fst a - c.
Definition left_of (c : Q) (a : pt) : Q := c - fst a.
Definition above (c : Q) (a : pt) : Q := snd a - c.
Definition below (c : Q) (a : pt) : Q := c - snd a.

(** The point of the segment from [a] to [b] where [f], of opposite signs at the ends, is 0. *)
Definition meet (f : pt -> Q) (a b : pt) : pt :=
  let t := f a / (f a - f b) in (fst a + t * (fst b - fst a), snd a + t * (snd b - snd a)).
Definition crossing (f : pt -> Q) (a b : pt) : list pt := if Qle_bool 0 (f a * f b) then [] else [meet f a b].
(** The corners met on the way from [a] along [l], with the crossing points in between
    and without the last corner. *)
Fixpoint with_crossings (f : pt -> Q) (a : pt) (l : poly) : poly :=
  match l with
  | [] => []
  | b :: r => a :: crossing f a b ++ with_crossings f b r
  end.
(** The part of a polygon where [f] is not negative. *)
Definition half (f : pt -> Q) (p : poly) : poly :=
  match p with
  | [] => []
  | a :: l => filter (fun v => Qle_bool 0 (f v)) (with_crossings f a (l ++ [a]))
  end.
(** The part of a polygon inside the rectangle from (x0, y0) to (x1, y1). *)
Definition overlap (p : poly) (x0 x1 y0 y1 : Q) : poly :=
  half (below y1) (half (above y0) (half (left_of x1) (half (right_of x0) p))).
Definition in_cell (p : poly) (xs ys : list Q) (kx ky : nat) : poly :=
  overlap p (edge xs kx) (edge xs (S kx)) (edge ys ky) (edge ys (S ky)).

(** Twice the signed area of the triangle a, b, c: positive when the turn is to the left. *)
Definition turn (a b c : pt) : Q := (fst b - fst a) * (snd c - snd a) - (snd b - snd a) * (fst c - fst a).
(** The corners of a convex polygon, in order: all turns to the same side. *)
Definition convex (p : poly) : Prop :=
  exists s, (s == 1 \/ s == -1) /\
    forall i j k d, (i < j)%nat -> (j < k)%nat -> (k < List.length p)%nat -> 0 <= s * turn (nth i p d) (nth j p d) (nth k p d).
(** A clipping function that returns, for a convex polygon and a rectangle, pieces of the size of the part inside. *)
Definition exact (clip : poly -> poly -> list poly) : Prop :=
  forall p x0 x1 y0 y1, convex p -> x0 < x1 -> y0 < y1 ->
    qsum (map size (clip p [(x0, y0); (x1, y0); (x1, y1); (x0, y1)])) == size (overlap p x0 x1 y0 y1).
