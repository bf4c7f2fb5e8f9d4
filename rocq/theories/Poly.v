(** Model of polygon areas and quadrilateral meshes (glmtools/grid/clipping.py,
    lines 43-180).  Coordinates are exact rationals. *)
From Coq Require Import List ZArith QArith Bool.
From Verif Require Import Base.
Import ListNotations.

Notation pt := (Q * Q)%type.
Notation poly := (list (Q * Q)).

(** Elementwise product and difference of arrays of the same length; NumPy raises
    when lengths differ (broadcasting of length 1 is left out: it cannot occur,
    both operands are slices of equal length). *)
Fixpoint map2 {A B C} (f : A -> B -> C) (a : list A) (b : list B) : list C :=
  match a, b with x :: a', y :: b' => f x y :: map2 f a' b' | _, _ => [] end.

(** clipping.py 58-66: poly_area.  [x[-1]] raises IndexError on empty arrays. *)
Definition poly_area (x y : list Q) : res Q :=
  if negb (Nat.eqb (List.length x) (List.length y)) then Err ValueError
  else
    match x, y with
    | x0 :: xr, y0 :: yr =>
        let det := map2 Qminus (map2 Qmult (removelast x) yr) (map2 Qmult xr (removelast y)) in
        let area := qsum det in
        let area := (area + (last x 0 * y0 - x0 * last y 0))%Q in
        Ok (area * (1 # 2))%Q
    | _, _ => Err IndexError
    end.
(** [poly_area(p[:,0], p[:,1])] *)
Definition area_of (p : poly) : res Q := poly_area (map fst p) (map snd p).

(** clipping.py 43-56: vectorized_poly_area, row by row: every operation is applied
    along axis 1 to all rows at once. *)
Definition vectorized_poly_area (x y : list (list Q)) : res (list Q) :=
  if negb (Nat.eqb (List.length x) (List.length y)) then Err ValueError
  else if negb (forallb (fun r => Nat.eqb (List.length (fst r)) (List.length (snd r))) (combine x y)) then Err ValueError
  else if existsb (fun r => Nat.eqb (List.length r) 0) x then Err IndexError
  else
    let det := map2 (map2 Qminus) (map2 (map2 Qmult) (map (@removelast Q) x) (map (@tl Q) y))
                    (map2 (map2 Qmult) (map (@tl Q) x) (map (@removelast Q) y)) in
    let area := map qsum det in
    let wrap := map2 Qminus (map2 Qmult (map (fun r => last r 0%Q) x) (map (hd 0%Q) y))
                     (map2 Qmult (map (hd 0%Q) x) (map (fun r => last r 0%Q) y)) in
    let area := map2 Qplus area wrap in
    Ok (map (fun a => a * (1 # 2))%Q area).

(** Two-dimensional arrays as lists of rows.  [a[:-1]], [a[1:]] along each axis. *)
Definition arr (A : Type) := list (list A).
(** [a[:-1]] *)
Definition top {A} (a : arr A) : arr A := removelast a.
(** [a[1:]] *)
Definition bottom {A} (a : arr A) : arr A := tl a.
(** [a[:, :-1]] *)
Definition left {A} (a : arr A) : arr A := map (@removelast A) a.
(** [a[:, 1:]] *)
Definition right {A} (a : arr A) : arr A := map (@tl A) a.
(** [np.dstack((x, y))] (clipping.py 106). *)
Definition dstack (x y : arr Q) : arr pt := map2 (map2 pair) x y.

(** clipping.py 93-114: polys_from_quadmesh; [x] and [y] of the same shape M x N. *)
Definition quad4 (a b c d : pt) : poly := [a; b; c; d].
(** clipping.py 108-113: the four corners of every face. *)
Definition zip4 (a b c d : arr pt) : arr poly :=
  map2 (map2 (fun ab cd => quad4 (fst ab) (snd ab) (fst cd) (snd cd)))
       (map2 (map2 pair) a b) (map2 (map2 pair) c d).
(** clipping.py 93-114: polys_from_quadmesh. *)
Definition polys_from_quadmesh (x y : arr Q) : arr poly :=
  let v := dstack x y in
  zip4 (left (top v)) (right (top v)) (right (bottom v)) (left (bottom v)).

(** Reshape to rows of length [n] ([fuel] rows at most). *)
Fixpoint reshape {A} (rows n : nat) (l : list A) : arr A :=
  match rows with O => [] | S r => firstn n l :: reshape r n (skipn n l) end.

(** clipping.py 151-158, 170-180: cell centres and signed cell areas of the mesh. *)
Definition qavg4 (a b c d : Q) : Q := ((a + b + c + d) / 4)%Q.
(** clipping.py 151-156: the centres along one coordinate. *)
Definition centres (e : arr Q) : arr Q :=
  map2 (map2 (fun ab cd => qavg4 (fst ab) (snd ab) (fst cd) (snd cd)))
       (map2 (map2 pair) (left (top e)) (right (bottom e)))
       (map2 (map2 pair) (left (bottom e)) (right (top e))).
(** clipping.py 170-180: quad_areas. *)
Definition quad_areas (x y : arr Q) : res (arr Q) :=
  let quads := polys_from_quadmesh x y in
  let quads_flat := List.concat quads in
  a <- vectorized_poly_area (map (map fst) quads_flat) (map (map snd) quads_flat) ;;
  let ctr := centres x in
  Ok (reshape (List.length ctr) (match ctr with r :: _ => List.length r | [] => 0 end) a).

(** [np.meshgrid(xs, ys)] (indexing 'xy': first axis y) and with indexing='ij'. *)
Definition meshgrid_x (xs ys : list Q) : arr Q := map (fun _ => xs) ys.
(** The y values of [np.meshgrid(xs, ys)]. *)
Definition meshgrid_y (xs ys : list Q) : arr Q := map (fun y => map (fun _ => y) xs) ys.
(** The x values of [np.meshgrid(xs, ys, indexing='ij')]. *)
Definition meshgrid_ij_x (xs ys : list Q) : arr Q := map (fun x => map (fun _ => x) ys) xs.
(** The y values of [np.meshgrid(xs, ys, indexing='ij')]. *)
Definition meshgrid_ij_y (xs ys : list Q) : arr Q := map (fun _ => ys) xs.
