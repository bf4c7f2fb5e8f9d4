(** Specification vocabulary for clipping in integer coordinates. *)
From Coq Require Import List ZArith QArith Qabs Bool.
From Verif Require Import Base Poly PolySpec SliceSpec Scaled.
Import ListNotations.

Local Open Scope Q_scope.
(** An integer polygon seen as a polygon, its coordinates in units of 2**-31. *)
Definition whole (p : ipoly) : poly := map (fun v => (inject_Z (fst v), inject_Z (snd v))) p.
(** The step of the integer coordinates: 2**-31. *)
Definition step : Q := 1 # 2147483648.
(** The lengths of the two diagonals of a quadrilateral, added up (each measured along the
    axes). *)
Definition diagonals (a b c d : pt) : Q :=
  Qabs (fst a - fst c) + Qabs (snd a - snd c) + (Qabs (fst b - fst d) + Qabs (snd b - snd d)).
(** How far the size of the quadrilateral can move when its corners move to integer
    coordinates. *)
Definition slack (p : poly) : Q :=
  match p with [a; b; c; d] => step * diagonals a b c d + 4 * (step * step) | _ => 0 end.
(** [v] is [w] up to [e]. *)
Definition within (e v w : Q) : Prop := Qabs (v - w) <= e.
(** The pieces the library makes of the integer polygon [p] with the integer cells add up to
    its size, up to [eta] square steps. *)
Definition tiled (iclip : ipoly -> ipoly -> list ipoly) (eta : Q) (p : ipoly) (cells : list ipoly) : Prop :=
  within eta (qsum (map (fun c => size (whole c)) (flat_map (iclip p) cells))) (size (whole p)).
(** The same for the part of a cell in polygons: the pieces in the integer cell [q] add up
    to its size. *)
Definition filled (iclip : ipoly -> ipoly -> list ipoly) (eta : Q) (q : ipoly) (polys : list ipoly) : Prop :=
  within eta (qsum (map (fun c => size (whole c)) (flat_map (fun p => iclip p q) polys))) (size (whole q)).
