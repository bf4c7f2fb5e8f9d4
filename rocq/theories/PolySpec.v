(** Specification vocabulary for polygons and meshes. *)
From Coq Require Import List ZArith QArith Bool.
From Verif Require Import Base Poly.
Import ListNotations.

Local Open Scope Q_scope.
Definition cross (a b : pt) : Q := fst a * snd b - snd a * fst b.
(** Twice the signed area: the cross products of consecutive vertices, cyclically. *)
Definition vertex (p : poly) (i : nat) : pt := nth (i mod List.length p) p (0, 0).
Definition double_area (p : poly) : Q :=
  qsum (map (fun i => cross (vertex p i) (vertex p (S i))) (seq 0 (List.length p))).
Definition signed_area (p : poly) : Q := double_area p / 2.

Definition translate (t : pt) (p : poly) : poly := map (fun v => (fst v + fst t, snd v + snd t)) p.
(** The linear map with matrix rows (a b), (c d). *)
Definition linear (a b c d : Q) (p : poly) : poly :=
  map (fun v => (a * fst v + b * snd v, c * fst v + d * snd v)) p.
Definition triangle (a b c : pt) : Q := ((fst b - fst a) * (snd c - snd a) - (fst c - fst a) * (snd b - snd a)) / 2.

(** An M x N array. *)
Definition shape {A} (m n : nat) (a : arr A) : Prop :=
  List.length a = m /\ Forall (fun r => List.length r = n) a.
Definition entry {A} (d : A) (a : arr A) (i j : nat) : A := nth j (nth i a []) d.
(** The vertex of the mesh at (i, j). *)
Definition node (x y : arr Q) (i j : nat) : pt := (entry 0 x i j, entry 0 y i j).
(** The outline of an M x N mesh: along row 0, column N-1, row M-1 backwards,
    column 0 backwards. *)
Definition outline (x y : arr Q) (m n : nat) : poly :=
  map (fun j => node x y 0 j) (seq 0 (n - 1)) ++
  map (fun i => node x y i (n - 1)) (seq 0 (m - 1)) ++
  map (fun j => node x y (m - 1) (n - 1 - j)) (seq 0 (n - 1)) ++
  map (fun i => node x y (m - 1 - i) 0) (seq 0 (m - 1)).
Definition sum_cells (a : arr Q) : Q := qsum (map qsum a).
