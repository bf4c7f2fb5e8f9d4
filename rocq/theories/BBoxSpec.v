(** Specification vocabulary for the cell lookup on a regular mesh. *)
From Coq Require Import List ZArith QArith Bool.
From Verif Require Import Base Poly BBox.
Import ListNotations.
Local Open Scope Q_scope.

Definition edge (e : list Q) (k : nat) : Q := nth k e 0.
Definition increasing (e : list Q) : Prop := forall i j, (i < j < List.length e)%nat -> edge e i < edge e j.
Definition decreasing (e : list Q) : Prop := forall i j, (i < j < List.length e)%nat -> edge e j < edge e i.
(** Cell [k] of an axis (between edges k and k+1) and the closed interval [a, b]
    have a point in common. *)
Definition meets (e : list Q) (k : nat) (a b : Q) : Prop :=
  (S k < List.length e)%nat /\ exists v, a <= v <= b /\ (edge e k <= v <= edge e (S k) \/ edge e (S k) <= v <= edge e k).
(** The mesh made from edges [xs], [ys] by np.meshgrid with 'xy' or 'ij' indexing. *)
Definition regular_xy (xs ys : list Q) : mesh := mkMesh (meshgrid_x xs ys) (meshgrid_y xs ys) true.
Definition regular_ij (xs ys : list Q) : mesh := mkMesh (meshgrid_ij_x xs ys) (meshgrid_ij_y xs ys) true.
(** The interval [a, b] lies between the outermost edges, not touching the smallest. *)
Definition inside (e : list Q) (a b : Q) : Prop :=
  (increasing e /\ edge e 0 < a /\ b <= edge e (List.length e - 1))%Q \/
  (decreasing e /\ edge e (List.length e - 1) < a /\ b <= edge e 0)%Q.
(** x edges further apart than the tolerance. *)
Definition spread (xs : list Q) : Prop := exists u v, In u xs /\ In v xs /\ (2 # 100000000 < v - u)%Q.
(** [m] is such a mesh and [at_ kx ky] is the index pair of the cell that is number
    [kx] in x and [ky] in y.  With 'ij' indexing the x edges must be further apart
    than the tolerance with which the code recognises constant columns. *)
Inductive made_from (xs ys : list Q) : mesh -> (nat -> nat -> Z * Z) -> Prop :=
| made_xy : made_from xs ys (regular_xy xs ys) (fun kx ky => (Z.of_nat ky, Z.of_nat kx))
| made_ij : spread xs -> made_from xs ys (regular_ij xs ys) (fun kx ky => (Z.of_nat kx, Z.of_nat ky)).
(** Usable edges of an axis. *)
Definition edges_ok (e : list Q) : Prop := (1 < List.length e)%nat /\ (increasing e \/ decreasing e).
(** Cell [k] of an axis contains [v]; a value on an edge belongs to the cell with the smaller values. *)
Definition holds (e : list Q) (k : nat) (v : Q) : Prop :=
  (S k < List.length e)%nat /\ (edge e k < v <= edge e (S k) \/ edge e (S k) < v <= edge e k).
Definition apart (k l : nat) (d : Z) : Prop := (Z.abs (Z.of_nat k - Z.of_nat l) <= d)%Z.
