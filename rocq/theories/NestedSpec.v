(** Specification vocabulary for grids of different resolution. *)
From Coq Require Import List ZArith QArith Bool.
From Verif Require Import Base Glm Lut LutSpec Accum Poly PolySpec BBox BBoxSpec Slice SliceSpec Pipeline PipelineSpec.
Import ListNotations.
Local Open Scope Q_scope.

(** Cell [k] of the axis with edges [e] consists of the [n] cells of the axis with edges
    [e'] that begin with number [a]. *)
Definition consists_of (e e' : list Q) (k a n : nat) : Prop :=
  (S k < List.length e)%nat /\ (1 <= n)%nat /\ (a + n < List.length e')%nat /\ edge e k == edge e' a /\ edge e (S k) == edge e' (a + n).
(** Sum of a block of cells of a grid. *)
Definition block (g : grid) (ax nx ay ny : nat) : Q :=
  qsum (map (fun ix => qsum (map (fun iy => num (g_at g (Z.of_nat ix) (Z.of_nat iy))) (seq ay ny))) (seq ax nx)).
(** The clipping library returns no pieces without size. *)
Definition solid (clip : poly -> poly -> list poly) : Prop := forall p c piece, In piece (clip p c) -> 0 < size piece.
