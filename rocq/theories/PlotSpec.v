(** Vocabulary of the statements about the plots of gridded data (C83). *)
From Coq Require Import List ZArith QArith Bool String.
From Verif Require Import Base Glm Aggregate Plot.
Import ListNotations.
Open Scope Q_scope.

(** Where imshow with origin='upper' draws the centre of column [c] and of row [r]: the extent
    is divided into equal cells, row 0 on top (matplotlib's documented behaviour). *)
Definition drawn_x (p : panel) (c : nat) : Q :=
  pn_left p + (inject_Z (Z.of_nat c) + (1 # 2)) * (pn_right p - pn_left p) / inject_Z (Z.of_nat (pn_cols p)).
Definition drawn_y (p : panel) (r : nat) : Q :=
  pn_top p - (inject_Z (Z.of_nat r) + (1 # 2)) * (pn_top p - pn_bottom p) / inject_Z (Z.of_nat (pn_rows p)).

(** Coordinates spaced evenly by [d], starting at [a]. *)
Definition evenly (a d : Q) (l : list Q) : Prop :=
  forall i v, nth_error l i = Some v -> v == a + inject_Z (Z.of_nat i) * d.

(** The stored value of a field at a time and pixel, when there is exactly one image of that time. *)
Definition stored (g : gridded) (t : Z) (f : string) (r c : nat) (v : fval) : Prop :=
  In f (s_vars (gr_series g)) /\
  exists pre fr post, s_frames (gr_series g) = (pre ++ fr :: post)%list /\ fr_time fr = t /\
    Forall (fun fr' => fr_time fr' <> t) (pre ++ post)%list /\ fr_at fr f (r, c) = v.
