(** Specification vocabulary for accumulation on a grid. *)
From Coq Require Import List ZArith QArith Bool.
From Verif Require Import Base Glm Lut LutSpec Accum.
Import ListNotations.
Open Scope Z_scope.

(** Index [i] of an axis of length [n] means position [a] (Python convention). *)
Definition means (n i a : Z) : Prop := 0 <= a < n /\ (i = a \/ i = a - n).
(** The item addresses row [a] (by its y index) and column [b] (by its x index). *)
Definition addressed (n0 n1 : Z) (it : item) (a b : Z) : Prop := means n0 (it_y it) a /\ means n1 (it_x it) b.
Definition in_grid (n0 n1 : Z) (it : item) : Prop := exists a b, addressed n0 n1 it a b.
(** No cell is addressed twice by the batch. *)
Definition no_repeat (n0 n1 : Z) (its : list item) : Prop :=
  forall k l a b i j, nth_error its k = Some i -> nth_error its l = Some j ->
    addressed n0 n1 i a b -> addressed n0 n1 j a b -> k = l.

(** Boolean form of [addressed], to select the values sent to a cell. *)
Definition meansb (n i a : Z) : bool := (0 <=? a) && (a <? n) && ((i =? a) || (i =? a - n)).
Definition sent_to (n0 n1 a b : Z) (its : list item) : list fval :=
  map it_v (filter (fun it => meansb n0 (it_y it) a && meansb n1 (it_x it) b) its).

Definition in_range (n0 n1 a b : Z) : Prop := 0 <= a < n0 /\ 0 <= b < n1.
(** Sum of floats with NaN absorbing, as an exact number. *)
Definition adds_to (old : fval) (l : list fval) (v : fval) : Prop :=
  match old with
  | None => v = None
  | Some q => (numbers l -> is_num v (q + total l)%Q) /\ (~ numbers l -> v = None)
  end.

Definition positive (v : fval) : Prop := exists q, v = Some q /\ (0 < q)%Q.
(** Same float: the same number, or NaN both. *)
Definition feq (u v : fval) : Prop :=
  match u, v with Some a, Some b => (a == b)%Q | None, None => True | _, _ => False end.
