(** Specification vocabulary for hierarchical datasets: written on the rows of
    the tables only, without reference to group dictionaries, index lists or
    loops. *)
From Coq Require Import List ZArith Bool String Sorting.Sorted.
From Verif Require Import Base Traversal.
Import ListNotations.
Open Scope Z_scope.

Section Spec.
Context {P : Type}.

(** Rows of a table with a given id, and with a given parent id, in table order. *)
Definition with_id (T : table P) (i : Z) : table P := filter (fun r => rid r =? i) T.
Definition with_parent (T : table P) (i : Z) : table P := filter (fun r => rpid r =? i) T.

(** A tree is consistent when ids are unique on each level and every row below
    the top names an existing row of the level above. *)
Definition unique_ids (ds : list (table P)) : Prop :=
  forall j T, nth_error ds j = Some T -> NoDup (map rid T).
Definition no_orphans (ds : list (table P)) : Prop :=
  forall j A B, nth_error ds j = Some A -> nth_error ds (S j) = Some B ->
  forall s, In s B -> exists r, In r A /\ rid r = rpid s.
Definition consistent (ds : list (table P)) : Prop := unique_ids ds /\ no_orphans ds.

(** [reaches ds m ids j r]: row [r] of level [j] is one of the rows asked for at
    level [m], or its chain of parent ids leads to a requested id. *)
Inductive reaches (ds : list (table P)) (m : nat) (ids : list Z) : nat -> row P -> Prop :=
| reach_self : forall T r, nth_error ds m = Some T -> In r T -> In (rid r) ids ->
    reaches ds m ids m r
| reach_child : forall T r, nth_error ds (S m) = Some T -> In r T -> In (rpid r) ids ->
    reaches ds m ids (S m) r
| reach_down : forall j T q r, (m < j)%nat -> reaches ds m ids j q ->
    nth_error ds (S j) = Some T -> In r T -> rpid r = rid q ->
    reaches ds m ids (S j) r.

(** [ancestor ds j r m a]: following parent ids from row [r] of level [j] leads
    to the id [a] of level [m]. *)
Inductive ancestor (ds : list (table P)) : nat -> row P -> nat -> Z -> Prop :=
| anc_parent : forall j r, ancestor ds (S j) r j (rpid r)
| anc_up : forall j r m q T a, ancestor ds j r (S m) a ->
    nth_error ds (S m) = Some T -> In q T -> rid q = a ->
    ancestor ds j r m (rpid q).

(** Complete description of the result of pruning level [m] to [ids]. *)
Definition pruned (ds : list (table P)) (m : nat) (ids : list Z) (out : list (table P)) : Prop :=
  List.length out = List.length ds /\
  (forall T, nth_error ds m = Some T ->
     nth_error out m = Some (flat_map (with_id T) ids)) /\
  (forall T, nth_error ds (S m) = Some T ->
     nth_error out (S m) = Some (flat_map (with_parent T) ids)) /\
  (forall j T U, (m < j)%nat -> nth_error ds (S j) = Some T -> nth_error out j = Some U ->
     nth_error out (S j) = Some (flat_map (fun q => with_parent T (rid q)) U)) /\
  (forall j T U, (j < m)%nat -> nth_error ds j = Some T -> nth_error out (S j) = Some U ->
     exists ks, StronglySorted Z.lt ks /\
       (forall k, In k ks <-> exists s, In s U /\ rpid s = k) /\
       nth_error out j = Some (flat_map (with_id T) ks)).
End Spec.

(** [l] lists the set [S], each element once, in increasing order. *)
Definition lists_set (l : list Z) (S : Z -> Prop) : Prop :=
  StronglySorted Z.lt l /\ forall x, In x l <-> S x.
(** [n] is the number of distinct values among [l]. *)
Definition distinct_count (n : nat) (l : list Z) : Prop :=
  exists d, NoDup d /\ (forall x, In x d <-> In x l) /\ n = List.length d.

