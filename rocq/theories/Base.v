(** Shared vocabulary of the model: Python exceptions as values, NumPy fancy
    indexing, [np.unique] and dictionaries produced by xarray's [groupby]. *)
From Coq Require Import List ZArith QArith Bool String.
Import ListNotations.
Open Scope Z_scope.

(** Exceptions that the modelled code can raise.  [UnboundLocalError] is a
    subclass of [NameError] in Python, the last two of [OSError]; all are kept apart
    here. *)
Inductive exn :=
| ValueError | KeyError | AttributeError | IndexError | NameError
| UnboundLocalError | TypeError | ZeroDivisionError | OverflowError
| OSError | FileNotFoundError | NotADirectoryError.

(** Result of a Python call: a value or a raised exception. *)
Inductive res (A : Type) := Ok (a : A) | Err (e : exn).
Arguments Ok {A} _.
Arguments Err {A} _.

(** A pure step after a call that may raise (Python exception propagation). *)
Definition res_map {A B} (f : A -> B) (r : res A) : res B :=
  match r with Ok a => Ok (f a) | Err e => Err e end.
(** Sequencing of calls that may raise (Python exception propagation). *)
Definition bind {A B} (r : res A) (f : A -> res B) : res B :=
  match r with Ok a => f a | Err e => Err e end.
Notation "x <- r ;; f" := (bind r (fun x => f))
  (at level 61, r at next level, right associativity).

(** A Python [for] loop whose body may raise. *)
Fixpoint fold_res {A S} (f : S -> A -> res S) (l : list A) (s : S) : res S :=
  match l with
  | [] => Ok s
  | a :: l' => s' <- f s a ;; fold_res f l' s'
  end.

(** [[f(a) for a in l]] where [f] may raise. *)
Fixpoint map_res {A B} (f : A -> res B) (l : list A) : res (list B) :=
  match l with
  | [] => Ok []
  | a :: l' => b <- f a ;; bs <- map_res f l' ;; Ok (b :: bs)
  end.

(** Fancy indexing [l[idx]] with a list of non-negative indices. *)
Fixpoint gather {A} (l : list A) (idx : list nat) : res (list A) :=
  match idx with
  | [] => Ok []
  | i :: r => match nth_error l i with
              | None => Err IndexError
              | Some a => t <- gather l r ;; Ok (a :: t)
              end
  end.

(** Replace the element at position [k] (no effect when out of range). *)
Fixpoint set_nth {A} (k : nat) (a : A) (l : list A) : list A :=
  match l, k with
  | [], _ => []
  | _ :: l', O => a :: l'
  | x :: l', S k' => x :: set_nth k' a l'
  end.

(** [np.unique] on integers: sorted, without repetition. *)
Fixpoint zinsert (x : Z) (l : list Z) : list Z :=
  match l with
  | [] => [x]
  | y :: l' => if x <? y then x :: l
               else if x =? y then l
               else y :: zinsert x l'
  end.
(** [np.unique], used at traversal.py 270 and 280. *)
Definition zunique (l : list Z) : list Z := fold_right zinsert [] l.

(** [x in s] for a set or array of integers. *)
Definition zmem (x : Z) (l : list Z) : bool := existsb (Z.eqb x) l.

(** Python set operations on sets of integers, represented by their sorted
    duplicate-free list of elements. *)
Definition zset_inter (a b : list Z) : list Z := filter (fun x => zmem x b) a.
(** [a - b] of traversal.py 348-349. *)
Definition zset_diff (a b : list Z) : list Z := filter (fun x => negb (zmem x b)) a.

(** The dictionary [dataset.groupby(var).groups] of xarray: it maps each value
    of the grouped variable to the increasing list of positions holding it.
    It is represented by the grouped variable itself. *)
Fixpoint positions (n : nat) (k : Z) (vals : list Z) : list nat :=
  match vals with
  | [] => []
  | v :: r => if v =? k then n :: positions (S n) k r else positions (S n) k r
  end.

(** [k in groups] / [groups[k]]: [None] when the key is absent. *)
Definition groups_get (vals : list Z) (k : Z) : option (list nat) :=
  match positions 0 k vals with [] => None | l => Some l end.

(** [list(itertools.chain.from_iterable(g[k] for k in keys if k in g))] *)
Definition groups_chain (vals : list Z) (keys : list Z) : list nat :=
  flat_map (fun k => match groups_get vals k with Some l => l | None => [] end) keys.

(** Sum of rationals. *)
Definition qsum (l : list Q) : Q := fold_right Qplus 0%Q l.
