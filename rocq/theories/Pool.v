(** Model of the parallel map of glmtools/grid/clipping.py 660-671 (run_pool_map), with the
    scheduling of Python's ProcessPoolExecutor: arguments are cut into chunks, workers take
    chunks in order and finish in any order, and a worker may die. *)
From Coq Require Import List ZArith Bool.
From Verif Require Import Base.
Import ListNotations.
Open Scope nat_scope.

Section POOL.
Context {A B : Type}.
(** The function mapped, which may raise. *)
Variable f : A -> res B.

(** Chunks of [n] arguments, as [pool.map(f, a, chunksize=n)] makes them (clipping.py 669);
    [fuel] is at least the number of arguments. *)
Fixpoint get_chunks (fuel n : nat) (l : list A) : list (list A) :=
  match fuel, l with
  | S k, _ :: _ => firstn n l :: get_chunks k n (skipn n l)
  | _, _ => []
  end.
(** What a worker does with a chunk: a list of results, or the exception of the first
    argument that raises. *)
Definition process_chunk (c : list A) : res (list B) := map_res f c.

(** What is known of a chunk in the end; [Lost]: its worker died or it was never begun. *)
Inductive outcome := Result (l : list B) | Raised (e : exn) | Lost.
(** Chunks waiting, chunks with a worker, and chunks that are over. *)
Record pool := mkPool { waiting : list nat; running : list nat; over : list (nat * outcome); broken : bool }.
(** The pool after [pool.map] has submitted the chunks (clipping.py 668-669). *)
Definition submitted (chunks : list (list A)) : pool := mkPool (seq 0 (length chunks)) [] [] false.
(** One thing that happens in a pool of [workers] workers. *)
Inductive happens (workers : nat) (chunks : list (list A)) : pool -> pool -> Prop :=
| begins : forall i w r o, length r < workers ->
    happens workers chunks (mkPool (i :: w) r o false) (mkPool w (r ++ [i]) o false)
| ends : forall w r1 i r2 o,
    happens workers chunks (mkPool w (r1 ++ i :: r2) o false)
      (mkPool w (r1 ++ r2) ((i, match process_chunk (nth i chunks []) with Ok l => Result l | Err e => Raised e end) :: o) false)
| dies : forall w r o, r <> [] ->
    happens workers chunks (mkPool w r o false) (mkPool [] [] (map (fun i => (i, Lost)) (r ++ w) ++ o) true).
(** Any number of things. *)
Inductive reaches (workers : nat) (chunks : list (list A)) : pool -> pool -> Prop :=
| stays : forall p, reaches workers chunks p p
| goes : forall p q r, happens workers chunks p q -> reaches workers chunks q r -> reaches workers chunks p r.
(** The [with] block ends when no chunk is waiting or has a worker (clipping.py 668-671). *)
Definition all_over (p : pool) : Prop := waiting p = [] /\ running p = [].

(** How iterating over the results ends: after the last, with an exception of [f], or with
    the error of a broken pool. *)
Inductive ending := AtEnd | Raises (e : exn) | PoolBroken.
(** Iterating over the results, chunk by chunk in the order of submission. *)
Fixpoint iterate (o : list (nat * outcome)) (is : list nat) : list B * ending :=
  match is with
  | [] => ([], AtEnd)
  | i :: r =>
      match find (fun p => Nat.eqb (fst p) i) o with
      | Some (_, Result l) => let (rest, e) := iterate o r in (l ++ rest, e)
      | Some (_, Raised e) => ([], Raises e)
      | _ => ([], PoolBroken)
      end
  end.
(** clipping.py 660-671: the call raises only for a chunk size or number of workers below 1;
    otherwise it returns an iterator, here with what iterating over it gives, and whether a
    worker died. *)
Inductive run_pool_map (a : list A) (max_workers chunksize : nat) : bool -> res (list B * ending) -> Prop :=
| bad_arguments : max_workers = 0 \/ chunksize = 0 -> run_pool_map a max_workers chunksize false (Err ValueError)
| pool_run : forall p, max_workers <> 0 -> chunksize <> 0 ->
    reaches max_workers (get_chunks (length a) chunksize a) (submitted (get_chunks (length a) chunksize a)) p -> all_over p ->
    run_pool_map a max_workers chunksize (broken p) (Ok (iterate (over p) (seq 0 (length (get_chunks (length a) chunksize a))))).
End POOL.
