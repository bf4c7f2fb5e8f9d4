(** Specification vocabulary for selections that want less. *)
From Coq Require Import List ZArith QArith Bool.
From Verif Require Import Base Traversal Glm GlmSpec Lut LutSpec.
Import ListNotations.
Open Scope Z_scope.
Local Notation tbl := (table obs).

(** A range inside the other one; a missing range allows everything. *)
Definition range_in (a b : option (Q * Q)) : Prop :=
  match b with
  | None => True
  | Some (lo, hi) => exists lo' hi', a = Some (lo', hi') /\ (lo <= lo')%Q /\ (hi' <= hi)%Q
  end.
(** A minimum at least as large as the other one. *)
Definition at_least (a b : option Z) : Prop :=
  match b with None => True | Some m => exists m', a = Some m' /\ m <= m' end.
(** [q'] asks for everything that [q] asks for. *)
Definition stricter (q' q : query) : Prop :=
  range_in (q_lon q') (q_lon q) /\ range_in (q_lat q') (q_lat q) /\ range_in (q_x q') (q_x q) /\ range_in (q_y q') (q_y q) /\
  at_least (q_min_events q') (q_min_events q) /\ at_least (q_min_groups q') (q_min_groups q).
(** The same when there may be no selection at all. *)
Definition selects_less (q' q : option query) : Prop :=
  match q with None => True | Some a => exists b, q' = Some b /\ stricter b a end.

(** Two numbers in this order. *)
Definition fle (u v : fval) : Prop := exists a b, u = Some a /\ v = Some b /\ (a <= b)%Q.
(** Energies and areas of a file are not negative. *)
Definition not_negative (ds : list tbl) : Prop :=
  forall T r v, In T ds -> In r T -> o_energy (rdat r) = Some v \/ o_area (rdat r) = Some v -> (0 <= v)%Q.
(** What a pixel has in one table is not more than what it has in another one, and its
    smallest flash is not smaller. *)
Definition no_more (r' r : lutrow) : Prop :=
  lu_id r' = lu_id r /\ (lu_count r' <= lu_count r)%nat /\ (lu_fcount r' <= lu_fcount r)%nat /\ (lu_gcount r' <= lu_gcount r)%nat /\
  fle (lu_energy r') (lu_energy r) /\ fle (lu_farea r') (lu_farea r) /\ fle (lu_garea r') (lu_garea r) /\ fle (lu_minarea r) (lu_minarea r').
