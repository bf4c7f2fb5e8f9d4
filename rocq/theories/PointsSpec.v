(** Specification vocabulary for point data made of flashes, groups and events. *)
From Coq Require Import List ZArith QArith Bool Permutation Sorted.
From Verif Require Import Base Traversal TraversalSpec Glm GlmSpec ChunkSpec Points.
Import ListNotations.
Open Scope Z_scope.

Local Notation tbl := (table obs).

(** [k] is [z] read as a signed integer of the given number of bits. *)
Definition low_bits (bits z k : Z) : Prop :=
  - 2 ^ (bits - 1) <= k < 2 ^ (bits - 1) /\ exists n, z = k + n * 2 ^ bits.
(** [v] seconds lie between two times in nanoseconds. *)
Definition seconds (t0 t1 : Z) (v : fval) : Prop := exists s, v = Some s /\ (s * inject_Z 1000000000 == inject_Z (t1 - t0))%Q.
(** Seconds from the base date; NaN without a base date. *)
Definition seconds_from (base : option Z) (t : Z) (v : fval) : Prop :=
  match base with Some b => seconds b t v | None => v = None end.

(** One output for every row, in some order. *)
Definition one_each {A B} (R : A -> B -> Prop) (rows : list A) (out : list B) : Prop :=
  exists rows', Permutation rows' rows /\ Forall2 R rows' out.

(** A point at an event, belonging to the parent [key]. *)
Definition event_point (ck : clock) (base : option Z) (key : row obs -> Z) (e : row obs) (c : child) : Prop :=
  low_bits 32 (key e) (c_id c) /\ c_lat c = o_lat (rdat e) /\ c_lon c = o_lon (rdat e) /\
  seconds_from base (t_event ck (rid e)) (c_time c) /\ c_power c = o_energy (rdat e) /\ (c_alt c == 0)%Q.
(** The parent made of a flash, group or event lasting from [t0] to [t1]. *)
Definition parent_point (t0 t1 : Z -> Z) (base : option Z) (area : row obs -> fval) (r : row obs) (p : parent) : Prop :=
  low_bits 32 (rid r) (p_id p) /\ p_area p = area r /\ p_energy p = o_energy (rdat r) /\
  p_ctr_lat p = o_lat (rdat r) /\ p_ctr_lon p = o_lon (rdat r) /\
  p_init_lat p = o_lat (rdat r) /\ p_init_lon p = o_lon (rdat r) /\
  (p_ctr_alt p == 0)%Q /\ (p_init_alt p == 0)%Q /\ (p_specific p == 0)%Q /\
  seconds_from base (t0 (rid r)) (p_start p) /\
  match base with Some _ => seconds (t0 (rid r)) (t1 (rid r)) (p_duration p) | None => p_duration p = None end.

(** Every child names a parent. *)
Definition self_contained (w : list child * list parent) : Prop :=
  forall c, In c (fst w) -> exists p, In p (snd w) /\ p_id p = c_id c.

(** All children and parents at one level of several batches. *)
Definition children (level : batch -> list child * list parent) (bs : list batch) : list child :=
  List.concat (map (fun b => fst (level b)) bs).
Definition parents (level : batch -> list child * list parent) (bs : list batch) : list parent :=
  List.concat (map (fun b => snd (level b)) bs).
(** A parent without its number of points. *)
Definition but_n (p : parent) : parent :=
  mkParent (p_area p) (p_energy p) (p_specific p) (p_ctr_lat p) (p_ctr_lon p) (p_ctr_alt p)
    (p_start p) (p_duration p) (p_init_lat p) (p_init_lon p) (p_init_alt p) (p_id p) 0.
