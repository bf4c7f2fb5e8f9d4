(** Specification vocabulary for the times of opened GLM files. *)
From Coq Require Import List ZArith QArith Bool String.
From Verif Require Import Base Traversal Glm Times.
Import ListNotations.
Open Scope Z_scope.

(** The rows of a source without their times. *)
Definition plain (s : source) : list (table obs) := map (map (fun r => mkRow (rid r) (rpid r) (fst (rdat r)))) (s_rows s).
(** The times of flashes, groups and events. *)
Definition flash_times : list string :=
  ["flash_time_offset_of_first_event"; "flash_time_offset_of_last_event"; "flash_frame_time_offset_of_first_event"; "flash_frame_time_offset_of_last_event"]%string.
Definition group_times : list string := ["group_time_offset"; "group_frame_time_offset"]%string.
Definition event_times : list string := ["event_time_offset"]%string.
(** From 2018-10-15T00:00:00 to 2018-11-06T00:00:00 UTC. *)
Definition problem_period (s : source) : Prop := (1539561600 <= fst (s_bounds s))%Q /\ (snd (s_bounds s) <= 1541462400)%Q.
(** All variables of times are there; their codes have 16 bits. *)
Definition complete (s : source) : Prop := forall v, In v (flash_times ++ group_times ++ event_times) -> s_attr s v <> None.
Definition coded (s : source) : Prop := forall T r v, In T (s_rows s) -> In r T -> -32768 <= snd (rdat r) v <= 32767.
(** The time that a code stands for when it is the number 0 to 65535 with the same 16 bits,
    and when it is the number as the _Unsigned attribute says. *)
Definition stands_for (a : tattr) (u : Z) (t : fval) : Prop := exists q, t = Some q /\ (q == ta_epoch a + ta_offset a + ta_scale a * inject_Z u)%Q.
Definition unsigned_time (a : tattr) (code : Z) (t : fval) : Prop :=
  (ta_fill a = Some code /\ t = None) \/
  (ta_fill a <> Some code /\ exists u, 0 <= u < 65536 /\ u mod 65536 = code mod 65536 /\ stands_for a u t).
Definition marked_time (a : tattr) (code : Z) (t : fval) : Prop :=
  if ta_unsigned a then unsigned_time a code t
  else (ta_fill a = Some code /\ t = None) \/ (ta_fill a <> Some code /\ stands_for a code t).
(** A row of the file and the same one in the dataset, with times by [rel]. *)
Definition times_by (rel : tattr -> Z -> fval -> Prop) (s : source) (vars : list string) (r : row (obs * codes)) (r' : row times) : Prop :=
  rid r' = rid r /\ rpid r' = rpid r /\
  forall v a, In v vars -> s_attr s v = Some a -> exists t, rdat r' v = Some t /\ rel a (snd (rdat r) v) t.
