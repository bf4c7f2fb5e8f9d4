(** Lemmas about the times of opened GLM files. *)
From Coq Require Import List ZArith QArith Bool String Lia Lqa Permutation.
From Verif Require Import Base BaseProofs Traversal TraversalSpec TraversalProofs TraversalProofs2 TraversalProofs3 TraversalProofs4
  Glm GlmSpec GlmProofs GlmProofs2 GlmProofs4 Times TimesSpec.
Import ListNotations.
Open Scope Z_scope.

(** * Other payloads *)
Section Payload.
Context {A B : Type}.
Variable f : A -> B.
Notation g := (map (with_data f)).
Lemma map_rid_data : forall T : table A, map rid (g T) = map rid T.
Proof. intros. rewrite map_map. reflexivity. Qed.
Lemma map_rpid_data : forall T : table A, map rpid (g T) = map rpid T.
Proof. intros. rewrite map_map. reflexivity. Qed.
Lemma with_id_data : forall (T : table A) i, with_id (g T) i = g (with_id T i).
Proof. intros T i. unfold with_id. induction T as [|r T IH]; [reflexivity|]. cbn. destruct (rid r =? i); cbn; rewrite IH; reflexivity. Qed.
Lemma with_parent_data : forall (T : table A) i, with_parent (g T) i = g (with_parent T i).
Proof. intros T i. unfold with_parent. induction T as [|r T IH]; [reflexivity|]. cbn. destruct (rpid r =? i); cbn; rewrite IH; reflexivity. Qed.
Lemma flat_map_data : forall X (k : X -> table A) l, flat_map (fun x => g (k x)) l = g (flat_map k l).
Proof. induction l as [|x l IH]; [reflexivity|]. cbn. rewrite map_app, IH. reflexivity. Qed.
Lemma flat_map_ext2 : forall X Y (p q : X -> list Y) l, (forall x, p x = q x) -> flat_map p l = flat_map q l.
Proof. intros X Y p q l H. induction l as [|x l IH]; [reflexivity|]. cbn. rewrite H, IH. reflexivity. Qed.
Lemma g_nil : forall T : table A, T <> [] -> g T <> [].
Proof. intros [|r T] H; [congruence|discriminate]. Qed.
End Payload.
Section Payloads.
Context {A B : Type}.
Variables f0 f1 f2 : A -> B.
Lemma pair_stats_data : forall (f f' : A -> B) (X Y : table A), pair_stats (map (with_data f) X) (map (with_data f') Y) = pair_stats X Y.
Proof. intros. unfold pair_stats. rewrite !map_rid_data, !map_rpid_data. reflexivity. Qed.
Definition map3 (l : list (table A)) : list (table B) :=
  match l with [X; Y; Z] => [map (with_data f0) X; map (with_data f1) Y; map (with_data f2) Z] | _ => [] end.

(** The repair of the tree looks at ids only. *)
Lemma repair_data : forall so check (F G E : table A), repair so check (map3 [F; G; E]) = res_map map3 (repair so check [F; G; E]).
Proof.
  intros so [|] F G E; [|reflexivity]. cbn [map3].
  assert (EM : In [] [F; G; E] -> repair so true [map (with_data f0) F; map (with_data f1) G; map (with_data f2) E] = res_map map3 (repair so true [F; G; E])).
  { intros I. rewrite (repair_empty so F G E I). rewrite repair_empty; [reflexivity|]. cbn in I. destruct I as [->|[->|[->|[]]]]; cbn; tauto. }
  destruct F as [|r F]; [apply EM; cbn; auto|]. destruct G as [|r2 G]; [apply EM; cbn; auto|]. destruct E as [|r3 E]; [apply EM; cbn; auto|]. clear EM.
  remember (r :: F) as F1. remember (r2 :: G) as G1. remember (r3 :: E) as E1.
  assert (NF : F1 <> []) by (subst; discriminate). assert (NG : G1 <> []) by (subst; discriminate). assert (NE : E1 <> []) by (subst; discriminate). clear - NF NG NE.
  unfold repair. rewrite !init3. cbn [bind]. rewrite !check3 by (auto using g_nil). rewrite !pair_stats_data. cbn [bind].
  match goal with |- (if ?b then _ else _) = _ => destruct b end; [|reflexivity].
  cbn [assoc]. rewrite String.eqb_refl. cbn [bind nth_error]. rewrite map_rpid_data. rewrite !reduce3 by (auto using g_nil). cbn [res_map map3].
  f_equal. f_equal; [|f_equal; [|f_equal]].
  - rewrite <- flat_map_data. apply flat_map_ext2. intros. apply with_id_data.
  - rewrite <- flat_map_data. apply flat_map_ext2. intros. apply with_parent_data.
  - rewrite (flat_map_ext2 _ _ (with_parent (map (with_data f1) G1)) (fun x => map (with_data f1) (with_parent G1 x))) by (intros; apply with_parent_data). rewrite flat_map_data.
    generalize (flat_map (with_parent G1) (so (zset_diff (zunique (map rpid G1)) (snd (fst (pair_stats F1 G1)))))). intros l. rewrite <- flat_map_data.
    induction l as [|x l IH]; [reflexivity|]. cbn [map flat_map]. rewrite IH. cbn [rid with_data]. rewrite with_parent_data. reflexivity.
Qed.
Lemma repair3 : forall so check (F G E : table A) ds, repair so check [F; G; E] = Ok ds -> exists F0 G0 E0, ds = [F0; G0; E0].
Proof.
  intros so [|] F G E ds H; [|injection H as <-; eauto].
  destruct F as [|r F]; [rewrite repair_empty in H by (cbn; auto); discriminate|]. destruct G as [|r2 G]; [rewrite repair_empty in H by (cbn; auto); discriminate|]. destruct E as [|r3 E]; [rewrite repair_empty in H by (cbn; auto); discriminate|].
  unfold repair in H. rewrite init3 in H. cbn [bind] in H. rewrite check3 in H by discriminate. cbn [bind] in H.
  match type of H with (if ?b then _ else _) = _ => destruct b end; [|injection H as <-; eauto].
  cbn [assoc] in H. rewrite String.eqb_refl in H. cbn [bind nth_error] in H. rewrite reduce3 in H by discriminate. injection H as <-. eauto.
Qed.
End Payloads.
Lemma map3_map : forall A B (f : A -> B) X Y Z, map3 f f f [X; Y; Z] = map (map (with_data f)) [X; Y; Z].
Proof. reflexivity. Qed.

(** * Decoding *)
Lemma decode_unsigned : forall a c, -32768 <= c <= 32767 -> unsigned_time a c (decode_time (make_unsigned a) c).
Proof.
  intros a c R. unfold decode_time, unsigned_time. cbn [ta_fill make_unsigned ta_unsigned ta_epoch ta_offset ta_scale andb].
  assert (X : forall u, 0 <= u < 65536 -> u mod 65536 = c mod 65536 -> u = if c <? 0 then c + 65536 else c).
  { intros u U M. destruct (c <? 0) eqn:S; [apply Z.ltb_lt in S|apply Z.ltb_ge in S].
    - rewrite Z.mod_small in M by lia. replace c with (c + 65536 + (-1) * 65536) in M by lia. rewrite Z.mod_add in M by lia. rewrite Z.mod_small in M by lia. lia.
    - rewrite !Z.mod_small in M by lia. lia. }
  assert (Y : 0 <= (if c <? 0 then c + 65536 else c) < 65536) by (destruct (c <? 0) eqn:S; [apply Z.ltb_lt in S|apply Z.ltb_ge in S]; lia).
  assert (W : (if c <? 0 then c + 65536 else c) mod 65536 = c mod 65536).
  { destruct (c <? 0); [|reflexivity]. replace (c + 65536) with (c + 1 * 65536) by lia. apply Z.mod_add. lia. }
  destruct (ta_fill a) as [z|] eqn:F.
  - destruct (z =? c) eqn:E; [apply Z.eqb_eq in E; subst; left; auto|]. apply Z.eqb_neq in E. right. split; [congruence|]. eexists. split; [exact Y|]. split; [exact W|]. eexists. split; [reflexivity|]. ring.
  - right. split; [congruence|]. eexists. split; [exact Y|]. split; [exact W|]. eexists. split; [reflexivity|]. ring.
Qed.
Lemma decode_marked : forall a c, -32768 <= c <= 32767 -> marked_time a c (decode_time a c).
Proof.
  intros a c R. unfold marked_time. destruct (ta_unsigned a) eqn:U.
  - assert (decode_time a c = decode_time (make_unsigned a) c) as -> by (unfold decode_time; cbn; rewrite U; reflexivity). apply decode_unsigned; auto.
  - unfold decode_time. rewrite U. cbn [andb]. destruct (ta_fill a) as [z|] eqn:F.
    + destruct (z =? c) eqn:E; [apply Z.eqb_eq in E; subst; left; auto|]. apply Z.eqb_neq in E. right. split; [congruence|]. eexists. split; [reflexivity|]. ring.
    + right. split; [congruence|]. eexists. split; [reflexivity|]. ring.
Qed.

(** * Opening *)
Definition opened (s : source) (k : nat) (oc : obs * codes) : obs * times := (fst oc, row_times s k (snd oc)).
Lemma open_dataset_eq : forall s F G E, s_rows s = [F; G; E] -> open_dataset s = map3 (opened s 0) (opened s 1) (opened s 2) [F; G; E].
Proof. intros s F G E H. unfold open_dataset. rewrite H. reflexivity. Qed.

Lemma plain_eq : forall s F G E, s_rows s = [F; G; E] -> plain s = map3 fst fst fst [F; G; E].
Proof. intros s F G E H. unfold plain. rewrite H. reflexivity. Qed.
Lemma map3_plain : forall s F G E, map3 fst fst fst [F; G; E] = map (map (with_data fst)) (map3 (opened s 0) (opened s 1) (opened s 2) [F; G; E]).
Proof. intros. cbn [map3 map]. rewrite !map_map. reflexivity. Qed.

Section Open.
Variable set_order : list Z -> list Z.
Hypothesis set_perm : forall l, Permutation (set_order l) l.
Variable nav : fval -> fval -> fval * fval.

(** The times play no role for the other variables. *)
Lemma timed_split : forall op fx h s F G E r, s_rows s = [F; G; E] -> glm_open set_order nav op h (plain s) = Ok r ->
  exists ds, repair set_order (check_tree op) (open_dataset s) = Ok ds /\
    glm_open_timed set_order nav op fx h s = res_map (fun tm => (r, tm)) (if fx then fix_times s (map (map (with_data snd)) ds) else Ok (map (map (with_data snd)) ds)).
Proof.
  intros op fx h s F G E r HS HO. rewrite open_rest in HO. rewrite (plain_eq s F G E HS) in HO. rewrite repair_data in HO. unfold glm_open_timed. rewrite (open_dataset_eq s F G E HS). rewrite repair_data.
  destruct (repair set_order (check_tree op) [F; G; E]) as [ds|] eqn:ER; [|discriminate HO]. destruct (repair3 _ _ _ _ _ _ ER) as (F0 & G0 & E0 & ->). cbn [res_map bind] in *. rewrite (map3_plain s) in HO. set (ds := map3 (opened s 0) (opened s 1) (opened s 2) [F0; G0; E0]) in *. exists ds. split; [reflexivity|]. cbn [bind]. unfold glm_rest in HO.
  set (d := map (map (with_data fst)) ds) in *.
  destruct (if calculate_parent_child op then d0 <- init_parent_child d;; Ok (init_fixed_grid nav d0) else Ok d) as [ds1|]; [|discriminate]. cbn [bind] in *.
  match goal with |- context [bind ?x _] => destruct x as [tm|e]; [|reflexivity] end. cbn [bind res_map].
  destruct (if opt_area op then check_area_units h (check_area_overflow h ds1) else (h, ds1)) as [h2 ds2].
  destruct (if opt_energy op then change_energy_units h2 (eliminate_zero_energy h2 ds2) else Ok (h2, ds2)) as [r'|]; [|discriminate]. inversion HO; subst. reflexivity.
Qed.
End Open.
Lemma timed_plain : forall so nav op fx h s F G E r tm, s_rows s = [F; G; E] -> glm_open_timed so nav op fx h s = Ok (r, tm) -> glm_open so nav op h (plain s) = Ok r.
Proof.
  intros so nav op fx h s F G E r tm HS H. rewrite open_rest. rewrite (plain_eq s F G E HS). unfold glm_open_timed in H. rewrite (open_dataset_eq s F G E HS) in H. rewrite repair_data in H. rewrite repair_data.
  destruct (repair so (check_tree op) [F; G; E]) as [ds|] eqn:ER; [|discriminate H]. destruct (repair3 _ _ _ _ _ _ ER) as (F0 & G0 & E0 & ->). cbn [res_map bind] in *. rewrite (map3_plain s). set (ds := map3 (opened s 0) (opened s 1) (opened s 2) [F0; G0; E0]) in *. unfold glm_rest. set (d := map (map (with_data fst)) ds) in *.
  destruct (if calculate_parent_child op then d0 <- init_parent_child d;; Ok (init_fixed_grid nav d0) else Ok d) as [ds1|]; [|discriminate]. cbn [bind] in *.
  destruct (if fx then _ else _) as [tm'|]; [|discriminate]. cbn [bind] in *.
  destruct (if opt_area op then check_area_units h (check_area_overflow h ds1) else (h, ds1)) as [h2 ds2].
  destruct (if opt_energy op then change_energy_units h2 (eliminate_zero_energy h2 ds2) else Ok (h2, ds2)) as [r'|]; [|discriminate]. inversion H; subst. reflexivity.
Qed.

(** * The correction *)
Lemma assign_times_ok : forall v k col ds T, nth_error ds k = Some T -> List.length col = List.length T ->
  assign_times v k col ds = Ok (set_nth k (map (fun tr => with_data (fun old w => if String.eqb w v then Some (fst tr) else old w) (snd tr)) (combine col T)) ds).
Proof. intros v k col ds T H L. unfold assign_times. rewrite H. rewrite (proj2 (Nat.eqb_eq _ _) L). reflexivity. Qed.
Lemma assign_times_bad : forall v k col ds T, nth_error ds k = Some T -> List.length col <> List.length T -> assign_times v k col ds = Err ValueError.
Proof. intros v k col ds T H L. unfold assign_times. rewrite H. rewrite (proj2 (Nat.eqb_neq _ _) L). reflexivity. Qed.

(** A column put beside rows by position. *)
Definition put (v : string) (col : list fval) (T : table times) : table times :=
  map (fun tr => with_data (fun old w => if String.eqb w v then Some (fst tr) else old w) (snd tr)) (combine col T).
Lemma put_length : forall v col T, List.length col = List.length T -> List.length (put v col T) = List.length T.
Proof. intros v col T L. unfold put. rewrite map_length, combine_length. lia. Qed.

(** The columns of the file. *)
Definition column (s : source) (v : string) (T : table (obs * codes)) : list fval :=
  match s_attr s v with Some a => map (fun r => decode_time (make_unsigned a) (snd (rdat r) v)) T | None => [] end.
Lemma column_length : forall s v T, s_attr s v <> None -> List.length (column s v T) = List.length T.
Proof. intros s v T H. unfold column. destruct (s_attr s v); [apply map_length|congruence]. Qed.

Lemma cols_eq : forall s F G E, s_rows s = [F; G; E] -> complete s ->
  map_res (corrected s) vars_to_correct = Ok
   [("event_time_offset"%string, 2%nat, column s "event_time_offset" E); ("group_time_offset"%string, 1%nat, column s "group_time_offset" G);
    ("group_frame_time_offset"%string, 1%nat, column s "group_frame_time_offset" G);
    ("flash_time_offset_of_first_event"%string, 0%nat, column s "flash_time_offset_of_first_event" F);
    ("flash_time_offset_of_last_event"%string, 0%nat, column s "flash_time_offset_of_last_event" F);
    ("flash_frame_time_offset_of_first_event"%string, 0%nat, column s "flash_frame_time_offset_of_first_event" F);
    ("flash_frame_time_offset_of_last_event"%string, 0%nat, column s "flash_frame_time_offset_of_last_event" F)].
Proof.
  intros s F G E HS C. unfold vars_to_correct, column.
  assert (X : forall v, In v (flash_times ++ group_times ++ event_times) -> exists a, s_attr s v = Some a) by (intros v I; specialize (C v I); destruct (s_attr s v); [eauto|congruence]).
  destruct (X "event_time_offset"%string) as (a1 & E1); [cbn; tauto|]. destruct (X "group_time_offset"%string) as (a2 & E2); [cbn; tauto|]. destruct (X "group_frame_time_offset"%string) as (a3 & E3); [cbn; tauto|].
  destruct (X "flash_time_offset_of_first_event"%string) as (a4 & E4); [cbn; tauto|]. destruct (X "flash_time_offset_of_last_event"%string) as (a5 & E5); [cbn; tauto|].
  destruct (X "flash_frame_time_offset_of_first_event"%string) as (a6 & E6); [cbn; tauto|]. destruct (X "flash_frame_time_offset_of_last_event"%string) as (a7 & E7); [cbn; tauto|].
  cbn [map_res]. unfold corrected. cbn [level_of String.eqb Ascii.eqb Bool.eqb existsb orb]. rewrite HS, E1, E2, E3, E4, E5, E6, E7. reflexivity.
Qed.

Lemma in_time_iff : forall s, in_time s = true <-> problem_period s.
Proof. intros s. unfold in_time, problem_period. rewrite andb_true_iff, !Qle_bool_iff. unfold start_problem, end_problem. change (17819 * 86400) with 1539561600. change (17841 * 86400) with 1541462400. reflexivity. Qed.

Definition fix3 (s : source) (F G E : table (obs * codes)) (A B C : table times) : list (table times) :=
  [put "flash_frame_time_offset_of_last_event" (column s "flash_frame_time_offset_of_last_event" F)
    (put "flash_frame_time_offset_of_first_event" (column s "flash_frame_time_offset_of_first_event" F)
      (put "flash_time_offset_of_last_event" (column s "flash_time_offset_of_last_event" F)
        (put "flash_time_offset_of_first_event" (column s "flash_time_offset_of_first_event" F) A)));
   put "group_frame_time_offset" (column s "group_frame_time_offset" G) (put "group_time_offset" (column s "group_time_offset" G) B);
   put "event_time_offset" (column s "event_time_offset" E) C].

(** In the period the columns of the file replace those of the dataset, by position. *)
Lemma fix_times_eq : forall s F G E A B C, s_rows s = [F; G; E] -> complete s -> problem_period s -> s_path s = true ->
  List.length F = List.length A -> List.length G = List.length B -> List.length E = List.length C ->
  fix_times s [A; B; C] = Ok (fix3 s F G E A B C).
Proof.
  intros s F G E A B C HS CO PP SP LA LB LC. unfold fix_times. rewrite (proj2 (in_time_iff s) PP). destruct (s_attr s "group_frame_time_offset") eqn:GF; [|exfalso; apply (CO "group_frame_time_offset"%string); [cbn; tauto|exact GF]].
  cbn [andb]. rewrite SP, (cols_eq s F G E HS CO). cbn [bind fold_res fst snd].
  assert (CL : forall v T, In v (flash_times ++ group_times ++ event_times) -> List.length (column s v T) = List.length T) by (intros v T I; apply column_length; apply CO; exact I).
  rewrite (assign_times_ok _ 2 _ [A; B; C] C) by (reflexivity || (rewrite CL by (cbn; tauto); exact LC)). cbn [bind set_nth].
  rewrite (assign_times_ok _ 1 _ [A; B; _] B) by (reflexivity || (rewrite CL by (cbn; tauto); exact LB)). cbn [bind set_nth]. fold (put "group_time_offset" (column s "group_time_offset" G) B).
  rewrite (assign_times_ok _ 1 _ [A; _; _] (put "group_time_offset" (column s "group_time_offset" G) B)) by (reflexivity || (rewrite put_length; rewrite !CL by (cbn; tauto); exact LB)). cbn [bind set_nth].
  rewrite (assign_times_ok _ 0 _ [A; _; _] A) by (reflexivity || (rewrite CL by (cbn; tauto); exact LA)). cbn [bind set_nth]. fold (put "flash_time_offset_of_first_event" (column s "flash_time_offset_of_first_event" F) A).
  set (A1 := put "flash_time_offset_of_first_event" _ A). assert (L1 : List.length F = List.length A1) by (unfold A1; rewrite put_length; rewrite ?CL by (cbn; tauto); exact LA).
  rewrite (assign_times_ok _ 0 _ [A1; _; _] A1) by (reflexivity || (rewrite CL by (cbn; tauto); exact L1)). cbn [bind set_nth]. fold (put "flash_time_offset_of_last_event" (column s "flash_time_offset_of_last_event" F) A1).
  set (A2 := put "flash_time_offset_of_last_event" _ A1). assert (L2 : List.length F = List.length A2) by (unfold A2; rewrite put_length; rewrite ?CL by (cbn; tauto); exact L1).
  rewrite (assign_times_ok _ 0 _ [A2; _; _] A2) by (reflexivity || (rewrite CL by (cbn; tauto); exact L2)). cbn [bind set_nth]. fold (put "flash_frame_time_offset_of_first_event" (column s "flash_frame_time_offset_of_first_event" F) A2).
  set (A3 := put "flash_frame_time_offset_of_first_event" _ A2). assert (L3 : List.length F = List.length A3) by (unfold A3; rewrite put_length; rewrite ?CL by (cbn; tauto); exact L2).
  rewrite (assign_times_ok _ 0 _ [A3; _; _] A3) by (reflexivity || (rewrite CL by (cbn; tauto); exact L3)). reflexivity.
Qed.

Lemma column_rows : forall s v a (T : table (obs * codes)), s_attr s v = Some a -> column s v T = map (fun r => decode_time (make_unsigned a) (snd (rdat r) v)) T.
Proof. intros s v a T H. unfold column. rewrite H. reflexivity. Qed.
(** Rows in the same order get their own times; nothing else changes. *)
Lemma put_rows : forall (Q : row (obs * codes) -> row times -> Prop) s v a T A, s_attr s v = Some a -> Forall2 Q T A ->
  Forall2 (fun r r' => rdat r' v = Some (decode_time (make_unsigned a) (snd (rdat r) v)) /\ exists r0, Q r r0 /\ rid r' = rid r0 /\ rpid r' = rpid r0 /\ forall w, w <> v -> rdat r' w = rdat r0 w)
    T (put v (column s v T) A).
Proof.
  intros Q s v a T A H F. rewrite (column_rows s v a T H). induction F as [|r r0 T A HQ F IH]; [constructor|]. unfold put in *. cbn [map combine]. constructor; [|exact IH].
  cbn [fst snd with_data rdat rid rpid]. split; [rewrite String.eqb_refl; reflexivity|]. exists r0. split; [exact HQ|]. split; [reflexivity|]. split; [reflexivity|].
  intros w N. apply String.eqb_neq in N. rewrite N. reflexivity.
Qed.

Lemma fertile_data : forall A B (f g : A -> B) (X Y : table A), fertile (map (with_data f) X) (map (with_data g) Y) <-> fertile X Y.
Proof.
  intros. unfold fertile. split; intros H r I.
  - destruct (H (with_data f r)) as (s & J & K); [apply in_map; auto|]. apply in_map_iff in J. destruct J as (y & <- & J). exists y. split; auto.
  - apply in_map_iff in I. destruct I as (x & <- & I). destruct (H x I) as (s & J & K). exists (with_data g s). split; [apply in_map; auto|auto].
Qed.
Lemma linked_data : forall A B (f g : A -> B) (X Y : table A), linked (map (with_data f) X) (map (with_data g) Y) <-> linked X Y.
Proof.
  intros. unfold linked. split; intros H r I.
  - destruct (H (with_data g r)) as (s & J & K); [apply in_map; auto|]. apply in_map_iff in J. destruct J as (y & <- & J). exists y. split; auto.
  - apply in_map_iff in I. destruct I as (x & <- & I). destruct (H x I) as (s & J & K). exists (with_data f s). split; [apply in_map; auto|auto].
Qed.

(** Times put for the variables [done]. *)
Definition timed (s : source) (done : list string) (r : row (obs * codes)) (r' : row times) : Prop :=
  rid r' = rid r /\ rpid r' = rpid r /\ forall v a, In v done -> s_attr s v = Some a -> rdat r' v = Some (decode_time (make_unsigned a) (snd (rdat r) v)).
Lemma timed_put : forall s done v T A, s_attr s v <> None -> Forall2 (timed s done) T A -> Forall2 (timed s (v :: done)) T (put v (column s v T) A).
Proof.
  intros s done v T A N F. destruct (s_attr s v) as [a|] eqn:EA; [|congruence]. rewrite (column_rows s v a T EA).
  induction F as [|r r0 T A (H1 & H2 & H3) F IH]; [constructor|]. unfold put in *. cbn [map combine]. constructor; [|exact IH].
  split; [exact H1|]. split; [exact H2|]. intros w b I EB. cbn [with_data rdat fst snd]. destruct (String.eqb w v) eqn:EW.
  - apply String.eqb_eq in EW. subst w. rewrite EA in EB. injection EB as <-. reflexivity.
  - apply String.eqb_neq in EW. destruct I as [I|I]; [congruence|]. apply (H3 w b I EB).
Qed.
Lemma timed_start : forall s k (T : table (obs * codes)), Forall2 (timed s []) T (map (with_data snd) (map (with_data (opened s k)) T)).
Proof. intros s k T. rewrite map_map. induction T as [|r T IH]; [constructor|]. constructor; [|exact IH]. split; [reflexivity|]. split; [reflexivity|]. intros v a []. Qed.
Lemma timed_by : forall s T A done vars, coded s -> In T (s_rows s) -> (forall v, In v vars -> In v done) -> Forall2 (timed s done) T A -> Forall2 (times_by unsigned_time s vars) T A.
Proof.
  intros s T A done vars CD IT SUB F.
  assert (X : forall r, In r T -> forall v, -32768 <= snd (rdat r) v <= 32767) by (intros r I v; exact (CD T r v IT I)). clear IT.
  induction F as [|r r0 T A (H1 & H2 & H3) F IH]; [constructor|]. constructor; [|apply IH; intros; apply X; right; auto].
  split; [exact H1|]. split; [exact H2|]. intros v a I EA. eexists. split; [exact (H3 v a (SUB v I) EA)|]. apply decode_unsigned. apply X. left; reflexivity.
Qed.
Lemma Forall2_len : forall A B (R : A -> B -> Prop) l l', Forall2 R l l' -> List.length l = List.length l'.
Proof. induction 1; cbn; congruence. Qed.
Lemma fix3_times : forall s F G E A B C, s_rows s = [F; G; E] -> complete s -> coded s ->
  Forall2 (timed s []) F A -> Forall2 (timed s []) G B -> Forall2 (timed s []) E C ->
  exists A' B' C', fix3 s F G E A B C = [A'; B'; C'] /\ Forall2 (times_by unsigned_time s flash_times) F A' /\ Forall2 (times_by unsigned_time s group_times) G B' /\ Forall2 (times_by unsigned_time s event_times) E C'.
Proof.
  intros s F G E A B C HS CO CD FA FB FC. do 3 eexists. split; [reflexivity|]. split; [|split].
  - eapply timed_by; [exact CD|rewrite HS; cbn; tauto| |repeat (apply timed_put; [apply CO; cbn; tauto|]); exact FA]. cbn. tauto.
  - eapply timed_by; [exact CD|rewrite HS; cbn; tauto| |repeat (apply timed_put; [apply CO; cbn; tauto|]); exact FB]. cbn. tauto.
  - eapply timed_by; [exact CD|rewrite HS; cbn; tauto| |repeat (apply timed_put; [apply CO; cbn; tauto|]); exact FC]. cbn. tauto.
Qed.

(** Any column of another length is refused. *)
Lemma fix_times_short : forall s F G E A B C, s_rows s = [F; G; E] -> complete s -> problem_period s ->
  List.length E <> List.length C \/ List.length F <> List.length A -> List.length G = List.length B -> exists e, fix_times s [A; B; C] = Err e.
Proof.
  intros s F G E A B C HS CO PP BAD LB. unfold fix_times. rewrite (proj2 (in_time_iff s) PP). destruct (s_attr s "group_frame_time_offset") eqn:GF; [|exfalso; apply (CO "group_frame_time_offset"%string); [cbn; tauto|exact GF]].
  cbn [andb]. destruct (s_path s); [|eexists; reflexivity]. rewrite (cols_eq s F G E HS CO). cbn [bind fold_res fst snd].
  assert (CL : forall v T, In v (flash_times ++ group_times ++ event_times) -> List.length (column s v T) = List.length T) by (intros v T I; apply column_length; apply CO; exact I).
  destruct (Nat.eq_dec (List.length E) (List.length C)) as [LC|LC].
  - destruct BAD as [BAD|BAD]; [congruence|].
    rewrite (assign_times_ok _ 2 _ [A; B; C] C) by (reflexivity || (rewrite CL by (cbn; tauto); exact LC)). cbn [bind set_nth].
    rewrite (assign_times_ok _ 1 _ [A; B; _] B) by (reflexivity || (rewrite CL by (cbn; tauto); exact LB)). cbn [bind set_nth]. fold (put "group_time_offset" (column s "group_time_offset" G) B).
    rewrite (assign_times_ok _ 1 _ [A; _; _] (put "group_time_offset" (column s "group_time_offset" G) B)) by (reflexivity || (rewrite put_length; rewrite !CL by (cbn; tauto); exact LB)). cbn [bind set_nth].
    rewrite (assign_times_bad _ 0 _ [A; _; _] A) by (reflexivity || (rewrite CL by (cbn; tauto); exact BAD)). eexists; reflexivity.
  - rewrite (assign_times_bad _ 2 _ [A; B; C] C) by (reflexivity || (rewrite CL by (cbn; tauto); exact LC)). eexists; reflexivity.
Qed.

(** Rows as the attributes say. *)
Lemma level_flash : forall v, In v flash_times -> level_of v = Some 0%nat.
Proof. intros v I. cbn in I. destruct I as [<-|[<-|[<-|[<-|[]]]]]; reflexivity. Qed.
Lemma level_group : forall v, In v group_times -> level_of v = Some 1%nat.
Proof. intros v I. cbn in I. destruct I as [<-|[<-|[]]]; reflexivity. Qed.
Lemma level_event : forall v, In v event_times -> level_of v = Some 2%nat.
Proof. intros v I. cbn in I. destruct I as [<-|[]]; reflexivity. Qed.
Lemma marked_row : forall s k vars (r : row (obs * codes)), (forall v, In v vars -> level_of v = Some k) -> (forall v, -32768 <= snd (rdat r) v <= 32767) ->
  times_by marked_time s vars r (with_data snd (with_data (opened s k) r)).
Proof.
  intros s k vars r L R. split; [reflexivity|]. split; [reflexivity|]. intros v a I EA. unfold opened. cbn [with_data rdat snd]. unfold row_times. rewrite (L v I), EA, Nat.eqb_refl. eexists. split; [reflexivity|]. apply decode_marked. apply R.
Qed.
Lemma marked_rows : forall s k vars (T T0 : table (obs * codes)), coded s -> In T (s_rows s) -> (forall r, In r T0 -> In r T) -> (forall v, In v vars -> level_of v = Some k) ->
  Forall2 (times_by marked_time s vars) T0 (map (with_data snd) (map (with_data (opened s k)) T0)).
Proof.
  intros s k vars T T0 CD IT SUB L. rewrite map_map. induction T0 as [|r T0 IH]; [constructor|]. constructor; [|apply IH; intros; apply SUB; right; auto].
  apply marked_row; [exact L|]. intros v. apply (CD T r v IT). apply SUB. left; reflexivity.
Qed.
