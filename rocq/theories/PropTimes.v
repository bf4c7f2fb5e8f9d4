(** Times of opened GLM files: C77. *)
From Coq Require Import List ZArith QArith Bool String Lia Permutation.
From Verif Require Import Base BaseProofs Traversal TraversalSpec TraversalProofs Glm GlmSpec GlmProofs GlmProofs4 Times TimesSpec TimesProofs.
Import ListNotations.
Open Scope Z_scope.

(** * C77 *)
(** In the period in which files lacked _Unsigned, if no row was removed from the tree, all
    seven variables of times are decoded as unsigned, whatever the file says; the other
    variables are as without the correction. *)
Theorem C77_times_corrected_partial : forall set_order, (forall l, Permutation (set_order l) l) ->
  forall nav op h s F G E r, s_rows s = [F; G; E] -> problem_period s -> complete s -> coded s -> s_path s = true ->
  (check_tree op = true -> fertile F G /\ fertile G E /\ linked F G /\ linked G E) ->
  glm_open set_order nav op h (plain s) = Ok r ->
  exists F' G' E', glm_open_timed set_order nav op true h s = Ok (r, [F'; G'; E']) /\
    Forall2 (times_by unsigned_time s flash_times) F F' /\ Forall2 (times_by unsigned_time s group_times) G G' /\ Forall2 (times_by unsigned_time s event_times) E E'.
Proof.
  intros so sp nav op h s F G E r HS PP CO CD SP TR HO. destruct (timed_split so nav op true h s F G E r HS HO) as (ds & ER & ->). rewrite (open_dataset_eq s F G E HS) in ER.
  assert (ED : ds = map3 (opened s 0) (opened s 1) (opened s 2) [F; G; E]).
  { destruct (check_tree op) eqn:CT; [|injection ER as <-; reflexivity]. destruct (TR eq_refl) as (T1 & T2 & T3 & T4).
    assert (NE : ~ In [] [F; G; E]). { intros I. rewrite repair_data, repair_empty in ER; [discriminate|]. cbn in I. destruct I as [->|[->|[->|[]]]]; cbn; tauto. }
    rewrite repair_data in ER. rewrite repair_untouched in ER; [injection ER as <-; reflexivity|auto|intros ->; apply NE; cbn; auto|intros ->; apply NE; cbn; auto|intros ->; apply NE; cbn; auto|auto|auto|auto|auto]. }
  subst ds. cbn [map3 map]. rewrite (fix_times_eq s F G E) by (auto; rewrite !map_length; reflexivity).
  destruct (fix3_times s F G E _ _ _ HS CO CD (timed_start s 0 F) (timed_start s 1 G) (timed_start s 2 E)) as (A & B & C & EQ & X). exists A, B, C. split; [|exact X]. rewrite EQ. reflexivity.
Qed.
Print Assumptions C77_times_corrected_partial.

(** Outside of the period, or without the variable group_frame_time_offset, nothing is
    corrected: every row that is kept has the times that the file says, whatever the repair
    of the tree did. *)
Theorem C77_other_files_unchanged : forall set_order, (forall l, Permutation (set_order l) l) ->
  forall nav op h s F G E r, s_rows s = [F; G; E] -> coded s ->
  ~ (problem_period s /\ s_attr s "group_frame_time_offset" <> None) ->
  glm_open set_order nav op h (plain s) = Ok r ->
  exists F0 G0 E0 F' G' E', glm_open_timed set_order nav op true h s = Ok (r, [F'; G'; E']) /\ glm_open_timed set_order nav op false h s = Ok (r, [F'; G'; E']) /\
    kept (check_tree op) F G E F0 G0 E0 /\
    Forall2 (times_by marked_time s flash_times) F0 F' /\ Forall2 (times_by marked_time s group_times) G0 G' /\ Forall2 (times_by marked_time s event_times) E0 E'.
Proof.
  intros so sp nav op h s F G E r HS CD NP HO. destruct (timed_split so nav op true h s F G E r HS HO) as (ds & ER & ->). destruct (timed_split so nav op false h s F G E r HS HO) as (ds2 & ER2 & ->).
  rewrite ER in ER2. injection ER2 as <-.
  assert (NF : forall l, fix_times s l = Ok l).
  { intros l. unfold fix_times. destruct (in_time s) eqn:IT; [|reflexivity]. destruct (s_attr s "group_frame_time_offset") eqn:EG; [|reflexivity]. exfalso. apply NP. split; [apply in_time_iff; exact IT|discriminate]. }
  rewrite NF.
  (* rows with all that the file has of them *)
  assert (X : exists F0 G0 E0, repair so (check_tree op) [F; G; E] = Ok [F0; G0; E0]).
  { destruct (check_tree op) eqn:CT; [|eexists _, _, _; reflexivity].
    assert (NE : ~ In [] [F; G; E]). { intros I. rewrite (open_dataset_eq s F G E HS), repair_data, repair_empty in ER; [discriminate|]. cbn in I. destruct I as [->|[->|[->|[]]]]; cbn; tauto. }
    destruct (repair_exact so sp F G E) as (A & B & C & Q & _); [intros ->; apply NE; cbn; auto|intros ->; apply NE; cbn; auto|intros ->; apply NE; cbn; auto|]. eauto. }
  destruct X as (F0 & G0 & E0 & EK). pose proof (repair_kept so sp (check_tree op) F G E F0 G0 E0 EK) as K.
  rewrite (open_dataset_eq s F G E HS), repair_data, EK in ER. cbn [res_map map3] in ER. injection ER as <-.
  cbn [map res_map]. eexists F0, G0, E0, _, _, _. split; [reflexivity|]. split; [reflexivity|]. split; [exact K|].
  assert (SUB : (forall r, In r F0 -> In r F) /\ (forall r, In r G0 -> In r G) /\ (forall r, In r E0 -> In r E)).
  { unfold kept in K. destruct (check_tree op); [destruct K as (K1 & K2 & K3)|destruct K as (-> & -> & ->); auto]. split; [|split]; intros x I; [apply K2; auto|eapply Permutation_in; eauto|apply K3; auto]. }
  destruct SUB as (S1 & S2 & S3). split; [|split].
  - apply (marked_rows s 0 flash_times F F0 CD); [rewrite HS; cbn; tauto|exact S1|exact level_flash].
  - apply (marked_rows s 1 group_times G G0 CD); [rewrite HS; cbn; tauto|exact S2|exact level_group].
  - apply (marked_rows s 2 event_times E E0 CD); [rewrite HS; cbn; tauto|exact S3|exact level_event].
Qed.
Print Assumptions C77_other_files_unchanged.

Lemma filter_shorter : forall A (p : A -> bool) l x, In x l -> p x = false -> (List.length (filter p l) < List.length l)%nat.
Proof.
  intros A p l x I N. induction l as [|y l IH]; [destruct I|]. cbn [filter]. destruct I as [->|I].
  - rewrite N. cbn. clear. induction l as [|z l IH]; cbn; [lia|]. destruct (p z); cbn; lia.
  - destruct (p y); cbn; specialize (IH I); lia.
Qed.
(** If the repair of the tree removes a flash or an event, the file can not be opened. *)
Theorem C77_rows_removed_refuted : forall set_order, (forall l, Permutation (set_order l) l) ->
  forall nav op h s F G E, s_rows s = [F; G; E] -> problem_period s -> complete s -> check_tree op = true ->
  (exists f, In f F /\ forall g, In g G -> rpid g <> rid f) \/ (NoDup (map rid G) /\ exists e, In e E /\ forall g, In g G -> rid g <> rpid e) ->
  exists e, glm_open_timed set_order nav op true h s = Err e.
Proof.
  intros so sp nav op h s F G E HS PP CO CT BAD. destruct (glm_open_timed so nav op true h s) as [[r tm]|e] eqn:ET; [|eauto]. exfalso.
  pose proof (timed_plain so nav op true h s F G E r tm HS ET) as HO. destruct (timed_split so nav op true h s F G E r HS HO) as (ds & ER & EQ). rewrite ET in EQ. clear ET HO.
  rewrite (open_dataset_eq s F G E HS), repair_data, CT in ER.
  assert (NE : ~ In [] [F; G; E]). { intros I. rewrite repair_empty in ER; [discriminate|exact I]. }
  assert (NF : F <> []) by (intros ->; apply NE; cbn; auto). assert (NG : G <> []) by (intros ->; apply NE; cbn; auto). assert (NE' : E <> []) by (intros ->; apply NE; cbn; auto).
  destruct (repair_cases so sp F G E NF NG NE') as [(T1 & T2 & T3 & T4 & _)|(_ & ids & PI & RE)].
  - destruct BAD as [(f & I & N)|(_ & e & I & N)].
    + destruct (T1 f I) as (g & J & K). exact (N g J K).
    + destruct (T4 e I) as (g & J & K). exact (N g J K).
  - rewrite RE in ER. cbn [res_map map3] in ER. injection ER as <-. cbn [map] in EQ.
    assert (ND : NoDup ids) by (eapply Permutation_NoDup; [apply Permutation_sym; exact PI|apply zunique_nodup]).
    assert (Hids : forall i, In i ids <-> In i (map rpid G)). { intros i. rewrite <- (zunique_in (map rpid G)). split; apply Permutation_in; [exact PI|apply Permutation_sym; exact PI]. }
    assert (PG : Permutation (flat_map (with_parent G) ids) G).
    { eapply perm_trans; [apply (perm_by_key _ rpid G ids ND)|]. rewrite filter_all; auto. intros g Hg. apply zmem_in, Hids, in_map; auto. }
    destruct (fix_times_short s F G E (map (with_data snd) (map (with_data (opened s 0)) (flat_map (with_id F) ids))) (map (with_data snd) (map (with_data (opened s 1)) (flat_map (with_parent G) ids)))
      (map (with_data snd) (map (with_data (opened s 2)) (flat_map (fun q => with_parent E (rid q)) (flat_map (with_parent G) ids)))) HS CO PP) as (e & EE).
    + rewrite !map_length. destruct BAD as [(f & I & N)|(NDG & e & I & N)].
      * right. assert (LP : List.length (flat_map (with_id F) ids) = List.length (filter (fun x => zmem (rid x) ids) F)) by exact (Permutation_length (perm_by_key _ rid F ids ND)). rewrite LP. apply Nat.neq_sym, Nat.lt_neq. apply (filter_shorter _ _ _ f I). apply zmem_false. rewrite Hids. intros J. apply in_map_iff in J. destruct J as (g & K & J). exact (N g J K).
      * left. rewrite <- (flat_map_map _ _ _ rid (with_parent E)).
        assert (ND2 : NoDup (map rid (flat_map (with_parent G) ids))) by (eapply Permutation_NoDup; [apply Permutation_map, Permutation_sym, PG|exact NDG]).
        assert (LP : List.length (flat_map (with_parent E) (map rid (flat_map (with_parent G) ids))) = List.length (filter (fun x => zmem (rpid x) (map rid (flat_map (with_parent G) ids))) E)) by exact (Permutation_length (perm_by_key _ rpid E _ ND2)). rewrite LP. apply Nat.neq_sym, Nat.lt_neq. apply (filter_shorter _ _ _ e I). apply zmem_false. intros J. apply in_map_iff in J. destruct J as (g & K & J). apply (N g); auto. eapply Permutation_in; [exact PG|exact J].
    + rewrite !map_length. symmetry. apply Permutation_length. exact PG.
    + rewrite EE in EQ. discriminate EQ.
Qed.
Print Assumptions C77_rows_removed_refuted.

(** A dataset in memory in place of a path can not be corrected, nor opened. *)
Theorem C77_dataset_refuted : forall set_order nav op h s, problem_period s -> s_attr s "group_frame_time_offset" <> None -> s_path s = false ->
  exists e, glm_open_timed set_order nav op true h s = Err e.
Proof.
  intros so nav op h s PP GF SP. unfold glm_open_timed. destruct (repair so (check_tree op) (open_dataset s)) as [ds|e]; [|eexists; reflexivity]. cbn [bind].
  match goal with |- context [bind ?x _] => destruct x as [ds1|e]; [|eexists; reflexivity] end. cbn [bind]. unfold fix_times. rewrite (proj2 (in_time_iff s) PP). destruct (s_attr s "group_frame_time_offset"); [|congruence].
  rewrite SP. eexists; reflexivity.
Qed.
Print Assumptions C77_dataset_refuted.

(** * Sample file *)
(** Codes are those of the group or event number of the row; the attribute is missing. *)
Definition t_attr (v : string) : option tattr := if existsb (String.eqb v) vars_to_correct then Some (mkAttr false (1 # 1000) (-5) 1540000000 None) else None.
Definition t_row (i p c : Z) : row (obs * codes) := mkRow i p (mkObs None None (Some 1%Q) (Some 1%Q) None None 0 0 0, fun _ => c).
Definition t_source (G E : table (obs * codes)) : source := mkSource true (1540000000%Q, 1540000020%Q) t_attr [[t_row 1 0 10; t_row 2 0 20]; G; E].
Definition t_G := [t_row 10 2 100; t_row 11 1 (-200)].
Definition t_E := [t_row 1 10 1000; t_row 2 11 2000].
Definition t_head : header := mkHeader "J" "J" "J" "m2" "m2" 0 (1 # 1000) 0 1 (65535 # 1) 0 1 (65535 # 1).
Definition t_nav : fval -> fval -> fval * fval := fun a b => (a, b).
Definition t_all : options := mkOptions true true true true.
Lemma t_complete : forall G E, complete (t_source G E).
Proof. intros G E v I. cbn in I. destruct I as [<-|[<-|[<-|[<-|[<-|[<-|[<-|[]]]]]]]]; discriminate. Qed.
Lemma t_coded : forall G E, (forall r, In r (G ++ E) -> forall v, -32768 <= snd (rdat r) v <= 32767) -> coded (t_source G E).
Proof.
  intros G E H T r v IT I. cbn in IT. destruct IT as [<-|[<-|[<-|[]]]].
  - cbn in I. destruct I as [<-|[<-|[]]]; cbn; lia.
  - apply H. apply in_or_app. auto.
  - apply H. apply in_or_app. auto.
Qed.
Lemma t_period : forall G E, problem_period (t_source G E).
Proof. intros. split; cbn; discriminate. Qed.

(** A group without events makes the tree be rearranged; the times are put beside other
    groups. *)
Theorem C77_rearranged_refuted : ~ (forall set_order, (forall l, Permutation (set_order l) l) ->
  forall nav op h s F G E r F' G' E', s_rows s = [F; G; E] -> problem_period s -> complete s -> coded s -> s_path s = true -> unique_ids [F; G; E] ->
  glm_open_timed set_order nav op true h s = Ok (r, [F'; G'; E']) ->
  forall g', In g' G' -> exists g, In g G /\ times_by unsigned_time s group_times g g').
Proof.
  intros H. set (G := t_G ++ [t_row 12 1 300]).
  assert (X : exists r F' G' E', glm_open_timed (fun l => l) t_nav t_all true t_head (t_source G t_E) = Ok (r, [F'; G'; E']) /\
    exists g', In g' G' /\ rid g' = 11 /\ rdat g' "group_time_offset"%string = Some (Some (1540000000 + (-5 + (1 # 1000) * 100)))%Q).
  { do 4 eexists. split; [vm_compute; reflexivity|]. eexists. split; [left; reflexivity|]. split; reflexivity. }
  destruct X as (r & F' & G' & E' & EQ & g' & I & RI & RT).
  destruct (H (fun l => l) (fun l => Permutation_refl l) t_nav t_all t_head (t_source G t_E) _ _ _ r F' G' E' eq_refl (t_period _ _) (t_complete _ _)) with (g' := g') as (g & J & K1 & _ & K); auto.
  - apply t_coded. intros x J v. cbn in J. destruct J as [<-|[<-|[<-|[<-|[<-|[]]]]]]; cbn; lia.
  - intros j T HT. destruct j as [|[|[|j]]]; [| | |destruct j; discriminate HT]; injection HT as <-; cbn; repeat constructor; cbn; intuition discriminate.
  - rewrite RI in K1. cbn in J. destruct J as [<-|[<-|[<-|[]]]]; try discriminate K1. destruct (K "group_time_offset"%string _ (or_introl eq_refl) eq_refl) as (t & ET & U). rewrite RT in ET. injection ET as <-.
    destruct U as [(U & _)|(_ & u & U1 & U2 & q & EQ' & U3)]; [discriminate U|]. injection EQ' as <-. cbn in U2, U3.
    assert (u = 65336). { rewrite Z.mod_small in U2 by lia. exact U2. } subst u. discriminate U3.
Qed.
Print Assumptions C77_rearranged_refuted.

(** The hypotheses are met: a file with an intact tree ... *)
Example C77_ex : exists r F' G' E', glm_open_timed (fun l => l) t_nav t_all true t_head (t_source t_G t_E) = Ok (r, [F'; G'; E']) /\
  map (fun g => rdat g "group_time_offset"%string) G' = [Some (Some (1540000000 + (-5 + (1 # 1000) * 100))); Some (Some (1540000000 + (-5 + (1 # 1000) * 65336)))]%Q.
Proof. do 4 eexists. split; [vm_compute; reflexivity|]. reflexivity. Qed.
Example C77_hypotheses : problem_period (t_source t_G t_E) /\ complete (t_source t_G t_E) /\ coded (t_source t_G t_E) /\
  (exists r, glm_open (fun l => l) t_nav t_all t_head (plain (t_source t_G t_E)) = Ok r) /\
  (forall F, In F [[t_row 1 0 10; t_row 2 0 20]] -> fertile F t_G /\ fertile t_G t_E /\ linked F t_G /\ linked t_G t_E).
Proof.
  split; [apply t_period|]. split; [apply t_complete|]. split; [apply t_coded; intros x J v; cbn in J; destruct J as [<-|[<-|[<-|[<-|[]]]]]; cbn; lia|].
  split; [eexists; vm_compute; reflexivity|]. intros F [<-|[]].
  split; [|split; [|split]]; intros x I; cbn in I; destruct I as [<-|[<-|[]]]; unfold t_G, t_E; cbn [In].
  - exists (t_row 11 1 (-200)). auto.
  - exists (t_row 10 2 100). auto.
  - exists (t_row 1 10 1000). auto.
  - exists (t_row 2 11 2000). auto.
  - exists (t_row 2 0 20). auto.
  - exists (t_row 1 0 10). auto.
  - exists (t_row 10 2 100). auto.
  - exists (t_row 11 1 (-200)). auto.
Qed.
(** ... without the correction the negative code is a time before the file began ... *)
Example C77_uncorrected : exists r F' G' E', glm_open_timed (fun l => l) t_nav t_all false t_head (t_source t_G t_E) = Ok (r, [F'; G'; E']) /\
  map (fun g => rdat g "group_time_offset"%string) G' = [Some (Some (1540000000 + (-5 + (1 # 1000) * 100))); Some (Some (1540000000 + (-5 + (1 # 1000) * -200)))]%Q.
Proof. do 4 eexists. split; [vm_compute; reflexivity|]. reflexivity. Qed.
(** ... and an event of an unknown group, which opens only without the correction. *)
Example C77_removed : (exists e, glm_open_timed (fun l => l) t_nav t_all true t_head (t_source t_G (t_row 3 99 3000 :: t_E)) = Err e) /\
  (exists r, glm_open_timed (fun l => l) t_nav t_all false t_head (t_source t_G (t_row 3 99 3000 :: t_E)) = Ok r).
Proof.
  split; [|eexists; vm_compute; reflexivity]. apply (C77_rows_removed_refuted (fun l => l) (fun l => Permutation_refl l) t_nav t_all t_head (t_source t_G (t_row 3 99 3000 :: t_E)) _ _ _ eq_refl (t_period _ _) (t_complete _ _) eq_refl).
  right. split; [cbn; repeat constructor; cbn; intuition discriminate|]. exists (t_row 3 99 3000). split; [left; reflexivity|]. intros g I. cbn in I. destruct I as [<-|[<-|[]]]; discriminate.
Qed.
