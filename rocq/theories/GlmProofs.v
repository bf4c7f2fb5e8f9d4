(** Lemmas about opening GLM files and selecting flashes. *)
From Coq Require Import List ZArith QArith Bool String Lia Sorting.Sorted Permutation.
From Verif Require Import Base BaseProofs Traversal TraversalSpec TraversalProofs TraversalProofs2
  TraversalProofs3 TraversalProofs4 Glm GlmSpec.
Import ListNotations.
Open Scope Z_scope.

Local Notation tbl := (table obs).

(** * Rearranging by key *)
Lemma filter_or_perm : forall A (p q : A -> bool) l,
  (forall x, In x l -> p x = true -> q x = false) ->
  Permutation (filter p l ++ filter q l) (filter (fun x => p x || q x)%bool l).
Proof.
  induction l as [|x l IH]; intros H; simpl; auto.
  assert (H' : forall y, In y l -> p y = true -> q y = false) by (intros; apply H; auto; right; auto).
  destruct (p x) eqn:Ep; simpl.
  - rewrite (H x (or_introl eq_refl) Ep). constructor. auto.
  - destruct (q x); simpl; auto.
    apply Permutation_sym, Permutation_cons_app, Permutation_sym. auto.
Qed.

Lemma perm_by_key : forall A (f : A -> Z) l ids, NoDup ids ->
  Permutation (flat_map (fun i => filter (fun x => f x =? i) l) ids)
              (filter (fun x => zmem (f x) ids) l).
Proof.
  induction ids as [|i ids IH]; intros ND; simpl.
  - rewrite filter_none; auto.
  - inversion ND; subst.
    eapply perm_trans; [apply Permutation_app_head; apply IH; auto|].
    eapply perm_trans; [apply filter_or_perm|].
    + intros x _ E. apply Z.eqb_eq in E. apply zmem_false. congruence.
    + apply Permutation_refl.
Qed.

Lemma with_parent_def : forall {P} (T : table P) i, with_parent T i = filter (fun r => rpid r =? i) T.
Proof. reflexivity. Qed.

(** * Three level datasets *)
Section Three.
Variable set_order : list Z -> list Z.
Hypothesis set_perm : forall l, Permutation (set_order l) l.
Variable nav : fval -> fval -> fval * fval.

Definition tv3 {P} (F G E : table P) : traversal P :=
  mkTrav entity_ids (None :: map Some parent_ids) [F; G; E].

Lemma init3 : forall {P} (F G E : table P), trav_init [F; G; E] entity_ids parent_ids = Ok (tv3 F G E).
Proof. reflexivity. Qed.
Lemma nodup_eids : NoDup entity_ids.
Proof. repeat (constructor; [simpl; intuition discriminate|]). constructor. Qed.
Lemma nodup_pids : NoDup parent_ids.
Proof. repeat (constructor; [simpl; intuition discriminate|]). constructor. Qed.

Lemma reduce3 : forall {P} (F G E : table P) ids, F <> [] -> G <> [] -> E <> [] ->
  reduce_to_entities (tv3 F G E) "flash_id" ids
  = Ok [flat_map (with_id F) ids; flat_map (with_parent G) ids;
        flat_map (fun q => with_parent E (rid q)) (flat_map (with_parent G) ids)].
Proof.
  intros P F G E ids HF HG HE.
  destruct (reduce_pruned [F; G; E] entity_ids parent_ids (tv3 F G E) 0 "flash_id" ids (init3 F G E)
    nodup_eids eq_refl) as [out [Ho Hp]].
  { repeat constructor; auto. }
  rewrite Ho. f_equal. destruct Hp as (L & HA & HB & HC & _).
  specialize (HA F eq_refl). specialize (HB G eq_refl).
  specialize (HC 1%nat E _ ltac:(lia) eq_refl HB).
  destruct out as [|a [|b [|c [|d out]]]]; try discriminate.
  simpl in HA, HB, HC. inversion HA; inversion HB; inversion HC; subst. reflexivity.
Qed.

Lemma reduce3_empty : forall {P} (F G E : table P) ids, In [] [F; G; E] ->
  reduce_to_entities (tv3 F G E) "flash_id" ids = Err AttributeError.
Proof.
  intros P F G E ids H. eapply (reduce_empty [F; G; E]); [apply init3|apply nodup_eids| |auto].
  instantiate (1 := 0%nat). reflexivity.
Qed.

Lemma check3 : forall {P} (F G E : table P), F <> [] -> G <> [] -> E <> [] ->
  check_parent_child (tv3 F G E)
  = Ok ([("flash_id"%string, fst (pair_stats F G)); ("group_id"%string, fst (pair_stats G E))],
        [("group_parent_flash_id"%string, snd (pair_stats F G));
         ("event_parent_group_id"%string, snd (pair_stats G E))]).
Proof.
  intros P F G E HF HG HE.
  destruct (check_refines [F; G; E] entity_ids parent_ids (tv3 F G E) (init3 F G E))
    as (e0 & es & T0 & Ts & E1 & E2 & L1 & L2 & H).
  { repeat constructor; auto. }
  inversion E1; inversion E2; subst. rewrite H. reflexivity.
Qed.

Lemma length_zero_iff : forall A (l : list A), (Nat.ltb 0 (List.length l)) = false <-> l = [].
Proof.
  intros. rewrite Nat.ltb_ge. split; [|intros ->; auto]. destruct l; simpl; auto; lia.
Qed.

Lemma childless_nil : forall {P} (A B : table P),
  Nat.ltb 0 (snd (fst (fst (pair_stats A B)))) = false <-> fertile A B.
Proof.
  intros P A B. unfold pair_stats. cbn [fst snd]. rewrite length_zero_iff.
  assert (H := zset_diff_lists _ (zunique (map rpid B)) (zunique_sorted (map rid A))).
  destruct H as [_ H]. split.
  - intros E r Hr. destruct (in_dec Z.eq_dec (rid r) (map rpid B)) as [i|n].
    + apply in_map_iff in i. destruct i as [s [Es Hs]]. eauto.
    + exfalso. assert (X : In (rid r) []); [|destruct X]. rewrite <- E. apply H.
      rewrite !zunique_in. split; auto. apply in_map; auto.
  - intros Hf. destruct (zset_diff _ _) as [|x l]; auto. exfalso.
    destruct (proj1 (H x) (or_introl eq_refl)) as [Ha Hb]. rewrite zunique_in in Ha, Hb.
    apply in_map_iff in Ha. destruct Ha as [r [Er Hr]]. destruct (Hf r Hr) as [s [Hs Es]].
    apply Hb. rewrite <- Er, <- Es. apply in_map; auto.
Qed.

Lemma orphan_nil : forall {P} (A B : table P),
  Nat.ltb 0 (snd (fst (snd (pair_stats A B)))) = false <-> linked A B.
Proof.
  intros P A B. unfold pair_stats. cbn [fst snd]. rewrite length_zero_iff.
  assert (H := zset_diff_lists_r (zunique (map rid A)) _ (zunique_sorted (map rpid B))).
  destruct H as [_ H]. split.
  - intros E r Hr. destruct (in_dec Z.eq_dec (rpid r) (map rid A)) as [i|n].
    + apply in_map_iff in i. destruct i as [s [Es Hs]]. eauto.
    + exfalso. assert (X : In (rpid r) []); [|destruct X]. rewrite <- E. apply H.
      rewrite !zunique_in. split; auto. apply in_map; auto.
  - intros Hf. destruct (zset_diff _ _) as [|x l]; auto. exfalso.
    destruct (proj1 (H x) (or_introl eq_refl)) as [Ha Hb]. rewrite zunique_in in Ha, Hb.
    apply in_map_iff in Ha. destruct Ha as [r [Er Hr]]. destruct (Hf r Hr) as [s [Hs Es]].
    apply Hb. rewrite <- Er, <- Es. apply in_map; auto.
Qed.

(** What the repair does. *)
Lemma repair_cases : forall {P} (F G E : table P), F <> [] -> G <> [] -> E <> [] ->
  (fertile F G /\ fertile G E /\ linked F G /\ linked G E /\
   repair set_order true [F; G; E] = Ok [F; G; E]) \/
  (~ (fertile F G /\ fertile G E /\ linked F G /\ linked G E) /\
   exists ids, Permutation ids (zunique (map rpid G)) /\
   repair set_order true [F; G; E]
   = Ok [flat_map (with_id F) ids; flat_map (with_parent G) ids;
         flat_map (fun q => with_parent E (rid q)) (flat_map (with_parent G) ids)]).
Proof.
  intros P F G E HF HG HE. unfold repair. rewrite init3. cbn [bind]. rewrite check3 by auto.
  cbn [bind existsb snd fst orb].
  destruct (Nat.ltb 0 (snd (fst (fst (pair_stats F G))))) eqn:C1;
  destruct (Nat.ltb 0 (snd (fst (fst (pair_stats G E))))) eqn:C2;
  destruct (Nat.ltb 0 (snd (fst (snd (pair_stats F G))))) eqn:C3;
  destruct (Nat.ltb 0 (snd (fst (snd (pair_stats G E))))) eqn:C4;
  cbn [orb];
  try (right; split;
    [ rewrite <- (childless_nil F G), <- (childless_nil G E), <- (orphan_nil F G), <- (orphan_nil G E);
      intros (? & ? & ? & ?); congruence
    | eexists; split; [|cbn [assoc bind]; rewrite String.eqb_refl; cbn [bind nth_error];
        rewrite reduce3 by auto; reflexivity];
      eapply perm_trans; [apply set_perm|];
      unfold pair_stats; cbn [fst snd]; unfold zset_diff at 1; rewrite filter_all;
      [apply Permutation_refl|];
      intros x Hx; apply negb_true_iff, zmem_false; rewrite zset_diff_in, zset_inter_in; tauto]).
  left. apply childless_nil in C1. apply childless_nil in C2. apply orphan_nil in C3.
  apply orphan_nil in C4. auto.
Qed.

Lemma repair_exact : forall {P} (F G E : table P), F <> [] -> G <> [] -> E <> [] ->
  exists F' G' E', repair set_order true [F; G; E] = Ok [F'; G'; E'] /\
    Permutation G' G /\
    (forall f, In f F' <-> In f F /\ exists g, In g G /\ rpid g = rid f) /\
    (forall e, In e E' <-> In e E /\ exists g, In g G /\ rid g = rpid e) /\
    (NoDup (map rid F) -> NoDup (map rid F')) /\
    (NoDup (map rid G) -> NoDup (map rid E) -> NoDup (map rid E')).
Proof.
  intros P F G E HF HG HE.
  destruct (repair_cases F G E HF HG HE) as [(H1 & H2 & H3 & H4 & ->)|(_ & ids & Hp & ->)].
  - exists F, G, E. split; auto. split; auto. split; [|split; [|auto]].
    + intros f. split; [|tauto]. intros Hf. split; auto.
    + intros e. split; [|tauto]. intros He. split; auto.
  - do 3 eexists. split; [reflexivity|].
    assert (ND : NoDup ids) by (eapply Permutation_NoDup; [apply Permutation_sym; eauto|apply zunique_nodup]).
    assert (Hids : forall i, In i ids <-> In i (map rpid G)).
    { intros i. rewrite <- (zunique_in (map rpid G)). split; apply Permutation_in; [exact Hp|exact (Permutation_sym Hp)]. }
    assert (HPG : Permutation (flat_map (with_parent G) ids) G).
    { eapply perm_trans; [apply (perm_by_key _ rpid G ids ND)|].
      rewrite filter_all; auto. intros g Hg. apply zmem_in, Hids, in_map; auto. }
    split; auto. split; [|split; [|split]].
    + intros f. rewrite in_flat_map. split.
      * intros [i [Hi Hf]]. apply in_with_id in Hf. destruct Hf as [Hf <-].
        split; auto. apply Hids, in_map_iff in Hi. destruct Hi as [g [Eg Hg]]. eauto.
      * intros [Hf [g [Hg Eg]]]. exists (rid f). split.
        -- apply Hids. rewrite <- Eg. apply in_map; auto.
        -- apply in_with_id. auto.
    + intros e. rewrite in_flat_map. split.
      * intros [g [Hg He]]. apply in_with_parent in He. destruct He as [He Ee].
        split; auto. exists g. split; auto. eapply Permutation_in; eauto.
      * intros [He [g [Hg Eg]]]. exists g. split.
        -- eapply Permutation_in; [apply Permutation_sym; eauto|auto].
        -- apply in_with_parent. auto.
    + intros NF. apply chain_id_nodup; auto.
    + intros NG NE. rewrite <- (flat_map_map _ _ _ rid (with_parent E)).
      apply chain_parent_nodup; auto.
      eapply Permutation_NoDup; [apply Permutation_map, Permutation_sym, HPG|auto].
Qed.

Lemma repair_untouched : forall {P} (F G E : table P), F <> [] -> G <> [] -> E <> [] ->
  fertile F G -> fertile G E -> linked F G -> linked G E ->
  repair set_order true [F; G; E] = Ok [F; G; E].
Proof.
  intros P F G E HF HG HE H1 H2 H3 H4.
  destruct (repair_cases F G E HF HG HE) as [(_ & _ & _ & _ & H)|(Hn & _)]; auto. exfalso; auto.
Qed.

Lemma repair_empty : forall {P} (F G E : table P), In [] [F; G; E] ->
  repair set_order true [F; G; E] = Err AttributeError.
Proof.
  intros P F G E H. unfold repair. rewrite init3. cbn [bind].
  rewrite (check_empty [F; G; E] entity_ids parent_ids (tv3 F G E)); auto. discriminate.
Qed.

(** * Derived parent/child variables *)
Lemma assign_ok : forall A (f : A -> obs -> obs) vals (T : tbl), List.length vals = List.length T ->
  exists T', assign f vals T = Ok T' /\
  Forall2 (fun vr r' => r' = mkRow (rid (snd vr)) (rpid (snd vr)) (f (fst vr) (rdat (snd vr))))
    (combine vals T) T'.
Proof.
  intros A f vals T L. unfold assign. rewrite L, Nat.eqb_refl. eexists. split; [reflexivity|].
  induction (combine vals T) as [|[v r] l IH]; simpl; constructor; auto.
Qed.

Lemma assign_map : forall A (f : A -> obs -> obs) (g : row obs -> A) (T : tbl),
  assign f (map g T) T = Ok (map (fun r => mkRow (rid r) (rpid r) (f (g r) (rdat r))) T).
Proof.
  intros. unfold assign. rewrite map_length, Nat.eqb_refl. f_equal.
  induction T as [|r T IH]; simpl; auto. f_equal. apply IH.
Qed.

Lemma assign_map2 : forall A B (f : A -> obs -> obs) (g : row obs -> A) (h : row obs -> B) 
  (k : B -> obs -> obs) (T : tbl),
  assign f (map g T) (map (fun r => mkRow (rid r) (rpid r) (k (h r) (rdat r))) T)
  = Ok (map (fun r => mkRow (rid r) (rpid r) (f (g r) (k (h r) (rdat r)))) T).
Proof.
  intros. unfold assign. rewrite !map_length, Nat.eqb_refl. f_equal.
  induction T as [|r T IH]; simpl; auto. f_equal. apply IH.
Qed.

Lemma groups_get_length : forall vals k,
  match groups_get vals k with Some l => List.length l | None => 0%nat end
  = List.length (filter (fun v => v =? k) vals).
Proof.
  intros. assert (H := groups_get_count _ (fun x : Z => x) k vals). rewrite map_id in H.
  rewrite <- H. reflexivity.
Qed.

(** The group of an event, when group ids are unique. *)
Definition flash_of (G : tbl) (e : row obs) : Z :=
  match find (fun g => rid g =? rpid e) G with Some g => rpid g | None => 0 end.

Lemma flash_of_spec : forall G e, (exists g, In g G /\ rid g = rpid e) ->
  exists g, In g G /\ rid g = rpid e /\ flash_of G e = rpid g.
Proof.
  intros G e [g [Hg Eg]]. unfold flash_of.
  destruct (find (fun g => rid g =? rpid e) G) as [g'|] eqn:E.
  - apply find_some in E. destruct E as [H1 H2]. apply Z.eqb_eq in H2. eauto.
  - assert (H := find_none _ _ E g Hg). simpl in H. apply Z.eqb_neq in H. congruence.
Qed.

Lemma flash_of_unique : forall G e g, NoDup (map rid G) -> In g G -> rid g = rpid e ->
  flash_of G e = rpid g.
Proof.
  intros G e g ND Hg Eg. destruct (flash_of_spec G e (ex_intro _ g (conj Hg Eg))) as [g' [H1 [H2 ->]]].
  rewrite (nodup_map_inj_in _ _ _ _ g' g ND H1 Hg); congruence.
Qed.

Lemma replicate3 : forall F G E : tbl, G <> [] -> NoDup (map rid G) -> linked G E ->
  NoDup (map rid F) -> NoDup (map rid E) ->
  replicate_parent_ids (tv3 F G E) "flash_id" "event_parent_group_id" = Ok (map (flash_of G) E).
Proof.
  intros F G E HG ND HL NDF NDE.
  assert (Hu : unique_ids [F; G; E]).
  { intros j T H. destruct j as [|[|[|j]]]; simpl in H; inversion H; subst; auto. destruct j; discriminate. }
  destruct (replicate_spec [F; G; E] entity_ids parent_ids (tv3 F G E) 0 1 "flash_id"
    "event_parent_group_id" E (init3 F G E) nodup_eids nodup_pids eq_refl eq_refl ltac:(lia) eq_refl Hu)
    as [[l [El [Ll Hl]]]|[_ [k [r [Hk Hno]]]]].
  - intros _ j Hj. replace j with 1%nat by lia. simpl. congruence.
  - rewrite El. f_equal. apply nth_error_ext. intros k. destruct (nth_error E k) as [e|] eqn:Ek.
    + destruct (Hl k e Ek) as [a [Ha Hanc]]. rewrite Ha, nth_error_map, Ek. simpl. f_equal.
      destruct (HL e (nth_error_In _ _ Ek)) as [g [Hg Eg]].
      eapply (ancestor_fun [F; G; E]); [exact Hu|exact Hanc|].
      rewrite (flash_of_unique G e g ND Hg Eg).
      eapply anc_up; [constructor|reflexivity|exact Hg|exact Eg].
    + rewrite nth_error_map, Ek. simpl. apply nth_error_None. apply nth_error_None in Ek. lia.
  - exfalso. destruct (HL r (nth_error_In _ _ Hk)) as [g [Hg Eg]].
    apply (Hno (rpid g)). eapply anc_up; [constructor|reflexivity|exact Hg|exact Eg].
Qed.
End Three.
