(** Consequences of opening: agreement of derived variables, selection. *)
From Coq Require Import List ZArith QArith Bool String Lia Sorting.Sorted Permutation.
From Verif Require Import Base BaseProofs Traversal TraversalSpec TraversalProofs TraversalProofs2
  TraversalProofs3 TraversalProofs4 Glm GlmSpec GlmProofs GlmProofs2.
Import ListNotations.
Open Scope Z_scope.

Local Notation tbl := (table obs).

(** * Forall2 helpers *)
Lemma F2_filter_length : forall A B (R : A -> B -> Prop) p q l l',
  Forall2 R l l' -> (forall a b, In a l -> R a b -> p a = q b) ->
  List.length (filter p l) = List.length (filter q l').
Proof.
  induction 1 as [|a b l l' H H' IH]; intros Hpq; simpl; auto.
  rewrite (Hpq a b (or_introl eq_refl) H).
  assert (IH' := IH (fun a b Hi => Hpq a b (or_intror Hi))).
  destruct (q b); simpl; congruence.
Qed.

Lemma F2_map : forall A B C (R : A -> B -> Prop) (f : A -> C) g l l',
  Forall2 R l l' -> (forall a b, R a b -> f a = g b) -> map f l = map g l'.
Proof. induction 1; intros Hf; simpl; auto. rewrite (Hf x y) by auto. rewrite IHForall2; auto. Qed.

Lemma F2_in_r : forall A B (R : A -> B -> Prop) l l' b, Forall2 R l l' -> In b l' ->
  exists a, In a l /\ R a b.
Proof.
  induction 1 as [|x y l l' H H' IH]; intros Hb; [destruct Hb|].
  destruct Hb as [<-|Hb]; [exists x; simpl; auto|].
  destruct (IH Hb) as [a [Ha Hr]]. exists a. simpl; auto.
Qed.
Lemma F2_in_l : forall A B (R : A -> B -> Prop) l l' a, Forall2 R l l' -> In a l ->
  exists b, In b l' /\ R a b.
Proof.
  induction 1 as [|x y l l' H H' IH]; intros Hb; [destruct Hb|].
  destruct Hb as [<-|Hb]; [exists y; simpl; auto|].
  destruct (IH Hb) as [b [Hb' Hr]]. exists b. simpl; auto.
Qed.

Lemma F2_length : forall A B (R : A -> B -> Prop) l l', Forall2 R l l' -> List.length l = List.length l'.
Proof. induction 1; simpl; auto. Qed.

(** Two levels of double counting. *)
Lemma flash_events_sum : forall (G E : tbl) i, NoDup (map rid G) ->
  List.length (flash_events G E i)
  = list_sum (map (fun g => List.length (with_parent E (rid g))) (with_parent G i)).
Proof.
  intros G E i ND. rewrite (count_sum (with_parent G i) E).
  - unfold flash_events. f_equal. apply filter_ext. intros e.
    unfold with_parent. induction G as [|g G IH]; simpl; auto.
    simpl in ND. inversion ND; subst. rewrite IH by auto.
    destruct (rpid g =? i); simpl; [rewrite andb_true_r|rewrite andb_false_r]; auto.
  - apply nodup_map_filter; auto.
Qed.

Section Open.
Variable set_order : list Z -> list Z.
Hypothesis set_perm : forall l, Permutation (set_order l) l.
Variable nav : fval -> fval -> fval * fval.

Lemma rows_derived : forall op h (F G E F' G' E' : tbl), consistent [F; G; E] ->
  Forall2 (flash_row nav op h G E) F F' -> Forall2 (group_row nav op h E) G G' ->
  Forall2 (event_row nav op h G) E E' -> derived_ok F' G' E'.
Proof.
  intros op h F G E F' G' E' [Hu Ho] RF RG RE.
  apply unique3 in Hu. destruct Hu as (NF & NG & NE).
  apply linked_no_orphans in Ho. destruct Ho as [LFG LGE].
  assert (IF' : map rid F = map rid F') by (eapply F2_map; [exact RF|]; intros a b [[H _] _]; auto).
  assert (IG' : map rid G = map rid G') by (eapply F2_map; [exact RG|]; intros a b [[H _] _]; auto).
  assert (IE' : map rid E = map rid E') by (eapply F2_map; [exact RE|]; intros a b [[H _] _]; auto).
  assert (LG' : forall i, List.length (with_parent G i) = List.length (with_parent G' i)).
  { intros i. eapply F2_filter_length; [exact RG|]. intros a b _ [[_ [H _]] _]. rewrite H; auto. }
  assert (LE' : forall i, List.length (with_parent E i) = List.length (with_parent E' i)).
  { intros i. eapply F2_filter_length; [exact RE|]. intros a b _ [[_ [H _]] _]. rewrite H; auto. }
  assert (Hev : forall e e', event_row nav op h G e e' -> In e E -> o_flash (rdat e') = flash_of G e).
  { intros e e' (_ & _ & g & Hg & Eg & ->) He. symmetry. apply flash_of_unique; auto. }
  split; [split|split; [|split]].
  - apply unique3. rewrite <- IF', <- IG', <- IE'. auto.
  - apply linked_no_orphans. split.
    + intros g' Hg'. destruct (F2_in_r _ _ _ _ _ _ RG Hg') as [g [Hg [[E1 [E2 _]] _]]].
      destruct (LFG g Hg) as [f [Hf Ef]].
      destruct (F2_in_l _ _ _ _ _ _ RF Hf) as [f' [Hf' [[E3 _] _]]]. exists f'. split; auto. congruence.
    + intros e' He'. destruct (F2_in_r _ _ _ _ _ _ RE He') as [e [He [[E1 [E2 _]] _]]].
      destruct (LGE e He) as [g [Hg Eg]].
      destruct (F2_in_l _ _ _ _ _ _ RG Hg) as [g' [Hg' [[E3 _] _]]]. exists g'. split; auto. congruence.
  - intros e' He'. destruct (F2_in_r _ _ _ _ _ _ RE He') as [e [He [[E1 [E2 _]] [_ [g [Hg [Eg Ef]]]]]]].
    destruct (F2_in_l _ _ _ _ _ _ RG Hg) as [g' [Hg' [[E3 [E4 _]] _]]].
    exists g'. split; auto. split; congruence.
  - intros g' Hg'. destruct (F2_in_r _ _ _ _ _ _ RG Hg') as [g [Hg [[E1 _] [_ [_ Hn]]]]].
    rewrite Hn, E1. apply LE'.
  - intros f' Hf'. destruct (F2_in_r _ _ _ _ _ _ RF Hf') as [f [Hf [[E1 _] [_ [_ [Hn Hm]]]]]].
    split; [rewrite Hn, E1; apply LG'|].
    rewrite Hm, flash_events_eq by auto. eapply F2_filter_length; [exact RE|].
    intros e e' He Hr. rewrite (Hev e e' Hr He), E1. auto.
Qed.

Lemma nonempty3 : forall F G E : tbl, Forall (fun T => T <> []) [F; G; E] <->
  F <> [] /\ G <> [] /\ E <> [].
Proof.
  intros. split.
  - intros H. inversion H as [|? ? H1 H2]; subst. inversion H2 as [|? ? H3 H4]; subst.
    inversion H4; subst. auto.
  - intros (? & ? & ?). repeat constructor; auto.
Qed.

(** Opening a consistent, non-empty file. *)
Lemma open_consistent : forall op h (F G E : tbl),
  F <> [] -> G <> [] -> E <> [] -> consistent [F; G; E] ->
  calculate_parent_child op = true ->
  (opt_energy op = true ->
     u_flash_energy h = "J" /\ u_group_energy h = "J" /\ u_event_energy h = "J")%string ->
  exists F0 G0 E0 F' G' E',
    glm_open set_order nav op h [F; G; E] = Ok (header_out op h, [F'; G'; E']) /\
    Permutation G0 G /\ Permutation E0 E /\
    Permutation F0 (if check_tree op
                    then filter (fun f => existsb (fun g => rpid g =? rid f) G) F else F) /\
    Forall2 (flash_row nav op h G0 E0) F0 F' /\ Forall2 (group_row nav op h E0) G0 G' /\
    Forall2 (event_row nav op h G0) E0 E' /\
    derived_ok F' G' E' /\ F' <> [] /\ G' <> [] /\ E' <> [].
Proof.
  intros op h F G E HF HG HE [Hu Ho] Hc Hunits. rewrite open_rest.
  apply unique3 in Hu. destruct Hu as (NF & NG & NE).
  apply linked_no_orphans in Ho. destruct Ho as [LFG LGE].
  assert (Hrep : exists F0 G0 E0, repair set_order (check_tree op) [F; G; E] = Ok [F0; G0; E0] /\
    Permutation G0 G /\ Permutation E0 E /\
    Permutation F0 (if check_tree op
                    then filter (fun f => existsb (fun g => rpid g =? rid f) G) F else F)).
  { destruct (check_tree op) eqn:Ect.
    - destruct (repair_exact set_order set_perm F G E HF HG HE) as (F0 & G0 & E0 & R & PG & IF & IE & DF & DE).
      exists F0, G0, E0. split; auto. split; auto. split.
      + apply NoDup_Permutation; [eapply nodup_of_map; apply DE; auto|eapply nodup_of_map; eauto|].
        intros e. rewrite IE. split; [tauto|]. intros He. split; auto.
      + apply NoDup_Permutation; [eapply nodup_of_map; apply DF; auto| |].
        * apply NoDup_filter. eapply nodup_of_map; eauto.
        * intros f. rewrite IF, filter_In, existsb_exists. split.
          -- intros [Hf [g [Hg Eg]]]. split; auto. exists g. split; auto. apply Z.eqb_eq; auto.
          -- intros [Hf [g [Hg Eg]]]. split; auto. exists g. split; auto. apply Z.eqb_eq; auto.
    - exists F, G, E. repeat split; auto. }
  destruct Hrep as (F0 & G0 & E0 & R & PG & PE & PF). rewrite R. cbn [bind].
  assert (InF0 : forall f, In f F0 -> In f F).
  { intros f Hf. apply (Permutation_in _ PF) in Hf. destruct (check_tree op); auto.
    apply filter_In in Hf. tauto. }
  assert (NF0 : NoDup (map rid F0)).
  { eapply Permutation_NoDup; [apply Permutation_map, Permutation_sym, PF|].
    destruct (check_tree op); auto. apply nodup_map_filter; auto. }
  assert (NG0 : NoDup (map rid G0)) by (eapply Permutation_NoDup; [apply Permutation_map, Permutation_sym, PG|auto]).
  assert (NE0 : NoDup (map rid E0)) by (eapply Permutation_NoDup; [apply Permutation_map, Permutation_sym, PE|auto]).
  assert (HG0 : G0 <> []) by (intros ->; apply Permutation_nil in PG; auto).
  assert (HE0 : E0 <> []) by (intros ->; apply Permutation_nil in PE; auto).
  assert (L1 : linked F0 G0).
  { intros g Hg. apply (Permutation_in _ PG) in Hg. destruct (LFG g Hg) as [f [Hf Ef]].
    exists f. split; auto. apply (Permutation_in _ (Permutation_sym PF)). destruct (check_tree op); auto.
    apply filter_In. split; auto. apply existsb_exists. exists g. split; auto. apply Z.eqb_eq; auto. }
  assert (L2 : linked G0 E0).
  { intros e He. apply (Permutation_in _ PE) in He. destruct (LGE e He) as [g [Hg Eg]].
    exists g. split; auto. apply (Permutation_in _ (Permutation_sym PG)). auto. }
  assert (HF0 : F0 <> []).
  { intros ->. destruct G0 as [|g G0]; [congruence|]. destruct (L1 g (or_introl eq_refl)) as [f [[] _]]. }
  destruct (rest_ok nav op h F0 G0 E0 HF0 HG0 HE0 NF0 NG0 NE0 L2 Hc Hunits)
    as (F' & G' & E' & ER & RF & RG & RE).
  exists F0, G0, E0, F', G', E'. split; auto. split; auto. split; auto. split; auto.
  split; auto. split; auto. split; auto. split.
  - eapply rows_derived; eauto. split; [apply unique3; auto|apply linked_no_orphans; auto].
  - repeat split; intros ->; [inversion RF|inversion RG|inversion RE]; subst; congruence.
Qed.

(** Numbers that must agree on any dataset with correct derived variables. *)
Lemma derived_sums : forall F G E : tbl, derived_ok F G E ->
  (forall f, In f F -> o_nevent (rdat f)
     = list_sum (map (fun g => o_nchild (rdat g)) (with_parent G (rid f)))) /\
  list_sum (map (fun f => o_nchild (rdat f)) F) = List.length G /\
  list_sum (map (fun g => o_nchild (rdat g)) G) = List.length E /\
  list_sum (map (fun f => o_nevent (rdat f)) F) = List.length E.
Proof.
  intros F G E ((Hu & Ho) & HE & HG & HF).
  apply unique3 in Hu. destruct Hu as (NF & NG & NE).
  apply linked_no_orphans in Ho. destruct Ho as [LFG LGE].
  assert (Hfo : forall e, In e E -> o_flash (rdat e) = flash_of G e).
  { intros e He. destruct (HE e He) as [g [Hg [Eg ->]]]. symmetry. apply flash_of_unique; auto. }
  assert (Hev : forall i, filter (fun e => o_flash (rdat e) =? i) E = flash_events G E i).
  { intros i. rewrite flash_events_eq by auto. apply filter_ext_in. intros e He. rewrite Hfo; auto. }
  assert (S1 : forall f, In f F -> o_nevent (rdat f)
     = list_sum (map (fun g => o_nchild (rdat g)) (with_parent G (rid f)))).
  { intros f Hf. destruct (HF f Hf) as [_ ->]. rewrite Hev, flash_events_sum by auto. f_equal.
    apply map_ext_in. intros g Hg. apply in_with_parent in Hg. symmetry. apply HG; tauto. }
  split; auto. split; [|split].
  - rewrite <- (count_sum_consistent F G NF LFG). f_equal. apply map_ext_in. intros f Hf. apply HF; auto.
  - rewrite <- (count_sum_consistent G E NG LGE). f_equal. apply map_ext_in. intros g Hg. apply HG; auto.
  - (* count events by flash id *)
    set (E2 := map (fun e => mkRow (rid e) (o_flash (rdat e)) (rdat e)) E).
    replace (List.length E) with (List.length E2) by (unfold E2; rewrite map_length; auto).
    rewrite <- (count_sum_consistent F E2 NF).
    + f_equal. apply map_ext_in. intros f Hf. destruct (HF f Hf) as [_ ->].
      unfold with_parent, E2. rewrite filter_map, map_length. reflexivity.
    + intros s Hs. unfold E2 in Hs. apply in_map_iff in Hs. destruct Hs as [e [<- He]]. simpl.
      destruct (HE e He) as [g [Hg [Eg ->]]]. apply LFG; auto.
Qed.

(** * subset_flashes *)
Lemma Qlt_bool_iff : forall a b, Qlt_bool a b = true <-> (a < b)%Q.
Proof.
  intros. unfold Qlt_bool. rewrite negb_true_iff. split.
  - intros H. apply Qnot_le_lt. intros L. apply Qle_bool_iff in L. congruence.
  - intros H. destruct (Qle_bool b a) eqn:E; auto. apply Qle_bool_iff in E.
    exfalso. eapply Qlt_not_le; eauto.
Qed.

Lemma inside_iff : forall r v, inside r v = true <-> strictly r v.
Proof.
  intros [lo hi] v. unfold inside, strictly, flt, fgt. simpl. rewrite andb_true_iff.
  destruct v as [x|]; split.
  - intros [H1 H2]. apply Qlt_bool_iff in H1. apply Qlt_bool_iff in H2. eauto.
  - intros [y [E [H1 H2]]]. inversion E; subst. rewrite !Qlt_bool_iff. auto.
  - intros [H _]; discriminate.
  - intros [y [E _]]; discriminate.
Qed.

Lemma opt_inside_iff : forall r v, opt_inside r v = true <-> (forall r', r = Some r' -> strictly r' v).
Proof.
  intros [r|] v; simpl; [rewrite inside_iff|]; split; auto.
  - intros H r' E. inversion E; subst; auto.
  - intros; discriminate.
Qed.

Lemma opt_atleast_iff : forall m n, opt_atleast m n = true <-> (forall m', m = Some m' -> m' <= Z.of_nat n).
Proof.
  intros [m|] n; simpl; [rewrite Z.leb_le|]; split; auto.
  - intros H r' E. inversion E; subst; auto.
  - intros; discriminate.
Qed.

Lemma clip_iff : forall r v, strictly (clip r) v <->
  strictly (-(1349 # 10000), 1349 # 10000)%Q v /\ strictly r v.
Proof.
  intros [lo hi] v. unfold strictly, clip, Qmaxb, Qminb, fov. simpl. split.
  - intros [x [E [H1 H2]]].
    destruct (Qlt_bool (- (1349 # 10000)) lo) eqn:B1; destruct (Qlt_bool hi (1349 # 10000)) eqn:B2.
    + apply Qlt_bool_iff in B1. apply Qlt_bool_iff in B2. split; exists x; repeat split; auto.
      * exact (Qlt_trans _ _ _ B1 H1).
      * exact (Qlt_trans _ _ _ H2 B2).
    + apply Qlt_bool_iff in B1. unfold Qlt_bool in B2. apply negb_false_iff, Qle_bool_iff in B2.
      split; exists x; repeat split; auto.
      * exact (Qlt_trans _ _ _ B1 H1).
      * exact (Qlt_le_trans _ _ _ H2 B2).
    + apply Qlt_bool_iff in B2. unfold Qlt_bool in B1. apply negb_false_iff, Qle_bool_iff in B1.
      split; exists x; repeat split; auto.
      * exact (Qlt_trans _ _ _ H2 B2).
      * exact (Qle_lt_trans _ _ _ B1 H1).
    + unfold Qlt_bool in B1, B2. apply negb_false_iff, Qle_bool_iff in B1. apply negb_false_iff, Qle_bool_iff in B2.
      split; exists x; repeat split; auto.
      * exact (Qle_lt_trans _ _ _ B1 H1).
      * exact (Qlt_le_trans _ _ _ H2 B2).
  - intros [[x [E [H1 H2]]] [y [E' [H3 H4]]]]. rewrite E in E'. inversion E'; subst y.
    exists x. repeat split; auto.
    + destruct (Qlt_bool (- (1349 # 10000)) lo); auto.
    + destruct (Qlt_bool hi (1349 # 10000)); auto.
Qed.

Lemma default_range : forall o v,
  strictly (clip (match o with Some r => r | None => (- fov, fov)%Q end)) v <->
  strictly (-(1349 # 10000), 1349 # 10000)%Q v /\ (forall r, o = Some r -> strictly r v).
Proof.
  intros o v. rewrite clip_iff. destruct o as [r|].
  - split; intros [H1 H2]; split; auto. intros r' E; inversion E; subst; auto.
  - split; intros [H1 H2]; split; auto. intros; discriminate.
Qed.

Lemma subset_exact : forall (F G E : tbl) q, derived_ok F G E -> F <> [] -> G <> [] -> E <> [] ->
  q_check q = true ->
  exists F2 G2 E2, subset_flashes set_order [F; G; E] q = Ok [F2; G2; E2] /\
    (forall f, In f F2 <-> In f F /\ wanted q G E f) /\
    (forall g, In g G2 <-> In g G /\ exists f, In f F2 /\ rid f = rpid g) /\
    (forall e, In e E2 <-> In e E /\ exists g, In g G2 /\ rid g = rpid e) /\
    derived_ok F2 G2 E2.
Proof.
  intros F G E q Hd HF HG HE Hq.
  destruct Hd as ((Hu & Ho) & DE & DG & DF).
  assert (Hu' := Hu). apply unique3 in Hu'. destruct Hu' as (NF & NG & NE).
  assert (Ho' := Ho). apply linked_no_orphans in Ho'. destruct Ho' as [LFG LGE].
  assert (Hfo : forall e, In e E -> o_flash (rdat e) = flash_of G e).
  { intros e He. destruct (DE e He) as [g [Hg [Eg ->]]]. symmetry. apply flash_of_unique; auto. }
  assert (Hev : forall i, filter (fun e => o_flash (rdat e) =? i) E = flash_events G E i).
  { intros i. rewrite flash_events_eq by auto. apply filter_ext_in. intros e He. rewrite Hfo; auto. }
  unfold subset_flashes. rewrite Hq. unfold get_flashes. rewrite init3. cbn [bind].
  match goal with |- context [set_order ?s] => set (want := s) end.
  assert (Hwant : forall i, In i (set_order want) <-> exists f, In f F /\ rid f = i /\ wanted q G E f).
  { intros i.
    assert (P1 : In i (set_order want) <-> In i want)
      by (split; apply Permutation_in; [apply set_perm|apply Permutation_sym, set_perm]).
    rewrite P1. unfold want. rewrite zset_inter_in, zunique_in. unfold check_event_ids. rewrite zunique_in.
    rewrite !in_map_iff. split.
    - intros [[f [<- Hf]] [e [Ee He]]]. apply filter_In in Hf. destruct Hf as [Hf Hcond].
      apply filter_In in He. destruct He as [He Hin].
      repeat rewrite andb_true_iff in Hcond. destruct Hcond as [[[[[C1 C2] C3] C4] C5] C6].
      apply andb_true_iff in Hin. destruct Hin as [I1 I2].
      apply inside_iff, default_range in I1. apply inside_iff, default_range in I2.
      exists f. split; auto. split; auto. destruct (DF f Hf) as [Dn Dm].
      rewrite Hev in Dm.
      split; [apply opt_inside_iff; auto|]. split; [apply opt_inside_iff; auto|].
      split; [apply opt_inside_iff; auto|]. split; [apply opt_inside_iff; auto|].
      split; [rewrite <- Dm; apply opt_atleast_iff; auto|].
      split; [rewrite <- Dn; apply opt_atleast_iff; auto|].
      exists e. split.
      + rewrite <- Hev. apply filter_In. split; auto. apply Z.eqb_eq; auto.
      + cbv zeta. tauto.
    - intros [f [Hf [<- (W1 & W2 & W3 & W4 & W5 & W6 & e & He & W7)]]].
      cbv zeta in W7. destruct (DF f Hf) as [Dn Dm]. rewrite Hev in Dm. rewrite <- Hev in He.
      apply filter_In in He. destruct He as [He Ee]. apply Z.eqb_eq in Ee. split.
      + exists f. split; auto. apply filter_In. split; auto. repeat rewrite andb_true_iff.
        rewrite !opt_inside_iff, !opt_atleast_iff, Dn, Dm. tauto.
      + exists e. split; auto. apply filter_In. split; auto. apply andb_true_iff.
        rewrite !inside_iff, !default_range. tauto. }
  assert (NW : NoDup (set_order want)).
  { eapply Permutation_NoDup; [apply Permutation_sym, set_perm|].
    unfold want, zset_inter. apply NoDup_filter, zunique_nodup. }
  assert (Hne : Forall (fun T => T <> []) [F; G; E]) by (apply nonempty3; auto).
  destruct (reduce_consistent [F; G; E] entity_ids parent_ids (tv3 F G E) 0 "flash_id" (set_order want)
    (init3 F G E) nodup_eids eq_refl Hne (conj Hu Ho) NW) as [out [tv' [Eo [Hcons _]]]].
  rewrite reduce3 in Eo by auto. inversion Eo as [Eout]. clear Eo.
  set (ids := set_order want) in *.
  set (F2 := flat_map (with_id F) ids) in *. set (G2 := flat_map (with_parent G) ids) in *.
  set (E2 := flat_map (fun q0 => with_parent E (rid q0)) G2) in *.
  rewrite reduce3 by auto. fold F2 G2 E2. rewrite <- Eout in Hcons.
  assert (HF2 : forall f, In f F2 <-> In f F /\ wanted q G E f).
  { intros f. unfold F2. rewrite in_flat_map. split.
    - intros [i [Hi Hf]]. apply in_with_id in Hf. destruct Hf as [Hf <-]. split; auto.
      apply Hwant in Hi. destruct Hi as [f' [Hf' [Ef' Hw]]].
      rewrite (nodup_map_inj_in _ _ _ _ f' f NF Hf' Hf Ef') in Hw. auto.
    - intros [Hf Hw]. exists (rid f). split; [apply Hwant; eauto|apply in_with_id; auto]. }
  assert (HG2 : forall g, In g G2 <-> In g G /\ exists f, In f F2 /\ rid f = rpid g).
  { intros g. unfold G2. rewrite in_flat_map. split.
    - intros [i [Hi Hg]]. apply in_with_parent in Hg. destruct Hg as [Hg <-]. split; auto.
      apply Hwant in Hi. destruct Hi as [f [Hf [Ef Hw]]]. exists f. split; auto. apply HF2; auto.
    - intros [Hg [f [Hf Ef]]]. apply HF2 in Hf. destruct Hf as [Hf Hw].
      exists (rpid g). split; [apply Hwant; eauto|apply in_with_parent; auto]. }
  assert (HE2 : forall e, In e E2 <-> In e E /\ exists g, In g G2 /\ rid g = rpid e).
  { intros e. unfold E2. rewrite in_flat_map. split.
    - intros [g [Hg He]]. apply in_with_parent in He. destruct He as [He Ee]. eauto.
    - intros [He [g [Hg Eg]]]. exists g. split; auto. apply in_with_parent. auto. }
  assert (Hu2 : unique_ids [F2; G2; E2]) by apply Hcons.
  apply unique3 in Hu2. destruct Hu2 as (NF2 & NG2 & NE2).
  assert (PG2 : forall f, In f F2 -> Permutation (with_parent G2 (rid f)) (with_parent G (rid f))).
  { intros f Hf. apply NoDup_Permutation.
    - apply NoDup_filter. eapply nodup_of_map; eauto.
    - apply NoDup_filter. eapply nodup_of_map; eauto.
    - intros g. rewrite !in_with_parent, HG2. split; [tauto|]. intros [Hg Eg]. split; auto.
      split; auto. exists f. auto. }
  assert (PE2 : forall g, In g G2 -> Permutation (with_parent E2 (rid g)) (with_parent E (rid g))).
  { intros g Hg. apply NoDup_Permutation.
    - apply NoDup_filter. eapply nodup_of_map; eauto.
    - apply NoDup_filter. eapply nodup_of_map; eauto.
    - intros e. rewrite !in_with_parent, HE2. split; [tauto|]. intros [He Ee]. split; auto.
      split; auto. exists g. auto. }
  exists F2, G2, E2. split; [reflexivity|]. split; auto. split; auto. split; auto.
  split; [exact Hcons|]. split; [|split].
  - intros e He. apply HE2 in He. destruct He as [He [g [Hg Eg]]].
    exists g. split; auto. split; auto. rewrite Hfo by auto. apply flash_of_unique; auto.
    apply HG2 in Hg. tauto.
  - intros g Hg. rewrite (Permutation_length (PE2 g Hg)). apply DG. apply HG2 in Hg. tauto.
  - intros f Hf. assert (HfF : In f F) by (apply HF2 in Hf; tauto). destruct (DF f HfF) as [D1 D2].
    split; [rewrite (Permutation_length (PG2 f Hf)); auto|]. rewrite D2.
    apply Permutation_length, NoDup_Permutation.
    + apply NoDup_filter. eapply nodup_of_map; eauto.
    + apply NoDup_filter. eapply nodup_of_map; eauto.
    + intros e. rewrite !filter_In, HE2, Z.eqb_eq. split; [|tauto].
      intros [He Ee]. split; auto. split; auto.
      destruct (DE e He) as [g [Hg [Eg Eo]]]. exists g. split; auto. apply HG2. split; auto.
      exists f. split; auto. congruence.
Qed.

Lemma subset_empty_dim : forall (F G E : tbl) q, In [] [F; G; E] -> q_check q = true ->
  subset_flashes set_order [F; G; E] q = Err AttributeError.
Proof.
  intros F G E q Hin Hq. unfold subset_flashes. rewrite Hq. unfold get_flashes. rewrite init3.
  cbn [bind]. apply reduce3_empty; auto.
Qed.
End Open.
