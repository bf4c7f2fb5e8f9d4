(** The traversal theorems in the form stated in PropTraversal.v. *)
From Coq Require Import List ZArith Bool String Lia Sorting.Sorted.
From Verif Require Import Base BaseProofs Traversal TraversalSpec TraversalProofs TraversalProofs2
  TraversalProofs3.
Import ListNotations.
Open Scope Z_scope.

Section Proofs.
Context {P : Type}.
Local Notation table := (list (row P)).
Local Notation row := (row P).
Implicit Types ds : list table.

Lemma init_bound : forall ds evars pvars tv m e,
  trav_init ds evars pvars = Ok tv -> nth_error evars m = Some e -> (m < List.length ds)%nat.
Proof.
  intros ds evars pvars tv m e Hi He. apply init_inv in Hi. destruct Hi as [_ [L1 L2]].
  rewrite L2. apply nth_error_Some. congruence.
Qed.

Lemma replicate_consistent : forall ds evars pvars tv m c e pv Tc,
  trav_init ds evars pvars = Ok tv -> NoDup evars -> NoDup pvars ->
  nth_error evars m = Some e -> nth_error pvars c = Some pv -> (m <= c)%nat ->
  nth_error ds (S c) = Some Tc -> consistent ds ->
  exists l, replicate_parent_ids tv e pv = Ok l /\ List.length l = List.length Tc /\
     forall k r, nth_error Tc k = Some r ->
       exists a T, nth_error l k = Some a /\ ancestor ds (S c) r m a /\
                   nth_error ds m = Some T /\ In a (map rid T).
Proof.
  intros ds evars pvars tv m c e pv Tc Hi ND NDp He Hp Hmc HTc [Hu Ho].
  assert (Hlen : (S c < List.length ds)%nat) by (apply nth_error_Some; congruence).
  assert (Hnn : Tc <> [] -> forall j, (j <= S c)%nat -> nth_error ds j <> Some []).
  { intros HT j Hj. remember (S c - j)%nat as d eqn:Ed. revert j Hj Ed.
    induction d as [|d IH]; intros j Hj Ed.
    - replace j with (S c) by lia. congruence.
    - intros HE. destruct (nth_error ds (S j)) as [B|] eqn:HB.
      + destruct B as [|b B].
        * apply (IH (S j)); auto; lia.
        * destruct (Ho j [] (b :: B) HE HB b (or_introl eq_refl)) as [r [[] _]].
      + apply nth_error_None in HB. lia. }
  assert (Hanc : forall d r, In r Tc -> (m + d = c)%nat ->
            exists a T, ancestor ds (S c) r m a /\ nth_error ds m = Some T /\ In a (map rid T)).
  { intros d. clear He. revert m Hmc. induction d as [|d IH]; intros m Hmc r Hr Ed.
    - assert (m = c) by lia. subst m.
      destruct (nth_error ds c) as [T|] eqn:HT; [|apply nth_error_None in HT; lia].
      destruct (Ho c T Tc HT HTc r Hr) as [q [Hq Eq]].
      exists (rpid r), T. split; [constructor|]. split; auto. rewrite <- Eq. apply in_map; auto.
    - destruct (IH (S m) ltac:(lia) r Hr ltac:(lia)) as [a [T [Ha [HT Hin]]]].
      apply in_map_iff in Hin. destruct Hin as [q [Eq Hq]].
      destruct (nth_error ds m) as [T0|] eqn:HT0; [|apply nth_error_None in HT0; lia].
      destruct (Ho m T0 T HT0 HT q Hq) as [q0 [Hq0 Eq0]].
      exists (rpid q), T0. split; [|split; auto].
      + eapply anc_up; eauto.
      + rewrite <- Eq0. apply in_map; auto. }
  destruct (replicate_spec ds evars pvars tv m c e pv Tc Hi ND NDp He Hp Hmc HTc Hu)
    as [[l [E [L H]]]|[E [k [r [Hk Hno]]]]].
  - intros HT j Hj. apply Hnn; auto. lia.
  - exists l. split; auto. split; auto. intros k r Hk.
    destruct (H k r Hk) as [a [Ha Hanc1]].
    destruct (Hanc (c - m)%nat r (nth_error_In _ _ Hk) ltac:(lia)) as [b [T [Hb [HT Hin]]]].
    assert (a = b) by (eapply ancestor_fun; eauto). subst b. eauto 6.
  - exfalso. destruct (Hanc (c - m)%nat r (nth_error_In _ _ Hk) ltac:(lia)) as [b [T [Hb _]]].
    apply (Hno b Hb).
Qed.

Lemma reduce_reaches : forall ds evars pvars tv m e ids,
  trav_init ds evars pvars = Ok tv -> NoDup evars ->
  nth_error evars m = Some e -> Forall (fun T => T <> []) ds ->
  exists out, reduce_to_entities tv e ids = Ok out /\ List.length out = List.length ds /\
    (forall j U, (m <= j)%nat -> nth_error out j = Some U ->
       forall r, In r U <-> reaches ds m ids j r) /\
    (forall j T U, nth_error ds j = Some T -> nth_error out j = Some U ->
       forall r, In r U -> In r T).
Proof.
  intros ds evars pvars tv m e ids Hi ND He Hne.
  assert (Hm := init_bound _ _ _ _ _ _ Hi He).
  destruct (reduce_pruned _ _ _ _ m e ids Hi ND He Hne) as [out [E Hp]].
  exists out. split; auto. split; [eapply pruned_length; eauto|]. split.
  - intros j U Hj HU r. replace j with (m + (j - m))%nat in * by lia.
    apply (pruned_reaches _ _ _ _ Hp _ _ HU).
  - eapply pruned_subset; eauto.
Qed.

Lemma reduce_order : forall ds evars pvars tv m e ids T,
  trav_init ds evars pvars = Ok tv -> NoDup evars ->
  nth_error evars m = Some e -> Forall (fun T => T <> []) ds ->
  nth_error ds m = Some T -> NoDup (map rid T) ->
  exists out U, reduce_to_entities tv e ids = Ok out /\ nth_error out m = Some U /\
    map rid U = filter (fun i => existsb (fun r => rid r =? i) T) ids /\
    (forall r, In r U -> In r T).
Proof.
  intros ds evars pvars tv m e ids T Hi ND He Hne HT NDT.
  destruct (reduce_pruned _ _ _ _ m e ids Hi ND He Hne) as [out [E Hp]].
  destruct Hp as (L & HA & _). exists out. eexists. split; [eauto|]. split; [eauto|].
  split; [apply chain_id_order; auto|].
  intros r Hr. apply in_flat_map in Hr. destruct Hr as [i [_ Hr]]. apply in_with_id in Hr. apply Hr.
Qed.

Lemma chain_parent_as_children : forall (A B : table) ids, NoDup (map rid A) ->
  (forall s, In s B -> exists r, In r A /\ rid r = rpid s) ->
  flat_map (with_parent B) ids
  = flat_map (fun q => with_parent B (rid q)) (flat_map (with_id A) ids).
Proof.
  intros A B ids ND Ho. rewrite flat_map_flat_map. apply flat_map_ext_in. intros i Hi.
  assert (H := find_unique A i ND). destruct (find (fun r => rid r =? i) A) as [r|] eqn:E.
  - rewrite H. simpl. rewrite app_nil_r. apply find_some in E. destruct E as [_ E].
    apply Z.eqb_eq in E. rewrite E. auto.
  - rewrite H. simpl. apply filter_none. intros s Hs. destruct (rpid s =? i) eqn:Es; auto.
    apply Z.eqb_eq in Es. destruct (Ho s Hs) as [r [Hr Er]].
    assert (Hn := find_none _ _ E r Hr). simpl in Hn. apply Z.eqb_neq in Hn. congruence.
Qed.

Lemma reduce_children_order : forall ds evars pvars tv m e ids,
  trav_init ds evars pvars = Ok tv -> NoDup evars ->
  nth_error evars m = Some e -> Forall (fun T => T <> []) ds -> consistent ds ->
  exists out, reduce_to_entities tv e ids = Ok out /\
    forall j U V T, (m <= j)%nat -> nth_error out j = Some U -> nth_error out (S j) = Some V ->
      nth_error ds (S j) = Some T ->
      V = flat_map (fun q => filter (fun s => rpid s =? rid q) T) U.
Proof.
  intros ds evars pvars tv m e ids Hi ND He Hne [Hu Ho].
  assert (Hm := init_bound _ _ _ _ _ _ Hi He).
  destruct (reduce_pruned _ _ _ _ m e ids Hi ND He Hne) as [out [E Hp]].
  exists out. split; auto. destruct Hp as (L & HA & HB & HC & HD).
  intros j U V T Hj HU HV HT. destruct (Nat.eq_dec j m).
  - subst j. destruct (nth_error ds m) as [A|] eqn:HAm; [|apply nth_error_None in HAm; lia].
    specialize (HA _ eq_refl). specialize (HB _ HT). rewrite HA in HU. rewrite HB in HV.
    inversion HU; inversion HV; subst. apply chain_parent_as_children; eauto.
  - specialize (HC j T U ltac:(lia) HT HU). rewrite HC in HV. inversion HV. reflexivity.
Qed.

Lemma reduce_ancestors : forall ds evars pvars tv m e ids,
  trav_init ds evars pvars = Ok tv -> NoDup evars ->
  nth_error evars m = Some e -> Forall (fun T => T <> []) ds ->
  exists out, reduce_to_entities tv e ids = Ok out /\
    forall j T U V, (j < m)%nat ->
      nth_error ds j = Some T -> nth_error out j = Some U -> nth_error out (S j) = Some V ->
      (forall r, In r U <-> In r T /\ exists s, In s V /\ rpid s = rid r) /\
      (NoDup (map rid T) -> StronglySorted Z.lt (map rid U)).
Proof.
  intros ds evars pvars tv m e ids Hi ND He Hne.
  destruct (reduce_pruned _ _ _ _ m e ids Hi ND He Hne) as [out [E Hp]].
  exists out. split; auto. apply (pruned_ancestors _ _ _ _ Hp).
Qed.

Lemma reduce_ok_nonempty : forall ds evars pvars tv m e ids out,
  trav_init ds evars pvars = Ok tv -> NoDup evars -> nth_error evars m = Some e ->
  reduce_to_entities tv e ids = Ok out -> Forall (fun T => T <> []) ds.
Proof.
  intros ds evars pvars tv m e ids out Hi ND He E. apply Forall_forall. intros T HT ->.
  rewrite (reduce_empty ds evars pvars tv m e ids) in E; auto. discriminate.
Qed.

Lemma init_again : forall ds (out : list table) evars pvars tv,
  trav_init ds evars pvars = Ok tv -> List.length out = List.length ds ->
  exists tv', trav_init out evars pvars = Ok tv'.
Proof.
  intros ds out evars pvars tv Hi L. apply init_inv in Hi. destruct Hi as [_ [L1 L2]].
  unfold trav_init. rewrite L1.
  replace (Z.of_nat (List.length pvars) =? Z.of_nat (S (List.length pvars)) - 1) with true
    by (symmetry; apply Z.eqb_eq; lia).
  replace (Nat.eqb (List.length out) (S (List.length pvars))) with true
    by (symmetry; apply Nat.eqb_eq; lia).
  simpl. eauto.
Qed.

Lemma reduce_consistent : forall ds evars pvars tv m e ids,
  trav_init ds evars pvars = Ok tv -> NoDup evars ->
  nth_error evars m = Some e -> Forall (fun T => T <> []) ds ->
  consistent ds -> NoDup ids ->
  exists out tv', reduce_to_entities tv e ids = Ok out /\ consistent out /\
    trav_init out evars pvars = Ok tv'.
Proof.
  intros ds evars pvars tv m e ids Hi ND He Hne [Hu Ho] NDi.
  assert (Hm := init_bound _ _ _ _ _ _ Hi He).
  destruct (reduce_pruned _ _ _ _ m e ids Hi ND He Hne) as [out [E Hp]].
  destruct (init_again ds out evars pvars tv Hi (pruned_length _ _ _ _ Hp)) as [tv' Hi'].
  exists out, tv'. split; auto. split; auto. split.
  - eapply pruned_unique_ids; eauto.
  - eapply pruned_no_orphans; eauto.
Qed.

Lemma reduce_chain_consistent : forall reqs ds evars pvars out,
  NoDup evars -> List.length ds = List.length evars ->
  List.length evars = S (List.length pvars) -> consistent ds ->
  Forall (fun q => In (fst q) evars /\ NoDup (snd q)) reqs ->
  fold_res (fun d q => tv <- trav_init d evars pvars ;; reduce_to_entities tv (fst q) (snd q)) reqs ds
    = Ok out ->
  consistent out.
Proof.
  induction reqs as [|[e ids] reqs IH]; intros ds evars pvars out ND L1 L2 Hc HF H.
  - simpl in H. inversion H; subst; auto.
  - inversion HF as [|q qs [He NDi] HF']; subst. simpl in He, NDi.
    cbn [fold_res fst snd] in H.
    apply bind_ok_inv in H. destruct H as [d' [H1 H2]].
    apply bind_ok_inv in H1. destruct H1 as [tv [Hi E]].
    apply In_nth_error in He. destruct He as [m He].
    assert (Hne := reduce_ok_nonempty _ _ _ _ _ _ _ _ Hi ND He E).
    destruct (reduce_consistent ds evars pvars tv m e ids Hi ND He Hne Hc NDi)
      as [o [tv' [E' [Hc' Hi']]]].
    rewrite E in E'. inversion E'; subst o. apply init_inv in Hi'. destruct Hi' as [_ [_ L']].
    apply (IH d' evars pvars out); auto.
Qed.

Lemma reduce_compose : forall ds evars pvars tv m e A B o1 tv1 o2,
  trav_init ds evars pvars = Ok tv -> NoDup evars ->
  nth_error evars m = Some e -> unique_ids ds -> NoDup A -> (forall i, In i B -> In i A) ->
  reduce_to_entities tv e A = Ok o1 -> trav_init o1 evars pvars = Ok tv1 ->
  reduce_to_entities tv1 e B = Ok o2 ->
  reduce_to_entities tv e B = Ok o2.
Proof.
  intros ds evars pvars tv m e A B o1 tv1 o2 Hi ND He Hu NDA Hsub E1 Hi1 E2.
  assert (Hm := init_bound _ _ _ _ _ _ Hi He).
  assert (Hne := reduce_ok_nonempty _ _ _ _ _ _ _ _ Hi ND He E1).
  assert (Hne1 := reduce_ok_nonempty _ _ _ _ _ _ _ _ Hi1 ND He E2).
  destruct (reduce_pruned _ _ _ _ m e A Hi ND He Hne) as [x1 [X1 P1]].
  destruct (reduce_pruned _ _ _ _ m e B Hi1 ND He Hne1) as [x2 [X2 P2]].
  destruct (reduce_pruned _ _ _ _ m e B Hi ND He Hne) as [x3 [X3 P3]].
  rewrite E1 in X1. inversion X1; subst x1. rewrite E2 in X2. inversion X2; subst x2.
  rewrite X3. f_equal. eapply pruned_unique; eauto. eapply pruned_compose; eauto.
Qed.

Lemma reduce_idempotent : forall ds evars pvars tv m e A o1 tv1,
  trav_init ds evars pvars = Ok tv -> NoDup evars ->
  nth_error evars m = Some e -> unique_ids ds -> NoDup A ->
  reduce_to_entities tv e A = Ok o1 -> trav_init o1 evars pvars = Ok tv1 ->
  Forall (fun T => T <> []) o1 ->
  reduce_to_entities tv1 e A = Ok o1.
Proof.
  intros ds evars pvars tv m e A o1 tv1 Hi ND He Hu NDA E1 Hi1 Hne1.
  destruct (reduce_pruned _ _ _ _ m e A Hi1 ND He Hne1) as [x2 [X2 P2]].
  assert (E := reduce_compose ds evars pvars tv m e A A o1 tv1 x2 Hi ND He Hu NDA
    (fun i H => H) E1 Hi1 X2).
  congruence.
Qed.

(** check_parent_child *)
Lemma zset_diff_lists : forall a b, StronglySorted Z.lt a ->
  lists_set (zset_diff a (zset_inter a b)) (fun x => In x a /\ ~ In x b).
Proof.
  intros a b Ha. split; [apply sorted_filter; auto|].
  intros x. rewrite zset_diff_in, zset_inter_in. tauto.
Qed.
Lemma zset_diff_lists_r : forall a b, StronglySorted Z.lt b ->
  lists_set (zset_diff b (zset_inter a b)) (fun x => In x b /\ ~ In x a).
Proof.
  intros a b Ha. split; [apply sorted_filter; auto|].
  intros x. rewrite zset_diff_in, zset_inter_in. tauto.
Qed.

Lemma distinct_zunique : forall l, distinct_count (List.length (zunique l)) l.
Proof. intros l. exists (zunique l). split; [apply zunique_nodup|]. split; [apply zunique_in|auto]. Qed.

Lemma check_exact : forall ds evars pvars tv,
  trav_init ds evars pvars = Ok tv -> Forall (fun T => T <> []) ds ->
  exists ents pars, check_parent_child tv = Ok (ents, pars) /\
    List.length ents = List.length pvars /\ List.length pars = List.length pvars /\
    forall j A B e p, nth_error ds j = Some A -> nth_error ds (S j) = Some B ->
      nth_error evars j = Some e -> nth_error pvars j = Some p ->
      exists n1 l1 n2 l2,
        nth_error ents j = Some (e, (n1, List.length l1, l1)) /\
        nth_error pars j = Some (p, (n2, List.length l2, l2)) /\
        distinct_count n1 (map rid A) /\ distinct_count n2 (map rpid B) /\
        lists_set l1 (fun x => In x (map rid A) /\ ~ In x (map rpid B)) /\
        lists_set l2 (fun x => In x (map rpid B) /\ ~ In x (map rid A)).
Proof.
  intros ds evars pvars tv Hi Hne.
  destruct (check_refines ds evars pvars tv Hi Hne) as (e0 & es & T0 & Ts & -> & -> & L1 & L2 & E).
  rewrite E. destruct (cp_spec_length es pvars Ts (e0, T0) L1 L2) as [K1 K2].
  destruct (cp_spec (e0, T0) es (map Some pvars) Ts) as [ents pars] eqn:Ec.
  exists ents, pars. split; auto. cbn [fst snd] in K1, K2. split; [lia|]. split; [lia|].
  intros j A B e p HA HB He Hp. cbn [nth_error] in HB.
  destruct (cp_spec_nth es pvars Ts e0 T0 j A B e p L1 L2 He Hp HA HB) as [N1 N2].
  rewrite Ec in N1, N2. cbn [fst snd] in N1, N2. unfold pair_stats in N1, N2. cbn [fst snd] in N1, N2.
  do 4 eexists. split; [exact N1|]. split; [exact N2|].
  split; [apply distinct_zunique|]. split; [apply distinct_zunique|].
  assert (H1 := zset_diff_lists _ (zunique (map rpid B)) (zunique_sorted (map rid A))).
  assert (H2 := zset_diff_lists_r (zunique (map rid A)) _ (zunique_sorted (map rpid B))).
  split; [split; [apply H1|]|split; [apply H2|]].
  - intros x. rewrite (proj2 H1 x), !zunique_in. tauto.
  - intros x. rewrite (proj2 H2 x), !zunique_in. tauto.
Qed.

Lemma in_pairs : forall A (l : list A) x, In x l -> exists j, nth_error l j = Some x.
Proof. intros. apply In_nth_error; auto. Qed.

Lemma check_clean : forall ds evars pvars tv,
  trav_init ds evars pvars = Ok tv -> Forall (fun T => T <> []) ds ->
  exists ents pars, check_parent_child tv = Ok (ents, pars) /\
   ((forall x, In x ents \/ In x pars -> snd (snd x) = []) <->
    (no_orphans ds /\
     forall j A B, nth_error ds j = Some A -> nth_error ds (S j) = Some B ->
       forall r, In r A -> exists s, In s B /\ rpid s = rid r)).
Proof.
  intros ds evars pvars tv Hi Hne.
  destruct (check_exact ds evars pvars tv Hi Hne) as (ents & pars & E & K1 & K2 & H).
  apply init_inv in Hi. destruct Hi as [_ [L1 L2]].
  exists ents, pars. split; auto.
  assert (Hnames : forall j, (S j < List.length ds)%nat ->
     exists A B e p, nth_error ds j = Some A /\ nth_error ds (S j) = Some B /\
       nth_error evars j = Some e /\ nth_error pvars j = Some p).
  { intros j Hj.
    destruct (nth_error ds j) as [A|] eqn:H1; [|apply nth_error_None in H1; lia].
    destruct (nth_error ds (S j)) as [B|] eqn:H2; [|apply nth_error_None in H2; lia].
    destruct (nth_error evars j) as [e|] eqn:H3; [|apply nth_error_None in H3; lia].
    destruct (nth_error pvars j) as [p|] eqn:H4; [|apply nth_error_None in H4; lia].
    do 4 eexists. eauto. }
  split.
  - intros Hx.
    assert (Hboth : forall j A B, nth_error ds j = Some A -> nth_error ds (S j) = Some B ->
      (forall x, In x (map rid A) -> In x (map rpid B)) /\
      (forall x, In x (map rpid B) -> In x (map rid A))).
    { intros j A B HA HB.
      assert (Hj : (S j < List.length ds)%nat) by (apply nth_error_Some; congruence).
      destruct (Hnames j Hj) as (A' & B' & e & p & X1 & X2 & X3 & X4).
      rewrite HA in X1; inversion X1; subst A'. rewrite HB in X2; inversion X2; subst B'.
      destruct (H j A B e p HA HB X3 X4) as (n1 & l1 & n2 & l2 & N1 & N2 & _ & _ & [_ S1] & [_ S2]).
      assert (Z1 := Hx _ (or_introl (nth_error_In _ _ N1))). simpl in Z1. subst l1.
      assert (Z2 := Hx _ (or_intror (nth_error_In _ _ N2))). simpl in Z2. subst l2.
      split; intros x Hin.
      - destruct (in_dec Z.eq_dec x (map rpid B)) as [|n]; auto.
        destruct (proj2 (S1 x) (conj Hin n)).
      - destruct (in_dec Z.eq_dec x (map rid A)) as [|n]; auto.
        destruct (proj2 (S2 x) (conj Hin n)). }
    split.
    + intros j A B HA HB s Hs. destruct (Hboth j A B HA HB) as [_ H2].
      specialize (H2 (rpid s) (in_map _ _ _ Hs)). apply in_map_iff in H2.
      destruct H2 as [r [Er Hr]]. eauto.
    + intros j A B HA HB r Hr. destruct (Hboth j A B HA HB) as [H1 _].
      specialize (H1 (rid r) (in_map _ _ _ Hr)). apply in_map_iff in H1.
      destruct H1 as [s [Es Hs]]. eauto.
  - intros [Ho Hch] x Hx.
    assert (Hj : exists j, (j < List.length pvars)%nat /\
                 (nth_error ents j = Some x \/ nth_error pars j = Some x)).
    { destruct Hx as [Hx|Hx]; apply In_nth_error in Hx; destruct Hx as [j Hj]; exists j;
        (split; [|auto]).
      - rewrite <- K1. apply nth_error_Some. congruence.
      - rewrite <- K2. apply nth_error_Some. congruence. }
    destruct Hj as [j [Hj Hn]].
    destruct (Hnames j ltac:(lia)) as (A & B & e & p & X1 & X2 & X3 & X4).
    destruct (H j A B e p X1 X2 X3 X4) as (n1 & l1 & n2 & l2 & N1 & N2 & _ & _ & [_ S1] & [_ S2]).
    destruct Hn as [Hn|Hn].
    + rewrite N1 in Hn. inversion Hn; subst x. simpl. destruct l1 as [|y l1]; auto. exfalso.
      destruct (proj1 (S1 y) (or_introl eq_refl)) as [Ha Hb]. apply in_map_iff in Ha.
      destruct Ha as [r [Er Hr]]. destruct (Hch j A B X1 X2 r Hr) as [s [Hs Es]].
      apply Hb. rewrite <- Er, <- Es. apply in_map; auto.
    + rewrite N2 in Hn. inversion Hn; subst x. simpl. destruct l2 as [|y l2]; auto. exfalso.
      destruct (proj1 (S2 y) (or_introl eq_refl)) as [Ha Hb]. apply in_map_iff in Ha.
      destruct Ha as [s [Es Hs]]. destruct (Ho j A B X1 X2 s Hs) as [r [Hr Er]].
      apply Hb. rewrite <- Es, <- Er. apply in_map; auto.
Qed.
End Proofs.
