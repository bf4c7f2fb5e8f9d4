(** Consequences of the refinement, and the remaining methods of the class. *)
From Coq Require Import List ZArith Bool String Lia Sorting.Sorted.
From Verif Require Import Base BaseProofs Traversal TraversalSpec TraversalProofs.
Import ListNotations.
Open Scope Z_scope.

Section Proofs.
Context {P : Type}.
Local Notation table := (list (row P)).
Local Notation row := (row P).

Lemma in_with_id : forall (T : table) i r, In r (with_id T i) <-> In r T /\ rid r = i.
Proof. intros. unfold with_id. rewrite filter_In, Z.eqb_eq. tauto. Qed.
Lemma in_with_parent : forall (T : table) i r, In r (with_parent T i) <-> In r T /\ rpid r = i.
Proof. intros. unfold with_parent. rewrite filter_In, Z.eqb_eq. tauto. Qed.

Lemma pruned_length : forall ds m ids (out : list table),
  pruned ds m ids out -> List.length out = List.length ds.
Proof. intros ds m ids out H. apply H. Qed.

Lemma nth_same : forall A B (l : list A) (l' : list B) j x,
  List.length l = List.length l' -> nth_error l j = Some x -> exists y, nth_error l' j = Some y.
Proof.
  intros. destruct (nth_error l' j) eqn:E; eauto. apply nth_error_None in E.
  assert (nth_error l j <> None) by congruence. apply nth_error_Some in H1. lia.
Qed.

(** Membership at and below the requested level. *)
Lemma pruned_reaches : forall ds m ids (out : list table),
  pruned ds m ids out -> forall n U, nth_error out (m + n) = Some U ->
  forall r, In r U <-> reaches ds m ids (m + n) r.
Proof.
  intros ds m ids out Hp. assert (L := pruned_length _ _ _ _ Hp).
  destruct Hp as (_ & HA & HB & HC & HD).
  induction n as [|n IH]; intros U HU r.
  - rewrite Nat.add_0_r in *.
    destruct (nth_same _ _ _ ds m U L HU) as [T HT]. rewrite (HA _ HT) in HU.
    inversion HU; subst. rewrite in_flat_map. split.
    + intros [i [Hi Hr]]. apply in_with_id in Hr. destruct Hr as [Hr <-].
      econstructor; eauto.
    + intros H. inversion H as [T0 r0 HT0 Hin Hid E|T0 r0 HT0 Hin Hid E|j0 T0 q r0 Hlt Hre HT0 Hin Hid E]; subst; try lia.
      exists (rid r). split; auto. apply in_with_id.
      rewrite HT in HT0. inversion HT0; subst. auto.
  - destruct (nth_same _ _ _ ds _ U L HU) as [T HT].
    destruct n as [|n].
    + replace (m + 1)%nat with (S m) in * by lia.
      rewrite (HB _ HT) in HU. inversion HU; subst. rewrite in_flat_map. split.
      * intros [i [Hi Hr]]. apply in_with_parent in Hr. destruct Hr as [Hr <-].
        eapply reach_child; eauto.
      * intros H. inversion H as [T0 r0 HT0 Hin Hid E|T0 r0 HT0 Hin Hid E|j0 T0 q r0 Hlt Hre HT0 Hin Hid E]; subst; try lia.
        exists (rpid r). split; auto. apply in_with_parent.
        rewrite HT in HT0. inversion HT0; subst. auto.
    + replace (m + S (S n))%nat with (S (m + S n)) in * by lia.
      destruct (nth_error out (m + S n)) as [V|] eqn:HV.
      2:{ apply nth_error_None in HV.
          assert (nth_error out (S (m + S n)) <> None) by congruence.
          apply nth_error_Some in H. lia. }
      rewrite (HC (m + S n)%nat T V ltac:(lia) HT HV) in HU. inversion HU; subst.
      rewrite in_flat_map. split.
      * intros [q [Hq Hr]]. apply in_with_parent in Hr. destruct Hr as [Hr E].
        apply (IH V eq_refl) in Hq. eapply reach_down with (q := q); eauto. lia.
      * intros H. inversion H as [T0 r0 HT0 Hin Hid E|T0 r0 HT0 Hin Hid E|j0 T0 q r0 Hlt Hre HT0 Hin Hid E]; subst; try lia.
        exists q. split; [apply (IH V eq_refl); auto|]. apply in_with_parent.
        rewrite HT in HT0. inversion HT0; subst. auto.
Qed.

(** Every row of the result is a row of the dataset, on the same level. *)
Lemma pruned_subset : forall ds m ids (out : list table),
  (m < List.length ds)%nat ->
  pruned ds m ids out -> forall j T U, nth_error ds j = Some T -> nth_error out j = Some U ->
  forall r, In r U -> In r T.
Proof.
  intros ds m ids out Hm Hp j T U HT HU r Hr. destruct (le_lt_dec m j).
  - replace j with (m + (j - m))%nat in * by lia.
    assert (H := proj1 (pruned_reaches _ _ _ _ Hp _ _ HU r) Hr).
    inversion H as [T0 r0 HT0 Hin Hid E|T0 r0 HT0 Hin Hid E|j0 T0 q r0 Hlt Hre HT0 Hin Hid E]; subst.
    + replace (m + (j - m))%nat with m in HT by lia. congruence.
    + rewrite <- E in HT. congruence.
    + rewrite <- E in HT. congruence.
  - assert (L := pruned_length _ _ _ _ Hp). destruct Hp as (_ & HA & HB & HC & HD).
    destruct (nth_error out (S j)) as [V|] eqn:HV.
    + destruct (HD j T V l HT HV) as [ks [_ [_ E]]]. rewrite E in HU. inversion HU; subst.
      apply in_flat_map in Hr. destruct Hr as [i [_ Hr]]. apply in_with_id in Hr. tauto.
    + apply nth_error_None in HV. lia.
Qed.

(** Ids stay unique. *)
Lemma with_id_nodup : forall (T : table) i, NoDup (map rid T) -> NoDup (map rid (with_id T i)).
Proof. intros. apply nodup_map_filter; auto. Qed.
Lemma with_parent_nodup : forall (T : table) i, NoDup (map rid T) -> NoDup (map rid (with_parent T i)).
Proof. intros. apply nodup_map_filter; auto. Qed.

Lemma chain_id_nodup : forall (T : table) ks,
  NoDup (map rid T) -> NoDup ks -> NoDup (map rid (flat_map (with_id T) ks)).
Proof.
  intros T ks HT Hk. apply nodup_map_flat_map; auto.
  - intros a _. apply with_id_nodup; auto.
  - intros a b x y _ _ Hx Hy E. apply in_with_id in Hx. apply in_with_id in Hy. intuition congruence.
Qed.

Lemma chain_parent_nodup : forall (T : table) ks,
  NoDup (map rid T) -> NoDup ks -> NoDup (map rid (flat_map (with_parent T) ks)).
Proof.
  intros T ks HT Hk. apply nodup_map_flat_map; auto.
  - intros a _. apply with_parent_nodup; auto.
  - intros a b x y _ _ Hx Hy E. apply in_with_parent in Hx. apply in_with_parent in Hy.
    destruct Hx as [Hx <-], Hy as [Hy <-].
    rewrite (nodup_map_inj_in _ _ _ _ x y HT Hx Hy E). auto.
Qed.

Lemma nodup_of_map : forall A B (f : A -> B) l, NoDup (map f l) -> NoDup l.
Proof.
  induction l as [|a l IH]; intros H; constructor; simpl in H; inversion H; subst.
  - intros Hin. apply H2. apply in_map; auto.
  - apply IH; auto.
Qed.

Lemma pruned_unique_ids : forall ds m ids (out : list table),
  (m < List.length ds)%nat ->
  pruned ds m ids out -> NoDup ids -> unique_ids ds -> unique_ids out.
Proof.
  intros ds m ids out Hm Hp ND Hu. assert (L := pruned_length _ _ _ _ Hp).
  destruct Hp as (_ & HA & HB & HC & HD).
  assert (Low : forall n U, nth_error out (m + n) = Some U -> NoDup (map rid U)).
  { induction n as [|n IH]; intros U HU.
    - rewrite Nat.add_0_r in HU. destruct (nth_same _ _ _ ds m U L HU) as [T HT].
      rewrite (HA _ HT) in HU. inversion HU; subst. apply chain_id_nodup; eauto.
    - destruct (nth_same _ _ _ ds _ U L HU) as [T HT]. destruct n as [|n].
      + replace (m + 1)%nat with (S m) in * by lia. rewrite (HB _ HT) in HU.
        inversion HU; subst. apply chain_parent_nodup; eauto.
      + replace (m + S (S n))%nat with (S (m + S n)) in * by lia.
        destruct (nth_error out (m + S n)) as [V|] eqn:HV.
        2:{ apply nth_error_None in HV. assert (nth_error out (S (m + S n)) <> None) by congruence.
            apply nth_error_Some in H. lia. }
        rewrite (HC (m + S n)%nat T V ltac:(lia) HT HV) in HU. inversion HU; subst.
        rewrite <- (flat_map_map _ _ _ rid (with_parent T)).
        apply chain_parent_nodup; eauto. }
  intros j U HU. destruct (le_lt_dec m j).
  - replace j with (m + (j - m))%nat in HU by lia. eauto.
  - destruct (nth_same _ _ _ ds _ U L HU) as [T HT].
    destruct (nth_error out (S j)) as [V|] eqn:HV; [|apply nth_error_None in HV; lia].
    destruct (HD j T V l HT HV) as [ks [Sk [_ E]]]. rewrite E in HU. inversion HU; subst.
    apply chain_id_nodup; eauto. apply sorted_lt_nodup; auto.
Qed.

Lemma pruned_no_orphans : forall ds m ids (out : list table),
  (m < List.length ds)%nat ->
  pruned ds m ids out -> no_orphans ds -> no_orphans out.
Proof.
  intros ds m ids out Hm Hp Hno j A B HAo HBo s Hs. assert (L := pruned_length _ _ _ _ Hp).
  assert (Hsub := pruned_subset _ _ _ _ Hm Hp).
  destruct (nth_same _ _ _ ds _ A L HAo) as [TA HTA].
  destruct (nth_same _ _ _ ds _ B L HBo) as [TB HTB].
  assert (HsT : In s TB) by (eapply Hsub; eauto).
  destruct Hp as (_ & HA & HB & HC & HD).
  destruct (lt_eq_lt_dec j m) as [[Hlt| ->]|Hgt].
  - destruct (HD j TA B Hlt HTA HBo) as [ks [_ [Hk E]]]. rewrite E in HAo. inversion HAo; subst.
    destruct (Hno j TA TB HTA HTB s HsT) as [r [Hr Er]].
    exists r. split; auto. apply in_flat_map. exists (rid r). split.
    + apply Hk. exists s; auto.
    + apply in_with_id; auto.
  - rewrite (HB _ HTB) in HBo. inversion HBo; subst. rewrite (HA _ HTA) in HAo. inversion HAo; subst.
    apply in_flat_map in Hs. destruct Hs as [i [Hi Hs]]. apply in_with_parent in Hs.
    destruct Hs as [_ <-]. destruct (Hno m TA TB HTA HTB s HsT) as [r [Hr Er]].
    exists r. split; auto. apply in_flat_map. exists (rpid s). split; auto.
    apply in_with_id. auto.
  - rewrite (HC j TB A Hgt HTB HAo) in HBo. inversion HBo; subst.
    apply in_flat_map in Hs. destruct Hs as [q [Hq Hs]]. apply in_with_parent in Hs.
    exists q. intuition.
Qed.

(** Ancestors: exactly the rows named by a kept row one level below. *)
Lemma pruned_ancestors : forall ds m ids (out : list table),
  pruned ds m ids out -> forall j T U V, (j < m)%nat ->
  nth_error ds j = Some T -> nth_error out j = Some U -> nth_error out (S j) = Some V ->
  (forall r, In r U <-> In r T /\ exists s, In s V /\ rpid s = rid r) /\
  (NoDup (map rid T) -> StronglySorted Z.lt (map rid U)).
Proof.
  intros ds m ids out (_ & HA & HB & HC & HD) j T U V Hj HT HU HV.
  destruct (HD j T V Hj HT HV) as [ks [Sk [Hk E]]]. rewrite E in HU. inversion HU; subst.
  split.
  - intros r. rewrite in_flat_map. split.
    + intros [i [Hi Hr]]. apply in_with_id in Hr. destruct Hr as [Hr <-].
      apply Hk in Hi. auto.
    + intros [Hr Hs]. exists (rid r). rewrite Hk, in_with_id. auto.
  - intros ND. clear - ND Sk. induction ks as [|k ks IH]; simpl; [constructor|].
    apply StronglySorted_inv in Sk. destruct Sk as [Sk Fk]. rewrite Forall_forall in Fk.
    rewrite map_app. specialize (IH Sk).
    assert (Hall : forall x, In x (map rid (flat_map (with_id T) ks)) -> k < x).
    { intros x Hx. apply in_map_iff in Hx. destruct Hx as [r [<- Hr]].
      apply in_flat_map in Hr. destruct Hr as [i [Hi Hr]]. apply in_with_id in Hr.
      destruct Hr as [_ ->]. auto. }
    assert (Hone : with_id T k = [] \/ exists r, with_id T k = [r] /\ rid r = k).
    { destruct (with_id T k) as [|r l] eqn:Ew; auto. right. exists r.
      assert (Hr : In r (with_id T k)) by (rewrite Ew; left; auto).
      apply in_with_id in Hr. destruct Hr as [Hr Hk]. split; auto.
      rewrite <- Ew. unfold with_id. rewrite <- Hk. apply filter_key_unique; auto. }
    destruct Hone as [->|[r [-> Hk]]]; simpl; auto. constructor; auto.
    apply Forall_forall. rewrite Hk. auto.
Qed.

(** Request order. *)
Lemma chain_id_order : forall (T : table) ids,
  NoDup (map rid T) ->
  map rid (flat_map (with_id T) ids) = filter (fun i => existsb (fun r => rid r =? i) T) ids.
Proof.
  induction ids as [|i ids IH]; intros ND; simpl; auto. rewrite map_app, IH by auto.
  destruct (existsb (fun r => rid r =? i) T) eqn:E.
  - apply existsb_exists in E. destruct E as [r [Hr Er]]. apply Z.eqb_eq in Er. subst i.
    unfold with_id. rewrite filter_key_unique; auto.
  - replace (with_id T i) with (@nil row); auto. symmetry. apply filter_none.
    intros r Hr. destruct (rid r =? i) eqn:Er; auto.
    assert (existsb (fun r => rid r =? i) T = true) by (apply existsb_exists; eauto). congruence.
Qed.

(** Composition. *)
Lemma pruned_compose : forall ds m A B (o1 o2 : list table),
  (m < List.length ds)%nat -> unique_ids ds -> NoDup A -> (forall i, In i B -> In i A) ->
  pruned ds m A o1 -> pruned o1 m B o2 -> pruned ds m B o2.
Proof.
  intros ds m A B o1 o2 Hm Hu NDA Hsub H1 H2.
  assert (Hu1 := pruned_unique_ids _ _ _ _ Hm H1 NDA Hu).
  assert (L1 := pruned_length _ _ _ _ H1). assert (L2 := pruned_length _ _ _ _ H2).
  assert (Hm1 : (m < List.length o1)%nat) by lia.
  assert (S2 := pruned_subset _ _ _ _ Hm1 H2).
  destruct H1 as (_ & A1 & B1 & C1 & D1). destruct H2 as (_ & A2 & B2 & C2 & D2).
  split; [lia|]. split; [|split; [|split]].
  - intros T HT. rewrite (A2 _ (A1 _ HT)). f_equal. apply flat_map_ext_in.
    intros i Hi. unfold with_id. apply filter_key_chain; auto.
  - intros T HT. rewrite (B2 _ (B1 _ HT)). f_equal. apply flat_map_ext_in.
    intros i Hi. unfold with_parent. apply filter_key_chain; auto.
  - intros j T U Hj HT HU.
    assert (LU : nth_error o1 j <> None).
    { apply nth_error_Some. assert (nth_error ds (S j) <> None) by congruence.
      apply nth_error_Some in H. lia. }
    destruct (nth_error o1 j) as [V|] eqn:HV; [|congruence].
    rewrite (C2 j _ U Hj (C1 j T V Hj HT HV) HU). f_equal. apply flat_map_ext_in.
    intros q Hq. rewrite <- (flat_map_map _ _ _ rid (with_parent T)).
    unfold with_parent. apply filter_key_chain; eauto.
    apply in_map. eapply S2; eauto.
  - intros j T U Hj HT HU.
    destruct (nth_error o1 (S j)) as [V|] eqn:HV; [|apply nth_error_None in HV; lia].
    destruct (D1 j T V Hj HT HV) as [k1 [S1 [I1 R1]]].
    destruct (D2 j _ U Hj R1 HU) as [k2 [S2' [I2 R2]]].
    exists k2. split; auto. split; auto. rewrite R2. f_equal. apply flat_map_ext_in.
    intros i Hi. unfold with_id. apply filter_key_chain; [apply sorted_lt_nodup; auto|].
    apply I1. apply I2 in Hi. destruct Hi as [s [Hs E]]. exists s. split; auto.
    eapply S2; eauto.
Qed.

(** * Empty dimensions make reduce_to_entities raise AttributeError *)
Lemma down_after_empty : forall entity ids es ps (Ts : list table) k last A,
  (forall e, In e es -> e <> entity) ->
  List.length es = List.length ps -> List.length es = List.length Ts ->
  ~ Forall (fun T => T <> []) Ts -> List.length A = k ->
  fold_res (rd_down entity ids) (levels_from k es ps Ts) (mkRD true last [] (A ++ Ts))
  = Err AttributeError.
Proof.
  induction es as [|e es IH]; intros ps Ts k last A H L1 L2 HT HA.
  - destruct Ts; [|discriminate]. exfalso. apply HT. constructor.
  - destruct ps as [|p ps]; [discriminate|]. destruct Ts as [|T Ts]; [discriminate|].
    cbn [levels_from fold_res].
    unfold rd_down at 1. cbn [rd_prune bind rd_last rd_idx rd_ds].
    unfold parent_groups. destruct T as [|r T0]; [reflexivity|]. set (T := r :: T0) in *.
    assert (HTne : T <> []) by (subst T; congruence).
    rewrite (grouper_ok _ rpid T) by auto. cbn [bind].
    assert (E : String.eqb e entity = false)
      by (apply String.eqb_neq; apply H; left; auto).
    unfold isel at 1. cbn [app fold_res]. rewrite <- HA. rewrite isel1_middle, gather_chain. cbn [bind].
    rewrite nth_error_middle. cbn [bind]. rewrite E. cbn [bind rd_prune rd_last rd_ds].
    match goal with |- fold_res _ _ (mkRD true ?l [] (A ++ ?X :: Ts)) = _ =>
      rewrite <- (IH ps Ts (S (List.length A)) l (A ++ [X])) end; auto.
    + f_equal. f_equal. rewrite <- app_assoc. reflexivity.
    + intros x Hx; apply H; right; auto.
    + rewrite app_length; simpl; lia.
Qed.

Lemma up_above_empty : forall entity n es ps (Ts : list table) last C,
  List.length es = n -> List.length ps = n -> List.length Ts = n ->
  (forall e, In e es -> e <> entity) ->
  (n = 0%nat \/ exists ps', ps = None :: ps' /\ forall p, In p ps' -> p <> None) ->
  ~ Forall (fun T => T <> []) Ts ->
  fold_res (rd_up entity) (rev (levels_from 0 es ps Ts)) (mkRD true last [] (Ts ++ C))
  = Err AttributeError.
Proof.
  induction n as [|n IH]; intros es ps Ts last C L1 L2 L3 H Hp HT.
  - destruct Ts; [|discriminate]. exfalso. apply HT. constructor.
  - destruct (@exists_last _ es) as [es' [e ->]]; [destruct es; [discriminate|congruence]|].
    destruct (@exists_last _ ps) as [ps' [p ->]]; [destruct ps; [discriminate|congruence]|].
    destruct (@exists_last _ Ts) as [Ts' [T ->]]; [destruct Ts; [discriminate|congruence]|].
    rewrite app_length in L1, L2, L3. simpl in L1, L2, L3.
    rewrite rev_levels_snoc by lia. simpl.
    unfold entity_groups. destruct T as [|r T0]; [reflexivity|]. set (T := r :: T0) in *.
    assert (HTne : T <> []) by (subst T; congruence).
    rewrite (grouper_ok _ rid T) by auto. cbn [bind].
    replace (List.length es') with (List.length Ts') by lia.
    rewrite <- app_assoc. cbn [app].
    unfold isel at 1. cbn [app fold_res]. rewrite isel1_middle, gather_chain. cbn [bind].
    rewrite nth_error_middle.
    assert (HT' : ~ Forall (fun T => T <> []) Ts').
    { intros F. apply HT. apply Forall_app. split; auto. }
    assert (E : String.eqb e entity = false)
      by (apply String.eqb_neq; apply H; apply in_or_app; right; left; auto).
    destruct p as [pv|].
    + rewrite E. cbn [bind rd_prune]. apply IH; try lia; auto.
      * intros x Hx; apply H; apply in_or_app; left; auto.
      * right. destruct Hp as [Hp|[ps0 [Hp1 Hp2]]]; [lia|].
        destruct ps' as [|q ps']; simpl in *.
        -- inversion Hp1.
        -- inversion Hp1; subst. exists ps'. split; auto. intros x Hx.
           apply Hp2. apply in_or_app; left; auto.
    + exfalso. destruct Hp as [Hp|[ps0 [Hp1 Hp2]]]; [lia|].
      destruct ps' as [|q ps'].
      * simpl in L2. destruct Ts'; simpl in L3; [|lia]. apply HT'. constructor.
      * simpl in Hp1. inversion Hp1; subst. apply (Hp2 None); auto.
        apply in_or_app; right; left; auto.
Qed.

Theorem reduce_empty : forall (ds : list table) evars pvars tv m e ids,
  trav_init ds evars pvars = Ok tv -> NoDup evars ->
  nth_error evars m = Some e -> In [] ds ->
  reduce_to_entities tv e ids = Err AttributeError.
Proof.
  intros ds evars pvars tv m e ids Hi ND He Hin.
  apply init_inv in Hi. destruct Hi as [-> [L1 L2]].
  destruct (levels_split ds evars pvars m e L1 L2 He)
    as (e1 & e2 & p1 & p & p2 & d1 & T & d2 & E1 & E2 & E3 & Le1 & Lp1 & Ld1 & Le2 & Ld2 & Hp & Hp2 & Hlev).
  subst evars.
  assert (Hn1 : forall x, In x e1 -> x <> e).
  { intros x Hx ->. apply NoDup_remove_2 in ND. apply ND. apply in_or_app; auto. }
  assert (Hn2 : forall x, In x e2 -> x <> e).
  { intros x Hx ->. apply NoDup_remove_2 in ND. apply ND. apply in_or_app; auto. }
  subst ds. unfold reduce_to_entities, descend, ascend, descend. cbn [tv_evars tv_pvars tv_data].
  rewrite Hlev. rewrite fold_res_app, down_before by auto. cbn [bind].
  destruct T as [|r T0].
  { cbn [fold_res]. unfold rd_down at 1. cbn [rd_prune bind]. rewrite String.eqb_refl. reflexivity. }
  set (T := r :: T0) in *. assert (HTne : T <> []) by (subst T; congruence).
  destruct (Forall_dec (fun T => T <> []) (fun T => match T with [] => right (fun H => H eq_refl) | a :: l => left (fun H => eq_ind (a :: l) (fun x => match x with [] => False | _ => True end) I [] H) end) d2) as [HF|HF].
  2:{ cbn [fold_res]. unfold rd_down at 1. cbn [rd_prune bind]. rewrite String.eqb_refl.
      unfold entity_groups. rewrite (grouper_ok _ rid T HTne). cbn [bind rd_ds].
      destruct e2 as [|e' e2].
      { destruct d2; [|discriminate]. exfalso; apply HF; constructor. }
      destruct p2 as [|p' p2]; [discriminate|]. destruct d2 as [|T1 d2]; [discriminate|].
      cbn [levels_from fold_res]. unfold rd_down at 1. cbn [rd_prune bind rd_last rd_idx rd_ds].
      unfold parent_groups. destruct T1 as [|r1 T10]; [reflexivity|]. set (T1 := r1 :: T10) in *.
      assert (HT1 : T1 <> []) by (subst T1; congruence).
      rewrite (grouper_ok _ rpid T1) by auto. cbn [bind].
      unfold isel at 1. cbn [app fold_res]. rewrite <- Ld1.
      rewrite isel1_middle, gather_chain. cbn [bind].
      assert (E1 : forall X : table, d1 ++ X :: T1 :: d2 = (d1 ++ [X]) ++ T1 :: d2)
        by (intros; rewrite <- app_assoc; auto).
      rewrite E1.
      assert (E4 : forall X : table, S (List.length d1) = List.length (d1 ++ [X]))
        by (intros; rewrite app_length; simpl; lia).
      rewrite (E4 (flat_map (fun k => filter (fun r => rid r =? k) T) ids)).
      rewrite isel1_middle, gather_chain. cbn [bind]. rewrite nth_error_middle. cbn [bind].
      assert (E : String.eqb e' e = false)
        by (apply String.eqb_neq; apply Hn2; left; auto).
      rewrite E. cbn [bind rd_prune rd_last rd_ds].
      match goal with |- context [fold_res _ _ (mkRD true ?l [] (?B ++ ?X :: d2))] =>
        assert (HH := down_after_empty e ids e2 p2 d2 (S (List.length B)) l (B ++ [X])) end.
      rewrite <- (app_assoc (d1 ++ [_])) in HH. cbn [app] in HH. rewrite HH; auto.
      + intros x Hx; apply Hn2; right; auto.
      + rewrite !app_length; simpl; lia. }
  destruct (down_at_and_after e ids e2 p2 d1 T d2 p m Ld1 Hn2 Le2 Ld2 HTne HF) as [st [Hst Hsel]].
  rewrite Hst. cbn [bind]. rewrite Hsel. cbn [bind].
  rewrite rev_app_distr. cbn [rev]. rewrite <- app_assoc. rewrite fold_res_app.
  set (T' := flat_map (with_id T) ids) in *.
  destruct (up_below e e2 p2 d2 (S m) (rd_last st) (d1 ++ T' :: desc_spec ids d2))
    as [last' Hl]; auto.
  { intros j Hj. apply nth_error_Some. rewrite app_length. simpl. rewrite desc_length. lia. }
  rewrite Hl. cbn [bind app fold_res].
  unfold rd_up at 1. cbn [rd_prune bind rd_ds rd_last rd_idx].
  replace (nth_error (d1 ++ T' :: desc_spec ids d2) m) with (Some T')
    by (rewrite <- Ld1; rewrite nth_error_middle; auto).
  assert (HF1 : ~ Forall (fun T => T <> []) d1).
  { intros F. apply in_app_iff in Hin. rewrite Forall_forall in F, HF.
    destruct Hin as [Hin|[Hin|Hin]]; [apply (F _ Hin); auto|congruence|apply (HF _ Hin); auto]. }
  destruct p as [pv|].
  - rewrite String.eqb_refl. cbn [bind].
    rewrite (up_above_empty e m e1 p1 d1); auto.
    destruct p1 as [|q p1]; [left; simpl in Lp1; lia|]. right.
    simpl in E2. inversion E2 as [[Ea Eb]]. exists p1. split; auto.
    intros x Hx ->. assert (Hi : In (@None string) (map Some pvars)).
    { rewrite Eb. apply in_or_app; auto. }
    apply in_map_iff in Hi. destruct Hi as [y [Hy _]]. discriminate.
  - exfalso. assert (Hm0 : m = 0%nat) by (apply Hp; auto). destruct d1; [|simpl in *; lia].
    apply HF1. constructor.
Qed.
End Proofs.
