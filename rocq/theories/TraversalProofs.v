(** Proofs about Traversal.v *)
From Coq Require Import List ZArith Bool String Lia Sorting.Sorted.
From Verif Require Import Base BaseProofs Traversal TraversalSpec.
Import ListNotations.
Open Scope Z_scope.

Section Proofs.
Context {P : Type}.
Local Notation table := (list (row P)).
Local Notation row := (row P).

(** * Levels *)
Lemma levels_from_app : forall es1 es2 ps1 ps2 (d1 d2 : list table) k,
  List.length es1 = List.length ps1 -> List.length es1 = List.length d1 ->
  levels_from k (es1 ++ es2) (ps1 ++ ps2) (d1 ++ d2)
  = levels_from k es1 ps1 d1 ++ levels_from (k + List.length es1) es2 ps2 d2.
Proof.
  induction es1 as [|e es1 IH]; intros es2 ps1 ps2 d1 d2 k H1 H2.
  - destruct ps1; [|discriminate]. destruct d1; [|discriminate].
    simpl. rewrite Nat.add_0_r. auto.
  - destruct ps1; [discriminate|]. destruct d1; [discriminate|]. simpl in *.
    f_equal. rewrite IH by lia. f_equal. f_equal. lia.
Qed.

Lemma init_inv : forall (ds : list table) evars pvars tv,
  trav_init ds evars pvars = Ok tv ->
  tv = mkTrav evars (None :: map Some pvars) ds /\
  List.length evars = S (List.length pvars) /\ List.length ds = List.length evars.
Proof.
  intros ds evars pvars tv H. unfold trav_init in H.
  destruct (Z.of_nat (List.length pvars) =? Z.of_nat (List.length evars) - 1) eqn:E1;
    simpl in H; [|discriminate].
  destruct (Nat.eqb (List.length ds) (List.length evars)) eqn:E2; simpl in H; [|discriminate].
  inversion H. apply Z.eqb_eq in E1. apply Nat.eqb_eq in E2.
  split; [auto|split; [lia|auto]].
Qed.

Lemma split_at : forall A (l : list A) m x,
  nth_error l m = Some x ->
  exists l1 l2, l = l1 ++ x :: l2 /\ List.length l1 = m.
Proof. intros. apply nth_error_split in H. auto. Qed.

(** The levels around position [m] of a traversal made by the constructor. *)
Lemma levels_split : forall (ds : list table) evars pvars m e,
  List.length evars = S (List.length pvars) -> List.length ds = List.length evars ->
  nth_error evars m = Some e ->
  exists e1 e2 p1 p p2 d1 T d2,
    evars = e1 ++ e :: e2 /\ None :: map Some pvars = p1 ++ p :: p2 /\ ds = d1 ++ T :: d2 /\
    List.length e1 = m /\ List.length p1 = m /\ List.length d1 = m /\
    List.length e2 = List.length p2 /\ List.length e2 = List.length d2 /\
    (p = None <-> m = 0%nat) /\
    (forall x, In x p2 -> x <> None) /\
    levels_from 0 evars (None :: map Some pvars) ds
    = levels_from 0 e1 p1 d1 ++ (m, e, p, T) :: levels_from (S m) e2 p2 d2.
Proof.
  intros ds evars pvars m e L1 L2 He.
  destruct (split_at _ _ _ _ He) as [e1 [e2 [-> Le]]].
  assert (Hm : (m < List.length (e1 ++ e :: e2))%nat)
    by (rewrite app_length; simpl; lia).
  destruct (nth_error (None :: map Some pvars) m) as [p|] eqn:Hp.
  2:{ apply nth_error_None in Hp. simpl in Hp. rewrite map_length in Hp. lia. }
  destruct (nth_error ds m) as [T|] eqn:Hd.
  2:{ apply nth_error_None in Hd. lia. }
  destruct (split_at _ _ _ _ Hp) as [p1 [p2 [Ep Lp]]].
  destruct (split_at _ _ _ _ Hd) as [d1 [d2 [-> Ld]]].
  exists e1, e2, p1, p, p2, d1, T, d2.
  rewrite app_length in L1, L2. rewrite app_length in L2. simpl in L1, L2.
  assert (Lq : List.length (p1 ++ p :: p2) = S (List.length pvars))
    by (rewrite <- Ep; simpl; rewrite map_length; auto).
  rewrite app_length in Lq. simpl in Lq.
  repeat (split; [solve [auto | lia]|]).
  split; [|split].
  - destruct m; destruct p1; simpl in *; try lia.
    + inversion Ep. tauto.
    + inversion Ep as [[E1 E2]]. split; [|lia]. intros ->. exfalso.
      assert (In (@None string) (map Some pvars)) by (rewrite E2; apply in_or_app; right; left; auto).
      apply in_map_iff in H. destruct H as [x [Hx _]]. discriminate.
  - intros x Hx Hn. subst x.
    assert (In (@None string) (map Some pvars)).
    { destruct p1; simpl in Ep; inversion Ep as [[Ea Eb]]; rewrite Eb; auto.
      apply in_or_app. right. right. auto. }
    apply in_map_iff in H. destruct H as [x [Hy _]]. discriminate.
  - rewrite Ep, levels_from_app by lia. simpl. rewrite Le. auto.
Qed.

(** * reduce_to_entities *)

(** Recursive description of the tables below and above the requested level. *)
Fixpoint desc_spec (last : list Z) (Ts : list table) : list table :=
  match Ts with
  | [] => []
  | T :: Ts' => let T' := flat_map (with_parent T) last in
                T' :: desc_spec (map rid T') Ts'
  end.

Fixpoint asc_spec (last : list Z) (Ts : list table) : list table :=
  match Ts with
  | [] => []
  | T :: Ts' => let T' := flat_map (with_id T) last in
                T' :: asc_spec (zunique (map rpid T')) Ts'
  end.

Definition reduce_spec (d1 : list table) (T : table) (d2 : list table) (ids : list Z) :=
  let T' := flat_map (with_id T) ids in
  rev (asc_spec (zunique (map rpid T')) (rev d1)) ++ T' :: desc_spec ids d2.

Lemma isel1_middle : forall (A : list table) T B idx,
  isel1 (A ++ T :: B) (List.length A, idx) = (T' <- gather T idx ;; Ok (A ++ T' :: B)).
Proof.
  intros. unfold isel1. rewrite nth_error_middle. destruct (gather T idx); simpl; auto.
  rewrite set_nth_app. auto.
Qed.

Lemma grouper_ok : forall A (f : A -> Z) T, T <> [] ->
  grouper_groups (map f T) = Ok (map f T).
Proof. intros A f [|r T] H; [congruence|reflexivity]. Qed.

Lemma down_before : forall entity ids es ps (Ts : list table) k last ds,
  (forall e, In e es -> e <> entity) ->
  fold_res (rd_down entity ids) (levels_from k es ps Ts) (mkRD false last [] ds)
  = Ok (mkRD false last [] ds).
Proof.
  induction es as [|e es IH]; intros ps Ts k last ds H; simpl; auto.
  destruct ps; auto. destruct Ts; auto. simpl.
  assert (E : String.eqb e entity = false)
    by (apply String.eqb_neq; apply H; left; auto).
  rewrite E. simpl. apply IH. intros x Hx; apply H; right; auto.
Qed.

Lemma down_after : forall entity ids es ps (Ts : list table) k last A,
  (forall e, In e es -> e <> entity) ->
  List.length es = List.length ps -> List.length es = List.length Ts ->
  Forall (fun T => T <> []) Ts -> List.length A = k ->
  exists last',
  fold_res (rd_down entity ids) (levels_from k es ps Ts) (mkRD true last [] (A ++ Ts))
  = Ok (mkRD true last' [] (A ++ desc_spec last Ts)).
Proof.
  induction es as [|e es IH]; intros ps Ts k last A H L1 L2 HT HA.
  - destruct ps; [|discriminate]. destruct Ts; [|discriminate]. simpl. eauto.
  - destruct ps as [|p ps]; [discriminate|]. destruct Ts as [|T Ts]; [discriminate|].
    inversion HT; subst. cbn [levels_from fold_res].
    unfold rd_down at 1. cbn [rd_prune bind rd_last rd_idx rd_ds].
    unfold parent_groups. rewrite (grouper_ok _ rpid T) by auto. cbn [bind].
    assert (E : String.eqb e entity = false)
      by (apply String.eqb_neq; apply H; left; auto).
    unfold isel at 1. cbn [app fold_res]. rewrite isel1_middle, gather_chain. cbn [bind].
    rewrite nth_error_middle. cbn [bind]. rewrite E. cbn [bind rd_prune rd_last rd_ds desc_spec].
    change (flat_map (fun k => filter (fun r => rpid r =? k) T) last)
      with (flat_map (with_parent T) last).
    set (T' := flat_map (with_parent T) last).
    destruct (IH ps Ts (S (List.length A)) (map rid T') (A ++ [T'])) as [last' Hl]; auto.
    { intros x Hx; apply H; right; auto. }
    { rewrite app_length; simpl; lia. }
    rewrite <- !app_assoc in Hl. simpl in Hl. exists last'. exact Hl.
Qed.

Lemma down_at_and_after : forall entity ids es ps d1 T (Ts : list table) last m,
  List.length d1 = m ->
  (forall e, In e es -> e <> entity) ->
  List.length es = List.length ps -> List.length es = List.length Ts ->
  T <> [] -> Forall (fun T => T <> []) Ts ->
  exists st,
  fold_res (rd_down entity ids)
    ((m, entity, last, T) :: levels_from (S m) es ps Ts)
    (mkRD false [] [] (d1 ++ T :: Ts)) = Ok st /\
  isel (rd_ds st) (rd_idx st) = Ok (d1 ++ flat_map (with_id T) ids :: desc_spec ids Ts).
Proof.
  intros entity ids es ps d1 T Ts last m <- H L1 L2 HT HTs.
  cbn [fold_res]. unfold rd_down at 1. cbn [rd_prune bind]. rewrite String.eqb_refl.
  unfold entity_groups. rewrite (grouper_ok _ rid T HT). cbn [bind rd_ds].
  destruct es as [|e es].
  - destruct ps; [|discriminate]. destruct Ts; [|discriminate]. cbn.
    eexists. split; [reflexivity|]. cbn -[isel1]. rewrite isel1_middle, gather_chain.
    reflexivity.
  - destruct ps as [|p ps]; [discriminate|]. destruct Ts as [|T1 Ts]; [discriminate|].
    inversion HTs; subst. cbn [levels_from fold_res].
    unfold rd_down at 1. cbn [rd_prune bind rd_last rd_idx rd_ds].
    unfold parent_groups. rewrite (grouper_ok _ rpid T1) by auto. cbn [bind].
    unfold isel at 1. cbn [app fold_res]. rewrite isel1_middle, gather_chain. cbn [bind].
    assert (E1 : forall X : table, d1 ++ X :: T1 :: Ts = (d1 ++ [X]) ++ T1 :: Ts)
      by (intros; rewrite <- app_assoc; auto).
    rewrite E1.
    assert (E2 : forall X : table, S (List.length d1) = List.length (d1 ++ [X]))
      by (intros; rewrite app_length; simpl; lia).
    rewrite (E2 (flat_map (fun k => filter (fun r => rid r =? k) T) ids)).
    rewrite isel1_middle, gather_chain. cbn [bind]. rewrite nth_error_middle. cbn [bind].
    assert (E : String.eqb e entity = false)
      by (apply String.eqb_neq; apply H; left; auto).
    rewrite E. cbn [bind rd_prune rd_last rd_ds].
    set (U := flat_map (fun k => filter (fun r => rid r =? k) T) ids).
    set (V := flat_map (fun k => filter (fun r => rpid r =? k) T1) ids).
    destruct (down_after entity ids es ps Ts (S (List.length (d1 ++ [U]))) (map rid V)
                ((d1 ++ [U]) ++ [V])) as [last' Hl]; auto.
    { intros x Hx; apply H; right; auto. }
    { rewrite !app_length; simpl; lia. }
    eexists. split.
    { etransitivity; [|exact Hl]. f_equal. f_equal. rewrite <- (app_assoc (d1 ++ [U])). reflexivity. } cbn [rd_ds rd_idx]. unfold isel. cbn [fold_res].
    cbn [desc_spec]. rewrite <- !app_assoc. reflexivity.
Qed.

(** Ascending through the levels below the requested one changes nothing. *)
Lemma up_below : forall entity es ps (Ts : list table) k last ds,
  (forall e, In e es -> e <> entity) -> (forall p, In p ps -> p <> None) ->
  List.length es = List.length ps -> List.length es = List.length Ts ->
  (forall j, (j < List.length Ts)%nat -> nth_error ds (k + j) <> None) ->
  exists last',
  fold_res (rd_up entity) (rev (levels_from k es ps Ts)) (mkRD false last [] ds)
  = Ok (mkRD false last' [] ds).
Proof.
  induction es as [|e es IH]; intros ps Ts k last ds H Hp L1 L2 Hn.
  - simpl. eauto.
  - destruct ps as [|p ps]; [discriminate|]. destruct Ts as [|T Ts]; [discriminate|].
    simpl. rewrite fold_res_app.
    destruct (IH ps Ts (S k) last ds) as [last' Hl]; auto.
    { intros x Hx; apply H; right; auto. }
    { intros x Hx; apply Hp; right; auto. }
    { intros j Hj. specialize (Hn (S j)). simpl in Hn.
      replace (S k + j)%nat with (k + S j)%nat by lia. apply Hn. lia. }
    rewrite Hl. simpl.
    specialize (Hn 0%nat). rewrite Nat.add_0_r in Hn. simpl in Hn.
    destruct (nth_error ds k); [|exfalso; apply Hn; [lia|auto]].
    destruct p as [pv|]; [|exfalso; apply (Hp None); [left; auto|auto]].
    assert (E : String.eqb e entity = false)
      by (apply String.eqb_neq; apply H; left; auto).
    rewrite E. simpl. eauto.
Qed.

Lemma rev_levels_snoc : forall es e ps p (Ts : list table) T k,
  List.length es = List.length ps -> List.length es = List.length Ts ->
  rev (levels_from k (es ++ [e]) (ps ++ [p]) (Ts ++ [T]))
  = ((k + List.length es)%nat, e, p, T) :: rev (levels_from k es ps Ts).
Proof.
  intros. rewrite levels_from_app by auto. rewrite rev_app_distr. reflexivity.
Qed.

Lemma up_above : forall entity n es ps (Ts : list table) last C,
  List.length es = n -> List.length ps = n -> List.length Ts = n ->
  (forall e, In e es -> e <> entity) -> (n = 0%nat \/ exists ps', ps = None :: ps' /\ forall p, In p ps' -> p <> None) ->
  Forall (fun T => T <> []) Ts ->
  exists b last',
  fold_res (rd_up entity) (rev (levels_from 0 es ps Ts)) (mkRD true last [] (Ts ++ C))
  = Ok (mkRD b last' [] (rev (asc_spec last (rev Ts)) ++ C)).
Proof.
  induction n as [|n IH]; intros es ps Ts last C L1 L2 L3 H Hp HT.
  - destruct es; [|discriminate]. destruct ps; [|discriminate]. destruct Ts; [|discriminate].
    simpl. eauto.
  - destruct (@exists_last _ es) as [es' [e ->]]; [destruct es; [discriminate|congruence]|].
    destruct (@exists_last _ ps) as [ps' [p ->]]; [destruct ps; [discriminate|congruence]|].
    destruct (@exists_last _ Ts) as [Ts' [T ->]]; [destruct Ts; [discriminate|congruence]|].
    rewrite app_length in L1, L2, L3. simpl in L1, L2, L3.
    rewrite rev_levels_snoc by lia. simpl.
    apply Forall_app in HT. destruct HT as [HT' HT]. inversion HT; subst.
    unfold entity_groups. rewrite (grouper_ok _ rid T) by auto. cbn [bind].
    replace (List.length es') with (List.length Ts') by lia.
    rewrite <- app_assoc. cbn [app].
    unfold isel at 1. cbn [app fold_res]. rewrite isel1_middle, gather_chain. cbn [bind].
    rewrite nth_error_middle.
    assert (E : String.eqb e entity = false)
      by (apply String.eqb_neq; apply H; apply in_or_app; right; left; auto).
    rewrite rev_app_distr. simpl. rewrite <- app_assoc.
    change (flat_map (fun k => filter (fun r => rid r =? k) T) last)
      with (flat_map (with_id T) last).
    set (T' := flat_map (with_id T) last). simpl.
    destruct p as [pv|].
    + rewrite E. simpl.
      assert (Hn : n <> 0%nat).
      { intros ->. destruct Hp as [Hp|[ps0 [Hp1 Hp2]]]; [lia|].
        destruct ps'; simpl in *; [|lia]. inversion Hp1. }
      destruct (IH es' ps' Ts' (zunique (map rpid T')) (T' :: C)) as [b [last' Hl]]; try lia.
      * intros x Hx; apply H; apply in_or_app; left; auto.
      * right. destruct Hp as [Hp|[ps0 [Hp1 Hp2]]]; [lia|].
        destruct ps' as [|q ps']; simpl in *; [lia|]. inversion Hp1; subst.
        exists ps'. split; auto. intros x Hx. apply Hp2. apply in_or_app; left; auto.
      * auto.
      * exists b, last'. exact Hl.
    + simpl.
      assert (Hn : ps' = []).
      { destruct Hp as [Hp|[ps0 [Hp1 Hp2]]]; [lia|]. destruct ps' as [|q ps']; auto.
        simpl in Hp1. inversion Hp1; subst. exfalso. apply (Hp2 None); auto.
        apply in_or_app; right; left; auto. }
      subst ps'. simpl in L2. destruct es'; simpl in L1; [|lia]. destruct Ts'; simpl in L3; [|lia].
      simpl. eauto.
Qed.

Lemma rev_asc_length : forall Ts last, List.length (asc_spec last Ts) = List.length Ts.
Proof. induction Ts; intros; simpl; auto. Qed.
Lemma desc_length : forall Ts last, List.length (desc_spec last Ts) = List.length Ts.
Proof. induction Ts; intros; simpl; auto. Qed.

Theorem reduce_refines : forall (ds : list table) evars pvars tv m e ids d1 T d2,
  trav_init ds evars pvars = Ok tv -> NoDup evars ->
  nth_error evars m = Some e -> ds = d1 ++ T :: d2 -> List.length d1 = m ->
  Forall (fun T => T <> []) ds ->
  reduce_to_entities tv e ids = Ok (reduce_spec d1 T d2 ids).
Proof.
  intros ds evars pvars tv m e ids d1 T d2 Hi ND He Hds Hm Hne.
  apply init_inv in Hi. destruct Hi as [-> [L1 L2]].
  destruct (levels_split ds evars pvars m e L1 L2 He)
    as (e1 & e2 & p1 & p & p2 & d1' & T0 & d2' & E1 & E2 & E3 & Le1 & Lp1 & Ld1 & Le2 & Ld2 & Hp & Hp2 & Hlev).
  assert (d1' = d1 /\ T0 = T /\ d2' = d2).
  { rewrite E3 in Hds.
    assert (Q : forall (a b : list table) x y u v, List.length a = List.length b ->
      a ++ x :: u = b ++ y :: v -> a = b /\ x = y /\ u = v).
    { induction a as [|z a IHa]; intros [|w b] x y u v HL HQ; simpl in *; try discriminate.
      - inversion HQ; auto.
      - inversion HQ; subst. destruct (IHa b x y u v) as [-> [-> ->]]; auto. }
    apply Q in Hds; [intuition|lia]. }
  destruct H as [-> [-> ->]]. clear Hds. subst evars.
  assert (Hn1 : forall x, In x e1 -> x <> e).
  { intros x Hx ->. apply NoDup_remove_2 in ND. apply ND. apply in_or_app; auto. }
  assert (Hn2 : forall x, In x e2 -> x <> e).
  { intros x Hx ->. apply NoDup_remove_2 in ND. apply ND. apply in_or_app; auto. }
  subst ds. apply Forall_app in Hne. destruct Hne as [Hne1 Hne].
  assert (HT0 := Forall_inv Hne). assert (HTs0 := Forall_inv_tail Hne). cbn beta in HT0.
  unfold reduce_to_entities, descend, ascend, descend. cbn [tv_evars tv_pvars tv_data].
  rewrite Hlev. rewrite fold_res_app, down_before by auto. cbn [bind].
  destruct (down_at_and_after e ids e2 p2 d1 T d2 p m Ld1 Hn2 Le2 Ld2 HT0 HTs0) as [st [Hst Hsel]].
  match goal with |- context [fold_res (rd_down e ids) ?l ?s] =>
    replace (fold_res (rd_down e ids) l s) with (Ok st) by (symmetry; exact Hst) end.
  cbn [bind]. rewrite Hsel. cbn [bind].
  rewrite rev_app_distr. cbn [rev]. rewrite <- app_assoc. rewrite fold_res_app.
  set (T' := flat_map (with_id T) ids) in *.
  destruct (up_below e e2 p2 d2 (S m) (rd_last st) (d1 ++ T' :: desc_spec ids d2))
    as [last' Hl]; auto.
  { intros j Hj. apply nth_error_Some. rewrite app_length. simpl. rewrite desc_length. lia. }
  rewrite Hl. cbn [bind app fold_res].
  unfold rd_up at 1. cbn [rd_prune bind rd_ds rd_last rd_idx].
  replace (nth_error (d1 ++ T' :: desc_spec ids d2) m) with (Some T')
    by (rewrite <- Ld1; rewrite nth_error_middle; auto).
  destruct p as [pv|].
  - rewrite String.eqb_refl. cbn [bind].
    destruct (up_above e m e1 p1 d1 (zunique (map rpid T')) (T' :: desc_spec ids d2))
      as [b [last'' Hu]]; auto.
    { destruct p1 as [|q p1]; [left; simpl in Lp1; lia|]. right.
      simpl in E2. inversion E2 as [[Ea Eb]]. exists p1. split; auto.
      intros x Hx ->. assert (Hin : In (@None string) (map Some pvars)).
      { rewrite Eb. apply in_or_app; auto. }
      apply in_map_iff in Hin. destruct Hin as [y [Hy _]]. discriminate. }
    unfold reduce_spec. fold T'. rewrite Hu. reflexivity.
  - assert (Hm0 : m = 0%nat) by (apply Hp; auto).
    destruct e1; [|simpl in *; lia]. destruct d1; [|simpl in *; lia]. reflexivity.
Qed.

(** * The recursive description satisfies [pruned] *)
Lemma desc_nth : forall d2 last j T U,
  nth_error d2 (S j) = Some T -> nth_error (desc_spec last d2) j = Some U ->
  nth_error (desc_spec last d2) (S j) = Some (flat_map (fun q => with_parent T (rid q)) U).
Proof.
  induction d2 as [|A d2 IH]; intros last j T U H1 H2; [discriminate|].
  destruct j.
  - simpl in H2. inversion H2; subst. cbn [nth_error] in H1.
    destruct d2 as [|B d2]; [discriminate|]. cbn [nth_error] in H1. inversion H1; subst.
    simpl. rewrite flat_map_map. reflexivity.
  - cbn [nth_error] in H1. cbn [desc_spec nth_error] in H2 |- *. eapply IH; eauto.
Qed.

Lemma asc_nth : forall d last j T U,
  nth_error d (S j) = Some T -> nth_error (asc_spec last d) j = Some U ->
  nth_error (asc_spec last d) (S j) = Some (flat_map (with_id T) (zunique (map rpid U))).
Proof.
  induction d as [|A d IH]; intros last j T U H1 H2; [discriminate|].
  destruct j.
  - simpl in H2. inversion H2; subst. cbn [nth_error] in H1.
    destruct d as [|B d]; [discriminate|]. cbn [nth_error] in H1. inversion H1; subst.
    reflexivity.
  - cbn [nth_error] in H1. cbn [asc_spec nth_error] in H2 |- *. eapply IH; eauto.
Qed.

Lemma nth_error_rev : forall A (l : list A) j, (j < List.length l)%nat ->
  nth_error (rev l) j = nth_error l (List.length l - 1 - j).
Proof.
  induction l as [|a l IH]; intros j Hj; [simpl in Hj; lia|].
  simpl rev. simpl List.length. destruct (Nat.eq_dec j (List.length l)) as [->|Hne].
  - rewrite nth_error_app2 by (rewrite rev_length; lia). rewrite rev_length, Nat.sub_diag.
    replace (S (List.length l) - 1 - List.length l)%nat with 0%nat by lia. reflexivity.
  - simpl in Hj. rewrite nth_error_app1 by (rewrite rev_length; lia).
    rewrite IH by lia. replace (S (List.length l) - 1 - j)%nat
      with (S (List.length l - 1 - j)) by lia. reflexivity.
Qed.

Lemma zunique_parents : forall (U : table) k,
  In k (zunique (map rpid U)) <-> exists s, In s U /\ rpid s = k.
Proof.
  intros. rewrite zunique_in, in_map_iff. split; intros [s [A B]]; exists s; auto.
Qed.

Lemma reduce_spec_pruned : forall d1 T d2 ids,
  pruned (d1 ++ T :: d2) (List.length d1) ids (reduce_spec d1 T d2 ids).
Proof.
  intros. set (m := List.length d1). unfold reduce_spec.
  set (T' := flat_map (with_id T) ids). set (last := zunique (map rpid T')).
  set (up := rev (asc_spec last (rev d1))).
  assert (Lup : List.length up = m)
    by (unfold up; rewrite rev_length, rev_asc_length, rev_length; auto).
  assert (Hmid : nth_error (up ++ T' :: desc_spec ids d2) m = Some T')
    by (rewrite <- Lup; apply nth_error_middle).
  assert (Hds : nth_error (d1 ++ T :: d2) m = Some T) by apply nth_error_middle.
  assert (Hlow : forall j, nth_error (d1 ++ T :: d2) (S (m + j)) = nth_error d2 j).
  { intros. rewrite nth_error_app2 by (unfold m; lia).
    replace (S (m + j) - List.length d1)%nat with (S j) by (unfold m; lia). reflexivity. }
  assert (Hlowo : forall j, nth_error (up ++ T' :: desc_spec ids d2) (S (m + j)) = nth_error (desc_spec ids d2) j).
  { intros. rewrite nth_error_app2 by lia.
    replace (S (m + j) - List.length up)%nat with (S j) by lia. reflexivity. }
  split; [|split; [|split; [|split]]].
  - rewrite !app_length. simpl. rewrite desc_length. lia.
  - intros X HX. rewrite Hds in HX. inversion HX; subst X. exact Hmid.
  - intros X HX. specialize (Hlow 0%nat). specialize (Hlowo 0%nat). rewrite Nat.add_0_r in *.
    rewrite Hlow in HX. rewrite Hlowo. destruct d2; [discriminate|].
    simpl in *. inversion HX; subst. reflexivity.
  - intros j X U Hj HX HU.
    replace (S j) with (S (m + (S (j - S m)))) in HX |- * by lia.
    replace j with (S (m + (j - S m))) in HU by lia.
    rewrite Hlow in HX. rewrite Hlowo in HU |- *. eapply desc_nth; eauto.
  - intros j X U Hj HX HU. exists (zunique (map rpid U)).
    split; [apply zunique_sorted|]. split; [apply zunique_parents|].
    rewrite nth_error_app1 in HX by (unfold m in Hj; lia).
    rewrite nth_error_app1 by lia. unfold up.
    assert (La : List.length (asc_spec last (rev d1)) = m)
      by (rewrite rev_asc_length, rev_length; auto).
    rewrite nth_error_rev by lia. rewrite La.
    assert (HXr : nth_error (rev d1) (m - 1 - j) = Some X).
    { rewrite nth_error_rev by (unfold m in *; lia). rewrite <- HX. f_equal. unfold m in *; lia. }
    destruct (Nat.eq_dec (S j) m) as [Ej|Ej].
    + replace (m - 1 - j)%nat with 0%nat in * by lia. rewrite Ej, Hmid in HU.
      inversion HU; subst U. destruct (rev d1) as [|Y d]; [discriminate|].
      simpl in HXr. inversion HXr; subst. reflexivity.
    + rewrite nth_error_app1 in HU by lia. unfold up in HU.
      rewrite nth_error_rev in HU by lia. rewrite La in HU.
      replace (m - 1 - j)%nat with (S (m - 1 - S j)) in * by lia.
      eapply asc_nth; eauto.
Qed.

Theorem reduce_pruned : forall (ds : list table) evars pvars tv m e ids,
  trav_init ds evars pvars = Ok tv -> NoDup evars ->
  nth_error evars m = Some e -> Forall (fun T => T <> []) ds ->
  exists out, reduce_to_entities tv e ids = Ok out /\ pruned ds m ids out.
Proof.
  intros ds evars pvars tv m e ids Hi ND He Hne.
  assert (Hi' := Hi). apply init_inv in Hi'. destruct Hi' as [_ [L1 L2]].
  assert (Hm : (m < List.length ds)%nat).
  { rewrite L2. apply nth_error_Some. congruence. }
  destruct (nth_error ds m) as [T|] eqn:HT; [|apply nth_error_None in HT; lia].
  destruct (split_at _ _ _ _ HT) as [d1 [d2 [-> Ld]]].
  eexists. split; [eapply reduce_refines; eauto|]. rewrite <- Ld. apply reduce_spec_pruned.
Qed.

(** [pruned] determines the result. *)
Lemma pruned_unique : forall ds m ids (o1 o2 : list table),
  (m < List.length ds)%nat -> pruned ds m ids o1 -> pruned ds m ids o2 -> o1 = o2.
Proof.
  intros ds m ids o1 o2 Hm (L1 & A1 & B1 & C1 & D1) (L2 & A2 & B2 & C2 & D2).
  assert (Hnth : forall j, (j < List.length ds)%nat -> exists T, nth_error ds j = Some T).
  { intros j Hj. destruct (nth_error ds j) eqn:E; eauto. apply nth_error_None in E. lia. }
  assert (Low : forall j, nth_error o1 (S m + j) = nth_error o2 (S m + j)).
  { induction j as [|j IH].
    - rewrite Nat.add_0_r. destruct (nth_error ds (S m)) as [T|] eqn:E.
      + rewrite (B1 _ eq_refl), (B2 _ eq_refl). auto.
      + apply nth_error_None in E.
        rewrite (proj2 (nth_error_None o1 (S m))), (proj2 (nth_error_None o2 (S m))) by lia. auto.
    - destruct (nth_error ds (S (S m + j))) as [T|] eqn:E.
      + assert (Hj : (S m + j < List.length ds)%nat).
        { assert (nth_error ds (S (S m + j)) <> None) by congruence. apply nth_error_Some in H. lia. }
        destruct (nth_error o1 (S m + j)) as [U|] eqn:EU; [|apply nth_error_None in EU; lia].
        replace (S m + S j)%nat with (S (S m + j)) by lia.
        rewrite (C1 (S m + j)%nat T U ltac:(lia) E EU), (C2 (S m + j)%nat T U ltac:(lia) E (eq_sym IH)). auto.
      + apply nth_error_None in E.
        rewrite (proj2 (nth_error_None o1 _)), (proj2 (nth_error_None o2 _)) by lia. auto. }
  assert (Up : forall j, (j <= m)%nat -> nth_error o1 (m - j) = nth_error o2 (m - j)).
  { induction j as [|j IH]; intros Hj.
    - rewrite Nat.sub_0_r. destruct (Hnth m Hm) as [T E]. rewrite (A1 _ E), (A2 _ E). auto.
    - specialize (IH ltac:(lia)). destruct (Hnth (m - S j)%nat ltac:(lia)) as [T E].
      destruct (nth_error o1 (m - j)) as [U|] eqn:EU; [|apply nth_error_None in EU; lia].
      replace (m - j)%nat with (S (m - S j)) in EU, IH by lia.
      destruct (D1 (m - S j)%nat T U ltac:(lia) E EU) as [k1 [S1 [I1 R1]]].
      destruct (D2 (m - S j)%nat T U ltac:(lia) E (eq_sym IH)) as [k2 [S2 [I2 R2]]].
      rewrite R1, R2. f_equal. f_equal. apply sorted_ext; auto.
      intros x. rewrite I1, I2. tauto. }
  assert (All : forall j, nth_error o1 j = nth_error o2 j).
  { intros j. destruct (le_lt_dec j m).
    - replace j with (m - (m - j))%nat by lia. apply Up. lia.
    - replace j with (S m + (j - S m))%nat by lia. apply Low. }
  apply nth_error_ext; auto.
Qed.
End Proofs.
