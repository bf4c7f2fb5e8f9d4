(** Lemmas about the event lookup table. *)
From Coq Require Import List ZArith QArith Qround Bool Lia Sorting.Sorted Permutation Lqa.
From Verif Require Import Base BaseProofs Traversal TraversalSpec TraversalProofs4 Glm GlmProofs GlmProofs3 Lut LutSpec.
Import ListNotations.
Open Scope Z_scope.

Local Notation tbl := (table obs).

(** * Sums, means and minima *)
Lemma qsum_app : forall a b, (qsum (a ++ b) == qsum a + qsum b)%Q.
Proof. induction a as [|x a IH]; intros b; simpl; [lra|]. rewrite IH. lra. Qed.

Lemma qsum_perm : forall a b, Permutation a b -> (qsum a == qsum b)%Q.
Proof. induction 1; simpl; lra. Qed.

Lemma fsum_gen : forall l s, numbers l -> is_num (fold_left fadd l (Some s)) (s + total l)%Q.
Proof.
  induction l as [|v l IH]; intros s H; simpl.
  - exists s. split; auto. unfold total. simpl. lra.
  - destruct v as [q|]; [|exfalso; apply (H None); simpl; auto]. simpl.
    destruct (IH (s + q)%Q) as [x [-> Hx]]; [intros w Hw; apply H; simpl; auto|].
    exists x. split; auto. rewrite Hx. unfold total. simpl. lra.
Qed.
Lemma fsum_num : forall l, numbers l -> is_num (fsum l) (total l).
Proof.
  intros l H. unfold fsum. destruct (fsum_gen l 0 H) as [x [Ex Hx]]. exists x. split; auto. rewrite Hx. lra.
Qed.

Lemma fmean_num : forall l, l <> [] -> numbers l -> mean_of l (fmean l).
Proof.
  intros l Hn H. unfold fmean, mean_of. destruct l as [|a l]; [congruence|].
  destruct (fsum_num _ H) as [x [-> Hx]]. cbn [option_map]. eexists. split; [reflexivity|].
  rewrite Hx. reflexivity.
Qed.

Lemma total_bounds : forall l lo hi, numbers l -> (forall q, In (Some q) l -> lo <= q <= hi)%Q ->
  (lo * inject_Z (Z.of_nat (List.length l)) <= total l <= hi * inject_Z (Z.of_nat (List.length l)))%Q.
Proof.
  induction l as [|v l IH]; intros lo hi H HB.
  - unfold total. simpl. change (inject_Z 0) with 0%Q. lra.
  - destruct v as [q|]; [|exfalso; apply (H None); simpl; auto].
    assert (B := HB q (or_introl eq_refl)).
    assert (K := IH lo hi (fun w Hw => H w (or_intror Hw)) (fun w Hw => HB w (or_intror Hw))).
    unfold total in *. cbn [map qsum fold_right num] in *. fold (qsum (map num l)) in *.
    cbn [List.length]. rewrite Nat2Z.inj_succ. unfold Z.succ. rewrite inject_Z_plus. change (inject_Z 1) with 1%Q.
    nra.
Qed.

Lemma mean_bounds : forall l v lo hi, l <> [] -> numbers l ->
  (forall q, In (Some q) l -> lo <= q <= hi)%Q -> mean_of l v ->
  exists m, v = Some m /\ (lo <= m <= hi)%Q.
Proof.
  intros l v lo hi Hn H HB (m & -> & Hm). exists m. split; auto.
  destruct (total_bounds l lo hi H HB) as [B1 B2].
  assert (P : (0 < inject_Z (Z.of_nat (List.length l)))%Q).
  { change 0%Q with (inject_Z 0). rewrite <- Zlt_Qlt. destruct l; [congruence|simpl; lia]. }
  rewrite Hm. split.
  - apply Qle_shift_div_l; auto.
  - apply Qle_shift_div_r; auto.
Qed.

Lemma min_step : forall (f : fval -> fval -> fval),
  (forall x y, f (Some x) (Some y) = Some (if Qlt_bool y x then y else x)) ->
  forall l a, numbers l -> least_of (Some a :: l) (fold_left f l (Some a)).
Proof.
  intros f Hf. induction l as [|v l IH]; intros a H; simpl.
  - exists a. split; auto. split; [simpl; auto|]. intros b [E|[]]. inversion E. apply Qle_refl.
  - destruct v as [q|]; [|exfalso; apply (H None); simpl; auto]. rewrite Hf.
    destruct (IH (if Qlt_bool q a then q else a)) as (m & -> & Hin & Hle);
      [intros w Hw; apply H; simpl; auto|].
    exists m. split; auto.
    destruct (Qlt_bool q a) eqn:E.
    + apply Qlt_bool_iff in E. split.
      * simpl in *. tauto.
      * intros b [Eb|[Eb|Hb]]; [inversion Eb; subst|inversion Eb; subst|].
        -- apply Qle_trans with q; [apply Hle; simpl; auto|apply Qlt_le_weak; auto].
        -- apply Hle; simpl; auto.
        -- apply Hle; simpl; auto.
    + assert (E' : (a <= q)%Q).
      { apply Qnot_lt_le. intros K. apply Qlt_bool_iff in K. congruence. }
      split.
      * simpl in *. tauto.
      * intros b [Eb|[Eb|Hb]]; [inversion Eb; subst|inversion Eb; subst|].
        -- apply Hle; simpl; auto.
        -- apply Qle_trans with a; [apply Hle; simpl; auto|auto].
        -- apply Hle; simpl; auto.
Qed.

Lemma np_min_num : forall l, l <> [] -> numbers l -> exists v, np_min l = Ok v /\ least_of l v.
Proof.
  intros [|[a|] l] Hn H; [congruence| |exfalso; apply (H None); simpl; auto].
  eexists. split; [reflexivity|]. apply min_step; auto. intros w Hw. apply H. simpl; auto.
Qed.
Lemma py_min_num : forall l, l <> [] -> numbers l -> exists v, py_min l = Ok v /\ least_of l v.
Proof.
  intros [|[a|] l] Hn H; [congruence| |exfalso; apply (H None); simpl; auto].
  eexists. split; [reflexivity|]. apply min_step.
  - intros x y. simpl. destruct (Qlt_bool y x); reflexivity.
  - intros w Hw. apply H. simpl; auto.
Qed.

(** * Rows *)
Lemma map_res_ok : forall A B (f : A -> res B) (g : A -> B) l,
  (forall a, In a l -> f a = Ok (g a)) -> map_res f l = Ok (map g l).
Proof.
  induction l as [|a l IH]; intros H; [reflexivity|]. simpl. rewrite H by (simpl; auto). simpl.
  rewrite IH by (intros; apply H; simpl; auto). reflexivity.
Qed.
Lemma map_res_inv : forall A B (f : A -> res B) l out, map_res f l = Ok out ->
  Forall2 (fun a b => f a = Ok b) l out.
Proof.
  induction l as [|a l IH]; intros out H; simpl in H.
  - inversion H. constructor.
  - apply bind_ok_inv in H. destruct H as [b [Hb H]]. apply bind_ok_inv in H. destruct H as [bs [Hbs H]].
    inversion H; subst. constructor; auto.
Qed.
Lemma map_res_err : forall A B (f : A -> res B) e l,
  (forall a, In a l -> (exists b, f a = Ok b) \/ f a = Err e) -> (exists a, In a l /\ f a = Err e) ->
  map_res f l = Err e.
Proof.
  induction l as [|a l IH]; intros H (x & Hx & Ex); [contradiction|]. simpl.
  destruct (H a (or_introl eq_refl)) as [[b Eb]|Eb]; rewrite Eb; [|reflexivity]. simpl.
  rewrite IH; [reflexivity|intros; apply H; simpl; auto|].
  destruct Hx as [->|Hx]; [congruence|eauto].
Qed.

Lemma lookup_in : forall A (f : A -> Z) T k, In k (map f T) ->
  lookup (map f T) k = Ok (positions 0 k (map f T)).
Proof.
  intros A f T k H. unfold lookup. destruct (groups_get (map f T) k) as [l|] eqn:E.
  - apply groups_get_some in E. destruct E as [-> _]. reflexivity.
  - apply groups_get_none in E. contradiction.
Qed.
Lemma lookup_out : forall A (f : A -> Z) T k, ~ In k (map f T) -> lookup (map f T) k = Err KeyError.
Proof. intros A f T k H. unfold lookup. apply groups_get_none in H. rewrite H. reflexivity. Qed.

Lemma concat_positions : forall vals ks, List.concat (map (fun k => positions 0 k vals) ks) = groups_chain vals ks.
Proof.
  intros vals. unfold groups_chain. induction ks as [|k ks IH]; [reflexivity|]. simpl.
  rewrite groups_get_chain1, IH. reflexivity.
Qed.

Lemma lookup_all : forall (T : tbl) ks, (forall k, In k ks -> In k (map rid T)) ->
  exists idx, map_res (lookup (map rid T)) ks = Ok idx /\
    gather T (List.concat idx) = Ok (flat_map (with_id T) ks).
Proof.
  intros T ks H. exists (map (fun k => positions 0 k (map rid T)) ks). split.
  - apply map_res_ok. intros a Ha. apply lookup_in. auto.
  - rewrite concat_positions. apply gather_chain.
Qed.

Lemma positions_len : forall A (f : A -> Z) k T,
  List.length (positions 0 k (map f T)) = List.length (filter (fun r => f r =? k) T).
Proof. intros. apply positions_length. Qed.

(** Every event of [C] names a flash of [F] and a group of [G]. *)
Definition parents_exist (F G C : tbl) : Prop :=
  forall e, In e C -> In (o_flash (rdat e)) (map rid F) /\ In (rpid e) (map rid G).

Definition flash_ids (C : tbl) : list Z := zunique (map (fun e => o_flash (rdat e)) C).
Definition group_ids (C : tbl) : list Z := zunique (map rpid C).

Lemma in_areas : forall (T : tbl) v, In v (areas T) <-> exists r, In r T /\ o_area (rdat r) = v.
Proof. intros. unfold areas. rewrite in_map_iff. firstorder. Qed.

Lemma lut_row_ok : forall (F G E : tbl) c k, In k (map c E) ->
  numbers (areas F) ->
  parents_exist F G (cell_events c E k) ->
  exists m, let C := cell_events c E k in
  lut_row F G E (map c E) k = Ok (mkLut k (fmean (xs C)) (fmean (ys C)) (fsum (energies C))
    (List.length C) (List.length (flash_ids C)) (List.length (group_ids C))
    (fsum (areas (flat_map (with_id F) (flash_ids C))))
    (fsum (areas (flat_map (with_id G) (group_ids C)))) m) /\
  least_of (areas (flat_map (with_id F) (flash_ids C))) m.
Proof.
  intros F G E c k Hk Hnum Hp.
  assert (HC : cell_events c E k <> []).
  { apply in_map_iff in Hk. destruct Hk as (e & Ee & He). intros K.
    assert (In e (cell_events c E k)) by (apply filter_In; split; auto; apply Z.eqb_eq; auto).
    rewrite K in H. contradiction. }
  set (C := cell_events c E k) in *.
  assert (HF : forall i, In i (flash_ids C) -> In i (map rid F)).
  { intros i Hi. apply -> zunique_in in Hi. apply in_map_iff in Hi. destruct Hi as (e & <- & He). apply Hp; auto. }
  assert (HG : forall i, In i (group_ids C) -> In i (map rid G)).
  { intros i Hi. apply -> zunique_in in Hi. apply in_map_iff in Hi. destruct Hi as (e & <- & He). apply Hp; auto. }
  destruct (lookup_all F _ HF) as (fi & F1 & F2).
  destruct (lookup_all G _ HG) as (gi & G1 & G2).
  assert (HM : exists mins, map_res (fun fid => i <- lookup (map rid F) fid ;; f <- gather F i ;;
      np_min (map (fun r => o_area (rdat r)) f)) (flash_ids C) = Ok mins /\
      Forall2 (fun i v => least_of (areas (with_id F i)) v) (flash_ids C) mins).
  { clear - HF Hnum. revert HF. generalize (flash_ids C). induction l as [|i l IH]; intros HF.
    - exists []. split; constructor.
    - destruct IH as (ms & E1 & E2); [intros; apply HF; simpl; auto|].
      assert (Hi : In i (map rid F)) by (apply HF; simpl; auto).
      destruct (np_min_num (areas (with_id F i))) as (v & Ev & Lv).
      + apply in_map_iff in Hi. destruct Hi as (f & Ef & Hf). intros K.
        assert (In (o_area (rdat f)) (areas (with_id F i))).
        { apply in_areas. exists f. split; auto. apply filter_In. split; auto. apply Z.eqb_eq; auto. }
        rewrite K in H. contradiction.
      + intros w Hw. apply in_areas in Hw. destruct Hw as (f & Hf & <-). apply filter_In in Hf.
        apply Hnum. apply in_areas. exists f. tauto.
      + exists (v :: ms). split; [|constructor; auto]. cbn [map_res].
        rewrite lookup_in by auto. cbn [bind]. rewrite gather_positions. cbn [bind].
        fold (with_id F i). fold (areas (with_id F i)). rewrite Ev. cbn [bind].
        rewrite E1. reflexivity. }
  destruct HM as (mins & M1 & M2).
  destruct (py_min_num mins) as (m & Em & Lm).
  { intros K. subst mins. apply HC. destruct C as [|e C']; [reflexivity|]. exfalso.
    assert (X : In (o_flash (rdat e)) (flash_ids (e :: C'))) by (apply zunique_in; simpl; auto).
    destruct (F2_in_l _ _ _ _ _ _ M2 X) as (v & [] & _). }
  { intros v Hv. destruct (F2_in_r _ _ _ _ _ _ M2 Hv) as (i & _ & (a & -> & _)). discriminate. }
  exists m. split.
  - unfold lut_row. rewrite lookup_in by auto. cbn [bind]. rewrite gather_positions. cbn [bind].
    fold (cell_events c E k). fold C. fold (flash_ids C). fold (group_ids C).
    rewrite F1. cbn [bind]. rewrite F2. cbn [bind]. rewrite G1. cbn [bind]. rewrite G2. cbn [bind].
    rewrite M1. cbn [bind]. rewrite Em. cbn [bind]. rewrite positions_len. reflexivity.
  - destruct Lm as (a & -> & Hin & Hle). exists a. split; auto. split.
    + destruct (F2_in_r _ _ _ _ _ _ M2 Hin) as (i & Hi & (b & Eb & Hb & _)). inversion Eb; subst b.
      apply in_areas in Hb. destruct Hb as (f & Hf & Ef). apply in_areas. exists f. split; auto.
      apply in_flat_map. eauto.
    + intros b Hb. apply in_areas in Hb. destruct Hb as (f & Hf & Ef). apply in_flat_map in Hf.
      destruct Hf as (i & Hi & Hf). destruct (F2_in_l _ _ _ _ _ _ M2 Hi) as (v & Hv & (d & -> & _ & Hd)).
      apply Qle_trans with d; [apply Hle; auto|]. apply Hd. apply in_areas. eauto.
Qed.

Lemma lut_row_key : forall (F G E : tbl) c k, In k (map c E) ->
  ~ parents_exist F G (cell_events c E k) -> lut_row F G E (map c E) k = Err KeyError.
Proof.
  intros F G E c k Hk Hp. unfold lut_row. rewrite lookup_in by auto. cbn [bind].
  rewrite gather_positions. cbn [bind]. fold (cell_events c E k). set (C := cell_events c E k) in *.
  fold (flash_ids C). fold (group_ids C).
  destruct (forallb (fun i => zmem i (map rid F)) (flash_ids C)) eqn:EF.
  - rewrite forallb_forall in EF.
    destruct (lookup_all F (flash_ids C)) as (fi & F1 & F2); [intros i Hi; apply zmem_in; auto|].
    rewrite F1. cbn [bind]. rewrite F2. cbn [bind].
    destruct (forallb (fun i => zmem i (map rid G)) (group_ids C)) eqn:EG.
    + exfalso. apply Hp. rewrite forallb_forall in EG. intros e He. split; apply zmem_in.
      * apply EF. apply zunique_in. apply in_map_iff. eauto.
      * apply EG. apply zunique_in. apply in_map_iff. eauto.
    + rewrite map_res_err with (e := KeyError); [reflexivity| |].
      * intros i _. destruct (in_dec Z.eq_dec i (map rid G)) as [Hi|Hi];
          [left; eexists; apply lookup_in; auto|right; apply lookup_out; auto].
      * assert (X : exists i, In i (group_ids C) /\ ~ In i (map rid G)).
        { clear - EG. induction (group_ids C) as [|i l IH]; [discriminate|]. simpl in EG.
          destruct (zmem i (map rid G)) eqn:Ez.
          - destruct (IH EG) as (j & Hj & Nj). exists j. simpl; auto.
          - exists i. split; [simpl; auto|]. apply zmem_false. auto. }
        destruct X as (i & Hi & Ni). exists i. split; auto. apply lookup_out; auto.
  - rewrite map_res_err with (e := KeyError); [reflexivity| |].
    + intros i _. destruct (in_dec Z.eq_dec i (map rid F)) as [Hi|Hi];
        [left; eexists; apply lookup_in; auto|right; apply lookup_out; auto].
    + assert (X : exists i, In i (flash_ids C) /\ ~ In i (map rid F)).
      { clear - EF. induction (flash_ids C) as [|i l IH]; [discriminate|]. simpl in EF.
        destruct (zmem i (map rid F)) eqn:Ez.
        - destruct (IH EF) as (j & Hj & Nj). exists j. simpl; auto.
        - exists i. split; [simpl; auto|]. apply zmem_false. auto. }
      destruct X as (i & Hi & Ni). exists i. split; auto. apply lookup_out; auto.
Qed.

(** * From ids to rows *)
Lemma filter_ext_in' : forall A (p q : A -> bool) l, (forall x, In x l -> p x = q x) -> filter p l = filter q l.
Proof.
  induction l as [|x l IH]; intros H; [reflexivity|]. simpl. rewrite H by (simpl; auto).
  rewrite IH by (intros; apply H; simpl; auto). reflexivity.
Qed.

Lemma ids_perm : forall (T C : tbl) (key : row obs -> Z),
  Permutation (flat_map (with_id T) (zunique (map key C)))
              (filter (fun f => existsb (fun e => key e =? rid f) C) T).
Proof.
  intros T C key.
  erewrite (filter_ext_in' _ (fun f => existsb (fun e => key e =? rid f) C)
    (fun f => zmem (rid f) (zunique (map key C)))).
  - apply (perm_by_key _ rid). apply zunique_nodup.
  - intros f _. destruct (zmem (rid f) (zunique (map key C))) eqn:E.
    + apply zmem_in in E. apply -> zunique_in in E. apply in_map_iff in E. destruct E as (e & Ee & He).
      apply existsb_exists. exists e. split; auto. apply Z.eqb_eq; auto.
    + apply zmem_false in E. destruct (existsb (fun e => key e =? rid f) C) eqn:X; auto.
      apply existsb_exists in X. destruct X as (e & He & Ee). apply Z.eqb_eq in Ee.
      exfalso. apply E. apply zunique_in. apply in_map_iff. eauto.
Qed.

Lemma least_perm : forall l l' v, Permutation l l' -> least_of l v -> least_of l' v.
Proof.
  intros l l' v P (a & -> & Hin & Hle). exists a. split; auto. split.
  - eapply Permutation_in; eauto.
  - intros b Hb. apply Hle. eapply Permutation_in; [apply Permutation_sym; eauto|auto].
Qed.

Lemma total_perm : forall l l', Permutation l l' -> (total l == total l')%Q.
Proof. intros. apply qsum_perm. apply Permutation_map. auto. Qed.

Lemma areas_perm : forall T T', Permutation T T' -> Permutation (areas T) (areas T').
Proof. intros. apply Permutation_map. auto. Qed.

Lemma sub_numbers : forall (f : row obs -> fval) (T T' : tbl), numbers (map f T) ->
  (forall r, In r T' -> In r T) -> numbers (map f T').
Proof.
  intros f T T' H Hi v Hv. apply in_map_iff in Hv. destruct Hv as (r & <- & Hr). apply H. apply in_map. auto.
Qed.

(** Complete description of a row of the table. *)
Definition row_spec (F G E : tbl) (c : row obs -> Z) (r : lutrow) : Prop :=
  let C := cell_events c E (lu_id r) in
  C <> [] /\ lu_count r = List.length C /\
  lu_energy r = fsum (energies C) /\ lu_x r = fmean (xs C) /\ lu_y r = fmean (ys C) /\
  distinct_count (lu_fcount r) (map (fun e => o_flash (rdat e)) C) /\
  distinct_count (lu_gcount r) (map rpid C) /\
  parents_exist F G C /\
  is_num (lu_farea r) (total (areas (flashes_of F C))) /\
  is_num (lu_garea r) (total (areas (groups_of G C))) /\
  least_of (areas (flashes_of F C)) (lu_minarea r).

Lemma is_num_eq : forall v a b, is_num v a -> (a == b)%Q -> is_num v b.
Proof. intros v a b (x & -> & Hx) H. exists x. split; auto. rewrite Hx. auto. Qed.

Lemma lut_row_full : forall (F G E : tbl) c k r, In k (map c E) ->
  numbers (areas F) -> numbers (areas G) ->
  lut_row F G E (map c E) k = Ok r -> lu_id r = k /\ row_spec F G E c r.
Proof.
  intros F G E c k r Hk NF NG H.
  assert (Hp : parents_exist F G (cell_events c E k)).
  { assert (D : forall l (T : tbl), {forall i, In i l -> In i (map rid T)} + {~ forall i, In i l -> In i (map rid T)}).
    { intros l T. destruct (forallb (fun i => zmem i (map rid T)) l) eqn:Ef.
      - left. rewrite forallb_forall in Ef. intros i Hi. apply zmem_in. auto.
      - right. intros K. assert (forallb (fun i => zmem i (map rid T)) l = true); [|congruence].
        apply forallb_forall. intros i Hi. apply zmem_in. auto. }
    destruct (D (map (fun e => o_flash (rdat e)) (cell_events c E k)) F) as [d1|d1].
    - destruct (D (map rpid (cell_events c E k)) G) as [d2|d2].
      + intros e He. split; [apply d1|apply d2]; apply in_map_iff; eauto.
      + rewrite lut_row_key in H; [discriminate|auto|]. intros K. apply d2. intros i Hi.
        apply in_map_iff in Hi. destruct Hi as (e & <- & He). apply K; auto.
    - rewrite lut_row_key in H; [discriminate|auto|]. intros K. apply d1. intros i Hi.
      apply in_map_iff in Hi. destruct Hi as (e & <- & He). apply K; auto. }
  destruct (lut_row_ok F G E c k Hk NF Hp) as (m & H1 & H2). cbv zeta in H1. rewrite H1 in H.
  inversion H; subst r; clear H H1. split; [reflexivity|].
  unfold row_spec. cbn [lu_id lu_count lu_energy lu_x lu_y lu_fcount lu_gcount lu_farea lu_garea lu_minarea].
  set (C := cell_events c E k) in *.
  split.
  { apply in_map_iff in Hk. destruct Hk as (e & Ee & He). intros K.
    assert (In e C) by (apply filter_In; split; auto; apply Z.eqb_eq; auto). rewrite K in H. contradiction. }
  do 4 (split; [reflexivity|]).
  split; [apply distinct_zunique|]. split; [apply distinct_zunique|]. split; [exact Hp|].
  pose proof (ids_perm F C (fun e => o_flash (rdat e))) as PF.
  pose proof (ids_perm G C rpid) as PG.
  fold (flash_ids C) in PF. fold (group_ids C) in PG. fold (flashes_of F C) in PF. fold (groups_of G C) in PG.
  split; [|split].
  - eapply is_num_eq; [apply fsum_num|apply total_perm, areas_perm, PF].
    apply (sub_numbers _ F); auto. intros r Hr. apply in_flat_map in Hr. destruct Hr as (i & _ & Hr).
    apply filter_In in Hr. tauto.
  - eapply is_num_eq; [apply fsum_num|apply total_perm, areas_perm, PG].
    apply (sub_numbers _ G); auto. intros r Hr. apply in_flat_map in Hr. destruct Hr as (i & _ & Hr).
    apply filter_In in Hr. tauto.
  - eapply least_perm; [apply areas_perm, PF|exact H2].
Qed.

(** * The whole table *)
Section Table.
Variable weird : fval -> Z.
Variables (scale : Q) (xr yr : Q * Q).
Definition cell (e : row obs) : Z := discretize weird scale xr yr (o_x (rdat e)) (o_y (rdat e)).

Lemma lut_spec : forall (F G E : tbl) L, numbers (areas F) -> numbers (areas G) ->
  get_lutevents weird scale xr yr [F; G; E] = Ok L ->
  F <> [] /\ G <> [] /\ E <> [] /\
  map lu_id L = zunique (map cell E) /\ Forall (row_spec F G E cell) L.
Proof.
  intros F G E L NF NG H. unfold get_lutevents in H.
  destruct E as [|e E]; [discriminate|]. destruct F as [|f F]; [discriminate|]. destruct G as [|g G]; [discriminate|].
  cbn [List.length Nat.eqb orb] in H.
  split; [discriminate|]. split; [discriminate|]. split; [discriminate|].
  remember (f :: F) as FF. remember (g :: G) as GG. remember (e :: E) as EE.
  fold cell in H. apply map_res_inv in H.
  assert (K : Forall2 (fun k r => lu_id r = k /\ row_spec FF GG EE cell r) (zunique (map cell EE)) L).
  { assert (Hin : forall k, In k (zunique (map cell EE)) -> In k (map cell EE)) by (intros; apply zunique_in; auto).
    revert H Hin. generalize (zunique (map cell EE)). induction 1 as [|k r ks L Hk _ IH]; intros Hin; constructor.
    - apply lut_row_full; auto. apply Hin; simpl; auto.
    - apply IH. intros; apply Hin; simpl; auto. }
  split.
  - clear H. induction K as [|k r ks L' [Hk _] _ IH]; [reflexivity|]. simpl. rewrite IH, Hk. reflexivity.
  - clear H. induction K as [|k r ks L' [_ Hk] _ IH]; constructor; auto.
Qed.

Lemma lut_total : forall (F G E : tbl), F <> [] -> G <> [] -> E <> [] -> numbers (areas F) ->
  parents_exist F G E -> exists L, get_lutevents weird scale xr yr [F; G; E] = Ok L.
Proof.
  intros F G E n1 n2 n3 NF Hp. unfold get_lutevents.
  destruct E as [|e E]; [congruence|]. destruct F as [|f F]; [congruence|]. destruct G as [|g G]; [congruence|].
  cbn [List.length Nat.eqb orb].
  remember (f :: F) as FF. remember (g :: G) as GG. remember (e :: E) as EE. fold cell.
  assert (Hin : forall k, In k (zunique (map cell EE)) -> In k (map cell EE)) by (intros; apply zunique_in; auto).
  revert Hin. generalize (zunique (map cell EE)). induction l as [|k l IH]; intros Hin; [simpl; eauto|].
  simpl. destruct (lut_row_ok FF GG EE cell k) as (m & H1 & _); auto.
  - apply Hin; simpl; auto.
  - intros x Hx. apply Hp. apply filter_In in Hx. tauto.
  - cbv zeta in H1. rewrite H1. cbn [bind]. destruct IH as [L ->]; [intros; apply Hin; simpl; auto|]. simpl. eauto.
Qed.

Lemma lut_key_error : forall (F G E : tbl), F <> [] -> G <> [] -> numbers (areas F) ->
  (exists e, In e E /\ (~ In (o_flash (rdat e)) (map rid F) \/ ~ In (rpid e) (map rid G))) ->
  get_lutevents weird scale xr yr [F; G; E] = Err KeyError.
Proof.
  intros F G E n1 n2 NF (e & He & Hno). unfold get_lutevents.
  destruct F as [|f F]; [congruence|]. destruct G as [|g G]; [congruence|].
  destruct E as [|e0 E]; [contradiction|].
  cbn [List.length Nat.eqb orb].
  remember (f :: F) as FF. remember (g :: G) as GG. remember (e0 :: E) as EE. fold cell.
  apply map_res_err.
  - intros k Hk. apply -> zunique_in in Hk.
    assert (D : parents_exist FF GG (cell_events cell EE k) \/ ~ parents_exist FF GG (cell_events cell EE k)).
    { generalize (cell_events cell EE k). clear. induction l as [|x l IH].
      - left. intros ? [].
      - destruct (in_dec Z.eq_dec (o_flash (rdat x)) (map rid FF)) as [d1|d1];
          [destruct (in_dec Z.eq_dec (rpid x) (map rid GG)) as [d2|d2]; [destruct IH as [d3|d3]|]|].
        + left. intros y [<-|Hy]; auto.
        + right. intros K. apply d3. intros y Hy. apply K; simpl; auto.
        + right. intros K. apply d2. apply K; simpl; auto.
        + right. intros K. apply d1. apply K; simpl; auto. }
    destruct D as [D|D].
    + left. destruct (lut_row_ok FF GG EE cell k Hk NF D) as (m & H1 & _). eauto.
    + right. apply lut_row_key; auto.
  - exists (cell e). split; [apply zunique_in; apply in_map_iff; eauto|].
    apply lut_row_key; [apply in_map_iff; eauto|].
    intros K. destruct (K e) as [K1 K2]; [apply filter_In; split; auto; apply Z.eqb_refl|]. tauto.
Qed.

(** Sums over the table are sums over the events. *)
Lemma cells_perm : forall (E : tbl),
  Permutation (flat_map (cell_events cell E) (zunique (map cell E))) E.
Proof.
  intros E. eapply Permutation_trans; [apply (perm_by_key _ cell); apply zunique_nodup|].
  rewrite filter_all; [apply Permutation_refl|].
  intros x Hx. apply zmem_in. apply zunique_in. apply in_map. auto.
Qed.

Lemma count_total : forall F G E L, Forall (row_spec F G E cell) L ->
  list_sum (map lu_count L) = List.length (flat_map (cell_events cell E) (map lu_id L)).
Proof.
  intros F G E. induction 1 as [|r L Hr _ IH]; [reflexivity|]. cbn [map list_sum fold_right flat_map].
  rewrite app_length. fold (list_sum (map lu_count L)). rewrite IH. f_equal. apply Hr.
Qed.

Lemma energy_total : forall F G E L, numbers (energies E) -> Forall (row_spec F G E cell) L ->
  (total (map lu_energy L) == total (energies (flat_map (cell_events cell E) (map lu_id L))))%Q /\
  numbers (map lu_energy L).
Proof.
  intros F G E L HN. induction 1 as [|r L Hr _ [IH1 IH2]]; [split; [reflexivity|intros v []]|].
  destruct Hr as (_ & _ & He & _).
  assert (N : numbers (energies (cell_events cell E (lu_id r)))).
  { apply (sub_numbers _ E); auto. intros x Hx. apply filter_In in Hx. tauto. }
  destruct (fsum_num _ N) as (q & Eq & Hq). rewrite Eq in He. split.
  - cbn [map flat_map]. unfold energies. rewrite map_app. unfold total. rewrite map_app.
    rewrite qsum_app. cbn [qsum fold_right map]. rewrite He. cbn [num]. fold (qsum (map num (map lu_energy L))).
    fold (total (map lu_energy L)). rewrite IH1. rewrite Hq. reflexivity.
  - intros v [<-|Hv]; [congruence|apply IH2; auto].
Qed.
End Table.
