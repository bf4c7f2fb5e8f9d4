(** Lemmas on accumulation. *)
From Coq Require Import List ZArith QArith Bool Lia Lqa Permutation.
From Verif Require Import Base BaseProofs Glm Lut LutSpec LutProofs Accum AccumSpec.
Import ListNotations.
Open Scope Z_scope.

Lemma norm_means : forall n i a, norm_index n i = Ok a <-> means n i a.
Proof.
  intros n i a. unfold norm_index, means.
  destruct ((0 <=? i) && (i <? n)) eqn:E1.
  - apply andb_true_iff in E1. destruct E1 as [A B]. apply Z.leb_le in A. apply Z.ltb_lt in B.
    split; [intros H; inversion H; lia|]. intros [H [->|H1]]; [reflexivity|lia].
  - apply andb_false_iff in E1. rewrite Z.leb_gt, Z.ltb_ge in E1.
    destruct ((- n <=? i) && (i <? 0)) eqn:E2.
    + apply andb_true_iff in E2. destruct E2 as [A B]. apply Z.leb_le in A. apply Z.ltb_lt in B.
      split; [intros H; inversion H; lia|]. intros [H [->|H1]]; [lia|f_equal; lia].
    + apply andb_false_iff in E2. rewrite Z.leb_gt, Z.ltb_ge in E2. split; [discriminate|lia].
Qed.
Lemma norm_err : forall n i e, norm_index n i = Err e -> e = IndexError.
Proof.
  intros n i e. unfold norm_index. destruct ((0 <=? i) && (i <? n)); [discriminate|].
  destruct ((- n <=? i) && (i <? 0)); [discriminate|]. intros H; inversion H; reflexivity.
Qed.
Lemma address_ok : forall g it a b, address g it = Ok (a, b) <-> addressed (g_n0 g) (g_n1 g) it a b.
Proof.
  intros g it a b. unfold address, addressed. rewrite <- !norm_means.
  destruct (norm_index (g_n0 g) (it_y it)) as [x|e]; cbn [bind].
  - destruct (norm_index (g_n1 g) (it_x it)) as [y|e]; cbn [bind].
    + split; [intros H; inversion H; auto|]. intros [H1 H2]. inversion H1. inversion H2. reflexivity.
    + split; [discriminate|]. intros [_ H]. discriminate.
  - split; [discriminate|]. intros [H _]. discriminate.
Qed.
Lemma address_err : forall g it e, address g it = Err e -> e = IndexError.
Proof.
  intros g it e. unfold address. destruct (norm_index (g_n0 g) (it_y it)) as [x|e1] eqn:E1; cbn [bind].
  - destruct (norm_index (g_n1 g) (it_x it)) as [y|e2] eqn:E2; cbn [bind]; [discriminate|].
    intros H. inversion H; subst. eapply norm_err; eauto.
  - intros H. inversion H; subst. eapply norm_err; eauto.
Qed.
Lemma meansb_iff : forall n i a, meansb n i a = true <-> means n i a.
Proof.
  intros. unfold meansb, means. rewrite andb_true_iff, andb_true_iff, orb_true_iff.
  rewrite Z.leb_le, Z.ltb_lt, !Z.eqb_eq. tauto.
Qed.
Lemma means_inj : forall n i a a', means n i a -> means n i a' -> a = a'.
Proof. unfold means. intros. lia. Qed.

Definition hits (n0 n1 a b : Z) (it : item) : bool := meansb n0 (it_y it) a && meansb n1 (it_x it) b.
Lemma hits_iff : forall n0 n1 a b it, hits n0 n1 a b it = true <-> addressed n0 n1 it a b.
Proof. intros. unfold hits, addressed. rewrite andb_true_iff, !meansb_iff. tauto. Qed.

Definition keyb (a b : Z) (p : Z * Z) : bool := (a =? fst p) && (b =? snd p).
Lemma put_all_at : forall ps g a b,
  g_at (put_all g ps) a b = last (map snd (filter (fun p => keyb a b (fst p)) ps)) (g_at g a b).
Proof.
  induction ps as [|[p v] ps IH]; intros g a b; [reflexivity|]. cbn [put_all filter fst].
  rewrite IH. cbn [put g_at]. unfold keyb at 2. destruct ((a =? fst p) && (b =? snd p)).
  - cbn [map snd]. destruct (map snd (filter (fun p0 => keyb a b (fst p0)) ps)) as [|x l]; [reflexivity|].
    change (last (x :: l) v = last (x :: l) (g_at g a b)). clear. revert x. induction l as [|y l IH]; intros x; [reflexivity|].
    change (last (x :: y :: l) v) with (last (y :: l) v). change (last (x :: y :: l) (g_at g a b)) with (last (y :: l) (g_at g a b)). apply IH.
  - reflexivity.
Qed.
Lemma put_all_dims : forall ps g, g_n0 (put_all g ps) = g_n0 g /\ g_n1 (put_all g ps) = g_n1 g.
Proof. induction ps as [|[p v] ps IH]; intros g; [auto|]. cbn [put_all]. destruct (IH (put g p v)). auto. Qed.

Lemma addresses_ok : forall g its ps, addresses g its = Ok ps <->
  Forall2 (fun it p => addressed (g_n0 g) (g_n1 g) it (fst p) (snd p)) its ps.
Proof.
  intros g. unfold addresses. induction its as [|it its IH]; intros ps; cbn [map_res].
  - split; [intros H; inversion H; constructor|intros H; inversion H; reflexivity].
  - split.
    + intros H. apply bind_ok_inv in H. destruct H as [[a b] [H1 H]]. apply bind_ok_inv in H.
      destruct H as [qs [H2 H]]. inversion H; subst. constructor; [apply address_ok; auto|apply IH; auto].
    + intros H. inversion H as [|x y l l' H1 H2]; subst. destruct y as [a b].
      apply address_ok in H1. rewrite H1. cbn [bind]. apply IH in H2. rewrite H2. reflexivity.
Qed.
Lemma addresses_total : forall g its, Forall (in_grid (g_n0 g) (g_n1 g)) its ->
  exists ps, addresses g its = Ok ps.
Proof.
  intros g its H. assert (exists ps, Forall2 (fun it p => addressed (g_n0 g) (g_n1 g) it (fst p) (snd p)) its ps) as [ps Hp].
  { induction H as [|it its (a & b & Hab) _ IH]; [exists []; constructor|]. destruct IH as [ps Hp].
    exists ((a, b) :: ps). constructor; auto. }
  exists ps. apply addresses_ok. exact Hp.
Qed.
Lemma addresses_out : forall g its, ~ Forall (in_grid (g_n0 g) (g_n1 g)) its -> addresses g its = Err IndexError.
Proof.
  intros g its H. destruct (addresses g its) as [ps|e] eqn:E.
  - apply addresses_ok in E. exfalso. apply H. induction E as [|it p its ps Hp _ IH]; [constructor|].
    constructor; [exists (fst p), (snd p); exact Hp|]. apply IH. intros K. apply H. constructor; [exists (fst p), (snd p); exact Hp|exact K].
  - f_equal. clear H. unfold addresses in E. induction its as [|it its IH]; [discriminate|].
    cbn [map_res] in E. destruct (address g it) eqn:E1; cbn [bind] in E.
    + destruct (map_res (address g) its) eqn:E2; cbn [bind] in E; [discriminate|]. inversion E; subst. apply IH; auto.
    + inversion E; subst. eapply address_err; eauto.
Qed.

Lemma key_hits : forall n0 n1 a b it p, addressed n0 n1 it (fst p) (snd p) -> keyb a b p = hits n0 n1 a b it.
Proof.
  intros n0 n1 a b it p H. destruct (hits n0 n1 a b it) eqn:E.
  - apply hits_iff in E. destruct E as [E1 E2], H as [H1 H2]. unfold keyb.
    rewrite (means_inj _ _ _ _ E1 H1), (means_inj _ _ _ _ E2 H2), !Z.eqb_refl. reflexivity.
  - unfold keyb. destruct ((a =? fst p) && (b =? snd p)) eqn:K; [|reflexivity].
    apply andb_true_iff in K. destruct K as [K1 K2]. apply Z.eqb_eq in K1. apply Z.eqb_eq in K2. subst.
    apply hits_iff in H. congruence.
Qed.

(** Effect of one batch on one cell. *)
Lemma add_batch_cell : forall g its g', add_batch g its = Ok g' ->
  g_n0 g' = g_n0 g /\ g_n1 g' = g_n1 g /\
  forall a b, g_at g' a b = last (map (fadd (g_at g a b)) (sent_to (g_n0 g) (g_n1 g) a b its)) (g_at g a b).
Proof.
  intros g its g' H. unfold add_batch in H. apply bind_ok_inv in H. destruct H as [ps [Hp H]].
  inversion H; subst g'; clear H. destruct (put_all_dims (map (fun pi => (fst pi, fadd (g_at g (fst (fst pi)) (snd (fst pi))) (it_v (snd pi)))) (combine ps its)) g) as [D1 D2].
  split; [exact D1|]. split; [exact D2|]. intros a b. rewrite put_all_at. f_equal.
  apply addresses_ok in Hp. clear D1 D2. unfold sent_to. rewrite map_map.
  induction Hp as [|it p its ps H _ IH]; [reflexivity|]. cbn [combine map filter fst snd].
  rewrite (key_hits _ _ a b it p H). change (meansb (g_n0 g) (it_y it) a && meansb (g_n1 g) (it_x it) b) with (hits (g_n0 g) (g_n1 g) a b it).
  destruct (hits (g_n0 g) (g_n1 g) a b it) eqn:E.
  - cbn [map snd]. rewrite IH. f_equal. apply hits_iff in E. destruct E as [E1 E2], H as [H1 H2].
    rewrite (means_inj _ _ _ _ E1 H1), (means_inj _ _ _ _ E2 H2). reflexivity.
  - exact IH.
Qed.
Lemma add_batch_total : forall g its, Forall (in_grid (g_n0 g) (g_n1 g)) its -> exists g', add_batch g its = Ok g'.
Proof.
  intros g its H. destruct (addresses_total g its H) as [ps Hp]. unfold add_batch. rewrite Hp. cbn [bind]. eexists. reflexivity.
Qed.
Lemma add_batch_out : forall g its, ~ Forall (in_grid (g_n0 g) (g_n1 g)) its -> add_batch g its = Err IndexError.
Proof. intros g its H. unfold add_batch. rewrite (addresses_out g its H). reflexivity. Qed.

Lemma min_batch_cell : forall g its g', min_batch g its = Ok g' ->
  g_n0 g' = g_n0 g /\ g_n1 g' = g_n1 g /\
  forall a b, g_at g' a b = last (map (fun v => if is_pos (g_at g a b) then np_min2 v (g_at g a b) else v)
                                     (sent_to (g_n0 g) (g_n1 g) a b its)) (g_at g a b).
Proof.
  intros g its g' H. unfold min_batch in H. apply bind_ok_inv in H. destruct H as [ps [Hp H]].
  cbv zeta in H. inversion H; subst g'; clear H.
  split; [rewrite (proj1 (put_all_dims _ _)), (proj1 (put_all_dims _ _)); reflexivity|].
  split; [rewrite (proj2 (put_all_dims _ _)), (proj2 (put_all_dims _ _)); reflexivity|].
  intros a b. rewrite !put_all_at. apply addresses_ok in Hp.
  assert (K : forall Q : bool -> bool, 
    map snd (filter (fun p => keyb a b (fst p))
      (map (fun r => (fst (fst r), (if Q true then np_min2 (it_v (snd (fst r))) (snd r) else it_v (snd (fst r))) ))
        (filter (fun r => Q (is_pos (snd r))) (combine (combine ps its) (map (fun p => g_at g (fst p) (snd p)) ps)))))
    = if Q (is_pos (g_at g a b)) then
        map (fun v => if Q true then np_min2 v (g_at g a b) else v) (sent_to (g_n0 g) (g_n1 g) a b its)
      else []).
  { intros Q. unfold sent_to. rewrite map_map. induction Hp as [|it p its ps H _ IH]; [destruct (Q (is_pos (g_at g a b))); reflexivity|].
    cbn [combine map filter fst snd]. change (meansb (g_n0 g) (it_y it) a && meansb (g_n1 g) (it_x it) b) with (hits (g_n0 g) (g_n1 g) a b it).
    destruct (hits (g_n0 g) (g_n1 g) a b it) eqn:E.
    - pose proof (key_hits _ _ a b it p H) as Kp. rewrite E in Kp.
      apply hits_iff in E. destruct E as [E1 E2], H as [H1 H2].
      rewrite <- (means_inj _ _ _ _ E1 H1), <- (means_inj _ _ _ _ E2 H2).
      destruct (Q (is_pos (g_at g a b))) eqn:EQ.
      + cbn [map filter fst snd]. rewrite Kp. cbn [map snd]. rewrite IH. reflexivity.
      + exact IH.
    - pose proof (key_hits _ _ a b it p H) as Kp. rewrite E in Kp.
      destruct (Q (is_pos (g_at g (fst p) (snd p)))).
      + cbn [map filter fst snd]. rewrite Kp. exact IH.
      + exact IH. }
  pose proof (K negb) as K1. cbn [negb] in K1. pose proof (K (fun x => x)) as K2. cbn beta iota in K2.
  rewrite K1, K2. destruct (is_pos (g_at g a b)); cbn [negb]; reflexivity.
Qed.
Lemma min_batch_total : forall g its, Forall (in_grid (g_n0 g) (g_n1 g)) its -> exists g', min_batch g its = Ok g'.
Proof.
  intros g its H. destruct (addresses_total g its H) as [ps Hp]. unfold min_batch. rewrite Hp. cbn [bind]. eexists. reflexivity.
Qed.
Lemma min_batch_out : forall g its, ~ Forall (in_grid (g_n0 g) (g_n1 g)) its -> min_batch g its = Err IndexError.
Proof. intros g its H. unfold min_batch. rewrite (addresses_out g its H). reflexivity. Qed.

(** A batch without repetition sends at most one value to a cell. *)
Lemma sent_single : forall n0 n1 its a b, no_repeat n0 n1 its ->
  sent_to n0 n1 a b its = [] \/ exists v, sent_to n0 n1 a b its = [v].
Proof.
  intros n0 n1 its a b H. unfold sent_to. 
  assert (L : (List.length (filter (hits n0 n1 a b) its) <= 1)%nat).
  { induction its as [|it its IH]; [simpl; lia|]. cbn [filter]. destruct (hits n0 n1 a b it) eqn:E.
    - assert (filter (hits n0 n1 a b) its = []) as ->; [|simpl; lia].
      apply filter_none. intros x Hx. destruct (hits n0 n1 a b x) eqn:E2; [|reflexivity]. exfalso.
      apply In_nth_error in Hx. destruct Hx as [k Hk]. apply hits_iff in E. apply hits_iff in E2.
      pose proof (H 0%nat (S k) a b it x eq_refl Hk E E2). discriminate.
    - apply IH. intros k l a' b' i j Hk Hl A B. pose proof (H (S k) (S l) a' b' i j Hk Hl A B). congruence. }
  change (fun it => meansb n0 (it_y it) a && meansb n1 (it_x it) b) with (hits n0 n1 a b).
  destruct (filter (hits n0 n1 a b) its) as [|x [|y l]]; [left; reflexivity|right; exists (it_v x); reflexivity|simpl in L; lia].
Qed.
Lemma sent_app : forall n0 n1 a b l1 l2, sent_to n0 n1 a b (l1 ++ l2) = sent_to n0 n1 a b l1 ++ sent_to n0 n1 a b l2.
Proof. intros. unfold sent_to. rewrite filter_app, map_app. reflexivity. Qed.

Lemma fold_fadd_none : forall l, fold_left fadd l None = None.
Proof. induction l as [|v l IH]; [reflexivity|]. simpl. destruct v; exact IH. Qed.
Lemma fold_fadd_adds : forall l old, adds_to old l (fold_left fadd l old).
Proof.
  induction l as [|v l IH]; intros old; destruct old as [q|]; cbn [adds_to].
  - split; [intros _; exists q; split; [reflexivity|unfold total; simpl; ring]|]. intros H. exfalso. apply H. intros v [].
  - reflexivity.
  - split.
    + intros H. pose proof (fsum_gen (v :: l) q H). assumption.
    + intros H. cbn [fold_left]. destruct v as [x|]; cbn [fadd]; [|apply fold_fadd_none].
      pose proof (IH (Some (q + x)%Q)) as [_ K]. apply K. intros K'. apply H. intros y [<-|Hy]; [discriminate|apply K'; auto].
  - apply fold_fadd_none.
Qed.

Lemma accumulate_cells : forall batches g g', accumulate g batches = Ok g' ->
  Forall (no_repeat (g_n0 g) (g_n1 g)) batches ->
  g_n0 g' = g_n0 g /\ g_n1 g' = g_n1 g /\
  forall a b, g_at g' a b = fold_left fadd (sent_to (g_n0 g) (g_n1 g) a b (List.concat batches)) (g_at g a b).
Proof.
  unfold accumulate. induction batches as [|bt bs IH]; intros g g' H N.
  - inversion H; subst. auto.
  - cbn [fold_res] in H. apply bind_ok_inv in H. destruct H as [g1 [H1 H]].
    inversion N as [|x y N1 N2]; subst. destruct (add_batch_cell g bt g1 H1) as (D1 & D2 & C).
    rewrite <- D1, <- D2 in N2. destruct (IH g1 g' H N2) as (D3 & D4 & C').
    split; [congruence|]. split; [congruence|]. intros a b. rewrite C'. cbn [List.concat].
    rewrite sent_app, fold_left_app. rewrite D1, D2. f_equal. rewrite C.
    destruct (sent_single _ _ bt a b N1) as [->|[v ->]]; reflexivity.
Qed.
Lemma accumulate_total : forall batches g, Forall (Forall (in_grid (g_n0 g) (g_n1 g))) batches ->
  exists g', accumulate g batches = Ok g'.
Proof.
  unfold accumulate. induction batches as [|bt bs IH]; intros g H; [exists g; reflexivity|].
  inversion H as [|x y H1 H2]; subst. cbn [fold_res]. destruct (add_batch_total g bt H1) as [g1 E]. rewrite E. cbn [bind].
  apply IH. destruct (add_batch_cell g bt g1 E) as (-> & -> & _). exact H2.
Qed.
Lemma accumulate_out : forall batches g, ~ Forall (Forall (in_grid (g_n0 g) (g_n1 g))) batches ->
  accumulate g batches = Err IndexError.
Proof.
  unfold accumulate. induction batches as [|bt bs IH]; intros g H; [exfalso; apply H; constructor|].
  cbn [fold_res]. destruct (add_batch g bt) as [g1|e] eqn:E; cbn [bind].
  - apply IH. destruct (add_batch_cell g bt g1 E) as (-> & -> & _). intros K. apply H. constructor; [|exact K].
    destruct (addresses g bt) as [ps|e] eqn:A.
    + apply addresses_ok in A. clear - A. induction A as [|it p its ps Hp _ IH]; constructor; [exists (fst p), (snd p); auto|auto].
    + unfold add_batch in E. rewrite A in E. discriminate.
  - f_equal. unfold add_batch in E. destruct (addresses g bt) eqn:A; [discriminate|]. cbn [bind] in E. inversion E; subst.
    destruct e; try reflexivity; exfalso;
      (assert (K : ~ Forall (in_grid (g_n0 g) (g_n1 g)) bt) by (intros K; destruct (addresses_total g bt K); congruence);
       apply addresses_out in K; congruence).
Qed.

(** * Minimum *)
Definition min_step (old v : fval) : fval := if is_pos old then np_min2 v old else v.
Lemma accumulate_min_cells : forall batches g g', accumulate_min g batches = Ok g' ->
  Forall (no_repeat (g_n0 g) (g_n1 g)) batches ->
  g_n0 g' = g_n0 g /\ g_n1 g' = g_n1 g /\
  forall a b, g_at g' a b = fold_left min_step (sent_to (g_n0 g) (g_n1 g) a b (List.concat batches)) (g_at g a b).
Proof.
  unfold accumulate_min. induction batches as [|bt bs IH]; intros g g' H N.
  - inversion H; subst. auto.
  - cbn [fold_res] in H. apply bind_ok_inv in H. destruct H as [g1 [H1 H]].
    inversion N as [|x y N1 N2]; subst. destruct (min_batch_cell g bt g1 H1) as (D1 & D2 & C).
    rewrite <- D1, <- D2 in N2. destruct (IH g1 g' H N2) as (D3 & D4 & C').
    split; [congruence|]. split; [congruence|]. intros a b. rewrite C'. cbn [List.concat].
    rewrite sent_app, fold_left_app. rewrite D1, D2. f_equal. rewrite C.
    destruct (sent_single _ _ bt a b N1) as [->|[v ->]]; reflexivity.
Qed.
Lemma accumulate_min_total : forall batches g, Forall (Forall (in_grid (g_n0 g) (g_n1 g))) batches ->
  exists g', accumulate_min g batches = Ok g'.
Proof.
  unfold accumulate_min. induction batches as [|bt bs IH]; intros g H; [exists g; reflexivity|].
  inversion H as [|x y H1 H2]; subst. cbn [fold_res]. destruct (min_batch_total g bt H1) as [g1 E]. rewrite E. cbn [bind].
  apply IH. destruct (min_batch_cell g bt g1 E) as (-> & -> & _). exact H2.
Qed.

Lemma Qlt_bool_iff : forall a b, Qlt_bool a b = true <-> (a < b)%Q.
Proof.
  intros a b. unfold Qlt_bool. rewrite negb_true_iff. split.
  - intros H. apply Qnot_le_lt. intros K. apply Qle_bool_iff in K. congruence.
  - intros H. destruct (Qle_bool b a) eqn:E; [|reflexivity]. apply Qle_bool_iff in E. exfalso. apply (Qlt_not_le _ _ H E).
Qed.
Lemma is_pos_iff : forall v, is_pos v = true <-> positive v.
Proof.
  intros [q|]; unfold is_pos, positive.
  - rewrite Qlt_bool_iff. split; [intros H; exists q; auto|]. intros (x & E & H). inversion E; subst; auto.
  - split; [discriminate|]. intros (x & E & _). discriminate.
Qed.
Lemma fold_min_pos : forall l old, positive old -> Forall positive l ->
  least_of (old :: l) (fold_left min_step l old).
Proof.
  induction l as [|v l IH]; intros old P F; cbn [fold_left].
  - destruct P as (q & -> & Hq). exists q. split; [reflexivity|]. split; [left; reflexivity|].
    intros b [E|[]]. inversion E. apply Qle_refl.
  - inversion F as [|x y P2 F2]; subst. assert (E : min_step old v = np_min2 v old).
    { unfold min_step. replace (is_pos old) with true by (symmetry; apply is_pos_iff; exact P). reflexivity. }
    rewrite E. destruct P as (q & -> & Hq). destruct P2 as (r & -> & Hr). cbn [np_min2].
    destruct (Qlt_bool q r) eqn:C.
    + apply Qlt_bool_iff in C. destruct (IH (Some q) (ex_intro _ q (conj eq_refl Hq)) F2) as (m & E1 & H1 & H2).
      exists m. split; [exact E1|]. split; [destruct H1 as [H1|H1]; [left; auto|right; right; auto]|].
      intros b [Hb|[Hb|Hb]]; [inversion Hb; subst; apply H2; left; reflexivity| |apply H2; right; auto].
      inversion Hb; subst. apply Qle_trans with q; [apply H2; left; reflexivity|apply Qlt_le_weak; auto].
    + assert (C' : (r <= q)%Q) by (apply Qnot_lt_le; intros K; apply Qlt_bool_iff in K; congruence).
      destruct (IH (Some r) (ex_intro _ r (conj eq_refl Hr)) F2) as (m & E1 & H1 & H2).
      exists m. split; [exact E1|]. split; [destruct H1 as [H1|H1]; [right; left; auto|right; right; auto]|].
      intros b [Hb|[Hb|Hb]]; [|inversion Hb; subst; apply H2; left; reflexivity|apply H2; right; auto].
      inversion Hb; subst. apply Qle_trans with r; [apply H2; left; reflexivity|auto].
Qed.
Lemma fold_min_zero : forall l old, ~ positive old -> Forall positive l -> l <> [] ->
  least_of l (fold_left min_step l old).
Proof.
  intros [|v l] old P F N; [congruence|]. cbn [fold_left]. inversion F; subst.
  unfold min_step at 2. destruct (is_pos old) eqn:E; [apply is_pos_iff in E; contradiction|]. apply fold_min_pos; auto.
Qed.
