(** C91: statistics of gridded fields within lassos. *)
From Coq Require Import List ZArith Lia Bool QArith Qabs Lqa String Ascii Permutation Sorted.
From Verif Require Import Base FileName FileNameSpec FileNameProofs Imagery Output LassoGrid.
Import ListNotations.
Open Scope string_scope.
Open Scope list_scope.
Open Scope Z_scope.

(** * Specification *)
(** Cell [i], [j] of a grid: the position of its centre and its value. *)
Definition cell (g : lgrid) (i j : nat) (lon lat v : Q) : Prop :=
  (exists x0 x1, nth_error (lg_xedge g) i = Some x0 /\ nth_error (lg_xedge g) (S i) = Some x1 /\ lon = ((x0 + x1) / 2)%Q) /\
  (exists y0 y1, nth_error (lg_yedge g) j = Some y0 /\ nth_error (lg_yedge g) (S j) = Some y1 /\ lat = ((y0 + y1) / 2)%Q) /\
  (exists row, nth_error (lg_data g) j = Some row /\ nth_error row i = Some v).
(** A lasso that is valid at a time (microseconds) has the point inside. *)
Definition lassoed (lassos : list lasso) (t : Z) (lon lat : Q) : Prop :=
  exists l, In l lassos /\ instant (ls_from l) <= t < instant (ls_until l) /\ ls_inside l lon lat = true.
(** [q] is the [p]-th percentile of some values: linear between the two nearest in order. *)
Definition percentile (values : list Q) (p : Z) (q : Q) : Prop :=
  exists s i w, Permutation s values /\ StronglySorted Qle s /\ (0 <= w < 1)%Q /\
    (inject_Z (Z.of_nat i) + w == inject_Z (p * (Z.of_nat (List.length values) - 1)) / 100)%Q /\
    (q == (1 - w) * nth i s 0 + w * nth (S i) s 0)%Q.
(** The values of the cells whose centres (in 32 bits) are in a lasso. *)
Definition inside_values (f4 : Q -> Q) (lassos : list lasso) (t : Z) (g : lgrid) (values : list Q) : Prop :=
  exists cells, NoDup cells /\
    (forall i j, In (i, j) cells <-> exists lon lat v, cell g i j lon lat v /\ lassoed lassos t (f4 lon) (f4 lat)) /\
    Forall2 (fun ij v => exists lon lat, cell g (fst ij) (snd ij) lon lat v) cells values.
(** The numbers of a line. *)
Definition statistics (values : list Q) (l : line) : Prop :=
  let positive := filter (fun q => negb (Qle_bool q 0)) values in
  if existsb (fun q => negb (Qle_bool q 0)) values
  then (exists m, In m values /\ ln_max l = m /\ forall v, In v values -> (v <= m)%Q) /\ (ln_sum l == qsum values)%Q /\
       percentile positive 5 (ln_p5 l) /\ percentile positive 50 (ln_p50 l) /\ percentile positive 95 (ln_p95 l)
  else ln_max l = 0%Q /\ ln_sum l = 0%Q /\ ln_p5 l = 0%Q /\ ln_p50 l = 0%Q /\ ln_p95 l = 0%Q.

(** * Order *)
Lemma insert_perm : forall x l, Permutation (x :: l) (insert_q x l).
Proof.
  intros x l. induction l as [|y r IH]; [reflexivity|]. cbn. destruct (Qle_bool x y); [reflexivity|].
  rewrite perm_swap. apply perm_skip. exact IH.
Qed.
Lemma sort_perm : forall l, Permutation (sort_q l) l.
Proof. induction l as [|x l IH]; [reflexivity|]. cbn. rewrite <- insert_perm. apply perm_skip. exact IH. Qed.
Lemma insert_sorted : forall x l, StronglySorted Qle l -> StronglySorted Qle (insert_q x l).
Proof.
  intros x l H. induction H as [|y r H IH F]; cbn; [constructor; constructor|].
  destruct (Qle_bool x y) eqn:E.
  - apply Qle_bool_iff in E. constructor; [constructor; assumption|]. constructor; [exact E|].
    eapply Forall_impl; [|exact F]. intros z Hz. apply Qle_trans with y; assumption.
  - assert (L : (y <= x)%Q). { apply Qlt_le_weak. apply Qnot_le_lt. intros K. apply Qle_bool_iff in K. congruence. }
    constructor; [exact IH|]. apply Forall_forall. intros z Hz. apply (Permutation_in _ (Permutation_sym (insert_perm x r))) in Hz.
    destruct Hz as [<-|Hz]; [exact L|]. rewrite Forall_forall in F. apply F. exact Hz.
Qed.
Lemma sort_sorted : forall l, StronglySorted Qle (sort_q l).
Proof. induction l as [|x l IH]; cbn; [constructor|]. apply insert_sorted. exact IH. Qed.
Lemma score_percentile : forall l p, l <> [] -> 0 <= p <= 100 -> percentile l p (score l p).
Proof.
  intros l p NE P. unfold score. set (n := Z.of_nat (List.length l) - 1). set (i := p * n / 100).
  assert (N0 : 0 <= n) by (destruct l; [contradiction|cbn [List.length] in n; lia]).
  pose proof (Z.div_mod (p * n) 100 ltac:(lia)) as D. fold i in D. pose proof (Z.mod_pos_bound (p * n) 100 ltac:(lia)) as M.
  assert (I0 : 0 <= i) by (apply Z.div_pos; nia).
  exists (sort_q l), (Z.to_nat i), (inject_Z (p * n - 100 * i) / 100)%Q.
  split; [apply sort_perm|]. split; [apply sort_sorted|]. fold n. assert (R : 0 <= p * n - 100 * i < 100) by lia. set (r := p * n - 100 * i) in *.
  destruct R as [R1 R2]. rewrite Zle_Qle in R1. rewrite Zlt_Qlt in R2. change (inject_Z 0) with 0%Q in R1. change (inject_Z 100) with 100%Q in R2.
  assert (E : (inject_Z r / 100 == inject_Z r * (1 # 100))%Q) by reflexivity.
  split; [rewrite E; split; lra|]. split.
  - rewrite Z2Nat.id by exact I0. replace (p * n) with (100 * i + r) by (unfold r; lia). rewrite inject_Z_plus, inject_Z_mult. change (inject_Z 100) with 100%Q. field.
  - replace (Z.to_nat (i + 1)) with (S (Z.to_nat i)) by lia. reflexivity.
Qed.
Lemma max_fold : forall r x, let m := fold_left (fun a b => if Qle_bool a b then b else a) r x in In m (x :: r) /\ forall v, In v (x :: r) -> (v <= m)%Q.
Proof.
  induction r as [|y r IH]; intros x m.
  - split; [left; reflexivity|]. intros v [->|[]]. apply Qle_refl.
  - unfold m. cbn [fold_left]. destruct (Qle_bool x y) eqn:E.
    + destruct (IH y) as [I U]. split; [right; exact I|]. intros v [<-|H]; [|apply U; exact H].
      apply Qle_bool_iff in E. apply Qle_trans with y; [exact E|apply U; left; reflexivity].
    + destruct (IH x) as [I U]. split; [destruct I as [I|I]; [left; exact I|right; right; exact I]|].
      assert (L : (y <= x)%Q). { apply Qlt_le_weak. apply Qnot_le_lt. intros K. apply Qle_bool_iff in K. congruence. }
      intros v [<-|[<-|H]]; [apply U; left; reflexivity| |apply U; right; exact H].
      apply Qle_trans with x; [exact L|apply U; left; reflexivity].
Qed.
Lemma statistics_line : forall v text,
  statistics v (match filter (fun q => negb (Qle_bool q 0)) v with
      | [] => mkLine (fst text) 0 0 0 0 0
      | _ => mkLine (snd text) (max_of v) (qsum v) (score (filter (fun q => negb (Qle_bool q 0)) v) 5)
               (score (filter (fun q => negb (Qle_bool q 0)) v) 50) (score (filter (fun q => negb (Qle_bool q 0)) v) 95)
      end).
Proof.
  intros v text. unfold statistics. destruct (existsb _ v) eqn:E.
  - destruct (filter _ v) as [|z zs] eqn:F.
    + exfalso. apply existsb_exists in E. destruct E as (q & I & P). assert (K : In q (filter (fun q => negb (Qle_bool q 0)) v)) by (apply filter_In; auto).
      rewrite F in K. destruct K.
    + rewrite <- F. assert (NE : filter (fun q => negb (Qle_bool q 0)) v <> []) by (rewrite F; discriminate).
      cbn [ln_max ln_sum ln_p5 ln_p50 ln_p95]. split; [|split; [reflexivity|repeat split; apply score_percentile; auto; lia]].
      destruct v as [|x r]; [discriminate E|]. exists (max_of (x :: r)). destruct (max_fold r x) as [I U]. split; [exact I|]. split; [reflexivity|exact U].
  - destruct (filter _ v) as [|z zs] eqn:F; [cbn; auto|]. exfalso.
    assert (K : In z (filter (fun q => negb (Qle_bool q 0)) v)) by (rewrite F; left; reflexivity). apply filter_In in K.
    assert (C : existsb (fun q => negb (Qle_bool q 0)) v = true) by (apply existsb_exists; exists z; exact K). congruence.
Qed.

(** * Cells *)
Lemma combine_seq : forall {A B} (da : A) (db : B) l l', List.length l = List.length l' ->
  combine l l' = map (fun k => (nth k l da, nth k l' db)) (seq 0 (List.length l)).
Proof.
  intros A B da db l. induction l as [|a l IH]; intros [|b l'] H; cbn in H; try discriminate; [reflexivity|].
  cbn [combine List.length seq map nth]. f_equal. rewrite (IH l') by lia. rewrite <- seq_shift, map_map. reflexivity.
Qed.
Lemma centers_length : forall e, List.length (centers e) = (List.length e - 1)%nat.
Proof. intros e. unfold centers. rewrite map_length, combine_length. destruct e; cbn [List.length tl]; lia. Qed.
Lemma centers_nth : forall e k, (k < List.length (centers e))%nat ->
  exists a b, nth_error e k = Some a /\ nth_error e (S k) = Some b /\ nth k (centers e) 0%Q = ((a + b) / 2)%Q.
Proof.
  induction e as [|a e IH]; intros k H; [cbn in H; lia|]. destruct e as [|b e]; [cbn in H; lia|].
  destruct k as [|k]; [exists a, b; auto|]. destruct (IH k) as (x & y & E1 & E2 & E3).
  { rewrite centers_length in *. cbn [List.length] in *. lia. }
  exists x, y. cbn [nth_error]. auto.
Qed.
Definition index (nx ny : nat) : list (nat * nat) := flat_map (fun j => map (fun i => (i, j)) (seq 0 nx)) (seq 0 ny).
Lemma index_in : forall nx ny i j, In (i, j) (index nx ny) <-> (i < nx /\ j < ny)%nat.
Proof.
  intros nx ny i j. unfold index. rewrite in_flat_map. split.
  - intros (j' & Hj & H). apply in_map_iff in H. destruct H as (i' & E & Hi). injection E as <- <-. apply in_seq in Hj, Hi. lia.
  - intros [Hi Hj]. exists j. split; [apply in_seq; lia|]. apply in_map_iff. exists i. split; [reflexivity|]. apply in_seq. lia.
Qed.
Lemma index_nodup : forall nx ny, NoDup (index nx ny).
Proof.
  intros nx ny. unfold index. assert (G : forall l, NoDup l -> NoDup (flat_map (fun j : nat => map (fun i => (i, j)) (seq 0 nx)) l)).
  { induction 1 as [|j l N H IH]; [constructor|]. cbn.
    assert (A : NoDup (map (fun i => (i, j)) (seq 0 nx))). { apply FinFun.Injective_map_NoDup; [intros a b K; injection K; auto|apply seq_NoDup]. }
    assert (AP : forall s, NoDup (map (fun i : nat => (i, j)) s) -> NoDup (map (fun i => (i, j)) s ++ flat_map (fun j : nat => map (fun i => (i, j)) (seq 0 nx)) l)).
    2: { apply AP. exact A. }
    clear A. intros s A. induction s as [|i s IHs]; [exact IH|]. cbn. inversion A as [|? ? A1 A2]. subst.
    constructor; [|apply IHs; exact A2]. intros K. apply in_app_or in K. destruct K as [K|K]; [apply A1; exact K|].
    apply in_flat_map in K. destruct K as (j' & J1 & J2). apply in_map_iff in J2. destruct J2 as (i' & E & _). injection E as _ ->. apply N. exact J1. }
  apply G, seq_NoDup.
Qed.

Lemma cells_index : forall g a, cells_of g = Ok a ->
  let nx := List.length (centers (lg_xedge g)) in let ny := List.length (centers (lg_yedge g)) in
  a = map (fun ij => (nth (fst ij) (centers (lg_xedge g)) 0%Q, nth (snd ij) (centers (lg_yedge g)) 0%Q, nth (fst ij) (nth (snd ij) (lg_data g) []) 0%Q)) (index nx ny) /\
  (forall i j, In (i, j) (index nx ny) <-> exists lon lat v, cell g i j lon lat v) /\
  (forall i j, In (i, j) (index nx ny) -> cell g i j (nth i (centers (lg_xedge g)) 0%Q) (nth j (centers (lg_yedge g)) 0%Q) (nth i (nth j (lg_data g) []) 0%Q)).
Proof.
  intros g a H nx ny. unfold cells_of in H. fold nx ny in H.
  destruct (Nat.eqb_spec (List.length (lg_data g)) ny) as [EY|]; [|discriminate H].
  destruct (forallb _ (lg_data g)) eqn:EX; [|discriminate H]. cbn [andb] in H. injection H as <-.
  rewrite forallb_forall in EX.
  assert (RX : forall j, (j < ny)%nat -> List.length (nth j (lg_data g) []) = nx).
  { intros j Hj. apply Nat.eqb_eq, EX, nth_In. lia. }
  assert (C : forall i j, In (i, j) (index nx ny) -> cell g i j (nth i (centers (lg_xedge g)) 0%Q) (nth j (centers (lg_yedge g)) 0%Q) (nth i (nth j (lg_data g) []) 0%Q)).
  { intros i j K. apply index_in in K. destruct K as [Ki Kj].
    destruct (centers_nth (lg_xedge g) i Ki) as (x0 & x1 & X0 & X1 & XE). destruct (centers_nth (lg_yedge g) j Kj) as (y0 & y1 & Y0 & Y1 & YE).
    split; [exists x0, x1; auto|]. split; [exists y0, y1; auto|]. exists (nth j (lg_data g) []). split; [apply nth_error_nth'; lia|].
    apply nth_error_nth'. rewrite RX by exact Kj. exact Ki. }
  split; [|split; [|exact C]].
  - rewrite (combine_seq 0%Q [] (centers (lg_yedge g)) (lg_data g)) by (symmetry; exact EY). fold ny. unfold index.
    assert (G : forall l, (forall j, In j l -> (j < ny)%nat) ->
      flat_map (fun yr => map (fun xv => (fst xv, fst yr, snd xv)) (combine (centers (lg_xedge g)) (snd yr))) (map (fun k => (nth k (centers (lg_yedge g)) 0%Q, nth k (lg_data g) [])) l) =
      map (fun ij => (nth (fst ij) (centers (lg_xedge g)) 0%Q, nth (snd ij) (centers (lg_yedge g)) 0%Q, nth (fst ij) (nth (snd ij) (lg_data g) []) 0%Q))
        (flat_map (fun j => map (fun i => (i, j)) (seq 0 nx)) l)).
    { induction l as [|j l IH]; intros B; [reflexivity|]. cbn [map flat_map]. rewrite map_app, IH by (intros; apply B; right; assumption). f_equal.
      cbn [fst snd]. rewrite (combine_seq 0%Q 0%Q) by (rewrite RX by (apply B; left; reflexivity); reflexivity). rewrite !map_map. fold nx. reflexivity. }
    apply G. intros j K. apply in_seq in K. lia.
  - intros i j. split; [intros K; do 3 eexists; apply C; exact K|]. intros (lon & lat & v & (x0 & x1 & _ & X1 & _) & (y0 & y1 & _ & Y1 & _) & _).
    apply index_in. unfold nx, ny. rewrite !centers_length.
    assert (S i < List.length (lg_xedge g))%nat by (apply nth_error_Some; congruence).
    assert (S j < List.length (lg_yedge g))%nat by (apply nth_error_Some; congruence). lia.
Qed.
Lemma cell_position : forall g i j lon lat v lon' lat' v', cell g i j lon lat v -> cell g i j lon' lat' v' -> lon = lon' /\ lat = lat' /\ v = v'.
Proof.
  intros g i j lon lat v lon' lat' v' ((a & b & A & B & ->) & (c & d & C & D & ->) & (r & R & V)) ((a' & b' & A' & B' & ->) & (c' & d' & C' & D' & ->) & (r' & R' & V')).
  rewrite A in A'. rewrite B in B'. rewrite C in C'. rewrite D in D'. rewrite R in R'. injection A' as <-. injection B' as <-. injection C' as <-. injection D' as <-. injection R' as <-.
  rewrite V in V'. injection V' as <-. auto.
Qed.

(** * Time *)
Section Lassos.
Variables (f4 : Q -> Q) (base : datetime) (lassos : list lasso).
Lemma seconds_le : forall a b, (seconds_of base a <= seconds_of base b + 1)%Q <-> instant a <= instant b + 1000000.
Proof.
  intros a b. unfold seconds_of. rewrite !(Qmult_comm _ (/ 1000000)) || idtac. unfold Qdiv. change (/ 1000000)%Q with (1 # 1000000)%Q. unfold Z.sub. rewrite !inject_Z_plus, !inject_Z_opp.
  rewrite (Zle_Qle (instant a)), inject_Z_plus. change (inject_Z 1000000) with 1000000%Q. split; intros H; lra.
Qed.
Lemma mask_lassoed : forall g lon lat, (f4 (seconds_of base (lg_time g) + 1) == seconds_of base (lg_time g) + 1)%Q ->
  mask_of base lassos (f4 (seconds_of base (lg_time g) + 1)) lon lat = true <-> lassoed lassos (instant (lg_time g) + 1000000) lon lat.
Proof.
  intros g lon lat EX. unfold mask_of, lassoed. rewrite existsb_exists. split.
  - intros (l & I & H). apply andb_true_iff in H. destruct H as [H IN]. apply andb_true_iff in H. destruct H as [H1 H2].
    exists l. split; [exact I|]. split; [|exact IN]. apply Qle_bool_iff in H1. rewrite EX in H1. apply seconds_le in H1. split; [exact H1|].
    apply negb_true_iff in H2. destruct (Z.lt_ge_cases (instant (lg_time g) + 1000000) (instant (ls_until l))) as [L|L]; [exact L|]. exfalso.
    apply seconds_le in L. rewrite <- EX in L. apply Qle_bool_iff in L. congruence.
  - intros (l & I & [T1 T2] & IN). exists l. split; [exact I|]. rewrite IN, andb_true_r. apply andb_true_iff. split.
    + apply Qle_bool_iff. rewrite EX. apply seconds_le. exact T1.
    + apply negb_true_iff. destruct (Qle_bool _ _) eqn:K; [|reflexivity]. exfalso. apply Qle_bool_iff in K. rewrite EX in K. apply seconds_le in K. lia.
Qed.
Lemma line_values : forall g l, line_of f4 base lassos g = Ok l -> (f4 (seconds_of base (lg_time g) + 1) == seconds_of base (lg_time g) + 1)%Q ->
  exists values, inside_values f4 lassos (instant (lg_time g) + 1000000) g values /\ statistics values l /\
    ln_time l = (if existsb (fun q => negb (Qle_bool q 0)) values then isoformat (lg_time g) else date_text (lg_time g)).
Proof.
  intros g l H EX. unfold line_of in H. destruct (cells_of g) as [a|e] eqn:EC; [|discriminate H]. cbn [bind] in H.
  destruct (cells_index g a EC) as (EA & CI & CC). set (ix := index _ _) in *.
  set (pos := fun ij : nat * nat => (nth (fst ij) (centers (lg_xedge g)) 0%Q, nth (snd ij) (centers (lg_yedge g)) 0%Q, nth (fst ij) (nth (snd ij) (lg_data g) []) 0%Q)) in *.
  set (mk := fun c : Q * Q * Q => mask_of base lassos (f4 (seconds_of base (lg_time g) + 1)) (f4 (fst (fst c))) (f4 (snd (fst c)))) in *.
  assert (FM : map snd (filter mk a) = map (fun ij => snd (pos ij)) (filter (fun ij => mk (pos ij)) ix)).
  { rewrite EA. clear. induction ix as [|x r IH]; [reflexivity|]. cbn [map filter]. destruct (mk (pos x)); cbn [map]; rewrite IH; reflexivity. }
  set (v := map snd (filter mk a)) in *. exists v. split; [|split].
  - exists (filter (fun ij => mk (pos ij)) ix). split; [apply NoDup_filter, index_nodup|]. split.
    + intros i j. rewrite filter_In. split.
      * intros [I M]. exists (fst (fst (pos (i, j)))), (snd (fst (pos (i, j)))), (snd (pos (i, j))). split; [apply CC; exact I|].
        apply (mask_lassoed g _ _ EX). exact M.
      * intros (lon & lat & x & C & L). assert (I : In (i, j) ix) by (apply CI; eauto). split; [exact I|].
        destruct (cell_position _ _ _ _ _ _ _ _ _ C (CC i j I)) as (-> & -> & _). apply (mask_lassoed g _ _ EX) in L. exact L.
    + rewrite FM. assert (G : forall r, (forall ij, In ij r -> In ij ix) -> Forall2 (fun ij v => exists lon lat, cell g (fst ij) (snd ij) lon lat v) r (map (fun ij => snd (pos ij)) r)).
      { induction r as [|[i j] r IH]; intros B; [constructor|]. cbn [map]. constructor; [|apply IH; intros; apply B; right; assumption].
        eexists. eexists. apply CC. apply B. left. reflexivity. }
      apply G. intros ij K. apply filter_In in K. tauto.
  - injection H as <-. pose proof (statistics_line v (date_text (lg_time g), isoformat (lg_time g))) as S. cbn [fst snd] in S. exact S.
  - injection H as <-. destruct (existsb _ v) eqn:E; destruct (filter (fun q => negb (Qle_bool q 0)) v) as [|z zs] eqn:F; try reflexivity; exfalso.
    + apply existsb_exists in E. destruct E as (q & I & P). assert (K : In q (filter (fun q => negb (Qle_bool q 0)) v)) by (apply filter_In; auto). rewrite F in K. destruct K.
    + assert (K : In z (filter (fun q => negb (Qle_bool q 0)) v)) by (rewrite F; left; reflexivity). apply filter_In in K.
      assert (C : existsb (fun q => negb (Qle_bool q 0)) v = true) by (apply existsb_exists; exists z; exact K). congruence.
Qed.
End Lassos.

Lemma map_res_forall2 : forall {A B} (f : A -> res B) l r, map_res f l = Ok r -> Forall2 (fun a b => f a = Ok b) l r.
Proof.
  intros A B f l. induction l as [|a l IH]; intros r H; cbn in H; [injection H as <-; constructor|].
  destruct (f a) as [b|e] eqn:E; [|discriminate H]. cbn [bind] in H. destruct (map_res f l) as [bs|e]; [|discriminate H]. injection H as <-. constructor; auto.
Qed.

(** The table has one line for every image from start to end, in their order.  Its numbers are
    the maximum and the sum of the cells whose centres are in the lasso valid one second after
    the time of the image, and percentiles of the positive ones; zeros if none is positive.
    (Times such that a second later is exact in 32 bits.) *)
Theorem C91_lines_partial : forall f4 base lassos t_start t_end grids lines,
  table_of f4 base lassos t_start t_end grids = Ok lines ->
  (forall g, In g grids -> (f4 (seconds_of base (lg_time g) + 1) == seconds_of base (lg_time g) + 1)%Q) ->
  Forall2 (fun g l => exists values, inside_values f4 lassos (instant (lg_time g) + 1000000) g values /\ statistics values l /\
                        ((exists v, In v values /\ 0 < v)%Q -> ln_time l = isoformat (lg_time g)))
    (filter (fun g => (instant t_start <=? instant (lg_time g)) && (instant (lg_time g) <=? instant t_end))%bool grids) lines.
Proof.
  intros f4 base lassos t0 t1 grids lines H EX. unfold table_of in H. apply map_res_forall2 in H.
  assert (G : forall gs ls, Forall2 (fun a b => line_of f4 base lassos a = Ok b) gs ls -> (forall g, In g gs -> In g grids) ->
    Forall2 (fun g l => exists values, inside_values f4 lassos (instant (lg_time g) + 1000000) g values /\ statistics values l /\
       ((exists v, In v values /\ 0 < v)%Q -> ln_time l = isoformat (lg_time g))) gs ls).
  { induction 1 as [|g l gs ls L _ IH]; intros B; [constructor|]. constructor; [|apply IH; intros; apply B; right; assumption].
    destruct (line_values f4 base lassos g l L (EX g (B g (or_introl eq_refl)))) as (v & I & S & T). exists v. split; [exact I|]. split; [exact S|].
    intros (q & Hq & P). rewrite T. replace (existsb _ v) with true; [reflexivity|]. symmetry. apply existsb_exists. exists q. split; [exact Hq|].
    apply negb_true_iff. destruct (Qle_bool q 0) eqn:K; [|reflexivity]. apply Qle_bool_iff in K. exfalso. lra. }
  apply G; [exact H|]. intros g K. apply filter_In in K. tauto.
Qed.
Print Assumptions C91_lines_partial.

(** If no lasso starts or ends within the second after an image, the lassos valid a second later
    are those valid at its time. *)
Theorem C91_valid_at_time : forall lassos t lon lat,
  (forall l, In l lassos -> ~ (t < instant (ls_from l) <= t + 1000000) /\ ~ (t < instant (ls_until l) <= t + 1000000)) ->
  lassoed lassos (t + 1000000) lon lat <-> lassoed lassos t lon lat.
Proof.
  intros lassos t lon lat H. split; intros (l & I & T & IN); exists l; (split; [exact I|]); (split; [|exact IN]); destruct (H l I); lia.
Qed.
Print Assumptions C91_valid_at_time.
(** An image at the end of the last lasso is in the table too, and its line is all zeros whatever
    the image. *)
Theorem C91_last_image : forall f4 base lassos t_start t_end grids lines,
  table_of f4 base lassos t_start t_end grids = Ok lines ->
  (forall g, In g grids -> (f4 (seconds_of base (lg_time g) + 1) == seconds_of base (lg_time g) + 1)%Q) ->
  instant t_start <= instant t_end -> (forall l, In l lassos -> instant (ls_until l) <= instant t_end) ->
  forall g, In g grids -> instant (lg_time g) = instant t_end ->
  exists l, In l lines /\ line_of f4 base lassos g = Ok l /\ ln_max l = 0%Q /\ ln_sum l = 0%Q /\ ln_p5 l = 0%Q /\ ln_p50 l = 0%Q /\ ln_p95 l = 0%Q.
Proof.
  intros f4 base lassos t0 t1 grids lines H EX O U g I T. unfold table_of in H.
  assert (K : In g (filter (fun g => (instant t0 <=? instant (lg_time g)) && (instant (lg_time g) <=? instant t1))%bool grids)).
  { apply filter_In. split; [exact I|]. rewrite T. apply andb_true_iff. split; apply Z.leb_le; lia. }
  apply map_res_forall2 in H. clear -H K EX U I T.
  assert (Y : exists l, In l lines /\ line_of f4 base lassos g = Ok l).
  { revert K. induction H as [|a b l l' E H IH]; intros K; [destruct K|]. destruct K as [->|K]; [exists b; split; [left; reflexivity|exact E]|].
    destruct (IH K) as (x & X1 & X2). exists x. split; [right; exact X1|exact X2]. }
  destruct Y as (l & L1 & L2). exists l. split; [exact L1|]. split; [exact L2|].
  destruct (line_values f4 base lassos g l L2 (EX g I)) as (v & (cells & _ & C & F) & S & _).
  assert (N : cells = []).
  { destruct cells as [|[i j] r]; [reflexivity|]. exfalso. destruct (proj1 (C i j) (or_introl eq_refl)) as (lon & lat & x & _ & (w & W & R & _)).
    specialize (U w W). lia. }
  subst cells. inversion F. subst v. unfold statistics in S. cbn [existsb] in S. exact S.
Qed.
Print Assumptions C91_last_image.
Definition blank_for_T (c : ascii) : ascii := if Ascii.eqb c "T" then " "%char else c.
Lemma pad_blank : forall k n, map blank_for_T (pad k n) = pad k n.
Proof.
  intros k n. pose proof (pad_digits k n) as D. induction D as [|c r H D IH]; [reflexivity|]. cbn [map]. rewrite IH. f_equal.
  destruct H as (i & I & ->). assert (K : i = 0 \/ i = 1 \/ i = 2 \/ i = 3 \/ i = 4 \/ i = 5 \/ i = 6 \/ i = 7 \/ i = 8 \/ i = 9) by lia.
  repeat destruct K as [->|K]; try reflexivity. subst. reflexivity.
Qed.
Lemma date_text_blank : forall d, date_text d = map blank_for_T (isoformat d).
Proof.
  intros d. unfold date_text, isoformat. rewrite !map_app, !pad_blank. destruct (dt_us d =? 0); [reflexivity|]. rewrite map_app, pad_blank. reflexivity.
Qed.
(** The header says that the first column is an ISO time.  A line without positive values has
    another text there: date and time with a blank between them. *)
Theorem C91_time_column_refuted : forall f4 base lassos g l values, line_of f4 base lassos g = Ok l ->
  (f4 (seconds_of base (lg_time g) + 1) == seconds_of base (lg_time g) + 1)%Q ->
  inside_values f4 lassos (instant (lg_time g) + 1000000) g values -> (forall v, In v values -> (v <= 0)%Q) ->
  ln_time l <> isoformat (lg_time g) /\ ln_time l = map (fun c => if Ascii.eqb c "T" then " "%char else c) (isoformat (lg_time g)).
Proof.
  intros f4 base lassos g l values L EX (cells & ND & C & F) NP. destruct (line_values f4 base lassos g l L EX) as (v' & (cells' & ND' & C' & F') & _ & T).
  rewrite T. destruct (existsb _ v') eqn:E.
  - exfalso. apply existsb_exists in E. destruct E as (q & I & P). apply In_nth_error in I. destruct I as (k & I).
    assert (X : exists ij, nth_error cells' k = Some ij /\ exists lon lat, cell g (fst ij) (snd ij) lon lat q).
    { clear -F' I. revert k I. induction F' as [|a b r r' H F IH]; intros [|k] I; try discriminate I; [injection I as ->; exists a; auto|apply IH; exact I]. }
    destruct X as ([i j] & X1 & lon & lat & X2). apply nth_error_In in X1. apply C' in X1. apply C in X1. clear -X1 X2 F NP P.
    assert (Y : exists q', In q' values /\ exists lon lat, cell g i j lon lat q').
    { revert X1. induction F as [|a b r r' H F IH]; intros X1; [destruct X1|]. destruct X1 as [->|X1]; [exists b; split; [left; reflexivity|exact H]|].
      destruct IH as (q' & Q1 & Q2); [intros; apply NP; right; assumption|exact X1|]. exists q'. split; [right; exact Q1|exact Q2]. }
    destruct Y as (q' & Y1 & lon' & lat' & Y2). cbn [fst snd] in X2. destruct (cell_position _ _ _ _ _ _ _ _ _ X2 Y2) as (_ & _ & ->).
    specialize (NP q' Y1). apply Qle_bool_iff in NP. rewrite NP in P. discriminate P.
  - split; [|apply date_text_blank]. unfold date_text, isoformat. intros K. do 5 (apply app_inv_head in K). discriminate K.
Qed.
Print Assumptions C91_time_column_refuted.
(** An image half a second before the lasso changes is described by the next lasso, not by the
    one valid at its time. *)
Definition ex_time (s us : Z) : datetime := mkDT 2018 183 5 0 s us.
Definition ex_grid (s us : Z) : lgrid := mkGrid (ex_time s us) [0; 1; 2]%Q [10; 11]%Q [[5; 7]%Q].
Definition west_east : list lasso :=
  [mkLasso (ex_time 0 0) (ex_time 30 0) (fun lon _ => Qle_bool lon 1); mkLasso (ex_time 30 0) (ex_time 59 0) (fun lon _ => Qle_bool 1 lon)].
Theorem C91_next_lasso_refuted :
  lassoed west_east (instant (ex_time 29 500000)) (1 # 2) (21 # 2) /\ ~ lassoed west_east (instant (ex_time 29 500000)) (3 # 2) (21 # 2) /\
  exists l, table_of (fun q => q) (ex_time 0 0) west_east (ex_time 0 0) (ex_time 59 0) [ex_grid 29 500000] = Ok [l] /\ ln_max l = 7%Q /\ (ln_sum l == 7)%Q.
Proof.
  split; [|split].
  - exists (mkLasso (ex_time 0 0) (ex_time 30 0) (fun lon _ => Qle_bool lon 1)). split; [left; reflexivity|]. split; [vm_compute; split; congruence|reflexivity].
  - intros (l & [<-|[<-|[]]] & T & I); [discriminate I|]. cbn [ls_from ls_until] in T. vm_compute in T. destruct T as [T _]. apply T. reflexivity.
  - eexists. split; [vm_compute; reflexivity|]. split; reflexivity.
Qed.
Print Assumptions C91_next_lasso_refuted.

(** Three images of one minute: the table has the line of the western cell, of the eastern one,
    and zeros for the last. *)
Example C91_hypotheses :
  exists a b c, table_of (fun q => q) (ex_time 0 0) west_east (ex_time 0 0) (ex_time 59 0)
    [mkGrid (mkDT 2018 183 4 59 59 0) [0; 1]%Q [0; 1]%Q [[1%Q]]; ex_grid 10 0; ex_grid 40 0; ex_grid 59 0] = Ok [a; b; c] /\
    (ln_max a = 5)%Q /\ (ln_p50 a == 5)%Q /\ (ln_max b = 7)%Q /\ ln_max c = 0%Q /\ ln_time a = lit "2018-07-02T05:00:10" /\ ln_time c = lit "2018-07-02 05:00:59".
Proof. do 3 eexists. split; [vm_compute; reflexivity|]. repeat split; vm_compute; reflexivity. Qed.
Example C91_percentiles : percentile [3; 1; 2]%Q 5 (11 # 10)%Q /\ (score [3; 1; 2] 95 == 29 # 10)%Q.
Proof.
  split; [|reflexivity]. exists [1; 2; 3]%Q, 0%nat, (1 # 10)%Q. split; [|split; [|split; [|split]]].
  - apply Permutation_sym. change [1; 2; 3]%Q with ([1; 2] ++ 3 :: [])%Q. apply Permutation_cons_app. reflexivity.
  - repeat constructor; vm_compute; congruence.
  - split; reflexivity || lra.
  - reflexivity.
  - reflexivity.
Qed.
