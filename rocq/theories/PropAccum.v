(** Properties C34 and C35: accumulation on a grid. *)
From Coq Require Import List ZArith QArith Bool Lia Lqa Permutation.
From Verif Require Import Base BaseProofs Glm Lut LutSpec LutProofs Accum AccumSpec AccumProofs.
Import ListNotations.
Open Scope Z_scope.

(** * C34 *)
(** Each cell ends with its initial value plus all the values sent to it. *)
Theorem C34_adds_every_value_once : forall g batches,
  Forall (Forall (in_grid (g_n0 g) (g_n1 g))) batches -> Forall (no_repeat (g_n0 g) (g_n1 g)) batches ->
  exists g', accumulate g batches = Ok g' /\ g_n0 g' = g_n0 g /\ g_n1 g' = g_n1 g /\
    forall a b, adds_to (g_at g a b) (sent_to (g_n0 g) (g_n1 g) a b (List.concat batches)) (g_at g' a b).
Proof.
  intros g batches H N. destruct (accumulate_total batches g H) as [g' E]. exists g'.
  destruct (accumulate_cells batches g g' E N) as (D1 & D2 & C). split; [exact E|]. split; [exact D1|]. split; [exact D2|].
  intros a b. rewrite C. apply fold_fadd_adds.
Qed.
(** Neither the order of the values nor their distribution over batches matters. *)
Theorem C34_order_and_batching_free : forall g batches1 batches2 g1 g2,
  accumulate g batches1 = Ok g1 -> accumulate g batches2 = Ok g2 ->
  Forall (no_repeat (g_n0 g) (g_n1 g)) batches1 -> Forall (no_repeat (g_n0 g) (g_n1 g)) batches2 ->
  Permutation (List.concat batches1) (List.concat batches2) ->
  forall a b, feq (g_at g1 a b) (g_at g2 a b).
Proof.
  intros g B1 B2 g1 g2 E1 E2 N1 N2 P a b.
  destruct (accumulate_cells B1 g g1 E1 N1) as (_ & _ & C1). destruct (accumulate_cells B2 g g2 E2 N2) as (_ & _ & C2).
  rewrite C1, C2. set (l1 := sent_to (g_n0 g) (g_n1 g) a b (List.concat B1)). set (l2 := sent_to (g_n0 g) (g_n1 g) a b (List.concat B2)).
  assert (PL : Permutation l1 l2).
  { unfold l1, l2, sent_to. apply Permutation_map. revert P. generalize (List.concat B1) (List.concat B2). intros x y P.
    induction P; cbn [filter].
    - constructor.
    - destruct (_ && _); [constructor; auto|auto].
    - destruct (meansb _ (it_y x) a && _), (meansb _ (it_y y) a && _); try apply Permutation_refl. constructor.
    - eapply Permutation_trans; eauto. }
  pose proof (fold_fadd_adds l1 (g_at g a b)) as A1. pose proof (fold_fadd_adds l2 (g_at g a b)) as A2.
  destruct (g_at g a b) as [q|]; cbn [adds_to] in A1, A2.
  - destruct A1 as [A1 A1'], A2 as [A2 A2'].
    assert (D : numbers l1 \/ ~ numbers l1).
    { clear. induction l1 as [|v l IH]; [left; intros v []|]. destruct v as [x|].
      - destruct IH as [IH|IH]; [left; intros v [<-|Hv]; [discriminate|auto]|right; intros K; apply IH; intros v Hv; apply K; right; auto].
      - right. intros K. apply (K None); [left; reflexivity|reflexivity]. }
    destruct D as [D|D].
    + assert (D2 : numbers l2) by (intros v Hv; apply D; eapply Permutation_in; [apply Permutation_sym|]; eauto).
      destruct (A1 D) as (x & -> & Ex). destruct (A2 D2) as (y & -> & Ey). cbn [feq]. rewrite Ex, Ey.
      rewrite (total_perm l1 l2 PL). reflexivity.
    + assert (D2 : ~ numbers l2) by (intros K; apply D; intros v Hv; apply K; eapply Permutation_in; eauto).
      rewrite (A1' D), (A2' D2). exact I.
  - rewrite A1, A2. exact I.
Qed.
(** What a batch that addresses a cell several times does: only its last value
    for the cell is added. *)
Theorem C34_repeated_cell_keeps_last : forall g its g' a b, add_batch g its = Ok g' ->
  match rev (sent_to (g_n0 g) (g_n1 g) a b its) with
  | [] => g_at g' a b = g_at g a b
  | v :: _ => adds_to (g_at g a b) [v] (g_at g' a b)
  end.
Proof.
  intros g its g' a b H. destruct (add_batch_cell g its g' H) as (_ & _ & C). rewrite C.
  set (l := sent_to (g_n0 g) (g_n1 g) a b its). destruct l as [|v l] using rev_ind; [reflexivity|].
  rewrite rev_app_distr. cbn [rev app]. rewrite map_app. cbn [map]. rewrite last_last. apply (fold_fadd_adds [v]).
Qed.
(** An index outside the grid raises. *)
Theorem C34_outside_raises : forall g batches,
  ~ Forall (Forall (in_grid (g_n0 g) (g_n1 g))) batches -> accumulate g batches = Err IndexError.
Proof. intros. apply accumulate_out; auto. Qed.
(** Only nonempty batches of the selected kind reach the accumulator, in order,
    and the empty ones would not have changed it. *)
Theorem C34_selection : forall use sent,
  (forall b, In b (select_dataset use sent) -> b <> []) /\
  List.concat (select_dataset use sent) = List.concat (map (fun p => if use : bool then fst p else snd p) sent) /\
  forall g, accumulate g (select_dataset use sent) = accumulate g (map (fun p => if use : bool then fst p else snd p) sent).
Proof.
  intros use sent. unfold select_dataset. generalize (map (fun p : list item * list item => if use then fst p else snd p) sent). intros L.
  split; [|split].
  - intros b Hb. apply filter_In in Hb. destruct Hb as [_ Hb]. destruct b; [discriminate|discriminate].
  - induction L as [|b L IH]; [reflexivity|]. cbn [filter]. destruct b as [|x b]; cbn; [exact IH|]. f_equal. f_equal. exact IH.
  - unfold accumulate. induction L as [|b L IH]; intros g; [reflexivity|]. cbn [filter]. destruct b as [|x b].
    + cbn. apply IH.
    + cbn [List.length Nat.eqb negb fold_res]. destruct (add_batch g (x :: b)); [apply IH|reflexivity].
Qed.

Definition g_ex : grid := zeros 2 3.
Definition b_ex : list (list item) :=
  [[mkItem 2 0 (Some 5%Q); mkItem 0 1 (Some 1%Q)]; [mkItem (-1) 0 (Some (1#2)); mkItem 1 1 None]].
Example C34_ex : exists g', accumulate g_ex b_ex = Ok g' /\ g_at g' 0 2 = Some (11#2) /\ g_at g' 1 0 = Some 1%Q
   /\ g_at g' 1 1 = None /\ g_at g' 0 0 = Some 0%Q.
Proof. eexists. split; [vm_compute; reflexivity|]. vm_compute. auto. Qed.
Example C34_ex_hyp : Forall (Forall (in_grid 2 3)) b_ex /\ Forall (no_repeat 2 3) b_ex.
Proof.
  assert (A : forall i a b, addressed 2 3 i a b -> (it_x i = b \/ it_x i = b - 3) /\ (it_y i = a \/ it_y i = a - 2) /\ 0 <= a < 2 /\ 0 <= b < 3)
    by (intros i a b [[? ?] [? ?]]; lia).
  split.
  - repeat constructor; [exists 0, 2|exists 1, 0|exists 0, 2|exists 1, 1]; split; split; simpl; lia.
  - constructor; [|constructor; [|constructor]]; intros k l a b i j Hk Hl Hi Hj; apply A in Hi; apply A in Hj;
      destruct k as [|[|k]], l as [|[|l]]; simpl in Hk, Hl; try reflexivity; try (destruct k; discriminate); try (destruct l; discriminate);
      inversion Hk; inversion Hl; subst; simpl in *; lia.
Qed.

(** * C35 *)
(** Starting from zeros, each cell ends with the least value sent to it, or zero. *)
Theorem C35_least_positive_value : forall n0 n1 batches,
  Forall (Forall (in_grid n0 n1)) batches -> Forall (no_repeat n0 n1) batches ->
  Forall positive (map it_v (List.concat batches)) ->
  exists g', accumulate_min (zeros n0 n1) batches = Ok g' /\ g_n0 g' = n0 /\ g_n1 g' = n1 /\
    forall a b, match sent_to n0 n1 a b (List.concat batches) with
                | [] => g_at g' a b = Some 0%Q
                | l => least_of l (g_at g' a b)
                end.
Proof.
  intros n0 n1 batches H N P. destruct (accumulate_min_total batches (zeros n0 n1) H) as [g' E]. exists g'.
  destruct (accumulate_min_cells batches _ g' E N) as (D1 & D2 & C). split; [exact E|]. split; [exact D1|]. split; [exact D2|].
  intros a b. rewrite C. cbn [zeros g_n0 g_n1 g_at].
  assert (F : Forall positive (sent_to n0 n1 a b (List.concat batches))).
  { apply Forall_forall. intros v Hv. unfold sent_to in Hv. apply in_map_iff in Hv. destruct Hv as (it & <- & Hi).
    apply filter_In in Hi. rewrite Forall_forall in P. apply P. apply in_map. apply Hi. }
  assert (Z : ~ positive (Some 0%Q)) by (intros (q & Eq & Hq); inversion Eq; subst; apply (Qlt_irrefl 0); auto).
  destruct (sent_to n0 n1 a b (List.concat batches)) as [|v l] eqn:S; [reflexivity|].
  apply fold_min_zero; auto. discriminate.
Qed.
(** Continuing from a grid left by earlier batches. *)
Theorem C35_continues : forall g batches,
  Forall (Forall (in_grid (g_n0 g) (g_n1 g))) batches -> Forall (no_repeat (g_n0 g) (g_n1 g)) batches ->
  Forall positive (map it_v (List.concat batches)) ->
  exists g', accumulate_min g batches = Ok g' /\
    forall a b, positive (g_at g a b) ->
      least_of (g_at g a b :: sent_to (g_n0 g) (g_n1 g) a b (List.concat batches)) (g_at g' a b).
Proof.
  intros g batches H N P. destruct (accumulate_min_total batches g H) as [g' E]. exists g'.
  destruct (accumulate_min_cells batches _ g' E N) as (D1 & D2 & C). split; [exact E|].
  intros a b Hp. rewrite C. apply fold_min_pos; auto.
  apply Forall_forall. intros v Hv. unfold sent_to in Hv. apply in_map_iff in Hv. destruct Hv as (it & <- & Hi).
  apply filter_In in Hi. rewrite Forall_forall in P. apply P. apply in_map. apply Hi.
Qed.
Theorem C35_order_and_batching_free : forall n0 n1 batches1 batches2 g1 g2,
  accumulate_min (zeros n0 n1) batches1 = Ok g1 -> accumulate_min (zeros n0 n1) batches2 = Ok g2 ->
  Forall (no_repeat n0 n1) batches1 -> Forall (no_repeat n0 n1) batches2 ->
  Forall positive (map it_v (List.concat batches1)) ->
  Permutation (List.concat batches1) (List.concat batches2) ->
  forall a b, feq (g_at g1 a b) (g_at g2 a b).
Proof.
  intros n0 n1 B1 B2 g1 g2 E1 E2 N1 N2 P PP a b.
  destruct (accumulate_min_cells B1 _ g1 E1 N1) as (_ & _ & C1). destruct (accumulate_min_cells B2 _ g2 E2 N2) as (_ & _ & C2).
  rewrite C1, C2. cbn [zeros g_n0 g_n1 g_at]. set (l1 := sent_to n0 n1 a b (List.concat B1)). set (l2 := sent_to n0 n1 a b (List.concat B2)).
  assert (F1 : Forall positive l1).
  { apply Forall_forall. intros v Hv. unfold l1, sent_to in Hv. apply in_map_iff in Hv. destruct Hv as (it & <- & Hi).
    apply filter_In in Hi. rewrite Forall_forall in P. apply P. apply in_map. apply Hi. }
  assert (M : forall v, In v l1 <-> In v l2).
  { intros v. unfold l1, l2, sent_to. rewrite !in_map_iff. split; intros (it & Ev & Hi); exists it; (split; [exact Ev|]);
      apply filter_In in Hi; apply filter_In; (split; [|apply Hi]); destruct Hi as [Hi _].
    - eapply Permutation_in; eauto.
    - eapply Permutation_in; [apply Permutation_sym; eauto|eauto]. }
  assert (F2 : Forall positive l2) by (apply Forall_forall; intros v Hv; apply M in Hv; rewrite Forall_forall in F1; auto).
  assert (Z : ~ positive (Some 0%Q)) by (intros (q & Eq & Hq); inversion Eq; subst; apply (Qlt_irrefl 0); auto).
  destruct l1 as [|v1 l1'] eqn:L1; destruct l2 as [|v2 l2'] eqn:L2.
  - cbn. reflexivity.
  - exfalso. apply (proj2 (M v2)). left; reflexivity.
  - exfalso. apply (proj1 (M v1)). left; reflexivity.
  - destruct (fold_min_zero (v1 :: l1') (Some 0%Q) Z F1 ltac:(discriminate)) as (x & -> & X1 & X2).
    destruct (fold_min_zero (v2 :: l2') (Some 0%Q) Z F2 ltac:(discriminate)) as (y & -> & Y1 & Y2).
    cbn [feq]. apply Qle_antisym; [apply X2, M, Y1|apply Y2, M, X1].
Qed.
Theorem C35_outside_raises : forall g its, ~ Forall (in_grid (g_n0 g) (g_n1 g)) its -> min_batch g its = Err IndexError.
Proof. intros. apply min_batch_out; auto. Qed.

Definition m_ex : list (list item) :=
  [[mkItem 2 0 (Some 5%Q); mkItem 0 1 (Some 1%Q)]; [mkItem 2 0 (Some 3%Q)]; [mkItem 2 0 (Some 4%Q); mkItem 0 1 (Some 7%Q)]].
Example C35_ex : exists g', accumulate_min (zeros 2 3) m_ex = Ok g' /\ g_at g' 0 2 = Some 3%Q /\ g_at g' 1 0 = Some 1%Q
   /\ g_at g' 1 1 = Some 0%Q.
Proof. eexists. split; [vm_compute; reflexivity|]. vm_compute. auto. Qed.
(** Positivity is needed: a zero (or NaN) makes the cell forget the earlier values. *)
Example C35_ex_zero_forgets : exists g',
  accumulate_min (zeros 1 1) [[mkItem 0 0 (Some 2%Q)]; [mkItem 0 0 (Some 0%Q)]; [mkItem 0 0 (Some 9%Q)]] = Ok g' /\ g_at g' 0 0 = Some 9%Q.
Proof. eexists. split; [vm_compute; reflexivity|]. vm_compute. reflexivity. Qed.

Print Assumptions C34_adds_every_value_once.
Print Assumptions C34_order_and_batching_free.
Print Assumptions C34_repeated_cell_keeps_last.
Print Assumptions C34_outside_raises.
Print Assumptions C34_selection.
Print Assumptions C35_least_positive_value.
Print Assumptions C35_continues.
Print Assumptions C35_order_and_batching_free.
Print Assumptions C35_outside_raises.
