(** Lemmas about the merging of split events by cell. *)
From Coq Require Import List ZArith QArith Qabs Bool Lia Lqa Permutation Sorting.Sorted.
From Verif Require Import Base BaseProofs Glm GlmProofs Lut LutSpec LutProofs AccumProofs Slice Regroup RegroupSpec.
Import ListNotations.
Open Scope Z_scope.

Lemma pd_sum_total : forall l, is_num (pd_sum l) (total l).
Proof.
  intros l. assert (G : forall l s, (fold_left (fun s v => match v with Some q => (s + q)%Q | None => s end) l s == s + total l)%Q).
  { clear. induction l as [|[q|] l IH]; intros s; cbn [fold_left]; unfold total in *; cbn [map num].
    - cbn. lra.
    - rewrite IH. cbn [qsum fold_right]. unfold qsum. lra.
    - rewrite IH. cbn [qsum fold_right]. unfold qsum. lra. }
  eexists. split; [reflexivity|]. rewrite G. lra.
Qed.
Lemma fold_plus : forall l s, (fold_left Qplus l s == s + qsum l)%Q.
Proof. induction l as [|q l IH]; intros s; cbn [fold_left]; [cbn; lra|]. rewrite IH. cbn [qsum fold_right]. unfold qsum. lra. Qed.
Lemma pd_mean_average : forall l, (pd_mean l == average l)%Q.
Proof. intros l. unfold pd_mean, average. rewrite fold_plus. unfold Qdiv. rewrite Qplus_0_l. reflexivity. Qed.
Lemma pd_min_least : forall l, least_number l (pd_min l).
Proof.
  assert (G : forall l a, least_number (a :: l) (fold_left pd_min2 l a)).
  { induction l as [|v l IH]; intros a; cbn [fold_left].
    - destruct a as [a|]; [left|right].
      + split; [exists a; left; auto|]. exists a. split; [auto|]. split; [left; auto|]. intros b [E|[]]. inversion E. lra.
      + split; [|reflexivity]. intros q [E|[]]. discriminate.
    - destruct (IH (pd_min2 a v)) as [[HE HL]|[HN HE]].
      + destruct HL as (m & Hm & Hin & Hle). left.
        assert (Hm' : In (Some m) (a :: v :: l)).
        { destruct Hin as [Hin|Hin]; [|right; right; auto]. destruct a as [a|], v as [v|]; cbn in Hin; try discriminate.
          - destruct (Qlt_bool v a); inversion Hin; [right; left; auto|left; auto].
          - left; auto.
          - right; left; auto. }
        split; [exists m; exact Hm'|]. exists m. split; [exact Hm|]. split; [exact Hm'|].
        intros b Hb. destruct Hb as [Hb|[Hb|Hb]]; [| |apply Hle; right; auto].
        * subst a. destruct v as [v|]; cbn [pd_min2] in *; [|apply Hle; left; auto].
          destruct (Qlt_bool v b) eqn:C.
          -- apply Qlt_bool_iff in C. assert (m <= v)%Q by (apply Hle; left; auto). lra.
          -- apply Hle; left; auto.
        * subst v. destruct a as [a|]; cbn [pd_min2] in *; [|apply Hle; left; auto].
          destruct (Qlt_bool b a) eqn:C; [apply Hle; left; auto|].
          assert (~ (b < a)%Q) by (intros K; apply Qlt_bool_iff in K; congruence).
          assert (m <= a)%Q by (apply Hle; left; auto). lra.
      + right. split; [|exact HE]. intros q [Hq|[Hq|Hq]].
        * subst a. destruct v as [v|]; cbn [pd_min2] in HN; eapply HN; left; reflexivity.
        * subst v. destruct a as [a|]; cbn [pd_min2] in HN; eapply HN; left; reflexivity.
        * apply (HN q). right; auto. }
  intros l. unfold pd_min. destruct (G l None) as [[(q & Hq) (m & Hm & Hin & Hle)]|[HN HE]].
  - destruct Hq as [Hq|Hq]; [discriminate|]. destruct Hin as [Hin|Hin]; [discriminate|].
    left. split; [eauto|]. exists m. split; [auto|]. split; [auto|]. intros b Hb. apply Hle. right; auto.
  - right. split; auto. intros q Hq. apply (HN q). right; auto.
Qed.
Lemma zmin_spec : forall l, l <> [] -> In (zmin l) l /\ forall i, In i l -> zmin l <= i.
Proof.
  intros [|a l] H; [congruence|]. unfold zmin. cbn [tl hd]. clear H. revert a.
  induction l as [|b l IH]; intros a; cbn [fold_left]; [split; [left; auto|intros i [<-|[]]; lia]|].
  destruct (IH (Z.min a b)) as [H1 H2]. split.
  - destruct H1 as [H1|H1]; [|right; right; auto]. rewrite <- H1. destruct (Z.min_spec a b) as [[_ ->]|[_ ->]]; [left|right; left]; auto.
  - intros i [<-|[<-|Hi]]; [specialize (H2 (Z.min a b) (or_introl eq_refl)); lia|specialize (H2 (Z.min a b) (or_introl eq_refl)); lia|apply H2; right; auto].
Qed.
Lemma zmax_spec : forall l i, In i l -> i <= zmax l.
Proof.
  intros [|a l] i H; [destruct H|]. unfold zmax. cbn [tl hd]. revert a i H.
  induction l as [|b l IH]; intros a i H; cbn [fold_left].
  - destruct H as [<-|[]]. lia.
  - destruct H as [<-|[<-|H]]; [|specialize (IH (Z.max a b) (Z.max a b) (or_introl eq_refl)); lia|apply IH; right; auto].
    specialize (IH (Z.max a b) (Z.max a b) (or_introl eq_refl)). lia.
Qed.
Lemma zmin_const : forall l c, l <> [] -> (forall i, In i l -> i = c) -> zmin l = c.
Proof. intros l c H K. apply K. apply zmin_spec. exact H. Qed.

Lemma nodup_map_on : forall A B (f : A -> B) l, (forall a b, In a l -> In b l -> f a = f b -> a = b) -> NoDup l -> NoDup (map f l).
Proof.
  intros A B f l H ND. induction ND as [|a l Ha ND IH]; [constructor|]. cbn [map]. constructor.
  - intros K. apply in_map_iff in K. destruct K as (b & E & Hb). apply Ha. rewrite (H a b); auto; [left; auto|right; auto].
  - apply IH. intros; apply H; auto; right; auto.
Qed.
(** The key is injective on the cells of the batch. *)
Lemma key_inj : forall M i j i' j', 0 <= i <= M -> 0 <= i' <= M -> j * (M + 1) + i = j' * (M + 1) + i' -> i = i' /\ j = j'.
Proof. intros M i j i' j' H H' E. assert (j = j') by nia. subst. lia. Qed.

Section Regroup.
Variable W : list weighted.
Hypothesis NN : forall w, In w W -> 0 <= sp_i (w_split w).
Let M := zmax (map (fun w => sp_i (w_split w)) W).
Let key w := sp_j (w_split w) * (M + 1) + sp_i (w_split w).
Lemma key_cell : forall w w', In w W -> In w' W -> (key w = key w' <-> cell_of w = cell_of w').
Proof.
  intros w w' H H'. unfold key, cell_of. split.
  - intros E. apply key_inj in E; [destruct E as [-> ->]; reflexivity| |].
    + split; [auto|]. apply zmax_spec. apply in_map_iff. exists w. auto.
    + split; [auto|]. apply zmax_spec. apply in_map_iff. exists w'. auto.
  - intros E. inversion E. congruence.
Qed.
Lemma group_cell : forall w, In w W -> filter (fun v => key v =? key w) W = in_cell W (cell_of w).
Proof.
  intros w H. unfold in_cell. apply filter_ext_in'. intros v Hv. cbn [cell_of fst snd].
  apply eq_true_iff_eq. rewrite Z.eqb_eq, andb_true_iff, !Z.eqb_eq. rewrite (key_cell v w Hv H). unfold cell_of. split; [intros E; inversion E; auto|intros [-> ->]; auto].
Qed.
Lemma merge_cell : forall w, In w W -> row_cell (merge_row (in_cell W (cell_of w))) = cell_of w.
Proof.
  intros w H. assert (N : in_cell W (cell_of w) <> []).
  { intros E. assert (In w (in_cell W (cell_of w))) as K; [|rewrite E in K; destruct K].
    apply filter_In. split; [auto|]. cbn [cell_of fst snd]. rewrite !Z.eqb_refl. reflexivity. }
  assert (A : forall v, In v (in_cell W (cell_of w)) -> sp_i (w_split v) = fst (cell_of w) /\ sp_j (w_split v) = snd (cell_of w)).
  { intros v Hv. apply filter_In in Hv. destruct Hv as [_ Hv]. apply andb_true_iff in Hv. rewrite !Z.eqb_eq in Hv. exact Hv. }
  unfold row_cell, merge_row. cbn [ce_xi ce_yi].
  rewrite (zmin_const _ (fst (cell_of w))); [rewrite (zmin_const _ (snd (cell_of w))); [reflexivity|..]|..].
  - destruct (in_cell W (cell_of w)); [congruence|discriminate].
  - intros i Hi. apply in_map_iff in Hi. destruct Hi as (v & <- & Hv). apply A. exact Hv.
  - destruct (in_cell W (cell_of w)); [congruence|discriminate].
  - intros i Hi. apply in_map_iff in Hi. destruct Hi as (v & <- & Hv). apply A. exact Hv.
Qed.
Lemma merge_merged : forall B r, B <> [] -> r = merge_row B -> in_cell W (row_cell r) = B -> merged W r.
Proof.
  intros B r N -> E. constructor; rewrite E; cbn [merge_row ce_power ce_frac ce_count ce_fcount ce_gcount ce_farea ce_garea ce_minarea ce_x ce_y ce_id].
  - exact N.
  - apply pd_sum_total.
  - apply pd_sum_total.
  - apply pd_sum_total.
  - apply pd_sum_total.
  - apply pd_sum_total.
  - apply pd_sum_total.
  - apply pd_sum_total.
  - apply pd_min_least.
  - apply pd_mean_average.
  - apply pd_mean_average.
  - apply zmin_spec. destruct B; [congruence|discriminate].
Qed.
Lemma regroup_eq : W <> [] -> regroup W = Ok (map (fun k => merge_row (filter (fun w => key w =? k) W)) (zunique (map key W))).
Proof. clear NN. unfold key, M, regroup. destruct W as [|w l]; [congruence|]. intros _. reflexivity. Qed.
Lemma rows_total : forall (f : weighted -> fval) (g : cellrow -> fval),
  (forall B, is_num (g (merge_row B)) (total (map f B))) -> forall R, regroup W = Ok R ->
  numbers (map g R) /\ (total (map g R) == total (map f W))%Q.
Proof.
  clear NN. intros f g Hg R E. assert (NE : W <> []) by (clear -E; destruct W; discriminate).
  rewrite regroup_eq in E by exact NE. injection E as <-.
  assert (P : Permutation (flat_map (fun k => filter (fun w => key w =? k) W) (zunique (map key W))) W).
  { eapply Permutation_trans; [apply (perm_by_key _ key); apply zunique_nodup|].
    rewrite filter_all; [apply Permutation_refl|]. intros x Hx. apply zmem_in. apply zunique_in. apply in_map. auto. }
  split.
  - intros v Hv. rewrite map_map in Hv. apply in_map_iff in Hv. destruct Hv as (k & <- & _).
    destruct (Hg (filter (fun w => key w =? k) W)) as (x & -> & _). discriminate.
  - rewrite <- (total_perm _ _ (Permutation_map f P)). generalize (zunique (map key W)). clear P. intros ks.
    induction ks as [|k ks IH]; [reflexivity|]. cbn [map flat_map]. rewrite map_app. unfold total in *. rewrite map_app, qsum_app. cbn [map].
    rewrite <- IH. cbn [qsum fold_right]. destruct (Hg (filter (fun w => key w =? k) W)) as (x & -> & Hx). cbn [num]. unfold total in Hx. rewrite <- Hx. reflexivity.
Qed.
End Regroup.
