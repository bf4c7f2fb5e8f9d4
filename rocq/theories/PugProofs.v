(** Proofs about check_against_pug on evenly spaced coordinates. *)
From Coq Require Import List ZArith QArith Qabs Bool Lia Lqa.
From Verif Require Import Base Glm GlmProofs3 Lut FileName Imagery Output OutputSpec OutputProofs4 Pug.
Import ListNotations.
Open Scope Q_scope.

Lemma near_iff : forall a x d, near_to a x d = true <-> Qabs (x - d) <= a + (1 # 100000) * Qabs d.
Proof. intros. unfold near_to. apply Qle_bool_iff. Qed.
Lemma numbers_some : forall l, numbers (map Some l) = Some l.
Proof. induction l as [|q l IH]; [reflexivity|]. cbn. rewrite IH. reflexivity. Qed.
Lemma diffs_sum : forall l a, fold_right Qplus 0 (diffs (a :: l)) == last l a - a.
Proof.
  induction l as [|b l IH]; intros a; [cbn; ring|]. change (diffs (a :: b :: l)) with ((b - a) :: diffs (b :: l)). cbn [fold_right]. rewrite IH.
  assert (E : last (b :: l) a = last l b). { clear. revert b. induction l as [|c l IH]; intros b; [reflexivity|]. change (last (c :: l) a = last (c :: l) b). destruct l; [reflexivity|]. clear IH. revert c q. induction l as [|e l IH]; intros c q; [reflexivity|]. apply (IH q e). }
  rewrite E. ring.
Qed.
Lemma diffs_length : forall l, List.length (diffs l) = (List.length l - 1)%nat.
Proof. intros l. unfold diffs. rewrite map_length, combine_length. destruct l; cbn [tl List.length]; lia. Qed.
Lemma last_nth : forall (l : list Q) d, last l d = nth (List.length l - 1) l d.
Proof. induction l as [|a l IH]; intros d; [reflexivity|]. destruct l as [|b l]; [reflexivity|]. change (last (b :: l) d = nth (List.length (b :: l)) (a :: b :: l) d). rewrite IH. cbn [List.length nth]. rewrite Nat.sub_succ, Nat.sub_0_r. reflexivity. Qed.

Section Even.
Variables (qs : list Q) (n : nat) (a d : Q).
Hypothesis L : List.length qs = S (S n).
Hypothesis E : forall k, (k < S (S n))%nat -> nth k qs 0 == a + inject_Z (Z.of_nat k) * d.
Let w := inject_Z (Z.of_nat (S n)).
Lemma w_pos : 0 < w.
Proof using. clear. unfold w. change 0 with (inject_Z 0). rewrite <- Zlt_Qlt. lia. Qed.
Lemma mean_even : mean (diffs qs) == d.
Proof.
  unfold mean. rewrite diffs_length, L. destruct qs as [|x l] eqn:EQ; [discriminate|]. rewrite diffs_sum.
  assert (X : last l x = nth (S n) (x :: l) 0). { rewrite last_nth. pose proof L as L'. cbn [List.length] in L'. injection L' as L'. destruct l as [|y l]; [discriminate L'|]. rewrite L'. rewrite Nat.sub_succ, Nat.sub_0_r. change (nth (S n) (x :: y :: l) 0) with (nth n (y :: l) 0). apply nth_indep. rewrite L'. lia. }
  rewrite X. rewrite (E (S n)) by lia. assert (X0 : x == a) by (pose proof (E 0%nat ltac:(lia)) as K; cbn [nth] in K; rewrite K; change (inject_Z (Z.of_nat 0)) with 0; ring).
  rewrite X0. replace (S (S n) - 1)%nat with (S n) by lia. fold w. pose proof w_pos. field. lra.
Qed.
Lemma member : forall x, In x qs -> exists k, (k < S (S n))%nat /\ x == a + inject_Z (Z.of_nat k) * d.
Proof. intros x H. apply (In_nth _ _ 0) in H. destruct H as (k & K & <-). rewrite L in K. exists k. split; [exact K|apply E; exact K]. Qed.
Lemma extremes : exists lo hi, In lo qs /\ In hi qs /\ (forall x, In x qs -> lo <= x <= hi) /\ qmin_list qs = lo /\ qmax_list qs = hi.
Proof.
  destruct qs as [|x l] eqn:EQ; [discriminate|]. exists (qmin_list (x :: l)), (qmax_list (x :: l)). unfold qmax_list, qmin_list. destruct (fold_max l x) as (A1 & A2 & A3). destruct (fold_min l x) as (B1 & B2 & B3).
  split; [destruct B1 as [B1|B1]; [left; symmetry; exact B1|right; exact B1]|]. split; [destruct A1 as [A1|A1]; [left; symmetry; exact A1|right; exact A1]|].
  split; [intros y [<-|Hy]; split; auto|split; reflexivity].
Qed.
Lemma bounds : Qabs (qmax_list qs - qmin_list qs) == w * Qabs d /\ qmax_list qs + qmin_list qs == 2 * a + w * d /\ qmin_list qs <= qmax_list qs.
Proof.
  destruct extremes as (lo & hi & I1 & I2 & B & -> & ->).
  destruct (member _ I1) as (k1 & K1 & E1). destruct (member _ I2) as (k2 & K2 & E2).
  assert (F : In (nth 0 qs 0) qs) by (apply nth_In; rewrite L; lia). assert (G : In (nth (S n) qs 0) qs) by (apply nth_In; rewrite L; lia).
  pose proof (B _ F) as BF. pose proof (B _ G) as BG. rewrite (E 0%nat) in BF by lia. rewrite (E (S n)) in BG by lia. fold w in BG. change (inject_Z (Z.of_nat 0)) with 0 in BF.
  assert (R : forall k, (k < S (S n))%nat -> 0 <= inject_Z (Z.of_nat k) <= w).
  { intros k Hk. unfold w. change 0 with (inject_Z 0). rewrite <- !Zle_Qle. lia. }
  pose proof (R _ K1) as R1. pose proof (R _ K2) as R2. set (q1 := inject_Z (Z.of_nat k1)) in *. set (q2 := inject_Z (Z.of_nat k2)) in *. clearbody q1 q2 w.
  destruct (Qlt_le_dec d 0) as [N|P].
  - rewrite (Qabs_neg d) by lra. assert (hi == a) by nra. assert (lo == a + w * d) by nra. split; [|split; nra]. rewrite Qabs_pos; nra.
  - rewrite (Qabs_pos d) by lra. assert (lo == a) by nra. assert (hi == a + w * d) by nra. split; [|split; nra]. rewrite Qabs_pos; nra.
Qed.
Lemma axis_iff : forall z r sp c, axis_passes z r sp c (map Some qs) = true <->
  z = Z.of_nat (S (S n)) /\ Qabs (Qabs d - r) <= (1 # 100000) * Qabs r /\ Qabs ((w + 1) * Qabs d - sp) <= (1 # 100000) * Qabs sp /\
  Qabs (a + w / 2 * d - c) <= (1 # 100000000) + (1 # 100000) * Qabs c.
Proof.
  intros z r sp c. unfold axis_passes. rewrite map_length, L, numbers_some, andb_true_iff, Z.eqb_eq.
  assert (S : forall T (p : T) (q : T), match qs with _ :: _ :: _ => p | _ => q end = p) by (destruct qs as [|x [|y l]]; try discriminate L; reflexivity).
  rewrite S. clear S. rewrite !andb_true_iff, !near_iff. destruct bounds as (B1 & B2 & B3). pose proof mean_even as M. pose proof w_pos as W.
  assert (AD : Qabs (mean (diffs qs)) == Qabs d) by (rewrite M; reflexivity).
  assert (C1 : Qabs (Qabs (mean (diffs qs)) - r) == Qabs (Qabs d - r)) by (rewrite AD; reflexivity).
  assert (C2 : Qabs (Qabs (qmax_list qs - qmin_list qs) + Qabs (mean (diffs qs)) - sp) == Qabs ((w + 1) * Qabs d - sp)) by (apply Qabs_wd; rewrite AD, B1; ring).
  assert (D : Qabs (qmax_list qs - qmin_list qs) == qmax_list qs - qmin_list qs) by (apply Qabs_pos; lra).
  assert (C3 : Qabs (qmax_list qs - (Qabs (qmax_list qs - qmin_list qs) + Qabs (mean (diffs qs)) - Qabs (mean (diffs qs))) / 2 - c) == Qabs (a + w / 2 * d - c)).
  { apply Qabs_wd. rewrite D. setoid_replace (a + w / 2 * d) with ((2 * a + w * d) / 2) by field. rewrite <- B2. field. }
  assert (C4 : Qabs (qmin_list qs + (Qabs (qmax_list qs - qmin_list qs) + Qabs (mean (diffs qs)) - Qabs (mean (diffs qs))) / 2 - c) == Qabs (a + w / 2 * d - c)).
  { apply Qabs_wd. rewrite D. setoid_replace (a + w / 2 * d) with ((2 * a + w * d) / 2) by field. rewrite <- B2. field. }
  rewrite C1, C2, C3, C4, !Qplus_0_l. intuition auto.
Qed.
End Even.
