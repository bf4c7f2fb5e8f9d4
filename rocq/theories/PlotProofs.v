(** Lemmas about the plots of gridded data. *)
From Coq Require Import List ZArith QArith Bool String Lia Lqa.
From Verif Require Import Base BaseProofs Glm Aggregate Plot PlotSpec.
Import ListNotations.
Open Scope Q_scope.

Lemma Qlt_bool_true : forall a b, Qlt_bool a b = true <-> a < b.
Proof.
  intros a b. unfold Qlt_bool. rewrite negb_true_iff. split; intros H.
  - destruct (Qlt_le_dec a b); auto. apply Qle_bool_iff in q. congruence.
  - destruct (Qle_bool b a) eqn:E; auto. apply Qle_bool_iff in E. lra.
Qed.
Lemma Qmaxb_ge : forall a b, a <= Qmaxb a b /\ b <= Qmaxb a b /\ (Qmaxb a b = a \/ Qmaxb a b = b).
Proof.
  intros a b. unfold Qmaxb. destruct (Qlt_bool a b) eqn:E.
  - apply Qlt_bool_true in E. repeat split; auto; lra.
  - repeat split; auto; try lra. destruct (Qlt_le_dec a b); auto. apply Qlt_bool_true in q. congruence.
Qed.
Lemma Qminb_le : forall a b, Qminb a b <= a /\ Qminb a b <= b /\ (Qminb a b = a \/ Qminb a b = b).
Proof.
  intros a b. unfold Qminb. destruct (Qlt_bool b a) eqn:E.
  - apply Qlt_bool_true in E. repeat split; auto; lra.
  - repeat split; auto; try lra. destruct (Qlt_le_dec b a); auto. apply Qlt_bool_true in q. congruence.
Qed.
Lemma fold_max : forall l q, (forall v, In v (q :: l) -> v <= fold_left Qmaxb l q) /\ In (fold_left Qmaxb l q) (q :: l).
Proof.
  induction l as [|a l IH]; intros q; cbn [fold_left].
  - split; [|cbn; auto]. intros v [<-|[]]. apply Qle_refl.
  - destruct (IH (Qmaxb q a)) as [A B]. destruct (Qmaxb_ge q a) as (h1 & h2 & h3). split.
    + intros v [<-|[<-|K]].
      * eapply Qle_trans; [exact h1|]. apply A. cbn; auto.
      * eapply Qle_trans; [exact h2|]. apply A. cbn; auto.
      * apply A. cbn; auto.
    + destruct B as [B|B]; [|cbn; auto]. rewrite <- B. destruct h3 as [-> | ->]; cbn; auto.
Qed.
Lemma fold_min : forall l q, (forall v, In v (q :: l) -> fold_left Qminb l q <= v) /\ In (fold_left Qminb l q) (q :: l).
Proof.
  induction l as [|a l IH]; intros q; cbn [fold_left].
  - split; [|cbn; auto]. intros v [<-|[]]. apply Qle_refl.
  - destruct (IH (Qminb q a)) as [A B]. destruct (Qminb_le q a) as (h1 & h2 & h3). split.
    + intros v [<-|[<-|K]].
      * eapply Qle_trans; [|exact h1]. apply A. cbn; auto.
      * eapply Qle_trans; [|exact h2]. apply A. cbn; auto.
      * apply A. cbn; auto.
    + destruct B as [B|B]; [|cbn; auto]. rewrite <- B. destruct h3 as [-> | ->]; cbn; auto.
Qed.
Lemma amax_spec : forall l m, amax l = Ok m -> (forall v, In v l -> v <= m) /\ In m l.
Proof. intros [|q l] m H; inversion H; subst. apply fold_max. Qed.
Lemma amin_spec : forall l m, amin l = Ok m -> (forall v, In v l -> m <= v) /\ In m l.
Proof. intros [|q l] m H; inversion H; subst. apply fold_min. Qed.
Lemma amax_some : forall l, l <> [] -> exists m, amax l = Ok m.
Proof. intros [|q l] H; [congruence|]. eexists; reflexivity. Qed.
Lemma amin_some : forall l, l <> [] -> exists m, amin l = Ok m.
Proof. intros [|q l] H; [congruence|]. eexists; reflexivity. Qed.

Lemma in_image : forall R C img v, In v (image_values R C img) <-> exists r c, (r < R)%nat /\ (c < C)%nat /\ v = img r c.
Proof.
  intros R C img v. unfold image_values. rewrite in_flat_map. split.
  - intros (r & Hr & H). apply in_map_iff in H. destruct H as (c & <- & Hc). apply in_seq in Hr. apply in_seq in Hc.
    exists r, c. repeat split; lia.
  - intros (r & c & Hr & Hc & ->). exists r. split; [apply in_seq; lia|]. apply in_map_iff. exists c. split; auto. apply in_seq; lia.
Qed.
Lemma image_some : forall R C img, (0 < R)%nat -> (0 < C)%nat -> image_values R C img <> [].
Proof.
  intros R C img HR HC E. assert (K : In (img 0%nat 0%nat) (image_values R C img)) by (apply in_image; eauto 6).
  rewrite E in K. destruct K.
Qed.

Lemma has_in : forall (g : series (nat * nat)) f, has g f = true <-> In f (s_vars g).
Proof.
  intros g f. unfold has. rewrite existsb_exists. split.
  - intros (x & Hx & E). apply String.eqb_eq in E. subst; auto.
  - intros H. exists f. split; auto. apply String.eqb_refl.
Qed.
Lemma filter_one : forall A (p : A -> bool) l a, filter p l = [a] ->
  exists pre post, l = (pre ++ a :: post)%list /\ p a = true /\ Forall (fun b => p b = false) (pre ++ post)%list.
Proof.
  induction l as [|b l IH]; intros a H; cbn in H; [discriminate|]. destruct (p b) eqn:E.
  - injection H as -> H. exists [], l. cbn. repeat split; auto. apply Forall_forall. intros c Hc.
    destruct (p c) eqn:F; auto. assert (K : In c (filter p l)) by (apply filter_In; auto). rewrite H in K. destruct K.
  - destruct (IH a H) as (pre & post & -> & K & L). exists (b :: pre), post. cbn. repeat split; auto.
Qed.
Lemma filter_none : forall A (p : A -> bool) l, Forall (fun b => p b = false) l -> filter p l = [].
Proof. induction 1 as [|b l E _ IH]; cbn; auto. rewrite E. exact IH. Qed.

Lemma select_stored : forall g f t fr, select_time (gr_series g) f t = Ok fr <->
  In f (s_vars (gr_series g)) /\ exists pre post, s_frames (gr_series g) = (pre ++ fr :: post)%list /\ fr_time fr = t /\
    Forall (fun fr' => fr_time fr' <> t) (pre ++ post)%list.
Proof.
  intros g f t fr. unfold select_time. split.
  - destruct (has (gr_series g) f) eqn:E; [|discriminate]. apply has_in in E. intros H. split; auto.
    destruct (filter _ _) as [|a [|b l]] eqn:F; try discriminate. injection H as ->.
    apply filter_one in F. destruct F as (pre & post & -> & Ht & K). exists pre, post. repeat split; auto.
    + apply Z.eqb_eq; auto.
    + eapply Forall_impl; [|exact K]. intros b Hb. apply Z.eqb_neq; auto.
  - intros (Hf & pre & post & E & Ht & K). apply has_in in Hf. rewrite Hf, E.
    apply Forall_app in K. destruct K as [K1 K2]. rewrite filter_app. cbn [filter].
    rewrite (filter_none _ _ pre), (filter_none _ _ post).
    + cbn. rewrite (proj2 (Z.eqb_eq _ _) Ht). reflexivity.
    + eapply Forall_impl; [|exact K2]. intros b Hb. apply Z.eqb_neq; auto.
    + eapply Forall_impl; [|exact K1]. intros b Hb. apply Z.eqb_neq; auto.
Qed.

Lemma evenly_scale : forall a d h l, evenly a d l -> evenly (a * h) (d * h) (map (fun v => v * h) l).
Proof.
  intros a d h l H i v E. rewrite nth_error_map in E. destruct (nth_error l i) as [w|] eqn:F; [|discriminate].
  injection E as <-. rewrite (H _ _ F). ring.
Qed.
Lemma nat_le_Q : forall i j, (i <= j)%nat -> inject_Z (Z.of_nat i) <= inject_Z (Z.of_nat j).
Proof. intros. rewrite <- Zle_Qle. lia. Qed.
(** Least and greatest of evenly spaced coordinates. *)
Lemma evenly_up : forall a d l m M, 0 <= d -> evenly a d l -> amin l = Ok m -> amax l = Ok M ->
  m == a /\ M == a + inject_Z (Z.of_nat (List.length l - 1)) * d.
Proof.
  intros a d l m M Hd Ev Hm HM. apply amin_spec in Hm. apply amax_spec in HM. destruct Hm as [m1 m2], HM as [M1 M2].
  assert (L : (0 < List.length l)%nat) by (destruct l; [destruct m2|cbn; lia]).
  assert (B : forall v, In v l -> a <= v /\ v <= a + inject_Z (Z.of_nat (List.length l - 1)) * d).
  { intros v Hv. apply In_nth_error in Hv. destruct Hv as [i Hi]. pose proof (Ev _ _ Hi) as E.
    assert (i < List.length l)%nat by (apply nth_error_Some; congruence).
    assert (K1 : 0 <= inject_Z (Z.of_nat i) * d) by (apply Qmult_le_0_compat; auto; apply (nat_le_Q 0 i); lia).
    assert (K2 : inject_Z (Z.of_nat i) * d <= inject_Z (Z.of_nat (List.length l - 1)) * d)
      by (apply Qmult_le_compat_r; auto; apply nat_le_Q; lia).
    split; rewrite E; lra. }
  destruct (nth_error l 0) as [v0|] eqn:E0; [|apply nth_error_None in E0; lia].
  destruct (nth_error l (List.length l - 1)) as [v1|] eqn:E1; [|apply nth_error_None in E1; lia].
  pose proof (Ev _ _ E0) as F0. pose proof (Ev _ _ E1) as F1. change (inject_Z (Z.of_nat 0)) with 0 in F0.
  assert (F0' : v0 == a) by (rewrite F0; ring).
  split; apply Qle_antisym.
  - rewrite <- F0'. apply m1. eapply nth_error_In; eauto.
  - apply B; auto.
  - apply B; auto.
  - rewrite <- F1. apply M1. eapply nth_error_In; eauto.
Qed.
Lemma evenly_down : forall a d l m M, 0 <= d -> evenly a (- d) l -> amin l = Ok m -> amax l = Ok M ->
  M == a /\ m == a - inject_Z (Z.of_nat (List.length l - 1)) * d.
Proof.
  intros a d l m M Hd Ev Hm HM. apply amin_spec in Hm. apply amax_spec in HM. destruct Hm as [m1 m2], HM as [M1 M2].
  assert (L : (0 < List.length l)%nat) by (destruct l; [destruct m2|cbn; lia]).
  assert (B : forall v, In v l -> v <= a /\ a - inject_Z (Z.of_nat (List.length l - 1)) * d <= v).
  { intros v Hv. apply In_nth_error in Hv. destruct Hv as [i Hi]. pose proof (Ev _ _ Hi) as E.
    assert (i < List.length l)%nat by (apply nth_error_Some; congruence).
    assert (K1 : 0 <= inject_Z (Z.of_nat i) * d) by (apply Qmult_le_0_compat; auto; apply (nat_le_Q 0 i); lia).
    assert (K2 : inject_Z (Z.of_nat i) * d <= inject_Z (Z.of_nat (List.length l - 1)) * d)
      by (apply Qmult_le_compat_r; auto; apply nat_le_Q; lia).
    assert (E' : v == a - inject_Z (Z.of_nat i) * d) by (rewrite E; ring).
    split; rewrite E'; lra. }
  destruct (nth_error l 0) as [v0|] eqn:E0; [|apply nth_error_None in E0; lia].
  destruct (nth_error l (List.length l - 1)) as [v1|] eqn:E1; [|apply nth_error_None in E1; lia].
  pose proof (Ev _ _ E0) as F0. pose proof (Ev _ _ E1) as F1. change (inject_Z (Z.of_nat 0)) with 0 in F0.
  assert (F0' : v0 == a) by (rewrite F0; ring).
  assert (F1' : v1 == a - inject_Z (Z.of_nat (List.length l - 1)) * d) by (rewrite F1; ring).
  split; apply Qle_antisym.
  - apply B; auto.
  - rewrite <- F0'. apply M1. eapply nth_error_In; eauto.
  - rewrite <- F1'. apply m1. eapply nth_error_In; eauto.
  - apply B; auto.
Qed.
