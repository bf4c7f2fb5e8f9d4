(** Lemmas about scenes and resolutions of written files. *)
From Coq Require Import List ZArith QArith Qabs Qround Bool Ascii String Lia Lqa.
From Verif Require Import Base BaseProofs Glm GlmProofs3 Lut FileName FileNameSpec FileNameProofs FileNameProofs2 Imagery ImagerySpec ImageryProofs PropImagery Output OutputSpec OutputProofs OutputProofs2.
Import ListNotations.
Open Scope Q_scope.

Lemma allclose_iff : forall a b, allclose a b = true <-> close a b.
Proof. intros a b. unfold allclose, close. rewrite Qle_bool_iff. split; intros H; lra. Qed.
Lemma allclose_false : forall a b, allclose a b = false -> ~ close a b.
Proof. intros a b H C. apply allclose_iff in C. congruence. Qed.
Lemma close_compat : forall a a' b, a == a' -> close a b -> close a' b.
Proof. intros a a' b E H. unfold close in *. setoid_replace (a' - b) with (a - b) by lra. exact H. Qed.
Lemma fold_max : forall l x, let m := fold_left (fun a b => if Qlt_bool a b then b else a) l x in (m = x \/ In m l) /\ x <= m /\ forall v, In v l -> v <= m.
Proof.
  induction l as [|a l IH]; intros x; cbn [fold_left]; [split; [auto|split; [lra|intros v []]]|].
  destruct (Qlt_bool x a) eqn:B.
  - apply Qlt_bool_iff in B. destruct (IH a) as (M1 & M2 & M3). split; [destruct M1 as [->|M1]; [right; left; auto|right; right; auto]|]. split; [lra|]. intros v [<-|Hv]; [exact M2|apply M3; auto].
  - apply Qlt_bool_false in B. destruct (IH x) as (M1 & M2 & M3). split; [destruct M1 as [->|M1]; [left; auto|right; right; auto]|]. split; [exact M2|]. intros v [<-|Hv]; [lra|apply M3; auto].
Qed.
Lemma fold_min : forall l x, let m := fold_left (fun a b => if Qlt_bool b a then b else a) l x in (m = x \/ In m l) /\ m <= x /\ forall v, In v l -> m <= v.
Proof.
  induction l as [|a l IH]; intros x; cbn [fold_left]; [split; [auto|split; [lra|intros v []]]|].
  destruct (Qlt_bool a x) eqn:B.
  - apply Qlt_bool_iff in B. destruct (IH a) as (M1 & M2 & M3). split; [destruct M1 as [->|M1]; [right; left; auto|right; right; auto]|]. split; [lra|]. intros v [<-|Hv]; [exact M2|apply M3; auto].
  - apply Qlt_bool_false in B. destruct (IH x) as (M1 & M2 & M3). split; [destruct M1 as [->|M1]; [left; auto|right; right; auto]|]. split; [exact M2|]. intros v [<-|Hv]; [lra|apply M3; auto].
Qed.
Lemma span_ext : forall l, l <> [] -> span l (qmax_list l - qmin_list l).
Proof.
  intros [|x l] H; [congruence|]. unfold qmax_list, qmin_list. destruct (fold_max l x) as (A1 & A2 & A3). destruct (fold_min l x) as (B1 & B2 & B3). set (mx := fold_left _ l x) in *. set (mn := fold_left (fun a b : Q => if Qlt_bool b a then b else a) l x) in *.
  exists mn, mx. split; [destruct B1 as [->|B1]; [left; auto|right; auto]|]. split; [destruct A1 as [->|A1]; [left; auto|right; auto]|]. split; [|reflexivity].
  intros v [<-|Hv]; [split; auto|split; [apply B3; auto|apply A3; auto]].
Qed.
Lemma span_unique : forall l w w', span l w -> span l w' -> w == w'.
Proof.
  intros l w w' (lo & hi & A1 & A2 & A3 & A4) (lo' & hi' & B1 & B2 & B3 & B4). pose proof (A3 _ B1). pose proof (A3 _ B2). pose proof (B3 _ A1). pose proof (B3 _ A2). lra.
Qed.
Lemma span_rev : forall l w, span (rev l) w -> span l w.
Proof. intros l w (lo & hi & A1 & A2 & A3 & A4). exists lo, hi. rewrite <- in_rev in A1, A2. split; [auto|]. split; [auto|]. split; [|exact A4]. intros v Hv. apply A3. rewrite <- in_rev. exact Hv. Qed.
Lemma fits_bool : forall x y ew ns p, span x ew -> span y ns -> (allclose ew (fst p) && allclose ns (snd p))%bool = true <-> fits x y p.
Proof.
  intros x y ew ns p SX SY. rewrite andb_true_iff, !allclose_iff. split.
  - intros [A B]. exists ew, ns. auto.
  - intros (ew' & ns' & SX' & SY' & A & B). split; [eapply close_compat; [|exact A]; eapply span_unique; eauto|eapply close_compat; [|exact B]; eapply span_unique; eauto].
Qed.
Lemma scene_spec : forall sc x y scene, infer_scene sc x (rev y) = Ok scene ->
  exists code name, scene_code scene = Ok code /\ scene_name scene = Ok name /\ scene_is sc x y (lit code) name.
Proof.
  intros sc x y scene H. unfold infer_scene in H. destruct x as [|x0 [|x1 x]]; try discriminate H. destruct (rev y) as [|y0 yr] eqn:EY; [discriminate H|]. rewrite <- EY in H.
  set (xx := x0 :: x1 :: x) in *. pose proof (span_ext xx ltac:(discriminate)) as SX. pose proof (span_rev y _ (span_ext (rev y) ltac:(rewrite EY; discriminate))) as SY.
  set (ew := qmax_list xx - qmin_list xx) in *. set (ns := qmax_list (rev y) - qmin_list (rev y)) in *.
  pose proof (fun p => fits_bool xx y ew ns p SX SY) as FB.
  destruct (allclose ew (fst (sc_full sc)) && allclose ns (snd (sc_full sc)))%bool eqn:B1.
  { inversion H. eexists. eexists. split; [reflexivity|]. split; [reflexivity|]. left. split; [apply FB; exact B1|]. auto. }
  assert (N1 : ~ fits xx y (sc_full sc)) by (rewrite <- FB; congruence).
  destruct (allclose ew (fst (sc_conus sc)) && allclose ns (snd (sc_conus sc)))%bool eqn:B2.
  { inversion H. eexists. eexists. split; [reflexivity|]. split; [reflexivity|]. right. split; [exact N1|]. left. split; [apply FB; exact B2|]. auto. }
  assert (N2 : ~ fits xx y (sc_conus sc)) by (rewrite <- FB; congruence).
  destruct (allclose ew (fst (sc_meso sc)) && allclose ns (snd (sc_meso sc)))%bool eqn:B3.
  { inversion H. eexists. eexists. split; [reflexivity|]. split; [reflexivity|]. right. split; [exact N1|]. right. split; [exact N2|]. left. split; [apply FB; exact B3|]. auto. }
  assert (N3 : ~ fits xx y (sc_meso sc)) by (rewrite <- FB; congruence).
  destruct (allclose ew (172732 # 1000000)) eqn:B4; inversion H; eexists; eexists; (split; [reflexivity|]); (split; [reflexivity|]); right; (split; [exact N1|]); right; (split; [exact N2|]); right; (split; [exact N3|]).
  - left. split; [|auto]. exists ew. split; [exact SX|]. apply allclose_iff. exact B4.
  - right. split; [|auto]. intros (w & SW & C). apply (allclose_false _ _ B4). eapply close_compat; [|exact C]. eapply span_unique; eauto.
Qed.

(** * Resolution *)
Lemma remove_no_dot : forall s, ~ In "."%char s -> remove_dot0 s = s.
Proof.
  induction s as [|c [|z r] IH]; intros H; [reflexivity|reflexivity|]. cbn [remove_dot0]. rewrite (aeqb_neq c) by (intros ->; apply H; left; auto). cbn [andb]. f_equal. apply IH. intros K. apply H. right. exact K.
Qed.
Lemma remove_dot0_spec : forall a b, ~ In "."%char (a ++ b) -> remove_dot0 (a ++ lit ".0" ++ b) = a ++ b.
Proof.
  induction a as [|c a IH]; intros b H.
  - cbn. apply remove_no_dot. exact H.
  - assert (C : c <> "."%char) by (intros ->; apply H; left; auto). specialize (IH b ltac:(intros K; apply H; right; exact K)).
    change ((c :: a) ++ lit ".0" ++ b)%list with (c :: (a ++ lit ".0" ++ b)). destruct (a ++ lit ".0" ++ b) as [|z r] eqn:E; [destruct a; discriminate E|].
    cbn [remove_dot0]. rewrite (aeqb_neq c) by exact C. cbn [andb]. cbn [remove_dot0] in IH. rewrite IH. reflexivity.
Qed.
Lemma dec_pad : forall fuel n, (0 <= n)%Z -> (n < 10 ^ Z.of_nat fuel)%Z -> (0 < fuel)%nat ->
  exists k, dec fuel n = pad k n /\ (0 <= n < 10 ^ Z.of_nat k)%Z /\ (k = 1%nat \/ (2 <= k)%nat /\ 10 ^ (Z.of_nat k - 1) <= n)%Z.
Proof.
  induction fuel as [|fuel IH]; intros n H0 H1 HF; [lia|]. cbn [dec]. destruct (Z.ltb_spec n 10) as [L|L].
  - exists 1%nat. cbn [pad]. rewrite Z.mod_small by lia. cbn. split; [reflexivity|]. split; [lia|auto].
  - assert (D : (0 <= n / 10)%Z) by (apply Z.div_pos; lia). assert (D1 : (1 <= n / 10)%Z) by (apply Z.div_le_lower_bound; lia).
    assert (P : (10 ^ Z.of_nat (S fuel) = 10 * 10 ^ Z.of_nat fuel)%Z) by (rewrite Nat2Z.inj_succ, Z.pow_succ_r by lia; reflexivity).
    assert (F1 : (0 < fuel)%nat) by (destruct fuel; [cbn in H1; lia|lia]).
    destruct (IH (n / 10)%Z D ltac:(apply Z.div_lt_upper_bound; lia) F1) as (k & E & R & C). exists (S k). cbn [pad]. rewrite E. split; [reflexivity|].
    assert (PK : (10 ^ Z.of_nat (S k) = 10 * 10 ^ Z.of_nat k)%Z) by (rewrite Nat2Z.inj_succ, Z.pow_succ_r by lia; reflexivity).
    pose proof (Z.div_mod n 10 ltac:(lia)) as DM. pose proof (Z.mod_pos_bound n 10 ltac:(lia)) as MB. split; [lia|]. right.
    destruct C as [->|[C2 C]]; [split; [lia|]; change (Z.of_nat 2 - 1)%Z with 1%Z; lia|]. split; [lia|].
    replace (Z.of_nat (S k) - 1)%Z with (Z.succ (Z.of_nat k - 1)) by lia. rewrite Z.pow_succ_r by lia. lia.
Qed.
Lemma int_text_spec : forall n, (0 <= n)%Z -> exists k, int_text n = decimal k n /\ (0 <= n < 10 ^ Z.of_nat k)%Z /\ (k = 1%nat \/ (2 <= k)%nat /\ 10 ^ (Z.of_nat k - 1) <= n)%Z.
Proof.
  intros n H. unfold int_text. assert (B : (n < 10 ^ Z.of_nat (S (Z.to_nat (Z.log2 n))))%Z).
  { pose proof (Z.log2_nonneg n). rewrite Nat2Z.inj_succ, Z2Nat.id by auto. destruct (Z.eq_dec n 0) as [->|N]; [cbn; lia|].
    apply Z.lt_le_trans with (2 ^ Z.succ (Z.log2 n))%Z; [apply Z.log2_spec; lia|]. apply Z.pow_le_mono_l. lia. }
  destruct (dec_pad _ n H B ltac:(lia)) as (k & E & R & C). exists k. rewrite decimal_pad. split; [exact E|]. split; [exact R|]. exact C.
Qed.
Lemma fold_last : forall (listed : list (string * Q)) dx acc,
  let g := fun acc kr => if allclose (snd kr) dx then remove_dot0 (lit (fst kr)) ++ lit " at nadir" else acc in
  (exists before name r after, listed = before ++ (name, r) :: after /\ close r dx /\ (forall n' r', In (n', r') after -> ~ close r' dx) /\ fold_left g listed acc = remove_dot0 (lit name) ++ lit " at nadir") \/
  ((forall n' r', In (n', r') listed -> ~ close r' dx) /\ fold_left g listed acc = acc).
Proof.
  intros listed dx acc g. induction listed as [|[n r] l IH] using rev_ind; [right; split; [intros n' r' []|reflexivity]|]. rewrite fold_left_app. cbn [fold_left]. unfold g at 1 3. cbn [fst snd].
  destruct (allclose r dx) eqn:B.
  - left. exists l, n, r, []. split; [reflexivity|]. split; [apply allclose_iff; exact B|]. split; [intros n' r' []|reflexivity].
  - apply allclose_false in B. destruct IH as [(bf & n0 & r0 & af & E & C & A & V)|[A V]].
    + left. exists bf, n0, r0, (af ++ [(n, r)]). split; [rewrite E, <- app_assoc; reflexivity|]. split; [exact C|]. split; [|exact V]. intros n' r' H. apply in_app_or in H. destruct H as [H|[H|[]]]; [apply (A n'); exact H|inversion H; subst; exact B].
    + right. split; [|exact V]. intros n' r' H. apply in_app_or in H. destruct H as [H|[H|[]]]; [apply (A n'); exact H|inversion H; subst; exact B].
Qed.
Lemma round_nonneg : forall q, 0 <= q -> (0 <= round_even q)%Z.
Proof. intros q H. rewrite <- (round_int 0). apply round_mono. exact H. Qed.
Lemma resolution_spec : forall listed x0 x1 x text, resolution listed (x0 :: x1 :: x) = Ok text -> resolution_is listed (Qabs (x1 - x0)) text.
Proof.
  intros listed x0 x1 x text H. unfold resolution in H. set (dx := Qabs (x1 - x0)) in *. inversion H as [E]. clear H.
  destruct (fold_last listed dx (int_text (round_even (dx * 1000000)) ++ lit "microradian at nadir")) as [(bf & n & r & af & EL & C & A & V)|[A V]].
  - left. exists bf, n, r, af, (remove_dot0 (lit n)). split; [exact EL|]. split; [exact C|]. split; [exact A|]. split; [exact V|]. split; [apply remove_no_dot|]. intros a b En Hd. rewrite En. apply remove_dot0_spec. exact Hd.
  - right. split; [exact A|]. destruct (int_text_spec (round_even (dx * 1000000))) as (k & Ek & R & C).
    { apply round_nonneg. apply Qmult_le_0_compat; [apply Qabs_nonneg|discriminate]. }
    exists k, (round_even (dx * 1000000)). rewrite <- Ek. split; [exact V|]. split; [exact R|]. split; [exact C|].
    destruct (round_near (dx * 1000000)) as [U L]. apply Qabs_Qle_condition. split; lra.
Qed.
