(** Errors of the coordinates of the pixels in binary64 (C104). *)
From Coq Require Import List ZArith Lia Bool QArith Qabs Qround Lqa Floats.SpecFloat.
From Verif Require Import Base BBox Imagery Output ImageryProofs OutputProofs FloatProofs Unsigned TilesBinary FloatExact PropTilesBinary PixelsBinary.
Import ListNotations.
Open Scope Z_scope.

(** * One axis *)
Section Axis.
Variables b0 d : f64.
Let D := vq d.
Hypothesis F0 : is_finite b0.
Hypothesis FD : is_finite d.
Hypothesis DB : ((1 # 131072) <= D <= 1)%Q.
Hypothesis B0 : (-3 <= vq b0 <= 3)%Q.
Lemma eps_cell : (0 <= eps <= (1 # 1073741824) * D)%Q.
Proof. rewrite eps_eq. lra. Qed.
Lemma arange_near : forall k, (inject_Z (Z.of_nat k) * D <= 4)%Q ->
  near (arange_at b0 d k) (vq b0 + inject_Z (Z.of_nat k) * D) ((977 # 1000000) * D).
Proof.
  intros k K. pose proof eps_cell as E. pose proof (near_exact d D FD (Qeq_refl _)) as ND. pose proof (near_exact b0 _ F0 (Qeq_refl _)) as NB.
  pose proof (near_add b0 d _ _ _ _ NB ND ltac:(fold D; lra)) as N1. assert (N1' := proj2 N1).
  destruct k as [|[|k0]].
  - cbn [arange_at]. apply (near_le _ (vq b0) _ 0); [exact NB|change (inject_Z (Z.of_nat 0)) with 0%Q; ring|lra].
  - cbn [arange_at]. eapply near_le; [exact N1|change (inject_Z (Z.of_nat 1)) with 1%Q; ring|lra].
  - set (k := S (S k0)) in *. change (arange_at b0 d k) with (fadd b0 (fmul (of_int (Z.of_nat k)) (fsub (fadd b0 d) b0))).
    pose proof (near_sub _ b0 _ _ _ _ N1 NB ltac:(lra)) as N2. destruct N2 as (F2 & N2). set (dl := fsub (fadd b0 d) b0) in *.
    assert (K0 : (0 <= inject_Z (Z.of_nat k))%Q) by (change 0%Q with (inject_Z 0); rewrite <- Zle_Qle; lia).
    set (q := inject_Z (Z.of_nat k)) in *.
    assert (KU : (q <= 524288)%Q) by nra.
    assert (KZ : Z.of_nat k <= 524288) by (rewrite Zle_Qle; exact KU).
    destruct (of_int_exact (Z.of_nat k) ltac:(lia)) as (FI & VI). fold (of_int (Z.of_nat k)) in FI, VI. fold q in VI.
    assert (P : (- ((1 # 1024) * D) <= vq (of_int (Z.of_nat k)) * vq dl - q * D <= (1 # 1024) * D)%Q).
    { rewrite VI. setoid_replace (q * vq dl - q * D)%Q with (q * (vq dl - D))%Q by ring.
      assert (ee : (524288 * (2 * eps) <= (1 # 1024) * D)%Q) by (rewrite eps_eq; lra).
      assert (X : (- (2 * eps) <= vq dl - D <= 2 * eps)%Q) by lra. set (t := (vq dl - D)%Q) in *. split; nra. }
    pose proof (near_mul _ dl _ _ FI F2 P) as N3.
    assert (KD : (0 <= q * D)%Q) by nra.
    specialize (N3 ltac:(lra)). assert (N3' := proj2 N3).
    pose proof (near_add b0 _ _ _ _ _ NB N3 ltac:(lra)) as N4. eapply near_le; [exact N4|reflexivity|lra].
Qed.

Lemma count_cells : forall b1 m, is_finite b1 -> (-3 <= vq b1 <= 3)%Q -> 0 <= m ->
  (- ((1 # 512) * D) <= vq b1 - vq b0 - inject_Z m * D <= (1 # 512) * D)%Q ->
  grid_cells (b0, b1) d = Some m \/ grid_cells (b0, b1) d = Some (m + 1).
Proof.
  intros b1 m F1 B1 M0 EM. pose proof eps_cell as E. pose proof (near_exact d D FD (Qeq_refl _)) as ND. pose proof (near_exact b0 _ F0 (Qeq_refl _)) as NB.
  pose proof (near_exact b1 _ F1 (Qeq_refl _)) as NB1.
  pose proof (near_add b1 d _ _ _ _ NB1 ND ltac:(fold D; lra)) as N1. assert (N1' := proj2 N1).
  pose proof (near_sub _ b0 _ _ _ _ N1 NB ltac:(lra)) as N2. assert (N2' := proj2 N2). set (w := fsub (fadd b1 d) b0) in *.
  assert (MQ : (0 <= inject_Z m)%Q) by (change 0%Q with (inject_Z 0); rewrite <- Zle_Qle; exact M0).
  assert (MD : (0 <= inject_Z m * D)%Q) by nra.
  assert (WL : ((1 # 2) <= vq w / D)%Q) by (apply Qle_shift_div_l; lra).
  pose proof (near_div w d _ _ N2 FD ltac:(fold D; lra) ltac:(lra) WL) as (FQ & QN). fold D in QN.
  unfold grid_cells. cbn [fst snd]. fold w. rewrite fceil_ceiling by exact FQ. set (q := vq (fdiv w d)) in *.
  assert (R : (inject_Z m + 1 - (1 # 512) <= (vq b1 + D - vq b0) / D <= inject_Z m + 1 + (1 # 512))%Q).
  { split; [apply Qle_shift_div_l|apply Qle_shift_div_r]; lra. }
  assert (S : ((0 + 0 + eps + 0 + eps) / D <= 1 # 1000)%Q) by (apply Qle_shift_div_r; lra).
  pose proof (Qle_ceiling q) as L. pose proof (Qceiling_lt q) as U.
  assert (A1 : m < Qceiling q) by (rewrite Zlt_Qlt; lra).
  assert (A2 : Qceiling q - 1 < m + 2) by (rewrite Zlt_Qlt, inject_Z_plus; change (inject_Z 2) with 2%Q; lra).
  assert (C : Qceiling q - 1 = m \/ Qceiling q - 1 = m + 1) by lia. destruct C as [C|C]; rewrite C; auto.
Qed.

Lemma edges_spec : forall b1 m, is_finite b1 -> (-3 <= vq b1 <= 3)%Q -> 0 <= m -> ((inject_Z m + 1) * D <= 4)%Q ->
  (- ((1 # 512) * D) <= vq b1 - vq b0 - inject_Z m * D <= (1 # 512) * D)%Q ->
  exists e, cell_edges (b0, b1) d = Some e /\ (Z.of_nat (List.length e) = m + 1 \/ Z.of_nat (List.length e) = m + 2) /\
  forall k x, nth_error e k = Some x -> near x (vq b0 + inject_Z (Z.of_nat k) * D) ((977 # 1000000) * D).
Proof.
  intros b1 m F1 B1 M0 MD EM.
  assert (G : exists c, grid_cells (b0, b1) d = Some c /\ (c = m \/ c = m + 1)).
  { destruct (count_cells b1 m F1 B1 M0 EM) as [C|C]; eauto. }
  destruct G as (c & GC & C). unfold cell_edges. rewrite GC. cbn [fst]. eexists. split; [reflexivity|].
  rewrite map_length, seq_length. split; [lia|]. intros k x H. rewrite nth_error_map in H.
  destruct (nth_error (seq 0 (Z.to_nat (c + 1))) k) as [k'|] eqn:S; [|discriminate]. injection H as <-.
  assert (KL : (k < Z.to_nat (c + 1))%nat) by (rewrite <- (seq_length (Z.to_nat (c + 1)) 0); apply nth_error_Some; congruence).
  assert (k' = k). { apply (nth_error_nth _ _ 0%nat) in S. rewrite seq_nth in S by exact KL. cbn in S. lia. } subst k'.
  apply arange_near. assert (KM : Z.of_nat k <= m + 1) by lia. rewrite Zle_Qle, inject_Z_plus in KM. change (inject_Z 1) with 1%Q in KM. nra.
Qed.
End Axis.

(** * Centres *)
Lemma centres_length : forall e, List.length (centres e) = (List.length e - 1)%nat.
Proof. induction e as [|a [|b t] IH]; [reflexivity|reflexivity|]. cbn [centres List.length] in *. rewrite IH. lia. Qed.
Lemma centres_nth : forall e k x, nth_error (centres e) k = Some x ->
  exists a b, nth_error e k = Some a /\ nth_error e (S k) = Some b /\ x = fdiv (fadd a b) two.
Proof.
  induction e as [|a [|b t] IH]; intros k x H; [destruct k; discriminate|destruct k; discriminate|].
  cbn [centres] in H. destruct k as [|k].
  - injection H as <-. exists a, b. auto.
  - cbn [nth_error] in *. destruct (IH k x H) as (u & v & U & V & E). exists u, v. auto.
Qed.
Lemma centre_near : forall a b v w e, near a v e -> near b w e -> (-3 <= v <= 3)%Q -> (-3 <= w <= 3)%Q -> (0 <= e <= 1 # 1000)%Q ->
  near (fdiv (fadd a b) two) ((v + w) * (1 # 2)) (e + 2 * eps).
Proof.
  intros a b v w e A B V W E. pose proof eps_small as EE. assert (A' := proj2 A). assert (B' := proj2 B).
  pose proof (near_add a b _ _ _ _ A B ltac:(lra)) as (FS & N). set (s := fadd a b) in *.
  assert (V2 : (vq two == 2)%Q) by reflexivity.
  assert (Q2 : (vq s / vq two == vq s * (1 # 2))%Q) by (rewrite V2; field).
  destruct (div_any s two FS I) as (FQ & Q).
  { rewrite V2. lra. }
  { rewrite Q2. assert (p2 3 <= p2 800)%Q by (apply p2_le; lia). assert (p2 3 == 8)%Q as E8 by reflexivity. rewrite E8 in *.
    assert (Qabs (vq s * (1 # 2)) <= 8)%Q by (apply Qabs_Qle_condition; lra). lra. }
  rewrite Q2 in Q. destruct (approx_near (SFdiv 53 1024 s two) (vq s * (1 # 2)) 8) as (_ & N').
  { split; [exact FQ|exact Q]. } { lra. } { lra. }
  split; [exact FQ|]. unfold fdiv. lra.
Qed.
