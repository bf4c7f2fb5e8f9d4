(** C94: tiles of a grid in binary arithmetic. *)
From Coq Require Import List ZArith Lia Bool QArith Qabs Qround Lqa Floats.SpecFloat.
From Verif Require Import Base Unsigned FloatProofs TilesBinary FloatExact.
Import ListNotations.
Open Scope Z_scope.

(** * Specification *)
(** Bounds in radians that are [N] cells apart, up to a thousandth of a cell. *)
Definition cells_apart (bnd : f64 * f64) (d : f64) (N : Z) : Prop :=
  is_finite (fst bnd) /\ is_finite (snd bnd) /\ is_finite d /\ ((1 # 1048576) <= vq d <= 1)%Q /\
  (-2 <= vq (fst bnd) <= 2)%Q /\ (-2 <= vq (snd bnd) <= 2)%Q /\
  (Qabs (vq (snd bnd) - vq (fst bnd) - inject_Z N * vq d) <= (1 # 1024) * vq d)%Q.
(** Cells of tile [i] of [s] when each has [dn] and the last one the rest of [N]. *)
Definition share (N dn : Z) (s i : nat) : Z := if Nat.ltb (S i) s then dn else N - (Z.of_nat s - 1) * dn.

(** * Proofs *)
Lemma eps_small : (0 <= eps <= 1 # 1000)%Q.
Proof. rewrite eps_eq. lra. Qed.
Section One.
Variables (b0 b1 d : f64) (N : Z) (s : nat).
Hypothesis H : cells_apart (b0, b1) d N.
Hypothesis HS : 1 <= Z.of_nat s < N.
Let D := vq d.
Lemma setup : (is_finite b0 /\ is_finite b1 /\ is_finite d) /\ ((1 # 1048576) <= D <= 1)%Q /\ (-2 <= vq b0 <= 2)%Q /\ (-2 <= vq b1 <= 2)%Q /\
  (- ((1 # 1024) * D) <= vq b1 - vq b0 - inject_Z N * D <= (1 # 1024) * D)%Q /\ N < 4200000 /\ (1 <= inject_Z N)%Q.
Proof.
  destruct H as (F0 & F1 & F2 & DB & B0 & B1 & E). cbn [fst snd] in *. fold D in DB, E. apply Qabs_Qle_condition in E. fold D in E.
  split; [auto|]. split; [exact DB|]. split; [exact B0|]. split; [exact B1|]. split; [exact E|].
  assert (N1 : (1 <= inject_Z N)%Q) by (change 1%Q with (inject_Z 1); rewrite <- Zle_Qle; lia).
  split; [|exact N1]. rewrite Zlt_Qlt. assert (inject_Z N * (1 # 1048576) <= inject_Z N * D)%Q by nra. change (inject_Z 4200000) with 4200000%Q. lra.
Qed.
Lemma eps_D : (eps / D <= 1 # 134217728)%Q.
Proof. destruct setup as (_ & DB & _). apply Qle_shift_div_r; [lra|]. rewrite eps_eq. lra. Qed.
Lemma eps_D' : (eps <= (1 # 134217728) * D)%Q.
Proof. destruct setup as (_ & DB & _). rewrite eps_eq. lra. Qed.

Lemma count_n : exists n, to_int (fdiv (fsub b1 b0) d) = Some n /\ (n = N \/ n = N - 1).
Proof.
  destruct setup as ((F0 & F1 & F2) & DB & B0 & B1 & E & NB & N1). pose proof eps_D' as ED. pose proof eps_D as ED2. pose proof eps_small as EE.
  pose proof (near_sub b1 b0 _ _ _ _ (near_exact b1 _ F1 (Qeq_refl _)) (near_exact b0 _ F0 (Qeq_refl _)) ltac:(lra)) as W.
  assert (W1 := W). destruct W1 as (FW & WN).
  assert (ND : (D <= inject_Z N * D)%Q) by nra.
  assert (WL : ((1 # 2) <= vq (fsub b1 b0) / D)%Q) by (apply Qle_shift_div_l; lra).
  pose proof (near_div _ d _ _ W F2 ltac:(fold D; lra) ltac:(lra) WL) as (FQ & QN). fold D in QN.
  set (q := vq (fdiv (fsub b1 b0) d)) in *.
  assert (R : (inject_Z N - (1 # 1024) <= (vq b1 - vq b0) / D <= inject_Z N + (1 # 1024))%Q).
  { split; [apply Qle_shift_div_l|apply Qle_shift_div_r]; lra. }
  assert (Z0 : ((0 + 0 + eps) / D == eps / D)%Q) by (unfold Qdiv; ring). rewrite Z0 in QN.
  exists (Qfloor q). split.
  - apply to_int_floor; [exact FQ|]. fold q. lra.
  - pose proof (Qfloor_le q) as L. pose proof (Qlt_floor q) as U.
    assert (A1 : N - 2 < Qfloor q).
    { rewrite Zlt_Qlt. unfold Z.sub. rewrite inject_Z_plus in *. change (inject_Z (-(2))) with (-2)%Q. change (inject_Z 1) with 1%Q in U. lra. }
    assert (A2 : Qfloor q < N + 1) by (rewrite Zlt_Qlt, inject_Z_plus; change (inject_Z 1) with 1%Q; lra). lia.
Qed.

Lemma pad_ok : exists np, pad_cells d = Some np /\ 0 <= np /\ (0 <= inject_Z np * D <= 3 # 1000)%Q /\ near (fmul (of_int np) d) (inject_Z np * D) eps.
Proof.
  destruct setup as ((F0 & F1 & F2) & DB & B0 & B1 & E & NB & N1).
  assert (PA : is_finite pad_angle /\ ((27 # 10000) <= vq pad_angle <= 29 # 10000)%Q).
  { split; [exact I|]. split; vm_compute; discriminate. }
  destruct PA as (FP & PB). set (p := vq pad_angle) in *.
  assert (QB : ((27 # 10000) <= p / D <= 4000)%Q).
  { split; [apply Qle_shift_div_l|apply Qle_shift_div_r]; lra. }
  destruct (div_approx pad_angle d FP F2) as (FR & A); [fold D; lra| |].
  { fold p D. rewrite Qabs_pos by lra. assert (p2 (-900) <= p2 (-10))%Q by (apply p2_le; lia). assert (p2 25 <= p2 800)%Q by (apply p2_le; lia).
    change (p2 (-10)) with (1 # 1024)%Q in *. assert (p2 25 == 33554432)%Q as E25 by reflexivity. rewrite E25 in *. split; lra. }
  fold p D in A. rewrite (Qabs_pos (p / D)) in A by lra. apply Qabs_Qle_condition in A.
  set (r := vq (SFdiv 53 1024 pad_angle d)) in *.
  assert (S : (0 <= p2 (-51) * (p / D) + p2 (-1073) <= 1 # 1000000000)%Q).
  { assert (p2 (-1073) <= p2 (-51))%Q by (apply p2_le; lia). pose proof (p2_pos (-1073)). assert (p2 (-51) == 1 # 2251799813685248)%Q as E51 by reflexivity. rewrite E51 in *. split; lra. }
  assert (RB : (0 <= r)%Q) by lra.
  assert (R0 : (0 <= Qfloor r)).
  { change 0 with (Qfloor 0). apply Qfloor_resp_le. exact RB. }
  pose proof (Qfloor_le r) as RF.
  assert (R1 : (0 <= inject_Z (Qfloor r))%Q) by (change 0%Q with (inject_Z 0); rewrite <- Zle_Qle; exact R0).
  assert (RU : Qfloor r < 5000) by (rewrite Zlt_Qlt; change (inject_Z 5000) with 5000%Q; lra).
  assert (PD : (0 <= inject_Z (Qfloor r) * D <= 3 # 1000)%Q).
  { split; [nra|]. assert (inject_Z (Qfloor r) * D <= r * D)%Q by nra.
    assert (r * D <= (p / D + (1 # 1000000000)) * D)%Q by nra.
    setoid_replace ((p / D + (1 # 1000000000)) * D)%Q with (p + (1 # 1000000000) * D)%Q in H1 by (field; lra). lra. }
  exists (Qfloor r). split; [unfold pad_cells; apply to_int_floor; assumption|]. split; [exact R0|]. split; [exact PD|].
  destruct (of_int_exact (Qfloor r) ltac:(lia)) as (FI & VI). fold (of_int (Qfloor r)) in FI, VI.
  apply (near_le _ (inject_Z (Qfloor r) * D) _ (0 + eps)); [|reflexivity|lra].
  apply near_mul; [exact FI|exact F2| |]; fold D; rewrite VI; lra.
Qed.

Variable dn : Z.
Hypothesis HD : 1 <= dn /\ Z.of_nat s * dn <= N.
Lemma steps_bound : forall k, 0 <= k <= Z.of_nat s -> (0 <= inject_Z k * D * inject_Z dn <= inject_Z N * D)%Q /\ (inject_Z k * D <= inject_Z N * D)%Q.
Proof.
  intros k K. destruct setup as (_ & DB & _). assert (A : k * dn <= N) by nia. assert (B : 0 <= k * dn) by nia. assert (C : k <= N) by nia.
  rewrite Zle_Qle in A, B, C. rewrite inject_Z_mult in A, B. change (inject_Z 0) with 0%Q in B. repeat split; nra.
Qed.
Lemma edge_near : forall k, (k < s)%nat -> near (edge_at b0 d dn k) (vq b0 + inject_Z (Z.of_nat k) * D * inject_Z dn) (3 * eps).
Proof.
  intros k K. destruct setup as ((F0 & F1 & F2) & DB & B0 & B1 & E & NB & N1). pose proof eps_small as EE.
  destruct (steps_bound (Z.of_nat k) ltac:(lia)) as (S1 & S2).
  assert (ND : (inject_Z N * D <= 41 # 10)%Q) by lra.
  assert (K0 : (0 <= inject_Z (Z.of_nat k))%Q) by (change 0%Q with (inject_Z 0); rewrite <- Zle_Qle; lia).
  assert (KD : (0 <= inject_Z (Z.of_nat k) * D)%Q) by nra.
  destruct (of_int_exact (Z.of_nat k) ltac:(lia)) as (FK & VK). fold (of_int (Z.of_nat k)) in FK, VK.
  destruct (of_int_exact dn ltac:(nia)) as (FN & VN). fold (of_int dn) in FN, VN.
  assert (DN : (1 <= inject_Z dn <= 4200000)%Q).
  { change 1%Q with (inject_Z 1). change 4200000%Q with (inject_Z 4200000). rewrite <- !Zle_Qle. nia. }
  destruct (mul_approx (of_int (Z.of_nat k)) d FK F2) as (FP & A).
  { fold D. rewrite VK. apply big800. lra. }
  fold D in A. rewrite VK in A. rewrite (Qabs_pos _ KD) in A. apply Qabs_Qle_condition in A. fold (fmul (of_int (Z.of_nat k)) d) in FP, A.
  set (p := fmul (of_int (Z.of_nat k)) d) in *. set (kd := (inject_Z (Z.of_nat k) * D)%Q) in *. set (m := inject_Z dn) in *.
  assert (T : (p2 (-1073) <= p2 (-80))%Q) by (apply p2_le; lia).
  assert (E51 : (p2 (-51) == 1 # 2251799813685248)%Q) by reflexivity. assert (E80 : (p2 (-80) == 1 # 1208925819614629174706176)%Q) by reflexivity.
  pose proof (p2_pos (-1073)) as PT. rewrite E51 in A. rewrite E80 in T. set (t := p2 (-1073)) in *.
  assert (PM : (- eps <= vq p * m - kd * m <= eps)%Q).
  { rewrite eps_eq. assert (G : ((1 # 2251799813685248) * (kd * m) + t * m <= 1 # 140737488355328)%Q).
    { assert (t * m <= (1 # 1208925819614629174706176) * m)%Q by nra. lra. }
    assert (X1 : ((vq p - kd) * m <= ((1 # 2251799813685248) * kd + t) * m)%Q) by (apply Qmult_le_compat_r; lra).
    assert (X2 : (- ((1 # 2251799813685248) * kd + t) * m <= (vq p - kd) * m)%Q) by (apply Qmult_le_compat_r; lra). lra. }
  assert (M : near (fmul p (of_int dn)) (kd * m) (2 * eps)).
  { apply (near_le _ (kd * m) _ (eps + eps)); [|reflexivity|lra]. apply near_mul; [exact FP|exact FN| |]; rewrite VN; fold m; lra. }
  unfold edge_at. fold p. apply (near_le _ (kd * m + vq b0) _ (2 * eps + 0 + eps)); [|ring|lra].
  apply near_add; [exact M|apply near_exact; [exact F0|reflexivity]|]. destruct M as (_ & MN). lra.
Qed.

Variable np : Z.
Hypothesis HP : 0 <= np /\ (0 <= inject_Z np * D <= 3 # 1000)%Q /\ near (fmul (of_int np) d) (inject_Z np * D) eps.
Lemma tile_count : forall x y ex ey m, near x ex (3 * eps) -> near y ey (3 * eps) -> (-2 <= ex <= 23 # 10)%Q -> (-2 <= ey <= 23 # 10)%Q ->
  0 <= m -> (- ((1 # 1024) * D) <= ey - ex - inject_Z m * D <= (1 # 1024) * D)%Q ->
  grid_cells (fsub x (fmul (of_int np) d), fadd y (fmul (of_int np) d)) d = Some (m + 2 * np) \/
  grid_cells (fsub x (fmul (of_int np) d), fadd y (fmul (of_int np) d)) d = Some (m + 2 * np + 1).
Proof.
  intros x y ex ey m NX NY BX BY M0 EM. destruct setup as ((F0 & F1 & F2) & DB & B0 & B1 & E & NB & N1). pose proof eps_small as EE. pose proof eps_D' as ED. pose proof eps_D as ED2.
  destruct HP as (P0 & PD & PN). set (pad := fmul (of_int np) d) in *. set (pd := (inject_Z np * D)%Q) in *.
  assert (M1 : (0 <= inject_Z m * D)%Q).
  { assert (0 <= inject_Z m)%Q by (change 0%Q with (inject_Z 0); rewrite <- Zle_Qle; exact M0). nra. }
  assert (NX1 := proj2 NX). assert (NY1 := proj2 NY). assert (PN1 := proj2 PN).
  pose proof (near_sub x pad _ _ _ _ NX PN ltac:(lra)) as NA. assert (NA1 := proj2 NA).
  pose proof (near_add y pad _ _ _ _ NY PN ltac:(lra)) as NBB. assert (NB1 := proj2 NBB).
  pose proof (near_add _ d _ _ _ _ NBB (near_exact d _ F2 (Qeq_refl _)) ltac:(fold D; lra)) as NC. assert (NC1 := proj2 NC). fold D in NC, NC1.
  pose proof (near_sub _ _ _ _ _ _ NC NA ltac:(lra)) as NW. assert (NW1 := proj2 NW).
  set (w := fsub (fadd (fadd y pad) d) (fsub x pad)) in *.
  assert (WL : ((1 # 2) <= vq w / D)%Q) by (apply Qle_shift_div_l; lra).
  pose proof (near_div w d _ _ NW F2 ltac:(fold D; lra) ltac:(lra) WL) as (FQ & QN). fold D in QN.
  unfold grid_cells. cbn [fst snd]. fold w. rewrite fceil_ceiling by exact FQ. set (q := vq (fdiv w d)) in *.
  set (g := (ey + pd + D - (ex - pd))%Q) in *.
  set (h := (inject_Z m + 2 * inject_Z np + 1)%Q).
  assert (R : (h - (1 # 1024) <= g / D <= h + (1 # 1024))%Q).
  { assert (X : (h * D == inject_Z m * D + 2 * pd + D)%Q) by (unfold h, pd; ring).
    split; [apply Qle_shift_div_l|apply Qle_shift_div_r]; try lra; unfold g.
    - setoid_replace ((h - (1 # 1024)) * D)%Q with (h * D - (1 # 1024) * D)%Q by ring. rewrite X. lra.
    - setoid_replace ((h + (1 # 1024)) * D)%Q with (h * D + (1 # 1024) * D)%Q by ring. rewrite X. lra. }
  assert (S : ((3 * eps + eps + eps + 0 + eps + (3 * eps + eps + eps) + eps) / D <= 12 # 134217728)%Q).
  { setoid_replace ((3 * eps + eps + eps + 0 + eps + (3 * eps + eps + eps) + eps) / D)%Q with (12 * (eps / D))%Q by (field; lra). lra. }
  assert (HZ : (h == inject_Z (m + 2 * np + 1))%Q) by (unfold h; rewrite !inject_Z_plus, inject_Z_mult; reflexivity).
  pose proof (Qle_ceiling q) as L. pose proof (Qceiling_lt q) as U.
  assert (A1 : m + 2 * np < Qceiling q).
  { rewrite Zlt_Qlt. rewrite !inject_Z_plus, inject_Z_mult in *. change (inject_Z 2) with 2%Q in *. unfold h in *. lra. }
  assert (A2 : Qceiling q - 1 < m + 2 * np + 2).
  { rewrite Zlt_Qlt. replace (m + 2 * np + 2) with (m + 2 * np + 1 + 1) by ring. rewrite inject_Z_plus, <- HZ. change (inject_Z 1) with 1%Q. lra. }
  assert (C : Qceiling q - 1 = m + 2 * np \/ Qceiling q - 1 = m + 2 * np + 1) by lia.
  destruct C as [C|C]; rewrite C; auto.
Qed.
End One.

(** * Theorems *)
(** Any bounds that are a whole number of cells apart: the tiles have their share of the
    cells, or one more. *)
Theorem C94_any_bounds_partial : forall bnd d N s, cells_apart bnd d N -> 1 <= Z.of_nat s < N ->
  exists edges dn, subdivide bnd d s = Some edges /\ List.length edges = S s /\ nth s edges S754_nan = snd bnd /\
  (dn = N / Z.of_nat s \/ dn = (N - 1) / Z.of_nat s) /\
  (forall k, (k < s)%nat -> is_finite (nth k edges S754_nan) /\
     (Qabs (vq (nth k edges S754_nan) - (vq (fst bnd) + inject_Z (Z.of_nat k * dn) * vq d)) <= (1 # 1000000) * vq d)%Q) /\
  forall i, (i < s)%nat -> tile_cells bnd d s i = Some (share N dn s i) \/ tile_cells bnd d s i = Some (share N dn s i + 1).
Proof.
  intros [b0 b1] d N s H HS. cbn [fst snd]. destruct (setup b0 b1 d N s H HS) as ((F0 & F1 & F2) & DB & B0 & B1 & E & NB & N1).
  destruct (count_n b0 b1 d N s H HS) as (n & EN & CN). destruct (pad_ok b0 b1 d N s H HS) as (np & EP & HP).
  pose proof (eps_D' b0 b1 d N s H HS) as ED. pose proof eps_small as EE.
  set (S0 := Z.of_nat s) in *. set (dn := n / S0).
  assert (S20 : S0 <= 4200000) by lia.
  assert (QU : to_int (fdiv (of_int n) (of_int S0)) = Some dn).
  { apply int_quotient; lia. }
  assert (HD : 1 <= dn /\ S0 * dn <= N).
  { unfold dn. split; [apply Z.div_le_lower_bound; lia|]. pose proof (Z.mul_div_le n S0 ltac:(lia)). lia. }
  assert (SU : subdivide (b0, b1) d s = Some (map (edge_at b0 d dn) (seq 0 s) ++ [b1])).
  { unfold subdivide. cbn [fst snd]. rewrite EN. fold S0. rewrite QU. reflexivity. }
  set (edges := map (edge_at b0 d dn) (seq 0 s) ++ [b1]) in *. exists edges, dn.
  assert (LE : List.length edges = S s) by (unfold edges; rewrite app_length, map_length, seq_length; cbn; lia).
  assert (LN : nth s edges S754_nan = b1).
  { unfold edges. rewrite app_nth2 by (rewrite map_length, seq_length; lia). rewrite map_length, seq_length, Nat.sub_diag. reflexivity. }
  assert (LK : forall k, (k < s)%nat -> nth k edges S754_nan = edge_at b0 d dn k).
  { intros k K. unfold edges. rewrite app_nth1 by (rewrite map_length, seq_length; lia).
    rewrite (nth_indep _ S754_nan (edge_at b0 d dn 0)) by (rewrite map_length, seq_length; lia).
    rewrite map_nth, seq_nth by lia. reflexivity. }
  assert (NE := fun k K => edge_near b0 b1 d N s H HS dn HD k K).
  split; [exact SU|]. split; [exact LE|]. split; [exact LN|]. split; [unfold dn; destruct CN as [-> | ->]; auto|]. split.
  - intros k K. rewrite (LK k K). destruct (NE k K) as (FE & BE). split; [exact FE|].
    setoid_replace (vq b0 + inject_Z (Z.of_nat k * dn) * vq d)%Q with (vq b0 + inject_Z (Z.of_nat k) * vq d * inject_Z dn)%Q by (rewrite inject_Z_mult; ring).
    apply Qabs_Qle_condition. lra.
  - intros i I. unfold tile_cells. rewrite SU, EP. unfold tile_bounds.
    assert (POS : forall k, (k < s)%nat -> (-2 <= vq b0 + inject_Z (Z.of_nat k) * vq d * inject_Z dn <= 23 # 10)%Q).
    { intros k K. destruct (steps_bound b0 b1 d N s H HS dn HD (Z.of_nat k) ltac:(fold S0; lia)) as (A & _). lra. }
    assert (ST : grid_cells (fsub (nth i edges S754_nan) (fmul (of_int np) d), fadd (nth (S i) edges S754_nan) (fmul (of_int np) d)) d = Some (share N dn s i + 2 * np) \/
                 grid_cells (fsub (nth i edges S754_nan) (fmul (of_int np) d), fadd (nth (S i) edges S754_nan) (fmul (of_int np) d)) d = Some (share N dn s i + 2 * np + 1)).
    { unfold share. destruct (Nat.ltb_spec (S i) s) as [L|G].
      - rewrite (LK i I), (LK (S i) L). apply (tile_count b0 b1 d N s H HS np HP _ _ _ _ dn (NE i I) (NE (S i) L) (POS i I) (POS (S i) L)); [lia|].
        setoid_replace (vq b0 + inject_Z (Z.of_nat (S i)) * vq d * inject_Z dn - (vq b0 + inject_Z (Z.of_nat i) * vq d * inject_Z dn) - inject_Z dn * vq d)%Q with 0%Q.
        + lra.
        + replace (Z.of_nat (S i)) with (Z.of_nat i + 1) by lia. rewrite inject_Z_plus. change (inject_Z 1) with 1%Q. ring.
      - assert (i = (s - 1)%nat) by lia. assert (SI : S i = s) by lia. rewrite (LK i I), SI, LN.
        assert (NL : near b1 (vq b1) (3 * eps)) by (apply (near_le _ (vq b1) _ 0); [apply near_exact; [exact F1|reflexivity]|reflexivity|lra]).
        assert (IS : Z.of_nat i = S0 - 1) by lia. fold S0. rewrite <- IS.
        apply (tile_count b0 b1 d N s H HS np HP _ _ _ _ (N - Z.of_nat i * dn) (NE i I) NL (POS i I)); [lra|nia|].
        setoid_replace (vq b1 - (vq b0 + inject_Z (Z.of_nat i) * vq d * inject_Z dn) - inject_Z (N - Z.of_nat i * dn) * vq d)%Q
          with (vq b1 - vq b0 - inject_Z N * vq d)%Q.
        + exact E.
        + unfold Z.sub. rewrite inject_Z_plus, inject_Z_opp, inject_Z_mult. ring. }
    assert (SH : 0 <= share N dn s i).
    { unfold share. destruct (Nat.ltb (S i) s); nia. }
    destruct ST as [ST|ST]; rewrite ST.
    + left. f_equal. lia.
    + right. f_equal. lia.
Qed.

(** A grid of [n] cells of size [d] about the centre [ctr]. *)
Definition sane_grid (n : Z) (d ctr : f64) : Prop :=
  is_finite d /\ is_finite ctr /\ ((1 # 1048576) <= vq d <= 1)%Q /\ (-(1 # 2) <= vq ctr <= 1 # 2)%Q /\ (inject_Z n * vq d <= 2)%Q.

Lemma bound_near : forall n k d ctr, sane_grid n d ctr -> 1 <= n -> 0 <= k <= n ->
  near (bound_at n k d ctr) (vq ctr + (inject_Z k - inject_Z n / 2) * vq d) ((1 # 10000000) * vq d).
Proof.
  intros n k d ctr (FD & FC & DB & CB & NB) N K. set (D := vq d) in *. set (c := vq ctr) in *.
  assert (N1 : (1 <= inject_Z n)%Q) by (change 1%Q with (inject_Z 1); rewrite <- Zle_Qle; lia).
  assert (NU : (inject_Z n <= 2097152)%Q) by nra.
  assert (NZ : n <= 2097152) by (rewrite Zle_Qle; exact NU).
  assert (ED : (eps <= (1 # 134217728) * D)%Q) by (rewrite eps_eq; lra). pose proof eps_small as EE.
  destruct (of_int_exact (n + 1) ltac:(lia)) as (FN & VN). fold (of_int (n + 1)) in FN, VN.
  assert (F2 : is_finite two /\ (vq two == 2)%Q) by (split; [exact I|reflexivity]). destruct F2 as (F2 & V2).
  destruct (of_int_exact k ltac:(lia)) as (FK & VK). fold (of_int k) in FK, VK.
  set (h := (inject_Z (n + 1) / 2)%Q).
  assert (HE : (h == inject_Z n * (1 # 2) + (1 # 2))%Q) by (unfold h; rewrite inject_Z_plus; change (inject_Z 1) with 1%Q; field).
  assert (T : (p2 (-1073) <= p2 (-51))%Q) by (apply p2_le; lia).
  assert (E51 : (p2 (-51) == 1 # 2251799813685248)%Q) by reflexivity.
  assert (B25 : (p2 25 <= p2 800)%Q) by (apply p2_le; lia). assert (E25 : (p2 25 == 33554432)%Q) by reflexivity. rewrite E25 in B25.
  assert (B900 : (p2 (-900) <= p2 (-1))%Q) by (apply p2_le; lia). change (p2 (-1)) with (1 # 2)%Q in B900.
  (* (n+1)/2.0 *)
  assert (N2 : (- (1 # 1073741824) <= vq (fdiv (of_int (n + 1)) two) - h <= 1 # 1073741824)%Q /\ is_finite (fdiv (of_int (n + 1)) two)).
  { destruct (div_approx (of_int (n + 1)) two FN F2) as (FR & A); [rewrite V2; lra| |].
    - rewrite VN, V2. fold h. rewrite Qabs_pos by lra. rewrite HE. split; lra.
    - rewrite VN, V2 in A. fold h in A. rewrite (Qabs_pos h) in A by lra. apply Qabs_Qle_condition in A. rewrite E51 in *.
      split; [|exact FR]. unfold fdiv. rewrite HE in *. lra. }
  destruct N2 as (N2 & FH). set (hh := fdiv (of_int (n + 1)) two) in *.
  assert (KQ : (0 <= inject_Z k <= inject_Z n)%Q).
  { split; [change 0%Q with (inject_Z 0)|]; rewrite <- Zle_Qle; lia. }
  (* the difference *)
  assert (N3 : (- (1 # 268435456) <= vq (fsub (of_int k) hh) - (inject_Z k - h) <= 1 # 268435456)%Q /\ is_finite (fsub (of_int k) hh)).
  { assert (AB : (Qabs (vq (of_int k) - vq hh) <= 4194304)%Q).
    { apply Qabs_Qle_condition. rewrite VK. rewrite HE in *. lra. }
    destruct (sub_approx (of_int k) hh FK FH) as (FR & A); [lra|].
    apply Qabs_Qle_condition in A. rewrite E51 in *. split; [|exact FR]. unfold fsub.
    assert (DV : (vq (of_int k) - vq hh == inject_Z k - vq hh)%Q) by (rewrite VK; reflexivity).
    set (dv := (vq (of_int k) - vq hh)%Q) in *. set (ad := Qabs dv) in *. lra. }
  destruct N3 as (N3 & FS). set (df := fsub (of_int k) hh) in *.
  (* times d *)
  assert (KD : (- (21 # 10) <= (inject_Z k - h) * D <= 21 # 10)%Q).
  { assert (0 <= inject_Z k * D <= inject_Z n * D)%Q by nra.
    setoid_replace ((inject_Z k - h) * D)%Q with (inject_Z k * D - (inject_Z n * D) * (1 # 2) - (1 # 2) * D)%Q by (rewrite HE; ring). lra. }
  assert (PM : (- ((1 # 268435456) * D) <= vq df * D - (inject_Z k - h) * D <= (1 # 268435456) * D)%Q) by nra.
  pose proof (near_mul df d _ _ FS FD PM ltac:(fold D; lra)) as M1. assert (M1' := proj2 M1).
  pose proof (near_add _ ctr _ _ _ _ M1 (near_exact ctr _ FC (Qeq_refl _)) ltac:(fold c; lra)) as A1. assert (A1' := proj2 A1). fold c in A1, A1'.
  assert (FHF : is_finite half /\ (vq half == 1 # 2)%Q) by (split; [exact I|reflexivity]). destruct FHF as (FHF & VH).
  assert (M2 : near (fmul half d) ((1 # 2) * D) (0 + eps)) by (apply near_mul; [exact FHF|exact FD| |]; fold D; rewrite VH; lra).
  assert (M2' := proj2 M2).
  pose proof (near_add _ _ _ _ _ _ A1 M2 ltac:(lra)) as A2.
  unfold bound_at. fold hh. fold df. eapply near_le; [exact A2| |].
  - rewrite HE. field.
  - lra.
Qed.

(** Grids of the gridding script: every tile begins and ends where it should to a
    millionth of a cell, and has its share of the cells, or one more. *)
Theorem C94_tiles_partial : forall n d ctr s, sane_grid n d ctr -> 1 <= Z.of_nat s < n ->
  exists edges dn, subdivide (bounds n d ctr) d s = Some edges /\ List.length edges = S s /\
  (dn = n / Z.of_nat s \/ dn = (n - 1) / Z.of_nat s) /\
  (forall k, (k <= s)%nat -> let cell := if Nat.eqb k s then n else Z.of_nat k * dn in
     is_finite (nth k edges S754_nan) /\
     (Qabs (vq (nth k edges S754_nan) - (vq ctr + (inject_Z cell - inject_Z n / 2) * vq d)) <= (1 # 500000) * vq d)%Q) /\
  forall i, (i < s)%nat -> tile_cells (bounds n d ctr) d s i = Some (share n dn s i) \/ tile_cells (bounds n d ctr) d s i = Some (share n dn s i + 1).
Proof.
  intros n d ctr s H HS. pose proof (bound_near n 0 d ctr H ltac:(lia) ltac:(lia)) as (F0 & N0). pose proof (bound_near n n d ctr H ltac:(lia) ltac:(lia)) as (F1 & N1).
  assert (H' := H). destruct H' as (FD & FC & DB & CB & NB). change (inject_Z 0) with 0%Q in N0.
  assert (NN : (1 <= inject_Z n)%Q) by (change 1%Q with (inject_Z 1); rewrite <- Zle_Qle; lia).
  assert (ND : (vq d <= inject_Z n * vq d)%Q) by nra.
  assert (E0 : ((0 - inject_Z n / 2) * vq d == - ((1 # 2) * (inject_Z n * vq d)))%Q) by field.
  assert (E1 : ((inject_Z n - inject_Z n / 2) * vq d == (1 # 2) * (inject_Z n * vq d))%Q) by field. rewrite E0 in N0. rewrite E1 in N1.
  assert (CA : cells_apart (bounds n d ctr) d n).
  { unfold cells_apart, bounds. cbn [fst snd]. split; [exact F0|]. split; [exact F1|]. split; [exact FD|]. split; [exact DB|].
    split; [lra|]. split; [lra|]. apply Qabs_Qle_condition. lra. }
  destruct (C94_any_bounds_partial (bounds n d ctr) d n s CA HS) as (edges & dn & SU & LE & LN & DN & EK & TC).
  exists edges, dn. split; [exact SU|]. split; [exact LE|]. split; [exact DN|]. split; [|exact TC].
  intros k K cell. unfold cell. destruct (Nat.eqb_spec k s) as [->|NE].
  - rewrite LN. cbn [bounds snd]. split; [exact F1|]. rewrite E1. apply Qabs_Qle_condition. lra.
  - destruct (EK k ltac:(lia)) as (FE & BE). split; [exact FE|]. apply Qabs_Qle_condition in BE. cbn [bounds fst] in BE.
    setoid_replace ((inject_Z (Z.of_nat k * dn) - inject_Z n / 2) * vq d)%Q with (inject_Z (Z.of_nat k * dn) * vq d - (1 # 2) * (inject_Z n * vq d))%Q by field.
    apply Qabs_Qle_condition. lra.
Qed.

(** Nothing is left out: whatever the tiles, they have at least as many cells as the grid. *)
Fixpoint total_cells (bnd : f64 * f64) (d : f64) (s : nat) (is : list nat) : option Z :=
  match is with
  | [] => Some 0
  | i :: r => match tile_cells bnd d s i, total_cells bnd d s r with Some a, Some b => Some (a + b) | _, _ => None end
  end.
Theorem C94_total_partial : forall n d ctr s, sane_grid n d ctr -> 1 <= Z.of_nat s < n ->
  exists t, total_cells (bounds n d ctr) d s (seq 0 s) = Some t /\ n <= t <= n + Z.of_nat s.
Proof.
  intros n d ctr s H HS. destruct (C94_tiles_partial n d ctr s H HS) as (edges & dn & _ & _ & _ & _ & TC).
  assert (G : forall l, (forall i, In i l -> (i < s)%nat) -> exists t, total_cells (bounds n d ctr) d s l = Some t /\
    let sum := fold_right (fun i a => share n dn s i + a) 0 l in sum <= t <= sum + Z.of_nat (List.length l)).
  { induction l as [|i l IH]; intros L; [exists 0; split; [reflexivity|cbn; lia]|].
    destruct (IH (fun j J => L j (or_intror J))) as (t & ET & BT). cbn [total_cells]. rewrite ET.
    destruct (TC i (L i (or_introl eq_refl))) as [E|E]; rewrite E; eexists; (split; [reflexivity|]); cbn [fold_right List.length]; cbn zeta in *; lia. }
  destruct (G (seq 0 s)) as (t & ET & BT); [intros i I; apply in_seq in I; lia|]. exists t. split; [exact ET|]. rewrite seq_length in BT. cbn zeta in BT.
  assert (SM : fold_right (fun i a => share n dn s i + a) 0 (seq 0 s) = n).
  { destruct s as [|s0]; [lia|]. rewrite seq_S, fold_right_app. cbn [plus]. cbn [fold_right].
    assert (P : forall l a, (forall i, In i l -> (S i < S s0)%nat) -> fold_right (fun i a => share n dn (S s0) i + a) a l = Z.of_nat (List.length l) * dn + a).
    { induction l as [|i l IH]; intros a L; [cbn; lia|]. cbn [fold_right List.length]. rewrite IH by (intros j J; apply L; right; exact J).
      unfold share. rewrite (proj2 (Nat.ltb_lt (S i) (S s0))) by (apply L; left; reflexivity). lia. }
    rewrite P by (intros i I; apply in_seq in I; lia). rewrite seq_length. unfold share. rewrite Nat.ltb_irrefl. lia. }
  lia.
Qed.

(** * Standard grids *)
(** 2 km cells, 56e-6. *)
Definition d2km : f64 := S754_finite false 8264141345021879 (-67).
(** 0.08624, the centre of the continental sector along y. *)
Definition ctr_conus_y : f64 := S754_finite false 6214246909830905 (-56).
Lemma sane_full : sane_grid 5424 d2km (S754_zero false).
Proof. repeat split; vm_compute; discriminate. Qed.
Lemma sane_conus : sane_grid 1500 d2km ctr_conus_y.
Proof. repeat split; vm_compute; discriminate. Qed.
(** The full disk at 2 km in four tiles: 5424 columns are four times 1356, but the last tile
    has one more, beyond the edge of the grid. *)
Theorem C94_full_disk_refuted : sane_grid 5424 d2km (S754_zero false) /\
  map (tile_cells (bounds 5424 d2km (S754_zero false)) d2km 4) [0; 1; 2; 3]%nat = [Some 1356; Some 1356; Some 1356; Some 1357].
Proof. split; [exact sane_full|vm_compute; reflexivity]. Qed.
(** The continental sector at 2 km in two tiles: 1500 rows are counted as 1499, the second
    tile begins one row early, so row 749 is in both. *)
Theorem C94_conus_refuted : sane_grid 1500 d2km ctr_conus_y /\
  to_int (fdiv (fsub (snd (bounds 1500 d2km ctr_conus_y)) (fst (bounds 1500 d2km ctr_conus_y))) d2km) = Some 1499 /\
  map (tile_cells (bounds 1500 d2km ctr_conus_y) d2km 2) [0; 1]%nat = [Some 750; Some 751].
Proof. split; [exact sane_conus|split; vm_compute; reflexivity]. Qed.

(** * The hypotheses can be met *)
Example C94_hypotheses : exists edges dn, subdivide (bounds 5424 d2km (S754_zero false)) d2km 4 = Some edges /\ List.length edges = 5%nat /\
  (dn = 1356 \/ dn = 1355).
Proof.
  destruct (C94_tiles_partial 5424 d2km (S754_zero false) 4 sane_full ltac:(lia)) as (edges & dn & A & B & C & _).
  exists edges, dn. split; [exact A|]. split; [exact B|]. exact C.
Qed.
Print Assumptions C94_any_bounds_partial.
Print Assumptions C94_tiles_partial.
Print Assumptions C94_total_partial.
Print Assumptions C94_full_disk_refuted.
Print Assumptions C94_conus_refuted.

(** * The padding *)
(** The padding of a tile is the whole number of cells in 2.8 milliradians (100 km at nadir),
    up to two billionths of a cell: never more, and another cell would be more. *)
Theorem C94_padding : forall d, is_finite d -> ((1 # 1048576) <= vq d <= 1)%Q ->
  exists np, pad_cells d = Some np /\ 0 <= np /\
  (inject_Z np * vq d <= (28 # 10000) + (2 # 1000000000) * vq d)%Q /\ ((28 # 10000) - (2 # 1000000000) * vq d < (inject_Z np + 1) * vq d)%Q.
Proof.
  intros d F2 DB. set (D := vq d) in *.
  assert (PA : is_finite pad_angle /\ ((28 # 10000) - (1 # 10000000000000000) <= vq pad_angle <= (28 # 10000) + (1 # 10000000000000000))%Q).
  { split; [exact I|]. split; vm_compute; discriminate. }
  destruct PA as (FP & PB). set (p := vq pad_angle) in *.
  assert (QB : ((27 # 10000) <= p / D <= 4000)%Q).
  { split; [apply Qle_shift_div_l|apply Qle_shift_div_r]; lra. }
  destruct (div_approx pad_angle d FP F2) as (FR & A); [fold D; lra| |].
  { fold p D. rewrite Qabs_pos by lra. assert (p2 (-900) <= p2 (-10))%Q by (apply p2_le; lia). assert (p2 25 <= p2 800)%Q by (apply p2_le; lia).
    change (p2 (-10)) with (1 # 1024)%Q in *. assert (p2 25 == 33554432)%Q as E25 by reflexivity. rewrite E25 in *. split; lra. }
  fold p D in A. rewrite (Qabs_pos (p / D)) in A by lra. apply Qabs_Qle_condition in A.
  set (r := vq (SFdiv 53 1024 pad_angle d)) in *.
  assert (S : (0 <= p2 (-51) * (p / D) + p2 (-1073) <= 1 # 1000000000)%Q).
  { assert (p2 (-1073) <= p2 (-51))%Q by (apply p2_le; lia). pose proof (p2_pos (-1073)). assert (p2 (-51) == 1 # 2251799813685248)%Q as E51 by reflexivity. rewrite E51 in *. split; lra. }
  assert (RB : (0 <= r)%Q) by lra.
  assert (R0 : (0 <= Qfloor r)).
  { change 0 with (Qfloor 0). apply Qfloor_resp_le. exact RB. }
  pose proof (Qfloor_le r) as RF. pose proof (Qlt_floor r) as RU. rewrite inject_Z_plus in RU. change (inject_Z 1) with 1%Q in RU.
  exists (Qfloor r). split; [unfold pad_cells; apply to_int_floor; assumption|]. split; [exact R0|].
  assert (E : (p / D * D == p)%Q) by (field; lra). set (q := (p / D)%Q) in *. split; nra.
Qed.
(** At the spacings of 2 km and 10 km: 50 and 10 cells. *)
Example C94_padding_of_grids : pad_cells d2km = Some 50 /\ pad_cells (fdiv (of_int 280) (of_int 1000000)) = Some 10.
Proof. split; vm_compute; reflexivity. Qed.
Print Assumptions C94_padding.
