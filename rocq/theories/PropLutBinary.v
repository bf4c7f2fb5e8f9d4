(** C100: pixel identifiers in binary arithmetic. *)
From Coq Require Import List ZArith Lia Bool QArith Qabs Qround Lqa Floats.SpecFloat.
From Verif Require Import Base Unsigned FloatProofs TilesBinary FloatExact LutSpec LutBinary.
Import ListNotations.
Open Scope Z_scope.

(** * Specification *)
(** A scale and a lower end in radians. *)
Definition sane_axis (scale lo : f64) : Prop :=
  is_finite scale /\ is_finite lo /\ ((1 # 1048576) <= vq scale <= 1)%Q /\ (-2 <= vq lo <= 2)%Q.
(** A location at or above the lower end.  (A location above it by less than 2^-800 is left
    out; there is none next to -0.31.) *)
Definition at_or_above (lo x : f64) : Prop :=
  is_finite x /\ (vq x <= 2)%Q /\ ((vq x == vq lo)%Q \/ (p2 (-800) <= vq x - vq lo)%Q).
(** Position along an axis in cells, exact. *)
Definition position (scale lo x : f64) : Q := ((vq x - vq lo) / vq scale)%Q.
(** A part of a cell, about 1.5e-8: the largest error of a position. *)
Definition slack : Q := 1 # 67108864.
(** The cell of a location by the exact position. *)
Definition exact_cell (scale lo x : f64) : Z := cell_index (vq scale) (vq lo) (vq x).
(** A location not within [slack] of the next or the previous cell. *)
Definition well_inside (scale lo x : f64) : Prop :=
  (inject_Z (exact_cell scale lo x) + slack <= position scale lo x /\
   position scale lo x + slack < inject_Z (exact_cell scale lo x) + 1)%Q.

(** * Proofs *)
Lemma cast_ok : forall weird v k, to_int v = Some k -> 0 <= k < 2 ^ 64 -> cast64 weird v = k.
Proof.
  intros weird v k E H. unfold cast64. rewrite E. rewrite (proj2 (Z.leb_le 0 k)) by lia. rewrite (proj2 (Z.ltb_lt k (2 ^ 64))) by lia. reflexivity.
Qed.
Lemma small_800 : (0 < p2 (-800) /\ p2 (-800) <= p2 (-100) /\ p2 (-100) <= 1 # 1000000000000)%Q.
Proof. split; [apply p2_pos|]. split; [apply p2_le; lia|]. vm_compute. discriminate. Qed.
Lemma p2_double : forall e, (p2 (e + 1) == 2 * p2 e)%Q.
Proof. intros e. rewrite p2_plus. change (p2 1) with 2%Q. ring. Qed.

Lemma sub_same : forall x y, is_finite x -> is_finite y -> (vq x == vq y)%Q -> exists b, fsub x y = S754_zero b.
Proof.
  intros x y Fx Fy V. unfold fsub.
  assert (NZ : forall s m e, ~ (vq (S754_finite s m e) == 0)%Q).
  { intros s m e K. cbn [vq] in K. pose proof (p2_pos e). assert (0 < inject_Z (Zpos m))%Q by (change 0%Q with (inject_Z 0); rewrite <- Zlt_Qlt; lia).
    destruct s; nra. }
  destruct x as [a|a| |a mx ex]; try destruct Fx; destruct y as [b|b| |b my ey]; try destruct Fy.
  - cbn [SFsub]. destruct (Bool.eqb a (negb b)); eexists; reflexivity.
  - exfalso. apply (NZ b my ey). rewrite <- V. reflexivity.
  - exfalso. apply (NZ a mx ex). rewrite V. reflexivity.
  - cbn [SFsub].
    pose proof (aligned_value a mx ex (Z.min ex ey) ltac:(lia)) as A. pose proof (aligned_value b my ey (Z.min ex ey) ltac:(lia)) as B.
    set (u := cond_Zopp a (Zpos (fst (shl_align mx ex (Z.min ex ey))))) in *. set (w := cond_Zopp b (Zpos (fst (shl_align my ey (Z.min ex ey))))) in *.
    assert (E : u = w).
    { pose proof (p2_pos (Z.min ex ey)) as P. assert (X : (inject_Z u == inject_Z w)%Q).
      { assert (Y : (inject_Z u * p2 (Z.min ex ey) == inject_Z w * p2 (Z.min ex ey))%Q) by (rewrite A, B; exact V).
        apply Qmult_inj_r in Y; [exact Y|lra]. }
      apply inject_Z_injective. exact X. }
    rewrite E, Z.sub_diag. cbn [binary_normalize]. eexists. reflexivity.
Qed.

(** The number in memory before the conversion to an integer. *)
Lemma index_value : forall scale lo x, sane_axis scale lo -> at_or_above lo x ->
  is_finite (fdiv (fsub x lo) scale) /\ (0 <= vq (fdiv (fsub x lo) scale))%Q /\
  ((position scale lo x - slack <= vq (fdiv (fsub x lo) scale) <= position scale lo x + slack)%Q \/
   (vq (fdiv (fsub x lo) scale) < 1)%Q /\ (0 <= position scale lo x < 3 # 4)%Q).
Proof.
  intros scale lo x (Fs & Fl & S & L) (Fx & X & C). unfold position.
  assert (PS : (0 < vq scale)%Q) by lra.
  destruct C as [C|C].
  - destruct (sub_same x lo Fx Fl C) as (b & E). rewrite E.
    assert (Z0 : exists c, fdiv (S754_zero b) scale = S754_zero c).
    { unfold fdiv. destruct scale as [a|a| |a m e]; try destruct Fs; [cbn in PS; lra|]. cbn [SFdiv]. eexists. reflexivity. }
    destruct Z0 as (c & ->). cbn [vq is_finite]. split; [exact I|]. split; [lra|].
    assert (P0 : ((vq x - vq lo) / vq scale == 0)%Q) by (rewrite C; unfold Qdiv; ring). rewrite P0. right. lra.
  - destruct small_800 as (S0 & S1 & S2).
    assert (B : (-8 <= vq x - vq lo <= 8)%Q) by lra.
    pose proof (sub_approx x lo Fx Fl (big800 _ B)) as (FW & AW). fold (fsub x lo) in FW, AW.
    assert (WN : near (fsub x lo) (vq x - vq lo) eps) by (apply (approx_near _ _ 8); [split; assumption|exact B|lra]).
    rewrite (Qabs_pos (vq x - vq lo)) in AW by lra. apply Qabs_Qle_condition in AW.
    assert (E51 : (p2 (-51) == 1 # 2251799813685248)%Q) by reflexivity.
    assert (T1 : (p2 (-1073) <= p2 (-803))%Q) by (apply p2_le; lia).
    assert (T2 : (p2 (-803) * 8 == p2 (-800))%Q).
    { replace (-800) with (-803 + 1 + 1 + 1) by lia. rewrite !p2_double. ring. }
    rewrite E51 in AW. set (W := fsub x lo) in *.
    assert (WP : (p2 (-803) * 4 <= vq W)%Q) by lra.
    assert (P8 : (0 < p2 (-803))%Q) by apply p2_pos.
    assert (Q1 : (vq W <= vq W / vq scale)%Q) by (apply Qle_shift_div_l; [exact PS|]; nra).
    destruct (Qlt_le_dec (vq W / vq scale) (1 # 2)) as [Small|Big].
    + assert (T3 : (p2 (-900) <= p2 (-803))%Q) by (apply p2_le; lia). assert (T4 : (p2 0 <= p2 800)%Q) by (apply p2_le; lia).
      change (p2 0) with 1%Q in T4.
      destruct (div_approx W scale FW Fs) as (FQ & AQ); [lra|rewrite Qabs_pos by lra; lra|].
      rewrite (Qabs_pos (vq W / vq scale)) in AQ by lra. apply Qabs_Qle_condition in AQ. rewrite E51 in AQ. unfold fdiv.
      split; [exact FQ|]. split; [lra|]. right. split; [lra|]. split.
      * apply Qle_shift_div_l; [exact PS|]. lra.
      * apply Qlt_shift_div_r; [exact PS|].
        assert (vq W < (1 # 2) * vq scale)%Q.
        { setoid_replace (vq W) with (vq W / vq scale * vq scale)%Q by (field; lra). nra. }
        destruct WN as (_ & WN). rewrite eps_eq in WN. lra.
    + destruct (near_div W scale _ _ WN Fs ltac:(lra) ltac:(destruct WN as (_ & WN); rewrite eps_eq in WN; lra) Big) as (FQ & QN).
      assert (ED : (eps / vq scale <= 1 # 134217728)%Q) by (apply Qle_shift_div_r; [exact PS|]; rewrite eps_eq; lra).
      split; [exact FQ|]. unfold slack. split; [|left; lra].
      assert (PP : (0 <= (vq x - vq lo) / vq scale)%Q) by (apply Qle_shift_div_l; [exact PS|]; lra).
      assert (PB : ((1 # 4) <= (vq x - vq lo) / vq scale)%Q).
      { apply Qle_shift_div_l; [exact PS|]. assert ((1 # 2) * vq scale <= vq W)%Q.
        { setoid_replace (vq W) with (vq W / vq scale * vq scale)%Q by (field; lra). nra. }
        destruct WN as (_ & WN). rewrite eps_eq in WN. lra. }
      lra.
Qed.

(** The index along an axis is that of a position at most [slack] away. *)
Lemma index_near : forall weird scale lo x, sane_axis scale lo -> at_or_above lo x ->
  let i := axis_index weird scale lo x in
  0 <= i < 5000000 /\ (inject_Z i - slack <= position scale lo x < inject_Z i + 1 + slack)%Q.
Proof.
  intros weird scale lo x SA AA. destruct (index_value scale lo x SA AA) as (F & P & C).
  set (q := fdiv (fsub x lo) scale) in *.
  assert (PB : (0 <= position scale lo x <= 4194304)%Q).
  { destruct SA as (Fs & Fl & S & L). destruct AA as (Fx & X & D). assert (PS : (0 < vq scale)%Q) by lra.
    destruct small_800 as (S0 & _). unfold position. split; [apply Qle_shift_div_l|apply Qle_shift_div_r]; destruct D; lra. }
  pose proof (Qfloor_le (vq q)) as L1. pose proof (Qlt_floor (vq q)) as L2. rewrite inject_Z_plus in L2. change (inject_Z 1) with 1%Q in L2.
  assert (N0 : 0 <= Qfloor (vq q)) by (change 0 with (Qfloor 0); apply Qfloor_resp_le; exact P).
  assert (U : (vq q < 4194306)%Q) by (unfold slack in C; destruct C as [C|C]; lra).
  assert (N1 : Qfloor (vq q) < 4194306) by (rewrite Zlt_Qlt; change (inject_Z 4194306) with 4194306%Q; lra).
  unfold axis_index. fold q. rewrite (cast_ok weird q _ (to_int_floor q F P)) by lia. cbv zeta. split; [lia|].
  destruct C as [C|(C1 & C2)]; [unfold slack in *; lra|].
  assert (Z0 : Qfloor (vq q) = 0).
  { assert (Qfloor (vq q) < 1); [|lia]. rewrite Zlt_Qlt. change (inject_Z 1) with 1%Q. lra. }
  rewrite Z0. change (inject_Z 0) with 0%Q. unfold slack. lra.
Qed.

(** ** The identifier *)
(** It is a pair of indices, each of a position at most [slack] away, in row major order with
    a number of columns that the x range alone gives; no conversion or sum overflows. *)
Theorem C100_id_of_cell_partial : forall weird scale x0 x1, sane_axis scale x0 -> at_or_above x0 x1 ->
  exists N, 0 <= N < 5000000 /\ (inject_Z N - slack <= position scale x0 x1 < inject_Z N + 1 + slack)%Q /\
  forall y0 y1 x y, sane_axis scale y0 -> at_or_above x0 x -> at_or_above y0 y ->
  exists i j, 0 <= i < 5000000 /\ 0 <= j < 5000000 /\
    discretize64 weird scale (x0, x1) (y0, y1) x y = i + N * j /\
    (inject_Z i - slack <= position scale x0 x < inject_Z i + 1 + slack)%Q /\
    (inject_Z j - slack <= position scale y0 y < inject_Z j + 1 + slack)%Q.
Proof.
  intros weird scale x0 x1 SX A1. destruct (index_near weird scale x0 x1 SX A1) as (N1 & N2). cbv zeta in *.
  exists (axis_index weird scale x0 x1). split; [exact N1|]. split; [exact N2|]. intros y0 y1 x y SY AX AY.
  destruct (index_near weird scale x0 x SX AX) as (I1 & I2). destruct (index_near weird scale y0 y SY AY) as (J1 & J2).
  unfold discretize64. cbn [fst snd]. cbv zeta in *.
  set (N := axis_index weird scale x0 x1) in *. set (i := axis_index weird scale x0 x) in *. set (j := axis_index weird scale y0 y) in *.
  exists i, j. repeat (split; [assumption|]).
  assert (0 <= j * N < 25000000000000) by nia.
  split; [|split; tauto]. rewrite (Z.mod_small (j * N)) by lia. rewrite Z.mod_small by lia. ring.
Qed.

(** A location not next to a boundary between cells has the identifier of exact arithmetic
    (see C23); two such locations in one cell share it. *)
Theorem C100_exact_inside_partial : forall weird scale x0 x1 y0 y1 x y, sane_axis scale x0 -> sane_axis scale y0 ->
  at_or_above x0 x1 -> at_or_above x0 x -> at_or_above y0 y ->
  well_inside scale x0 x1 -> well_inside scale x0 x -> well_inside scale y0 y ->
  discretize64 weird scale (x0, x1) (y0, y1) x y = exact_cell scale x0 x + exact_cell scale x0 x1 * exact_cell scale y0 y.
Proof.
  intros weird scale x0 x1 y0 y1 x y SX SY A1 AX AY W1 WX WY.
  destruct (C100_id_of_cell_partial weird scale x0 x1 SX A1) as (N & _ & N2 & H).
  destruct (H y0 y1 x y SY AX AY) as (i & j & _ & _ & E & I2 & J2). rewrite E.
  assert (G : forall k c p, (inject_Z k - slack <= p < inject_Z k + 1 + slack)%Q -> (inject_Z c + slack <= p /\ p + slack < inject_Z c + 1)%Q -> k = c).
  { intros k c p (K1 & K2) (C1 & C2). assert (k < c + 1) by (rewrite Zlt_Qlt, inject_Z_plus; change (inject_Z 1) with 1%Q; lra).
    assert (c < k + 1) by (rewrite Zlt_Qlt, inject_Z_plus; change (inject_Z 1) with 1%Q; lra). lia. }
  rewrite (G _ _ _ N2 W1), (G _ _ _ I2 WX), (G _ _ _ J2 WY). ring.
Qed.

(** Locations with one identifier are less than a cell (and [2 * slack] of one) apart along
    both axes, if both are at least a cell before the end of the x range. *)
Theorem C100_same_id_close_partial : forall weird scale x0 x1 y0 y1 x y x' y', sane_axis scale x0 -> sane_axis scale y0 ->
  at_or_above x0 x1 -> at_or_above x0 x -> at_or_above y0 y -> at_or_above x0 x' -> at_or_above y0 y' ->
  (position scale x0 x < position scale x0 x1 - 1 - 2 * slack)%Q -> (position scale x0 x' < position scale x0 x1 - 1 - 2 * slack)%Q ->
  discretize64 weird scale (x0, x1) (y0, y1) x y = discretize64 weird scale (x0, x1) (y0, y1) x' y' ->
  (Qabs (vq x - vq x') < (1 + 2 * slack) * vq scale)%Q /\ (Qabs (vq y - vq y') < (1 + 2 * slack) * vq scale)%Q.
Proof.
  intros weird scale x0 x1 y0 y1 x y x' y' SX SY A1 AX AY AX' AY' B B' E.
  destruct (C100_id_of_cell_partial weird scale x0 x1 SX A1) as (N & _ & N2 & H).
  destruct (H y0 y1 x y SY AX AY) as (i & j & I1 & J1 & V & I2 & J2). destruct (H y0 y1 x' y' SY AX' AY') as (i' & j' & I1' & J1' & V' & I2' & J2').
  clear H. rewrite V, V' in E.
  assert (L : i < N) by (rewrite Zlt_Qlt; lra). assert (L' : i' < N) by (rewrite Zlt_Qlt; lra).
  assert (EJ : j = j') by nia. assert (EI : i = i') by (subst j'; lia). subst i' j'.
  assert (PS : (0 < vq scale)%Q) by (destruct SX as (_ & _ & S & _); lra).
  assert (G : forall lo u v k, (inject_Z k - slack <= position scale lo u < inject_Z k + 1 + slack)%Q ->
    (inject_Z k - slack <= position scale lo v < inject_Z k + 1 + slack)%Q -> (Qabs (vq u - vq v) < (1 + 2 * slack) * vq scale)%Q).
  { intros lo u v k K1 K2. apply Qabs_case; intros _.
    - assert (D : (vq u - vq v == (position scale lo u - position scale lo v) * vq scale)%Q) by (unfold position; field; lra). rewrite D.
      apply Qmult_lt_r; [exact PS|]. lra.
    - assert (D : (- (vq u - vq v) == (position scale lo v - position scale lo u) * vq scale)%Q) by (unfold position; field; lra). rewrite D.
      apply Qmult_lt_r; [exact PS|]. lra. }
  split; [apply (G x0 x x' i)|apply (G y0 y y' j)]; assumption.
Qed.

(** * The defaults *)
Lemma sane_lut : sane_axis lut_scale64 lut_lo64.
Proof. repeat split; vm_compute; discriminate. Qed.
(** Locations above the lower end of the default range. *)
Lemma in_range : forall x, is_finite x -> (p2 (-800) <= vq x - vq lut_lo64)%Q -> (vq x <= 2)%Q -> at_or_above lut_lo64 x.
Proof. intros x F L U. split; [exact F|]. split; [exact U|]. right. exact L. Qed.
Lemma hi_above : at_or_above lut_lo64 lut_hi64.
Proof.
  apply in_range; [exact I| |vm_compute; discriminate]. apply Qle_trans with (p2 (-10)); [apply p2_le; lia|]. vm_compute. discriminate.
Qed.
(** Pixels are at least 224 microradians apart along one of the axes: with the default scale
    they are never merged, except for those in the last cell before the end of the x range. *)
Theorem C100_pixels_apart_partial : forall weird x y x' y', at_or_above lut_lo64 x -> at_or_above lut_lo64 y -> at_or_above lut_lo64 x' -> at_or_above lut_lo64 y' ->
  (vq x <= 30997 # 100000)%Q -> (vq x' <= 30997 # 100000)%Q ->
  ((224 # 1000000) <= Qabs (vq x - vq x') \/ (224 # 1000000) <= Qabs (vq y - vq y'))%Q ->
  discretize64 weird lut_scale64 (lut_lo64, lut_hi64) (lut_lo64, lut_hi64) x y
  <> discretize64 weird lut_scale64 (lut_lo64, lut_hi64) (lut_lo64, lut_hi64) x' y'.
Proof.
  intros weird x y x' y' AX AY AX' AY' B B' D E.
  assert (PS : ((279 # 10000000) < vq lut_scale64 < 281 # 10000000)%Q) by (split; vm_compute; reflexivity).
  assert (HL : ((30999999 # 100000000) <= vq lut_hi64)%Q) by (vm_compute; discriminate).
  assert (T : forall u, (vq u <= 30997 # 100000)%Q -> (position lut_scale64 lut_lo64 u < position lut_scale64 lut_lo64 lut_hi64 - 1 - 2 * slack)%Q).
  { intros u U. unfold position. set (s := vq lut_scale64) in *. set (h := vq lut_hi64) in *. set (l := vq lut_lo64) in *.
    assert (X : ((h - l) / s - 1 - 2 * slack == (h - l - (1 + 2 * slack) * s) / s)%Q) by (field; lra). rewrite X.
    apply Qlt_shift_div_l; [lra|]. setoid_replace ((vq u - l) / s * s)%Q with (vq u - l)%Q by (field; lra). unfold slack. lra. }
  destruct (C100_same_id_close_partial weird lut_scale64 lut_lo64 lut_hi64 lut_lo64 lut_hi64 x y x' y' sane_lut sane_lut hi_above AX AY AX' AY' (T x B) (T x' B') E) as (D1 & D2).
  unfold slack in *. destruct D; lra.
Qed.

(** "Same identifier iff same cell" does not hold in binary arithmetic, not even for cells far
    from the ends of the ranges: two locations a cell apart, in different cells, share one
    identifier (the products 448 and 449 times 28e-6 above the lower end). *)
Definition at_448 : f64 := fadd lut_lo64 (fmul (of_int 448) lut_scale64).
Definition at_449 : f64 := fadd lut_lo64 (fmul (of_int 449) lut_scale64).
(** 0.4 of a cell before the first of them: in the same cell as it, with another identifier. *)
Definition at_447 : f64 := fsub at_448 (S754_finite false 6611313076017503 (-69)).
Theorem C100_same_cell_refuted : forall weird y, at_or_above lut_lo64 y ->
  let id := discretize64 weird lut_scale64 (lut_lo64, lut_hi64) (lut_lo64, lut_hi64) in
  (exact_cell lut_scale64 lut_lo64 at_448 = 447 /\ exact_cell lut_scale64 lut_lo64 at_449 = 448 /\ id at_448 y = id at_449 y) /\
  (exact_cell lut_scale64 lut_lo64 at_447 = 447 /\ id at_447 y <> id at_448 y).
Proof.
  intros weird y AY id. split; [split; [vm_compute; reflexivity|split; [vm_compute; reflexivity|]]|split; [vm_compute; reflexivity|]].
  - assert (E : axis_index weird lut_scale64 lut_lo64 at_448 = axis_index weird lut_scale64 lut_lo64 at_449) by (vm_compute; reflexivity).
    unfold id, discretize64. cbn [fst snd]. rewrite E. reflexivity.
  - assert (E1 : axis_index weird lut_scale64 lut_lo64 at_447 = 447) by (vm_compute; reflexivity).
    assert (E2 : axis_index weird lut_scale64 lut_lo64 at_448 = 448) by (vm_compute; reflexivity).
    assert (E3 : axis_index weird lut_scale64 lut_lo64 lut_hi64 = 22142) by (vm_compute; reflexivity).
    unfold id, discretize64. cbn [fst snd]. rewrite E1, E2, E3.
    destruct (index_near weird lut_scale64 lut_lo64 y sane_lut AY) as (J & _). cbv zeta in J. set (j := axis_index weird lut_scale64 lut_lo64 y) in *.
    rewrite (Z.mod_small (j * 22142)) by lia. rewrite !Z.mod_small by lia. lia.
Qed.
(** At the end of the x range the identifier is that of the first column of the next row. *)
Theorem C100_last_column_refuted : forall weird,
  let id := discretize64 weird lut_scale64 (lut_lo64, lut_hi64) (lut_lo64, lut_hi64) in
  id lut_hi64 lut_lo64 = 22142 /\ id lut_lo64 (fadd lut_lo64 (fdiv (of_int 42) (of_int 1000000))) = 22142 /\
  (vq lut_lo64 < vq (fadd lut_lo64 (fdiv (of_int 42) (of_int 1000000))) <= vq lut_hi64)%Q.
Proof. intros weird id. split; [vm_compute; reflexivity|]. split; [vm_compute; reflexivity|]. split; [vm_compute; reflexivity|vm_compute; discriminate]. Qed.

(** * The hypotheses can be met *)
Lemma above_0 : at_or_above lut_lo64 (S754_zero false).
Proof.
  apply in_range; [exact I| |vm_compute; discriminate]. apply Qle_trans with (p2 (-10)); [apply p2_le; lia|]. vm_compute. discriminate.
Qed.
Example C100_hypotheses : sane_axis lut_scale64 lut_lo64 /\ at_or_above lut_lo64 lut_lo64 /\ at_or_above lut_lo64 lut_hi64 /\
  well_inside lut_scale64 lut_lo64 lut_hi64 /\ well_inside lut_scale64 lut_lo64 (S754_zero false) /\
  discretize64 (fun _ => 0) lut_scale64 (lut_lo64, lut_hi64) (lut_lo64, lut_hi64) (S754_zero false) (S754_zero false) = 11071 + 22142 * 11071.
Proof.
  split; [exact sane_lut|]. split; [split; [exact I|]; split; [vm_compute; discriminate|left; reflexivity]|]. split; [exact hi_above|].
  split; [split; vm_compute; [discriminate|reflexivity]|]. split; [split; vm_compute; [discriminate|reflexivity]|]. vm_compute. reflexivity.
Qed.
Print Assumptions C100_id_of_cell_partial.
Print Assumptions C100_exact_inside_partial.
Print Assumptions C100_same_id_close_partial.
Print Assumptions C100_pixels_apart_partial.
Print Assumptions C100_same_cell_refuted.
Print Assumptions C100_last_column_refuted.
