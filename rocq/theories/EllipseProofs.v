(** Proofs about the navigation. *)
From Coq Require Import ZArith Bool Reals Lra Lia Psatz.
From Verif Require Import Base FileName Ellipse EllipseSpec.
Open Scope R_scope.

Lemma sqrt_pos_lt : forall x, 0 < x -> 0 < sqrt x.
Proof. intros. apply sqrt_lt_R0; assumption. Qed.

(** The two angles give back the vector. *)
Lemma angles_of_vector : forall vx vy vz,
  vx < 0 ->
  let m := sqrt (vx * vx + vy * vy + vz * vz) in
  let beta := - asin (vy / - m) in
  let alpha := atan (vz / m / (vx / - m)) in
  0 < m /\ - (PI / 2) < beta < PI / 2 /\ - (PI / 2) < alpha < PI / 2 /\
  vx = - (m * (cos beta * cos alpha)) /\ vy = m * sin beta /\ vz = m * (cos beta * sin alpha).
Proof.
  intros vx vy vz Hx m beta alpha.
  assert (Hs : 0 < vx * vx + vy * vy + vz * vz) by nra.
  assert (Hm : 0 < m) by (apply sqrt_lt_R0; exact Hs).
  assert (Hmm : m * m = vx * vx + vy * vy + vz * vz) by (apply sqrt_sqrt; lra).
  clearbody m.
  set (w := vy / m).
  assert (Hw : w * m = vy) by (unfold w; field; lra).
  assert (Hww : 0 < (1 - w * w) * (m * m)).
  { replace ((1 - w * w) * (m * m)) with (m * m - (w * m) * (w * m)) by ring. rewrite Hw, Hmm. nra. }
  assert (Hw1 : w * w < 1).
  { destruct (Rlt_or_le (w * w) 1) as [L|G]; [exact L|]. assert (0 < m * m) by nra. nra. }
  assert (Hwb : -1 < w < 1) by (split; nra).
  assert (Eb : beta = asin w).
  { unfold beta. replace (vy / - m) with (- w) by (unfold w; field; lra). rewrite asin_opp. ring. }
  assert (Bb : - (PI / 2) < asin w < PI / 2) by (apply asin_bound_lt; exact Hwb).
  assert (Ab : - (PI / 2) < alpha < PI / 2).
  { unfold alpha. pose proof (atan_bound (vz / m / (vx / - m))). lra. }
  set (q := vz / m / (vx / - m)) in *.
  assert (Eq : q * - vx = vz) by (unfold q; field; lra).
  assert (S1 : 0 < 1 + q * q) by nra.
  set (u := sqrt (1 + q * q)).
  assert (Hu : 0 < u) by (apply sqrt_lt_R0; exact S1).
  assert (Huu : u * u = 1 + q * q) by (apply sqrt_sqrt; lra).
  assert (Ec : cos beta = - vx * u / m).
  { rewrite Eb, cos_asin by lra. unfold Rsqr.
    apply sqrt_lem_1.
    - nra.
    - apply Rmult_le_pos; [nra | left; apply Rinv_0_lt_compat; exact Hm].
    - unfold w. replace (- vx * u / m * (- vx * u / m)) with (vx * vx * (u * u) / (m * m)) by (field; lra).
      rewrite Huu. replace (vx * vx * (1 + q * q)) with (vx * vx + (q * - vx) * (q * - vx)) by ring.
      rewrite Eq. replace (vy / m * (vy / m)) with (vy * vy / (m * m)) by (field; lra).
      rewrite Hmm. field. lra. }
  assert (Eca : cos alpha = 1 / u) by (unfold alpha; rewrite cos_atan; reflexivity).
  assert (Esa : sin alpha = q / u) by (unfold alpha; rewrite sin_atan; reflexivity).
  split; [exact Hm|]. split; [rewrite Eb; exact Bb|]. split; [exact Ab|].
  split; [|split].
  - rewrite Ec, Eca. field. lra.
  - rewrite Eb, sin_asin by lra. lra.
  - rewrite Ec, Esa, <- Eq. field. lra.
Qed.

(** The point looked at, written in terms of the ellipsoid. *)
Section POINT.
Variables a b ag bg h lon lat sat : R.
Hypothesis Hb : 0 < b.
Hypothesis Ha : 0 < a.
Hypothesis Hag : 0 < ag.
Hypothesis Hbg : 0 < bg.
Hypothesis Hh : a < h + ag.

Definition phi_of : R := atan ((1 - (ag - bg) / ag) ^ 2 * tan (radians lat)).
Definition rad_of : R :=
  a * (1 - (a - b) / a) / sqrt (1 - (a - b) / a * (2 - (a - b) / a) * cos phi_of * cos phi_of).
Definition pt_of : point :=
  mkPt (rad_of * cos phi_of * cos (radians (wrap_offset (lon - sat))))
       (rad_of * cos phi_of * sin (radians (wrap_offset (lon - sat))))
       (rad_of * sin phi_of).

Lemma phi_bound : - (PI / 2) < phi_of < PI / 2.
Proof. unfold phi_of. match goal with |- context [atan ?t] => pose proof (atan_bound t) end. lra. Qed.

Lemma cos_phi : 0 < cos phi_of.
Proof. pose proof phi_bound. apply cos_gt_0; lra. Qed.

Lemma phi_geocentric : geocentric_of ag bg (radians lat) phi_of.
Proof.
  unfold geocentric_of, phi_of. rewrite tan_atan.
  replace (1 - (ag - bg) / ag) with (bg / ag) by (field; lra). reflexivity.
Qed.

Lemma sc : sin phi_of * sin phi_of + cos phi_of * cos phi_of = 1.
Proof. pose proof (sin2_cos2 phi_of) as E. unfold Rsqr in E. lra. Qed.

Lemma under_root :
  1 - (a - b) / a * (2 - (a - b) / a) * cos phi_of * cos phi_of
  = sin phi_of * sin phi_of + (b / a) * (b / a) * (cos phi_of * cos phi_of).
Proof.
  pose proof sc as E.
  replace (sin phi_of * sin phi_of) with (1 - cos phi_of * cos phi_of) by lra.
  field. lra.
Qed.

Lemma under_root_pos : 0 < sin phi_of * sin phi_of + (b / a) * (b / a) * (cos phi_of * cos phi_of).
Proof.
  pose proof cos_phi as C.
  assert (0 < b / a) by (apply Rdiv_lt_0_compat; assumption).
  assert (0 < (b / a) * (b / a) * (cos phi_of * cos phi_of))
    by (apply Rmult_lt_0_compat; apply Rmult_lt_0_compat; assumption).
  nra.
Qed.

Lemma rad_pos : 0 < rad_of.
Proof.
  unfold rad_of. rewrite under_root. apply Rdiv_lt_0_compat.
  - replace (a * (1 - (a - b) / a)) with b by (field; lra). exact Hb.
  - apply sqrt_lt_R0, under_root_pos.
Qed.

Lemma rad_sq : rad_of * rad_of * (sin phi_of * sin phi_of + (b / a) * (b / a) * (cos phi_of * cos phi_of)) = b * b.
Proof.
  unfold rad_of. rewrite under_root.
  set (D := sin phi_of * sin phi_of + (b / a) * (b / a) * (cos phi_of * cos phi_of)).
  assert (HD : 0 < D) by apply under_root_pos.
  replace (a * (1 - (a - b) / a)) with b by (field; lra).
  pose proof (sqrt_lt_R0 D HD) as P. pose proof (sqrt_sqrt D (Rlt_le _ _ HD)) as Q.
  rewrite <- Q at 3. field. lra.
Qed.

Lemma pt_level : level a b pt_of = 1.
Proof.
  unfold level, pt_of. cbn [px py pz].
  set (l := radians (wrap_offset (lon - sat))).
  pose proof (sin2_cos2 l) as L. unfold Rsqr in L.
  pose proof rad_sq as Q.
  assert (E : (rad_of * cos phi_of * cos l / a) ^ 2 + (rad_of * cos phi_of * sin l / a) ^ 2
              + (rad_of * sin phi_of / b) ^ 2
          = rad_of * rad_of * (sin phi_of * sin phi_of + (b / a) * (b / a) * (cos phi_of * cos phi_of)
              * (sin l * sin l + cos l * cos l)) / (b * b)) by (field; lra).
  rewrite E, L, Rmult_1_r, Q. field. lra.
Qed.

Lemma pt_towards : towards phi_of (radians (wrap_offset (lon - sat))) pt_of.
Proof.
  split; [apply phi_bound|]. exists rad_of. split; [apply rad_pos|].
  unfold pt_of; cbn [px py pz]. repeat split; ring.
Qed.

Lemma level_px : forall p, level a b p = 1 -> - a <= px p <= a.
Proof.
  intros p E. unfold level in E.
  assert (N : px p = px p / a * a) by (field; lra).
  set (u := px p / a) in *. set (v := py p / a) in *. set (w := pz p / b) in *.
  assert (u * u <= 1) by nra.
  assert (-1 <= u <= 1) by (split; nra).
  rewrite N. split; nra.
Qed.

Lemma pt_seen : forall beta alpha,
  fixed_grid_angles a b ag bg h lon lat sat = (beta, alpha) -> seen_at (h + ag) beta alpha pt_of.
Proof.
  intros beta alpha E. unfold fixed_grid_angles in E.
  fold phi_of in E. fold rad_of in E.
  set (l := radians (wrap_offset (lon - sat))) in *.
  pose proof (level_px _ pt_level) as Bx. unfold pt_of in Bx. cbn [px] in Bx. fold l in Bx.
  assert (V : rad_of * cos phi_of * cos l - (h + ag) < 0) by lra.
  pose proof (angles_of_vector _ (rad_of * cos phi_of * sin l) (rad_of * sin phi_of) V) as A.
  cbv zeta in A, E. injection E as E1 E2. rewrite E1, E2 in A.
  destruct A as [M [B1 [A1 [X [Y Z]]]]].
  split; [exact B1|]. split; [exact A1|]. eexists. split; [exact M|].
  unfold pt_of; cbn [px py pz]; fold l. split; [|split]; [|exact Y|exact Z].
  lra.
Qed.
End POINT.

(** The angles are determined by the point seen. *)
Lemma seen_unique : forall h b1 a1 b2 a2 p, seen_at h b1 a1 p -> seen_at h b2 a2 p -> b1 = b2 /\ a1 = a2.
Proof.
  intros h b1 a1 b2 a2 p [B1 [A1 [d1 [D1 [X1 [Y1 Z1]]]]]] [B2 [A2 [d2 [D2 [X2 [Y2 Z2]]]]]].
  assert (Cb1 : 0 < cos b1) by (apply cos_gt_0; lra).
  assert (Cb2 : 0 < cos b2) by (apply cos_gt_0; lra).
  assert (Ca1 : 0 < cos a1) by (apply cos_gt_0; lra).
  assert (Ca2 : 0 < cos a2) by (apply cos_gt_0; lra).
  assert (N : forall d b a, d * (cos b * cos a) * (d * (cos b * cos a)) + d * sin b * (d * sin b)
              + d * (cos b * sin a) * (d * (cos b * sin a)) = d * d).
  { intros d b a. pose proof (sin2_cos2 a) as Ta. pose proof (sin2_cos2 b) as Tb. unfold Rsqr in *.
    transitivity (d * d * (cos b * cos b * (sin a * sin a + cos a * cos a) + sin b * sin b)); [ring|].
    rewrite Ta. replace (cos b * cos b * 1 + sin b * sin b) with 1 by lra. ring. }
  assert (K1 : d1 * (cos b1 * cos a1) = d2 * (cos b2 * cos a2)) by lra.
  assert (K2 : d1 * sin b1 = d2 * sin b2) by lra.
  assert (K3 : d1 * (cos b1 * sin a1) = d2 * (cos b2 * sin a2)) by lra.
  assert (Dd : d1 * d1 = d2 * d2) by (rewrite <- (N d1 b1 a1), <- (N d2 b2 a2), K1, K2, K3; reflexivity).
  assert (D : d1 = d2) by nra. subst d2.
  assert (Sb : sin b1 = sin b2) by (apply Rmult_eq_reg_l with d1; lra).
  assert (b1 = b2) by (apply sin_inj; lra). subst b2. split; [reflexivity|].
  assert (Sa : sin a1 = sin a2).
  { apply Rmult_eq_reg_l with (d1 * cos b1); [lra|]. apply Rgt_not_eq, Rmult_lt_0_compat; assumption. }
  apply sin_inj; lra.
Qed.

Lemma towards_unique : forall f1 l1 f2 l2 p, towards f1 l1 p -> towards f2 l2 p ->
  f1 = f2 /\ cos l1 = cos l2 /\ sin l1 = sin l2.
Proof.
  intros f1 l1 f2 l2 p [B1 [r1 [P1 [X1 [Y1 Z1]]]]] [B2 [r2 [P2 [X2 [Y2 Z2]]]]].
  assert (C1 : 0 < cos f1) by (apply cos_gt_0; lra).
  assert (C2 : 0 < cos f2) by (apply cos_gt_0; lra).
  assert (N : forall r f l, r * (cos f * cos l) * (r * (cos f * cos l)) + r * (cos f * sin l) * (r * (cos f * sin l))
              + r * sin f * (r * sin f) = r * r).
  { intros r f l. pose proof (sin2_cos2 f) as Tf. pose proof (sin2_cos2 l) as Tl. unfold Rsqr in *.
    transitivity (r * r * (cos f * cos f * (sin l * sin l + cos l * cos l) + sin f * sin f)); [ring|].
    rewrite Tl. replace (cos f * cos f * 1 + sin f * sin f) with 1 by lra. ring. }
  assert (Rr : r1 * r1 = r2 * r2).
  { rewrite <- (N r1 f1 l1), <- (N r2 f2 l2). rewrite <- X1, <- X2, <- Y1, <- Y2, <- Z1, <- Z2. reflexivity. }
  assert (r1 = r2) by nra. subst r2.
  assert (Sf : sin f1 = sin f2) by (apply Rmult_eq_reg_l with r1; lra).
  assert (f1 = f2) by (apply sin_inj; lra). subst f2.
  split; [reflexivity|].
  assert (0 < r1 * cos f1) by (apply Rmult_lt_0_compat; assumption).
  split; apply Rmult_eq_reg_l with (r1 * cos f1); lra.
Qed.

(** ** Symmetries *)
Lemma radians_opp : forall x, radians (- x) = - radians x.
Proof. intro x. unfold radians. field. Qed.

Lemma cos_2PI_Z : forall x k, cos (x + 2 * IZR k * PI) = cos x.
Proof.
  intros x k. destruct (Z_le_gt_dec 0 k) as [P|P].
  - rewrite <- (cos_period x (Z.to_nat k)), INR_IZR_INZ, Z2Nat.id by exact P. reflexivity.
  - rewrite <- (cos_period (x + 2 * IZR k * PI) (Z.to_nat (- k))), INR_IZR_INZ, Z2Nat.id by lia.
    f_equal. rewrite opp_IZR. ring.
Qed.
Lemma sin_2PI_Z : forall x k, sin (x + 2 * IZR k * PI) = sin x.
Proof.
  intros x k. destruct (Z_le_gt_dec 0 k) as [P|P].
  - rewrite <- (sin_period x (Z.to_nat k)), INR_IZR_INZ, Z2Nat.id by exact P. reflexivity.
  - rewrite <- (sin_period (x + 2 * IZR k * PI) (Z.to_nat (- k))), INR_IZR_INZ, Z2Nat.id by lia.
    f_equal. rewrite opp_IZR. ring.
Qed.

Lemma wrap_whole : forall d, exists k, wrap_offset d = d + 360 * IZR k.
Proof.
  intro d. unfold wrap_offset.
  destruct (Rlt_dec d (-180)); [destruct (Rlt_dec 180 (d + 360))|destruct (Rlt_dec 180 d)];
    [exists 0%Z|exists 1%Z|exists (-1)%Z|exists 0%Z]; lra.
Qed.
Lemma wrap_cos : forall d, cos (radians (wrap_offset d)) = cos (radians d).
Proof.
  intro d. destruct (wrap_whole d) as [k ->].
  replace (radians (d + 360 * IZR k)) with (radians d + 2 * IZR k * PI) by (unfold radians; field).
  apply cos_2PI_Z.
Qed.
Lemma wrap_sin : forall d, sin (radians (wrap_offset d)) = sin (radians d).
Proof.
  intro d. destruct (wrap_whole d) as [k ->].
  replace (radians (d + 360 * IZR k)) with (radians d + 2 * IZR k * PI) by (unfold radians; field).
  apply sin_2PI_Z.
Qed.
Lemma wrap_id : forall d, -180 <= d <= 180 -> wrap_offset d = d.
Proof.
  intros d Hd. unfold wrap_offset.
  destruct (Rlt_dec d (-180)); [lra|]. destruct (Rlt_dec 180 d); lra.
Qed.
Lemma wrap_range : forall d, -540 <= d <= 540 -> -180 <= wrap_offset d <= 180.
Proof.
  intros d Hd. unfold wrap_offset.
  destruct (Rlt_dec d (-180)); [destruct (Rlt_dec 180 (d + 360))|destruct (Rlt_dec 180 d)]; lra.
Qed.

(** ** Lines of sight *)
Lemma same_direction_visible : forall a b h p q beta alpha,
  level a b p = 1 -> level a b q = 1 -> visible a b h p -> visible a b h q ->
  seen_at h beta alpha p -> seen_at h beta alpha q -> p = q.
Proof.
  assert (W : forall a b h p q beta alpha dp dq, 0 < dp -> dp < dq ->
    level a b p = 1 -> visible a b h q ->
    px p = h - dp * (cos beta * cos alpha) -> py p = dp * sin beta -> pz p = dp * (cos beta * sin alpha) ->
    px q = h - dq * (cos beta * cos alpha) -> py q = dq * sin beta -> pz q = dq * (cos beta * sin alpha) -> False).
  { intros a b h p q beta alpha dp dq P L E V Xp Yp Zp Xq Yq Zq.
    assert (T : 0 < dp / dq < 1).
    { split; [apply Rdiv_lt_0_compat; lra|]. apply Rmult_lt_reg_r with dq; [lra|].
      unfold Rdiv. rewrite Rmult_assoc, Rinv_l by lra. lra. }
    specialize (V _ T). unfold level, between, satellite in V. cbn [px py pz] in V.
    replace (h + dp / dq * (px q - h)) with (px p) in V by (rewrite Xq, Xp; field; lra).
    replace (0 + dp / dq * (py q - 0)) with (py p) in V by (rewrite Yq, Yp; field; lra).
    replace (0 + dp / dq * (pz q - 0)) with (pz p) in V by (rewrite Zq, Zp; field; lra).
    unfold level in E. lra. }
  intros a b h p q beta alpha Lp Lq Vp Vq [_ [_ [dp [Dp [Xp [Yp Zp]]]]]] [_ [_ [dq [Dq [Xq [Yq Zq]]]]]].
  destruct (Rtotal_order dp dq) as [L|[E|G]].
  - exfalso. eapply (W a b h p q beta alpha dp dq); eassumption.
  - subst dq. destruct p as [x y z], q as [x' y' z']; cbn [px py pz] in *. f_equal; lra.
  - exfalso. eapply (W a b h q p beta alpha dq dp); eassumption.
Qed.

Lemma level_between : forall a b h p t, 0 < a -> 0 < b -> level a b p = 1 ->
  level a b (between (satellite h) p t)
  = 1 + 2 * (1 - t) * (px p * h / (a * a) - 1) + (1 - t) * (1 - t) * (((h - px p) / a) ^ 2 + (py p / a) ^ 2 + (pz p / b) ^ 2).
Proof.
  intros a b h p t Ha Hb E. unfold level in *. unfold between, satellite; cbn [px py pz].
  destruct p as [x y z]; cbn [px py pz] in *.
  assert (Ez : (z / b) ^ 2 = 1 - (x / a) ^ 2 - (y / a) ^ 2) by lra.
  replace ((0 + t * (z - 0)) / b) with (t * (z / b)) by (field; lra).
  replace ((t * (z / b)) ^ 2) with (t ^ 2 * (z / b) ^ 2) by ring.
  rewrite Ez. field. lra.
Qed.

(** The visible part is the cap beyond the tangent plane circle. *)
Lemma visible_iff : forall a b h p, 0 < a -> 0 < b -> a < h -> level a b p = 1 ->
  visible a b h p <-> a * a / h <= px p.
Proof.
  intros a b h p Ha Hb Hh E.
  set (k := px p * h / (a * a) - 1).
  set (Q := ((h - px p) / a) ^ 2 + (py p / a) ^ 2 + (pz p / b) ^ 2).
  assert (Bx : -a <= px p <= a) by (apply (level_px a b); assumption).
  assert (HQ : 0 < Q).
  { unfold Q. assert (0 < (h - px p) / a) by (apply Rdiv_lt_0_compat; lra).
    pose proof (pow2_ge_0 (py p / a)). pose proof (pow2_ge_0 (pz p / b)).
    assert (0 < ((h - px p) / a) ^ 2) by nra. lra. }
  assert (K : 0 <= k <-> a * a / h <= px p).
  { assert (P : 0 < a * a) by nra. assert (R1 : px p = (k + 1) * (a * a / h)) by (unfold k; field; lra).
    assert (P2 : 0 < a * a / h) by (apply Rdiv_lt_0_compat; lra).
    rewrite R1. split; intro; nra. }
  rewrite <- K. clear K. split.
  - intro V. destruct (Rle_or_lt 0 k) as [P|N]; [exact P|exfalso].
    set (s := Rmin (1/2) (- k / Q)).
    assert (S0 : 0 < - k / Q) by (apply Rdiv_lt_0_compat; lra).
    assert (Sp : 0 < s) by (unfold s; apply Rmin_glb_lt; lra).
    assert (Sh : s <= 1/2) by apply Rmin_l.
    assert (Sk : s <= - k / Q) by apply Rmin_r.
    assert (SQ : s * Q <= - k).
    { replace (- k) with (- k / Q * Q) by (field; lra). apply Rmult_le_compat_r; lra. }
    specialize (V (1 - s) ltac:(lra)). rewrite level_between in V by assumption.
    fold k Q in V. replace (1 - (1 - s)) with s in V by ring.
    assert (s * (2 * k + s * Q) < 0) by nra. nra.
  - intros P t T. rewrite level_between by assumption. fold k Q.
    assert (0 < 1 - t) by lra. assert (0 <= (1 - t) * k) by nra.
    assert (0 < (1 - t) * (1 - t) * Q) by (repeat apply Rmult_lt_0_compat; lra). lra.
Qed.
