(** Binary32 arithmetic of Coq.Floats.SpecFloat: the results as rational numbers.  The same
    as FloatProofs.v for the other format. *)
From Coq Require Import ZArith Lia Bool QArith Qabs Lqa Floats.SpecFloat.
From Verif Require Import FloatProofs.
Open Scope Z_scope.

Definition fexp32 (e : Z) : Z := Z.max (e - 24) (-149).
Lemma fexp32_eq : forall e, fexp 24 128 e = fexp32 e.
Proof. reflexivity. Qed.

(** Rounding of [v], which lies in [m, m+1] times 2^e (at its lower end if [l] says so). *)
Lemma round_aux_spec32 : forall s m e l v, 0 <= m ->
  (inject_Z m * p2 e <= v <= inject_Z (m + 1) * p2 e)%Q -> (l = loc_Exact -> (v == inject_Z m * p2 e)%Q) ->
  (l = loc_Exact \/ e <= fexp32 (Zdigits2 m + e)) -> e <= 100 -> Zdigits2 m + e <= 100 ->
  is_finite (binary_round_aux 24 128 s m e l) /\
  (Qabs (vq (binary_round_aux 24 128 s m e l) - sg s * v) <= 2 * p2 (fexp32 (Zdigits2 m + e)))%Q /\
  (l = loc_Exact -> fexp32 (Zdigits2 m + e) <= e -> (vq (binary_round_aux 24 128 s m e l) == sg s * v)%Q).
Proof.
  intros s m e l v Hm Hv Hex Hl He Hd. unfold binary_round_aux, shr_fexp. rewrite fexp32_eq.
  destruct (shr (shr_record_of_loc m l) e (fexp32 (Zdigits2 m + e) - e)) as [mrs1 e1] eqn:E1.
  destruct (shr_spec _ _ _ _ _ ltac:(rewrite shr_of_loc_m; exact Hm) E1) as [He1 Hm1].
  rewrite shr_of_loc_m in Hm1.
  set (F := fexp32 (Zdigits2 m + e)) in *. set (n := Z.max 0 (F - e)) in *.
  assert (P : 0 < 2 ^ n) by (apply Z.pow_pos_nonneg; lia).
  set (m1 := shr_m mrs1) in *.
  assert (Hm1p : 0 <= m1) by (rewrite Hm1; apply Z.div_pos; lia).
  (* digits after the first shift *)
  assert (D1 : fexp32 (Zdigits2 m1 + e1) <= e1).
  { destruct (Z.eq_dec m 0) as [Z0|NZ].
    - subst m. rewrite Z.div_0_l in Hm1 by lia. rewrite Hm1. cbn. unfold fexp32. unfold F, fexp32 in n. cbn in n. lia.
    - pose proof (digits_nonneg m Hm). assert (0 < Zdigits2 m) by (destruct m; cbn; lia).
      destruct (Z_lt_ge_dec n (Zdigits2 m)) as [L|G].
      + rewrite Hm1, digits_div by lia. replace (Zdigits2 m - n + e1) with (Zdigits2 m + e) by lia. fold F. lia.
      + assert (m1 = 0).
        { rewrite Hm1. apply Z.div_small. pose proof (digits_bounds m ltac:(lia)) as [_ U].
          assert (2 ^ Zdigits2 m <= 2 ^ n) by (apply Z.pow_le_mono_r; lia). lia. }
        rewrite H1. cbn. unfold fexp32. unfold F, fexp32 in *. lia. }
  (* the value seen from the shifted mantissa *)
  assert (V1 : (inject_Z m1 * p2 e1 <= v <= inject_Z (m1 + 1) * p2 e1)%Q).
  { rewrite He1. assert (EN : (p2 (e + n) == p2 e * inject_Z (2 ^ n))%Q) by (rewrite p2_plus, (p2_Z n) by lia; reflexivity). rewrite EN. pose proof (p2_pos e) as PE.
    assert (A : m1 * 2 ^ n <= m) by (rewrite Hm1, Z.mul_comm; apply Z.mul_div_le; exact P).
    assert (B : m + 1 <= (m1 + 1) * 2 ^ n).
    { rewrite Hm1. pose proof (Z.mod_pos_bound m (2 ^ n) P). pose proof (Z.div_mod m (2 ^ n) ltac:(lia)). nia. }
    rewrite Zle_Qle, inject_Z_mult in A. rewrite Zle_Qle, inject_Z_mult in B.
    split; nra. }
  set (r := round_nearest_even m1 (loc_of_shr_record mrs1)) in *.
  assert (Rc : r = m1 \/ r = m1 + 1) by apply round_cases.
  assert (Dr : fexp32 (Zdigits2 r + e1) <= e1 + 1).
  { assert (Zdigits2 r <= Zdigits2 m1 + 1).
    { pose proof (digits_nonneg m1 Hm1p). destruct (Z.eq_dec m1 0) as [Z1|N1].
      - destruct Rc as [-> | ->]; rewrite Z1; cbn; lia.
      - pose proof (digits_bounds m1 ltac:(lia)) as [_ U]. apply digits_le; [|lia].
        rewrite Z.pow_add_r by lia. lia. }
    unfold fexp32 in *. lia. }
  destruct (shr (shr_record_of_loc r loc_Exact) e1 (fexp32 (Zdigits2 r + e1) - e1)) as [mrs2 e2] eqn:E2.
  change (fexp 24 128) with fexp32. rewrite E2.
  assert (Hr : 0 <= shr_m (shr_record_of_loc r loc_Exact)) by (rewrite shr_of_loc_m; lia).
  destruct (shr_spec _ _ _ _ _ Hr E2) as [He2 Hm2].
  rewrite shr_of_loc_m in Hm2. set (k := Z.max 0 (fexp32 (Zdigits2 r + e1) - e1)) in *.
  assert (K : k = 0 \/ k = 1) by lia.
  set (m2 := shr_m mrs2) in *.
  assert (Hm2p : 0 <= m2) by (rewrite Hm2; apply Z.div_pos; [lia|apply Z.pow_pos_nonneg; lia]).
  assert (e2 <= 104) by (unfold F, fexp32 in *; lia).
  assert (R : forall x, x = match m2 with 0 => S754_zero s
     | Zpos p => if Z.leb e2 (128 - 24) then S754_finite s p e2 else S754_infinity s
     | Z.neg _ => S754_nan end -> is_finite x /\ (vq x == sg s * (inject_Z m2 * p2 e2))%Q).
  { intros x ->. destruct m2 as [|p|p]; [|change (128 - 24) with 104|lia].
    - split; [exact I|]. cbn [vq]. change (inject_Z 0) with 0%Q. ring.
    - rewrite (proj2 (Z.leb_le e2 104)) by lia. split; [exact I|]. reflexivity. }
  destruct (R _ eq_refl) as [RF RV]. split; [exact RF|].
  assert (Two : (inject_Z m2 * p2 e2 <= inject_Z r * p2 e1 <= inject_Z m2 * p2 e2 + p2 e1)%Q
                /\ (k = 0 -> (inject_Z m2 * p2 e2 == inject_Z r * p2 e1)%Q)).
  { rewrite He2, p2_plus. pose proof (p2_pos e1) as PE. destruct K as [K|K]; rewrite K in *.
    - rewrite Z.pow_0_r, Z.div_1_r in Hm2. rewrite Hm2. change (p2 0) with 1%Q. split; [split|intros _]; nra.
    - change (2 ^ 1) with 2 in Hm2. change (p2 1) with 2%Q.
      assert (A : 2 * m2 <= r <= 2 * m2 + 1) by (rewrite Hm2; pose proof (Z.div_mod r 2 ltac:(lia)); pose proof (Z.mod_pos_bound r 2 ltac:(lia)); lia).
      destruct A as [A B]. rewrite Zle_Qle, inject_Z_mult in A. rewrite Zle_Qle, inject_Z_plus, inject_Z_mult in B.
      change (inject_Z 2) with 2%Q in *. change (inject_Z 1) with 1%Q in *. split; [split; nra|lia]. }
  assert (SgAbs : forall a b : Q, (Qabs (sg s * a - sg s * b) == Qabs (a - b))%Q).
  { intros a b. destruct s; cbn [sg].
    - setoid_replace (-1 * a - -1 * b)%Q with (- (a - b))%Q by ring. apply Qabs_opp.
    - setoid_replace (1 * a - 1 * b)%Q with (a - b)%Q by ring. reflexivity. }
  assert (Exact0 : l = loc_Exact -> F <= e -> (inject_Z m2 * p2 e2 == v)%Q).
  { intros Hle HF. assert (n0 : n = 0) by lia.
    assert (E1' : e1 = e) by lia. assert (M1' : m1 = m) by (rewrite Hm1, n0, Z.pow_0_r, Z.div_1_r; reflexivity).
    assert (mrs1 = shr_record_of_loc m l).
    { unfold shr in E1. destruct (F - e) eqn:EF; [injection E1; auto|lia|injection E1; auto]. }
    assert (Rm : r = m). { unfold r. rewrite M1', H0, Hle. reflexivity. }
    assert (k = 0). { unfold k. rewrite Rm, E1'. fold F. lia. }
    destruct Two as [_ T]. rewrite (T H1), Rm, E1'. symmetry. apply Hex, Hle. }
  split.
  - rewrite RV, SgAbs.
    destruct (Z_le_gt_dec F e) as [FL|FG].
    + destruct Hl as [Hl|Hl].
      * rewrite (Exact0 Hl FL). setoid_replace (v - v)%Q with 0%Q by ring. pose proof (p2_pos F). cbn. lra.
      * assert (F = e) by lia. assert (e1 = F) by lia. rewrite H1 in *.
        pose proof (p2_pos F) as PF. apply Qabs_Qle_condition.
        assert (Rq : (inject_Z r == inject_Z m1 \/ inject_Z r == inject_Z m1 + 1)%Q).
        { destruct Rc as [-> | ->]; [left; reflexivity|right; rewrite inject_Z_plus; reflexivity]. }
        rewrite inject_Z_plus in V1. change (inject_Z 1) with 1%Q in V1.
        destruct Two as [Two _]. destruct Rq as [Rq|Rq]; rewrite Rq in Two; split; nra.
    + assert (e1 = F) by lia. rewrite H0 in *.
      pose proof (p2_pos F) as PF. apply Qabs_Qle_condition.
      assert (Rq : (inject_Z r == inject_Z m1 \/ inject_Z r == inject_Z m1 + 1)%Q).
      { destruct Rc as [-> | ->]; [left; reflexivity|right; rewrite inject_Z_plus; reflexivity]. }
      rewrite inject_Z_plus in V1. change (inject_Z 1) with 1%Q in V1.
      destruct Two as [Two _]. destruct Rq as [Rq|Rq]; rewrite Rq in Two; split; nra.
  - intros Hle HF. rewrite RV, (Exact0 Hle HF). reflexivity.
Qed.

(** * The operations *)
(** [r] is [v] up to two units in the last place. *)
Definition approx32 (r : spec_float) (v : Q) : Prop :=
  is_finite r /\ (Qabs (vq r - v) <= p2 (-22) * Qabs v + p2 (-148))%Q.

Lemma round_approx32 : forall s m e l v, 0 < m ->
  (inject_Z m * p2 e <= v <= inject_Z (m + 1) * p2 e)%Q -> (l = loc_Exact -> (v == inject_Z m * p2 e)%Q) ->
  (l = loc_Exact \/ e <= fexp32 (Zdigits2 m + e)) -> (v <= p2 90)%Q ->
  approx32 (binary_round_aux 24 128 s m e l) (sg s * v).
Proof.
  intros s m e l v Hm Hv Hex Hl Hb.
  pose proof (digits_value m e Hm) as DV. pose proof (p2_pos e) as PE.
  assert (D : Zdigits2 m + e <= 91).
  { apply p2_le_inv. apply Qle_trans with (2 * v)%Q; [lra|]. change 91 with (1 + 90). rewrite p2_plus.
    change (p2 1) with 2%Q. lra. }
  assert (D0 : 0 < Zdigits2 m) by (destruct m; cbn; lia).
  destruct (round_aux_spec32 s m e l v ltac:(lia) Hv Hex Hl ltac:(lia) ltac:(lia)) as [F [E _]].
  split; [exact F|]. rewrite sg_abs. eapply Qle_trans; [exact E|].
  assert (Vp : (0 <= v)%Q). { assert (0 <= inject_Z m)%Q by (change 0%Q with (inject_Z 0); rewrite <- Zle_Qle; lia). nra. }
  rewrite (Qabs_pos v Vp).
  assert (B : (p2 (fexp32 (Zdigits2 m + e)) <= p2 (Zdigits2 m + e - 24) + p2 (-149))%Q).
  { unfold fexp32. pose proof (p2_pos (Zdigits2 m + e - 24)). pose proof (p2_pos (-149)).
    destruct (Z.max_spec (Zdigits2 m + e - 24) (-149)) as [[_ ->]|[_ ->]]; lra. }
  assert (B2 : (p2 (Zdigits2 m + e - 24) == p2 (Zdigits2 m + e) * p2 (-24))%Q) by (rewrite <- p2_plus; reflexivity).
  assert (C1 : (p2 (-148) == 2 * p2 (-149))%Q) by (change (-148) with (1 + -149); rewrite p2_plus; reflexivity).
  assert (C2 : (p2 (-22) == 4 * p2 (-24))%Q) by (change (-22) with (2 + -24); rewrite p2_plus; reflexivity).
  rewrite C1, C2. pose proof (p2_pos (-24)) as P53. rewrite B2 in B. nra.
Qed.

(** The mantissa and exponent that are rounded have the value of [m], [e]. *)
Lemma binary_round_aligned32 : forall m e, exists mz ez,
  shl_align m e (fexp32 (Zpos (digits2_pos m) + e)) = (mz, ez) /\
  (inject_Z (Zpos mz) * p2 ez == inject_Z (Zpos m) * p2 e)%Q /\ Zdigits2 (Zpos mz) + ez = Zdigits2 (Zpos m) + e /\
  ez = Z.min e (fexp32 (Zdigits2 (Zpos m) + e)).
Proof.
  intros m e. set (f := fexp32 (Zpos (digits2_pos m) + e)). change (fexp32 (Zdigits2 (Zpos m) + e)) with f.
  destruct (Z_le_gt_dec f e) as [L|G].
  - destruct (shl_align_spec m e f L) as [m' [E V]]. exists m', f. split; [exact E|]. split; [|split; [|lia]].
    + rewrite V, inject_Z_mult, <- p2_Z by lia. replace e with ((e - f) + f) at 2 by lia. rewrite p2_plus. ring.
    + enough (Zdigits2 (Zpos m') = Zdigits2 (Zpos m) + (e - f)) by lia.
      pose proof (digits_pos m) as [A B]. apply digits_unique; [lia|]. rewrite V.
      change (Zpos (digits2_pos m)) with (Zdigits2 (Zpos m)) in *.
      assert (0 < Zdigits2 (Zpos m)) by (cbn; lia).
      replace (Zdigits2 (Zpos m) + (e - f) - 1) with (Zdigits2 (Zpos m) - 1 + (e - f)) by lia.
      rewrite !Z.pow_add_r by lia. assert (0 < 2 ^ (e - f)) by (apply Z.pow_pos_nonneg; lia). nia.
  - exists m, e. rewrite shl_align_id by lia. repeat split; try reflexivity. lia.
Qed.

Lemma binary_round_approx32 : forall s m e, (inject_Z (Zpos m) * p2 e <= p2 90)%Q ->
  approx32 (binary_round 24 128 s m e) (sg s * (inject_Z (Zpos m) * p2 e)).
Proof.
  intros s m e H. unfold binary_round. change (fexp 24 128) with fexp32.
  destruct (binary_round_aligned32 m e) as [mz [ez [E [V [D _]]]]]. rewrite E.
  apply round_approx32.
  - lia.
  - rewrite <- V. rewrite inject_Z_plus. pose proof (p2_pos ez). change (inject_Z 1) with 1%Q. split; nra.
  - intros _. rewrite V. reflexivity.
  - left. reflexivity.
  - exact H.
Qed.
Lemma binary_round_exact32 : forall s m e, Zdigits2 (Zpos m) <= 24 -> -120 <= e <= 60 ->
  is_finite (binary_round 24 128 s m e) /\ (vq (binary_round 24 128 s m e) == sg s * (inject_Z (Zpos m) * p2 e))%Q.
Proof.
  intros s m e H He. unfold binary_round. change (fexp 24 128) with fexp32.
  destruct (binary_round_aligned32 m e) as [mz [ez [E [V [D Ez]]]]]. rewrite E.
  assert (0 < Zdigits2 (Zpos m)) by (cbn; lia).
  destruct (round_aux_spec32 s (Zpos mz) ez loc_Exact (inject_Z (Zpos m) * p2 e)%Q) as [F [_ X]].
  - lia.
  - rewrite <- V. rewrite inject_Z_plus. pose proof (p2_pos ez). change (inject_Z 1) with 1%Q. split; nra.
  - intros _. rewrite V. reflexivity.
  - left. reflexivity.
  - unfold fexp32 in *. lia.
  - lia.
  - split; [exact F|]. apply X; [reflexivity|]. rewrite D. unfold fexp32 in *. lia.
Qed.

Lemma normalize_approx32 : forall M e z v, (v == inject_Z M * p2 e)%Q -> (Qabs v <= p2 90)%Q ->
  approx32 (binary_normalize 24 128 M e z) v.
Proof.
  intros M e z v V B. assert (P : forall p, (Qabs (inject_Z (Zpos p) * p2 e) == inject_Z (Zpos p) * p2 e)%Q).
  { intro p. apply Qabs_pos. pose proof (p2_pos e). assert (0 <= inject_Z (Zpos p))%Q by (change 0%Q with (inject_Z 0); rewrite <- Zle_Qle; lia). nra. }
  destruct M as [|p|p]; cbn [binary_normalize].
  - split; [exact I|]. cbn [vq]. change (inject_Z 0) with 0%Q in V. setoid_replace v with 0%Q by (rewrite V; ring).
    pose proof (p2_pos (-148)). cbn. lra.
  - destruct (binary_round_approx32 false p e) as [F E].
    + rewrite <- P, <- V. exact B.
    + split; [exact F|]. cbn [sg] in E. setoid_replace v with (1 * (inject_Z (Zpos p) * p2 e))%Q by (rewrite V; ring). exact E.
  - assert (V' : (v == sg true * (inject_Z (Zpos p) * p2 e))%Q).
    { rewrite V. cbn [sg]. change (inject_Z (Z.neg p)) with (- inject_Z (Zpos p))%Q. ring. }
    destruct (binary_round_approx32 true p e) as [F E].
    + rewrite <- P, <- (sg_abs true), <- V'. exact B.
    + split; [exact F|]. rewrite V'. exact E.
Qed.

Lemma of_int_exact32 : forall z, Z.abs z < 2 ^ 24 ->
  is_finite (binary_normalize 24 128 z 0 false) /\ (vq (binary_normalize 24 128 z 0 false) == inject_Z z)%Q.
Proof.
  intros z H. assert (D : forall p, Zpos p < 2 ^ 24 -> Zdigits2 (Zpos p) <= 24) by (intros p Hp; apply digits_le; lia).
  destruct z as [|p|p]; cbn [binary_normalize].
  - split; [exact I|reflexivity].
  - destruct (binary_round_exact32 false p 0 (D p ltac:(lia)) ltac:(lia)) as [F E]. split; [exact F|].
    rewrite E. cbn [sg]. change (p2 0) with 1%Q. ring.
  - destruct (binary_round_exact32 true p 0 (D p ltac:(lia)) ltac:(lia)) as [F E]. split; [exact F|].
    rewrite E. cbn [sg]. change (p2 0) with 1%Q. change (inject_Z (Z.neg p)) with (- inject_Z (Zpos p))%Q. ring.
Qed.

Lemma approx_exact32 : forall r v, is_finite r -> (vq r == v)%Q -> approx32 r v.
Proof.
  intros r v F E. split; [exact F|]. rewrite E. setoid_replace (v - v)%Q with 0%Q by ring.
  pose proof (Qabs_nonneg v). pose proof (p2_pos (-22)). pose proof (p2_pos (-148)). cbn. nra.
Qed.

Theorem add_approx32 : forall x y, is_finite x -> is_finite y -> (Qabs (vq x + vq y) <= p2 90)%Q ->
  approx32 (SFadd 24 128 x y) (vq x + vq y).
Proof.
  intros x y Fx Fy B. destruct x as [a|a| |a mx ex]; try destruct Fx; destruct y as [b|b| |b my ey]; try destruct Fy.
  - apply approx_exact32; cbn [SFadd]; destruct (Bool.eqb a b); try exact I; cbn [vq]; ring.
  - apply approx_exact32; [exact I|]. cbn [SFadd]. unfold vq at 2. ring.
  - apply approx_exact32; [exact I|]. cbn [SFadd]. unfold vq at 3. ring.
  - cbn [SFadd]. apply normalize_approx32; [|exact B].
    rewrite inject_Z_plus, Qmult_plus_distr_l, !aligned_value by lia. reflexivity.
Qed.
