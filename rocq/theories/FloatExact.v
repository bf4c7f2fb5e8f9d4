(** Exact cases of binary64 arithmetic, and bounds on the error of chains of operations. *)
From Coq Require Import List ZArith Lia Bool QArith Qabs Qround Lqa Floats.SpecFloat.
From Verif Require Import Base Unsigned FloatProofs TilesBinary.
Import ListNotations.
Open Scope Z_scope.

(** * Conversion to integers *)
Lemma finite_split : forall m e, e < 0 -> (inject_Z (Zpos m) * p2 e == inject_Z (Zpos m) / inject_Z (2 ^ (- e)))%Q.
Proof.
  intros m e H. assert (P : (0 < inject_Z (2 ^ (- e)))%Q) by (change 0%Q with (inject_Z 0); rewrite <- Zlt_Qlt; apply Z.pow_pos_nonneg; lia).
  assert (X : (p2 e * inject_Z (2 ^ (- e)) == 1)%Q).
  { rewrite <- p2_Z by lia. rewrite <- p2_plus. replace (e + - e) with 0 by lia. reflexivity. }
  rewrite <- (Qmult_1_r (inject_Z (Zpos m) / _)), <- X. field. lra.
Qed.
Lemma to_int_floor : forall x, is_finite x -> (0 <= vq x)%Q -> to_int x = Some (Qfloor (vq x)).
Proof.
  intros [a|a| |a m e] F H; try destruct F; [reflexivity|]. cbn [to_int vq] in *. f_equal.
  assert (PM : (0 < inject_Z (Zpos m))%Q) by (change 0%Q with (inject_Z 0); rewrite <- Zlt_Qlt; lia).
  pose proof (p2_pos e) as PE. destruct a; [exfalso; nra|]. rewrite Qmult_1_l.
  destruct (Z.leb_spec 0 e) as [L|G].
  - rewrite p2_Z by lia. rewrite <- inject_Z_mult. symmetry. apply Qfloor_Z.
  - rewrite finite_split by lia. rewrite Zdiv_Qdiv. reflexivity.
Qed.
Lemma fceil_ceiling : forall x, is_finite x -> fceil x = Some (Qceiling (vq x)).
Proof.
  intros [a|a| |a m e] F; try destruct F; [reflexivity|]. cbn [fceil vq] in *. f_equal. unfold Qceiling.
  assert (PM : (0 < inject_Z (Zpos m))%Q) by (change 0%Q with (inject_Z 0); rewrite <- Zlt_Qlt; lia).
  assert (V : ((if a then -1 else 1) * (inject_Z (Zpos m) * p2 e) == inject_Z (if a then - Zpos m else Zpos m) * p2 e)%Q).
  { destruct a; [rewrite inject_Z_opp|]; ring. }
  rewrite V. clear V. set (z := if a then - Zpos m else Zpos m). destruct (Z.leb_spec 0 e) as [L|G].
  - rewrite p2_Z by lia. rewrite <- inject_Z_mult, <- inject_Z_opp, Qfloor_Z. lia.
  - f_equal. assert (X : (- (inject_Z z * p2 e) == inject_Z (- z) / inject_Z (2 ^ (- e)))%Q).
    { assert (P : (0 < inject_Z (2 ^ (- e)))%Q) by (change 0%Q with (inject_Z 0); rewrite <- Zlt_Qlt; apply Z.pow_pos_nonneg; lia).
      assert (X : (p2 e * inject_Z (2 ^ (- e)) == 1)%Q).
      { rewrite <- p2_Z by lia. rewrite <- p2_plus. replace (e + - e) with 0 by lia. reflexivity. }
      rewrite inject_Z_opp. rewrite <- (Qmult_1_r (- inject_Z z / _)), <- X. field. lra. }
    rewrite X, Zdiv_Qdiv. reflexivity.
Qed.

(** * Exact division *)
Lemma shr_exact : forall p q m, m = Zpos q * 2 ^ Zpos p ->
  iter_pos shr_1 p (Build_shr_record m false false) = Build_shr_record (Zpos q) false false.
Proof.
  assert (one : forall q, shr_1 (Build_shr_record (2 * Zpos q) false false) = Build_shr_record (Zpos q) false false) by reflexivity.
  assert (P : forall q p, exists r, Zpos r = Zpos q * 2 ^ Zpos p).
  { intros q p. assert (0 < 2 ^ Zpos p) by (apply Z.pow_pos_nonneg; lia). exists (Z.to_pos (Zpos q * 2 ^ Zpos p)). rewrite Z2Pos.id; nia. }
  induction p as [p IH|p IH|]; intros q m E; cbn [iter_pos].
  - destruct (P q p) as (r1 & R1). destruct (P r1 p) as (r2 & R2).
    assert (E2 : m = 2 * Zpos r2).
    { rewrite E, R2, R1. replace (Zpos p~1) with (1 + Zpos p + Zpos p) by lia. rewrite !Z.pow_add_r by lia. lia. }
    rewrite E2, one, (IH r1) by exact R2. apply IH. exact R1.
  - destruct (P q p) as (r1 & R1). rewrite (IH r1).
    + apply IH. exact R1.
    + rewrite E, R1. replace (Zpos p~0) with (Zpos p + Zpos p) by lia. rewrite Z.pow_add_r by lia. lia.
  - rewrite E. change (2 ^ 1) with 2. rewrite Z.mul_comm. apply one.
Qed.
Lemma aux_exact : forall s q k e, 2 ^ 52 <= Zpos q < 2 ^ 53 -> 0 <= k -> -1074 <= e + k <= 971 -> forall m, m = Zpos q * 2 ^ k ->
  binary_round_aux 53 1024 s m e loc_Exact = S754_finite s q (e + k).
Proof.
  intros s q k e Hq Hk He m Hm. unfold binary_round_aux, shr_fexp.
  assert (PK : 0 < 2 ^ k) by (apply Z.pow_pos_nonneg; lia).
  assert (Dq : Zdigits2 (Zpos q) = 53) by (apply digits_unique; lia).
  assert (Dm : Zdigits2 m = 53 + k).
  { apply digits_unique; [nia|]. rewrite Hm. replace (53 + k - 1) with (52 + k) by lia. rewrite !Z.pow_add_r by lia. nia. }
  rewrite Dm. unfold fexp at 1. replace (Z.max (53 + k + e - 53) (emin 53 1024)) with (e + k) by (unfold emin; lia).
  replace (e + k - e) with k by lia.
  assert (S1 : shr (shr_record_of_loc m loc_Exact) e k = (Build_shr_record (Zpos q) false false, e + k)).
  { unfold shr, shr_record_of_loc. destruct k as [|k|k]; [|rewrite (shr_exact k q) by exact Hm; reflexivity|lia].
    rewrite Hm, Z.pow_0_r, Z.mul_1_r, Z.add_0_r. reflexivity. }
  rewrite S1. cbn [shr_m loc_of_shr_record round_nearest_even]. rewrite Dq.
  unfold fexp. replace (Z.max (53 + (e + k) - 53) (emin 53 1024) - (e + k)) with 0 by (unfold emin; lia).
  cbn [shr shr_record_of_loc shr_m]. rewrite (proj2 (Z.leb_le (e + k) (1024 - 53))) by lia. reflexivity.
Qed.
(** A quotient that is a positive whole number below 2^53 is exact. *)
Theorem div_whole : forall mx ex my ey k, 0 < k < 2 ^ 53 ->
  (inject_Z (Zpos mx) * p2 ex == inject_Z k * (inject_Z (Zpos my) * p2 ey))%Q ->
  is_finite (SFdiv 53 1024 (S754_finite false mx ex) (S754_finite false my ey)) /\
  (vq (SFdiv 53 1024 (S754_finite false mx ex) (S754_finite false my ey)) == inject_Z k)%Q.
Proof.
  intros mx ex my ey k K HV. cbn [SFdiv]. unfold SFdiv_core_binary. change (fexp 53 1024) with fexp64.
  set (d1 := Zdigits2 (Zpos mx)). set (d2 := Zdigits2 (Zpos my)).
  set (e' := Z.min (fexp64 (d1 + ex - (d2 + ey))) (ex - ey)). set (s := ex - ey - e').
  assert (Hs : 0 <= s) by lia.
  set (m' := match s with Zpos _ => Z.shiftl (Zpos mx) s | 0 => Zpos mx | Z.neg _ => 0 end).
  assert (Hm' : m' = Zpos mx * 2 ^ s).
  { unfold m'. destruct s as [|p|p]; [rewrite Z.pow_0_r; lia| |lia]. apply Z.shiftl_mul_pow2. lia. }
  assert (D1 : 0 < d1) by (unfold d1; cbn; lia). assert (D2 : 0 < d2) by (unfold d2; cbn; lia).
  assert (B1 : (p2 (d1 - 1) <= inject_Z (Zpos mx))%Q).
  { rewrite p2_Z by lia. rewrite <- Zle_Qle. apply digits_bounds. lia. }
  assert (B2 : (inject_Z (Zpos my) < p2 d2)%Q).
  { rewrite p2_Z by lia. rewrite <- Zlt_Qlt. apply digits_bounds. lia. }
  assert (PK : (0 < inject_Z k)%Q) by (change 0%Q with (inject_Z 0); rewrite <- Zlt_Qlt; lia).
  assert (KB : (inject_Z k <= p2 53)%Q) by (rewrite p2_Z by lia; rewrite <- Zle_Qle; lia).
  pose proof (p2_pos ex) as Pex. pose proof (p2_pos ey) as Pey.
  assert (E0 : e' <= 0).
  { enough (d1 - 1 + ex <= 53 + d2 + ey) as L.
    { enough (d1 + ex - (d2 + ey) <= 53) by (unfold e', fexp64; lia).
      destruct (Z.eq_dec (d1 - 1 + ex) (53 + d2 + ey)) as [E|N]; [|lia]. exfalso.
      assert (p2 (d1 - 1 + ex) == p2 (53 + d2 + ey))%Q as X by (rewrite E; reflexivity). rewrite !p2_plus in X.
      pose proof (p2_pos 53). pose proof (p2_pos d2).
      assert (inject_Z k * inject_Z (Zpos my) < p2 53 * p2 d2)%Q by nra. nra. }
    apply p2_le_inv. rewrite !p2_plus.
    assert (p2 (d1 - 1) * p2 ex <= inject_Z (Zpos mx) * p2 ex)%Q by nra.
    assert (inject_Z k * inject_Z (Zpos my) <= p2 53 * p2 d2)%Q.
    { assert (0 < inject_Z (Zpos my))%Q by (change 0%Q with (inject_Z 0); rewrite <- Zlt_Qlt; lia). pose proof (p2_pos 53). nra. }
    nra. }
  assert (PE' : 0 < 2 ^ (- e')) by (apply Z.pow_pos_nonneg; lia).
  assert (Em : m' = Zpos my * (k * 2 ^ (- e'))).
  { apply inject_Z_injective. rewrite Hm', !inject_Z_mult, <- !p2_Z by lia.
    apply Qmult_inj_r with (p2 (e' + ey)); [pose proof (p2_pos (e' + ey)); lra|].
    setoid_replace (inject_Z (Zpos mx) * p2 s * p2 (e' + ey))%Q with (inject_Z (Zpos mx) * p2 ex)%Q.
    - rewrite HV. setoid_replace (inject_Z (Zpos my) * (inject_Z k * p2 (- e')) * p2 (e' + ey))%Q with (inject_Z (Zpos my) * inject_Z k * (p2 (- e') * p2 (e' + ey)))%Q by ring.
      rewrite <- p2_plus. replace (- e' + (e' + ey)) with ey by lia. ring.
    - setoid_replace (inject_Z (Zpos mx) * p2 s * p2 (e' + ey))%Q with (inject_Z (Zpos mx) * (p2 s * p2 (e' + ey)))%Q by ring.
      rewrite <- p2_plus. replace (s + (e' + ey)) with ex by lia. reflexivity. }
  rewrite (surjective_pairing (Z.div_eucl m' (Zpos my))).
  change (fst (Z.div_eucl m' (Zpos my))) with (m' / Zpos my). change (snd (Z.div_eucl m' (Zpos my))) with (m' mod Zpos my).
  assert (Eq : m' / Zpos my = k * 2 ^ (- e')) by (rewrite Em, Z.mul_comm; apply Z.div_mul; lia).
  assert (Er : m' mod Zpos my = 0) by (rewrite Em, Z.mul_comm; apply Z.mod_mul; lia).
  rewrite Eq, Er. cbn [xorb].
  assert (L : new_location (Zpos my) 0 = loc_Exact).
  { unfold new_location, new_location_even, new_location_odd. destruct (Z.even (Zpos my)); reflexivity. }
  rewrite L. clear L.
  set (dk := Zdigits2 k). assert (Dk : 0 < dk <= 53).
  { unfold dk. split; [destruct k; cbn; lia|]. apply digits_le; lia. }
  pose proof (digits_bounds k ltac:(lia)) as DB. fold dk in DB.
  (* the digits of the quotient: at least 53 *)
  assert (SH : e' <= dk - 53).
  { enough (d1 + ex - (d2 + ey) <= dk) by (unfold e', fexp64; lia).
    enough (d1 - 1 + ex < dk + d2 + ey) by lia.
    destruct (Z_lt_ge_dec (d1 - 1 + ex) (dk + d2 + ey)) as [l|g]; [exact l|exfalso].
    assert (X : (p2 (dk + d2 + ey) <= p2 (d1 - 1 + ex))%Q) by (apply p2_le; lia). rewrite !p2_plus in X.
    assert (Kd : (inject_Z k < p2 dk)%Q) by (rewrite p2_Z by lia; rewrite <- Zlt_Qlt; lia).
    pose proof (p2_pos dk). pose proof (p2_pos d2).
    assert (0 < inject_Z (Zpos my))%Q by (change 0%Q with (inject_Z 0); rewrite <- Zlt_Qlt; lia).
    assert (inject_Z k * inject_Z (Zpos my) < p2 dk * p2 d2)%Q by nra. nra. }
  assert (PQ : 0 < 2 ^ (53 - dk)) by (apply Z.pow_pos_nonneg; lia).
  assert (QB : 2 ^ 52 <= k * 2 ^ (53 - dk) < 2 ^ 53).
  { split.
    - apply Z.le_trans with (2 ^ (dk - 1) * 2 ^ (53 - dk)); [|nia]. rewrite <- Z.pow_add_r by lia. replace (dk - 1 + (53 - dk)) with 52 by lia. lia.
    - apply Z.lt_le_trans with (2 ^ dk * 2 ^ (53 - dk)); [nia|]. rewrite <- Z.pow_add_r by lia. replace (dk + (53 - dk)) with 53 by lia. lia. }
  destruct (k * 2 ^ (53 - dk)) as [|qq|qq] eqn:EQ; try lia.
  assert (BR : e' + (dk - 53 - e') = dk - 53) by lia.
  rewrite (aux_exact false qq (dk - 53 - e') e' QB ltac:(lia) ltac:(lia)).
  - rewrite BR. split; [exact I|]. cbn [vq]. rewrite <- EQ, inject_Z_mult, <- p2_Z by lia.
    setoid_replace (1 * (inject_Z k * p2 (53 - dk) * p2 (dk - 53)))%Q with (inject_Z k * (p2 (53 - dk) * p2 (dk - 53)))%Q by ring.
    rewrite <- p2_plus. replace (53 - dk + (dk - 53)) with 0 by lia. change (p2 0) with 1%Q. ring.
  - rewrite <- EQ. replace (- e') with ((53 - dk) + (dk - 53 - e')) by lia. rewrite Z.pow_add_r by lia. ring.
Qed.

Lemma of_int_pos : forall n, 0 < n < 2 ^ 53 -> exists m e, of_int n = S754_finite false m e /\ (inject_Z (Zpos m) * p2 e == inject_Z n)%Q.
Proof.
  intros n H. destruct (of_int_exact n ltac:(lia)) as (F & V). fold (of_int n) in F, V.
  assert (P : (0 < inject_Z n)%Q) by (change 0%Q with (inject_Z 0); rewrite <- Zlt_Qlt; lia).
  destruct (of_int n) as [a|a| |a m e]; try destruct F; cbn [vq] in V.
  - exfalso. lra.
  - assert (PM : (0 < inject_Z (Zpos m))%Q) by (change 0%Q with (inject_Z 0); rewrite <- Zlt_Qlt; lia). pose proof (p2_pos e).
    destruct a; [exfalso; nra|]. exists m, e. split; [reflexivity|]. rewrite <- V. ring.
Qed.
(** [int(n/s)] is the integer quotient. *)
Theorem int_quotient : forall n s, 0 <= n < 2 ^ 24 -> 0 < s <= 2 ^ 24 -> to_int (fdiv (of_int n) (of_int s)) = Some (n / s).
Proof.
  intros n s N S. destruct (of_int_pos s ltac:(lia)) as (my & ey & ES & VS).
  destruct (Z.eq_dec n 0) as [->|N0]; [rewrite ES, Z.div_0_l by lia; reflexivity|].
  destruct (of_int_pos n ltac:(lia)) as (mx & ex & EN & VN). unfold fdiv.
  assert (PS : (0 < inject_Z s)%Q) by (change 0%Q with (inject_Z 0); rewrite <- Zlt_Qlt; lia).
  assert (PN : (0 < inject_Z n)%Q) by (change 0%Q with (inject_Z 0); rewrite <- Zlt_Qlt; lia).
  pose proof (Z.div_mod n s ltac:(lia)) as DM. pose proof (Z.mod_pos_bound n s ltac:(lia)) as MB.
  set (k := n / s) in *. set (r := n mod s) in *. destruct (Z.eq_dec r 0) as [R0|R0].
  - assert (K : 0 < k < 2 ^ 53) by nia. rewrite ES, EN. destruct (div_whole mx ex my ey k K) as (F & V).
    { rewrite VN, VS, <- inject_Z_mult. replace n with (k * s) by nia. reflexivity. }
    rewrite to_int_floor; [|exact F|rewrite V; change 0%Q with (inject_Z 0); rewrite <- Zle_Qle; lia]. f_equal. rewrite V. apply Qfloor_Z.
  - assert (Fx : is_finite (of_int n) /\ (vq (of_int n) == inject_Z n)%Q) by (apply of_int_exact; lia).
    assert (Fy : is_finite (of_int s) /\ (vq (of_int s) == inject_Z s)%Q) by (apply of_int_exact; lia).
    destruct Fx as (Fx & Vx). destruct Fy as (Fy & Vy).
    assert (KQ : (0 <= inject_Z k)%Q) by (change 0%Q with (inject_Z 0); rewrite <- Zle_Qle; nia).
    assert (DQ : (inject_Z n / inject_Z s == inject_Z k + inject_Z r / inject_Z s)%Q).
    { rewrite DM, inject_Z_plus, inject_Z_mult. field. lra. }
    assert (S20 : (inject_Z s <= 16777216)%Q) by (change 16777216%Q with (inject_Z 16777216); rewrite <- Zle_Qle; lia).
    assert (RL : ((1 # 16777216) <= inject_Z r / inject_Z s)%Q).
    { apply Qle_shift_div_l; [exact PS|]. assert (1 <= inject_Z r)%Q by (change 1%Q with (inject_Z 1); rewrite <- Zle_Qle; lia). lra. }
    assert (RU : (inject_Z r / inject_Z s <= 1 - (1 # 16777216))%Q).
    { apply Qle_shift_div_r; [exact PS|]. assert (inject_Z r <= inject_Z s - 1)%Q.
      { change 1%Q with (inject_Z 1). unfold Qminus. rewrite <- inject_Z_opp, <- inject_Z_plus, <- Zle_Qle. lia. } lra. }
    assert (KU : (inject_Z k <= 16777216)%Q) by (change 16777216%Q with (inject_Z 16777216); rewrite <- Zle_Qle; nia).
    assert (QP : (0 <= inject_Z k + inject_Z r / inject_Z s)%Q) by lra.
    destruct (div_approx (of_int n) (of_int s) Fx Fy) as (F & A).
    { rewrite Vy. lra. }
    { rewrite Vx, Vy, DQ, Qabs_pos by exact QP. assert (p2 (-900) <= p2 (-24))%Q by (apply p2_le; lia). assert (p2 25 <= p2 800)%Q by (apply p2_le; lia).
      change (p2 (-24)) with (1 # 16777216)%Q in *. assert (p2 25 == 33554432)%Q as E25 by reflexivity. rewrite E25 in *. split; lra. }
    rewrite Vx, Vy, DQ in A. rewrite (Qabs_pos _ QP) in A. apply Qabs_Qle_condition in A.
    assert (U : (p2 (-51) * (inject_Z k + inject_Z r / inject_Z s) + p2 (-1073) <= 1 # 67108864)%Q).
    { assert (p2 (-1073) <= p2 (-51))%Q by (apply p2_le; lia). assert (p2 (-51) == 1 # 2251799813685248)%Q as E51 by reflexivity. rewrite E51 in *. lra. }
    set (z := vq (SFdiv 53 1024 (of_int n) (of_int s))) in *.
    rewrite to_int_floor; [|exact F|fold z; lra]. f_equal. fold z.
    assert (L1 : (inject_Z k <= z)%Q) by lra. assert (L2 : (z < inject_Z (k + 1))%Q) by (rewrite inject_Z_plus; change (inject_Z 1) with 1%Q; lra).
    pose proof (Qfloor_le z) as Z1. pose proof (Qlt_floor z) as Z2.
    assert (A1 : k < Qfloor z + 1) by (rewrite Zlt_Qlt; lra). assert (A2 : Qfloor z < k + 1) by (rewrite Zlt_Qlt; lra). lia.
Qed.

(** * Errors of chains of operations *)
Definition near (r : f64) (v e : Q) : Prop := is_finite r /\ (- e <= vq r - v <= e)%Q.
Lemma near_exact : forall r v, is_finite r -> (vq r == v)%Q -> near r v 0.
Proof. intros r v F E. split; [exact F|]. rewrite E. lra. Qed.
Lemma near_int : forall z, Z.abs z < 2 ^ 53 -> near (of_int z) (inject_Z z) 0.
Proof. intros z H. destruct (of_int_exact z H) as (F & V). apply near_exact; assumption. Qed.
Lemma near_le : forall r v w e f, near r v e -> (v == w)%Q -> (e <= f)%Q -> near r w f.
Proof. intros r v w e f (F & N) V L. split; [exact F|]. rewrite <- V. lra. Qed.
Definition eps : Q := p2 (-47).
Lemma eps_eq : (eps == 1 # 140737488355328)%Q.
Proof. reflexivity. Qed.
Lemma approx_near : forall r v B, approx r v -> (- B <= v <= B)%Q -> (0 <= B <= 8)%Q -> near r v eps.
Proof.
  intros r v B (F & A) V BB. split; [exact F|]. apply Qabs_Qle_condition in A.
  assert (VB : (Qabs v <= B)%Q) by (apply Qabs_Qle_condition; exact V).
  assert (U : (p2 (-51) * Qabs v + p2 (-1073) <= eps)%Q).
  { assert (p2 (-1073) <= p2 (-51))%Q by (apply p2_le; lia). assert (p2 (-51) == 1 # 2251799813685248)%Q as E51 by reflexivity. rewrite eps_eq, E51 in *. pose proof (Qabs_nonneg v). lra. }
  lra.
Qed.
Lemma big800 : forall v, (-8 <= v <= 8)%Q -> (Qabs v <= p2 800)%Q.
Proof.
  intros v V. assert (p2 3 <= p2 800)%Q by (apply p2_le; lia). assert (p2 3 == 8)%Q as E by reflexivity. rewrite E in *.
  assert (Qabs v <= 8)%Q by (apply Qabs_Qle_condition; exact V). lra.
Qed.
Lemma near_add : forall x y v w e f, near x v e -> near y w f -> (-8 <= vq x + vq y <= 8)%Q -> near (fadd x y) (v + w) (e + f + eps).
Proof.
  intros x y v w e f (F1 & N1) (F2 & N2) B. destruct (approx_near _ _ 8 (add_approx x y F1 F2 (big800 _ B)) B ltac:(lra)) as (F & N).
  split; [exact F|]. fold (fadd x y) in N. unfold fadd in *. lra.
Qed.
Lemma near_sub : forall x y v w e f, near x v e -> near y w f -> (-8 <= vq x - vq y <= 8)%Q -> near (fsub x y) (v - w) (e + f + eps).
Proof.
  intros x y v w e f (F1 & N1) (F2 & N2) B. destruct (approx_near _ _ 8 (sub_approx x y F1 F2 (big800 _ B)) B ltac:(lra)) as (F & N).
  split; [exact F|]. unfold fsub in *. lra.
Qed.
Lemma near_mul : forall x y v e, is_finite x -> is_finite y -> (- e <= vq x * vq y - v <= e)%Q -> (-8 <= vq x * vq y <= 8)%Q -> near (fmul x y) v (e + eps).
Proof.
  intros x y v e F1 F2 N B. destruct (approx_near _ _ 8 (mul_approx x y F1 F2 (big800 _ B)) B ltac:(lra)) as (F & N').
  split; [exact F|]. unfold fmul in *. lra.
Qed.
(** Division by a spacing of at least 2^-20, result at least one half. *)
Lemma near_div : forall x d v e, near x v e -> is_finite d -> ((1 # 1048576) <= vq d)%Q -> (vq x <= 8)%Q -> ((1 # 2) <= vq x / vq d)%Q ->
  near (fdiv x d) (v / vq d) (e / vq d + (1 # 134217728)).
Proof.
  intros x d v e (F1 & N1) F2 D X L. assert (PD : (0 < vq d)%Q) by lra.
  assert (XP : (0 < vq x)%Q).
  { destruct (Qlt_le_dec 0 (vq x)) as [l|l]; [exact l|exfalso]. assert (vq x / vq d <= 0)%Q by (apply Qle_shift_div_r; lra). lra. }
  assert (U : (vq x / vq d <= 8388608)%Q) by (apply Qle_shift_div_r; lra).
  destruct (div_approx x d F1 F2) as (F & A); [lra| |].
  { rewrite Qabs_pos by lra. assert (p2 (-900) <= p2 (-1))%Q by (apply p2_le; lia). assert (p2 25 <= p2 800)%Q by (apply p2_le; lia).
    change (p2 (-1)) with (1 # 2)%Q in *. assert (p2 25 == 33554432)%Q as E25 by reflexivity. rewrite E25 in *. split; lra. }
  split; [exact F|]. rewrite (Qabs_pos (vq x / vq d)) in A by lra. apply Qabs_Qle_condition in A. unfold fdiv.
  assert (S : (p2 (-51) * (vq x / vq d) + p2 (-1073) <= 1 # 134217728)%Q).
  { assert (p2 (-1073) <= p2 (-51))%Q by (apply p2_le; lia). assert (p2 (-51) == 1 # 2251799813685248)%Q as E51 by reflexivity. rewrite E51 in *. lra. }
  assert (DV : (- (e / vq d) <= vq x / vq d - v / vq d <= e / vq d)%Q).
  { setoid_replace (vq x / vq d - v / vq d)%Q with ((vq x - v) / vq d)%Q by (field; lra). split.
    - apply Qle_shift_div_l; [exact PD|]. setoid_replace (- (e / vq d) * vq d)%Q with (- e)%Q by (field; lra). lra.
    - apply Qle_shift_div_r; [exact PD|]. setoid_replace (e / vq d * vq d)%Q with e by (field; lra). lra. }
  lra.
Qed.
