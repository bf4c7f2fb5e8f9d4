(** Error bounds for the binary64 operations of the standard library's SpecFloat, weaker
    than IEEE 754 (two units in the last place), enough for the proofs here. *)
From Coq Require Import List ZArith Lia QArith Qpower Qabs Lqa Floats.SpecFloat.
Open Scope Z_scope.

(** * Powers of two *)
Definition p2 (e : Z) : Q := Qpower 2 e.
Lemma p2_pos : forall e, (0 < p2 e)%Q.
Proof. intro e. apply Qpower_0_lt. reflexivity. Qed.
Lemma p2_plus : forall a b, (p2 (a + b) == p2 a * p2 b)%Q.
Proof. intros a b. apply Qpower_plus. discriminate. Qed.
Lemma p2_Z : forall n, 0 <= n -> (p2 n == inject_Z (2 ^ n))%Q.
Proof. intros n H. unfold p2. symmetry. apply (Zpower_Qpower 2 n H). Qed.
Lemma p2_le : forall a b, a <= b -> (p2 a <= p2 b)%Q.
Proof.
  intros a b H. replace b with (a + (b - a)) by lia. rewrite p2_plus.
  assert (1 <= p2 (b - a))%Q.
  { rewrite p2_Z by lia. change 1%Q with (inject_Z 1). rewrite <- Zle_Qle.
    assert (0 < 2 ^ (b - a)) by (apply Z.pow_pos_nonneg; lia). lia. }
  pose proof (p2_pos a). nra.
Qed.
Lemma p2_le_inv : forall a b, (p2 a <= p2 b)%Q -> a <= b.
Proof.
  intros a b H. destruct (Z_le_gt_dec a b) as [L|G]; [exact L|exfalso].
  assert (p2 (b + 1) <= p2 a)%Q by (apply p2_le; lia). rewrite p2_plus in H0.
  assert (p2 1 == 2)%Q by reflexivity. pose proof (p2_pos b). nra.
Qed.

(** * Digits *)
Lemma digits_pos : forall p, 2 ^ (Zpos (digits2_pos p) - 1) <= Zpos p < 2 ^ Zpos (digits2_pos p).
Proof.
  assert (E : forall p, digits2_pos p = Pos.size p) by (induction p; cbn; congruence).
  intro p. rewrite E. pose proof (Pos.size_gt p) as G. pose proof (Pos.size_le p) as L.
  split.
  - apply Pos2Z.pos_le_pos in L. rewrite Pos2Z.inj_pow in L.
    replace (Zpos (Pos.size p)) with (Z.succ (Zpos (Pos.size p) - 1)) in L by lia.
    rewrite Z.pow_succ_r in L by lia. lia.
  - apply Pos2Z.pos_lt_pos in G. rewrite Pos2Z.inj_pow in G. exact G.
Qed.
Lemma digits_bounds : forall m, 0 < m -> 2 ^ (Zdigits2 m - 1) <= m < 2 ^ Zdigits2 m.
Proof. intros [|p|p] H; try lia. apply digits_pos. Qed.
Lemma digits_nonneg : forall m, 0 <= m -> 0 <= Zdigits2 m.
Proof. intros [|p|p] H; cbn; lia. Qed.
Lemma digits_unique : forall m d, 0 < m -> 2 ^ (d - 1) <= m < 2 ^ d -> Zdigits2 m = d.
Proof.
  intros m d H [A B]. pose proof (digits_bounds m H) as [C D].
  assert (0 <= d) by (destruct (Z_lt_ge_dec d 0); [rewrite (Z.pow_neg_r 2 d) in B by lia; lia|lia]).
  assert (0 < Zdigits2 m) by (destruct m; cbn; lia).
  assert (d - 1 < Zdigits2 m) by (apply (Z.pow_lt_mono_r_iff 2); lia).
  assert (Zdigits2 m - 1 < d) by (apply (Z.pow_lt_mono_r_iff 2); lia).
  lia.
Qed.
Lemma digits_le : forall m d, 0 <= m < 2 ^ d -> 0 <= d -> Zdigits2 m <= d.
Proof.
  intros m d [A B] Hd. destruct (Z.eq_dec m 0) as [->|N]; [cbn; lia|].
  pose proof (digits_bounds m ltac:(lia)) as [C D].
  assert (Zdigits2 m - 1 < d) by (apply (Z.pow_lt_mono_r_iff 2); [lia|lia|]; lia). lia.
Qed.
Lemma digits_div : forall m n, 0 < m -> 0 <= n < Zdigits2 m -> Zdigits2 (m / 2 ^ n) = Zdigits2 m - n.
Proof.
  intros m n H Hn. pose proof (digits_bounds m H) as [C D].
  assert (P : 0 < 2 ^ n) by (apply Z.pow_pos_nonneg; lia).
  assert (L : 2 ^ (Zdigits2 m - n - 1) <= m / 2 ^ n).
  { apply Z.div_le_lower_bound; [exact P|]. rewrite <- Z.pow_add_r by lia.
    replace (n + (Zdigits2 m - n - 1)) with (Zdigits2 m - 1) by lia. exact C. }
  assert (U : m / 2 ^ n < 2 ^ (Zdigits2 m - n)).
  { apply Z.div_lt_upper_bound; [exact P|]. rewrite <- Z.pow_add_r by lia.
    replace (n + (Zdigits2 m - n)) with (Zdigits2 m) by lia. exact D. }
  apply digits_unique; [|split; assumption].
  assert (0 < 2 ^ (Zdigits2 m - n - 1)) by (apply Z.pow_pos_nonneg; lia). lia.
Qed.

(** * Shifts *)
Lemma shr_1_m : forall x, 0 <= shr_m x -> shr_m (shr_1 x) = shr_m x / 2.
Proof.
  intros [m r s] H. cbn in H. destruct m as [|[p|p|]|p]; cbn [shr_1 shr_m]; try reflexivity.
  - apply (Z.div_unique _ _ _ 1); lia.
  - apply (Z.div_unique _ _ _ 0); lia.
  - lia.
Qed.
Lemma iter_shr : forall p x, 0 <= shr_m x -> shr_m (iter_pos shr_1 p x) = shr_m x / 2 ^ Zpos p.
Proof.
  assert (D : forall m a b, 0 <= a -> 0 <= b -> m / 2 ^ a / 2 ^ b = m / 2 ^ (a + b)).
  { intros m a b Ha Hb. rewrite Z.div_div, Z.pow_add_r by (try apply Z.pow_nonzero; try (apply Z.pow_pos_nonneg); lia). reflexivity. }
  assert (P : forall m a, 0 <= m -> 0 <= m / 2 ^ a).
  { intros m a Hm. destruct (Z_lt_ge_dec a 0); [rewrite Z.pow_neg_r by lia; rewrite Zdiv_0_r; lia|].
    apply Z.div_pos; [exact Hm|]. apply Z.pow_pos_nonneg; lia. }
  induction p as [p IH|p IH|]; intros x H; cbn [iter_pos].
  - rewrite IH, IH.
    + rewrite shr_1_m by exact H. rewrite D by lia. change (shr_m x / 2) with (shr_m x / 2 ^ 1).
      rewrite D by lia. f_equal. f_equal. lia.
    + rewrite shr_1_m by exact H. apply Z.div_pos; lia.
    + rewrite IH by (rewrite shr_1_m by exact H; apply Z.div_pos; lia). apply P.
      rewrite shr_1_m by exact H. apply Z.div_pos; lia.
  - rewrite IH, IH by (try rewrite IH by exact H; try apply P; exact H). rewrite D by lia. f_equal. f_equal. lia.
  - apply shr_1_m. exact H.
Qed.
Lemma shr_of_loc_m : forall m l, shr_m (shr_record_of_loc m l) = m.
Proof. intros m [|[]]; reflexivity. Qed.
Lemma shr_spec : forall x e n x' e', 0 <= shr_m x -> shr x e n = (x', e') ->
  e' = e + Z.max 0 n /\ shr_m x' = shr_m x / 2 ^ (Z.max 0 n).
Proof.
  intros x e n x' e' H E. unfold shr in E. destruct n as [|p|p]; injection E as <- <-.
  - rewrite Z.max_id. rewrite Z.pow_0_r, Z.div_1_r. lia.
  - rewrite iter_shr by exact H. rewrite Z.max_r by lia. auto.
  - rewrite Z.max_l by lia. rewrite Z.pow_0_r, Z.div_1_r. lia.
Qed.

Lemma round_cases : forall m l, round_nearest_even m l = m \/ round_nearest_even m l = m + 1.
Proof. intros m [|[]]; cbn; auto. destruct (Z.even m); auto. Qed.

(** * Rounding *)
Definition fexp64 (e : Z) : Z := Z.max (e - 53) (-1074).
Lemma fexp64_eq : forall e, fexp 53 1024 e = fexp64 e.
Proof. reflexivity. Qed.

(** The value of a number (0 for infinities and NaN). *)
Definition vq (x : spec_float) : Q :=
  match x with
  | S754_finite s m e => ((if s then -1 else 1) * (inject_Z (Zpos m) * p2 e))%Q
  | _ => 0%Q
  end.
Definition is_finite (x : spec_float) : Prop :=
  match x with S754_finite _ _ _ | S754_zero _ => True | _ => False end.
Definition sg (s : bool) : Q := if s then (-1)%Q else 1%Q.

(** Rounding of [v], which lies in [m, m+1] times 2^e (at its lower end if [l] says so). *)
Lemma round_aux_spec : forall s m e l v, 0 <= m ->
  (inject_Z m * p2 e <= v <= inject_Z (m + 1) * p2 e)%Q -> (l = loc_Exact -> (v == inject_Z m * p2 e)%Q) ->
  (l = loc_Exact \/ e <= fexp64 (Zdigits2 m + e)) -> e <= 900 -> Zdigits2 m + e <= 900 ->
  is_finite (binary_round_aux 53 1024 s m e l) /\
  (Qabs (vq (binary_round_aux 53 1024 s m e l) - sg s * v) <= 2 * p2 (fexp64 (Zdigits2 m + e)))%Q /\
  (l = loc_Exact -> fexp64 (Zdigits2 m + e) <= e -> (vq (binary_round_aux 53 1024 s m e l) == sg s * v)%Q).
Proof.
  intros s m e l v Hm Hv Hex Hl He Hd. unfold binary_round_aux, shr_fexp. rewrite fexp64_eq.
  destruct (shr (shr_record_of_loc m l) e (fexp64 (Zdigits2 m + e) - e)) as [mrs1 e1] eqn:E1.
  destruct (shr_spec _ _ _ _ _ ltac:(rewrite shr_of_loc_m; exact Hm) E1) as [He1 Hm1].
  rewrite shr_of_loc_m in Hm1.
  set (F := fexp64 (Zdigits2 m + e)) in *. set (n := Z.max 0 (F - e)) in *.
  assert (P : 0 < 2 ^ n) by (apply Z.pow_pos_nonneg; lia).
  set (m1 := shr_m mrs1) in *.
  assert (Hm1p : 0 <= m1) by (rewrite Hm1; apply Z.div_pos; lia).
  (* digits after the first shift *)
  assert (D1 : fexp64 (Zdigits2 m1 + e1) <= e1).
  { destruct (Z.eq_dec m 0) as [Z0|NZ].
    - subst m. rewrite Z.div_0_l in Hm1 by lia. rewrite Hm1. cbn. unfold fexp64. unfold F, fexp64 in n. cbn in n. lia.
    - pose proof (digits_nonneg m Hm). assert (0 < Zdigits2 m) by (destruct m; cbn; lia).
      destruct (Z_lt_ge_dec n (Zdigits2 m)) as [L|G].
      + rewrite Hm1, digits_div by lia. replace (Zdigits2 m - n + e1) with (Zdigits2 m + e) by lia. fold F. lia.
      + assert (m1 = 0).
        { rewrite Hm1. apply Z.div_small. pose proof (digits_bounds m ltac:(lia)) as [_ U].
          assert (2 ^ Zdigits2 m <= 2 ^ n) by (apply Z.pow_le_mono_r; lia). lia. }
        rewrite H1. cbn. unfold fexp64. unfold F, fexp64 in *. lia. }
  (* the value seen from the shifted mantissa *)
  assert (V1 : (inject_Z m1 * p2 e1 <= v <= inject_Z (m1 + 1) * p2 e1)%Q).
  { rewrite He1. assert (EN : (p2 (e + n) == p2 e * inject_Z (2 ^ n))%Q) by (rewrite p2_plus, (p2_Z n) by lia; reflexivity). rewrite EN. pose proof (p2_pos e) as PE.
    assert (A : m1 * 2 ^ n <= m) by (rewrite Hm1, Z.mul_comm; apply Z.mul_div_le; exact P).
    assert (B : m + 1 <= (m1 + 1) * 2 ^ n).
    { rewrite Hm1. pose proof (Z.mod_pos_bound m (2 ^ n) P). pose proof (Z.div_mod m (2 ^ n) ltac:(lia)). nia. }
    rewrite Zle_Qle, inject_Z_mult in A. rewrite Zle_Qle, inject_Z_mult in B.
    split; nra. }
  set (r := round_nearest_even m1 (loc_of_shr_record mrs1)) in *.
  assert (Rc : r = m1 \/ r = m1 + 1) by apply round_cases.
  assert (Dr : fexp64 (Zdigits2 r + e1) <= e1 + 1).
  { assert (Zdigits2 r <= Zdigits2 m1 + 1).
    { pose proof (digits_nonneg m1 Hm1p). destruct (Z.eq_dec m1 0) as [Z1|N1].
      - destruct Rc as [-> | ->]; rewrite Z1; cbn; lia.
      - pose proof (digits_bounds m1 ltac:(lia)) as [_ U]. apply digits_le; [|lia].
        rewrite Z.pow_add_r by lia. lia. }
    unfold fexp64 in *. lia. }
  destruct (shr (shr_record_of_loc r loc_Exact) e1 (fexp64 (Zdigits2 r + e1) - e1)) as [mrs2 e2] eqn:E2.
  change (fexp 53 1024) with fexp64. rewrite E2.
  assert (Hr : 0 <= shr_m (shr_record_of_loc r loc_Exact)) by (rewrite shr_of_loc_m; lia).
  destruct (shr_spec _ _ _ _ _ Hr E2) as [He2 Hm2].
  rewrite shr_of_loc_m in Hm2. set (k := Z.max 0 (fexp64 (Zdigits2 r + e1) - e1)) in *.
  assert (K : k = 0 \/ k = 1) by lia.
  set (m2 := shr_m mrs2) in *.
  assert (Hm2p : 0 <= m2) by (rewrite Hm2; apply Z.div_pos; [lia|apply Z.pow_pos_nonneg; lia]).
  assert (e2 <= 971) by (unfold F, fexp64 in *; lia).
  assert (R : forall x, x = match m2 with 0 => S754_zero s
     | Zpos p => if Z.leb e2 (1024 - 53) then S754_finite s p e2 else S754_infinity s
     | Z.neg _ => S754_nan end -> is_finite x /\ (vq x == sg s * (inject_Z m2 * p2 e2))%Q).
  { intros x ->. destruct m2 as [|p|p]; [|change (1024 - 53) with 971|lia].
    - split; [exact I|]. cbn [vq]. change (inject_Z 0) with 0%Q. ring.
    - rewrite (proj2 (Z.leb_le e2 971)) by lia. split; [exact I|]. reflexivity. }
  destruct (R _ eq_refl) as [RF RV]. split; [exact RF|].
  assert (Two : (inject_Z m2 * p2 e2 <= inject_Z r * p2 e1 <= inject_Z m2 * p2 e2 + p2 e1)%Q
                /\ (k = 0 -> (inject_Z m2 * p2 e2 == inject_Z r * p2 e1)%Q)).
  { rewrite He2, p2_plus. pose proof (p2_pos e1) as PE. destruct K as [K|K]; rewrite K in *.
    - rewrite Z.pow_0_r, Z.div_1_r in Hm2. rewrite Hm2. change (p2 0) with 1%Q. split; [split|intros _]; nra.
    - change (2 ^ 1) with 2 in Hm2. change (p2 1) with 2%Q.
      assert (A : 2 * m2 <= r <= 2 * m2 + 1) by (rewrite Hm2; pose proof (Z.div_mod r 2 ltac:(lia)); pose proof (Z.mod_pos_bound r 2 ltac:(lia)); lia).
      destruct A as [A B]. rewrite Zle_Qle, inject_Z_mult in A. rewrite Zle_Qle, inject_Z_plus, inject_Z_mult in B.
      change (inject_Z 2) with 2%Q in *. change (inject_Z 1) with 1%Q in *. split; [split; nra|lia]. }
  assert (SgAbs : forall a b : Q, (Qabs (sg s * a - sg s * b) == Qabs (a - b))%Q).
  { intros a b. destruct s; cbn [sg].
    - setoid_replace (-1 * a - -1 * b)%Q with (- (a - b))%Q by ring. apply Qabs_opp.
    - setoid_replace (1 * a - 1 * b)%Q with (a - b)%Q by ring. reflexivity. }
  assert (Exact0 : l = loc_Exact -> F <= e -> (inject_Z m2 * p2 e2 == v)%Q).
  { intros Hle HF. assert (n0 : n = 0) by lia.
    assert (E1' : e1 = e) by lia. assert (M1' : m1 = m) by (rewrite Hm1, n0, Z.pow_0_r, Z.div_1_r; reflexivity).
    assert (mrs1 = shr_record_of_loc m l).
    { unfold shr in E1. destruct (F - e) eqn:EF; [injection E1; auto|lia|injection E1; auto]. }
    assert (Rm : r = m). { unfold r. rewrite M1', H0, Hle. reflexivity. }
    assert (k = 0). { unfold k. rewrite Rm, E1'. fold F. lia. }
    destruct Two as [_ T]. rewrite (T H1), Rm, E1'. symmetry. apply Hex, Hle. }
  split.
  - rewrite RV, SgAbs.
    destruct (Z_le_gt_dec F e) as [FL|FG].
    + destruct Hl as [Hl|Hl].
      * rewrite (Exact0 Hl FL). setoid_replace (v - v)%Q with 0%Q by ring. pose proof (p2_pos F). cbn. lra.
      * assert (F = e) by lia. assert (e1 = F) by lia. rewrite H1 in *.
        pose proof (p2_pos F) as PF. apply Qabs_Qle_condition.
        assert (Rq : (inject_Z r == inject_Z m1 \/ inject_Z r == inject_Z m1 + 1)%Q).
        { destruct Rc as [-> | ->]; [left; reflexivity|right; rewrite inject_Z_plus; reflexivity]. }
        rewrite inject_Z_plus in V1. change (inject_Z 1) with 1%Q in V1.
        destruct Two as [Two _]. destruct Rq as [Rq|Rq]; rewrite Rq in Two; split; nra.
    + assert (e1 = F) by lia. rewrite H0 in *.
      pose proof (p2_pos F) as PF. apply Qabs_Qle_condition.
      assert (Rq : (inject_Z r == inject_Z m1 \/ inject_Z r == inject_Z m1 + 1)%Q).
      { destruct Rc as [-> | ->]; [left; reflexivity|right; rewrite inject_Z_plus; reflexivity]. }
      rewrite inject_Z_plus in V1. change (inject_Z 1) with 1%Q in V1.
      destruct Two as [Two _]. destruct Rq as [Rq|Rq]; rewrite Rq in Two; split; nra.
  - intros Hle HF. rewrite RV, (Exact0 Hle HF). reflexivity.
Qed.

(** * The operations *)
(** [r] is [v] up to two units in the last place. *)
Definition approx (r : spec_float) (v : Q) : Prop :=
  is_finite r /\ (Qabs (vq r - v) <= p2 (-51) * Qabs v + p2 (-1073))%Q.

Lemma sg_abs : forall s v, (Qabs (sg s * v) == Qabs v)%Q.
Proof.
  intros [] v; cbn [sg].
  - setoid_replace (-1 * v)%Q with (- v)%Q by ring. apply Qabs_opp.
  - setoid_replace (1 * v)%Q with v by ring. reflexivity.
Qed.
Lemma digits_value : forall m e, 0 < m -> (p2 (Zdigits2 m + e) <= 2 * (inject_Z m * p2 e))%Q.
Proof.
  intros m e H. pose proof (digits_bounds m H) as [L _]. assert (0 < Zdigits2 m) by (destruct m; cbn; lia).
  replace (Zdigits2 m + e) with (1 + (Zdigits2 m - 1 + e)) by lia. rewrite p2_plus, p2_plus.
  change (p2 1) with 2%Q. rewrite (p2_Z (Zdigits2 m - 1)) by lia. rewrite Zle_Qle in L. pose proof (p2_pos e). nra.
Qed.

Lemma round_approx : forall s m e l v, 0 < m ->
  (inject_Z m * p2 e <= v <= inject_Z (m + 1) * p2 e)%Q -> (l = loc_Exact -> (v == inject_Z m * p2 e)%Q) ->
  (l = loc_Exact \/ e <= fexp64 (Zdigits2 m + e)) -> (v <= p2 800)%Q ->
  approx (binary_round_aux 53 1024 s m e l) (sg s * v).
Proof.
  intros s m e l v Hm Hv Hex Hl Hb.
  pose proof (digits_value m e Hm) as DV. pose proof (p2_pos e) as PE.
  assert (D : Zdigits2 m + e <= 801).
  { apply p2_le_inv. apply Qle_trans with (2 * v)%Q; [lra|]. change 801 with (1 + 800). rewrite p2_plus.
    change (p2 1) with 2%Q. lra. }
  assert (D0 : 0 < Zdigits2 m) by (destruct m; cbn; lia).
  destruct (round_aux_spec s m e l v ltac:(lia) Hv Hex Hl ltac:(lia) ltac:(lia)) as [F [E _]].
  split; [exact F|]. rewrite sg_abs. eapply Qle_trans; [exact E|].
  assert (Vp : (0 <= v)%Q). { assert (0 <= inject_Z m)%Q by (change 0%Q with (inject_Z 0); rewrite <- Zle_Qle; lia). nra. }
  rewrite (Qabs_pos v Vp).
  assert (B : (p2 (fexp64 (Zdigits2 m + e)) <= p2 (Zdigits2 m + e - 53) + p2 (-1074))%Q).
  { unfold fexp64. pose proof (p2_pos (Zdigits2 m + e - 53)). pose proof (p2_pos (-1074)).
    destruct (Z.max_spec (Zdigits2 m + e - 53) (-1074)) as [[_ ->]|[_ ->]]; lra. }
  assert (B2 : (p2 (Zdigits2 m + e - 53) == p2 (Zdigits2 m + e) * p2 (-53))%Q) by (rewrite <- p2_plus; reflexivity).
  assert (C1 : (p2 (-1073) == 2 * p2 (-1074))%Q) by (change (-1073) with (1 + -1074); rewrite p2_plus; reflexivity).
  assert (C2 : (p2 (-51) == 4 * p2 (-53))%Q) by (change (-51) with (2 + -53); rewrite p2_plus; reflexivity).
  rewrite C1, C2. pose proof (p2_pos (-53)) as P53. rewrite B2 in B. nra.
Qed.

Lemma shl_align_spec : forall m e e', e' <= e -> exists m', shl_align m e e' = (m', e') /\
  Zpos m' = Zpos m * 2 ^ (e - e').
Proof.
  intros m e e' H. unfold shl_align. destruct (e' - e) as [|p|p] eqn:E.
  - assert (e = e') by lia. subst e'. exists m. rewrite Z.sub_diag, Z.pow_0_r. split; [reflexivity|lia].
  - lia.
  - exists (shift_pos p m). split; [reflexivity|]. rewrite shift_pos_correct. replace (e - e') with (Zpos p) by lia.
    rewrite Z.pow_pos_fold. lia.
Qed.
Lemma shl_align_id : forall m e e', e <= e' -> shl_align m e e' = (m, e).
Proof. intros m e e' H. unfold shl_align. destruct (e' - e) eqn:E; try reflexivity. lia. Qed.

(** The mantissa and exponent that are rounded have the value of [m], [e]. *)
Lemma binary_round_aligned : forall m e, exists mz ez,
  shl_align m e (fexp64 (Zpos (digits2_pos m) + e)) = (mz, ez) /\
  (inject_Z (Zpos mz) * p2 ez == inject_Z (Zpos m) * p2 e)%Q /\ Zdigits2 (Zpos mz) + ez = Zdigits2 (Zpos m) + e /\
  ez = Z.min e (fexp64 (Zdigits2 (Zpos m) + e)).
Proof.
  intros m e. set (f := fexp64 (Zpos (digits2_pos m) + e)). change (fexp64 (Zdigits2 (Zpos m) + e)) with f.
  destruct (Z_le_gt_dec f e) as [L|G].
  - destruct (shl_align_spec m e f L) as [m' [E V]]. exists m', f. split; [exact E|]. split; [|split; [|lia]].
    + rewrite V, inject_Z_mult, <- p2_Z by lia. replace e with ((e - f) + f) at 2 by lia. rewrite p2_plus. ring.
    + enough (Zdigits2 (Zpos m') = Zdigits2 (Zpos m) + (e - f)) by lia.
      pose proof (digits_pos m) as [A B]. apply digits_unique; [lia|]. rewrite V.
      change (Zpos (digits2_pos m)) with (Zdigits2 (Zpos m)) in *.
      assert (0 < Zdigits2 (Zpos m)) by (cbn; lia).
      replace (Zdigits2 (Zpos m) + (e - f) - 1) with (Zdigits2 (Zpos m) - 1 + (e - f)) by lia.
      rewrite !Z.pow_add_r by lia. assert (0 < 2 ^ (e - f)) by (apply Z.pow_pos_nonneg; lia). nia.
  - exists m, e. rewrite shl_align_id by lia. repeat split; try reflexivity. lia.
Qed.

Lemma binary_round_approx : forall s m e, (inject_Z (Zpos m) * p2 e <= p2 800)%Q ->
  approx (binary_round 53 1024 s m e) (sg s * (inject_Z (Zpos m) * p2 e)).
Proof.
  intros s m e H. unfold binary_round. change (fexp 53 1024) with fexp64.
  destruct (binary_round_aligned m e) as [mz [ez [E [V [D _]]]]]. rewrite E.
  apply round_approx.
  - lia.
  - rewrite <- V. rewrite inject_Z_plus. pose proof (p2_pos ez). change (inject_Z 1) with 1%Q. split; nra.
  - intros _. rewrite V. reflexivity.
  - left. reflexivity.
  - exact H.
Qed.
Lemma binary_round_exact : forall s m e, Zdigits2 (Zpos m) <= 53 -> -1000 <= e <= 800 ->
  is_finite (binary_round 53 1024 s m e) /\ (vq (binary_round 53 1024 s m e) == sg s * (inject_Z (Zpos m) * p2 e))%Q.
Proof.
  intros s m e H He. unfold binary_round. change (fexp 53 1024) with fexp64.
  destruct (binary_round_aligned m e) as [mz [ez [E [V [D Ez]]]]]. rewrite E.
  assert (0 < Zdigits2 (Zpos m)) by (cbn; lia).
  destruct (round_aux_spec s (Zpos mz) ez loc_Exact (inject_Z (Zpos m) * p2 e)%Q) as [F [_ X]].
  - lia.
  - rewrite <- V. rewrite inject_Z_plus. pose proof (p2_pos ez). change (inject_Z 1) with 1%Q. split; nra.
  - intros _. rewrite V. reflexivity.
  - left. reflexivity.
  - unfold fexp64 in *. lia.
  - lia.
  - split; [exact F|]. apply X; [reflexivity|]. rewrite D. unfold fexp64 in *. lia.
Qed.

Lemma normalize_approx : forall M e z v, (v == inject_Z M * p2 e)%Q -> (Qabs v <= p2 800)%Q ->
  approx (binary_normalize 53 1024 M e z) v.
Proof.
  intros M e z v V B. assert (P : forall p, (Qabs (inject_Z (Zpos p) * p2 e) == inject_Z (Zpos p) * p2 e)%Q).
  { intro p. apply Qabs_pos. pose proof (p2_pos e). assert (0 <= inject_Z (Zpos p))%Q by (change 0%Q with (inject_Z 0); rewrite <- Zle_Qle; lia). nra. }
  destruct M as [|p|p]; cbn [binary_normalize].
  - split; [exact I|]. cbn [vq]. change (inject_Z 0) with 0%Q in V. setoid_replace v with 0%Q by (rewrite V; ring).
    pose proof (p2_pos (-1073)). cbn. lra.
  - destruct (binary_round_approx false p e) as [F E].
    + rewrite <- P, <- V. exact B.
    + split; [exact F|]. cbn [sg] in E. setoid_replace v with (1 * (inject_Z (Zpos p) * p2 e))%Q by (rewrite V; ring). exact E.
  - assert (V' : (v == sg true * (inject_Z (Zpos p) * p2 e))%Q).
    { rewrite V. cbn [sg]. change (inject_Z (Z.neg p)) with (- inject_Z (Zpos p))%Q. ring. }
    destruct (binary_round_approx true p e) as [F E].
    + rewrite <- P, <- (sg_abs true), <- V'. exact B.
    + split; [exact F|]. rewrite V'. exact E.
Qed.

Lemma of_int_exact : forall z, Z.abs z < 2 ^ 53 ->
  is_finite (binary_normalize 53 1024 z 0 false) /\ (vq (binary_normalize 53 1024 z 0 false) == inject_Z z)%Q.
Proof.
  intros z H. assert (D : forall p, Zpos p < 2 ^ 53 -> Zdigits2 (Zpos p) <= 53) by (intros p Hp; apply digits_le; lia).
  destruct z as [|p|p]; cbn [binary_normalize].
  - split; [exact I|reflexivity].
  - destruct (binary_round_exact false p 0 (D p ltac:(lia)) ltac:(lia)) as [F E]. split; [exact F|].
    rewrite E. cbn [sg]. change (p2 0) with 1%Q. ring.
  - destruct (binary_round_exact true p 0 (D p ltac:(lia)) ltac:(lia)) as [F E]. split; [exact F|].
    rewrite E. cbn [sg]. change (p2 0) with 1%Q. change (inject_Z (Z.neg p)) with (- inject_Z (Zpos p))%Q. ring.
Qed.

Lemma approx_exact : forall r v, is_finite r -> (vq r == v)%Q -> approx r v.
Proof.
  intros r v F E. split; [exact F|]. rewrite E. setoid_replace (v - v)%Q with 0%Q by ring.
  pose proof (Qabs_nonneg v). pose proof (p2_pos (-51)). pose proof (p2_pos (-1073)). cbn. nra.
Qed.

Theorem mul_approx : forall x y, is_finite x -> is_finite y -> (Qabs (vq x * vq y) <= p2 800)%Q ->
  approx (SFmul 53 1024 x y) (vq x * vq y).
Proof.
  intros x y Fx Fy B. destruct x as [a|a| |a mx ex]; try destruct Fx; destruct y as [b|b| |b my ey]; try destruct Fy.
  - apply approx_exact; [exact I|]. cbn [SFmul vq]. ring.
  - apply approx_exact; [exact I|]. cbn [SFmul vq]. ring.
  - apply approx_exact; [exact I|]. cbn [SFmul vq]. ring.
  - assert (V : (vq (S754_finite a mx ex) * vq (S754_finite b my ey)
                 == sg (xorb a b) * (inject_Z (Zpos (mx * my)) * p2 (ex + ey)))%Q).
    { cbn [vq]. rewrite p2_plus, Pos2Z.inj_mul, inject_Z_mult. destruct a, b; cbn [xorb sg]; ring. }
    unfold approx. rewrite V in *. rewrite sg_abs in B.
    assert (PV : (0 <= inject_Z (Zpos (mx * my)) * p2 (ex + ey))%Q).
    { pose proof (p2_pos (ex + ey)). assert (0 <= inject_Z (Zpos (mx * my)))%Q by (change 0%Q with (inject_Z 0); rewrite <- Zle_Qle; lia). nra. }
    rewrite (Qabs_pos _ PV) in B. cbn [SFmul]. apply round_approx; auto.
    + lia.
    + rewrite inject_Z_plus. pose proof (p2_pos (ex + ey)). change (inject_Z 1) with 1%Q. split; nra.
    + intros _. reflexivity.
Qed.

Lemma aligned_value : forall s m e ez, ez <= e ->
  (inject_Z (cond_Zopp s (Zpos (fst (shl_align m e ez)))) * p2 ez == vq (S754_finite s m e))%Q.
Proof.
  intros s m e ez H. destruct (shl_align_spec m e ez H) as [m' [E V]]. rewrite E. cbn [fst vq].
  assert (X : (inject_Z (Zpos m') * p2 ez == inject_Z (Zpos m) * p2 e)%Q).
  { rewrite V, inject_Z_mult, <- p2_Z by lia. replace e with ((e - ez) + ez) at 2 by lia. rewrite p2_plus. ring. }
  destruct s; cbn [cond_Zopp].
  - rewrite inject_Z_opp. setoid_replace (- inject_Z (Zpos m') * p2 ez)%Q with (- (inject_Z (Zpos m') * p2 ez))%Q by ring.
    rewrite X. ring.
  - rewrite X. ring.
Qed.

Theorem add_approx : forall x y, is_finite x -> is_finite y -> (Qabs (vq x + vq y) <= p2 800)%Q ->
  approx (SFadd 53 1024 x y) (vq x + vq y).
Proof.
  intros x y Fx Fy B. destruct x as [a|a| |a mx ex]; try destruct Fx; destruct y as [b|b| |b my ey]; try destruct Fy.
  - apply approx_exact; cbn [SFadd]; destruct (Bool.eqb a b); try exact I; cbn [vq]; ring.
  - apply approx_exact; [exact I|]. cbn [SFadd]. unfold vq at 2. ring.
  - apply approx_exact; [exact I|]. cbn [SFadd]. unfold vq at 3. ring.
  - cbn [SFadd]. apply normalize_approx; [|exact B].
    rewrite inject_Z_plus, Qmult_plus_distr_l, !aligned_value by lia. reflexivity.
Qed.
Theorem sub_approx : forall x y, is_finite x -> is_finite y -> (Qabs (vq x - vq y) <= p2 800)%Q ->
  approx (SFsub 53 1024 x y) (vq x - vq y).
Proof.
  intros x y Fx Fy B. destruct x as [a|a| |a mx ex]; try destruct Fx; destruct y as [b|b| |b my ey]; try destruct Fy.
  - apply approx_exact; cbn [SFsub]; destruct (Bool.eqb a (negb b)); try exact I; cbn [vq]; ring.
  - apply approx_exact; [exact I|]. cbn [SFsub]. cbn [vq]. destruct b; cbn [negb]; ring.
  - apply approx_exact; [exact I|]. cbn [SFsub]. unfold vq at 3. ring.
  - cbn [SFsub]. apply normalize_approx; [|exact B].
    unfold Z.sub. rewrite inject_Z_plus, inject_Z_opp, Qmult_plus_distr_l.
    rewrite aligned_value by lia. setoid_replace (- inject_Z (cond_Zopp b (Zpos (fst (shl_align my ey (Z.min ex ey))))) * p2 (Z.min ex ey))%Q
      with (- (inject_Z (cond_Zopp b (Zpos (fst (shl_align my ey (Z.min ex ey))))) * p2 (Z.min ex ey)))%Q by ring.
    rewrite aligned_value by lia. reflexivity.
Qed.

Theorem div_any : forall x y, is_finite x -> is_finite y -> ~ (vq y == 0)%Q ->
  (Qabs (vq x / vq y) <= p2 800)%Q -> approx (SFdiv 53 1024 x y) (vq x / vq y).
Proof.
  intros x y Fx Fy Ny B. destruct x as [a|a| |a mx ex]; try destruct Fx; destruct y as [b|b| |b my ey]; try destruct Fy;
    try (exfalso; apply Ny; reflexivity).
  - apply approx_exact; [exact I|]. cbn [SFdiv vq]. unfold Qdiv. ring.
  - set (V := (inject_Z (Zpos mx) * p2 ex / (inject_Z (Zpos my) * p2 ey))%Q).
    assert (Pmy : (0 < inject_Z (Zpos my))%Q) by (change 0%Q with (inject_Z 0); rewrite <- Zlt_Qlt; lia).
    assert (Pmx : (0 < inject_Z (Zpos mx))%Q) by (change 0%Q with (inject_Z 0); rewrite <- Zlt_Qlt; lia).
    pose proof (p2_pos ex) as Pex. pose proof (p2_pos ey) as Pey.
    assert (VV : (vq (S754_finite a mx ex) / vq (S754_finite b my ey) == sg (xorb a b) * V)%Q).
    { unfold V. cbn [vq]. destruct a, b; cbn [xorb sg]; field; split; lra. }
    assert (PV : (0 <= V)%Q).
    { unfold V. apply Qle_shift_div_l; nra. }
    unfold approx. rewrite VV in *. rewrite sg_abs, (Qabs_pos V PV) in B.
    cbn [SFdiv]. unfold SFdiv_core_binary. change (fexp 53 1024) with fexp64.
    set (d1 := Zdigits2 (Zpos mx)). set (d2 := Zdigits2 (Zpos my)).
    set (e' := Z.min (fexp64 (d1 + ex - (d2 + ey))) (ex - ey)). set (s := ex - ey - e').
    assert (Hs : 0 <= s) by lia.
    set (m' := match s with Zpos _ => Z.shiftl (Zpos mx) s | 0 => Zpos mx | Z.neg _ => 0 end).
    assert (Hm' : m' = Zpos mx * 2 ^ s).
    { unfold m'. destruct s as [|p|p]; [rewrite Z.pow_0_r; lia| |lia]. apply Z.shiftl_mul_pow2. lia. }
    rewrite (surjective_pairing (Z.div_eucl m' (Zpos my))).
    change (fst (Z.div_eucl m' (Zpos my))) with (m' / Zpos my). change (snd (Z.div_eucl m' (Zpos my))) with (m' mod Zpos my).
    set (q := m' / Zpos my). set (rm := m' mod Zpos my).
    assert (P2s : 0 < 2 ^ s) by (apply Z.pow_pos_nonneg; lia).
    assert (DM : m' = Zpos my * q + rm) by (apply Z.div_mod; lia).
    assert (RB : 0 <= rm < Zpos my) by (apply Z.mod_pos_bound; lia).
    assert (Hq : 0 <= q) by (apply Z.div_pos; nia).
    (* the quotient *)
    assert (Vm : (V * inject_Z (Zpos my) == inject_Z m' * p2 e')%Q).
    { rewrite Hm', inject_Z_mult, <- p2_Z by exact Hs. unfold V.
      assert (X : (p2 ex == p2 s * p2 e' * p2 ey)%Q) by (rewrite <- !p2_plus; replace (s + e' + ey) with ex by lia; reflexivity).
      rewrite X. field. split; lra. }
    pose proof (p2_pos e') as Pe'.
    assert (Low : (inject_Z q * p2 e' <= V)%Q).
    { assert (A : Zpos my * q <= m') by lia. rewrite Zle_Qle, inject_Z_mult in A. nra. }
    assert (Upp : (V <= inject_Z (q + 1) * p2 e')%Q).
    { assert (A : m' <= Zpos my * (q + 1)) by lia. rewrite Zle_Qle, inject_Z_mult in A. nra. }
    assert (Hd : e' <= fexp64 (Zdigits2 q + e')).
    { enough (d1 + ex - (d2 + ey) <= Zdigits2 q + e') by (unfold fexp64 in *; lia).
      enough (d1 + s - d2 <= Zdigits2 q) by lia.
      destruct (Z_le_gt_dec (d1 + s - d2) 0) as [L|G]; [pose proof (digits_nonneg q Hq); lia|].
      pose proof (digits_bounds (Zpos mx) ltac:(lia)) as [A1 _]. pose proof (digits_bounds (Zpos my) ltac:(lia)) as [_ A2].
      fold d1 in A1. fold d2 in A2.
      assert (0 < d1) by (unfold d1; cbn; lia). assert (0 < d2) by (unfold d2; cbn; lia).
      assert (Q1 : 2 ^ (d1 + s - d2 - 1) <= q).
      { apply Z.div_le_lower_bound; [lia|]. rewrite Hm'.
        apply Z.le_trans with (2 ^ d2 * 2 ^ (d1 + s - d2 - 1)).
        - assert (0 < 2 ^ (d1 + s - d2 - 1)) by (apply Z.pow_pos_nonneg; lia). nia.
        - rewrite <- Z.pow_add_r by lia. replace (d2 + (d1 + s - d2 - 1)) with (d1 - 1 + s) by lia.
          rewrite Z.pow_add_r by lia. nia. }
      assert (0 < 2 ^ (d1 + s - d2 - 1)) by (apply Z.pow_pos_nonneg; lia).
      pose proof (digits_bounds q ltac:(lia)) as [_ U].
      assert (d1 + s - d2 - 1 < Zdigits2 q); [|lia].
      apply (Z.pow_lt_mono_r_iff 2); [lia|apply digits_nonneg; lia|lia]. }
    assert (Lx : new_location (Zpos my) rm = loc_Exact -> rm = 0).
    { unfold new_location, new_location_even, new_location_odd. intro E.
      destruct (Z.even (Zpos my));
        (destruct (Zeq_bool rm 0) eqn:Z0; [apply Zeq_bool_eq, Z0|discriminate E]). }
    destruct (Z.eq_dec q 0) as [Z0|NZ].
    + rewrite Z0 in *. assert (E' : e' <= -1074) by (unfold fexp64 in Hd; cbn in Hd; lia).
      destruct (round_aux_spec (xorb a b) 0 e' (new_location (Zpos my) rm) V ltac:(lia) ltac:(split; assumption)) as (F & E & _); try (cbn; lia).
      * intro X. apply Lx in X. assert (A : m' = 0) by lia. rewrite A in Vm. change (inject_Z 0) with 0%Q in *.
        assert (Z : (inject_Z (Zpos my) * V == 0)%Q) by lra. apply Qmult_integral in Z. destruct Z as [Z|Z]; lra.
      * right. exact Hd.
      * split; [exact F|]. eapply Qle_trans; [exact E|]. assert (FE : fexp64 (Zdigits2 0 + e') = -1074) by (unfold fexp64; cbn; lia). rewrite FE.
        assert (C1 : (p2 (-1073) == 2 * p2 (-1074))%Q) by (change (-1073) with (1 + -1074); rewrite p2_plus; reflexivity).
        pose proof (p2_pos (-51)). pose proof (Qabs_nonneg (sg (xorb a b) * V)). rewrite C1. nra.
    + apply round_approx.
      * lia.
      * split; assumption.
      * intro E. apply Lx in E. assert (A : m' = Zpos my * q) by lia.
        assert (A' : (inject_Z m' == inject_Z (Zpos my) * inject_Z q)%Q) by (rewrite A, inject_Z_mult; reflexivity).
        rewrite A' in Vm. assert (Z : (inject_Z (Zpos my) * (V - inject_Z q * p2 e') == 0)%Q) by lra.
        apply Qmult_integral in Z. destruct Z as [Z|Z]; lra.
      * right. exact Hd.
      * apply B.
Qed.
Theorem div_approx : forall x y, is_finite x -> is_finite y -> ~ (vq y == 0)%Q ->
  (p2 (-900) <= Qabs (vq x / vq y) <= p2 800)%Q -> approx (SFdiv 53 1024 x y) (vq x / vq y).
Proof. intros x y Fx Fy N [_ B]. apply div_any; assumption. Qed.

