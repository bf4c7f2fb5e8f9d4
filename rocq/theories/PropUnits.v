(** C90: names and units of the variables written. *)
From Coq Require Import List ZArith Lia Bool QArith Qabs Lqa String Ascii Floats.SpecFloat.
From Verif Require Import Base Unsigned FloatProofs PropUnsigned FileName FileNameSpec FileNameProofs2 Imagery ImageryProofs Output OutputProofs OutputProofs4 Units.
Import ListNotations.
Open Scope string_scope.
Open Scope list_scope.
Open Scope Z_scope.

(** * Specification *)
(** [s] is [n] in decimal digits, without leading zeros. *)
Definition written (n : Z) (s : pystr) : Prop :=
  exists k, s = decimal k n /\ 0 <= n < 10 ^ Z.of_nat k /\ (k = 1%nat \/ (2 <= k)%nat /\ 10 ^ (Z.of_nat k - 1) <= n).
(** [s] is [t] tenths as a decimal fraction. *)
Definition fraction (t : Z) (s : pystr) : Prop :=
  exists w, written (t / 10) w /\ s = w ++ lit "." ++ decimal 1 (t mod 10).
(** The units of counts: counts per pixel of [a] microradian^2 and [t] tenths of minutes. *)
Definition count_units (a t : Z) (s : pystr) : Prop :=
  exists blanks wa wt, written a wa /\ fraction t wt /\
    s = lit "Count per nominal " ++ repeat " "%char blanks ++ wa ++ lit " microradian^2 pixel per " ++ wt ++ lit " min".
(** The units of counts in projections other than geostationary: counts per grid cell, or per pixel
    of [a] tenths of km^2, and [t] tenths of minutes. *)
Definition cell_units (t : Z) (s : pystr) : Prop :=
  exists wt, fraction t wt /\ s = lit "Count per grid pixel per " ++ wt ++ lit " min".
Definition km_units (a t : Z) (s : pystr) : Prop :=
  exists wa wt, fraction a wa /\ fraction t wt /\ s = lit "Count per " ++ wa ++ lit " km^2 pixel per " ++ wt ++ lit " min".
(** What the eight fields are. *)
Inductive kind := Count | FlashArea | GroupArea | LeastArea | Energy.
Definition fields : list (string * kind) :=
  [("flash_extent_density", Count); ("group_extent_density", Count); ("flash_centroid_density", Count);
   ("group_centroid_density", Count); ("average_flash_area", FlashArea); ("average_group_area", GroupArea);
   ("minimum_flash_area", LeastArea); ("total_energy", Energy)].
(** The name in words: the first letter in upper case, blanks for underscores. *)
Definition in_words (name : string) : string :=
  match list_ascii_of_string name with
  | c :: r => string_of_list_ascii
      (ascii_of_nat (nat_of_ascii c - 32) :: map (fun d => if Ascii.eqb d "_" then " "%char else d) r)
  | [] => ""
  end.
(** A spacing: the binary64 number [d] is [a] microradians up to rounding. *)
Definition microradians (a : Z) (d : f64) : Prop :=
  is_finite d /\ (Qabs (vq d - inject_Z a / inject_Z 1000000) <= inject_Z a / inject_Z 1000000 * p2 (-52))%Q.

(** * Proofs *)
Lemma int_text_written : forall n, 0 <= n -> written n (int_text n).
Proof.
  intros n H. unfold int_text. assert (B : n < 10 ^ Z.of_nat (S (Z.to_nat (Z.log2 n)))).
  { pose proof (Z.log2_nonneg n). rewrite Nat2Z.inj_succ, Z2Nat.id by auto. destruct (Z.eq_dec n 0) as [->|N]; [cbn; lia|].
    apply Z.lt_le_trans with (2 ^ Z.succ (Z.log2 n)); [apply Z.log2_spec; lia|]. apply Z.pow_le_mono_l. lia. }
  destruct (dec_pad _ n H B ltac:(lia)) as (k & E & R & C). exists k. rewrite decimal_pad. auto.
Qed.
Lemma written_digit : forall n, 0 <= n < 10 -> int_text n = decimal 1 n.
Proof.
  intros n H. destruct (int_text_written n ltac:(lia)) as (k & E & R & C). rewrite E. f_equal.
  destruct C as [->|[K C]]; [reflexivity|].
  exfalso. assert (10 ^ 1 <= 10 ^ (Z.of_nat k - 1)) by (apply Z.pow_le_mono_r; lia). lia.
Qed.
Lemma nonblank_digit : forall i, 0 <= i < 10 -> Ascii.eqb (nth (Z.to_nat i) (lit "0123456789") "0"%char) " " = false.
Proof.
  intros i H. assert (K : i = 0 \/ i = 1 \/ i = 2 \/ i = 3 \/ i = 4 \/ i = 5 \/ i = 6 \/ i = 7 \/ i = 8 \/ i = 9) by lia.
  repeat destruct K as [->|K]; try reflexivity. subst. reflexivity.
Qed.
Lemma written_head : forall n s r, written n s -> lstrip (s ++ r) = s ++ r.
Proof.
  intros n s r (k & -> & R & C). destruct k as [|k].
  - exfalso. destruct C as [C|[C _]]; [discriminate|lia].
  - unfold decimal. rewrite seq_S, rev_app_distr. cbn [rev app map lstrip]. rewrite nonblank_digit; [reflexivity|].
    apply Z.mod_pos_bound. lia.
Qed.
Lemma lstrip_blanks : forall n s, lstrip (repeat " "%char n ++ s) = lstrip s.
Proof. induction n as [|n IH]; intros s; [reflexivity|]. cbn [repeat app lstrip]. change (Ascii.eqb " " " ") with true. cbn [repeat app]. apply IH. Qed.
Lemma positive_finite : forall x, is_finite x -> (0 < vq x)%Q -> exists m e, x = S754_finite false m e.
Proof.
  intros [s|s| |[] m e] F P; try (destruct F; fail); cbn [vq] in P; try lra; [|eauto].
  exfalso. pose proof (p2_pos e). assert (0 < inject_Z (Zpos m))%Q by (change 0%Q with (inject_Z 0); rewrite <- Zlt_Qlt; lia). nra.
Qed.
Lemma tiny_bound : (p2 (-1073) <= 1 # 1000000000000000000000)%Q.
Proof. apply Qle_trans with (p2 (-100)); [apply p2_le; lia|]. unfold p2. cbn. unfold Qle. cbn. lia. Qed.

Lemma interval_text : forall s, 0 < s < 2 ^ 40 -> exists t wt, time_units (of_int s) = wt ++ lit " min" /\ fraction t wt /\ - 3 <= s - 6 * t <= 3.
Proof.
  intros s R. destruct (of_int_exact s ltac:(lia)) as [F1 E1]. destruct (of_int_exact 60 ltac:(lia)) as [F2 E2].
  fold (of_int s) in F1, E1. fold (of_int 60) in F2, E2.
  assert (Q0 : (1 <= inject_Z s <= 1099511627776)%Q).
  { change 1%Q with (inject_Z 1). change 1099511627776%Q with (inject_Z 1099511627776). rewrite <- !Zle_Qle. lia. }
  assert (V : (vq (of_int s) / vq (of_int 60) == inject_Z s * (1 # 60))%Q).
  { rewrite E1, E2. unfold Qdiv. reflexivity. }
  assert (P : (0 <= vq (of_int s) / vq (of_int 60))%Q) by (rewrite V; lra).
  assert (AP : approx (SFdiv 53 1024 (of_int s) (of_int 60)) (vq (of_int s) / vq (of_int 60))).
  { apply div_approx; auto.
    - rewrite E2. discriminate.
    - rewrite (Qabs_pos _ P), V. split.
      + apply Qle_trans with (p2 (-10)); [apply p2_le; lia|]. unfold p2. cbn. lra.
      + apply Qle_trans with (p2 40); [unfold p2; cbn; lra|apply p2_le; lia]. }
  fold (Unsigned.fdiv (of_int s) (of_int 60)) in AP. set (w := Unsigned.fdiv (of_int s) (of_int 60)) in *.
  destruct (approx_bound _ _ 1099511627776 AP) as [FW B].
  { rewrite (Qabs_pos _ P), V. lra. }
  rewrite V in B. pose proof tiny_bound as TB. destruct (positive_finite w FW) as (m & e & EW); [lra|].
  unfold time_units. fold w. set (t := round_even (magnitude w * 10)).
  assert (MV : (magnitude w == vq w)%Q) by (rewrite EW; cbn [magnitude vq]; unfold p2; ring).
  destruct (round_near (magnitude w * 10)) as [U L]. fold t in U, L. rewrite MV in U, L.
  assert (T0 : 0 <= t) by (apply round_nonneg; rewrite MV; lra).
  assert (TX : tenths_text w = int_text (t / 10) ++ lit "." ++ int_text (t mod 10)) by (unfold t; rewrite EW; reflexivity).
  exists t, (tenths_text w). assert (W : written (t / 10) (int_text (t / 10))) by (apply int_text_written, Z.div_pos; lia).
  split; [|split].
  - unfold wide. rewrite <- app_assoc, lstrip_blanks, TX, <- app_assoc. apply written_head with (t / 10). exact W.
  - exists (int_text (t / 10)). split; [exact W|]. rewrite TX, (written_digit (t mod 10)) by (apply Z.mod_pos_bound; lia). reflexivity.
  - assert (A : (inject_Z s < inject_Z (6 * t + 4))%Q) by (rewrite inject_Z_plus, inject_Z_mult; change (inject_Z 6) with 6%Q; change (inject_Z 4) with 4%Q; lra).
    assert (C : (inject_Z (6 * t) < inject_Z (s + 4))%Q) by (rewrite inject_Z_plus, inject_Z_mult; change (inject_Z 6) with 6%Q; change (inject_Z 4) with 4%Q; lra).
    rewrite <- Zlt_Qlt in A, C. lia.
Qed.

Lemma cell_number : forall a b dx dy, microradians a dx -> microradians b dy -> 0 < a -> 0 < b -> a * b <= 2 ^ 40 ->
  exists k, to_int (fmul (fmul dx dy) (of_int 1000000000000)) = Some k /\ (k = a * b \/ k = a * b - 1).
Proof.
  intros a b dx dy [Fx X] [Fy Y] A0 B0 AB.
  set (a' := (inject_Z a / inject_Z 1000000)%Q) in *. set (b' := (inject_Z b / inject_Z 1000000)%Q) in *.
  set (eps := (1 # 4503599627370496)%Q). change (p2 (-52)) with eps in X, Y.
  assert (Qa : (1 <= inject_Z a)%Q) by (change 1%Q with (inject_Z 1); rewrite <- Zle_Qle; lia).
  assert (Qb : (1 <= inject_Z b)%Q) by (change 1%Q with (inject_Z 1); rewrite <- Zle_Qle; lia).
  assert (Qab : (1 <= inject_Z (a * b) <= 1099511627776)%Q).
  { change 1%Q with (inject_Z 1). change 1099511627776%Q with (inject_Z 1099511627776). rewrite <- !Zle_Qle. split; nia. }
  assert (Ea : (a' == inject_Z a * (1 # 1000000))%Q) by reflexivity. assert (Eb : (b' == inject_Z b * (1 # 1000000))%Q) by reflexivity.
  assert (Pa : (0 < a')%Q) by (rewrite Ea; lra). assert (Pb : (0 < b')%Q) by (rewrite Eb; lra).
  apply Qabs_Qle_condition in X, Y.
  set (u := (a' * b')%Q). assert (Eu : (u * 1000000000000 == inject_Z (a * b))%Q) by (unfold u; rewrite Ea, Eb, inject_Z_mult; ring).
  assert (Pu : (0 < u)%Q) by (unfold u; nra).
  assert (Ux : (a' * (1 - eps) <= vq dx <= a' * (1 + eps))%Q) by (split; lra).
  assert (Uy : (b' * (1 - eps) <= vq dy <= b' * (1 + eps))%Q) by (split; lra).
  assert (EP : (0 < eps /\ eps < 1 # 1000)%Q) by (unfold eps; split; reflexivity).
  assert (XY : (u * (1 - 3 * eps) <= vq dx * vq dy <= u * (1 + 3 * eps))%Q).
  { split.
    - apply Qle_trans with ((a' * (1 - eps)) * (b' * (1 - eps)))%Q.
      + setoid_replace ((a' * (1 - eps)) * (b' * (1 - eps)))%Q with (u * ((1 - eps) * (1 - eps)))%Q by (unfold u; ring).
        apply Qmult_le_l; [exact Pu|]. nra.
      + apply Qle_trans with (vq dx * (b' * (1 - eps)))%Q.
        * apply Qmult_le_compat_r; [tauto|]. nra.
        * setoid_replace (vq dx * (b' * (1 - eps)))%Q with ((b' * (1 - eps)) * vq dx)%Q by ring.
          setoid_replace (vq dx * vq dy)%Q with (vq dy * vq dx)%Q by ring. apply Qmult_le_compat_r; [tauto|]. nra.
    - apply Qle_trans with ((a' * (1 + eps)) * (b' * (1 + eps)))%Q.
      + apply Qle_trans with ((a' * (1 + eps)) * vq dy)%Q.
        * apply Qmult_le_compat_r; [tauto|]. nra.
        * setoid_replace ((a' * (1 + eps)) * vq dy)%Q with (vq dy * (a' * (1 + eps)))%Q by ring.
          setoid_replace ((a' * (1 + eps)) * (b' * (1 + eps)))%Q with ((b' * (1 + eps)) * (a' * (1 + eps)))%Q by ring.
          apply Qmult_le_compat_r; [tauto|]. nra.
      + setoid_replace ((a' * (1 + eps)) * (b' * (1 + eps)))%Q with (u * ((1 + eps) * (1 + eps)))%Q by (unfold u; ring).
        apply Qmult_le_l; [exact Pu|]. nra. }
  unfold eps in XY. clear Ux Uy.
  assert (M1 : (Qabs (vq dx * vq dy) <= 2)%Q) by (apply abs_le; lra).
  destruct (approx_bound (fmul dx dy) (vq dx * vq dy) (2 * u)) as [F1 B1].
  { apply mul_approx; auto. apply Qle_trans with (p2 1); [exact M1|apply p2_le; lia]. }
  { apply abs_le. lra. }
  set (p := vq (fmul dx dy)) in *.
  destruct (of_int_exact 1000000000000 ltac:(lia)) as [F2 E2]. fold (of_int 1000000000000) in F2, E2.
  pose proof tiny_bound as TB.
  assert (V : (p * vq (of_int 1000000000000) == p * 1000000000000)%Q) by (rewrite E2; reflexivity).
  assert (AP : approx (fmul (fmul dx dy) (of_int 1000000000000)) (p * vq (of_int 1000000000000))).
  { apply mul_approx; auto. fold p. rewrite V. apply Qle_trans with (p2 50); [|apply p2_le; lia]. apply abs_le.
    change (p2 50) with 1125899906842624%Q. lra. }
  destruct (approx_bound _ _ 2199023255552 AP) as [F3 B3].
  { rewrite V. apply abs_le. lra. }
  rewrite V in B3.
  destruct (to_int_near _ (a * b) F3 ltac:(nia)) as (k & Ek & C).
  { lra. }
  exists k. split; [exact Ek|]. rewrite Z.sgn_pos in C by nia. exact C.
Qed.

Definition uu : Q := 1 # 2251799813685248.
Lemma uu_small : (0 < uu /\ uu <= 1 # 1000000000000000)%Q.
Proof. unfold uu. split; unfold Qlt, Qle; cbn; lia. Qed.
Lemma tiny_uu : (p2 (-1073) <= uu * (1 # 10000000000000000000000000))%Q.
Proof. apply Qle_trans with (p2 (-140)); [apply p2_le; lia|]. unfold p2, uu. cbn. unfold Qle. cbn. lia. Qed.
Lemma mul_step : forall x y v k, is_finite x -> is_finite y -> ((1 # 10000) <= vq y <= 1000000)%Q ->
  ((1 # 10000000000) <= v <= 1000000000000000000)%Q -> (0 <= k <= 6)%Q -> (v - k * uu * v <= vq x <= v + k * uu * v)%Q ->
  is_finite (fmul x y) /\ (v * vq y - (k + 2) * uu * (v * vq y) <= vq (fmul x y) <= v * vq y + (k + 2) * uu * (v * vq y))%Q.
Proof.
  intros x y v k Fx Fy Y V K X. destruct uu_small as [U0 U1]. pose proof tiny_uu as T.
  assert (KU : (0 <= k * uu <= 1 # 100)%Q) by (split; nra).
  set (w := (v * vq y)%Q) in *. assert (W1 : ((1 # 100000000000000) <= w)%Q) by (unfold w; nra).
  assert (W2 : (w <= 1000000000000000000000000)%Q) by (unfold w; nra).
  assert (XY : (w - k * uu * w <= vq x * vq y <= w + k * uu * w)%Q).
  { unfold w. split.
    - setoid_replace (v * vq y - k * uu * (v * vq y))%Q with ((v - k * uu * v) * vq y)%Q by ring. apply Qmult_le_compat_r; lra.
    - setoid_replace (v * vq y + k * uu * (v * vq y))%Q with ((v + k * uu * v) * vq y)%Q by ring. apply Qmult_le_compat_r; lra. }
  assert (KW : (0 <= k * uu * w <= (1 # 100) * w)%Q) by (split; nra).
  set (p := (vq x * vq y)%Q) in *.
  assert (AP : approx (fmul x y) p).
  { apply mul_approx; auto. fold p. apply Qle_trans with (p2 100); [|apply p2_le; lia]. apply abs_le.
    assert (B : (2000000000000000000000000 <= p2 100)%Q) by (unfold p2; cbn; unfold Qle; cbn; lia). split; lra. }
  destruct (approx_bound _ _ p AP) as [F A]; [apply abs_le; lra|]. fold uu in A. split; [exact F|].
  assert (E1 : (uu * p <= uu * w + (1 # 100) * (uu * w))%Q).
  { assert (uu * p <= uu * (w + (1 # 100) * w))%Q by (rewrite !(Qmult_comm uu); apply Qmult_le_compat_r; lra). lra. }
  assert (E2 : (uu * (1 # 10000000000000000000000000) <= (1 # 100) * (uu * w))%Q).
  { setoid_replace ((1 # 100) * (uu * w))%Q with (uu * ((1 # 100) * w))%Q by ring. rewrite !(Qmult_comm uu). apply Qmult_le_compat_r; lra. }
  assert (E3 : (0 < uu * w)%Q) by nra.
  setoid_replace ((k + 2) * uu * w)%Q with (k * uu * w + 2 * (uu * w))%Q by ring.
  set (kw := (k * uu * w)%Q) in *. set (z := (uu * w)%Q) in *. set (tt := p2 (-1073)) in *. set (up := (uu * p)%Q) in *.
  clearbody kw z tt up p. clear - XY A E1 E2 E3 T. lra.
Qed.
(** The text of a positive number with one decimal, blanks removed. *)
Lemma tenths_fraction : forall w u, is_finite w -> (0 < vq w)%Q -> exists t wt,
  lstrip (wide 5 (tenths_text w) ++ u) = wt ++ u /\ fraction t wt /\ (- (1 # 2) <= inject_Z t - 10 * vq w <= 1 # 2)%Q.
Proof.
  intros w u FW PW. destruct (positive_finite w FW PW) as (m & e & EW).
  set (t := round_even (magnitude w * 10)).
  assert (MV : (magnitude w == vq w)%Q) by (rewrite EW; cbn [magnitude vq]; unfold p2; ring).
  destruct (round_near (magnitude w * 10)) as [U L]. fold t in U, L. rewrite MV in U, L.
  assert (T0 : 0 <= t) by (apply round_nonneg; rewrite MV; lra).
  assert (TX : tenths_text w = int_text (t / 10) ++ lit "." ++ int_text (t mod 10)) by (unfold t; rewrite EW; reflexivity).
  exists t, (tenths_text w). assert (W : written (t / 10) (int_text (t / 10))) by (apply int_text_written, Z.div_pos; lia).
  split; [|split].
  - unfold wide. rewrite <- app_assoc, lstrip_blanks, TX, <- app_assoc. apply written_head with (t / 10). exact W.
  - exists (int_text (t / 10)). split; [exact W|]. rewrite TX, (written_digit (t mod 10)) by (apply Z.mod_pos_bound; lia). reflexivity.
  - lra.
Qed.
Lemma area_text : forall dx dy ssf, is_finite dx -> is_finite dy -> is_finite ssf ->
  ((1 # 1000) <= vq dx <= 1000000)%Q -> ((1 # 1000) <= vq dy <= 1000000)%Q -> ((1 # 1000) <= vq ssf <= 1)%Q ->
  (vq dx * vq ssf * vq dy * vq ssf <= 100000000000)%Q ->
  exists a wa, density_units Other dx dy ssf = Ok (wa ++ lit " km^2") /\ fraction a wa /\
    (- (51 # 100) <= inject_Z a - 10 * (vq dx * vq ssf * vq dy * vq ssf) <= 51 # 100)%Q.
Proof.
  intros dx dy ssf F1 F2 F3 X Y S A. destruct uu_small as [U0 U1].
  destruct (mul_step dx ssf (vq dx) 0) as [G1 N1]; auto; try lra.
  set (v1 := (vq dx * vq ssf)%Q) in *. assert (V1 : ((1 # 1000000) <= v1 <= 1000000)%Q) by (unfold v1; split; nra).
  destruct (mul_step (fmul dx ssf) dy v1 2) as [G2 N2]; auto; try lra.
  set (v2 := (v1 * vq dy)%Q) in *. assert (V2 : ((1 # 1000000000) <= v2 <= 1000000000000)%Q) by (unfold v2; split; nra).
  destruct (mul_step (fmul (fmul dx ssf) dy) ssf v2 4) as [G3 N3]; auto; try lra.
  set (v3 := (v2 * vq ssf)%Q) in *. assert (V3 : (0 < v3)%Q) by (unfold v3; nra).
  assert (V4 : (0 <= uu * v3 <= (1 # 1000000000000000) * v3)%Q) by (split; nra).
  set (area := fmul (fmul (fmul dx ssf) dy) ssf) in *.
  destruct (tenths_fraction area (lit " km^2") G3) as (a & wa & E & F & R); [lra|].
  exists a, wa. split; [cbn [density_units]; fold area; rewrite E; reflexivity|]. split; [exact F|]. lra.
Qed.

Tactic Notation "at_place" integer(n) constr(CU) := solve [eexists; split; [cbn [lut_names field_descriptions field_units combine map fst snd In]; do n right; left; reflexivity|
      cbn [va_name va_standard va_mapping va_long va_units]; repeat (split; [reflexivity|]); first [exact CU | reflexivity]]].

(** Every file has the eight variables, each once.  A variable's long name is its name in words.
    Counts are given per pixel of the nominal area (or one less) and per minutes to the nearest
    tenth; areas in km^2 per flash or group, energy in nJ. *)
Theorem C90_units_partial : forall a b s dx dy ssf, microradians a dx -> microradians b dy -> 0 < a -> 0 < b -> a * b <= 2 ^ 40 -> 0 < s < 2 ^ 40 ->
  exists vars A t, file_variables Geos dx dy ssf (of_int s) = Ok vars /\
    (A = a * b \/ A = a * b - 1) /\ - 3 <= s - 6 * t <= 3 /\ (s mod 6 = 0 -> s = 6 * t) /\
    NoDup (map va_name vars) /\
    (forall f k, In (f, k) fields -> exists v, In v vars /\ va_name v = f /\ va_standard v = f /\ va_mapping v = "goes_imager_projection" /\
       va_long v = (if String.eqb f "total_energy" then "Total radiant energy" else in_words f) /\
       match k with
       | Count => count_units A t (va_units v)
       | FlashArea => va_units v = lit "km^2 per flash"
       | GroupArea => va_units v = lit "km^2 per group"
       | LeastArea => va_units v = lit "km^2"
       | Energy => va_units v = lit "nJ"
       end) /\
    (forall v, In v vars -> exists k, In (va_name v, k) fields).
Proof.
  intros a b s dx dy ssf X Y A0 B0 AB S.
  destruct (cell_number a b dx dy X Y A0 B0 AB) as (A & EA & CA). destruct (interval_text s S) as (t & wt & ET & FT & RT).
  unfold file_variables, density_label, density_units. rewrite EA. cbn [bind]. rewrite ET.
  eexists. exists A, t. split; [reflexivity|]. split; [exact CA|]. split; [exact RT|].
  split. { intros M. apply Z.mod_divide in M; [|lia]. destruct M as [q ->]. lia. }
  assert (CU : count_units A t (lit "Count per " ++ (lit "nominal " ++ wide 7 (integer_text A) ++ lit " microradian^2") ++ lit " pixel per " ++ wt ++ lit " min")).
  { assert (A1 : 0 <= A) by nia. exists (7 - List.length (int_text A))%nat, (int_text A), wt.
    split; [apply int_text_written; exact A1|]. split; [exact FT|].
    unfold integer_text. destruct (Z.ltb_spec A 0); [lia|]. unfold wide. rewrite <- !app_assoc. reflexivity. }
  set (label := lit "Count per " ++ _) in *. clearbody label.
  split; [|split].
  - cbn. repeat (constructor; [intros K; repeat (destruct K as [K|K]; [discriminate K|]); exact K|]). constructor.
  - intros f k H. cbn [fields In] in H.
    repeat (destruct H as [H|H]; [injection H as <- <-;
      first [at_place 0 CU | at_place 1 CU | at_place 2 CU | at_place 3 CU | at_place 4 CU | at_place 5 CU | at_place 6 CU | at_place 7 CU]|]).
    destruct H.
  - intros v H. cbn [lut_names field_descriptions field_units combine map fst snd In] in H.
    repeat (destruct H as [<-|H]; [eexists; cbn [va_name fields In]; repeat (first [left; reflexivity | right])|]). destruct H.
Qed.
Print Assumptions C90_units_partial.

(** In the other projections the label of the counts has the cell itself (latitude and longitude) or
    its area in km^2 to the nearest tenth; the other units are the same. *)
Theorem C90_other_projections_partial : forall p dx dy ssf s, p <> Geos -> 0 < s < 2 ^ 40 -> is_finite dx -> is_finite dy -> is_finite ssf ->
  ((1 # 1000) <= vq dx <= 1000000)%Q -> ((1 # 1000) <= vq dy <= 1000000)%Q -> ((1 # 1000) <= vq ssf <= 1)%Q ->
  (vq dx * vq ssf * vq dy * vq ssf <= 100000000000)%Q ->
  exists vars a t, file_variables p dx dy ssf (of_int s) = Ok vars /\
    (- (51 # 100) <= inject_Z a - 10 * (vq dx * vq ssf * vq dy * vq ssf) <= 51 # 100)%Q /\ - 3 <= s - 6 * t <= 3 /\
    NoDup (map va_name vars) /\
    (forall f k, In (f, k) fields -> exists v, In v vars /\ va_name v = f /\ va_standard v = f /\ va_mapping v = "goes_imager_projection" /\
       va_long v = (if String.eqb f "total_energy" then "Total radiant energy" else in_words f) /\
       match k with
       | Count => match p with Latlong => cell_units t (va_units v) | _ => km_units a t (va_units v) end
       | FlashArea => va_units v = lit "km^2 per flash"
       | GroupArea => va_units v = lit "km^2 per group"
       | LeastArea => va_units v = lit "km^2"
       | Energy => va_units v = lit "nJ"
       end) /\
    (forall v, In v vars -> exists k, In (va_name v, k) fields).
Proof.
  intros p dx dy ssf s NG S F1 F2 F3 X Y Z0 AR.
  destruct (area_text dx dy ssf F1 F2 F3 X Y Z0 AR) as (a & wa & EA & FA & CA). destruct (interval_text s S) as (t & wt & ET & FT & RT).
  assert (L : exists label, density_label p dx dy ssf (of_int s) = Ok label /\ match p with Latlong => cell_units t label | _ => km_units a t label end).
  { unfold density_label. destruct p; [|congruence|]; [cbn [density_units bind]|rewrite EA; cbn [bind]]; rewrite ET; eexists; (split; [reflexivity|]).
    - exists wt. split; [exact FT|]. reflexivity.
    - exists wa, wt. split; [exact FA|]. split; [exact FT|]. rewrite <- !app_assoc. reflexivity. }
  destruct L as (label & EL & CU). unfold file_variables. rewrite EL. cbn [bind].
  eexists. exists a, t. split; [reflexivity|]. split; [exact CA|]. split; [exact RT|].
  split; [|split].
  - cbn. repeat (constructor; [intros K; repeat (destruct K as [K|K]; [discriminate K|]); exact K|]). constructor.
  - intros f k H. cbn [fields In] in H.
    repeat (destruct H as [H|H]; [injection H as <- <-;
      first [at_place 0 CU | at_place 1 CU | at_place 2 CU | at_place 3 CU | at_place 4 CU | at_place 5 CU | at_place 6 CU | at_place 7 CU]|]).
    destruct H.
  - intros v H. cbn [lut_names field_descriptions field_units combine map fst snd In] in H.
    repeat (destruct H as [<-|H]; [eexists; cbn [va_name fields In]; repeat (first [left; reflexivity | right])|]). destruct H.
Qed.
Print Assumptions C90_other_projections_partial.
(** Cells of 10 km by 20 km, spacings in metres. *)
Example C90_other_hypotheses : exists dx dy ssf, is_finite dx /\ is_finite dy /\ is_finite ssf /\
  (vq dx == 10000)%Q /\ (vq dy == 20000)%Q /\ ((1 # 1000) <= vq ssf <= 1)%Q /\
  density_label Other dx dy ssf (of_int 60) = Ok (lit "Count per 200.0 km^2 pixel per 1.0 min") /\
  density_label Latlong dx dy ssf (of_int 300) = Ok (lit "Count per grid pixel per 5.0 min").
Proof.
  exists (of_int 10000), (of_int 20000), (Unsigned.fdiv (of_int 1) (of_int 1000)). repeat split; try (vm_compute; first [reflexivity | congruence]).
Qed.

(** The area of a pixel is not always right: for pixels of 280 microradians (10 km at nadir, one
    of the standard resolutions) the product is rounded down and then cut off. *)
Definition microrad_280 : f64 := S754_finite false 5165088340638674 (-64).
Theorem C90_area_refuted : nearest_to (280 # 1000000) microrad_280 /\ microradians 280 microrad_280 /\
  forall ssf, exists vars v, file_variables Geos microrad_280 microrad_280 ssf (of_int 60) = Ok vars /\ In v vars /\
    va_name v = "flash_extent_density" /\
    va_units v = lit "Count per nominal   78399 microradian^2 pixel per 1.0 min" /\ 280 * 280 = 78400.
Proof.
  split; [unfold nearest_to; repeat split; vm_compute; congruence|]. split; [split; [exact I|vm_compute; congruence]|].
  intros ssf. unfold file_variables, density_label, density_units.
  replace (to_int (fmul (fmul microrad_280 microrad_280) (of_int 1000000000000))) with (Some 78399) by (vm_compute; reflexivity).
  cbn [bind]. eexists. eexists. split; [reflexivity|]. split; [left; reflexivity|]. repeat split; vm_compute; reflexivity.
Qed.
Print Assumptions C90_area_refuted.
(** The interval is written in tenths of minutes: it is wrong whenever it is not a multiple of 6
    seconds, as for frames of 20 seconds. *)
Theorem C90_interval_refuted :
  (forall s, 0 < s < 2 ^ 40 -> s mod 6 <> 0 -> exists t wt, time_units (of_int s) = wt ++ lit " min" /\ fraction t wt /\ s <> 6 * t) /\
  time_units (of_int 20) = time_units (of_int 18) /\ time_units (of_int 20) = lit "0.3 min".
Proof.
  split; [|split; vm_compute; reflexivity].
  intros s R N. destruct (interval_text s R) as (t & wt & E & F & _). exists t, wt. split; [exact E|]. split; [exact F|].
  intros ->. apply N. rewrite Z.mul_comm. apply Z.mod_mul. lia.
Qed.
Print Assumptions C90_interval_refuted.

(** Grids of 56 microradians (2 km) and one minute meet the hypotheses, and the label is right. *)
Definition microrad_56 : f64 := S754_finite false 8264141345021879 (-67).
Example C90_hypotheses : nearest_to (56 # 1000000) microrad_56 /\ microradians 56 microrad_56 /\
  (exists vars v, file_variables Geos microrad_56 microrad_56 microrad_56 (of_int 60) = Ok vars /\ List.length vars = 8%nat /\ In v vars /\
    va_name v = "group_extent_density" /\ va_long v = "Group extent density" /\
    va_units v = lit "Count per nominal    3136 microradian^2 pixel per 1.0 min").
Proof.
  split; [unfold nearest_to; repeat split; vm_compute; congruence|]. split; [split; [exact I|vm_compute; congruence]|].
  eexists. eexists. split; [vm_compute; reflexivity|]. split; [reflexivity|]. split; [do 4 right; left; reflexivity|]. repeat split; vm_compute; reflexivity.
Qed.
