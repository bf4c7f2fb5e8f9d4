(** C16: repair of values decoded as signed 16 bit integers. *)
From Coq Require Import List ZArith Lia Bool QArith Qabs Lqa Floats.SpecFloat.
From Verif Require Import Unsigned FloatProofs.
Import ListNotations.
Open Scope Z_scope.

(** What the 16 bits of a signed code denote, read as an unsigned integer, with the
    scale factor 0.00203128 and an offset. *)
Definition unsigned_value (offset : f64) (code : Z) : f64 :=
  fadd (fmul (of_int (code mod 2 ^ 16)) scale_factor) offset.

(** The constants of the model are the binary64 numbers nearest to the decimals. *)
Definition exact_value (x : f64) : Q :=
  match x with
  | S754_finite s m e =>
      let v := (inject_Z (Zpos m) * (if 0 <=? e then inject_Z (2 ^ e) else 1 # Z.to_pos (2 ^ (- e))))%Q in
      if s then (- v)%Q else v
  | _ => 0%Q
  end.
Definition half_step (x : f64) : Q :=
  match x with S754_finite _ _ e => (1 # 2 * Z.to_pos (2 ^ (- e)))%Q | _ => 0%Q end.
Definition nearest_to (q : Q) (x : f64) : Prop :=
  (exact_value x - half_step x < q < exact_value x + half_step x)%Q
  /\ (match x with S754_finite _ m _ => 2 ^ 52 <= Zpos m < 2 ^ 53 | _ => False end).
Example constants_nearest :
  nearest_to (203128 # 100000000) scale_factor /\ nearest_to (- (15606 # 100)) lon_fov_0 /\
  nearest_to (- (6656 # 100)) lat_fov_0.
Proof. unfold nearest_to. repeat split; vm_compute; congruence. Qed.

Lemma make_unsigned_mod : forall k, -65536 <= k < 65536 -> make_unsigned k = k mod 2 ^ 16.
Proof.
  intros k H. unfold make_unsigned. destruct (Z.ltb_spec k 0).
  - apply (Z.mod_unique_pos k (2 ^ 16) (-1)); lia.
  - apply (Z.mod_unique_pos k (2 ^ 16) 0); lia.
Qed.

(** Reading through netCDF variables: right for every code and offset. *)
Theorem C16_netcdf_exact_partial : forall offset code, -32768 <= code < 32768 ->
  fix_location_netcdf offset code = unsigned_value offset code.
Proof.
  intros offset code H. unfold fix_location_netcdf, unsigned_value.
  rewrite make_unsigned_mod by lia. reflexivity.
Qed.

(** The two functions are equivalent for the codes and offsets of event locations. *)
Theorem C16_functions_agree : forall offset v k,
  to_int (fdiv (fsub v offset) scale_factor) = Some k -> -65536 <= k < 65536 ->
  fix_unsigned scale_factor offset v = fix_location_xarray offset v.
Proof.
  intros offset v k E H. unfold fix_unsigned, fix_location_xarray. rewrite E.
  rewrite make_unsigned_mod by exact H. reflexivity.
Qed.

(** ** Error analysis *)
Lemma approx_bound : forall r v B, approx r v -> (Qabs v <= B)%Q ->
  is_finite r /\ (v - ((1 # 2251799813685248) * B + p2 (-1073)) <= vq r <= v + ((1 # 2251799813685248) * B + p2 (-1073)))%Q.
Proof.
  intros r v B [F E] H. split; [exact F|]. change (p2 (-51)) with (1 # 2251799813685248)%Q in E.
  assert (L : (Qabs (vq r - v) <= (1 # 2251799813685248) * B + p2 (-1073))%Q) by lra.
  apply Qabs_Qle_condition in L. lra.
Qed.
Lemma abs_le : forall v B, (- B <= v <= B)%Q -> (Qabs v <= B)%Q.
Proof. intros v B H. apply Qabs_Qle_condition. exact H. Qed.

Lemma to_int_near : forall w c, is_finite w -> c <> 0 -> (inject_Z c - 1 < vq w < inject_Z c + 1)%Q ->
  exists k, to_int w = Some k /\ (k = c \/ k = c - Z.sgn c).
Proof.
  intros w c F NZ H. destruct w as [s|s| |s m e]; try destruct F.
  - exfalso. cbn [vq] in H. destruct H as [H1 H2].
    assert (A : (inject_Z c < inject_Z 1)%Q) by (change (inject_Z 1) with 1%Q; lra). rewrite <- Zlt_Qlt in A.
    assert (B : (inject_Z (-1) < inject_Z c)%Q) by (change (inject_Z (-1)) with (-1)%Q; lra). rewrite <- Zlt_Qlt in B. lia.
  - cbn [to_int]. set (k := if 0 <=? e then Zpos m * 2 ^ e else Zpos m / 2 ^ (- e)).
    assert (K : (inject_Z k <= inject_Z (Zpos m) * p2 e < inject_Z (k + 1))%Q /\ 0 <= k).
    { unfold k. destruct (Z.leb_spec 0 e) as [L|G].
      - rewrite inject_Z_plus, inject_Z_mult, <- p2_Z by exact L. change (inject_Z 1) with 1%Q.
        assert (0 < 2 ^ e) by (apply Z.pow_pos_nonneg; lia). split; [lra|nia].
      - assert (P : 0 < 2 ^ (- e)) by (apply Z.pow_pos_nonneg; lia).
        pose proof (Z.div_mod (Zpos m) (2 ^ (- e)) ltac:(lia)) as D. pose proof (Z.mod_pos_bound (Zpos m) (2 ^ (- e)) P) as M.
        set (q := Zpos m / 2 ^ (- e)) in *.
        assert (E : (inject_Z (2 ^ (- e)) * p2 e == 1)%Q).
        { rewrite <- p2_Z by lia. rewrite <- p2_plus. replace (- e + e) with 0 by lia. reflexivity. }
        pose proof (p2_pos e) as Pe.
        assert (A : 2 ^ (- e) * q <= Zpos m) by lia. assert (B : Zpos m < 2 ^ (- e) * (q + 1)) by lia.
        rewrite Zle_Qle, inject_Z_mult in A. rewrite Zlt_Qlt, inject_Z_mult in B.
        split; [|apply Z.div_pos; lia]. split.
        + setoid_replace (inject_Z q) with (inject_Z (2 ^ (- e)) * inject_Z q * p2 e)%Q.
          * nra.
          * setoid_replace (inject_Z (2 ^ (- e)) * inject_Z q * p2 e)%Q with ((inject_Z (2 ^ (- e)) * p2 e) * inject_Z q)%Q by ring.
            rewrite E. ring.
        + setoid_replace (inject_Z (q + 1)) with (inject_Z (2 ^ (- e)) * inject_Z (q + 1) * p2 e)%Q.
          * nra.
          * setoid_replace (inject_Z (2 ^ (- e)) * inject_Z (q + 1) * p2 e)%Q with ((inject_Z (2 ^ (- e)) * p2 e) * inject_Z (q + 1))%Q by ring.
            rewrite E. ring. }
    destruct K as [[K1 K2] K0]. exists (if s then - k else k). split; [reflexivity|].
    cbn [vq] in H. set (V := (inject_Z (Zpos m) * p2 e)%Q) in *.
    destruct s.
    + assert (A : (inject_Z k < inject_Z (- c + 1))%Q) by (rewrite inject_Z_plus, inject_Z_opp; change (inject_Z 1) with 1%Q; lra).
      assert (B : (inject_Z (- c - 1) < inject_Z (k + 1))%Q).
      { unfold Z.sub. rewrite inject_Z_plus, inject_Z_opp. change (inject_Z (- (1))) with (-1)%Q. lra. }
      rewrite <- Zlt_Qlt in A, B. assert (c < 0) by lia. rewrite Z.sgn_neg by lia. lia.
    + assert (A : (inject_Z k < inject_Z (c + 1))%Q) by (rewrite inject_Z_plus; change (inject_Z 1) with 1%Q; lra).
      assert (B : (inject_Z (c - 1) < inject_Z (k + 1))%Q).
      { unfold Z.sub. rewrite inject_Z_plus. change (inject_Z (- (1))) with (-1)%Q. lra. }
      rewrite <- Zlt_Qlt in A, B. assert (0 < c) by lia. rewrite Z.sgn_pos by lia. lia.
Qed.

(** Scale factors and offsets for which the analysis holds: the offset is less than
    2^30 steps. *)
Definition usable (scale offset : f64) : Prop :=
  is_finite scale /\ is_finite offset /\ (p2 (-100) <= vq scale <= p2 100)%Q /\
  (- (1073741824 * vq scale) <= vq offset <= 1073741824 * vq scale)%Q.

(** The code recovered from its decoded value. *)
Definition unscaled (scale offset : f64) (code : Z) : option Z :=
  to_int (fdiv (fsub (decode scale offset code) offset) scale).

Lemma unscaled_zero : forall scale offset, usable scale offset -> unscaled scale offset 0 = Some 0.
Proof.
  intros scale offset [Fs [Fo [Bs _]]]. unfold unscaled, decode, fdiv, fsub, fadd, fmul.
  change (of_int 0) with (S754_zero false). pose proof (p2_pos (-100)).
  destruct scale as [s|s| |s m e]; try destruct Fs; [cbn [vq] in Bs; lra|].
  cbn [SFmul xorb].
  destruct offset as [o|o| |o mo eo]; try destruct Fo.
  - destruct s, o; reflexivity.
  - cbn [SFadd SFsub]. rewrite Z.sub_diag. reflexivity.
Qed.

Lemma unscaled_near : forall scale offset code, usable scale offset -> Z.abs code <= 65536 ->
  exists k, unscaled scale offset code = Some k /\ (k = code \/ (code <> 0 /\ k = code - Z.sgn code)).
Proof.
  intros scale offset code U Hc. destruct (Z.eq_dec code 0) as [->|NZ].
  { exists 0. split; [apply unscaled_zero, U|left; reflexivity]. }
  destruct U as [Fs [Fo [[Bs1 Bs2] Bo]]]. set (S := vq scale) in *. set (O := vq offset) in *.
  assert (Sp : (0 < S)%Q) by (pose proof (p2_pos (-100)); lra).
  assert (Hcode : (-65536 <= inject_Z code <= 65536)%Q).
  { split; [change (-65536)%Q with (inject_Z (-65536))|change 65536%Q with (inject_Z 65536)]; rewrite <- Zle_Qle; lia. }
  destruct (of_int_exact code ltac:(lia)) as [Fc Vc]. fold (of_int code) in Fc, Vc.
  assert (Big : (p2 100 * 4294967296 <= p2 800)%Q) by (vm_compute; discriminate).
  assert (Eta : (p2 (-1073) <= (1 # 1152921504606846976) * S)%Q).
  { assert (p2 (-1073) <= (1 # 1152921504606846976) * p2 (-100))%Q by (vm_compute; discriminate). lra. }
  pose proof (p2_pos (-1073)) as Etap.
  set (C := inject_Z code) in *. set (T := (C * S)%Q).
  assert (HT : (- (65536 * S) <= T <= 65536 * S)%Q) by (unfold T; split; nra).
  (* x *)
  set (x := fmul (of_int code) scale).
  destruct (approx_bound x T (65536 * S)) as [Fx Bx].
  { unfold x, T, fmul. assert (E : (C * S == vq (of_int code) * vq scale)%Q) by (rewrite Vc; reflexivity).
    unfold approx. rewrite E. apply mul_approx; auto. rewrite <- E. apply abs_le. fold T. split; lra. }
  { apply abs_le. lra. }
  (* y *)
  set (y := fadd x offset).
  destruct (approx_bound y (vq x + O) (2147483648 * S)) as [Fy By].
  { apply add_approx; auto. apply abs_le. fold O. split; lra. }
  { apply abs_le. split; lra. }
  (* z *)
  set (z := fsub y offset).
  destruct (approx_bound z (vq y - O) (4294967296 * S)) as [Fz Bz].
  { apply sub_approx; auto. apply abs_le. fold O. split; lra. }
  { apply abs_le. split; lra. }
  assert (NearT : (T - (1 # 200000) * S <= vq z <= T + (1 # 200000) * S)%Q) by lra.
  (* w *)
  set (q := (vq z / S)%Q).
  assert (Eq : (q * S == vq z)%Q) by (unfold q; field; lra).
  assert (Nearq : (C - (1 # 200000) <= q <= C + (1 # 200000))%Q).
  { unfold T in NearT. split; apply (Qmult_le_r _ _ S Sp); lra. }
  assert (Cabs : (C <= -1 \/ 1 <= C)%Q).
  { unfold C. destruct (Z_lt_ge_dec code 0).
    - left. change (-1)%Q with (inject_Z (-1)). rewrite <- Zle_Qle. lia.
    - right. change 1%Q with (inject_Z 1). rewrite <- Zle_Qle. lia. }
  assert (Lowq : (p2 (-900) <= Qabs q)%Q).
  { apply Qle_trans with (1 # 2)%Q; [vm_compute; discriminate|].
    destruct Cabs as [CN|CP].
    - rewrite Qabs_neg by lra. lra.
    - rewrite Qabs_pos by lra. lra. }
  assert (Uppq : (Qabs q <= 131072)%Q) by (apply abs_le; lra).
  set (w := fdiv z scale).
  destruct (approx_bound w q 131072) as [Fw Bw].
  { apply div_approx; auto; fold S; [lra|]. fold q. split; [exact Lowq|].
    eapply Qle_trans; [exact Uppq|]. vm_compute. discriminate. }
  { exact Uppq. }
  assert (EtaN : (p2 (-1073) <= 1 # 1000)%Q) by (vm_compute; discriminate).
  destruct (to_int_near w code Fw NZ ltac:(fold C; lra)) as [k [E K]].
  exists k. split; [exact E|]. destruct K as [K|K]; auto.
Qed.

(** ** Theorems *)
(** Reading through xarray: for every scale and offset of ordinary size and every code,
    the value that the repair returns is that of the code, or of the next code towards
    the signed zero. *)
Theorem C16_one_step_partial : forall scale offset code, usable scale offset -> -32768 <= code < 32768 ->
  exists k, fix_unsigned scale offset (decode scale offset code)
            = Some (fadd (fmul (of_int (k mod 2 ^ 16)) scale) offset) /\
    (k = code \/ (code <> 0 /\ k = code - Z.sgn code)).
Proof.
  intros scale offset code U H. destruct (unscaled_near scale offset code U ltac:(lia)) as [k [E K]].
  exists k. split; [|exact K]. unfold fix_unsigned. unfold unscaled in E. rewrite E. reflexivity.
Qed.

Lemma usable_lon : usable scale_factor lon_fov_0.
Proof. unfold usable. repeat split; vm_compute; congruence. Qed.
Lemma usable_lat : usable scale_factor lat_fov_0.
Proof. unfold usable. repeat split; vm_compute; congruence. Qed.

Theorem C16_one_step_location_partial : forall offset code, offset = lon_fov_0 \/ offset = lat_fov_0 ->
  -32768 <= code < 32768 ->
  exists k, fix_location_xarray offset (decode scale_factor offset code) = Some (unsigned_value offset k) /\
    (k = code \/ (code <> 0 /\ k = code - Z.sgn code)).
Proof.
  intros offset code O H. assert (U : usable scale_factor offset) by (destruct O as [-> | ->]; [apply usable_lon|apply usable_lat]).
  destruct (unscaled_near scale_factor offset code U ltac:(lia)) as [k [E K]].
  exists k. split; [|exact K]. unfold fix_location_xarray. unfold unscaled in E. rewrite E.
  rewrite make_unsigned_mod by lia. reflexivity.
Qed.

(** Codes that do not get the value their bits denote, of both signs and for both
    coordinates. *)
Theorem C16_locations_refuted :
  (forall code, In code [2; -2; 19; -32765; 32765] ->
     fix_location_xarray lon_fov_0 (decode scale_factor lon_fov_0 code)
     = Some (unsigned_value lon_fov_0 (code - Z.sgn code)) /\
     unsigned_value lon_fov_0 (code - Z.sgn code) <> unsigned_value lon_fov_0 code) /\
  (forall code, In code [1; -2; 17; -32765; 32765] ->
     fix_location_xarray lat_fov_0 (decode scale_factor lat_fov_0 code)
     = Some (unsigned_value lat_fov_0 (code - Z.sgn code)) /\
     unsigned_value lat_fov_0 (code - Z.sgn code) <> unsigned_value lat_fov_0 code).
Proof.
  split; intros code H; cbn in H;
    repeat (destruct H as [<- |H]; [split; [vm_compute; reflexivity|vm_compute; discriminate]|]); destruct H.
Qed.

(** The largest latitude (code 65535, 66.56 degrees north) is repaired to that of
    code 0 (66.56 degrees south). *)
Theorem C16_northernmost_refuted :
  fix_location_xarray lat_fov_0 (decode scale_factor lat_fov_0 (-1)) = Some (unsigned_value lat_fov_0 0) /\
  (exact_value (unsigned_value lat_fov_0 0) < -66)%Q /\ (66 < exact_value (unsigned_value lat_fov_0 (-1)))%Q.
Proof. repeat split; vm_compute; reflexivity. Qed.

(** fix_unsigned has the same errors. *)
Theorem C16_fix_unsigned_refuted :
  fix_unsigned scale_factor lat_fov_0 (decode scale_factor lat_fov_0 (-1)) = Some (unsigned_value lat_fov_0 0) /\
  (forall offset code, offset = lon_fov_0 \/ offset = lat_fov_0 -> -32768 <= code < 32768 ->
     fix_unsigned scale_factor offset (decode scale_factor offset code)
     = fix_location_xarray offset (decode scale_factor offset code)).
Proof.
  split; [vm_compute; reflexivity|]. intros offset code O H.
  assert (U : usable scale_factor offset) by (destruct O as [-> | ->]; [apply usable_lon|apply usable_lat]).
  destruct (unscaled_near scale_factor offset code U ltac:(lia)) as [k [E K]].
  apply (C16_functions_agree _ _ k E). lia.
Qed.

Print Assumptions C16_netcdf_exact_partial.
Print Assumptions C16_functions_agree.
Print Assumptions C16_one_step_partial.
Print Assumptions C16_one_step_location_partial.
Print Assumptions C16_locations_refuted.
Print Assumptions C16_northernmost_refuted.
Print Assumptions C16_fix_unsigned_refuted.
