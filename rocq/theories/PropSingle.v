(** C93: totals on grids of single precision. *)
From Coq Require Import List ZArith Lia Bool QArith Qabs Lqa Floats.SpecFloat.
From Verif Require Import Base Unsigned FloatProofs Float32Proofs Accum Single.
Import ListNotations.
Open Scope Z_scope.

(** * Specification *)
(** The values that the batches have for the cell with x index [i] and y index [j]. *)
Definition values_for (i j : Z) (batches : list (list sitem)) : list f64 :=
  map si_v (filter (fun it => (si_x it =? i) && (si_y it =? j)) (concat batches)).
(** Their exact sum. *)
Definition exact_sum (vs : list f64) : Q := fold_right (fun v s => vq v + s)%Q 0%Q vs.
(** Rows that lie on the grid, each cell at most once in a batch (as the code requires). *)
Definition proper (n0 n1 : Z) (batch : list sitem) : Prop :=
  NoDup (map (fun it => (si_x it, si_y it)) batch) /\ Forall (fun it => 0 <= si_x it < n1 /\ 0 <= si_y it < n0) batch.
Definition nonnegative (v : f64) : Prop := is_finite v /\ (0 <= vq v)%Q.
Definition whole (v : f64) : Prop := is_finite v /\ exists n, 0 <= n /\ (vq v == inject_Z n)%Q.

(** * One cell *)
Definition total (vs : list f64) (c : f32) : f32 := fold_left (fun c v => single_add c (to_single v)) vs c.

Lemma norm_in : forall n i, 0 <= i < n -> norm_index n i = Ok i.
Proof. intros n i H. unfold norm_index. rewrite (proj2 (Z.leb_le 0 i)), (proj2 (Z.ltb_lt i n)) by lia. reflexivity. Qed.
Lemma addresses_ok : forall g its, Forall (fun it => 0 <= si_x it < s_n1 g /\ 0 <= si_y it < s_n0 g) its ->
  map_res (saddress g) its = Ok (map (fun it => (si_y it, si_x it)) its).
Proof.
  intros g its H. induction H as [|it its (X & Y) H IH]; [reflexivity|]. cbn [map_res]. unfold saddress at 1.
  rewrite (norm_in _ _ Y). cbn [bind]. rewrite (norm_in _ _ X). cbn [bind]. rewrite IH. reflexivity.
Qed.
Lemma sput_all_other : forall ps g a b, ~ In (a, b) (map fst ps) -> s_at (sput_all g ps) a b = s_at g a b.
Proof.
  induction ps as [|[p v] ps IH]; intros g a b N; [reflexivity|]. cbn [sput_all]. rewrite IH by (intro I; apply N; right; exact I).
  cbn [sput s_at]. destruct (Z.eqb_spec a (fst p)); [|reflexivity]. destruct (Z.eqb_spec b (snd p)); [|reflexivity].
  exfalso. apply N. left. cbn. destruct p; cbn in *; congruence.
Qed.
Lemma sput_all_at : forall ps g a b v, NoDup (map fst ps) -> In ((a, b), v) ps -> s_at (sput_all g ps) a b = v.
Proof.
  induction ps as [|[p w] ps IH]; intros g a b v N I; [destruct I|]. cbn [map] in N. inversion N as [|? ? N1 N2]; subst. cbn [sput_all].
  destruct I as [E|I].
  - injection E as -> ->. rewrite sput_all_other by exact N1. cbn [sput s_at fst snd]. rewrite !Z.eqb_refl. reflexivity.
  - apply IH; assumption.
Qed.
Lemma sput_all_shape : forall ps g, s_n0 (sput_all g ps) = s_n0 g /\ s_n1 (sput_all g ps) = s_n1 g.
Proof. induction ps as [|[p v] ps IH]; intros g; [split; reflexivity|]. cbn [sput_all]. destruct (IH (sput g p v)) as (A & B). rewrite A, B. split; reflexivity. Qed.

Lemma filter_none : forall its i j, ~ In (i, j) (map (fun it => (si_x it, si_y it)) its) ->
  filter (fun it => (si_x it =? i) && (si_y it =? j)) its = [].
Proof.
  induction its as [|h its IH]; intros i j N; [reflexivity|]. cbn [filter].
  destruct (Z.eqb_spec (si_x h) i); cbn [andb]; [|apply IH; intro I; apply N; right; exact I].
  destruct (Z.eqb_spec (si_y h) j); [|apply IH; intro I; apply N; right; exact I].
  exfalso. apply N. left. congruence.
Qed.
Lemma filter_one : forall its it, NoDup (map (fun it => (si_x it, si_y it)) its) -> In it its ->
  filter (fun x => (si_x x =? si_x it) && (si_y x =? si_y it)) its = [it].
Proof.
  induction its as [|h its IH]; intros it N I; [destruct I|]. cbn [map] in N. inversion N as [|? ? N1 N2]; subst. cbn [filter].
  destruct I as [->|I].
  - rewrite !Z.eqb_refl. cbn [andb]. rewrite filter_none by exact N1. reflexivity.
  - destruct (Z.eqb_spec (si_x h) (si_x it)) as [A|A]; cbn [andb]; [|apply IH; assumption].
    destruct (Z.eqb_spec (si_y h) (si_y it)) as [B|B]; [|apply IH; assumption].
    exfalso. apply N1. apply in_map_iff. exists it. split; [congruence|exact I].
Qed.

Lemma pair_dec : forall p q : Z * Z, {p = q} + {p <> q}.
Proof. decide equality; apply Z.eq_dec. Qed.
Lemma batch_cell : forall g its, proper (s_n0 g) (s_n1 g) its -> exists g', sadd_batch g its = Ok g' /\
  s_n0 g' = s_n0 g /\ s_n1 g' = s_n1 g /\
  forall i j, s_at g' j i = total (map si_v (filter (fun it => (si_x it =? i) && (si_y it =? j)) its)) (s_at g j i).
Proof.
  intros g its (N & F). unfold sadd_batch. rewrite addresses_ok by exact F. cbn [bind].
  set (ps := map _ (combine _ its)).
  assert (E : ps = map (fun it => ((si_y it, si_x it), single_add (s_at g (si_y it) (si_x it)) (to_single (si_v it)))) its).
  { unfold ps. clear. induction its as [|h its IH]; [reflexivity|]. cbn [map combine]. rewrite IH. reflexivity. }
  exists (sput_all g ps). split; [reflexivity|]. destruct (sput_all_shape ps g) as (A & B). split; [exact A|]. split; [exact B|].
  intros i j. rewrite E.
  assert (MF : map fst (map (fun it => ((si_y it, si_x it), single_add (s_at g (si_y it) (si_x it)) (to_single (si_v it)))) its) = map (fun it => (si_y it, si_x it)) its).
  { rewrite map_map. reflexivity. }
  destruct (in_dec pair_dec (i, j) (map (fun it => (si_x it, si_y it)) its)) as [I|I].
  - apply in_map_iff in I. destruct I as (it & EI & I). injection EI as <- <-. rewrite (filter_one _ _ N I). cbn [map total fold_left].
    apply sput_all_at.
    + rewrite MF. clear - N. induction its as [|h its IH]; [constructor|]. cbn [map] in *. inversion N as [|? ? N1 N2]; subst. constructor; [|auto].
      intro I. apply N1. apply in_map_iff in I. destruct I as (x & EX & I). injection EX as E1 E2. apply in_map_iff. exists x. split; [congruence|exact I].
    + apply in_map_iff. exists it. split; [reflexivity|exact I].
  - rewrite (filter_none _ _ _ I). cbn [map total fold_left]. apply sput_all_other. rewrite MF. intro J. apply I.
    apply in_map_iff in J. destruct J as (x & EX & J). injection EX as E1 E2. apply in_map_iff. exists x. split; [congruence|exact J].
Qed.

Lemma run_cells : forall batches g, Forall (proper (s_n0 g) (s_n1 g)) batches -> exists g', saccumulate g batches = Ok g' /\
  s_n0 g' = s_n0 g /\ s_n1 g' = s_n1 g /\ forall i j, s_at g' j i = total (values_for i j batches) (s_at g j i).
Proof.
  induction batches as [|b batches IH]; intros g F.
  - exists g. repeat split; reflexivity.
  - inversion F as [|? ? P F2]; subst. destruct (batch_cell g b P) as (g1 & E1 & A & B & C).
    destruct (IH g1) as (g2 & E2 & A2 & B2 & C2); [rewrite A, B; exact F2|].
    exists g2. unfold saccumulate in *. cbn [fold_res]. rewrite E1. cbn [bind]. split; [exact E2|]. split; [congruence|]. split; [congruence|].
    intros i j. rewrite C2, C. unfold values_for, total. cbn [concat]. rewrite filter_app, map_app, fold_left_app. reflexivity.
Qed.

(** * Rounding *)
Lemma to_single_approx : forall v, is_finite v -> (Qabs (vq v) <= p2 90)%Q -> approx32 (to_single v) (vq v).
Proof.
  intros [s|s| |s m e] F B; try (destruct F; fail); cbn [to_single].
  - apply approx_exact32; [exact I|reflexivity].
  - assert (V : (vq (S754_finite s m e) == sg s * (inject_Z (Zpos m) * p2 e))%Q) by (cbn [vq]; destruct s; cbn [sg]; reflexivity).
    unfold approx32. rewrite V in *. rewrite sg_abs in B. rewrite Qabs_pos in B.
    + apply binary_round_approx32. exact B.
    + pose proof (p2_pos e). assert (0 <= inject_Z (Zpos m))%Q by (change 0%Q with (inject_Z 0); rewrite <- Zle_Qle; lia). nra.
Qed.


(** ** Exact cases *)
Lemma shr_exact : forall p q m, m = Zpos q * 2 ^ Zpos p ->
  iter_pos shr_1 p (Build_shr_record m false false) = Build_shr_record (Zpos q) false false.
Proof.
  assert (one : forall q, shr_1 (Build_shr_record (2 * Zpos q) false false) = Build_shr_record (Zpos q) false false) by reflexivity.
  assert (P : forall q p, exists r, Zpos r = Zpos q * 2 ^ Zpos p).
  { intros q p. assert (0 < 2 ^ Zpos p) by (apply Z.pow_pos_nonneg; lia). exists (Z.to_pos (Zpos q * 2 ^ Zpos p)). rewrite Z2Pos.id; nia. }
  induction p as [p IH|p IH|]; intros q m E; cbn [iter_pos].
  - destruct (P q p) as (r1 & R1). destruct (P r1 p) as (r2 & R2).
    assert (E2 : m = 2 * Zpos r2).
    { rewrite E, R2, R1. replace (Zpos p~1) with (1 + Zpos p + Zpos p) by lia. rewrite !Z.pow_add_r by lia. lia. }
    rewrite E2, one, (IH r1) by exact R2. apply IH. exact R1.
  - destruct (P q p) as (r1 & R1). rewrite (IH r1).
    + apply IH. exact R1.
    + rewrite E, R1. replace (Zpos p~0) with (Zpos p + Zpos p) by lia. rewrite Z.pow_add_r by lia. lia.
  - rewrite E. change (2 ^ 1) with 2. rewrite Z.mul_comm. apply one.
Qed.
Lemma aux_exact : forall s q k e, 2 ^ 23 <= Zpos q < 2 ^ 24 -> 0 <= k -> -149 <= e + k <= 104 -> forall m, m = Zpos q * 2 ^ k ->
  binary_round_aux 24 128 s m e loc_Exact = S754_finite s q (e + k).
Proof.
  intros s q k e Hq Hk He m Hm. unfold binary_round_aux, shr_fexp.
  assert (PK : 0 < 2 ^ k) by (apply Z.pow_pos_nonneg; lia).
  assert (Dq : Zdigits2 (Zpos q) = 24) by (apply digits_unique; lia).
  assert (Dm : Zdigits2 m = 24 + k).
  { apply digits_unique; [nia|]. rewrite Hm. replace (24 + k - 1) with (23 + k) by lia. rewrite !Z.pow_add_r by lia. nia. }
  rewrite Dm. unfold fexp at 1. replace (Z.max (24 + k + e - 24) (emin 24 128)) with (e + k) by (unfold emin; lia).
  replace (e + k - e) with k by lia.
  assert (S1 : shr (shr_record_of_loc m loc_Exact) e k = (Build_shr_record (Zpos q) false false, e + k)).
  { unfold shr, shr_record_of_loc. destruct k as [|k|k]; [|rewrite (shr_exact k q) by exact Hm; reflexivity|lia].
    rewrite Hm, Z.pow_0_r, Z.mul_1_r, Z.add_0_r. reflexivity. }
  rewrite S1. cbn [shr_m loc_of_shr_record round_nearest_even]. rewrite Dq.
  unfold fexp. replace (Z.max (24 + (e + k) - 24) (emin 24 128) - (e + k)) with 0 by (unfold emin; lia).
  cbn [shr shr_record_of_loc shr_m]. rewrite (proj2 (Z.leb_le (e + k) (128 - 24))) by lia. reflexivity.
Qed.
Lemma round_exact : forall s m e q f, 2 ^ 23 <= Zpos q < 2 ^ 24 -> -149 <= f <= 104 ->
  (inject_Z (Zpos m) * p2 e == inject_Z (Zpos q) * p2 f)%Q -> binary_round 24 128 s m e = S754_finite s q f.
Proof.
  intros s m e q f Hq Hf HV. unfold binary_round.
  assert (Dq : Zdigits2 (Zpos q) = 24) by (apply digits_unique; lia).
  destruct (Z_le_gt_dec f e) as [L|G].
  - assert (E : Zpos q = Zpos m * 2 ^ (e - f)).
    { apply inject_Z_injective. rewrite inject_Z_mult, <- p2_Z by lia. replace e with ((e - f) + f) in HV at 1 by lia.
      rewrite p2_plus in HV. pose proof (p2_pos f). apply Qmult_inj_r with (p2 f); [lra|]. rewrite <- HV. ring. }
    assert (PK : 0 < 2 ^ (e - f)) by (apply Z.pow_pos_nonneg; lia).
    assert (Dm : Zdigits2 (Zpos m) = 24 - (e - f)).
    { assert (K : 0 <= e - f < 24).
      { split; [lia|]. destruct (Z_lt_ge_dec (e - f) 24); [assumption|]. exfalso.
        assert (2 ^ 24 <= 2 ^ (e - f)) by (apply Z.pow_le_mono_r; lia). nia. }
      assert (A : 2 ^ 24 = 2 ^ (24 - (e - f)) * 2 ^ (e - f)) by (rewrite <- Z.pow_add_r by lia; f_equal; lia).
      assert (B : 2 ^ 23 = 2 ^ (24 - (e - f) - 1) * 2 ^ (e - f)) by (rewrite <- Z.pow_add_r by lia; f_equal; lia).
      apply digits_unique; [lia|]. rewrite A, B, E in Hq. split; nia. }
    change (Zpos (digits2_pos m)) with (Zdigits2 (Zpos m)). rewrite Dm.
    unfold fexp at 1. replace (Z.max (24 - (e - f) + e - 24) (emin 24 128)) with f by (unfold emin; lia).
    destruct (shl_align_spec m e f L) as (m' & E1 & V). rewrite E1. rewrite <- E in V. injection V as ->.
    replace f with (f + 0) at 2 by lia. apply aux_exact; [exact Hq|lia|lia|]. rewrite Z.pow_0_r. lia.
  - assert (E : Zpos m = Zpos q * 2 ^ (f - e)).
    { apply inject_Z_injective. rewrite inject_Z_mult, <- p2_Z by lia. replace f with ((f - e) + e) in HV at 1 by lia.
      rewrite p2_plus in HV. pose proof (p2_pos e). apply Qmult_inj_r with (p2 e); [lra|]. rewrite HV. ring. }
    assert (PK : 0 < 2 ^ (f - e)) by (apply Z.pow_pos_nonneg; lia).
    assert (Dm : Zdigits2 (Zpos m) = 24 + (f - e)).
    { apply digits_unique; [lia|]. rewrite E. replace (24 + (f - e) - 1) with (23 + (f - e)) by lia. rewrite !Z.pow_add_r by lia. nia. }
    change (Zpos (digits2_pos m)) with (Zdigits2 (Zpos m)). rewrite Dm.
    unfold fexp at 1. replace (Z.max (24 + (f - e) + e - 24) (emin 24 128)) with f by (unfold emin; lia).
    rewrite shl_align_id by lia. replace f with (e + (f - e)) by lia. apply aux_exact; [exact Hq|lia|lia|]. exact E.
Qed.

(** [c] is the whole number [n] in its normal form. *)
Definition normal (c : f32) (n : Z) : Prop :=
  (n = 0 /\ exists s, c = S754_zero s) \/
  exists q f, c = S754_finite false q f /\ 2 ^ 23 <= Zpos q < 2 ^ 24 /\ -149 <= f <= 104 /\ (inject_Z n == inject_Z (Zpos q) * p2 f)%Q.
Lemma has_normal : forall n, 0 < n <= 2 ^ 24 -> exists q f, 2 ^ 23 <= Zpos q < 2 ^ 24 /\ -149 <= f <= 104 /\ (inject_Z n == inject_Z (Zpos q) * p2 f)%Q.
Proof.
  intros n H. destruct (Z.eq_dec n (2 ^ 24)) as [->|N].
  - exists 8388608%positive, 1. split; [cbn; lia|]. split; [lia|]. reflexivity.
  - pose proof (digits_bounds n ltac:(lia)) as B. assert (D0 : 0 < Zdigits2 n) by (destruct n; cbn; lia).
    assert (D : Zdigits2 n <= 24) by (apply digits_le; lia).
    assert (PK : 0 < 2 ^ (24 - Zdigits2 n)) by (apply Z.pow_pos_nonneg; lia).
    exists (Z.to_pos (n * 2 ^ (24 - Zdigits2 n))), (Zdigits2 n - 24). rewrite Z2Pos.id by nia. split; [|split; [lia|]].
    + assert (A : 2 ^ 24 = 2 ^ Zdigits2 n * 2 ^ (24 - Zdigits2 n)) by (rewrite <- Z.pow_add_r by lia; f_equal; lia).
      assert (C : 2 ^ 23 = 2 ^ (Zdigits2 n - 1) * 2 ^ (24 - Zdigits2 n)) by (rewrite <- Z.pow_add_r by lia; f_equal; lia).
      rewrite A, C. nia.
    + rewrite inject_Z_mult, <- p2_Z by lia. rewrite <- Qmult_assoc, <- p2_plus.
      replace (24 - Zdigits2 n + (Zdigits2 n - 24)) with 0 by lia. change (p2 0) with 1%Q. ring.
Qed.
Lemma pos_value : forall m e, (0 < inject_Z (Zpos m) * p2 e)%Q.
Proof. intros m e. pose proof (p2_pos e). assert (0 < inject_Z (Zpos m))%Q by (change 0%Q with (inject_Z 0); rewrite <- Zlt_Qlt; lia). nra. Qed.
Lemma to_single_whole : forall v n, is_finite v -> (vq v == inject_Z n)%Q -> 0 <= n <= 2 ^ 24 -> normal (to_single v) n.
Proof.
  intros [s|s| |s m e] n F V H; try (destruct F; fail); cbn [to_single].
  - left. cbn [vq] in V. split; [|eauto]. apply inject_Z_injective. rewrite <- V. reflexivity.
  - pose proof (pos_value m e) as P. cbn [vq] in V. destruct s.
    + exfalso. assert (inject_Z n < 0)%Q by lra. rewrite (Zle_Qle 0 n) in H. change (inject_Z 0) with 0%Q in H. lra.
    + assert (N : 0 < n). { destruct (Z.eq_dec n 0) as [->|]; [|lia]. change (inject_Z 0) with 0%Q in V. lra. }
      destruct (has_normal n ltac:(lia)) as (q & f & Q1 & F1 & E). right. exists q, f. split; [|auto].
      apply round_exact; auto. rewrite <- E, <- V. ring.
Qed.
Lemma add_whole : forall c d a b, normal c a -> normal d b -> 0 <= a -> 0 <= b -> a + b <= 2 ^ 24 -> normal (single_add c d) (a + b).
Proof.
  intros c d a b HC HD A B AB. unfold single_add.
  destruct HC as [(-> & s & ->)|(q1 & f1 & -> & Q1 & F1 & E1)]; destruct HD as [(-> & s2 & ->)|(q2 & f2 & -> & Q2 & F2 & E2)].
  - left. split; [reflexivity|]. cbn [SFadd]. destruct (Bool.eqb s s2); eauto.
  - right. exists q2, f2. repeat split; auto; lia.
  - right. exists q1, f1. rewrite Z.add_0_r. repeat split; auto; lia.
  - cbn [SFadd]. set (ez := Z.min f1 f2). set (M := cond_Zopp false _ + cond_Zopp false _).
    assert (V : (inject_Z M * p2 ez == inject_Z (a + b))%Q).
    { unfold M. rewrite inject_Z_plus, Qmult_plus_distr_l, !aligned_value by (unfold ez; lia). rewrite inject_Z_plus, E1, E2. cbn [vq]. ring. }
    assert (MP : exists p, M = Zpos p).
    { unfold M. cbn [cond_Zopp]. rewrite <- Pos2Z.inj_add. eauto. }
    destruct MP as (p & MP). rewrite MP in *. cbn [binary_normalize].
    pose proof (pos_value p ez) as PV. assert (N : 0 < a + b).
    { destruct (Z.eq_dec (a + b) 0) as [Z0|]; [|lia]. rewrite Z0 in V. change (inject_Z 0) with 0%Q in V. lra. }
    destruct (has_normal (a + b) ltac:(lia)) as (q & f & Q0 & F0 & E). right. exists q, f. split; [|auto].
    apply round_exact; auto. rewrite <- E. exact V.
Qed.
Lemma normal_value : forall c n, normal c n -> is_finite c /\ (vq c == inject_Z n)%Q.
Proof.
  intros c n [(-> & s & ->)|(q & f & -> & Q & F & E)]; (split; [exact I|]).
  - reflexivity.
  - rewrite E. cbn [vq]. ring.
Qed.
Lemma whole_list : forall vs, Forall whole vs -> exists ns, Forall2 (fun v n => is_finite v /\ 0 <= n /\ (vq v == inject_Z n)%Q) vs ns.
Proof. intros vs H. induction H as [|v vs (F & n & N & E) H (ns & IH)]; [exists []; constructor|]. exists (n :: ns). constructor; auto. Qed.
Definition sumz (ns : list Z) : Z := fold_right Z.add 0 ns.
Lemma sumz_value : forall vs ns, Forall2 (fun v n => is_finite v /\ 0 <= n /\ (vq v == inject_Z n)%Q) vs ns ->
  (exact_sum vs == inject_Z (sumz ns))%Q /\ 0 <= sumz ns.
Proof.
  intros vs ns H. induction H as [|v n vs ns (F & N & E) H (IH & P)]; [split; [reflexivity|cbn; lia]|]. cbn [exact_sum fold_right sumz].
  split; [|unfold sumz in P; lia]. fold (exact_sum vs). fold (sumz ns). rewrite inject_Z_plus, E, IH. reflexivity.
Qed.
Lemma total_whole : forall vs ns, Forall2 (fun v n => is_finite v /\ 0 <= n /\ (vq v == inject_Z n)%Q) vs ns ->
  forall c a, normal c a -> 0 <= a -> a + sumz ns <= 2 ^ 24 -> normal (total vs c) (a + sumz ns).
Proof.
  intros vs ns H. induction H as [|v n vs ns (F & N & E) H IH]; intros c a C A S.
  - cbn. rewrite Z.add_0_r. exact C.
  - cbn [total fold_left sumz fold_right] in *. fold (sumz ns) in *. fold (total vs (single_add c (to_single v))).
    destruct (sumz_value vs ns H) as (_ & P). replace (a + (n + sumz ns)) with (a + n + sumz ns) by lia.
    apply IH; [|lia|lia]. apply add_whole; auto; [|lia]. apply to_single_whole; auto. lia.
Qed.

(** ** The error of a sum *)
Lemma abs_bounds : forall x y : Q, (- y <= x <= y)%Q -> (Qabs x <= y)%Q.
Proof. intros. apply Qabs_Qle_condition. assumption. Qed.
Lemma sum_nonneg : forall vs, Forall nonnegative vs -> (0 <= exact_sum vs)%Q.
Proof. intros vs H. induction H as [|v vs (F & N) H IH]; cbn [exact_sum fold_right]; [lra|]. fold (exact_sum vs). lra. Qed.
Lemma total_error : forall vs c S k, Forall nonnegative vs -> 0 <= k -> k + Z.of_nat (List.length vs) <= 2 ^ 20 ->
  (0 <= S)%Q -> (S + exact_sum vs <= p2 80)%Q -> is_finite c ->
  (Qabs (vq c - S) <= inject_Z (k + 1) * p2 (-21) * S + inject_Z k * p2 (-146))%Q ->
  is_finite (total vs c) /\
  (Qabs (vq (total vs c) - (S + exact_sum vs)) <=
     inject_Z (k + Z.of_nat (List.length vs) + 1) * p2 (-21) * (S + exact_sum vs) + inject_Z (k + Z.of_nat (List.length vs)) * p2 (-146))%Q.
Proof.
  intros vs. induction vs as [|v vs IH]; intros c S k F K L S0 SB FC E.
  - cbn [total fold_left exact_sum fold_right List.length]. rewrite Z.add_0_r. split; [exact FC|].
    setoid_replace (S + 0)%Q with S by ring. exact E.
  - inversion F as [|? ? (FV & NV) F2]; subst. cbn [exact_sum fold_right] in SB. fold (exact_sum vs) in SB.
    pose proof (sum_nonneg vs F2) as SN. cbn [List.length] in L.
    assert (B80 : (p2 80 == 1208925819614629174706176)%Q) by reflexivity.
    assert (B90 : (p2 90 == 1237940039285380274899124224)%Q) by reflexivity.
    assert (B21 : (p2 (-21) == 1 # 2097152)%Q) by reflexivity.
    assert (B22 : (p2 (-22) == 1 # 4194304)%Q) by reflexivity.
    set (t := p2 (-148)). assert (B146 : (p2 (-146) == 4 * t)%Q) by (change (-146) with (2 + -148); rewrite p2_plus; reflexivity).
    assert (T0 : (0 < t <= 1 # 1000000000)%Q).
    { unfold t. split; [apply p2_pos|]. apply Qle_trans with (p2 (-40)); [apply p2_le; lia|]. unfold p2. cbn. unfold Qle. cbn. lia. }
    destruct (to_single_approx v FV) as (FW & EW).
    { rewrite (Qabs_pos _ NV). lra. }
    rewrite (Qabs_pos _ NV), B22 in EW. apply Qabs_Qle_condition in EW. fold t in EW.
    set (w := to_single v) in *.
    assert (KQ : (0 <= inject_Z k <= 1048576)%Q).
    { change 0%Q with (inject_Z 0). change 1048576%Q with (inject_Z 1048576). rewrite <- !Zle_Qle. lia. }
    rewrite inject_Z_plus, B21, B146 in E. change (inject_Z 1) with 1%Q in E. apply Qabs_Qle_condition in E.
    set (a := ((inject_Z k + 1) * (1 # 2097152))%Q) in *.
    assert (A0 : (0 < a <= 1)%Q) by (unfold a; lra).
    set (bk := (inject_Z k * (4 * t))%Q) in *.
    assert (BK : (0 <= bk <= 1)%Q) by (unfold bk; split; nra).
    assert (AS : (a * S <= S)%Q) by nra. assert (AS0 : (0 <= a * S)%Q) by nra.
    destruct (add_approx32 c w FC FW) as (FA & EA).
    { apply abs_bounds. lra. }
    fold single_add in FA, EA. set (c' := single_add c w) in *.
    set (x := vq v) in *. set (y := vq w) in *. set (z := vq c) in *. set (r := vq c') in *.
    assert (GB : (Qabs (z + y) <= S + (a * S + bk) + x + (1 # 4194304) * x + t)%Q) by (apply abs_bounds; lra).
    rewrite B22 in EA. fold t in EA. apply Qabs_Qle_condition in EA.
    assert (AX : ((1 # 2097152) * x <= a * x)%Q) by (unfold a; nra).
    assert (UB : ((1 # 4194304) * bk <= t)%Q) by (unfold bk; nra).
    assert (NB : (Qabs (r - (S + x)) <= inject_Z (k + 1 + 1) * p2 (-21) * (S + x) + inject_Z (k + 1) * p2 (-146))%Q).
    { rewrite !inject_Z_plus, B21, B146. change (inject_Z 1) with 1%Q.
      setoid_replace ((inject_Z k + 1 + 1) * (1 # 2097152) * (S + x) + (inject_Z k + 1) * (4 * t))%Q
        with (a * S + a * x + (1 # 2097152) * S + (1 # 2097152) * x + bk + 4 * t)%Q by (unfold a, bk; ring).
      apply abs_bounds. split; lra. }
    destruct (IH c' (S + x)%Q (k + 1) F2 ltac:(lia) ltac:(lia) ltac:(lra) ltac:(lra) FA NB) as (R1 & R2).
    cbn [total fold_left exact_sum fold_right List.length]. fold (exact_sum vs). fold w. fold c'. fold x. split; [exact R1|].
    replace (k + Z.of_nat (Datatypes.S (List.length vs))) with (k + 1 + Z.of_nat (List.length vs)) by lia.
    setoid_replace (S + (x + exact_sum vs))%Q with (S + x + exact_sum vs)%Q by ring. exact R2.
Qed.

(** * Theorems *)
(** Values that are whole numbers are added exactly while the sum is at most 2^24. *)
Theorem C93_counts_exact : forall n0 n1 batches, Forall (proper n0 n1) batches ->
  exists g, saccumulate (szeros n0 n1) batches = Ok g /\ s_n0 g = n0 /\ s_n1 g = n1 /\
  forall i j, 0 <= i < n1 -> 0 <= j < n0 -> let vs := values_for i j batches in
    Forall whole vs -> (exact_sum vs <= inject_Z (2 ^ 24))%Q ->
    is_finite (s_at g j i) /\ (vq (s_at g j i) == exact_sum vs)%Q.
Proof.
  intros n0 n1 batches H. destruct (run_cells batches (szeros n0 n1) H) as (g & E & A & B & C). exists g.
  split; [exact E|]. split; [exact A|]. split; [exact B|]. intros i j I J vs W S. rewrite C. fold vs. cbn [szeros s_at].
  destruct (whole_list vs W) as (ns & N). destruct (sumz_value _ _ N) as (EV & P). rewrite EV in *. rewrite <- Zle_Qle in S.
  apply normal_value. apply (total_whole vs ns N (S754_zero false) 0); [left; eauto|lia|lia].
Qed.

(** Sums of other values that are not negative are right to a relative error that grows with
    their number. *)
Theorem C93_sums : forall n0 n1 batches, Forall (proper n0 n1) batches ->
  exists g, saccumulate (szeros n0 n1) batches = Ok g /\
  forall i j, 0 <= i < n1 -> 0 <= j < n0 -> let vs := values_for i j batches in let n := Z.of_nat (List.length vs) in
    Forall nonnegative vs -> n <= 2 ^ 20 -> (exact_sum vs <= p2 80)%Q ->
    is_finite (s_at g j i) /\
    (Qabs (vq (s_at g j i) - exact_sum vs) <= inject_Z (n + 1) * p2 (-21) * exact_sum vs + inject_Z n * p2 (-146))%Q.
Proof.
  intros n0 n1 batches H. destruct (run_cells batches (szeros n0 n1) H) as (g & E & A & B & C). exists g. split; [exact E|].
  intros i j I J vs n W L S. rewrite C. fold vs. cbn [szeros s_at].
  destruct (total_error vs (S754_zero false) 0%Q 0 W) as (F & R); fold n; try lia; try lra; [exact Logic.I| | ].
  - cbn. discriminate.
  - split; [exact F|]. fold n in R. rewrite Z.add_0_l in R. setoid_replace (0 + exact_sum vs)%Q with (exact_sum vs) in R by ring. exact R.
Qed.

(** Beyond that, counts stop: once a cell holds 2^24, nothing is counted any more. *)
Theorem C93_counts_stop_refuted : forall n0 n1 i j m, 0 <= i < n1 -> 0 <= j < n0 ->
  exists g, saccumulate (szeros n0 n1) ([mkSItem i j (of_int (2 ^ 24))] :: repeat [mkSItem i j (of_int 1)] m) = Ok g /\
  (vq (s_at g j i) == inject_Z (2 ^ 24))%Q.
Proof.
  intros n0 n1 i j m I J. set (bs := [mkSItem i j (of_int (2 ^ 24))] :: repeat [mkSItem i j (of_int 1)] m).
  assert (P : Forall (proper n0 n1) bs).
  { assert (Q : forall v, proper n0 n1 [mkSItem i j v]).
    { intro v. split; [constructor; [intros []|constructor]|]. constructor; [cbn; lia|constructor]. }
    constructor; [apply Q|]. apply Forall_forall. intros b Hb. apply repeat_spec in Hb. subst. apply Q. }
  destruct (run_cells bs (szeros n0 n1) P) as (g & E & _ & _ & C). exists g. split; [exact E|]. rewrite C.
  assert (V : values_for i j bs = of_int (2 ^ 24) :: repeat (of_int 1) m).
  { unfold values_for, bs. cbn [concat app filter si_x si_y]. rewrite !Z.eqb_refl. cbn [andb map si_v]. f_equal.
    clear. induction m as [|m IH]; [reflexivity|]. cbn [repeat concat app filter si_x si_y]. rewrite !Z.eqb_refl. cbn [andb map si_v]. f_equal. exact IH. }
  rewrite V. cbn [total fold_left szeros s_at].
  assert (ST : single_add (single_add (S754_zero false) (to_single (of_int (2 ^ 24)))) (to_single (of_int 1)) = single_add (S754_zero false) (to_single (of_int (2 ^ 24)))) by reflexivity.
  set (c := single_add (S754_zero false) (to_single (of_int (2 ^ 24)))) in *.
  assert (K : fold_left (fun c v => single_add c (to_single v)) (repeat (of_int 1) m) c = c).
  { clear - ST. induction m as [|m IH]; [reflexivity|]. cbn [repeat fold_left]. rewrite ST. exact IH. }
  rewrite K. reflexivity.
Qed.

(** * The hypotheses can be met *)
Example C93_hypotheses : let b := [[mkSItem 1 0 (of_int 3); mkSItem 0 0 (of_int 2)]; [mkSItem 1 0 (of_int 5)]] in
  Forall (proper 1 2) b /\ values_for 1 0 b = [of_int 3; of_int 5] /\ Forall whole (values_for 1 0 b) /\ Forall nonnegative (values_for 1 0 b) /\
  (exact_sum (values_for 1 0 b) <= inject_Z (2 ^ 24))%Q /\ (exact_sum (values_for 1 0 b) == 8)%Q.
Proof.
  cbn zeta. split.
  - constructor; [|constructor; [|constructor]]; (split; [repeat constructor; cbn; intuition discriminate|repeat constructor; cbn; lia]).
  - split; [reflexivity|]. split; [|split; [|split; [vm_compute; discriminate|reflexivity]]].
    + repeat constructor; [exists 3|exists 5]; (split; [lia|reflexivity]).
    + repeat constructor; vm_compute; discriminate.
Qed.

Print Assumptions C93_counts_exact.
Print Assumptions C93_sums.
Print Assumptions C93_counts_stop_refuted.
