(** Lemmas about file names. *)
From Coq Require Import List ZArith Bool Ascii String Lia.
From Verif Require Import Base BaseProofs FileName FileNameSpec.
Import ListNotations.
Open Scope Z_scope.

(** * replace and split *)
(** Same as [time_stamp] and [standard_name], in terms of the model's digits
    (equal on valid instants, see [stamp_spec]). *)
Definition stamp (c : ascii) (d : datetime) : pystr :=
  c :: strftime d ++ [digit (dt_us d / 100000)].
Definition file_name (env alg plat : pystr) (s e c : datetime) : pystr :=
  env ++ lit "_" ++ alg ++ lit "_" ++ plat ++ lit "_" ++ stamp "s" s ++ lit "_" ++ stamp "e" e
  ++ lit "_" ++ stamp "c" c ++ lit ".nc".

Lemma aeqb_neq : forall a b, a <> b -> Ascii.eqb a b = false.
Proof. intros a b H. apply Ascii.eqb_neq. auto. Qed.

Lemma remove_nc_us : forall r, remove_nc ("_"%char :: r) = "_"%char :: remove_nc r.
Proof. intros [|a [|b r]]; reflexivity. Qed.

Lemma remove_nc_comp : forall s rest, (forall a b, s <> a ++ lit ".nc" ++ b) ->
  remove_nc (s ++ "_"%char :: rest) = s ++ "_"%char :: remove_nc rest.
Proof.
  induction s as [|c s IH]; intros rest H; [apply remove_nc_us|].
  assert (Hs : forall a b, s <> a ++ lit ".nc" ++ b).
  { intros a b K. apply (H (c :: a) b). simpl. rewrite K. reflexivity. }
  specialize (IH rest Hs).
  destruct s as [|n [|x s]].
  - change (([c] ++ "_"%char :: rest)) with (c :: "_"%char :: rest) in *.
    transitivity (c :: remove_nc ("_"%char :: rest)).
    + destruct rest as [|y rest]; cbn [remove_nc]; auto.
      replace (Ascii.eqb "_" "n") with false by reflexivity. rewrite andb_false_r. reflexivity.
    + rewrite remove_nc_us. reflexivity.
  - cbn [app] in *. transitivity (c :: remove_nc (n :: "_"%char :: rest)).
    + cbn [remove_nc]. replace (Ascii.eqb "_" "c") with false by reflexivity. rewrite andb_false_r. reflexivity.
    + rewrite IH. reflexivity.
  - cbn [app] in *. transitivity (c :: remove_nc (n :: x :: s ++ "_"%char :: rest)).
    + cbn [remove_nc]. destruct (Ascii.eqb_spec c "."); [|reflexivity].
      destruct (Ascii.eqb_spec n "n"); [|reflexivity].
      destruct (Ascii.eqb_spec x "c"); [|reflexivity].
      subst. exfalso. apply (H [] s). reflexivity.
    + rewrite IH. reflexivity.
Qed.

Lemma remove_nc_end : forall s, ~ In "."%char s -> remove_nc (s ++ lit ".nc") = s.
Proof.
  induction s as [|c s IH]; intros H; [reflexivity|].
  assert (Hs : ~ In "."%char s) by (intros K; apply H; simpl; auto).
  assert (Hc : c <> "."%char) by (intros K; apply H; simpl; auto).
  cbn [app]. transitivity (c :: remove_nc (s ++ lit ".nc")); [|rewrite IH; auto].
  cbn [remove_nc]. destruct (s ++ lit ".nc") as [|n [|x r]]; auto.
  rewrite (aeqb_neq c) by auto. reflexivity.
Qed.

Lemma split_comp : forall s rest, ~ In "_"%char s -> split_us (s ++ "_"%char :: rest) = s :: split_us rest.
Proof.
  induction s as [|c s IH]; intros rest H; [reflexivity|].
  cbn [app split_us]. rewrite aeqb_neq by (intros K; apply H; simpl; auto).
  rewrite IH by (intros K; apply H; simpl; auto). reflexivity.
Qed.
Lemma split_last : forall s, ~ In "_"%char s -> split_us s = [s].
Proof.
  induction s as [|c s IH]; intros H; [reflexivity|].
  cbn [split_us]. rewrite aeqb_neq by (intros K; apply H; simpl; auto).
  rewrite IH by (intros K; apply H; simpl; auto). reflexivity.
Qed.

(** * Digits *)
Lemma ten_cases : forall d, 0 <= d < 10 -> d = 0 \/ d = 1 \/ d = 2 \/ d = 3 \/ d = 4 \/ d = 5 \/ d = 6 \/ d = 7 \/ d = 8 \/ d = 9.
Proof. lia. Qed.
Lemma digit_val_digit : forall d, 0 <= d < 10 -> digit_val (digit d) = Some d.
Proof. intros d H. apply ten_cases in H. repeat (destruct H as [->|H]; [reflexivity|]). subst. reflexivity. Qed.
Lemma digit_code : forall d, 0 <= d < 10 -> N_of_ascii (digit d) = Z.to_N (48 + d).
Proof. intros d H. apply ten_cases in H. repeat (destruct H as [->|H]; [reflexivity|]). subst. reflexivity. Qed.

Definition digits (s : pystr) : Prop := Forall (fun c => exists d, 0 <= d < 10 /\ c = digit d) s.
Lemma pad_digits : forall k n, digits (pad k n).
Proof.
  induction k as [|k IH]; intros n; [constructor|]. apply Forall_app. split; [apply IH|].
  constructor; [|constructor]. exists (n mod 10). split; [apply Z.mod_pos_bound; lia|reflexivity].
Qed.
Lemma digits_no : forall s c, digits s -> (N_of_ascii c < 48 \/ 57 < N_of_ascii c)%N -> ~ In c s.
Proof.
  intros s c H Hc Hin. unfold digits in H. rewrite Forall_forall in H. destruct (H c Hin) as (d & Hd & E).
  subst c. rewrite digit_code in Hc by auto. lia.
Qed.
Lemma strftime_digits : forall d, digits (strftime d).
Proof. intros d. unfold strftime. do 4 (apply Forall_app; split; [apply pad_digits|]). apply pad_digits. Qed.

(** * Matching *)
Lemma match_alt_app : forall a b acc s, match_alt (a ++ b) acc s =
  match match_alt a acc s with Some (v, r) => match_alt b v r | None => None end.
Proof.
  induction a as [|[lo hi] a IH]; intros b acc s; [reflexivity|]. cbn [app match_alt].
  destruct s as [|c r]; [reflexivity|]. destruct (digit_val c); [|reflexivity].
  destruct ((lo <=? z) && (z <=? hi))%bool; [apply IH|reflexivity].
Qed.

Lemma match_digits : forall k acc n rest, 0 <= n < 10 ^ Z.of_nat k ->
  match_alt (repeat d09 k) acc (pad k n ++ rest) = Some (acc * 10 ^ Z.of_nat k + n, rest).
Proof.
  induction k as [|k IH]; intros acc n rest H.
  - simpl in *. f_equal. f_equal. lia.
  - replace (repeat d09 (S k)) with (repeat d09 k ++ [d09])
      by (rewrite <- (repeat_cons k d09); reflexivity).
    rewrite match_alt_app. cbn [pad]. rewrite <- app_assoc.
    rewrite Nat2Z.inj_succ, Z.pow_succ_r in H by lia.
    pose proof (Z.div_mod n 10 ltac:(lia)) as E. pose proof (Z.mod_pos_bound n 10 ltac:(lia)) as B.
    rewrite IH by nia. cbn [app match_alt d09].
    rewrite digit_val_digit by auto.
    replace ((0 <=? n mod 10) && (n mod 10 <=? 9))%bool with true
      by (symmetry; apply andb_true_iff; split; apply Z.leb_le; lia).
    rewrite Nat2Z.inj_succ, Z.pow_succ_r by lia. f_equal. f_equal. nia.
Qed.

Definition first_alt (alts : list alt) (s : pystr) : option (Z * pystr) :=
  first_some (fun a => match_alt a 0 s) alts.
Lemma re_match_first : forall alts re s v r vs r', first_alt alts s = Some (v, r) ->
  re_match re r = Some (vs, r') -> re_match (alts :: re) s = Some (v :: vs, r').
Proof.
  intros alts re s v r vs r'. unfold first_alt. cbn [re_match].
  induction alts as [|a alts IH]; intros H H2; [discriminate|]. cbn [first_some] in *.
  destruct (match_alt a 0 s) as [[v0 r0]|].
  - inversion H; subst. rewrite H2. reflexivity.
  - apply IH; auto.
Qed.

Definition zrange (lo : Z) (n : nat) : list Z := map (fun k => lo + Z.of_nat k) (seq 0 n).
Lemma zrange_in : forall lo n x, lo <= x < lo + Z.of_nat n -> In x (zrange lo n).
Proof.
  intros lo n x H. unfold zrange. apply in_map_iff. exists (Z.to_nat (x - lo)). split; [lia|].
  apply in_seq. lia.
Qed.
Lemma map_eq_in : forall A B (f g : A -> B) l x, map f l = map g l -> In x l -> f x = g x.
Proof.
  induction l as [|y l IH]; intros x H Hx; [contradiction|]. inversion H. destruct Hx as [->|Hx]; auto.
Qed.

Lemma first_Y : forall n rest, 0 <= n < 10000 -> first_alt re_Y (pad 4 n ++ rest) = Some (n, rest).
Proof.
  intros n rest H. unfold first_alt, re_Y. cbn [first_some].
  change [d09; d09; d09; d09] with (repeat d09 4). rewrite (match_digits 4 0 n rest) by (simpl; lia). reflexivity.
Qed.
Lemma first_j : forall n rest, 1 <= n <= 366 -> first_alt re_j (pad 3 n ++ rest) = Some (n, rest).
Proof.
  intros n rest H. apply (map_eq_in _ _ (fun n => first_alt re_j (pad 3 n ++ rest)) (fun n => Some (n, rest)) (zrange 1 366)).
  - vm_compute. reflexivity.
  - apply zrange_in. lia.
Qed.
Lemma first_H : forall n rest, 0 <= n < 24 -> first_alt re_H (pad 2 n ++ rest) = Some (n, rest).
Proof.
  intros n rest H. apply (map_eq_in _ _ (fun n => first_alt re_H (pad 2 n ++ rest)) (fun n => Some (n, rest)) (zrange 0 24)).
  - vm_compute. reflexivity.
  - apply zrange_in. lia.
Qed.
Lemma first_M : forall n rest, 0 <= n < 60 -> first_alt re_M (pad 2 n ++ rest) = Some (n, rest).
Proof.
  intros n rest H. apply (map_eq_in _ _ (fun n => first_alt re_M (pad 2 n ++ rest)) (fun n => Some (n, rest)) (zrange 0 60)).
  - vm_compute. reflexivity.
  - apply zrange_in. lia.
Qed.
Lemma first_S : forall n rest, 0 <= n < 60 -> first_alt re_S (pad 2 n ++ rest) = Some (n, rest).
Proof.
  intros n rest H. apply (map_eq_in _ _ (fun n => first_alt re_S (pad 2 n ++ rest)) (fun n => Some (n, rest)) (zrange 0 60)).
  - vm_compute. reflexivity.
  - apply zrange_in. lia.
Qed.

Lemma leap_iff : forall y, leap y = true <-> is_leap y.
Proof.
  intros y. unfold leap, is_leap. rewrite andb_true_iff, orb_true_iff, negb_true_iff, !Z.eqb_eq, Z.eqb_neq.
  rewrite <- !Z.mod_divide by lia. tauto.
Qed.

Lemma strptime_strftime : forall d, valid_from 1 d -> strptime (strftime d) = Ok (to_second d).
Proof.
  intros d [[v1 v1'] v2 v3 v4 v5 v6 v7]. unfold strptime, strftime.
  rewrite (re_match_first re_Y _ _ _ _ _ _ (first_Y (dt_year d) _ ltac:(lia))
    (re_match_first re_j _ _ _ _ _ _ (first_j (dt_yday d) _ v2)
    (re_match_first re_H _ _ _ _ _ _ (first_H (dt_hour d) _ v4)
    (re_match_first re_M _ _ _ _ _ _ (first_M (dt_min d) _ v5)
    (re_match_first re_S [] (pad 2 (dt_sec d)) _ _ _ _
      (eq_trans (f_equal _ (eq_sym (app_nil_r _))) (first_S (dt_sec d) [] v6)) eq_refl))))).
  replace (dt_year d <? 1) with false by (symmetry; apply Z.ltb_ge; lia).
  assert (E : days_in_year (dt_year d) <? dt_yday d = false).
  { apply Z.ltb_ge. unfold days_in_year. destruct (leap (dt_year d)) eqn:El; [lia|].
    destruct (Z.eq_dec (dt_yday d) 366) as [E|E]; [|lia].
    apply v3, leap_iff in E. congruence. }
  rewrite E. replace (9999 <? dt_year d) with false by (symmetry; apply Z.ltb_ge; lia).
  replace (59 <? dt_sec d) with false by (symmetry; apply Z.ltb_ge; lia). reflexivity.
Qed.

Lemma parse_stamp_gen : forall c d k, valid_from 1 d -> 0 <= k < 10 ->
  parse_time (c :: strftime d ++ [digit k]) = Ok (add_tenths (to_second d) k).
Proof.
  intros c d k V Hk. unfold parse_time, middle. cbn [tl]. rewrite removelast_last.
  rewrite strptime_strftime by auto. cbn [bind].
  replace (rev (c :: strftime d ++ [digit k])) with (digit k :: rev (c :: strftime d))
    by (change (c :: strftime d ++ [digit k]) with ((c :: strftime d) ++ [digit k]); rewrite rev_app_distr; reflexivity).
  rewrite digit_val_digit by auto. reflexivity.
Qed.

Lemma parse_stamp : forall c d, valid_from 1 d -> in_tenths d -> parse_time (stamp c d) = Ok d.
Proof.
  intros c d V [k Hk]. unfold stamp. assert (0 <= k < 10) by (destruct V; lia).
  replace (dt_us d / 100000) with k by (rewrite Hk, Z.div_mul; lia).
  rewrite parse_stamp_gen by auto. destruct d. unfold add_tenths, to_second. cbn in *. f_equal. f_equal. lia.
Qed.

Lemma in_stamp : forall c d x, valid_from 1 d ->
  (N_of_ascii x < 48 \/ 57 < N_of_ascii x)%N -> x <> c -> ~ In x (stamp c d).
Proof.
  intros c d x V Hx Hc Hin. unfold stamp in Hin. destruct Hin as [E|Hin]; [congruence|].
  apply in_app_or in Hin. destruct Hin as [Hin|[E|[]]].
  - eapply digits_no; [apply strftime_digits|exact Hx|exact Hin].
  - assert (0 <= dt_us d / 100000 < 10).
    { destruct V. split; [apply Z.div_pos; lia|apply Z.div_lt_upper_bound; lia]. }
    subst x. rewrite digit_code in Hx by auto. lia.
Qed.

Lemma in_prefix : forall (p b : pystr) x, In x p -> In x (p ++ b).
Proof. intros. apply in_or_app; auto. Qed.
Lemma no_dot_no_nc : forall s, ~ In "."%char s -> forall a b, s <> a ++ lit ".nc" ++ b.
Proof. intros s H a b K. apply H. rewrite K. apply in_or_app. right. simpl. auto. Qed.

Lemma parse_name : forall env alg plat s e c, component env -> component alg -> component plat ->
  valid_from 1 s -> valid_from 1 e -> valid_from 1 c -> in_tenths s -> in_tenths e -> in_tenths c ->
  parse_filename (file_name env alg plat s e c) = Ok (env, alg, plat, s, e, c).
Proof.
  intros env alg plat s e c [C1 D1] [C2 D2] [C3 D3] Vs Ve Vc Ts Te Tc.
  unfold parse_filename, file_name.
  change (lit "_") with (["_"%char]). cbn [app].
  rewrite remove_nc_comp by auto. rewrite remove_nc_comp by auto. rewrite remove_nc_comp by auto.
  assert (U : forall x d, x <> "_"%char -> valid_from 1 d -> ~ In "_"%char (stamp x d)).
  { intros x d Hx V. apply in_stamp; auto. vm_compute. auto. }
  assert (P : forall x d, x <> "."%char -> valid_from 1 d -> ~ In "."%char (stamp x d)).
  { intros x d Hx V. apply in_stamp; auto. vm_compute. auto. }
  rewrite (remove_nc_comp (stamp "s" s)) by (apply no_dot_no_nc, P; auto; discriminate).
  rewrite (remove_nc_comp (stamp "e" e)) by (apply no_dot_no_nc, P; auto; discriminate).
  rewrite remove_nc_end by (apply P; auto; discriminate).
  rewrite !split_comp by (auto; apply U; auto; discriminate).
  rewrite split_last by (apply U; auto; discriminate).
  cbn [nth_res nth_error bind]. rewrite !parse_stamp by auto. reflexivity.
Qed.

(** * Order *)
Lemma compare_scale : forall k a b x y, 0 <= x < k -> 0 <= y < k ->
  Z.compare (a * k + x) (b * k + y) = match Z.compare a b with Eq => Z.compare x y | c => c end.
Proof.
  intros k a b x y Hx Hy. destruct (Z.compare_spec a b) as [->|H|H].
  - destruct (Z.compare_spec x y); [apply Z.compare_eq_iff|apply Z.compare_lt_iff|apply Z.compare_gt_iff]; lia.
  - apply Z.compare_lt_iff. nia.
  - apply Z.compare_gt_iff. nia.
Qed.

Lemma str_compare_app : forall p a b, str_compare (p ++ a) (p ++ b) = str_compare a b.
Proof. induction p as [|c p IH]; intros a b; [reflexivity|]. simpl. rewrite N.compare_refl. apply IH. Qed.

Lemma digit_compare : forall a b, 0 <= a < 10 -> 0 <= b < 10 ->
  N.compare (N_of_ascii (digit a)) (N_of_ascii (digit b)) = Z.compare a b.
Proof.
  intros a b Ha Hb. rewrite !digit_code by auto. rewrite <- N2Z.inj_compare, !Z2N.id by lia.
  destruct (Z.compare_spec a b); [apply Z.compare_eq_iff|apply Z.compare_lt_iff|apply Z.compare_gt_iff]; lia.
Qed.

Lemma pad_compare : forall k n m r1 r2, 0 <= n < 10 ^ Z.of_nat k -> 0 <= m < 10 ^ Z.of_nat k ->
  str_compare (pad k n ++ r1) (pad k m ++ r2)
  = match Z.compare n m with Eq => str_compare r1 r2 | c => c end.
Proof.
  induction k as [|k IH]; intros n m r1 r2 Hn Hm.
  - simpl in *. replace n with 0 by lia. replace m with 0 by lia. reflexivity.
  - cbn [pad]. rewrite <- !app_assoc.
    rewrite Nat2Z.inj_succ, Z.pow_succ_r in Hn, Hm by lia.
    pose proof (Z.div_mod n 10 ltac:(lia)) as E1. pose proof (Z.mod_pos_bound n 10 ltac:(lia)) as B1.
    pose proof (Z.div_mod m 10 ltac:(lia)) as E2. pose proof (Z.mod_pos_bound m 10 ltac:(lia)) as B2.
    rewrite IH by nia.
    replace (Z.compare n m) with (Z.compare (n / 10 * 10 + n mod 10) (m / 10 * 10 + m mod 10))
      by (f_equal; lia).
    rewrite compare_scale by auto.
    destruct (Z.compare (n / 10) (m / 10)); auto.
    cbn [app str_compare]. rewrite digit_compare by auto. reflexivity.
Qed.

Lemma div_step : forall y k, 0 < k -> y / k = (y - 1) / k + (if y mod k =? 0 then 1 else 0).
Proof.
  intros y k Hk. pose proof (Z.div_mod y k ltac:(lia)). pose proof (Z.mod_pos_bound y k Hk).
  destruct (Z.eqb_spec (y mod k) 0) as [E|E].
  - replace ((y - 1) / k) with (y / k - 1); [lia|].
    apply (Z.div_unique_pos _ _ _ (k - 1)); lia.
  - replace ((y - 1) / k) with (y / k); [lia|].
    apply (Z.div_unique_pos _ _ _ (y mod k - 1)); lia.
Qed.

Lemma days_step : forall y, days_before_year (y + 1) = days_before_year y + days_in_year y.
Proof.
  intros y. unfold days_before_year. replace (y + 1 - 1) with y by lia.
  rewrite (div_step y 4), (div_step y 100), (div_step y 400) by lia.
  unfold days_in_year, leap.
  destruct (Z.eqb_spec (y mod 400) 0) as [E4|E4]; destruct (Z.eqb_spec (y mod 100) 0) as [E1|E1];
    destruct (Z.eqb_spec (y mod 4) 0) as [E0|E0]; cbn [negb andb orb]; try lia;
    exfalso.
  all: try (assert (y mod 100 = 0); [apply Z.mod_divide; [lia|]; apply Z.divide_trans with 400; [exists 4; reflexivity|apply Z.mod_divide; auto; lia]|]; lia).
  all: try (assert (y mod 4 = 0); [apply Z.mod_divide; [lia|]; apply Z.divide_trans with 100; [exists 25; reflexivity|apply Z.mod_divide; auto; lia]|]; lia).
Qed.

Lemma days_mono : forall a b, a <= b -> days_before_year a <= days_before_year b.
Proof.
  intros a b H. replace b with (a + Z.of_nat (Z.to_nat (b - a))) by lia.
  induction (Z.to_nat (b - a)) as [|n IH]; [rewrite Z.add_0_r; lia|].
  rewrite Nat2Z.inj_succ. replace (a + Z.succ (Z.of_nat n)) with (a + Z.of_nat n + 1) by lia.
  rewrite days_step. unfold days_in_year. destruct (leap _); lia.
Qed.

Lemma yday_bound : forall lo d, valid_from lo d -> dt_yday d <= days_in_year (dt_year d).
Proof.
  intros lo d [w1 w2 w3 w4 w5 w6 w7]. unfold days_in_year. destruct (leap (dt_year d)) eqn:E; [lia|].
  destruct (Z.eq_dec (dt_yday d) 366) as [K|K]; [|lia]. apply w3, leap_iff in K. congruence.
Qed.

Lemma day_compare : forall d1 d2, valid_from 1 d1 -> valid_from 1 d2 ->
  Z.compare (days_before_year (dt_year d1) + dt_yday d1 - 1) (days_before_year (dt_year d2) + dt_yday d2 - 1)
  = match Z.compare (dt_year d1) (dt_year d2) with Eq => Z.compare (dt_yday d1) (dt_yday d2) | c => c end.
Proof.
  assert (L : forall d1 d2, valid_from 1 d1 -> valid_from 1 d2 -> dt_year d1 < dt_year d2 ->
    days_before_year (dt_year d1) + dt_yday d1 - 1 < days_before_year (dt_year d2) + dt_yday d2 - 1).
  { intros d1 d2 V1 V2 H. pose proof (days_mono (dt_year d1 + 1) (dt_year d2) ltac:(lia)) as M.
    rewrite days_step in M. pose proof (yday_bound _ _ V1). destruct V2. lia. }
  intros d1 d2 V1 V2. destruct (Z.compare_spec (dt_year d1) (dt_year d2)) as [E|E|E].
  - rewrite E. destruct (Z.compare_spec (dt_yday d1) (dt_yday d2));
      [apply Z.compare_eq_iff|apply Z.compare_lt_iff|apply Z.compare_gt_iff]; lia.
  - apply Z.compare_lt_iff. auto.
  - apply Z.compare_gt_iff. apply L; auto.
Qed.

Lemma stamp_compare : forall c d1 d2 r1 r2, valid_from 1 d1 -> valid_from 1 d2 ->
  in_tenths d1 -> in_tenths d2 ->
  str_compare (stamp c d1 ++ r1) (stamp c d2 ++ r2)
  = match Z.compare (instant d1) (instant d2) with Eq => str_compare r1 r2 | x => x end.
Proof.
  intros c d1 d2 r1 r2 V1 V2 [k1 H1] [k2 H2].
  unfold instant. pose proof (day_compare d1 d2 V1 V2) as DC. destruct V1, V2.
  rewrite compare_scale by lia. rewrite compare_scale by lia. rewrite compare_scale by lia.
  rewrite compare_scale by lia. rewrite DC.
  unfold stamp. cbn [app str_compare]. rewrite N.compare_refl. unfold strftime. rewrite <- !app_assoc.
  rewrite pad_compare by (simpl; lia).
  destruct (Z.compare (dt_year d1) (dt_year d2)); auto.
  rewrite pad_compare by (simpl; lia).
  destruct (Z.compare (dt_yday d1) (dt_yday d2)); auto.
  rewrite pad_compare by (simpl; lia).
  destruct (Z.compare (dt_hour d1) (dt_hour d2)); auto.
  rewrite pad_compare by (simpl; lia).
  destruct (Z.compare (dt_min d1) (dt_min d2)); auto.
  rewrite pad_compare by (simpl; lia).
  destruct (Z.compare (dt_sec d1) (dt_sec d2)); auto.
  rewrite H1, H2, !Z.div_mul by lia. cbn [app str_compare].
  rewrite digit_compare by lia.
  replace (k1 * 100000 ?= k2 * 100000) with (k1 ?= k2); [reflexivity|].
  destruct (Z.compare_spec k1 k2); symmetry;
    [apply Z.compare_eq_iff|apply Z.compare_lt_iff|apply Z.compare_gt_iff]; lia.
Qed.
