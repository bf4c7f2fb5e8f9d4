(** What a text accepted as a time on the command line looks like. *)
From Coq Require Import List ZArith QArith Bool Ascii String Lia.
From Verif Require Import Base FileName FileNameSpec FileNameProofs FileNameProofs2 GridSetup GridSetupSpec GridSetupProofs.
Import ListNotations.
Open Scope Z_scope.

Lemma iso_match_inv : forall alts re s vs r', iso_match (alts :: re) s = Some (vs, r') ->
  exists a v r vs', In a alts /\ match_cls a 0 s = Some (v, r) /\ iso_match re r = Some (vs', r') /\ vs = v :: vs'.
Proof.
  intros alts re s vs r'. cbn [iso_match]. induction alts as [|a alts IH]; intros H; [discriminate|]. cbn [first_some] in H.
  destruct (match_cls a 0 s) as [[v r]|] eqn:E.
  - destruct (iso_match re r) as [[vs' r1]|] eqn:E2.
    + injection H as <- <-. exists a, v, r, vs'. cbn; auto.
    + destruct (IH H) as (a' & v' & r1 & vs' & K & L). exists a', v', r1, vs'. split; [right; auto|auto].
  - destruct (IH H) as (a' & v' & r1 & vs' & K & L). exists a', v', r1, vs'. split; [right; auto|auto].
Qed.
Lemma dig_inv : forall lo hi a acc s v r, match_cls (Dig lo hi :: a) acc s = Some (v, r) ->
  exists d s', s = digit d :: s' /\ lo <= d <= hi /\ 0 <= d < 10 /\ match_cls a (acc * 10 + d) s' = Some (v, r).
Proof.
  intros lo hi a acc s v r H. cbn [match_cls] in H. destruct s as [|c s]; [discriminate|].
  destruct (digit_val c) as [d|] eqn:E; [|discriminate]. apply digit_val_inv in E. destruct E as [E ->].
  destruct ((lo <=? d) && (d <=? hi))%bool eqn:F; [|discriminate]. apply andb_prop in F. destruct F as [F1 F2].
  apply Z.leb_le in F1. apply Z.leb_le in F2. exists d, s. repeat split; auto; lia.
Qed.
Lemma chr_inv : forall x a acc s v r, match_cls (Chr x :: a) acc s = Some (v, r) ->
  exists c s', s = c :: s' /\ lower x = lower c /\ match_cls a acc s' = Some (v, r).
Proof.
  intros x a acc s v r H. cbn [match_cls] in H. destruct s as [|c s]; [discriminate|].
  destruct (Ascii.eqb_spec (lower x) (lower c)); [|discriminate]. eauto.
Qed.
Lemma lower_same : forall x c, In x ["-"; ":"; " "]%char -> lower x = lower c -> c = x.
Proof.
  intros x [b0 b1 b2 b3 b4 b5 b6 b7] H E. cbn in H.
  destruct H as [<-|[<-|[<-|[]]]]; destruct b0, b1, b2, b3, b4, b5, b6, b7; try reflexivity; vm_compute in E; discriminate.
Qed.
Lemma lower_T : forall c, lower "T"%char = lower c -> c = "T"%char \/ c = "t"%char.
Proof.
  intros [b0 b1 b2 b3 b4 b5 b6 b7] E.
  destruct b0, b1, b2, b3, b4, b5, b6, b7; try (left; reflexivity); try (right; reflexivity); vm_compute in E; discriminate.
Qed.
Lemma two_pad : forall d e, 0 <= d < 10 -> 0 <= e < 10 -> [digit d; digit e] = decimal 2 (d * 10 + e).
Proof.
  intros d e Hd He. rewrite decimal_pad. cbn [pad app].
  replace ((d * 10 + e) / 10) with d by (rewrite Z.add_comm, Z.div_add by lia; rewrite Z.div_small by lia; lia).
  replace ((d * 10 + e) mod 10) with e by (rewrite Z.add_comm, Z.mod_add by lia; rewrite Z.mod_small; lia).
  rewrite (Z.mod_small d) by lia. reflexivity.
Qed.
Lemma one_pad : forall d, 0 <= d < 10 -> [digit d] = decimal 1 d.
Proof. intros d Hd. rewrite decimal_pad. cbn [pad app]. rewrite Z.mod_small by lia. reflexivity. Qed.
Lemma four_pad : forall a b c d, 0 <= a < 10 -> 0 <= b < 10 -> 0 <= c < 10 -> 0 <= d < 10 ->
  [digit a; digit b; digit c; digit d] = decimal 4 (((a * 10 + b) * 10 + c) * 10 + d).
Proof.
  intros a b c d Ha Hb Hc Hd. rewrite decimal_pad. cbn [pad app].
  assert (D : forall x y, 0 <= y < 10 -> (x * 10 + y) / 10 = x) by (intros x y Hy; rewrite Z.add_comm, Z.div_add by lia; rewrite Z.div_small by lia; lia).
  assert (M : forall x y, 0 <= y < 10 -> (x * 10 + y) mod 10 = y) by (intros x y Hy; rewrite Z.add_comm, Z.mod_add by lia; rewrite Z.mod_small; lia).
  rewrite !D, !M by auto. rewrite (Z.mod_small a) by lia. reflexivity.
Qed.
Ltac two H := apply dig_inv in H; let d := fresh "d" in let s := fresh "s" in let B := fresh "B" in let D := fresh "D" in
  destruct H as (d & s & -> & B & D & H); apply dig_inv in H; let d' := fresh "d" in let s' := fresh "s" in let B' := fresh "B" in let D' := fresh "D" in
  destruct H as (d' & s' & -> & B' & D' & H); cbn [match_cls] in H; injection H as <- <-.
Ltac one H := apply dig_inv in H; let d := fresh "d" in let s := fresh "s" in let B := fresh "B" in let D := fresh "D" in
  destruct H as (d & s & -> & B & D & H); cbn [match_cls] in H; injection H as <- <-.
(** A group of at most two digits. *)
Lemma short_two : forall d e r, 0 <= d < 10 -> 0 <= e < 10 -> exists t, digit d :: digit e :: r = t ++ r /\ short ((0 * 10 + d) * 10 + e) t.
Proof. intros d e r Hd He. exists [digit d; digit e]. split; auto. left. rewrite two_pad by auto. reflexivity. Qed.
Lemma short_one : forall d r, 0 <= d < 10 -> exists t, digit d :: r = t ++ r /\ short (0 * 10 + d) t.
Proof. intros d r Hd. exists [digit d]. split; auto. right. split; [lia|]. rewrite one_pad by auto. reflexivity. Qed.
Lemma group_m : forall a s v r, In a iso_m -> match_cls a 0 s = Some (v, r) -> 1 <= v <= 12 /\ exists t, s = t ++ r /\ short v t.
Proof.
  intros a s v r Ha H. cbn in Ha. destruct Ha as [<-|[<-|[<-|[]]]].
  - two H. split; [lia|apply short_two; auto].
  - two H. split; [lia|apply short_two; auto].
  - one H. split; [lia|apply short_one; auto].
Qed.
Lemma group_H : forall a s v r, In a iso_H -> match_cls a 0 s = Some (v, r) -> 0 <= v < 24 /\ exists t, s = t ++ r /\ short v t.
Proof.
  intros a s v r Ha H. cbn in Ha. destruct Ha as [<-|[<-|[<-|[]]]].
  - two H. split; [lia|apply short_two; auto].
  - two H. split; [lia|apply short_two; auto].
  - one H. split; [lia|apply short_one; auto].
Qed.
Lemma group_M : forall a s v r, In a iso_M -> match_cls a 0 s = Some (v, r) -> 0 <= v < 60 /\ exists t, s = t ++ r /\ short v t.
Proof.
  intros a s v r Ha H. cbn in Ha. destruct Ha as [<-|[<-|[]]].
  - two H. split; [lia|apply short_two; auto].
  - one H. split; [lia|apply short_one; auto].
Qed.
Lemma group_S : forall a s v r, In a iso_S -> match_cls a 0 s = Some (v, r) -> 0 <= v /\ exists t, s = t ++ r /\ short v t.
Proof.
  intros a s v r Ha H. cbn in Ha. destruct Ha as [<-|[<-|[<-|[]]]].
  - two H. split; [lia|apply short_two; auto].
  - two H. split; [lia|apply short_two; auto].
  - one H. split; [lia|apply short_one; auto].
Qed.
Lemma group_d : forall a s v r, In a iso_d -> match_cls a 0 s = Some (v, r) ->
  1 <= v /\ exists t, s = t ++ r /\ (short v t \/ v < 10 /\ t = lit " " ++ decimal 1 v).
Proof.
  intros a s v r Ha H. cbn in Ha. destruct Ha as [<-|[<-|[<-|[<-|[<-|[]]]]]].
  1-3: two H; split; [lia|]; match goal with |- exists t, digit ?d :: digit ?e :: ?r = _ /\ _ => destruct (short_two d e r) as (t & E & S); auto; exists t; auto end.
  - one H. split; [lia|]. match goal with |- exists t, digit ?d :: ?r = _ /\ _ => destruct (short_one d r) as (t & E & S); auto; exists t; auto end.
  - apply chr_inv in H. destruct H as (c & s' & -> & E & H). apply lower_same in E; [|cbn; tauto]. subst c. one H.
    split; [lia|]. exists (" "%char :: [digit d]). split; auto. right. split; [lia|]. rewrite one_pad by auto. reflexivity.
Qed.
Lemma group_c : forall x s v r a, In x ["-"; ":"]%char -> In a (iso_c x) -> match_cls a 0 s = Some (v, r) -> s = x :: r.
Proof.
  intros x s v r a Hx [<-|[]] H. apply chr_inv in H. destruct H as (c & s' & -> & E & H). cbn in H. injection H as <- <-.
  apply lower_same in E; [|cbn in *; tauto]. congruence.
Qed.
Lemma group_Y : forall a s v r, In a iso_Y -> match_cls a 0 s = Some (v, r) -> 0 <= v /\ s = decimal 4 v ++ r.
Proof.
  intros a s v r [<-|[]] H. apply dig_inv in H. destruct H as (d1 & s1 & -> & _ & D1 & H). apply dig_inv in H. destruct H as (d2 & s2 & -> & _ & D2 & H).
  two H. split; [lia|]. change (digit d1 :: digit d2 :: digit d :: digit d0 :: s0) with ([digit d1; digit d2; digit d; digit d0] ++ s0).
  rewrite four_pad by auto. reflexivity.
Qed.

Lemma strptime_iso_inv : forall s d, strptime_iso s = Ok d ->
  exists c, civil_valid c /\ names_time c s /\ instant d = civil_instant c /\ valid_from 1 d.
Proof.
  intros s d H. unfold strptime_iso in H. destruct (iso_match iso_re s) as [[vs r]|] eqn:E; [|discriminate].
  unfold iso_re in E.
  apply iso_match_inv in E. destruct E as (a1 & y & r1 & vs1 & I1 & M1 & E & ->).
  apply iso_match_inv in E. destruct E as (a2 & z2 & r2 & vs2 & I2 & M2 & E & ->).
  apply iso_match_inv in E. destruct E as (a3 & m & r3 & vs3 & I3 & M3 & E & ->).
  apply iso_match_inv in E. destruct E as (a4 & z4 & r4 & vs4 & I4 & M4 & E & ->).
  apply iso_match_inv in E. destruct E as (a5 & dy & r5 & vs5 & I5 & M5 & E & ->).
  apply iso_match_inv in E. destruct E as (a6 & z6 & r6 & vs6 & I6 & M6 & E & ->).
  apply iso_match_inv in E. destruct E as (a7 & h & r7 & vs7 & I7 & M7 & E & ->).
  apply iso_match_inv in E. destruct E as (a8 & z8 & r8 & vs8 & I8 & M8 & E & ->).
  apply iso_match_inv in E. destruct E as (a9 & mi & r9 & vs9 & I9 & M9 & E & ->).
  apply iso_match_inv in E. destruct E as (a10 & z10 & r10 & vs10 & I10 & M10 & E & ->).
  apply iso_match_inv in E. destruct E as (a11 & sec & r11 & vs11 & I11 & M11 & E & ->).
  cbn [iso_match] in E. injection E as <- <-. destruct r11 as [|? ?]; [|discriminate].
  apply group_Y in M1; auto. destruct M1 as [Y0 ->].
  apply (group_c "-") in M2; [|cbn; tauto|auto]. subst r1.
  apply group_m in M3; auto. destruct M3 as (Bm & tm & -> & Sm).
  apply (group_c "-") in M4; [|cbn; tauto|auto]. subst r3.
  apply group_d in M5; auto. destruct M5 as (Bd & td & -> & Sd).
  destruct I6 as [<-|[]]. apply chr_inv in M6. destruct M6 as (sep & s6 & -> & T & M6). cbn in M6. injection M6 as <- <-. apply lower_T in T.
  apply group_H in M7; auto. destruct M7 as (Bh & th & -> & Sh).
  apply (group_c ":") in M8; [|cbn; tauto|auto]. subst r7.
  apply group_M in M9; auto. destruct M9 as (Bmi & tmi & -> & Smi).
  apply (group_c ":") in M10; [|cbn; tauto|auto]. subst r9.
  apply group_S in M11; auto. destruct M11 as (Bs & ts & -> & Ss).
  unfold make_datetime in H.
  destruct (Z.ltb_spec y 1); [discriminate|]. destruct (Z.ltb_spec 9999 y); [discriminate|]. cbn [orb] in H.
  rewrite month_len in H by auto.
  destruct (Z.leb_spec dy (month_length y m)); [|discriminate]. destruct (Z.ltb_spec 59 sec); [discriminate|].
  injection H as <-. set (c := mkCivil y m dy h mi sec). exists c.
  assert (V : civil_valid c) by (subst c; repeat split; cbn; lia). split; auto. split; [|split].
  - exists tm, td, sep, th, tmi, ts. cbn [c_year c_month c_day c_hour c_min c_sec c]. repeat (split; [assumption|]).
    rewrite app_nil_r. cbn [lit list_ascii_of_string app]. reflexivity.
  - unfold instant, civil_instant. cbn [dt_year dt_yday dt_hour dt_min dt_sec dt_us c_year c_month c_day c_hour c_min c_sec c]. rewrite month_before by auto. lia.
  - pose proof (civil_yday c V) as YD. cbn [c_year c_month c_day c] in YD. rewrite <- month_before in YD by auto.
    assert (J : days_before_month y m + dy <= 366) by (unfold days_in_year in YD; destruct (leap y); lia).
    constructor; cbn [dt_year dt_yday dt_hour dt_min dt_sec dt_us]; try lia.
    intros K. unfold days_in_year in YD. destruct (leap y) eqn:L; [apply leap_iff; auto|lia].
Qed.
