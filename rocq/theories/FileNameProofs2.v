(** File names, continued: what the parser accepts, and names of output files. *)
From Coq Require Import List ZArith Bool Ascii String Lia.
From Verif Require Import Base BaseProofs FileName FileNameSpec FileNameProofs.
Import ListNotations.
Open Scope Z_scope.

(** * The model's digits are decimal digits *)
Lemma digit_nth : forall d, 0 <= d < 10 -> digit d = nth (Z.to_nat d) (lit "0123456789") "0"%char.
Proof.
  intros d Hd. apply (map_eq_in _ _ digit (fun d => nth (Z.to_nat d) (lit "0123456789") "0"%char) (zrange 0 10)).
  - vm_compute. reflexivity.
  - apply zrange_in. simpl. lia.
Qed.
Lemma decimal_pad : forall k n, decimal k n = pad k n.
Proof.
  induction k as [|k IH]; intros n; [reflexivity|]. cbn [pad]. rewrite <- IH. unfold decimal.
  rewrite <- cons_seq. cbn [rev]. rewrite map_app. f_equal.
  - rewrite <- seq_shift, <- map_rev, map_map. apply map_ext. intros i.
    rewrite Nat2Z.inj_succ, Z.pow_succ_r, <- Z.div_div by lia. reflexivity.
  - cbn [map]. rewrite digit_nth by (apply Z.mod_pos_bound; lia).
    change (10 ^ Z.of_nat 0) with 1. rewrite Z.div_1_r. reflexivity.
Qed.
Lemma stamp_spec : forall lo c d, valid_from lo d -> time_stamp c d = stamp c d.
Proof.
  intros lo c d H. unfold time_stamp, stamp, strftime. rewrite !decimal_pad. rewrite <- !app_assoc.
  do 6 f_equal. cbn [pad]. rewrite app_nil_l. f_equal. f_equal. apply Z.mod_small. destruct H.
  split; [apply Z.div_pos; lia|apply Z.div_lt_upper_bound; lia].
Qed.
Lemma name_spec : forall lo env alg plat s e c, valid_from lo s -> valid_from lo e -> valid_from lo c ->
  standard_name env alg plat s e c = file_name env alg plat s e c.
Proof. intros lo env alg plat s e c V1 V2 V3. unfold standard_name. rewrite !(stamp_spec lo) by auto. reflexivity. Qed.

Lemma digit_val_inv : forall c d, digit_val c = Some d -> 0 <= d < 10 /\ c = digit d.
Proof.
  intros c d H. unfold digit_val in H.
  destruct ((48 <=? Z.of_N (N_of_ascii c)) && (Z.of_N (N_of_ascii c) <=? 57))%bool eqn:E; [|discriminate].
  apply andb_true_iff in E. destruct E as [E1 E2]. apply Z.leb_le in E1. apply Z.leb_le in E2.
  inversion H; subst d. split; [lia|]. unfold digit.
  replace (48 + (Z.of_N (N_of_ascii c) - 48)) with (Z.of_N (N_of_ascii c)) by lia.
  rewrite N2Z.id, ascii_N_embedding. reflexivity.
Qed.

Lemma match_alt_inv : forall a acc s v r, match_alt a acc s = Some (v, r) ->
  exists n, 0 <= n < 10 ^ Z.of_nat (List.length a) /\ s = pad (List.length a) n ++ r /\
    v = acc * 10 ^ Z.of_nat (List.length a) + n.
Proof.
  intros a. induction a as [|rg a IH] using rev_ind; intros acc s v r H.
  - simpl in H. inversion H; subst. exists 0. simpl. split; [lia|]. split; [reflexivity|lia].
  - rewrite match_alt_app in H. destruct (match_alt a acc s) as [[v1 r1]|] eqn:E; [|discriminate].
    destruct (IH _ _ _ _ E) as (n & Hn & Es & Ev). destruct rg as [lo hi]. cbn [match_alt] in H.
    destruct r1 as [|c r1]; [discriminate|]. destruct (digit_val c) as [d|] eqn:Ed; [|discriminate].
    destruct ((lo <=? d) && (d <=? hi))%bool; [|discriminate]. inversion H; subst v r.
    apply digit_val_inv in Ed. destruct Ed as [Hd ->].
    rewrite app_length. cbn [List.length]. rewrite Nat.add_1_r.
    exists (n * 10 + d). rewrite Nat2Z.inj_succ, Z.pow_succ_r by lia. split; [nia|]. split.
    + cbn [pad]. rewrite <- app_assoc. rewrite Es. f_equal.
      * f_equal. apply (Z.div_unique_pos _ _ _ d); lia.
      * cbn [app]. f_equal. f_equal. apply (Z.mod_unique_pos _ _ n); lia.
    + subst v1. lia.
Qed.

Lemma first_some_inv : forall A B (f : A -> option B) l b, first_some f l = Some b -> exists a, In a l /\ f a = Some b.
Proof.
  induction l as [|a l IH]; intros b H; [discriminate|]. simpl in H. destruct (f a) eqn:E.
  - inversion H; subst. exists a. simpl; auto.
  - destruct (IH b H) as (x & Hx & Ex). exists x. simpl; auto.
Qed.

Lemma re_match_inv : forall alts re s out, re_match (alts :: re) s = Some out ->
  exists a v r vs r', In a alts /\ match_alt a 0 s = Some (v, r) /\ re_match re r = Some (vs, r') /\
    out = (v :: vs, r').
Proof.
  intros alts re s out H. cbn [re_match] in H. apply first_some_inv in H. destruct H as (a & Ha & H).
  destruct (match_alt a 0 s) as [[v r]|] eqn:E1; [|discriminate].
  destruct (re_match re r) as [[vs r']|] eqn:E2; [|discriminate]. inversion H; subst.
  exists a, v, r, vs, r'. auto.
Qed.

(** Digits are determined by the number. *)
Lemma pad_length : forall k n, List.length (pad k n) = k.
Proof. induction k as [|k IH]; intros n; [reflexivity|]. cbn [pad]. rewrite app_length, IH. simpl. lia. Qed.

(** Ranges of the directives at full width. *)
Definition none_outside (a : alt) (k : nat) (lo hi : Z) (rest : pystr) : bool :=
  forallb (fun n => ((lo <=? n) && (n <=? hi))
                    || match match_alt a 0 (pad k n ++ rest) with None => true | Some _ => false end)%bool
    (zrange 0 (Nat.pow 10 k)).
Lemma range_of : forall a k lo hi rest n v r, none_outside a k lo hi rest = true ->
  0 <= n < 10 ^ Z.of_nat k -> match_alt a 0 (pad k n ++ rest) = Some (v, r) -> lo <= n <= hi.
Proof.
  intros a k lo hi rest n v r H Hn E. unfold none_outside in H. rewrite forallb_forall in H.
  assert (Hin : In n (zrange 0 (Nat.pow 10 k))).
  { apply zrange_in. rewrite Nat2Z.inj_pow. simpl (Z.of_nat 10). lia. }
  specialize (H n Hin). rewrite E in H. rewrite orb_false_r in H. apply andb_true_iff in H.
  destruct H as [H1 H2]. apply Z.leb_le in H1. apply Z.leb_le in H2. lia.
Qed.

Lemma width : forall (alts : list alt) w a, forallb (fun a => Nat.leb (List.length a) w) alts = true ->
  In a alts -> (List.length a <= w)%nat.
Proof. intros alts w a H Ha. rewrite forallb_forall in H. apply H in Ha. apply Nat.leb_le in Ha. auto. Qed.

Lemma strptime_only : forall s d, List.length s = 13%nat -> strptime s = Ok d ->
  exists y j h m sec, s = pad 4 y ++ pad 3 j ++ pad 2 h ++ pad 2 m ++ pad 2 sec /\
    1 <= y <= 9999 /\ 1 <= j <= 366 /\ 0 <= h <= 23 /\ 0 <= m <= 59 /\ 0 <= sec <= 59 /\
    dt_hour d = h /\ dt_min d = m /\ dt_sec d = sec /\ dt_us d = 0 /\
    ((j <= days_in_year y /\ dt_year d = y /\ dt_yday d = j) \/
     (j = 366 /\ days_in_year y = 365 /\ dt_year d = y + 1 /\ dt_yday d = 1)).
Proof.
  intros s d HL H. unfold strptime in H.
  destruct (re_match [re_Y; re_j; re_H; re_M; re_S] s) as [[vs r]|] eqn:E; [|discriminate].
  apply re_match_inv in E. destruct E as (a1 & y & r1 & vs1 & q1 & A1 & M1 & E & E0). inversion E0; subst vs q1; clear E0.
  apply re_match_inv in E. destruct E as (a2 & j & r2 & vs2 & q2 & A2 & M2 & E & E0). inversion E0; subst vs1 q2; clear E0.
  apply re_match_inv in E. destruct E as (a3 & h & r3 & vs3 & q3 & A3 & M3 & E & E0). inversion E0; subst vs2 q3; clear E0.
  apply re_match_inv in E. destruct E as (a4 & m & r4 & vs4 & q4 & A4 & M4 & E & E0). inversion E0; subst vs3 q4; clear E0.
  apply re_match_inv in E. destruct E as (a5 & sec & r5 & vs5 & q5 & A5 & M5 & E & E0). inversion E0; subst vs4 q5; clear E0.
  cbn [re_match] in E. inversion E; subst vs5 r; clear E.
  destruct r5 as [|? ?]; [|destruct y; discriminate H].
  pose proof (match_alt_inv _ _ _ _ _ M1) as (n1 & N1 & S1 & V1).
  pose proof (match_alt_inv _ _ _ _ _ M2) as (n2 & N2 & S2 & V2).
  pose proof (match_alt_inv _ _ _ _ _ M3) as (n3 & N3 & S3 & V3).
  pose proof (match_alt_inv _ _ _ _ _ M4) as (n4 & N4 & S4 & V4).
  pose proof (match_alt_inv _ _ _ _ _ M5) as (n5 & N5 & S5 & V5).
  assert (W1 := width re_Y 4 a1 eq_refl A1). assert (W2 := width re_j 3 a2 eq_refl A2).
  assert (W3 := width re_H 2 a3 eq_refl A3). assert (W4 := width re_M 2 a4 eq_refl A4).
  assert (W5 := width re_S 2 a5 eq_refl A5).
  assert (L : (List.length a1 + List.length a2 + List.length a3 + List.length a4 + List.length a5 = 13)%nat).
  { rewrite <- HL. subst s r1 r2 r3 r4. rewrite !app_length, !pad_length. simpl. lia. }
  assert (L1 : List.length a1 = 4%nat) by lia. assert (L2 : List.length a2 = 3%nat) by lia.
  assert (L3 : List.length a3 = 2%nat) by lia. assert (L4 : List.length a4 = 2%nat) by lia.
  assert (L5 : List.length a5 = 2%nat) by lia.
  rewrite L1 in *. rewrite L2 in *. rewrite L3 in *. rewrite L4 in *. rewrite L5 in *.
  rewrite Z.mul_0_l, Z.add_0_l in V1, V2, V3, V4, V5. subst n1 n2 n3 n4 n5.
  assert (R2 : 1 <= j <= 366).
  { rewrite S2 in M2. clear - M2 A2 L2 N2. unfold re_j in A2. simpl in A2.
    repeat (destruct A2 as [<-|A2]; [try discriminate L2;
      (refine (range_of _ 3 1 366 r2 j j r2 _ N2 M2); vm_compute; reflexivity)|]); contradiction. }
  assert (R3 : 0 <= h <= 23).
  { rewrite S3 in M3. clear - M3 A3 L3 N3. unfold re_H in A3. simpl in A3.
    destruct A3 as [<-|[<-|[<-|[]]]]; try discriminate L3; (refine (range_of _ 2 0 23 r3 h h r3 _ N3 M3); vm_compute; reflexivity). }
  assert (R4 : 0 <= m <= 59).
  { rewrite S4 in M4. clear - M4 A4 L4 N4. unfold re_M in A4. simpl in A4.
    destruct A4 as [<-|[<-|[]]]; try discriminate L4; (refine (range_of _ 2 0 59 r4 m m r4 _ N4 M4); vm_compute; reflexivity). }
  cbv beta iota in H.
  destruct (y <? 1) eqn:Y1; [discriminate|]. apply Z.ltb_ge in Y1.
  assert (N1' : y <= 9999) by (simpl in N1; lia).
  exists y, j, h, m, sec.
  destruct (days_in_year y <? j) eqn:EJ.
  - apply Z.ltb_lt in EJ. destruct (9999 <? y + 1); [discriminate|].
    destruct (59 <? sec) eqn:ES; [discriminate|]. apply Z.ltb_ge in ES. inversion H; subst d. cbn [dt_year dt_yday dt_hour dt_min dt_sec dt_us].
    assert (days_in_year y = 365 /\ j = 366) as [D J] by (unfold days_in_year in *; destruct (leap y); lia).
    split; [subst s r1 r2 r3 r4; rewrite app_nil_r; reflexivity|].
    do 9 (split; [lia|]). right. rewrite D, J. lia.
  - apply Z.ltb_ge in EJ. destruct (9999 <? y); [discriminate|].
    destruct (59 <? sec) eqn:ES; [discriminate|]. apply Z.ltb_ge in ES. inversion H; subst d. cbn [dt_year dt_yday dt_hour dt_min dt_sec dt_us].
    split; [subst s r1 r2 r3 r4; rewrite app_nil_r; reflexivity|].
    do 9 (split; [lia|]). left. lia.
Qed.

Lemma parse_time_only : forall s d, List.length s = 15%nat -> parse_time s = Ok d ->
  exists c y j h m sec t, s = c :: (pad 4 y ++ pad 3 j ++ pad 2 h ++ pad 2 m ++ pad 2 sec) ++ [digit t] /\
    1 <= y <= 9999 /\ 1 <= j <= 366 /\ 0 <= h <= 23 /\ 0 <= m <= 59 /\ 0 <= sec <= 59 /\ 0 <= t <= 9 /\
    dt_hour d = h /\ dt_min d = m /\ dt_sec d = sec /\ dt_us d = t * 100000 /\
    ((j <= days_in_year y /\ dt_year d = y /\ dt_yday d = j) \/
     (j = 366 /\ days_in_year y = 365 /\ dt_year d = y + 1 /\ dt_yday d = 1)).
Proof.
  intros s d HL H. unfold parse_time in H. apply bind_ok_inv in H. destruct H as [d0 [H0 H]].
  destruct s as [|c s]; [discriminate|]. unfold middle in H0. cbn [tl] in H0.
  destruct s as [|x s'] eqn:Es using rev_ind; [discriminate|]. clear IHs'.
  rewrite removelast_last in H0.
  replace (rev (c :: s' ++ [x])) with (x :: rev (c :: s')) in H
    by (change (c :: s' ++ [x]) with ((c :: s') ++ [x]); rewrite rev_app_distr; reflexivity).
  destruct (digit_val x) as [t|] eqn:Ed; [|discriminate]. apply digit_val_inv in Ed. destruct Ed as [Ht ->].
  inversion H; subst d.
  assert (HL' : List.length s' = 13%nat) by (simpl in HL; rewrite app_length in HL; simpl in HL; lia).
  destruct (strptime_only s' d0 HL' H0) as (y & j & h & m & sec & E & R1 & R2 & R3 & R4 & R5 & F1 & F2 & F3 & F4 & F5).
  exists c, y, j, h, m, sec, t. rewrite E at 1. cbn [add_tenths dt_hour dt_min dt_sec dt_us dt_year dt_yday].
  rewrite F4. split; [reflexivity|]. do 5 (split; [lia|]). split; [lia|]. do 3 (split; [auto|]). split; [lia|]. exact F5.
Qed.

(** * Names of output files *)
Lemma valid_1000 : forall d, valid_from 1000 d -> valid_from 1 d.
Proof. intros d [w1 w2 w3 w4 w5 w6 w7]. constructor; auto. lia. Qed.
Lemma to_second_valid : forall d, valid_from 1 d -> valid_from 1 (to_second d) /\ in_tenths (to_second d).
Proof.
  intros d [w1 w2 w3 w4 w5 w6 w7]. split; [constructor; simpl; auto; lia|exists 0; reflexivity].
Qed.
Lemma stamp_second : forall c d, stamp c (to_second d) = c :: strftime d ++ lit "0".
Proof. reflexivity. Qed.

Lemma scene_component : forall scene s, scene_code scene = Ok s ->
  In s ["F"; "C"; "M1"; "M2"]%string.
Proof.
  intros scene s H. unfold scene_code in H.
  repeat (match goal with H : context [if ?b then _ else _] |- _ => destruct b end; [inversion H; simpl; auto|]).
  discriminate.
Qed.

Lemma dataset_name_convention : forall start end_ created plat scene timeline name,
  dataset_name start end_ created plat scene timeline = Ok name ->
  exists s, scene_code scene = Ok s /\ timeline = "ABI Mode 3"%string /\
  name = file_name (lit "OR") (lit "GLM-L2-GLM" ++ lit s ++ lit "-M3") plat
           (to_second start) (to_second end_) (to_second created).
Proof.
  intros start end_ created plat scene timeline name H. unfold dataset_name in H.
  apply bind_ok_inv in H. destruct H as [m [Hm H]]. apply bind_ok_inv in H. destruct H as [s [Hs H]].
  unfold mode_code in Hm. destruct (String.eqb timeline "ABI Mode 3") eqn:Et; [|discriminate].
  apply String.eqb_eq in Et. inversion Hm; subst m. exists s. split; [exact Hs|]. split; [exact Et|].
  inversion H. unfold file_name. rewrite !stamp_second.
  change (lit "OR_GLM-L2-GLM") with (lit "OR" ++ lit "_" ++ lit "GLM-L2-GLM").
  change (lit "_s") with (lit "_" ++ lit "s"). change (lit "_e") with (lit "_" ++ lit "e").
  change (lit "_c") with (lit "_" ++ lit "c"). change (lit "-M3") with (lit "-" ++ lit "M3").
  rewrite <- !app_assoc. reflexivity.
Qed.

Lemma alg_component : forall scene s, scene_code scene = Ok s ->
  component (lit "GLM-L2-GLM" ++ lit s ++ lit "-M3").
Proof.
  intros scene s H. apply scene_component in H.
  assert (K : ~ In "_"%char (lit "GLM-L2-GLM" ++ lit s ++ lit "-M3") /\
              ~ In "."%char (lit "GLM-L2-GLM" ++ lit s ++ lit "-M3")).
  { simpl in H. destruct H as [<-|[<-|[<-|[<-|[]]]]]; split; intros K; simpl in K;
      repeat (destruct K as [K|K]; [discriminate|]); exact K. }
  split; [apply K|]. apply no_dot_no_nc. apply K.
Qed.
Lemma or_component : component (lit "OR").
Proof.
  split; [simpl; intuition discriminate|]. apply no_dot_no_nc. simpl. intuition discriminate.
Qed.

Lemma parse_dataset_name : forall start end_ created plat scene timeline name,
  valid_from 1000 start -> valid_from 1000 end_ -> valid_from 1000 created -> component plat ->
  dataset_name start end_ created plat scene timeline = Ok name ->
  exists s, scene_code scene = Ok s /\
  parse_filename name = Ok (lit "OR", lit "GLM-L2-GLM" ++ lit s ++ lit "-M3", plat,
                            to_second start, to_second end_, to_second created).
Proof.
  intros start end_ created plat scene timeline name V1 V2 V3 Cp H.
  apply dataset_name_convention in H. destruct H as (s & Hs & _ & ->). exists s. split; auto.
  apply valid_1000 in V1. apply valid_1000 in V2. apply valid_1000 in V3.
  destruct (to_second_valid _ V1). destruct (to_second_valid _ V2). destruct (to_second_valid _ V3).
  apply parse_name; auto; [apply or_component|eapply alg_component; eauto].
Qed.

(** Microseconds determine the instant: starts a second apart have different
    seconds. *)
Lemma instant_seconds : forall a b, valid_from 1 a -> valid_from 1 b -> to_second a = to_second b ->
  Z.abs (instant a - instant b) < 1000000.
Proof.
  intros [y1 j1 h1 m1 s1 u1] [y2 j2 h2 m2 s2 u2] V1 V2 E. inversion E; subst. destruct V1, V2.
  unfold instant. cbn in *. lia.
Qed.
