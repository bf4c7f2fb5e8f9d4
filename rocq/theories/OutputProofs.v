(** Lemmas about written files. *)
From Coq Require Import List ZArith QArith Qabs Qround Bool Ascii String Lia Lqa.
From Verif Require Import Base BaseProofs Glm Lut FileName FileNameSpec FileNameProofs FileNameProofs2 GridSetup GridSetupSpec GridSetupProofs Imagery Aggregate Output.
Import ListNotations.
Open Scope Z_scope.

(** * Times *)
Lemma month_day_spec : forall y j, 1 <= j <= days_in_year y ->
  1 <= fst (month_day (month_days y) 1 j) <= 12 /\
  1 <= snd (month_day (month_days y) 1 j) <= month_length y (fst (month_day (month_days y) 1 j)) /\
  day_of_year y (fst (month_day (month_days y) 1 j)) (snd (month_day (month_days y) 1 j)) = j.
Proof.
  intros y j H. unfold day_of_year, month_length, days_in_year in *. unfold month_days. destruct (leap y) eqn:L; cbn [month_day];
  change (1 + 1) with 2; change (2 + 1) with 3; change (3 + 1) with 4; change (4 + 1) with 5; change (5 + 1) with 6; change (6 + 1) with 7;
  change (7 + 1) with 8; change (8 + 1) with 9; change (9 + 1) with 10; change (10 + 1) with 11; change (11 + 1) with 12; change (12 + 1) with 13;
  repeat match goal with
  | |- context [if ?a <=? ?n then _ else _] => destruct (Z.leb_spec a n); [cbn [fst snd]; ev_nat; rewrite ?L; cbn -[Z.add Z.sub]; lia|]
  end; exfalso; lia.
Qed.
Lemma civil_of : forall d, valid_from 1 d ->
  civil_valid (mkCivil (dt_year d) (fst (date_of d)) (snd (date_of d)) (dt_hour d) (dt_min d) (dt_sec d)) /\
  day_of_year (dt_year d) (fst (date_of d)) (snd (date_of d)) = dt_yday d.
Proof.
  intros d V. pose proof (yday_bound 1 d V) as B. destruct V as [w1 w2 w3 w4 w5 w6 w7].
  destruct (month_day_spec (dt_year d) (dt_yday d) ltac:(lia)) as (A1 & A2 & A3). unfold civil_valid, date_of. cbn. auto 10.
Qed.
Lemma isoformat_iso : forall d, isoformat d = iso (mkCivil (dt_year d) (fst (date_of d)) (snd (date_of d)) (dt_hour d) (dt_min d) (dt_sec d))
  ++ (if dt_us d =? 0 then [] else lit "." ++ pad 6 (dt_us d)).
Proof. intros d. unfold isoformat, iso. cbn [c_year c_month c_day c_hour c_min c_sec]. rewrite !decimal_pad. rewrite !app_assoc. reflexivity. Qed.
Lemma instant_fields : forall a b, valid_from 1 a -> valid_from 1 b -> instant a = instant b ->
  dt_year a = dt_year b /\ dt_yday a = dt_yday b /\ dt_hour a = dt_hour b /\ dt_min a = dt_min b /\ dt_sec a = dt_sec b /\ dt_us a = dt_us b.
Proof.
  intros a b Va Vb E. pose proof (day_compare a b Va Vb) as D. destruct Va, Vb. unfold instant in E.
  assert (days_before_year (dt_year a) + dt_yday a = days_before_year (dt_year b) + dt_yday b /\ dt_hour a = dt_hour b /\ dt_min a = dt_min b /\ dt_sec a = dt_sec b /\ dt_us a = dt_us b) as (E1 & E2 & E3 & E4 & E5) by lia.
  rewrite E1, Z.compare_refl in D. symmetry in D.
  assert (dt_year a = dt_year b /\ dt_yday a = dt_yday b); [|tauto].
  destruct (Z.compare_spec (dt_year a) (dt_year b)) as [K|K|K]; try discriminate D; rewrite ?K in *; try (split; [auto|]; lia).
Qed.
Lemma timestamp_isoformat : forall d, valid_from 1 d -> 1678 <= dt_year d <= 2261 -> timestamp (isoformat d ++ lit "Z") = Ok d.
Proof.
  intros d V Y. destruct (civil_of d V) as [CV CD]. set (c := mkCivil _ _ _ _ _ _) in CV.
  rewrite isoformat_iso. fold c. set (tail := (if dt_us d =? 0 then [] else lit "." ++ pad 6 (dt_us d)) ++ lit "Z").
  assert (E : timestamp ((iso c ++ (if dt_us d =? 0 then [] else lit "." ++ pad 6 (dt_us d))) ++ lit "Z") = timestamp (iso c ++ tail)) by (unfold tail; rewrite app_assoc; reflexivity).
  rewrite E. clear E. unfold timestamp. destruct (strptime_iso_spec c tail CV) as (d' & -> & V' & I & U). cbn [bind].
  assert (F : dt_year d' = dt_year d /\ dt_yday d' = dt_yday d /\ dt_hour d' = dt_hour d /\ dt_min d' = dt_min d /\ dt_sec d' = dt_sec d).
  { destruct (to_second_valid d V) as [V2 _]. destruct (instant_fields d' (to_second d) V' V2) as (A1 & A2 & A3 & A4 & A5 & _); [|auto].
    rewrite I. unfold civil_instant, instant, to_second, c. cbn [c_year c_month c_day c_hour c_min c_sec dt_year dt_yday dt_hour dt_min dt_sec dt_us]. rewrite CD. lia. }
  destruct F as (-> & -> & -> & -> & ->).
  replace (skipn 19 (iso c ++ tail)) with tail.
  2:{ rewrite <- (iso_length c), skipn_app, skipn_all, Nat.sub_diag. reflexivity. }
  assert (R : match tail with
        | [c0] => if Ascii.eqb c0 "Z" then Ok 0 else Err ValueError
        | c0 :: r => if negb (Ascii.eqb c0 ".") then Err ValueError else
                    match match_alt [d09; d09; d09; d09; d09; d09] 0 r with
                    | Some (v, [z]) => if Ascii.eqb z "Z" then Ok v else Err ValueError
                    | _ => Err ValueError
                    end
        | [] => Err ValueError
        end = Ok (dt_us d)).
  { unfold tail. destruct (Z.eqb_spec (dt_us d) 0) as [E|E]; [rewrite E; reflexivity|].
    assert (M := match_digits 6 0 (dt_us d) (lit "Z") ltac:(destruct V; cbn; lia)). cbn [repeat] in M.
    rewrite <- app_assoc. change (lit "." ++ pad 6 (dt_us d) ++ lit "Z") with ("."%char :: (pad 6 (dt_us d) ++ lit "Z")).
    destruct (pad 6 (dt_us d) ++ lit "Z") as [|p0 pr] eqn:EP; [destruct (pad 6 (dt_us d)); discriminate EP|]. cbn [Ascii.eqb Bool.eqb negb]. rewrite M. reflexivity. }
  rewrite R. cbn [bind]. replace (dt_year d <? 1678) with false by (symmetry; apply Z.ltb_ge; lia). replace (2261 <? dt_year d) with false by (symmetry; apply Z.ltb_ge; lia).
  cbn [orb]. destruct d; reflexivity.
Qed.
Lemma isoformat_inj : forall a b, valid_from 1 a -> valid_from 1 b -> 1678 <= dt_year a <= 2261 -> 1678 <= dt_year b <= 2261 -> isoformat a = isoformat b -> a = b.
Proof.
  intros a b Va Vb Ya Yb E. pose proof (timestamp_isoformat a Va Ya) as A. rewrite E, timestamp_isoformat in A by auto. congruence.
Qed.

(** * Coordinates *)
Open Scope Q_scope.
Lemma int16_id : forall z, (-32768 <= z <= 32767)%Z -> int16 z = z.
Proof. intros z H. unfold int16. rewrite Z.mod_small; lia. Qed.
From Verif Require Import ImageryProofs OutputSpec.
Lemma int_bounds : forall a b : Z, inject_Z a <= inject_Z b -> (a <= b)%Z.
Proof. intros a b H. rewrite Zle_Qle. exact H. Qed.
Lemma int_lt : forall a b : Z, inject_Z a < inject_Z b -> (a < b)%Z.
Proof. intros a b H. rewrite Zlt_Qlt. exact H. Qed.
Lemma round_in : forall q lo hi, inject_Z lo - (1 # 2) < q -> q < inject_Z hi + (1 # 2) -> (lo <= round_even q <= hi)%Z.
Proof.
  intros q lo hi A B. destruct (round_near q) as [U L].
  assert (inject_Z lo - 1 < inject_Z (round_even q)) by lra. assert (inject_Z (round_even q) < inject_Z hi + 1) by lra.
  assert (inject_Z (lo - 1) < inject_Z (round_even q)) by (unfold Z.sub; rewrite inject_Z_plus; change (inject_Z (- (1))) with (-1); lra).
  assert (inject_Z (round_even q) < inject_Z (hi + 1)) by (rewrite inject_Z_plus; change (inject_Z 1) with 1; lra).
  apply int_lt in H1. apply int_lt in H2. lia.
Qed.
(** No collision one step apart, unless both are half way. *)
Lemma round_apart : forall q q', q + 1 <= q' -> ~ (exists k : Z, q == inject_Z k + (1 # 2)) -> (round_even q < round_even q')%Z.
Proof.
  intros q q' H N. destruct (round_near q) as [U L]. destruct (round_near q') as [U' L'].
  apply int_lt. assert (E : ~ inject_Z (round_even q) == q + (1 # 2)).
  { intros E. apply N. exists (round_even q - 1)%Z. unfold Z.sub. rewrite inject_Z_plus. change (inject_Z (- (1))) with (-1). lra. }
  destruct (Qlt_le_dec (inject_Z (round_even q)) (q + (1 # 2))) as [K|K]; [lra|]. exfalso. apply E. lra.
Qed.
Lemma four_in_three : forall a b c d : Z, (a <= b <= c)%Z -> (c <= d <= a + 2)%Z -> a = b \/ b = c \/ c = d.
Proof. intros. lia. Qed.
Lemma x_enc_q : forall v, (v - snd x_enc) / fst x_enc == (v + (151844 # 1000000)) / step56.
Proof. intros v. unfold x_enc, step56. cbn [fst snd]. field. Qed.
Lemma y_enc_q : forall v, (v - snd y_enc) / fst y_enc == ((151844 # 1000000) - v) / step56.
Proof. intros v. unfold y_enc, step56. cbn [fst snd]. field. Qed.
Lemma over_step : forall a, a / step56 * step56 == a.
Proof. intros a. unfold step56. field. Qed.
Lemma step_mono : forall a b, a <= b -> a / step56 <= b / step56.
Proof. intros a b H. apply Qmult_le_compat_r; auto. discriminate. Qed.
Lemma code_x : forall v, -(2 # 10) <= v <= 2 # 10 ->
  pack_coord x_enc v = round_even ((v + (151844 # 1000000)) / step56) /\ (-900 <= pack_coord x_enc v <= 6500)%Z.
Proof.
  intros v H. unfold pack_coord. rewrite (round_compat _ _ (x_enc_q v)).
  assert (B : (-900 <= round_even ((v + (151844 # 1000000)) / step56) <= 6500)%Z).
  { apply round_in.
    - apply Qlt_le_trans with ((-(2 # 10) + (151844 # 1000000)) / step56); [reflexivity|]. apply step_mono. lra.
    - apply Qle_lt_trans with (((2 # 10) + (151844 # 1000000)) / step56); [apply step_mono; lra|reflexivity]. }
  rewrite int16_id by lia. auto.
Qed.
Lemma code_y : forall v, -(2 # 10) <= v <= 2 # 10 ->
  pack_coord y_enc v = round_even (((151844 # 1000000) - v) / step56) /\ (-900 <= pack_coord y_enc v <= 6500)%Z.
Proof.
  intros v H. unfold pack_coord. rewrite (round_compat _ _ (y_enc_q v)).
  assert (B : (-900 <= round_even (((151844 # 1000000) - v) / step56) <= 6500)%Z).
  { apply round_in.
    - apply Qlt_le_trans with (((151844 # 1000000) - (2 # 10)) / step56); [reflexivity|]. apply step_mono. lra.
    - apply Qle_lt_trans with (((151844 # 1000000) + (2 # 10)) / step56); [apply step_mono; lra|reflexivity]. }
  rewrite int16_id by lia. auto.
Qed.
Lemma unpack_some : forall enc code, (-900 <= code)%Z -> unpack_coord enc code = Some (inject_Z code * fst enc + snd enc).
Proof. intros enc code H. unfold unpack_coord. destruct (Z.eqb_spec code (-999)); [lia|reflexivity]. Qed.
Lemma near_step : forall q r, inject_Z r <= q + (1 # 2) -> q - (1 # 2) <= inject_Z r -> Qabs (inject_Z r * step56 - q * step56) <= step56 / 2.
Proof. intros q r A B. unfold step56. apply Qabs_Qle_condition. change ((56 # 1000000) / 2) with (56 # 2000000). lra. Qed.
Lemma x_near : forall v, -(2 # 10) <= v <= 2 # 10 -> exists u, unpack_coord x_enc (pack_coord x_enc v) = Some u /\ Qabs (u - v) <= step56 / 2 /\ u == inject_Z (pack_coord x_enc v) * step56 - (151844 # 1000000).
Proof.
  intros v H. destruct (code_x v H) as [E B]. rewrite unpack_some by lia. eexists. split; [reflexivity|]. rewrite E. clear E B. unfold x_enc. cbn [fst snd].
  set (q := (v + (151844 # 1000000)) / step56). destruct (round_near q) as [U L]. pose proof (near_step q _ U L) as K.
  assert (Q : q * step56 == v + (151844 # 1000000)) by apply over_step. rewrite Q in K. split; [|unfold step56; lra].
  assert (EQ : inject_Z (round_even q) * (56 # 1000000) + (-151844 # 1000000) - v == inject_Z (round_even q) * step56 - (v + (151844 # 1000000))) by (unfold step56; lra).
  rewrite EQ. exact K.
Qed.
Lemma y_near : forall v, -(2 # 10) <= v <= 2 # 10 -> exists u, unpack_coord y_enc (pack_coord y_enc v) = Some u /\ Qabs (u - v) <= step56 / 2 /\ u == (151844 # 1000000) - inject_Z (pack_coord y_enc v) * step56.
Proof.
  intros v H. destruct (code_y v H) as [E B]. rewrite unpack_some by lia. eexists. split; [reflexivity|]. rewrite E. clear E B. unfold y_enc. cbn [fst snd].
  set (q := ((151844 # 1000000) - v) / step56). destruct (round_near q) as [U L]. pose proof (near_step q _ U L) as K.
  assert (Q : q * step56 == (151844 # 1000000) - v) by apply over_step. rewrite Q in K. split; [|unfold step56; lra].
  assert (EQ : inject_Z (round_even q) * (-56 # 1000000) + (151844 # 1000000) - v == - (inject_Z (round_even q) * step56 - ((151844 # 1000000) - v))) by (unfold step56; lra).
  rewrite EQ, Qabs_opp. exact K.
Qed.
