(** C121: the colors of the energy spectra. *)
From Coq Require Import List ZArith QArith Bool String Ascii Lia Lqa.
From Verif Require Import Base BaseProofs LutProofs FileName FileNameSpec FileNameProofs FileNameProofs2 Output LassoGrid GridSetup GridSetupProofs Colors.
Import ListNotations.
Open Scope Z_scope.

(** * Specification *)
(** Microseconds since midnight. *)
Definition clock (d : datetime) : Z := instant d mod 86400000000.
(** Days since the start of year 1. *)
Definition day (d : datetime) : Z := instant d / 86400000000.

(** * Texts *)
Lemma dv_app : forall a acc b, digits_value acc (a ++ b) = match digits_value acc a with Some x => digits_value x b | None => None end.
Proof. induction a as [|c a IH]; intros acc b; [reflexivity|]. cbn [app digits_value]. destruct (digit_val c); [apply IH|reflexivity]. Qed.
Lemma dv_pad : forall k n acc, 0 <= n < 10 ^ Z.of_nat k -> digits_value acc (pad k n) = Some (acc * 10 ^ Z.of_nat k + n).
Proof.
  induction k as [|k IH]; intros n acc H; [change (10 ^ Z.of_nat 0) with 1 in *; cbn; f_equal; lia|]. cbn [pad]. rewrite dv_app.
  rewrite Nat2Z.inj_succ, Z.pow_succ_r in * by lia. pose proof (Z.mod_pos_bound n 10 ltac:(lia)). pose proof (Z.div_mod n 10 ltac:(lia)).
  rewrite IH by (split; [apply Z.div_pos; lia|apply Z.div_lt_upper_bound; lia]). cbn [digits_value]. rewrite digit_val_digit by lia. f_equal. lia.
Qed.
Lemma colons_pad : forall k n, without_colons (pad k n) = pad k n.
Proof.
  intros k n. pose proof (pad_digits k n) as D. unfold without_colons. induction D as [|c r (i & I & ->) D IH]; [reflexivity|]. cbn [filter]. rewrite IH.
  assert (K : i = 0 \/ i = 1 \/ i = 2 \/ i = 3 \/ i = 4 \/ i = 5 \/ i = 6 \/ i = 7 \/ i = 8 \/ i = 9) by lia. repeat destruct K as [->|K]; try reflexivity. subst. reflexivity.
Qed.
Lemma colons_app : forall a b, without_colons (a ++ b) = without_colons a ++ without_colons b.
Proof. intros a b. unfold without_colons. induction a as [|c a IH]; [reflexivity|]. cbn [app filter]. rewrite IH. destruct (negb _); reflexivity. Qed.
Lemma split_digits : forall a b, digits a -> split_point (a ++ b) = (a ++ fst (split_point b), snd (split_point b)).
Proof.
  intros a b D. induction D as [|c r (i & I & ->) D IH]; [cbn [app]; destruct (split_point b); reflexivity|]. cbn [app split_point]. rewrite IH.
  replace (Ascii.eqb (digit i) ".") with false; [reflexivity|].
  assert (K : i = 0 \/ i = 1 \/ i = 2 \/ i = 3 \/ i = 4 \/ i = 5 \/ i = 6 \/ i = 7 \/ i = 8 \/ i = 9) by lia. repeat destruct K as [->|K]; try reflexivity. subst. reflexivity.
Qed.
Lemma skip_date : forall d, skipn 11 (date_text d) = pad 2 (dt_hour d) ++ lit ":" ++ pad 2 (dt_min d) ++ lit ":" ++ pad 2 (dt_sec d) ++ (if dt_us d =? 0 then [] else lit "." ++ pad 6 (dt_us d)).
Proof.
  intros d. unfold date_text. set (r := pad 2 (dt_hour d) ++ _). rewrite !app_assoc. rewrite skipn_app.
  rewrite skipn_all2 by (rewrite !app_length, !pad_length; cbn; lia). rewrite !app_length, !pad_length. reflexivity.
Qed.
Lemma clock_text_eq : forall d, clock_text d = (pad 2 (dt_hour d) ++ pad 2 (dt_min d) ++ pad 2 (dt_sec d)) ++ (if dt_us d =? 0 then [] else lit "." ++ pad 6 (dt_us d)).
Proof.
  intros d. unfold clock_text. rewrite skip_date, !colons_app, !colons_pad. change (without_colons (lit ":")) with (@nil ascii). cbn [app]. rewrite <- !app_assoc. do 3 f_equal.
  destruct (dt_us d =? 0); [reflexivity|]. rewrite colons_app, colons_pad. reflexivity.
Qed.
(** The number of an edge: the six digits of its clock with the fraction of the second. *)
Definition shown (d : datetime) : Q := (inject_Z (10000 * dt_hour d + 100 * dt_min d + dt_sec d) + inject_Z (dt_us d) / 1000000)%Q.
Theorem C121_number : forall d, valid_from 1 d -> exists q, float_of (clock_text d) = Ok q /\ (q == shown d)%Q.
Proof.
  intros d [_ _ _ H M S U]. rewrite clock_text_eq. set (b := if dt_us d =? 0 then [] else lit "." ++ pad 6 (dt_us d)).
  assert (SB : fst (split_point b) = [] /\ digits_value 0 (snd (split_point b)) = Some (dt_us d) /\ (inject_Z (dt_us d) / inject_Z (10 ^ Z.of_nat (List.length (snd (split_point b)))) == inject_Z (dt_us d) / 1000000)%Q).
  { unfold b. destruct (Z.eqb_spec (dt_us d) 0) as [E|E]; [rewrite E; repeat split|]. change (split_point (lit "." ++ pad 6 (dt_us d))) with (@nil ascii, pad 6 (dt_us d)). cbn [fst snd].
    split; [reflexivity|]. split; [rewrite dv_pad by (change (10 ^ Z.of_nat 6) with 1000000; lia); f_equal; lia|]. rewrite pad_length. reflexivity. }
  destruct SB as (S1 & S2 & S3). unfold float_of. rewrite split_digits by (apply Forall_app; split; [|apply Forall_app; split]; apply pad_digits). rewrite S1, app_nil_r. cbv beta iota.
  assert (DV : digits_value 0 (pad 2 (dt_hour d) ++ pad 2 (dt_min d) ++ pad 2 (dt_sec d)) = Some (10000 * dt_hour d + 100 * dt_min d + dt_sec d)).
  { rewrite dv_app, dv_pad by (change (10 ^ Z.of_nat 2) with 100; lia). rewrite dv_app, dv_pad by (change (10 ^ Z.of_nat 2) with 100; lia). rewrite dv_pad by (change (10 ^ Z.of_nat 2) with 100; lia).
    change (10 ^ Z.of_nat 2) with 100. f_equal. lia. }
  destruct (pad 2 (dt_hour d) ++ _) as [|c r] eqn:E; [exfalso; apply (f_equal (@List.length ascii)) in E; rewrite !app_length, !pad_length in E; discriminate E|].
  rewrite DV, S2. eexists. split; [reflexivity|]. rewrite S3. reflexivity.
Qed.
Print Assumptions C121_number.

Lemma parts : forall d, valid_from 1 d -> clock d = ((dt_hour d * 60 + dt_min d) * 60 + dt_sec d) * 1000000 + dt_us d /\ day d = days_before_year (dt_year d) + dt_yday d - 1.
Proof.
  intros d [_ _ _ H M S U]. unfold clock, day. set (D := days_before_year (dt_year d) + dt_yday d - 1). set (c := ((dt_hour d * 60 + dt_min d) * 60 + dt_sec d) * 1000000 + dt_us d).
  assert (E : instant d = D * 86400000000 + c) by (unfold instant; fold D; unfold c; lia). assert (C : 0 <= c < 86400000000) by (unfold c; lia).
  split; [symmetry; apply (Z.mod_unique _ _ D); lia|symmetry; apply (Z.div_unique _ _ _ c); lia].
Qed.
Lemma shown_micro : forall d, (shown d == (inject_Z ((10000 * dt_hour d + 100 * dt_min d + dt_sec d) * 1000000 + dt_us d)) / 1000000)%Q.
Proof. intros d. unfold shown. generalize (10000 * dt_hour d + 100 * dt_min d + dt_sec d). intros n. rewrite inject_Z_plus, (inject_Z_mult _ 1000000). change (inject_Z 1000000) with 1000000%Q. field. Qed.
Lemma shown_lt : forall a b, valid_from 1 a -> valid_from 1 b -> ((shown a < shown b)%Q <-> clock a < clock b).
Proof.
  intros a b Va Vb. rewrite !shown_micro. destruct (parts a Va) as [-> _], (parts b Vb) as [-> _]. destruct Va as [_ _ _ H M S U], Vb as [_ _ _ H' M' S' U'].
  set (x := _ * 1000000 + dt_us a). set (y := (10000 * dt_hour b + _ + _) * 1000000 + _).
  assert (E : (inject_Z x / 1000000 < inject_Z y / 1000000)%Q <-> x < y).
  { rewrite (Zlt_Qlt x y). unfold Qdiv. split; intros L; [apply Qmult_lt_r in L; [exact L|reflexivity]|apply Qmult_lt_r; [reflexivity|exact L]]. }
  rewrite E. unfold x, y. lia.
Qed.

Lemma array_shown : forall ts vs, Forall (valid_from 1) ts -> time_array ts = Ok vs -> Forall2 (fun t v => (v == shown t)%Q) ts vs.
Proof.
  induction ts as [|t ts IH]; intros vs V H; unfold time_array in *; cbn [map_res] in H; [inversion H; constructor|]. inversion V as [|? ? Vt Vr]; subst. destruct (C121_number t Vt) as (q & E & EQ). rewrite E in H. cbn [bind] in H.
  apply bind_ok_inv in H. destruct H as (bs & Hb & H). inversion H; subst. constructor; [exact EQ|]. apply IH; auto.
Qed.
Lemma array_ok : forall ts, Forall (valid_from 1) ts -> exists vs, time_array ts = Ok vs.
Proof.
  induction ts as [|t ts IH]; intros V; [exists []; reflexivity|]. inversion V as [|? ? Vt Vr]; subst. destruct (C121_number t Vt) as (q & E & _). destruct (IH Vr) as (vs & EV).
  exists (q :: vs). unfold time_array in *. cbn [map_res]. rewrite E. cbn [bind]. rewrite EV. reflexivity.
Qed.
Lemma f2_both : forall A B (R : A -> B -> Prop) l m, Forall2 R l m -> List.length l = List.length m /\ forall i a, nth_error l i = Some a -> exists b, nth_error m i = Some b /\ R a b.
Proof.
  intros A B R l m F. induction F as [|a b l m Rab F [L H]]; [split; [reflexivity|intros [|i] a E; discriminate E]|]. split; [cbn; lia|]. intros [|i] x E; [inversion E; subst; exists b; auto|apply (H i x E)].
Qed.

(** There is a color for every edge. *)
Theorem C121_succeeds : forall ts, Forall (valid_from 1) ts -> ts <> [] -> exists cs, colors ts = Ok cs /\ List.length cs = List.length ts.
Proof.
  intros ts V NE. destruct (array_ok ts V) as (vs & E). pose proof (array_shown ts vs V E) as F. destruct (f2_both _ _ _ _ _ F) as [L _]. unfold colors. rewrite E. cbn [bind].
  destruct vs as [|v vs]; [destruct ts; [congruence|discriminate L]|]. unfold qmin_list, qmax_list. cbn [bind]. eexists. split; [reflexivity|]. rewrite map_length. auto.
Qed.
Print Assumptions C121_succeeds.

(** The colors follow the clock: they are numbers from 0 to 1, and one edge is before
    another on the scale if and only if it is on the clock. *)
Theorem C121_clock : forall ts cs, Forall (valid_from 1) ts -> colors ts = Ok cs ->
  forall i j a b, nth_error ts i = Some a -> nth_error ts j = Some b ->
  exists ca cb, nth_error cs i = Some ca /\ nth_error cs j = Some cb /\ (0 <= ca <= 1)%Q /\ ((ca < cb)%Q <-> clock a < clock b).
Proof.
  intros ts cs V H i j a b Ha Hb. unfold colors in H. apply bind_ok_inv in H. destruct H as (vs & EV & H). apply bind_ok_inv in H. destruct H as (lo & EL & H). apply bind_ok_inv in H. destruct H as (hi & EH & H). inversion H; subst cs. clear H.
  destruct (f2_both _ _ _ _ _ (array_shown ts vs V EV)) as [_ N]. destruct (N i a Ha) as (va & Hva & Eva). destruct (N j b Hb) as (vb & Hvb & Evb).
  destruct (qmin_spec _ _ EL) as [_ ML]. destruct (qmax_spec _ _ EH) as [_ MH]. pose proof (ML va (nth_error_In _ _ Hva)). pose proof (ML vb (nth_error_In _ _ Hvb)). pose proof (MH va (nth_error_In _ _ Hva)). pose proof (MH vb (nth_error_In _ _ Hvb)).
  exists (normalized lo hi va), (normalized lo hi vb). rewrite !nth_error_map, Hva, Hvb. split; [reflexivity|]. split; [reflexivity|].
  rewrite Forall_forall in V. pose proof (shown_lt a b (V a (nth_error_In _ _ Ha)) (V b (nth_error_In _ _ Hb))) as C. rewrite <- Eva, <- Evb in C. clear Eva Evb. unfold normalized.
  destruct (Qeq_bool lo hi) eqn:E; [apply Qeq_bool_iff in E; split; [split; [apply Qle_refl|discriminate]|]; rewrite <- C; split; intros L; lra|].
  assert (LT : (lo < hi)%Q). { apply Qeq_bool_neq in E. destruct (Qlt_le_dec lo hi) as [L|L]; [exact L|]. exfalso. apply E. lra. }
  assert (P : (0 < / (hi - lo))%Q) by (apply Qinv_lt_0_compat; lra). unfold Qdiv. split; [split|].
  - apply Qmult_le_0_compat; lra.
  - apply Qle_shift_div_r; lra.
  - rewrite <- C. rewrite Qmult_lt_r by exact P. split; intros; lra.
Qed.
Print Assumptions C121_clock.

(** Edges of one day: later edges are later on the scale. *)
Theorem C121_same_day_partial : forall ts cs, Forall (valid_from 1) ts -> colors ts = Ok cs ->
  forall i j a b, nth_error ts i = Some a -> nth_error ts j = Some b -> day a = day b ->
  exists ca cb, nth_error cs i = Some ca /\ nth_error cs j = Some cb /\ ((ca < cb)%Q <-> instant a < instant b).
Proof.
  intros ts cs V H i j a b Ha Hb D. destruct (C121_clock ts cs V H i j a b Ha Hb) as (ca & cb & E1 & E2 & _ & C). exists ca, cb. split; [exact E1|]. split; [exact E2|]. rewrite C.
  unfold clock, day in *. pose proof (Z.div_mod (instant a) 86400000000 ltac:(lia)). pose proof (Z.div_mod (instant b) 86400000000 ltac:(lia)). lia.
Qed.
Print Assumptions C121_same_day_partial.
(** Across midnight, whatever the series: an edge of a later day that is earlier on the clock
    has a color before that of the earlier edge. *)
Theorem C121_midnight_refuted : forall ts cs, Forall (valid_from 1) ts -> colors ts = Ok cs ->
  forall i j a b, nth_error ts i = Some a -> nth_error ts j = Some b -> day a < day b -> clock b < clock a ->
  instant a < instant b /\ exists ca cb, nth_error cs i = Some ca /\ nth_error cs j = Some cb /\ (cb < ca)%Q.
Proof.
  intros ts cs V H i j a b Ha Hb D K. split.
  - unfold day, clock in *. pose proof (Z.div_mod (instant a) 86400000000 ltac:(lia)). pose proof (Z.div_mod (instant b) 86400000000 ltac:(lia)).
    pose proof (Z.mod_pos_bound (instant a) 86400000000 ltac:(lia)). pose proof (Z.mod_pos_bound (instant b) 86400000000 ltac:(lia)). lia.
  - destruct (C121_clock ts cs V H j i b a Hb Ha) as (cb & ca & E1 & E2 & _ & C). exists ca, cb. split; [exact E2|]. split; [exact E1|]. apply C. exact K.
Qed.
Print Assumptions C121_midnight_refuted.
(** Nor is the scale proportional to time: one minute before and one after a full hour. *)
Theorem C121_proportional_refuted : ~ forall ts cs a b c ca cb cc, Forall (valid_from 1) ts -> colors ts = Ok cs -> ts = [a; b; c] -> cs = [ca; cb; cc] ->
  day a = day c -> instant b - instant a = instant c - instant b -> (cb - ca == cc - cb)%Q.
Proof.
  intros H. set (t := fun h m => mkDT 2018 183 h m 0 0). assert (V : Forall (valid_from 1) [t 4 58; t 4 59; t 5 0]) by (repeat constructor; cbn; try lia; intros; discriminate).
  destruct (C121_succeeds [t 4 58; t 4 59; t 5 0] V ltac:(discriminate)) as (cs & E & L). destruct cs as [|ca [|cb [|cc [|x r]]]]; try discriminate L.
  specialize (H _ _ _ _ _ _ _ _ V E eq_refl eq_refl ltac:(vm_compute; reflexivity) ltac:(vm_compute; reflexivity)). vm_compute in E. inversion E; subst. vm_compute in H. discriminate H.
Qed.
Print Assumptions C121_proportional_refuted.

(** Edges at 23:58, 23:59:30.5 and 00:01 of the next day. *)
Definition night : list datetime := [mkDT 2018 183 23 58 0 0; mkDT 2018 183 23 59 30 500000; mkDT 2018 184 0 1 0 0].
Example C121_ex : Forall (valid_from 1) night /\ clock_text (mkDT 2018 183 23 59 30 500000) = lit "235930.500000" /\
  match colors night with Ok cs => map (fun c => Qle_bool c (9999 # 10000)) cs = [true; false; true] /\ map (fun c => Qle_bool c 0) cs = [false; false; true] | Err _ => False end /\
  match night with [a; b; c] => day a < day c /\ clock c < clock a /\ day a = day b | _ => False end.
Proof. split; [repeat constructor; cbn; try lia; intros; discriminate|]. split; [reflexivity|]. split; [|vm_compute; auto]. vm_compute. auto. Qed.
