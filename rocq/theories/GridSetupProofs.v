(** Lemmas about the driver. *)
From Coq Require Import List ZArith QArith Qround Qabs Bool Ascii String Lia Lqa.
From Verif Require Import Base BaseProofs Glm Lut FileName FileNameSpec FileNameProofs FileNameProofs2 Tiles TilesSpec TilesProofs GridSetup GridSetupSpec.
Import ListNotations.
Open Scope Z_scope.

(** * Order and addition of times *)
Lemma dt_lt_instant : forall a b, valid_from 1 a -> valid_from 1 b -> dt_lt a b = (instant a <? instant b).
Proof.
  intros a b V1 V2. pose proof (day_compare a b V1 V2) as DC.
  assert (E : instant a ?= instant b = match dt_year a ?= dt_year b with Eq => match dt_yday a ?= dt_yday b with Eq =>
     match dt_hour a ?= dt_hour b with Eq => match dt_min a ?= dt_min b with Eq => match dt_sec a ?= dt_sec b with Eq => dt_us a ?= dt_us b
     | c => c end | c => c end | c => c end | c => c end | c => c end).
  { unfold instant. destruct V1, V2. rewrite compare_scale by lia. rewrite compare_scale by lia. rewrite compare_scale by lia.
    rewrite compare_scale by lia. rewrite DC. repeat match goal with |- context [?x ?= ?y] => destruct (x ?= y); auto end. }
  unfold Z.ltb. rewrite E. unfold dt_lt, dt_fields. cbn [lex_lt]. unfold Z.ltb.
  rewrite (Z.compare_antisym (dt_year a)), (Z.compare_antisym (dt_yday a)), (Z.compare_antisym (dt_hour a)), (Z.compare_antisym (dt_min a)), (Z.compare_antisym (dt_sec a)), (Z.compare_antisym (dt_us a)).
  destruct (dt_year a ?= dt_year b); cbn; auto. destruct (dt_yday a ?= dt_yday b); cbn; auto.
  destruct (dt_hour a ?= dt_hour b); cbn; auto. destruct (dt_min a ?= dt_min b); cbn; auto.
  destruct (dt_sec a ?= dt_sec b); cbn; auto. destruct (dt_us a ?= dt_us b); cbn; auto.
Qed.

Lemma dt_min_spec : forall l m, (forall d, In d l -> valid_from 1 d) -> dt_min_list l = Ok m ->
  In m l /\ forall d, In d l -> instant m <= instant d.
Proof.
  intros [|a r] m V H; [discriminate|]. inversion H as [H']. clear H. subst m. revert a V.
  induction r as [|b r IH]; intros a V; cbn [fold_left]; [split; [left; auto|]; intros d [->|[]]; lia|].
  destruct (dt_lt b a) eqn:L; rewrite dt_lt_instant in L by (apply V; simpl; auto).
  - apply Z.ltb_lt in L. destruct (IH b ltac:(intros d Hd; apply V; right; exact Hd)) as [A B]. split; [right; exact A|].
    intros d [->|Hd]; [pose proof (B b ltac:(left; auto)); lia|auto].
  - apply Z.ltb_ge in L. destruct (IH a ltac:(intros d [->|Hd]; apply V; simpl; auto)) as [A B]. split; [destruct A; simpl; auto|].
    intros d [->|[->|Hd]]; [apply B; left; auto| |apply B; right; auto]. pose proof (B a ltac:(left; auto)). lia.
Qed.
Lemma dt_max_spec : forall l m, (forall d, In d l -> valid_from 1 d) -> dt_max_list l = Ok m ->
  In m l /\ forall d, In d l -> instant d <= instant m.
Proof.
  intros [|a r] m V H; [discriminate|]. inversion H as [H']. clear H. subst m. revert a V.
  induction r as [|b r IH]; intros a V; cbn [fold_left]; [split; [left; auto|]; intros d [->|[]]; lia|].
  destruct (dt_lt a b) eqn:L; rewrite dt_lt_instant in L by (apply V; simpl; auto).
  - apply Z.ltb_lt in L. destruct (IH b ltac:(intros d Hd; apply V; right; exact Hd)) as [A B]. split; [right; exact A|].
    intros d [->|Hd]; [pose proof (B b ltac:(left; auto)); lia|auto].
  - apply Z.ltb_ge in L. destruct (IH a ltac:(intros d [->|Hd]; apply V; simpl; auto)) as [A B]. split; [destruct A; simpl; auto|].
    intros d [->|[->|Hd]]; [apply B; left; auto| |apply B; right; auto]. pose proof (B a ltac:(left; auto)). lia.
Qed.

Lemma add20_spec : forall d, valid_from 1 d -> dt_year d < 9999 ->
  exists d', add20 d = Ok d' /\ valid_from 1 d' /\ instant d' = instant d + seconds 20.
Proof.
  intros d V Y. pose proof (yday_bound _ _ V) as YB. destruct V as [v1 v2 v3 v4 v5 v6 v7]. unfold add20.
  set (s := dt_sec d + 20). set (mi := dt_min d + s / 60). set (h := dt_hour d + mi / 60). set (j := dt_yday d + h / 24).
  assert (S0 : 0 <= s / 60 <= 1) by (subst s; split; [apply Z.div_pos; lia|]; enough ((dt_sec d + 20) / 60 < 2) by lia; apply Z.div_lt_upper_bound; lia).
  assert (M0 : 0 <= mi / 60 <= 1) by (subst mi; split; [apply Z.div_pos; lia|]; enough ((dt_min d + s / 60) / 60 < 2) by lia; apply Z.div_lt_upper_bound; lia).
  assert (H0 : 0 <= h / 24 <= 1) by (subst h; split; [apply Z.div_pos; lia|]; enough ((dt_hour d + mi / 60) / 24 < 2) by lia; apply Z.div_lt_upper_bound; lia).
  pose proof (Z.div_mod s 60 ltac:(lia)). pose proof (Z.mod_pos_bound s 60 ltac:(lia)).
  pose proof (Z.div_mod mi 60 ltac:(lia)). pose proof (Z.mod_pos_bound mi 60 ltac:(lia)).
  pose proof (Z.div_mod h 24 ltac:(lia)). pose proof (Z.mod_pos_bound h 24 ltac:(lia)).
  destruct (days_in_year (dt_year d) <? j) eqn:E.
  - apply Z.ltb_lt in E. replace (9999 <? dt_year d + 1) with false by (symmetry; apply Z.ltb_ge; lia).
    assert (J : j - days_in_year (dt_year d) = 1) by (subst j; lia).
    eexists. split; [reflexivity|]. split; [constructor; cbn; lia|].
    unfold instant, seconds. cbn [dt_year dt_yday dt_hour dt_min dt_sec dt_us]. rewrite days_step. subst j. lia.
  - apply Z.ltb_ge in E. replace (9999 <? dt_year d) with false by (symmetry; apply Z.ltb_ge; lia).
    eexists. split; [reflexivity|]. split.
    + assert (j <= 366) by (unfold days_in_year in E; destruct (leap (dt_year d)); lia).
      constructor; cbn; try lia. intros K. unfold days_in_year in E. destruct (leap (dt_year d)) eqn:L; [apply leap_iff; auto|lia].
    + unfold instant, seconds. cbn [dt_year dt_yday dt_hour dt_min dt_sec dt_us]. subst j. lia.
Qed.

(** * Times of the command line *)
Definition first_cls (alts : list (list cls)) (s : pystr) : option (Z * pystr) := first_some (fun a => match_cls a 0 s) alts.
Lemma iso_match_first : forall alts re s v r vs r', first_cls alts s = Some (v, r) ->
  iso_match re r = Some (vs, r') -> iso_match (alts :: re) s = Some (v :: vs, r').
Proof.
  intros alts re s v r vs r'. unfold first_cls. cbn [iso_match].
  induction alts as [|a alts IH]; intros H H2; [discriminate|]. cbn [first_some] in *.
  destruct (match_cls a 0 s) as [[v0 r0]|].
  - inversion H; subst. rewrite H2. reflexivity.
  - apply IH; auto.
Qed.
Lemma match_dig : forall a acc s, match_cls (map (fun p => Dig (fst p) (snd p)) a) acc s = match_alt a acc s.
Proof. induction a as [|[lo hi] a IH]; intros acc s; [reflexivity|]. cbn. destruct s; [reflexivity|]. destruct (digit_val a0); [|reflexivity]. destruct ((lo <=? z) && (z <=? hi))%bool; auto. Qed.
Lemma first_iso_Y : forall n rest, 0 <= n < 10000 -> first_cls iso_Y (pad 4 n ++ rest) = Some (n, rest).
Proof.
  intros n rest H. unfold first_cls, iso_Y. cbn [first_some].
  change [D09; D09; D09; D09] with (map (fun p => Dig (fst p) (snd p)) (repeat d09 4)). rewrite match_dig, (match_digits 4 0 n rest) by (simpl; lia). reflexivity.
Qed.
Ltac two_digits re lo n := 
  match goal with |- first_cls _ (pad 2 ?k ++ ?rest) = _ =>
    apply (map_eq_in _ _ (fun k => first_cls re (pad 2 k ++ rest)) (fun k => Some (k, rest)) (zrange lo n)); [vm_compute; reflexivity|apply zrange_in; lia] end.
Lemma first_iso_m : forall n rest, 1 <= n <= 12 -> first_cls iso_m (pad 2 n ++ rest) = Some (n, rest).
Proof. intros n rest H. two_digits iso_m 1 12%nat. Qed.
Lemma first_iso_d : forall n rest, 1 <= n <= 31 -> first_cls iso_d (pad 2 n ++ rest) = Some (n, rest).
Proof. intros n rest H. two_digits iso_d 1 31%nat. Qed.
Lemma first_iso_H : forall n rest, 0 <= n < 24 -> first_cls iso_H (pad 2 n ++ rest) = Some (n, rest).
Proof. intros n rest H. two_digits iso_H 0 24%nat. Qed.
Lemma first_iso_M : forall n rest, 0 <= n < 60 -> first_cls iso_M (pad 2 n ++ rest) = Some (n, rest).
Proof. intros n rest H. two_digits iso_M 0 60%nat. Qed.
Lemma first_iso_S : forall n rest, 0 <= n < 60 -> first_cls iso_S (pad 2 n ++ rest) = Some (n, rest).
Proof. intros n rest H. two_digits iso_S 0 60%nat. Qed.
Lemma first_iso_c : forall c rest, first_cls (iso_c c) (c :: rest) = Some (0, rest).
Proof. intros c rest. unfold first_cls, iso_c. cbn. rewrite Ascii.eqb_refl. reflexivity. Qed.

Lemma twelve : forall m, 1 <= m <= 12 -> m = 1 \/ m = 2 \/ m = 3 \/ m = 4 \/ m = 5 \/ m = 6 \/ m = 7 \/ m = 8 \/ m = 9 \/ m = 10 \/ m = 11 \/ m = 12.
Proof. lia. Qed.
Lemma month_len : forall y m, 1 <= m <= 12 -> nth (Z.to_nat (m - 1)) (month_days y) 0 = month_length y m.
Proof.
  intros y m H. apply twelve in H. unfold month_days, month_length, days_in_year.
  repeat (destruct H as [->|H]; [destruct (leap y); reflexivity|]). subst. destruct (leap y); reflexivity.
Qed.
Ltac ev_nat := repeat match goal with
  | |- context [Z.to_nat ?e] => let v := eval vm_compute in (Z.to_nat e) in change (Z.to_nat e) with v end.
Lemma month_before : forall y m d, 1 <= m <= 12 -> days_before_month y m + d = day_of_year y m d.
Proof.
  intros y m d H. apply twelve in H. unfold days_before_month, day_of_year, month_days, month_length, days_in_year.
  repeat (destruct H as [->|H]; [ev_nat; destruct (leap y); cbn -[Z.add Z.sub]; lia|]). subst. ev_nat. destruct (leap y); cbn -[Z.add Z.sub]; lia.
Qed.
Lemma civil_yday : forall c, civil_valid c -> 1 <= day_of_year (c_year c) (c_month c) (c_day c) <= days_in_year (c_year c).
Proof.
  intros c (Y & M & D & _). destruct c as [y m d h mi s]. cbn [c_year c_month c_day] in *. apply twelve in M.
  unfold day_of_year. unfold month_length, days_in_year in *.
  repeat (destruct M as [->|M]; [ev_nat; destruct (leap y); cbn -[Z.add Z.sub] in *; lia|]). subst. ev_nat. destruct (leap y); cbn -[Z.add Z.sub] in *; lia.
Qed.

Lemma iso_length : forall c, List.length (iso c) = 19%nat.
Proof. intros c. unfold iso. rewrite !decimal_pad, !app_length. cbn [pad lit list_ascii_of_string]. rewrite !app_length. reflexivity. Qed.
Lemma strptime_iso_spec : forall c rest, civil_valid c ->
  exists d, strptime_iso (firstn 19 (iso c ++ rest)) = Ok d /\ valid_from 1 d /\ instant d = civil_instant c /\ dt_us d = 0.
Proof.
  intros c rest V. rewrite <- (iso_length c), firstn_app, firstn_all, Nat.sub_diag, firstn_O, app_nil_r.
  pose proof (civil_yday c V) as YD. destruct V as ([V1 V1'] & V2 & V3 & V4 & V5 & V6).
  assert (D31 : 1 <= c_day c <= 31).
  { unfold month_length, days_in_year in V3. destruct (c_month c =? 2); [destruct (leap (c_year c)); lia|]. destruct ((c_month c =? 4) || (c_month c =? 6) || (c_month c =? 9) || (c_month c =? 11))%bool; lia. }
  exists (mkDT (c_year c) (day_of_year (c_year c) (c_month c) (c_day c)) (c_hour c) (c_min c) (c_sec c) 0). split.
  - unfold strptime_iso, iso, iso_re. rewrite !decimal_pad. change (lit "-") with ["-"%char]. change (lit "T") with ["T"%char]. change (lit ":") with [":"%char]. cbn [app].
    rewrite (iso_match_first iso_Y _ _ _ _ _ _ (first_iso_Y (c_year c) _ ltac:(lia))
     (iso_match_first _ _ _ _ _ _ _ (first_iso_c "-" _)
     (iso_match_first iso_m _ _ _ _ _ _ (first_iso_m (c_month c) _ V2)
     (iso_match_first _ _ _ _ _ _ _ (first_iso_c "-" _)
     (iso_match_first iso_d _ _ _ _ _ _ (first_iso_d (c_day c) _ D31)
     (iso_match_first _ _ _ _ _ _ _ (first_iso_c "T" _)
     (iso_match_first iso_H _ _ _ _ _ _ (first_iso_H (c_hour c) _ V4)
     (iso_match_first _ _ _ _ _ _ _ (first_iso_c ":" _)
     (iso_match_first iso_M _ _ _ _ _ _ (first_iso_M (c_min c) _ V5)
     (iso_match_first _ _ _ _ _ _ _ (first_iso_c ":" _)
     (iso_match_first iso_S [] (pad 2 (c_sec c)) _ _ _ _
       (eq_trans (f_equal _ (eq_sym (app_nil_r _))) (first_iso_S (c_sec c) [] V6)) eq_refl))))))))))).
    unfold make_datetime. rewrite month_len, month_before by auto.
    replace (c_year c <? 1) with false by (symmetry; apply Z.ltb_ge; lia). replace (9999 <? c_year c) with false by (symmetry; apply Z.ltb_ge; lia). cbn [orb].
    replace (c_day c <=? month_length (c_year c) (c_month c)) with true by (symmetry; apply Z.leb_le; lia).
    replace (59 <? c_sec c) with false by (symmetry; apply Z.ltb_ge; lia). reflexivity.
  - split; [|split; [unfold instant, civil_instant; cbn; lia|reflexivity]].
    assert (J : day_of_year (c_year c) (c_month c) (c_day c) <= 366) by (unfold days_in_year in YD; destruct (leap (c_year c)); lia).
    constructor; cbn; try lia. intros K. unfold days_in_year in YD. destruct (leap (c_year c)) eqn:L; [apply leap_iff; auto|lia].
Qed.

(** * Names *)
Lemma basename_acc_plain : forall s acc, ~ In "/"%char s -> basename_acc acc s = rev acc ++ s.
Proof.
  induction s as [|c s IH]; intros acc H; cbn [basename_acc]; [rewrite app_nil_r; reflexivity|].
  rewrite aeqb_neq by (intros ->; apply H; left; auto). rewrite IH by (intros K; apply H; right; auto). cbn [rev]. rewrite <- app_assoc. reflexivity.
Qed.
Lemma basename_dir : forall d s acc, ~ In "/"%char s -> basename_acc acc (d ++ "/"%char :: s) = s.
Proof.
  induction d as [|c d IH]; intros s acc H; cbn [app basename_acc].
  - cbn. apply basename_acc_plain with (acc := []). exact H.
  - destruct (Ascii.eqb c "/"); apply IH; auto.
Qed.
Lemma stamp_no_slash : forall c d, (N_of_ascii c <> 47)%N -> ~ In "/"%char (time_stamp c d).
Proof.
  intros c d H K. unfold time_stamp in K. rewrite !decimal_pad in K. destruct K as [->|K]; [apply H; reflexivity|].
  rewrite !in_app_iff in K. repeat (destruct K as [K|K]; [revert K; apply digits_no; [apply pad_digits|left; reflexivity]|]).
  revert K. apply digits_no; [apply pad_digits|left; reflexivity].
Qed.
Lemma name_no_slash : forall env alg plat s e c, ~ In "/"%char env -> ~ In "/"%char alg -> ~ In "/"%char plat ->
  ~ In "/"%char (standard_name env alg plat s e c).
Proof.
  intros env alg plat s e c A B C K. unfold standard_name in K. change (lit "_") with ["_"%char] in K. rewrite !in_app_iff in K.
  pose proof (stamp_no_slash "s" s ltac:(discriminate)). pose proof (stamp_no_slash "e" e ltac:(discriminate)). pose proof (stamp_no_slash "c" c ltac:(discriminate)).
  cbn [In lit list_ascii_of_string] in K. intuition discriminate.
Qed.
Lemma parse_path : forall f, named_ok f ->
  parse_filename (basename (path_of f)) = Ok (n_env f, n_alg f, n_plat f, n_start f, n_end f, n_created f).
Proof.
  intros f ((A & A') & (B & B') & (C & C') & V1 & V2 & V3 & T1 & T2 & T3 & _). unfold basename, path_of.
  pose proof (name_no_slash (n_env f) (n_alg f) (n_plat f) (n_start f) (n_end f) (n_created f) A' B' C') as NS.
  destruct (n_dir f) as [d|]; [change (lit "/") with ["/"%char]; cbn [app]; rewrite basename_dir by auto|rewrite basename_acc_plain by auto; cbn [rev app]];
    rewrite (name_spec 1) by auto; apply parse_name; auto.
Qed.
Lemma map_res_map : forall A B C (f : B -> res C) (p : A -> B) (g : A -> C) l, (forall a, In a l -> f (p a) = Ok (g a)) -> map_res f (map p l) = Ok (map g l).
Proof. induction l as [|a l IH]; intros H; [reflexivity|]. cbn [map map_res]. rewrite H by (left; auto). cbn [bind]. rewrite IH by (intros; apply H; right; auto). reflexivity. Qed.
Lemma starts_of : forall fs, (forall f, In f fs -> named_ok f) -> filename_starts (map path_of fs) = Ok (Some (map n_start fs)).
Proof.
  intros fs H. unfold filename_starts. rewrite (map_res_map _ _ _ _ _ (fun f => (n_env f, n_alg f, n_plat f, n_start f, n_end f, n_created f))) by (intros; apply parse_path; auto).
  rewrite map_map. reflexivity.
Qed.

(** * Bounds *)
Open Scope Q_scope.
Lemma qmin_spec : forall l m, qmin_list l = Ok m -> In m l /\ forall x, In x l -> m <= x.
Proof.
  intros [|a r] m H; [discriminate|]. inversion H as [H']. clear H. subst m. revert a.
  induction r as [|b r IH]; intros a; cbn [fold_left]; [split; [left; auto|]; intros d [->|[]]; lra|].
  unfold Qlt_bool at 2 4. destruct (Qle_bool a b) eqn:L; cbn [negb].
  - apply Qle_bool_iff in L. destruct (IH a) as [A B]. split; [destruct A; simpl; auto|].
    intros d [->|[->|Hd]]; [apply B; left; auto| |apply B; right; auto]. pose proof (B a ltac:(left; auto)). lra.
  - assert (L' : b < a) by (apply Qnot_le_lt; intros K; apply Qle_bool_iff in K; congruence). destruct (IH b) as [A B]. split; [right; exact A|].
    intros d [->|Hd]; [pose proof (B b ltac:(left; auto)); lra|auto].
Qed.
Lemma qmax_spec : forall l m, qmax_list l = Ok m -> In m l /\ forall x, In x l -> x <= m.
Proof.
  intros [|a r] m H; [discriminate|]. inversion H as [H']. clear H. subst m. revert a.
  induction r as [|b r IH]; intros a; cbn [fold_left]; [split; [left; auto|]; intros d [->|[]]; lra|].
  unfold Qlt_bool at 2 4. destruct (Qle_bool b a) eqn:L; cbn [negb].
  - apply Qle_bool_iff in L. destruct (IH a) as [A B]. split; [destruct A; simpl; auto|].
    intros d [->|[->|Hd]]; [apply B; left; auto| |apply B; right; auto]. pose proof (B a ltac:(left; auto)). lra.
  - assert (L' : a < b) by (apply Qnot_le_lt; intros K; apply Qle_bool_iff in K; congruence). destruct (IH b) as [A B]. split; [right; exact A|].
    intros d [->|Hd]; [pose proof (B b ltac:(left; auto)); lra|auto].
Qed.
Lemma axis_bnd_spec : forall n d ctr, (0 <= n)%Z -> 0 < d -> exists lo hi, axis_bnd n d ctr = Ok (lo, hi) /\
  lo == ctr - inject_Z n / 2 * d /\ hi == ctr + inject_Z n / 2 * d.
Proof.
  intros n d ctr N D. unfold axis_bnd. set (e := axis_edges n d ctr).
  assert (IN : forall x, In x e <-> exists k, (k <= Z.to_nat n)%nat /\ (inject_Z (Z.of_nat k) - inject_Z (n + 1) / 2) * d + ctr + (1 # 2) * d = x).
  { intros x. subst e. unfold axis_edges. rewrite in_map_iff. split; intros (k & A & B).
    - exists k. apply in_seq in B. split; [lia|exact A].
    - exists k. split; [exact B|]. apply in_seq. lia. }
  assert (VAL : forall k, (inject_Z (Z.of_nat k) - inject_Z (n + 1) / 2) * d + ctr + (1 # 2) * d == ctr + (inject_Z (Z.of_nat k) - inject_Z n / 2) * d).
  { intros k. rewrite inject_Z_plus. change (inject_Z 1) with 1. field. }
  assert (NE : exists a r, e = a :: r).
  { subst e. unfold axis_edges. destruct (Z.to_nat (n + 1)) eqn:E; [lia|]. cbn [seq map]. eauto. }
  destruct (qmin_list e) as [lo|x] eqn:E1; [|destruct NE as (a & r & NE); rewrite NE in E1; discriminate].
  destruct (qmax_list e) as [hi|x] eqn:E2; [|destruct NE as (a & r & NE); rewrite NE in E2; discriminate].
  apply qmin_spec in E1. apply qmax_spec in E2. destruct E1 as [I1 B1]. destruct E2 as [I2 B2]. exists lo, hi. split; [reflexivity|].
  apply IN in I1. apply IN in I2. destruct I1 as (k1 & K1 & <-). destruct I2 as (k2 & K2 & <-).
  pose proof (B1 _ (proj2 (IN _) (ex_intro _ 0%nat (conj (Nat.le_0_l _) eq_refl)))) as M1.
  pose proof (B2 _ (proj2 (IN _) (ex_intro _ (Z.to_nat n) (conj (le_n _) eq_refl)))) as M2.
  rewrite !VAL in *. rewrite Z2Nat.id in M2 by exact N.
  assert (P1 : 0 <= inject_Z (Z.of_nat k1) * d) by (apply Qmult_le_0_compat; [change 0 with (inject_Z 0); rewrite <- Zle_Qle; lia|lra]).
  assert (P2 : inject_Z (Z.of_nat k2) * d <= inject_Z n * d) by (apply Qmult_le_compat_r; [rewrite <- Zle_Qle; lia|lra]).
  change (inject_Z (Z.of_nat 0)) with 0 in M1. assert (HF : inject_Z n / 2 == inject_Z n * (1 # 2)) by field. rewrite HF in *. set (u := inject_Z n) in *. clearbody u.
  set (v1 := inject_Z (Z.of_nat k1)) in *. set (v2 := inject_Z (Z.of_nat k2)) in *. clearbody v1 v2. split; nra.
Qed.
