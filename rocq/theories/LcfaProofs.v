(** Lemmas about the readers of the ASCII listing. *)
From Coq Require Import List ZArith QArith Qfield Bool Ascii String Lia.
From Verif Require Import Base BaseProofs FileName Lcfa LcfaSpec.
Import ListNotations.
Open Scope Z_scope.

(** * Literals *)
Lemma place_app : forall a b, place_value (a ++ b) = place_value a * 10 ^ Z.of_nat (List.length b) + place_value b.
Proof.
  induction a as [|d a IH]; intro b; cbn [place_value app]; [ring|].
  rewrite IH, app_length, Nat2Z.inj_add, Z.pow_add_r by lia. ring.
Qed.
Lemma number_place : forall ds, number ds = place_value ds.
Proof.
  intro ds. unfold number. assert (G : forall ds acc, fold_left (fun acc d => acc * 10 + d) ds acc
    = acc * 10 ^ Z.of_nat (List.length ds) + place_value ds).
  { clear. induction ds as [|d ds IH]; intro acc; cbn [fold_left place_value List.length]; [change (Z.of_nat 0) with 0; rewrite Z.pow_0_r; ring|].
    rewrite IH, Nat2Z.inj_succ, Z.pow_succ_r by lia. ring. }
  rewrite G. ring.
Qed.

Definition dchar (d : Z) : ascii := nth (Z.to_nat d) (lit "0123456789") "0"%char.
Lemma digit_cases : forall d, 0 <= d < 10 -> d = 0 \/ d = 1 \/ d = 2 \/ d = 3 \/ d = 4 \/ d = 5 \/ d = 6 \/ d = 7 \/ d = 8 \/ d = 9.
Proof. intros. lia. Qed.
Lemma dchar_val : forall d, 0 <= d < 10 -> digit_val (dchar d) = Some d.
Proof. intros d H. destruct (digit_cases d H) as [->|[->|[->|[->|[->|[->|[->|[->|[->| ->]]]]]]]]]; reflexivity. Qed.

(** Characters of literals: neither white space nor colons nor newlines. *)
Definition plain (c : ascii) : bool :=
  negb (is_space c) && negb (Ascii.eqb c ":").
Lemma dchar_plain : forall d, 0 <= d < 10 -> plain (dchar d) = true.
Proof. intros d H. destruct (digit_cases d H) as [->|[->|[->|[->|[->|[->|[->|[->|[->| ->]]]]]]]]]; reflexivity. Qed.

Lemma digits_cons : forall d ds, all_digits (d :: ds) -> 0 <= d < 10 /\ all_digits ds.
Proof. intros d ds H. split; [apply H; left; reflexivity|]. intros x Hx. apply H. right. exact Hx. Qed.

Lemma digit_chars_plain : forall ds, all_digits ds -> forallb plain (digit_chars ds) = true.
Proof.
  induction ds as [|d ds IH]; intro H; [reflexivity|]. apply digits_cons in H. destruct H as [H1 H2].
  cbn [digit_chars map forallb]. fold (dchar d). rewrite dchar_plain by exact H1. apply IH. exact H2.
Qed.
Lemma minus_plain : forall b, forallb plain (minus b) = true.
Proof. intros []; reflexivity. Qed.
Lemma ztext_plain : forall z, zlit_ok z -> forallb plain (ztext z) = true.
Proof.
  intros z [H _]. unfold ztext. rewrite forallb_app, minus_plain, digit_chars_plain by exact H. reflexivity.
Qed.
Lemma dtext_plain : forall d, dlit_ok d -> forallb plain (dtext d) = true.
Proof.
  intros d [H1 [H2 [H3 H4]]]. unfold dtext. rewrite !forallb_app, minus_plain, digit_chars_plain by exact H1.
  cbn [andb]. apply andb_true_iff. split.
  - destruct (d_frac d) as [|f fs]; [reflexivity|]. rewrite forallb_app, digit_chars_plain by exact H3. reflexivity.
  - destruct (d_exp d) as [e|]; [|reflexivity]. rewrite forallb_app, ztext_plain by exact H4. reflexivity.
Qed.

Lemma take_digits_chars : forall ds rest, all_digits ds -> take_digits rest = ([], rest) ->
  take_digits (digit_chars ds ++ rest) = (ds, rest).
Proof.
  induction ds as [|d ds IH]; intros rest H R; [exact R|]. apply digits_cons in H. destruct H as [H1 H2].
  cbn [digit_chars map app take_digits]. fold (dchar d). rewrite dchar_val by exact H1.
  unfold digit_chars in IH. rewrite IH by assumption. reflexivity.
Qed.

Lemma take_sign_minus : forall b ds rest, all_digits ds -> ds <> [] ->
  take_sign (minus b ++ digit_chars ds ++ rest) = (b, digit_chars ds ++ rest).
Proof.
  intros [] ds rest H NE; [reflexivity|]. destruct ds as [|d ds]; [congruence|].
  apply digits_cons in H. destruct H as [H1 _]. cbn [minus app digit_chars map].
  destruct (digit_cases d H1) as [->|[->|[->|[->|[->|[->|[->|[->|[->| ->]]]]]]]]]; reflexivity.
Qed.

Lemma parse_int_text : forall z, zlit_ok z -> parse_int (ztext z) = Ok (zvalue z).
Proof.
  intros [b ds] [H NE]. cbn in H, NE. unfold parse_int, ztext. cbn [z_neg z_digits].
  rewrite <- (app_nil_r (digit_chars ds)), take_sign_minus, take_digits_chars by auto.
  destruct ds as [|d ds]; [congruence|]. f_equal. rewrite number_place. unfold zvalue. cbn [z_neg z_digits].
  destruct b; cbn [signed]; ring.
Qed.

Lemma pow10_nz : forall n, ~ (inject_Z (10 ^ Z.of_nat n) == 0)%Q.
Proof. intros n H. unfold Qeq in H. cbn in H. assert (0 < 10 ^ Z.of_nat n) by (apply Z.pow_pos_nonneg; lia). lia. Qed.

Lemma mant_value : forall (neg : bool) ip fp,
  (inject_Z (signed neg (number (ip ++ fp))) / inject_Z (10 ^ Z.of_nat (List.length fp))
   == (if neg then -1 else 1) *
      (inject_Z (place_value ip) + inject_Z (place_value fp) / inject_Z (10 ^ Z.of_nat (List.length fp))))%Q.
Proof.
  intros neg ip fp. rewrite number_place, place_app.
  assert (S : forall v, (inject_Z (signed neg v) == (if neg then -1 else 1) * inject_Z v)%Q).
  { intro v. destruct neg; cbn [signed]; [rewrite inject_Z_opp|]; ring. }
  rewrite S, inject_Z_plus, inject_Z_mult. pose proof (pow10_nz (List.length fp)) as NZ.
  field. exact NZ.
Qed.

Lemma parse_float_text : forall d, dlit_ok d -> exists q, parse_float (dtext d) = Ok q /\ (q == dvalue d)%Q.
Proof.
  intros [neg ip fp ex] [H1 [NE [H2 H3]]]. cbn [d_neg d_int d_frac d_exp] in *.
  unfold parse_float, dtext. cbn [d_neg d_int d_frac d_exp].
  rewrite take_sign_minus by assumption.
  rewrite take_digits_chars; [|exact H1|].
  2: { destruct fp as [|f fs]; [destruct ex; reflexivity|reflexivity]. }
  set (E := match ex with Some e => lit "e" ++ ztext e | None => [] end).
  assert (TE : take_digits E = ([], E)) by (unfold E; destruct ex; reflexivity).
  assert (T : (match (match fp with [] => [] | z :: l => lit "." ++ digit_chars (z :: l) end) ++ E with
               | c :: t => if Ascii.eqb c "." then take_digits t
                           else ([], (match fp with [] => [] | z :: l => lit "." ++ digit_chars (z :: l) end) ++ E)
               | [] => ([], []) end) = (fp, E)).
  { destruct fp as [|f fs]; cbn [app].
    - unfold E. destruct ex; reflexivity.
    - change ((lit "." ++ digit_chars (f :: fs)) ++ E) with ("."%char :: digit_chars (f :: fs) ++ E).
      cbv iota. rewrite (eq_refl : Ascii.eqb "." "." = true). apply take_digits_chars; assumption. }
  rewrite T. clear T.
  destruct ip as [|i ip]; [congruence|]. cbn [app].
  change (i :: ip ++ fp) with ((i :: ip) ++ fp).
  unfold E, dvalue. cbn [d_neg d_int d_frac d_exp]. destruct ex as [e|].
  - change (lit "e" ++ ztext e) with ("e"%char :: ztext e). cbv iota.
    rewrite (eq_refl : Ascii.eqb "e" "e" = true). cbn [orb].
    pose proof (parse_int_text e H3) as PE. unfold parse_int in PE.
    destruct (take_sign (ztext e)) as [n2 t1]. destruct (take_digits t1) as [[|d3 ds3] [|c t]]; try discriminate.
    injection PE as PE. rewrite PE. eexists. split; [reflexivity|].
    rewrite mant_value. reflexivity.
  - eexists. split; [reflexivity|]. rewrite mant_value. ring.
Qed.

(** * Words *)
Definition nospace (c : ascii) : bool := negb (is_space c).
Lemma plain_nospace : forall s, forallb plain s = true -> forallb nospace s = true.
Proof.
  induction s as [|c s IH]; [reflexivity|]. cbn [forallb]. intro H. apply andb_true_iff in H. destruct H as [H1 H2].
  unfold plain in H1. apply andb_true_iff in H1. destruct H1 as [H1 _]. unfold nospace. rewrite H1. apply IH. exact H2.
Qed.

Lemma split_tok : forall t cur rest, forallb nospace t = true -> split_ws cur (t ++ rest) = split_ws (rev t ++ cur) rest.
Proof.
  induction t as [|c t IH]; intros cur rest H; [reflexivity|]. cbn [forallb] in H. apply andb_true_iff in H.
  destruct H as [H1 H2]. cbn [app split_ws]. unfold nospace in H1. apply negb_true_iff in H1. rewrite H1.
  rewrite IH by exact H2. cbn [rev]. rewrite <- app_assoc. reflexivity.
Qed.

Lemma split_field : forall t a cur sp rest, forallb plain t = true -> is_space sp = true ->
  split_ws (a :: cur) (t ++ sp :: rest) = (rev (a :: cur) ++ t) :: split_ws [] rest.
Proof.
  intros t a cur sp rest H S. rewrite split_tok by (apply plain_nospace; exact H). cbn [split_ws]. rewrite S.
  destruct (rev t ++ a :: cur) as [|x l] eqn:E; [destruct (rev t); discriminate|].
  rewrite <- E, rev_app_distr, rev_involutive. reflexivity.
Qed.
Lemma split_last_field : forall t a cur rest, forallb plain t = true -> (rest = [] \/ rest = [NL]) ->
  split_ws (a :: cur) (t ++ rest) = [rev (a :: cur) ++ t].
Proof.
  intros t a cur rest H [-> | ->].
  - rewrite split_tok by (apply plain_nospace; exact H). cbn [split_ws].
    destruct (rev t ++ a :: cur) as [|x l] eqn:E; [destruct (rev t); discriminate|].
    rewrite <- E, rev_app_distr, rev_involutive. reflexivity.
  - rewrite split_field by (auto; reflexivity). reflexivity.
Qed.

Lemma split_colon_plain : forall t, forallb plain t = true -> split_colon t = [t].
Proof.
  induction t as [|c t IH]; intro H; [reflexivity|]. cbn [forallb] in H. apply andb_true_iff in H.
  destruct H as [H1 H2]. unfold plain in H1. apply andb_true_iff in H1. destruct H1 as [_ H1].
  apply negb_true_iff in H1. cbn [split_colon]. rewrite H1, IH by exact H2. reflexivity.
Qed.

Lemma split_colon_label : forall label t, forallb (fun c => negb (Ascii.eqb c ":")) label = true -> forallb plain t = true ->
  split_colon (label ++ ":"%char :: t) = [label; t].
Proof.
  induction label as [|c label IH]; intros t HL H.
  - change ([] ++ ":"%char :: t) with (":"%char :: t). cbn [split_colon]. rewrite (eq_refl : Ascii.eqb ":" ":" = true).
    rewrite split_colon_plain by exact H. reflexivity.
  - cbn [forallb] in HL. apply andb_true_iff in HL. destruct HL as [H1 H2]. apply negb_true_iff in H1.
    cbn [app split_colon]. rewrite H1, IH by assumption. reflexivity.
Qed.

Lemma col_id_ok : forall cols i c z, nth_error cols i = Some (c :: ztext z) -> zlit_ok z -> col_id cols i = Ok (zvalue z).
Proof.
  intros cols i c z E H. unfold col_id, nth_res. rewrite E. cbn [bind List.tl]. apply parse_int_text. exact H.
Qed.
Lemma col_int_ok : forall cols i label z, nth_error cols i = Some (label ++ ":"%char :: ztext z) ->
  forallb (fun c => negb (Ascii.eqb c ":")) label = true -> zlit_ok z -> col_int cols i = Ok (zvalue z).
Proof.
  intros cols i label z E L H. unfold col_int, nth_res at 1. rewrite E. cbn [bind].
  rewrite split_colon_label by (auto using ztext_plain). cbn. apply parse_int_text. exact H.
Qed.
Lemma col_float_ok : forall cols i label d, nth_error cols i = Some (label ++ ":"%char :: dtext d) ->
  forallb (fun c => negb (Ascii.eqb c ":")) label = true -> dlit_ok d ->
  exists q, col_float cols i = Ok q /\ (q == dvalue d)%Q.
Proof.
  intros cols i label d E L H. unfold col_float, nth_res at 1. rewrite E. cbn [bind].
  rewrite split_colon_label by (auto using dtext_plain). cbn. apply parse_float_text. exact H.
Qed.

(** * Words of the lines *)
(** Complete words and the word begun, after the characters [p]. *)
Fixpoint feed (cur p : pystr) : list pystr * pystr :=
  match p with
  | [] => ([], cur)
  | c :: r => if is_space c then let '(w, k) := feed [] r in (match cur with [] => w | _ => rev cur :: w end, k)
              else feed (c :: cur) r
  end.
Lemma split_feed : forall p cur x, split_ws cur (p ++ x) = fst (feed cur p) ++ split_ws (snd (feed cur p)) x.
Proof.
  induction p as [|c p IH]; intros cur x; [reflexivity|]. cbn [app split_ws feed]. destruct (is_space c).
  - rewrite IH. destruct (feed [] p) as [w k]. destruct cur; reflexivity.
  - apply IH.
Qed.
Lemma split_piece : forall t a cur s x, forallb plain t = true ->
  split_ws (a :: cur) (t ++ lit (String " " s) ++ x)
  = (rev (a :: cur) ++ t) :: fst (feed [] (lit s)) ++ split_ws (snd (feed [] (lit s))) x.
Proof.
  intros t a cur s x H. change (lit (String " " s) ++ x) with (" "%char :: (lit s ++ x)).
  rewrite split_field by (auto; reflexivity). rewrite split_feed. reflexivity.
Qed.

Ltac eval_feed := match goal with |- context [feed ?c ?p] =>
  let v := eval vm_compute in (feed c p) in
  change (feed c p) with v; cbv beta iota; cbn [fst snd app rev] end.

Lemma flash_words : forall l rest, lflash_ok l -> rest = [] \/ rest = [NL] ->
  split_ws [] (flash_line l ++ rest) =
  [lit "D"; lit "Flash"; lit "#" ++ ztext (lf_id l); lit "Start"; lit "Time:" ++ dtext (lf_first l);
   lit "End"; lit "Time:" ++ dtext (lf_last l); lit "Centroid"; lit "Lat:" ++ dtext (lf_lat l);
   lit "Centroid"; lit "Lon:" ++ dtext (lf_lon l); lit "Energy:" ++ dtext (lf_energy l);
   lit "Footprint:" ++ dtext (lf_area l); lit "Child_Count:" ++ ztext (lf_children l)].
Proof.
  intros l rest [H1 [H2 [H3 [H4 [H5 [H6 [H7 H8]]]]]]] HR. unfold flash_line. rewrite <- !app_assoc.
  apply ztext_plain in H1, H8. apply dtext_plain in H2, H3, H4, H5, H6, H7.
  rewrite split_feed. repeat eval_feed.
  repeat (rewrite split_piece by assumption; repeat eval_feed).
  rewrite split_last_field by assumption. reflexivity.
Qed.
Lemma group_words : forall l rest, lgroup_ok l -> rest = [] \/ rest = [NL] ->
  split_ws [] (group_line l ++ rest) =
  [lit "D"; lit "Group"; lit "#" ++ ztext (lg_id l); lit "Child"; lit "#" ++ ztext (lg_nth l);
   lit "Start"; lit "Time:" ++ dtext (lg_first l); lit "End"; lit "Time:" ++ dtext (lg_last l);
   lit "Centroid"; lit "Lat:" ++ dtext (lg_lat l); lit "Centroid"; lit "Lon:" ++ dtext (lg_lon l);
   lit "Energy:" ++ dtext (lg_energy l); lit "Footprint:" ++ dtext (lg_area l);
   lit "Parent_ID:" ++ ztext (lg_parent l); lit "Child_Count:" ++ ztext (lg_children l)].
Proof.
  intros l rest [H1 [H2 [H3 [H4 [H5 [H6 [H7 [H8 [H9 H10]]]]]]]]] HR. unfold group_line. rewrite <- !app_assoc.
  apply ztext_plain in H1, H2, H9, H10. apply dtext_plain in H3, H4, H5, H6, H7, H8.
  rewrite split_feed. repeat eval_feed. rewrite split_feed. repeat eval_feed.
  repeat (rewrite split_piece by assumption; repeat eval_feed).
  rewrite split_last_field by assumption. reflexivity.
Qed.
Lemma event_words : forall l rest, levent_ok l -> rest = [] \/ rest = [NL] ->
  split_ws [] (event_line l ++ rest) =
  [lit "Event"; lit "#" ++ ztext (le_id l); lit "Child"; lit "#" ++ ztext (le_nth l);
   lit "Time:" ++ dtext (le_time l); lit "X_Pixel:" ++ ztext (le_x l); lit "Y_Pixel:" ++ ztext (le_y l);
   lit "Lat:" ++ dtext (le_lat l); lit "Lon:" ++ dtext (le_lon l); lit "Energy:" ++ dtext (le_energy l);
   lit "Parent_ID:" ++ ztext (le_parent l)].
Proof.
  intros l rest [H1 [H2 [H3 [H4 [H5 [H6 [H7 [H8 H9]]]]]]]] HR. unfold event_line. rewrite <- !app_assoc.
  apply ztext_plain in H1, H2, H4, H5, H9. apply dtext_plain in H3, H6, H7, H8.
  rewrite split_feed. repeat eval_feed. rewrite split_feed. repeat eval_feed.
  repeat (rewrite split_piece by assumption; repeat eval_feed).
  rewrite split_last_field by assumption. reflexivity.
Qed.

Ltac read_id i z := rewrite (col_id_ok _ i "#"%char z) by (assumption || reflexivity); cbn [bind].
Ltac read_int i lab z := rewrite (col_int_ok _ i (lit lab) z) by (assumption || reflexivity); cbn [bind].
Ltac read_float i lab d := let q := fresh "q" in let E := fresh "E" in let V := fresh "V" in
  match goal with |- context [col_float ?cols i] =>
    destruct (col_float_ok cols i (lit lab) d ltac:(reflexivity) ltac:(reflexivity) ltac:(assumption)) as [q [E V]];
    rewrite E; cbn [bind] end.

Lemma flash_read : forall l rest, lflash_ok l -> rest = [] \/ rest = [NL] ->
  exists f, flash_of (split_ws [] (flash_line l ++ rest)) = Ok f /\ flash_is l f.
Proof.
  intros l rest H HR. rewrite flash_words by assumption. destruct H as [H1 [H2 [H3 [H4 [H5 [H6 [H7 H8]]]]]]].
  unfold flash_of. read_id 2%nat (lf_id l). read_float 4%nat "Time"%string (lf_first l).
  read_float 6%nat "Time"%string (lf_last l). read_float 8%nat "Lat"%string (lf_lat l).
  read_float 10%nat "Lon"%string (lf_lon l). read_float 11%nat "Energy"%string (lf_energy l).
  read_float 12%nat "Footprint"%string (lf_area l). read_int 13%nat "Child_Count"%string (lf_children l).
  eexists. split; [reflexivity|]. unfold flash_is. cbn. repeat (split; [first [assumption|reflexivity]|]). reflexivity.
Qed.
Lemma group_read : forall l rest, lgroup_ok l -> rest = [] \/ rest = [NL] ->
  exists f, group_of (split_ws [] (group_line l ++ rest)) = Ok f /\ group_is l f.
Proof.
  intros l rest H HR. rewrite group_words by assumption.
  destruct H as [H1 [H2 [H3 [H4 [H5 [H6 [H7 [H8 [H9 H10]]]]]]]]].
  unfold group_of. read_id 2%nat (lg_id l). read_float 6%nat "Time"%string (lg_first l).
  read_float 10%nat "Lat"%string (lg_lat l). read_float 12%nat "Lon"%string (lg_lon l).
  read_float 13%nat "Energy"%string (lg_energy l). read_float 14%nat "Footprint"%string (lg_area l).
  read_int 15%nat "Parent_ID"%string (lg_parent l). read_int 16%nat "Child_Count"%string (lg_children l).
  eexists. split; [reflexivity|]. unfold group_is. cbn. repeat (split; [first [assumption|reflexivity]|]). reflexivity.
Qed.
Lemma event_read : forall l rest, levent_ok l -> rest = [] \/ rest = [NL] ->
  exists f, event_of (split_ws [] (event_line l ++ rest)) = Ok f /\ event_is l f.
Proof.
  intros l rest H HR. rewrite event_words by assumption.
  destruct H as [H1 [H2 [H3 [H4 [H5 [H6 [H7 [H8 H9]]]]]]]].
  unfold event_of. read_id 1%nat (le_id l). read_float 4%nat "Time"%string (le_time l).
  read_int 5%nat "X_Pixel"%string (le_x l). read_int 6%nat "Y_Pixel"%string (le_y l).
  read_float 7%nat "Lat"%string (le_lat l). read_float 8%nat "Lon"%string (le_lon l).
  read_float 9%nat "Energy"%string (le_energy l). read_int 10%nat "Parent_ID"%string (le_parent l).
  eexists. split; [reflexivity|]. unfold event_is. cbn. repeat (split; [first [assumption|reflexivity]|]). reflexivity.
Qed.
