(** C46 and C57: the ASCII listing of flashes, groups and events is read back record by
    record, whole or cut short. *)
From Coq Require Import List ZArith QArith Bool Ascii String Lia.
From Verif Require Import Base BaseProofs FileName Lcfa LcfaSpec LcfaProofs.
Import ListNotations.
Open Scope Z_scope.

(** * Lines of a file *)
Definition nonl (c : ascii) : bool := negb (Ascii.eqb c NL) && negb (Ascii.eqb c CR).
Lemma plain_nonl : forall s, forallb plain s = true -> forallb nonl s = true.
Proof.
  induction s as [|c s IH]; [reflexivity|]. cbn [forallb]. intro H. apply andb_true_iff in H. destruct H as [H1 H2].
  rewrite (IH H2), andb_true_r. unfold plain in H1. apply andb_true_iff in H1. destruct H1 as [H1 _].
  unfold nonl. destruct (Ascii.eqb_spec c NL) as [->|]; [discriminate|]. destruct (Ascii.eqb_spec c CR) as [->|]; [discriminate|].
  reflexivity.
Qed.
Lemma nonl_of : forall s, ~ In NL s -> ~ In CR s -> forallb nonl s = true.
Proof.
  intros s H1 H2. apply forallb_forall. intros c Hc. unfold nonl.
  destruct (Ascii.eqb_spec c NL) as [->|]; [contradiction|]. destruct (Ascii.eqb_spec c CR) as [->|]; [contradiction|]. reflexivity.
Qed.
Lemma item_nonl : forall it, item_ok it -> forallb nonl (item_text it) = true.
Proof.
  intros [l|l|l|s] H; cbn [item_text].
  - destruct H as [H1 [H2 [H3 [H4 [H5 [H6 [H7 H8]]]]]]]. unfold flash_line. rewrite !forallb_app.
    rewrite !(plain_nonl (ztext _)) by (apply ztext_plain; assumption).
    rewrite !(plain_nonl (dtext _)) by (apply dtext_plain; assumption). reflexivity.
  - destruct H as [H1 [H2 [H3 [H4 [H5 [H6 [H7 [H8 [H9 H10]]]]]]]]]. unfold group_line. rewrite !forallb_app.
    rewrite !(plain_nonl (ztext _)) by (apply ztext_plain; assumption).
    rewrite !(plain_nonl (dtext _)) by (apply dtext_plain; assumption). reflexivity.
  - destruct H as [H1 [H2 [H3 [H4 [H5 [H6 [H7 [H8 H9]]]]]]]]. unfold event_line. rewrite !forallb_app.
    rewrite !(plain_nonl (ztext _)) by (apply ztext_plain; assumption).
    rewrite !(plain_nonl (dtext _)) by (apply dtext_plain; assumption). reflexivity.
  - destruct H as [H1 [H2 _]]. apply nonl_of; assumption.
Qed.

Lemma universal_line : forall l (e : bool) rest, forallb nonl l = true ->
  universal (l ++ (if e then [CR; NL] else [NL]) ++ rest) = l ++ NL :: universal rest.
Proof.
  induction l as [|c l IH]; intros e rest H; [destruct e; reflexivity|].
  cbn [forallb] in H. apply andb_true_iff in H. destruct H as [H1 H2]. unfold nonl in H1. apply andb_true_iff in H1.
  destruct H1 as [_ H1]. apply negb_true_iff in H1. cbn [app universal]. rewrite H1, IH by exact H2. reflexivity.
Qed.
Lemma universal_nonl : forall l, forallb nonl l = true -> universal l = l.
Proof.
  induction l as [|c l IH]; intro H; [reflexivity|].
  cbn [forallb] in H. apply andb_true_iff in H. destruct H as [H1 H2]. unfold nonl in H1. apply andb_true_iff in H1.
  destruct H1 as [_ H1]. apply negb_true_iff in H1. cbn [universal]. rewrite H1, IH by exact H2. reflexivity.
Qed.
Lemma lines_line : forall l rest, forallb nonl l = true -> lines (l ++ NL :: rest) = (l ++ [NL]) :: lines rest.
Proof.
  induction l as [|c l IH]; intros rest H; [reflexivity|].
  cbn [forallb] in H. apply andb_true_iff in H. destruct H as [H1 H2]. unfold nonl in H1. apply andb_true_iff in H1.
  destruct H1 as [H1 _]. apply negb_true_iff in H1. cbn [app lines]. rewrite H1, IH by exact H2. reflexivity.
Qed.
Definition last_line (l : pystr) : list pystr := match l with [] => [] | _ => [l] end.
Lemma lines_last : forall l, forallb nonl l = true -> lines l = last_line l.
Proof.
  induction l as [|c l IH]; intro H; [reflexivity|].
  cbn [forallb] in H. apply andb_true_iff in H. destruct H as [H1 H2]. unfold nonl in H1. apply andb_true_iff in H1.
  destruct H1 as [H1 _]. apply negb_true_iff in H1. cbn [lines last_line]. rewrite H1, IH by exact H2.
  destruct l; reflexivity.
Qed.

Lemma file_lines : forall body last, (forall p, In p body -> item_ok (fst p)) -> forallb nonl last = true ->
  lines (universal (file_text body last)) = map (fun p => item_text (fst p) ++ [NL]) body ++ last_line last.
Proof.
  induction body as [|[it e] body IH]; intros last H HL.
  - unfold file_text. cbn [map List.concat app]. rewrite universal_nonl by exact HL. apply lines_last. exact HL.
  - unfold file_text in *. cbn [map List.concat fst snd]. rewrite <- !app_assoc.
    pose proof (item_nonl it (H (it, e) (or_introl eq_refl))) as N.
    rewrite universal_line by exact N. rewrite lines_line by exact N. cbn [app]. f_equal.
    apply IH; [|exact HL]. intros p Hp. apply H. right. exact Hp.
Qed.

(** * Classification *)
Lemma startswith_begins : forall p s, startswith p s = true <-> begins p s.
Proof.
  induction p as [|a p IH]; intro s; cbn [startswith].
  - split; [intros _; exists s; reflexivity|reflexivity].
  - destruct s as [|b s].
    + split; [discriminate|]. intros [t E]. discriminate.
    + rewrite andb_true_iff, IH. destruct (Ascii.eqb_spec a b) as [->|N].
      * split; [intros [_ [t ->]]; exists t; reflexivity|]. intros [t E]. injection E as ->. split; [reflexivity|exists t; reflexivity].
      * split; [intros [K _]; discriminate|]. intros [t E]. injection E as -> _. congruence.
Qed.
Lemma startswith_nl : forall p s, forallb nonl p = true -> startswith p (s ++ [NL]) = startswith p s.
Proof.
  induction p as [|a p IH]; intros s H; [reflexivity|]. cbn [forallb] in H. apply andb_true_iff in H. destruct H as [H1 H2].
  unfold nonl in H1. apply andb_true_iff in H1. destruct H1 as [H1 _]. apply negb_true_iff in H1.
  destruct s as [|b s]; cbn [app startswith]; [rewrite H1; reflexivity|]. rewrite IH by exact H2. reflexivity.
Qed.
Lemma startswith_more : forall p s t, startswith p s = true -> startswith p (s ++ t) = true.
Proof.
  intros p s t H. apply startswith_begins in H. destruct H as [u ->]. apply startswith_begins. exists (u ++ t).
  rewrite app_assoc. reflexivity.
Qed.

(** One reader on the lines of a file. *)
Section READER.
Context {A L : Type}.
Variable prefix : pystr.
Variable of : list pystr -> res A.
Variable pick : item -> list L.
Variable is : L -> A -> Prop.
Hypothesis prefix_nonempty : prefix <> [].
Hypothesis prefix_nonl : forallb nonl prefix = true.
Hypothesis picked : forall it, item_ok it -> startswith prefix (item_text it) = true ->
  exists l, pick it = [l] /\ forall rest, rest = [] \/ rest = [NL] ->
    exists a, of (split_ws [] (item_text it ++ rest)) = Ok a /\ is l a.
Hypothesis skipped : forall it, item_ok it -> startswith prefix (item_text it) = false -> pick it = [].

Lemma read_body : forall body tail, (forall p, In p body -> item_ok (fst p)) ->
  exists rs, Forall2 is (flat_map pick (map fst body)) rs /\
   map_res (fun line => of (split_ws [] line))
     (filter (startswith prefix) (map (fun p : item * bool => item_text (fst p) ++ [NL]) body ++ tail))
   = (rt <- map_res (fun line => of (split_ws [] line)) (filter (startswith prefix) tail) ;; Ok (rs ++ rt)).
Proof using prefix_nonl picked skipped.
  induction body as [|[it e] body IH]; intros tail H.
  - exists []. split; [constructor|]. cbn [map app]. destruct (map_res _ _); reflexivity.
  - destruct (IH tail (fun p Hp => H p (or_intror Hp))) as [rs [F E]].
    pose proof (H (it, e) (or_introl eq_refl)) as Hit. cbn [fst] in Hit.
    cbn [map app filter fst flat_map]. rewrite startswith_nl by exact prefix_nonl.
    destruct (startswith prefix (item_text it)) eqn:S.
    + destruct (picked it Hit S) as [l [Ep Hr]]. destruct (Hr [NL] (or_intror eq_refl)) as [a [Ea Ia]].
      exists (a :: rs). split; [rewrite Ep; constructor; assumption|].
      cbn [map_res]. rewrite Ea. cbn [bind]. rewrite E. destruct (map_res _ (filter (startswith prefix) tail)); reflexivity.
    + exists rs. rewrite (skipped it Hit S). split; assumption.
Qed.

Lemma read_file : forall body it, (forall p, In p body -> item_ok (fst p)) -> item_ok it ->
  exists rs, gen prefix of (file_text body (item_text it)) = Ok rs /\
    Forall2 is (flat_map pick (map fst body) ++ pick it) rs.
Proof using prefix_nonempty prefix_nonl picked skipped.
  intros body it H Hit. unfold gen. rewrite file_lines by (auto using item_nonl).
  destruct (read_body body (last_line (item_text it)) H) as [rs [F E]]. rewrite E. clear E.
  destruct (startswith prefix (item_text it)) eqn:S.
  - destruct (picked it Hit S) as [l [Ep Hr]]. destruct (Hr [] (or_introl eq_refl)) as [a [Ea Ia]].
    rewrite app_nil_r in Ea. destruct (item_text it) as [|c s] eqn:Et.
    + destruct prefix; [congruence|discriminate].
    + exists (rs ++ [a]). cbn [last_line filter]. rewrite S. cbn [map_res]. rewrite Ea. cbn [bind].
      split; [reflexivity|]. apply Forall2_app; [exact F|]. rewrite Ep. constructor; [exact Ia|constructor].
  - exists rs. rewrite (skipped it Hit S), app_nil_r. split; [|exact F].
    destruct (item_text it) as [|c s]; cbn [last_line filter]; [|rewrite S];
      cbn [map_res bind]; rewrite app_nil_r; reflexivity.
Qed.

(** The last line cut short. *)
Variable but_last : A -> A -> Prop.
Hypothesis cut : forall s t a b, of (split_ws [] s) = Ok a -> of (split_ws [] (s ++ t)) = Ok b -> but_last b a.
Lemma read_cut : forall body it s t rs, (forall p, In p body -> item_ok (fst p)) -> item_ok it ->
  item_text it = s ++ t -> gen prefix of (file_text body s) = Ok rs ->
  exists rs', Forall2 is (flat_map pick (map fst body)) rs' /\
    (rs = rs' \/ exists l a b, pick it = [l] /\ is l b /\ but_last b a /\ rs = rs' ++ [a]).
Proof using prefix_nonempty prefix_nonl picked skipped cut.
  intros body it s t rs H Hit Et. unfold gen.
  pose proof (item_nonl it Hit) as N. rewrite Et, forallb_app in N. apply andb_true_iff in N. destruct N as [N _].
  rewrite file_lines by assumption.
  destruct (read_body body (last_line s) H) as [rs' [F E]]. rewrite E. clear E. intro R.
  exists rs'. split; [exact F|].
  destruct s as [|c s]; cbn [last_line filter map_res bind] in R.
  - left. rewrite app_nil_r in R. congruence.
  - destruct (startswith prefix (c :: s)) eqn:S.
    + right. cbn [map_res] in R. destruct (of (split_ws [] (c :: s))) as [a|] eqn:Ea; [|discriminate].
      cbn [bind] in R. pose proof (startswith_more prefix (c :: s) t S) as S'. rewrite <- Et in S'.
      destruct (picked it Hit S') as [l [Ep Hr]]. destruct (Hr [] (or_introl eq_refl)) as [b [Eb Ib]].
      rewrite app_nil_r, Et in Eb. exists l, a, b. split; [exact Ep|]. split; [exact Ib|].
      split; [eapply cut; eassumption|congruence].
    + left. cbn [map_res bind] in R. rewrite app_nil_r in R. congruence.
Qed.
End READER.

Definition pick_flash it := match it with IFlash l => [l] | _ => [] end.
Definition pick_group it := match it with IGroup l => [l] | _ => [] end.
Definition pick_event it := match it with IEvent l => [l] | _ => [] end.

Lemma picked_flash : forall it, item_ok it -> startswith (lit "D Flash") (item_text it) = true ->
  exists l, pick_flash it = [l] /\ forall rest, rest = [] \/ rest = [NL] ->
    exists a, flash_of (split_ws [] (item_text it ++ rest)) = Ok a /\ flash_is l a.
Proof.
  intros [l|l|l|s] H S; try discriminate S.
  - exists l. split; [reflexivity|]. intros rest HR. apply flash_read; assumption.
  - apply startswith_begins in S. destruct H as [_ [_ [H _]]]. contradiction.
Qed.
Lemma skipped_flash : forall it, item_ok it -> startswith (lit "D Flash") (item_text it) = false -> pick_flash it = [].
Proof. intros [l|l|l|s] H S; try reflexivity. discriminate S. Qed.
Lemma picked_group : forall it, item_ok it -> startswith (TAB :: lit "D Group") (item_text it) = true ->
  exists l, pick_group it = [l] /\ forall rest, rest = [] \/ rest = [NL] ->
    exists a, group_of (split_ws [] (item_text it ++ rest)) = Ok a /\ group_is l a.
Proof.
  intros [l|l|l|s] H S; try discriminate S.
  - exists l. split; [reflexivity|]. intros rest HR. apply group_read; assumption.
  - apply startswith_begins in S. destruct H as [_ [_ [_ [H _]]]]. contradiction.
Qed.
Lemma skipped_group : forall it, item_ok it -> startswith (TAB :: lit "D Group") (item_text it) = false -> pick_group it = [].
Proof. intros [l|l|l|s] H S; try reflexivity. discriminate S. Qed.
Lemma picked_event : forall it, item_ok it -> startswith (TAB :: TAB :: lit "Event") (item_text it) = true ->
  exists l, pick_event it = [l] /\ forall rest, rest = [] \/ rest = [NL] ->
    exists a, event_of (split_ws [] (item_text it ++ rest)) = Ok a /\ event_is l a.
Proof.
  intros [l|l|l|s] H S; try discriminate S.
  - exists l. split; [reflexivity|]. intros rest HR. apply event_read; assumption.
  - apply startswith_begins in S. destruct H as [_ [_ [_ [_ H]]]]. contradiction.
Qed.
Lemma skipped_event : forall it, item_ok it -> startswith (TAB :: TAB :: lit "Event") (item_text it) = false -> pick_event it = [].
Proof. intros [l|l|l|s] H S; try reflexivity. discriminate S. Qed.

(** * C46 *)
(** A file of lines in any order, of which the last may lack its newline, is read as its
    flashes, groups and events, each in the order of the file, with the values written. *)
Theorem C46_records_kept : forall body it, (forall p, In p body -> item_ok (fst p)) -> item_ok it ->
  exists fs gs es, parse_LCFA_ASCII (file_text body (item_text it)) = Ok (fs, gs, es) /\
    Forall2 flash_is (flashes_of (map fst body ++ [it])) fs /\
    Forall2 group_is (groups_of (map fst body ++ [it])) gs /\
    Forall2 event_is (events_of (map fst body ++ [it])) es.
Proof.
  intros body it H Hit.
  destruct (read_file (lit "D Flash") flash_of pick_flash flash_is ltac:(discriminate) eq_refl picked_flash skipped_flash body it H Hit)
    as [fs [E1 F1]].
  destruct (read_file (TAB :: lit "D Group") group_of pick_group group_is ltac:(discriminate) eq_refl picked_group skipped_group body it H Hit)
    as [gs [E2 F2]].
  destruct (read_file (TAB :: TAB :: lit "Event") event_of pick_event event_is ltac:(discriminate) eq_refl picked_event skipped_event body it H Hit)
    as [es [E3 F3]].
  exists fs, gs, es. unfold parse_LCFA_ASCII, gen_flash_data, gen_group_data, gen_event_data.
  rewrite E1, E2, E3. split; [reflexivity|]. unfold flashes_of, groups_of, events_of. rewrite !flat_map_app. cbn [flat_map].
  rewrite !app_nil_r. auto.
Qed.

(** No line is taken for a record of two kinds. *)
Theorem C46_one_kind : forall (line : pystr) f g e,
  gen_flash_data line = Ok f -> gen_group_data line = Ok g -> gen_event_data line = Ok e ->
  ~ In NL line -> ~ In CR line -> (List.length f + List.length g + List.length e <= 1)%nat.
Proof.
  intros line f g e Hf Hg He N1 N2. pose proof (nonl_of line N1 N2) as N.
  unfold gen_flash_data, gen_group_data, gen_event_data, gen in *.
  rewrite universal_nonl, lines_last in Hf, Hg, He by exact N.
  destruct line as [|c line].
  { cbn in Hf, Hg, He. injection Hf as <-. injection Hg as <-. injection He as <-. cbn. lia. }
  cbn [last_line filter] in Hf, Hg, He.
  assert (ML : forall (A : Type) (h : pystr -> res A) l r, map_res h l = Ok r -> List.length r = List.length l).
  { clear. intros A h. induction l as [|a l IH]; intros r H; cbn in H; [injection H as <-; reflexivity|].
    destruct (h a); [|discriminate]. cbn [bind] in H. destruct (map_res h l) eqn:E; [|discriminate].
    injection H as <-. cbn. f_equal. apply IH. reflexivity. }
  apply ML in Hf, Hg, He. rewrite Hf, Hg, He.
  destruct (startswith (lit "D Flash") (c :: line)) eqn:S1;
  destruct (startswith (TAB :: lit "D Group") (c :: line)) eqn:S2;
  destruct (startswith (TAB :: TAB :: lit "Event") (c :: line)) eqn:S3; cbn [List.length]; try lia; exfalso.
  - apply startswith_begins in S1, S2. destruct S1 as [t1 E1], S2 as [t2 E2]. rewrite E1 in E2. discriminate.
  - apply startswith_begins in S1, S2. destruct S1 as [t1 E1], S2 as [t2 E2]. rewrite E1 in E2. discriminate.
  - apply startswith_begins in S1, S3. destruct S1 as [t1 E1], S3 as [t2 E2]. rewrite E1 in E2. discriminate.
  - apply startswith_begins in S2, S3. destruct S2 as [t1 E1], S3 as [t2 E2]. rewrite E1 in E2. discriminate.
Qed.

(** * Files cut short *)
Lemma words_cut : forall s t i w, nth_error (split_ws [] s) i = Some w -> (S i < List.length (split_ws [] s))%nat ->
  nth_error (split_ws [] (s ++ t)) i = Some w.
Proof.
  intros s t i w E L. rewrite split_feed. rewrite <- (app_nil_r s) in E, L. rewrite split_feed in E, L.
  set (ws := fst (feed [] s)) in *. rewrite app_length in L.
  assert (List.length (split_ws (snd (feed [] s)) []) <= 1)%nat by (cbn [split_ws]; destruct (snd (feed [] s)); cbn; lia).
  rewrite nth_error_app1 in E by lia. rewrite nth_error_app1 by lia. exact E.
Qed.
Lemma cols_cut : forall s t i, (S i < List.length (split_ws [] s))%nat ->
  nth_res (split_ws [] (s ++ t)) i = nth_res (split_ws [] s) i.
Proof.
  intros s t i L. unfold nth_res. destruct (nth_error (split_ws [] s) i) as [w|] eqn:E.
  - rewrite (words_cut s t i w E L). reflexivity.
  - apply nth_error_None in E. lia.
Qed.
Lemma col_int_len : forall cols i v, col_int cols i = Ok v -> (i < List.length cols)%nat.
Proof.
  intros cols i v H. unfold col_int, nth_res in H. apply nth_error_Some. destruct (nth_error cols i); [discriminate|].
  discriminate H.
Qed.

Ltac split_binds H := repeat match type of H with bind ?r ?k = Ok _ =>
  let v := fresh "v" in let E := fresh "E" in destruct r as [v|] eqn:E; [|discriminate H]; cbn [bind] in H end.

Lemma flash_cut : forall s t a b, flash_of (split_ws [] s) = Ok a -> flash_of (split_ws [] (s ++ t)) = Ok b -> flash_but_last b a.
Proof.
  intros s t a b Ha Hb. unfold flash_of in *. split_binds Ha. split_binds Hb.
  assert (L : (13 < List.length (split_ws [] s))%nat) by (eapply col_int_len; eassumption).
  unfold col_id, col_float in *. rewrite !(cols_cut s t) in * by lia.
  injection Ha as <-. injection Hb as <-. unfold flash_but_last. cbn. repeat split; congruence.
Qed.
Lemma group_cut : forall s t a b, group_of (split_ws [] s) = Ok a -> group_of (split_ws [] (s ++ t)) = Ok b -> group_but_last b a.
Proof.
  intros s t a b Ha Hb. unfold group_of in *. split_binds Ha. split_binds Hb.
  assert (L : (16 < List.length (split_ws [] s))%nat) by (eapply col_int_len; eassumption).
  unfold col_id, col_float in *.
  assert (C15 : col_int (split_ws [] (s ++ t)) 15 = col_int (split_ws [] s) 15) by (unfold col_int; rewrite cols_cut by lia; reflexivity).
  rewrite !(cols_cut s t) in * by lia. rewrite C15 in *.
  injection Ha as <-. injection Hb as <-. unfold group_but_last. cbn. repeat split; congruence.
Qed.
Lemma event_cut : forall s t a b, event_of (split_ws [] s) = Ok a -> event_of (split_ws [] (s ++ t)) = Ok b -> event_but_last b a.
Proof.
  intros s t a b Ha Hb. unfold event_of in *. split_binds Ha. split_binds Hb.
  assert (L : (10 < List.length (split_ws [] s))%nat) by (eapply col_int_len; eassumption).
  assert (C5 : col_int (split_ws [] (s ++ t)) 5 = col_int (split_ws [] s) 5) by (unfold col_int; rewrite cols_cut by lia; reflexivity).
  assert (C6 : col_int (split_ws [] (s ++ t)) 6 = col_int (split_ws [] s) 6) by (unfold col_int; rewrite cols_cut by lia; reflexivity).
  rewrite C5, C6 in *. unfold col_id, col_float in *. rewrite !(cols_cut s t) in * by lia.
  injection Ha as <-. injection Hb as <-. unfold event_but_last. cbn. repeat split; congruence.
Qed.

(** A file cut anywhere in its last line either fails to be read, or gives all earlier
    records and at most one more, which is the cut one but for its last column. *)
Theorem C57_cut_file_partial : forall body it s t fs gs es,
  (forall p, In p body -> item_ok (fst p)) -> item_ok it -> item_text it = s ++ t ->
  parse_LCFA_ASCII (file_text body s) = Ok (fs, gs, es) ->
  (exists fs', Forall2 flash_is (flashes_of (map fst body)) fs' /\
     (fs = fs' \/ exists l a b, it = IFlash l /\ flash_is l b /\ flash_but_last b a /\ fs = fs' ++ [a])) /\
  (exists gs', Forall2 group_is (groups_of (map fst body)) gs' /\
     (gs = gs' \/ exists l a b, it = IGroup l /\ group_is l b /\ group_but_last b a /\ gs = gs' ++ [a])) /\
  (exists es', Forall2 event_is (events_of (map fst body)) es' /\
     (es = es' \/ exists l a b, it = IEvent l /\ event_is l b /\ event_but_last b a /\ es = es' ++ [a])).
Proof.
  intros body it s t fs gs es H Hit Et R. unfold parse_LCFA_ASCII in R. split_binds R. injection R as <- <- <-.
  destruct (read_cut (lit "D Flash") flash_of pick_flash flash_is ltac:(discriminate) eq_refl picked_flash skipped_flash
    flash_but_last flash_cut body it s t v H Hit Et E) as [r1 [F1 C1]].
  destruct (read_cut (TAB :: lit "D Group") group_of pick_group group_is ltac:(discriminate) eq_refl picked_group skipped_group
    group_but_last group_cut body it s t v0 H Hit Et E0) as [r2 [F2 C2]].
  destruct (read_cut (TAB :: TAB :: lit "Event") event_of pick_event event_is ltac:(discriminate) eq_refl picked_event skipped_event
    event_but_last event_cut body it s t v1 H Hit Et E1) as [r3 [F3 C3]].
  split; [|split].
  - exists r1. split; [exact F1|]. destruct C1 as [C1|[l [a [b [P [I [B C]]]]]]]; [left; exact C1|right].
    exists l, a, b. split; [destruct it; cbn in P; congruence|auto].
  - exists r2. split; [exact F2|]. destruct C2 as [C2|[l [a [b [P [I [B C]]]]]]]; [left; exact C2|right].
    exists l, a, b. split; [destruct it; cbn in P; congruence|auto].
  - exists r3. split; [exact F3|]. destruct C3 as [C3|[l [a [b [P [I [B C]]]]]]]; [left; exact C3|right].
    exists l, a, b. split; [destruct it; cbn in P; congruence|auto].
Qed.

Lemma all_digits_b : forall ds, forallb (fun d => (0 <=? d) && (d <? 10)) ds = true -> all_digits ds.
Proof. intros ds H d Hd. rewrite forallb_forall in H. specialize (H d Hd). lia. Qed.

(** The last column of a cut line can be wrong without an error: 12 children cut to 1. *)
Theorem C57_cut_count_refuted : exists l s t a, lflash_ok l /\ flash_line l = s ++ t /\
  gen_flash_data s = Ok [a] /\ f_children a <> zvalue (lf_children l).
Proof.
  exists (mkLF (mkZ false [0]) (mkD false [5] [2] None) (mkD false [5] [3] None) (mkD true [4] [6; 8; 4] None)
    (mkD true [4; 7] [1] None) (mkD false [1] [8] (Some (mkZ true [1; 3]))) (mkD false [7; 1; 5] [9] None) (mkZ false [1; 2])).
  exists (removelast (flash_line (mkLF (mkZ false [0]) (mkD false [5] [2] None) (mkD false [5] [3] None) (mkD true [4] [6; 8; 4] None)
    (mkD true [4; 7] [1] None) (mkD false [1] [8] (Some (mkZ true [1; 3]))) (mkD false [7; 1; 5] [9] None) (mkZ false [1; 2])))).
  exists (lit "2"). eexists. split.
  - unfold lflash_ok, zlit_ok, dlit_ok. cbn [lf_id lf_first lf_last lf_lat lf_lon lf_energy lf_area lf_children
      z_digits d_int d_frac d_exp].
    repeat match goal with |- _ /\ _ => split end; try discriminate; try exact I;
    try (split; [|discriminate]); apply all_digits_b; reflexivity.
  - split; [reflexivity|]. split; [vm_compute; reflexivity|]. cbn. discriminate.
Qed.

(** A listing of one flash with one group and two events, among other lines. *)
Example C46_ex : exists text, text =
    lit "header" ++ [NL] ++
    lit "D Flash #7 Start Time:543398228.069 End Time:543398228.403 Centroid Lat:-4.684 Centroid Lon:-47.148 Energy:1.838e-13 Footprint:715.9 Child_Count:1" ++ [CR; NL] ++
    [TAB] ++ lit "D Group #3 Child #0 Start Time:543398228.069 End Time:543398228.069 Centroid Lat:-4.661 Centroid Lon:-47.120 Energy:9.202e-15 Footprint:179.2 Parent_ID:7 Child_Count:2" ++ [NL] ++
    [TAB; TAB] ++ lit "Event #0 Child #0 Time:543398228.069 X_Pixel:1197 Y_Pixel:748 Lat:-4.698 Lon:-47.116 Energy:4.811e-15 Parent_ID:3" ++ [NL] ++
    [TAB; TAB] ++ lit "Event #1 Child #1 Time:543398228.069 X_Pixel:1197 Y_Pixel:747 Lat:-4.621 Lon:-47.124 Energy:4.391e-15 Parent_ID:3" /\
  exists f g e1 e2, parse_LCFA_ASCII text = Ok ([f], [g], [e1; e2]) /\
    f_id f = 7 /\ (f_lat f == -4684 # 1000)%Q /\ g_parent g = 7 /\ g_children g = 2 /\
    e_x e1 = 1197 /\ e_id e2 = 1 /\ e_parent e2 = 3.
Proof.
  eexists. split; [reflexivity|]. eexists _, _, _, _. split; [vm_compute; reflexivity|].
  vm_compute. repeat split; reflexivity.
Qed.

Print Assumptions C46_records_kept.
Print Assumptions C46_one_kind.
Print Assumptions C57_cut_file_partial.
Print Assumptions C57_cut_count_refuted.
