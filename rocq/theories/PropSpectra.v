(** C116: the energy spectra of the flashes within moving polygons. *)
From Coq Require Import String Ascii List ZArith QArith Bool Lia Lqa Permutation Sorting.Sorted.
From Verif Require Import Base BaseProofs FileName FileNameSpec FileNameProofs FileNameProofs2 Traversal TraversalSpec TraversalProofs Glm GlmSpec GlmProofs GlmProofs2 GlmProofs3 PropGlm
  Pipeline ChunkSpec PropChunks Points PointsSpec PointsProofs PropPoints GridSetup GridSetupSpec GridSetupProofs Output OutputSpec OutputProofs OutputProofs2 OutputProofs3 PlotFiles PlotFilesProofs
  LassoTable LassoTableSpec PropLassoTable Spectra SpectraSpec.
Import ListNotations.
Open Scope string_scope.
Open Scope list_scope.
Open Scope Z_scope.

Local Notation fval := Glm.fval.

(** *** Histograms *)
Definition low (x : Q) (v : fval) : bool := match v with Some a => negb (Qle_bool x a) | None => false end.
Definition lowe (x : Q) (v : fval) : bool := match v with Some a => Qle_bool a x | None => false end.
Lemma Qnle : forall a b, Qle_bool a b = false <-> (b < a)%Q.
Proof. intros a b. split; intros H; [apply Qnot_le_lt; intros K; apply Qle_bool_iff in K; congruence|]. destruct (Qle_bool a b) eqn:E; [apply Qle_bool_iff in E; lra|reflexivity]. Qed.
Lemma number_filter : forall A (P : A -> Prop) (f g : A -> bool) l, (forall x, f x = true -> g x = true) -> (forall x, P x <-> g x = true /\ f x = false) ->
  number_of P l (Z.of_nat (List.length (filter g l)) - Z.of_nat (List.length (filter f l))).
Proof.
  intros A P f g l FG HP. induction l as [|x l IH]; [constructor|]. cbn [filter]. destruct (g x) eqn:G, (f x) eqn:F.
  - cbn [List.length]. replace (Z.of_nat _ - Z.of_nat _) with (Z.of_nat (List.length (filter g l)) - Z.of_nat (List.length (filter f l))) by lia. apply No_no; [rewrite HP; intros [_ K]; congruence|exact IH].
  - cbn [List.length]. replace (Z.of_nat _ - Z.of_nat _) with (Z.of_nat (List.length (filter g l)) - Z.of_nat (List.length (filter f l)) + 1) by lia. apply No_yes; [apply HP; auto|exact IH].
  - apply FG in F. congruence.
  - apply No_no; [rewrite HP; intros [K _]; congruence|exact IH].
Qed.
Lemma low_in : forall vs a b, (a <= b)%Q -> number_of (fun v => exists x, v = Some x /\ (a <= x)%Q /\ (x < b)%Q) vs (below vs b - below vs a).
Proof.
  intros vs a b H. unfold below. apply (number_filter _ _ (low a) (low b)).
  - intros [x|]; cbn; [|discriminate]. rewrite !negb_true_iff, !Qnle. lra.
  - intros [x|]; cbn; [|split; [intros (y & E & _); discriminate|intros [E _]; discriminate]]. rewrite negb_true_iff, negb_false_iff, Qnle, Qle_bool_iff.
    split; [intros (y & [= <-] & K); lra|]. intros K. exists x. split; [reflexivity|lra].
Qed.
Lemma lowe_in : forall vs a b, (a <= b)%Q -> number_of (fun v => exists x, v = Some x /\ (a <= x)%Q /\ (x <= b)%Q) vs (upto vs b - below vs a).
Proof.
  intros vs a b H. unfold below, upto. apply (number_filter _ _ (low a) (lowe b)).
  - intros [x|]; cbn; [|discriminate]. rewrite !negb_true_iff, !Qnle, Qle_bool_iff. lra.
  - intros [x|]; cbn; [|split; [intros (y & E & _); discriminate|intros [E _]; discriminate]]. rewrite negb_false_iff, !Qle_bool_iff.
    split; [intros (y & [= <-] & K); lra|]. intros K. exists x. split; [reflexivity|lra].
Qed.
Lemma number_ext : forall A (P P' : A -> Prop) l n, (forall x, P x <-> P' x) -> number_of P l n -> number_of P' l n.
Proof. intros A P P' l n E H. induction H; [constructor|constructor; [apply E|]; auto|apply No_no; [rewrite <- E|]; auto]. Qed.
Lemma number_map : forall A B (R : A -> B -> Prop) (P : A -> Prop) (P' : B -> Prop) l m n, (forall a b, R a b -> (P a <-> P' b)) -> Forall2 R l m -> number_of P' m n -> number_of P l n.
Proof.
  intros A B R P P' l m n E F. revert n. induction F as [|a b l m HR F IH]; intros n H; inversion H; subst; [constructor|apply No_yes; [rewrite (E a b HR)|]; auto|apply No_no; [rewrite (E a b HR)|]; auto].
Qed.
Lemma ordered_monotone : forall bins, ordered_bins bins -> monotone bins = true.
Proof.
  induction bins as [|a [|b r] IH]; intros H; [reflexivity|reflexivity|]. cbn [monotone]. apply andb_true_iff. split; [apply Qle_bool_iff; apply (H 0%nat a b); reflexivity|].
  apply IH. intros k x y Hx Hy. apply (H (S k) x y); auto.
Qed.
Lemma diffs_length : forall l, List.length (diffs l) = (List.length l - 1)%nat.
Proof. induction l as [|a [|b r] IH]; [reflexivity|reflexivity|]. cbn [diffs List.length] in *. rewrite IH. lia. Qed.
Lemma cumulated_length : forall vs bins, List.length (cumulated vs bins) = List.length bins.
Proof. intros vs. induction bins as [|a [|b r] IH]; [reflexivity|reflexivity|]. cbn [cumulated List.length] in *. rewrite IH. reflexivity. Qed.
Lemma hist_nth : forall vs bins k c, ordered_bins bins -> nth_error (diffs (cumulated vs bins)) k = Some c -> number_of (in_class bins k) vs c.
Proof.
  intros vs bins. induction bins as [|a r IH]; intros k c O H; [destruct k; discriminate|]. destruct r as [|b r]; [destruct k; discriminate|].
  assert (OR : ordered_bins (b :: r)) by (intros j x y Hx Hy; apply (O (S j) x y); auto). assert (AB : (a <= b)%Q) by (apply (O 0%nat a b); reflexivity).
  assert (EQ : cumulated vs (a :: b :: r) = below vs a :: cumulated vs (b :: r)) by reflexivity. rewrite EQ in H. clear EQ.
  destruct k as [|k].
  - destruct r as [|b' r].
    + cbn in H. injection H as <-. eapply number_ext; [|apply lowe_in; exact AB]. intros v. unfold in_class. cbn. split.
      * intros (x & -> & K1 & K2). exists x, a, b. repeat split; auto.
      * intros (x & a0 & b0 & -> & [= <-] & [= <-] & K1 & [K2|[_ K2]]); exists x; repeat split; auto; lra.
    + cbn in H. injection H as <-. eapply number_ext; [|apply low_in; exact AB]. intros v. unfold in_class. cbn. split.
      * intros (x & -> & K1 & K2). exists x, a, b. repeat split; auto.
      * intros (x & a0 & b0 & -> & [= <-] & [= <-] & K1 & [K2|[K _]]); [exists x; auto|discriminate].
  - assert (E : exists y l, cumulated vs (b :: r) = y :: l) by (destruct r; cbn; eauto). destruct E as (y & l & E). rewrite E in H. change (nth_error (diffs (y :: l)) k = Some c) in H. rewrite <- E in H.
    eapply number_ext; [|apply (IH k c OR H)]. intros v. unfold in_class. cbn [nth_error List.length]. split; intros (x & a0 & b0 & -> & E1 & E2 & K1 & K2); exists x, a0, b0; (repeat split; auto); (destruct K2 as [K2|[K3 K2]]; [left; auto|right; split; [lia|auto]]).
Qed.
Definition sum (l : list Z) : Z := fold_right Z.add 0 l.
Lemma sum_diffs : forall l a, sum (diffs (a :: l)) = last l a - a.
Proof. induction l as [|b l IH]; intros a; [cbn; lia|]. change (diffs (a :: b :: l)) with (b - a :: diffs (b :: l)). cbn [sum fold_right]. fold (sum (diffs (b :: l))). rewrite IH, last_step. lia. Qed.
Lemma last_cumulated : forall vs r b d, last (cumulated vs (b :: r)) d = upto vs (last r b).
Proof. intros vs. induction r as [|c r IH]; intros b d; [reflexivity|]. change (cumulated vs (b :: c :: r)) with (below vs b :: cumulated vs (c :: r)). rewrite last_step, IH, last_step. reflexivity. Qed.
Lemma ordered_last : forall r b, ordered_bins (b :: r) -> (b <= last r b)%Q.
Proof.
  induction r as [|c r IH]; intros b O; [cbn; lra|]. rewrite last_step. assert ((b <= c)%Q) by (apply (O 0%nat); reflexivity).
  pose proof (IH c ltac:(intros j x y Hx Hy; apply (O (S j) x y); auto)). lra.
Qed.

(** The counts of all classes add up to the number of flashes between the first and the last edge. *)
Theorem C116_counts_add_up : forall first rest areas, rest <> [] -> ordered_bins (first :: rest) ->
  exists counts, histogram (first :: rest) areas = Ok counts /\ S (List.length counts) = List.length (first :: rest) /\
    (forall k c, nth_error counts k = Some c -> number_of (in_class (first :: rest) k) areas c) /\
    number_of (fun v => exists x, v = Some x /\ (first <= x <= last rest first)%Q) areas (fold_right Z.add 0 counts).
Proof.
  intros a rest vs NE O. exists (diffs (cumulated vs (a :: rest))). split; [unfold histogram; rewrite (ordered_monotone _ O); reflexivity|].
  split; [rewrite diffs_length, cumulated_length; cbn; destruct rest; [congruence|cbn; lia]|]. split; [intros k c H; apply hist_nth; auto|].
  destruct rest as [|b r]; [congruence|]. change (cumulated vs (a :: b :: r)) with (below vs a :: cumulated vs (b :: r)). fold (sum (diffs (below vs a :: cumulated vs (b :: r)))).
  rewrite sum_diffs, last_cumulated, last_step. pose proof (ordered_last _ _ O) as L. rewrite last_step in L. exact (lowe_in vs a _ L).
Qed.
Print Assumptions C116_counts_add_up.

Lemma class_shift : forall a bins k v, in_class bins k v -> in_class (a :: bins) (S k) v.
Proof. intros a bins k v (x & u & w & E & E1 & E2 & K1 & K2). exists x, u, w. cbn [nth_error List.length]. repeat split; auto. destruct K2 as [?|[? ?]]; [left; auto|right; split; [lia|auto]]. Qed.
Lemma class_back : forall a b r k v, in_class (a :: b :: r) (S k) v -> in_class (b :: r) k v.
Proof. intros a b r k v (x & u & w & E & E1 & E2 & K1 & K2). exists x, u, w. cbn [nth_error List.length] in *. repeat split; auto. destruct K2 as [?|[? ?]]; [left; auto|right; split; [lia|auto]]. Qed.
Lemma class_bound : forall r b k x, StronglySorted Qlt (b :: r) -> in_class (b :: r) k (Some x) -> (b <= x)%Q.
Proof.
  intros r b k x S (y & u & w & [= <-] & E1 & _ & K1 & _). inversion S as [|? ? _ F]; subst. destruct k as [|k]; cbn in E1; [injection E1 as <-; exact K1|].
  apply nth_error_In in E1. rewrite Forall_forall in F. specialize (F u E1). lra.
Qed.
(** With increasing edges a flash whose area is between the first and the last is in exactly one class. *)
Theorem C116_one_class : forall first rest x, rest <> [] -> StronglySorted Qlt (first :: rest) -> (first <= x <= last rest first)%Q ->
  exists k, in_class (first :: rest) k (Some x) /\ forall k', in_class (first :: rest) k' (Some x) -> k' = k.
Proof.
  intros a rest x NE S B. revert a S B. induction rest as [|b r IH]; intros a S B; [congruence|]. rewrite last_step in B. inversion S as [|? ? S' F]; subst.
  destruct r as [|c r].
  - cbn in B. exists 0%nat. split; [exists x, a, b; repeat split; auto; [apply B|right; split; [reflexivity|apply B]]|]. intros k' (y & u & w & _ & _ & E2 & _). destruct k' as [|[|k']]; cbn in E2; [reflexivity|discriminate|discriminate].
  - destruct (Qlt_le_dec x b) as [L|L].
    + exists 0%nat. split; [exists x, a, b; repeat split; auto; apply B|]. intros [|k'] K; [reflexivity|]. apply class_back in K. apply class_bound in K; [lra|exact S'].
    + destruct (IH ltac:(discriminate) b S' ltac:(split; [exact L|apply B])) as (k & K & U). exists (Datatypes.S k). split; [apply class_shift; exact K|].
      intros [|k'] K'; [|f_equal; apply U; apply class_back in K'; exact K']. destruct K' as (y & u & w & [= <-] & [= <-] & [= <-] & _ & [K2|[K2 _]]); [lra|discriminate].
Qed.
Print Assumptions C116_one_class.

(** *** Names *)
Lemma fmt_ok : forall a b d s, brace_free s -> (forall t, format2 a b d = Ok t -> format2 a b (s ++ d) = Ok (s ++ t)).
Proof.
  intros a b d s [H1 H2] t E. induction s as [|c s IH]; [exact E|]. cbn [app format2].
  destruct (Ascii.eqb_spec c "{"); [subst; exfalso; apply H1; left; auto|]. destruct (Ascii.eqb_spec c "}"); [subst; exfalso; apply H2; left; auto|].
  rewrite IH; [reflexivity|intros K; apply H1; right; auto|intros K; apply H2; right; auto].
Qed.
Lemma name_ok : forall a b, format2 a b (lit "energy_spectrum_{0}_{1}.pdf") = Ok (lit "energy_spectrum_" ++ a ++ lit "_" ++ b ++ lit ".pdf").
Proof. intros a b. reflexivity. Qed.
Lemma join_cases : forall dir name, exists sep, join dir name = dir ++ sep ++ name /\ (sep = lit "/" \/ sep = [] /\ (dir = [] \/ exists d, dir = d ++ lit "/")).
Proof.
  intros dir name. unfold join. destruct (rev dir) as [|c r] eqn:E.
  - assert (dir = []) as -> by (apply (f_equal (@rev ascii)) in E; rewrite rev_involutive in E; exact E). exists []. split; [reflexivity|]. right. auto.
  - assert (ED : dir = rev r ++ [c]) by (apply (f_equal (@rev ascii)) in E; rewrite rev_involutive in E; exact E).
    destruct (Ascii.eqb_spec c "/"); [subst c; exists []; split; [reflexivity|right; split; [auto|right; exists (rev r); exact ED]]|]. exists (lit "/"). split; [reflexivity|left; auto].
Qed.
Lemma file_ok : forall dir, brace_free dir -> exists sep, (sep = lit "/" \/ sep = [] /\ (dir = [] \/ exists d, dir = d ++ lit "/")) /\
  forall e, spectrum_file dir e = Ok ((dir ++ sep) ++ lit "energy_spectrum_" ++ compact_time (fst e) ++ lit "_" ++ compact_time (snd e) ++ lit ".pdf").
Proof.
  intros dir B. destruct (join_cases dir (lit "energy_spectrum_{0}_{1}.pdf")) as (sep & EJ & C). exists sep. split; [exact C|]. intros e. unfold spectrum_file. rewrite EJ.
  rewrite app_assoc. apply fmt_ok; [|apply name_ok]. destruct B as [B1 B2]. assert (sep = lit "/" \/ sep = []) as [->| ->] by tauto; split; intros K; apply in_app_iff in K; cbn in K; intuition discriminate.
Qed.
Lemma digit_same : forall a b, 0 <= a < 10 -> 0 <= b < 10 -> digit a = digit b -> a = b.
Proof.
  intros a b A B E. unfold digit in E. apply (f_equal N_of_ascii) in E. rewrite !N_ascii_embedding in E by lia. lia.
Qed.
Lemma pad_same : forall k n m, 0 <= n < 10 ^ Z.of_nat k -> 0 <= m < 10 ^ Z.of_nat k -> pad k n = pad k m -> n = m.
Proof.
  induction k as [|k IH]; intros n m N M E; [cbn in N, M; lia|]. cbn [pad] in E. apply app_inj_tail in E. destruct E as [E1 E2].
  rewrite Nat2Z.inj_succ, Z.pow_succ_r in N, M by lia. pose proof (Z.mod_pos_bound n 10 ltac:(lia)). pose proof (Z.mod_pos_bound m 10 ltac:(lia)).
  apply digit_same in E2; [|lia|lia]. apply IH in E1; [|split; [apply Z.div_pos; lia|apply Z.div_lt_upper_bound; lia]|split; [apply Z.div_pos; lia|apply Z.div_lt_upper_bound; lia]].
  rewrite (Z.div_mod n 10), (Z.div_mod m 10) by lia. congruence.
Qed.
Lemma two_same : forall n m r s, 0 <= n < 100 -> 0 <= m < 100 -> pad 2 n ++ r = pad 2 m ++ s -> n = m /\ r = s.
Proof.
  intros n m r s N M E. assert (pad 2 n = pad 2 m /\ r = s) as [E1 E2].
  { assert (L : List.length (pad 2 n) = List.length (pad 2 m)) by (rewrite !pad_length; reflexivity). clear - E L. revert E L. generalize (pad 2 m). generalize (pad 2 n).
    induction l as [|x l IH]; intros [|y m'] E L; try discriminate; [auto|]. cbn in E. injection E as -> E. injection L as L. destruct (IH m' E L) as [-> ->]. auto. }
  split; [|exact E2]. apply (pad_same 2); auto.
Qed.
Lemma compact_eq : forall d, compact_time d = pad 2 (dt_year d mod 100) ++ pad 2 (fst (date_of d)) ++ pad 2 (snd (date_of d)) ++ pad 2 (dt_hour d) ++ pad 2 (dt_min d) ++ pad 2 (dt_sec d) ++ [].
Proof. reflexivity. Qed.
Lemma compact_second : forall cc a b r s, in_century cc a -> in_century cc b -> compact_time a ++ r = compact_time b ++ s -> to_second a = to_second b.
Proof.
  intros cc a b r s [VA YA] [VB YB] E.
  destruct (civil_of a VA) as [CA DA]. destruct (civil_of b VB) as [CB DB]. unfold civil_valid in CA, CB. cbn [c_year c_month c_day c_hour c_min c_sec] in CA, CB.
  assert (ML : forall y m, (month_length y m <= 31)%Z) by (intros y m; unfold month_length, days_in_year; destruct (m =? 2)%Z; [destruct (leap y); lia|]; destruct (_ || _)%bool; lia).
  pose proof (ML (dt_year a) (fst (date_of a))). pose proof (ML (dt_year b) (fst (date_of b))).
  destruct VA as [a1 a2 a3 a4 a5 a6 a7]. destruct VB as [b1 b2 b3 b4 b5 b6 b7]. rewrite !compact_eq, <- !app_assoc in E.
  apply two_same in E; [|apply Z.mod_pos_bound; lia|apply Z.mod_pos_bound; lia]. destruct E as [EY E].
  apply two_same in E; [|lia|lia]. destruct E as [EM E]. apply two_same in E; [|lia|lia]. destruct E as [ED E].
  apply two_same in E; [|lia|lia]. destruct E as [EH E]. apply two_same in E; [|lia|lia]. destruct E as [EI E]. apply two_same in E; [|lia|lia]. destruct E as [ES _].
  assert (EY' : dt_year a = dt_year b).
  { assert (MA : dt_year a mod 100 = dt_year a - cc * 100) by (symmetry; apply (Z.mod_unique _ _ cc); lia). assert (MB : dt_year b mod 100 = dt_year b - cc * 100) by (symmetry; apply (Z.mod_unique _ _ cc); lia). lia. }
  unfold to_second. rewrite EY', EH, EI, ES, <- DA, <- DB, EY', EM, ED. reflexivity.
Qed.
Lemma text_ok : forall d, valid_from 1 d -> time_text d (compact_time d).
Proof.
  intros d V. pose proof (fmt_filled [PStart [Diry; Dirm; Dird; DirH; DirM; DirS]] d d [] V V) as F. inversion F as [| | |f ts l p D N E1 E2|]; subst. inversion N; subst. rewrite app_nil_r in E2.
  exists ts. split; [exact D|]. rewrite E2. reflexivity.
Qed.
Lemma second_close : forall a b, valid_from 1 a -> valid_from 1 b -> to_second a = to_second b -> instant a < instant b + 1000000.
Proof.
  intros a b [_ _ _ _ _ _ a7] [_ _ _ _ _ _ b7] E. assert (EI : instant (to_second a) = instant (to_second b)) by congruence.
  unfold instant, to_second in *. cbn in *. lia.
Qed.
Lemma paths_distinct : forall cc p edges, Forall (in_century cc) edges -> StronglySorted (fun a b => instant a + 1000000 <= instant b) edges ->
  NoDup (map (fun e => p ++ lit "energy_spectrum_" ++ compact_time (fst e) ++ lit "_" ++ compact_time (snd e) ++ lit ".pdf") (windows_of edges)).
Proof.
  intros cc p edges C S. unfold windows_of. induction edges as [|a edges IH]; [constructor|]. inversion C; subst. inversion S as [|? ? S' F]; subst. destruct edges as [|b edges]; [constructor|].
  cbn [tl combine map]. constructor; [|apply IH; auto]. intros K. apply in_map_iff in K. destruct K as ([u v] & E & Hin). cbn [fst snd] in E. apply app_inv_head in E. apply app_inv_head in E.
  assert (Hu : In u (b :: edges)) by (eapply in_combine_l; exact Hin). rewrite Forall_forall in F. pose proof (F u Hu). rewrite Forall_forall in H2.
  pose proof (compact_second _ _ _ _ _ (H2 u Hu) H1 E) as T. pose proof (second_close u a (proj1 (H2 u Hu)) (proj1 H1) T). lia.
Qed.

(** When every file has a flash in the rectangle around the polygons, each window of time has a
    drawing in a file of its own, named after its start and end; its counts are the numbers of those flashes
    that count for the window and whose area is in the class. *)
Theorem C116_spectra_partial : forall set_order junk, (forall l, Permutation (set_order l) l) ->
  forall disk parent_base size_stats names ts t_start edges lonr latr lasso o outdir first rest century,
  run_ok disk size_stats names ts lonr latr lasso -> (forall n, In n names -> has_near disk lonr latr o n) -> (2 <= List.length edges)%nat ->
  rest <> [] -> ordered_bins (first :: rest) -> brace_free outdir ->
  Forall (in_century century) edges -> StronglySorted (fun a b => instant a + 1000000 <= instant b) edges ->
  let base := parent_base (nanos t_start) None in let bins := first :: rest in
  exists drawings, flash_spectra set_order junk disk parent_base names t_start edges lonr latr lasso o outdir bins = Ok drawings /\
    NoDup (map d_path drawings) /\
    Forall2 (fun e d => exists flashes t0 t1, NoDup flashes /\
        (forall n x, In (n, x) flashes <-> In n names /\ exists f, disk n = Ok f /\
           counts base lasso (so_area o) (so_alt o) (so_energy o) (so_events o) (so_groups o) e f x) /\
        time_text (fst e) t0 /\ time_text (snd e) t1 /\
        in_directory outdir (lit "energy_spectrum_" ++ t0 ++ lit "_" ++ t1 ++ lit ".pdf") (d_path d) /\
        d_bins d = bins /\ (d_duration d == inject_Z (instant (snd e) - instant (fst e)) / inject_Z 1000000)%Q /\
        S (List.length (d_counts d)) = List.length bins /\
        forall k c, nth_error (d_counts d) k = Some c -> number_of (fun nx => in_class bins k (o_area (rdat (snd nx)))) flashes c)
      (combine edges (tl edges)) drawings.
Proof.
  intros so junk HP disk pb stats names ts t_start edges lonr latr lasso o outdir first rest century R HN LE NE O BF CE SE base bins.
  destruct (series_cases so junk HP disk pb stats names ts (nanos t_start) lonr latr lasso o R) as [OKC _]. destruct (OKC HN) as (w & order & PN & SS & W). clear OKC. fold base in W.
  assert (ND : NoDup order) by (eapply Permutation_NoDup; [apply Permutation_sym; exact PN|apply (names_distinct disk names ts); apply R]).
  unfold flash_spectra. fold (box_query lonr latr o). rewrite SS. cbn [bind]. fold base.
  set (PS := fun e => List.concat (map (fun n => filter (keep base lasso o e) (snd (w n))) order)).
  set (hist := fun e => match histogram bins (map p_area (PS e)) with Ok c => c | Err _ => [] end).
  destruct (file_ok outdir BF) as (sep & SEP & PH).
  set (path := fun e : datetime * datetime => (outdir ++ sep) ++ lit "energy_spectrum_" ++ compact_time (fst e) ++ lit "_" ++ compact_time (snd e) ++ lit ".pdf") in *.
  set (draw := fun e : datetime * datetime => mkDrawing (path e) (hist e) bins (inject_Z (nanos (snd e) - nanos (fst e)) / inject_Z 1000000000)%Q).
  assert (HS : forall e, histogram bins (map p_area (PS e)) = Ok (hist e) /\ S (List.length (hist e)) = List.length bins /\
     forall k c, nth_error (hist e) k = Some c -> number_of (in_class bins k) (map p_area (PS e)) c).
  { intros e. destruct (C116_counts_add_up first rest (map p_area (PS e)) NE O) as (c & E & L & N & _). fold bins in E, L, N. unfold hist. rewrite E. auto. }
  assert (ST : forall wins, map_res (spectrum outdir bins) (combine (map (filtered (so_area o) (metres (so_alt o)) (so_energy o))
      (map (fun e => let ws := map (chopped lasso (edge_seconds base (fst e)) (edge_seconds base (snd e))) (map w order) in (List.concat (map fst ws), List.concat (map snd ws))) wins)) wins)
      = Ok (map draw wins)).
  { intros wins. rewrite map_map, combine_map. apply map_res_forall2. clear - HS PH. induction wins as [|e wins IH]; cbn [map]; constructor; [|exact IH].
    unfold spectrum. cbn [fst snd]. pose proof (window_flashes base lasso o e (map w order)) as WF. cbv zeta in WF. rewrite WF, map_map. fold (PS e). destruct (HS e) as (E & _). rewrite E. cbn [bind]. rewrite PH. reflexivity. }
  exists (map draw (windows_of edges)). split; [|split].
  - assert (NW : windows_of edges <> []) by (destruct edges as [|a [|b edges]]; cbn in LE |- *; [lia|lia|discriminate]).
    specialize (ST (windows_of edges)). unfold event_flash_series. cbv beta zeta in ST |- *. set (RHS := Ok (map draw (windows_of edges))) in *. clearbody RHS.
    destruct (windows_of edges); [congruence|exact ST].
  - rewrite map_map. unfold draw. cbn [d_path]. apply (paths_distinct century); auto.
  - fold (windows_of edges).
    assert (ALL : forall e, exists rows, NoDup rows /\
       (forall n x, In (n, x) rows <-> In n names /\ exists f, disk n = Ok f /\ counts base lasso (so_area o) (so_alt o) (so_energy o) (so_events o) (so_groups o) e f x) /\
       Forall2 (fun nx p => exists f, disk (fst nx) = Ok f /\ parent_point (t_first (g_clock f)) (t_last (g_clock f)) (Some base) (fun f => o_area (rdat f)) (snd nx) p) rows (PS e)).
    { intros e. destruct (all_rows so junk HP base lonr latr lasso o (r_box _ _ _ _ _ _ _ R) disk w e order ND W) as (rows & A & B & C). exists rows. split; [auto|]. split; [|exact C].
      intros n x. rewrite B. split; intros [Hn K]; (split; [|exact K]); [eapply Permutation_in; [exact PN|exact Hn]|eapply Permutation_in; [apply Permutation_sym; exact PN|exact Hn]]. }
    assert (IN : forall e, In e (windows_of edges) -> valid_from 1 (fst e) /\ valid_from 1 (snd e)).
    { intros [u v] He. unfold windows_of in He. rewrite Forall_forall in CE. split; apply CE; cbn [fst snd]; [eapply in_combine_l; exact He|]. apply in_combine_r in He. destruct edges; [destruct He|right; exact He]. }
    clear LE ST. induction (windows_of edges) as [|e wins IH]; cbn [map]; constructor; [|apply IH; intros e' He'; apply IN; right; exact He'].
    destruct (ALL e) as (rows & R1 & R2 & R3). destruct (IN e (or_introl eq_refl)) as [V0 V1]. exists rows, (compact_time (fst e)), (compact_time (snd e)).
    split; [exact R1|]. split; [exact R2|]. split; [apply text_ok; exact V0|]. split; [apply text_ok; exact V1|]. unfold draw. cbn [d_path d_bins d_duration d_counts].
    split; [unfold path, in_directory; destruct SEP as [->|[-> K]]; [left; rewrite <- app_assoc; reflexivity|right; rewrite app_nil_r; auto]|].
    split; [reflexivity|]. split.
    { unfold nanos. replace (1000 * instant (snd e) - 1000 * instant (fst e)) with (1000 * (instant (snd e) - instant (fst e))) by lia. rewrite inject_Z_mult. change (inject_Z 1000000000) with (inject_Z 1000 * inject_Z 1000000)%Q.
      field. }
    destruct (HS e) as (_ & L & N). split; [exact L|]. intros k c Hc. specialize (N k c Hc).
    apply (number_map _ _ (fun nx v => v = o_area (rdat (snd nx))) _ (in_class bins k) rows (map p_area (PS e))); [intros a v ->; reflexivity| |exact N].
    clear - R3. induction R3 as [|nx p rows ps (f & _ & K) _ IH]; cbn [map]; constructor; [|exact IH]. destruct K as (_ & K & _). exact K.
Qed.
Print Assumptions C116_spectra_partial.

(** A directory whose name has a part in braces is taken as part of the template, and nothing is
    drawn. *)
Theorem C116_braces_refuted : forall set_order junk disk parent_base names t_start edges lonr latr lasso o bins d c e post,
  brace_free d -> c <> "{"%char -> e <> "}"%char -> (2 <= List.length edges)%nat ->
  exists err, flash_spectra set_order junk disk parent_base names t_start edges lonr latr lasso o (d ++ "{"%char :: c :: e :: post) bins = Err err.
Proof.
  intros so junk disk pb names t_start edges lonr latr lasso o bins d c e post [B1 B2] Hc He LE. unfold flash_spectra.
  destruct (subset_series _ _ _ _ _ _ _ _) as [files|x]; [|exists x; reflexivity]. cbn [bind]. unfold event_flash_series. rewrite map_map.
  assert (NW : exists w ws, windows_of edges = w :: ws) by (destruct edges as [|a [|b edges]]; cbn in LE |- *; [lia|lia|eauto]). destruct NW as (w & ws & ->).
  cbn [map combine map_res]. unfold spectrum at 1. cbn [fst snd]. destruct (histogram _ _) as [hs|x]; [|exists x; reflexivity]. cbn [bind].
  assert (F : exists x, spectrum_file (d ++ "{"%char :: c :: e :: post) w = Err x).
  { exists KeyError. unfold spectrum_file. destruct (join_cases (d ++ "{"%char :: c :: e :: post) (lit "energy_spectrum_{0}_{1}.pdf")) as (sep & -> & _).
    generalize (compact_time (fst w)) (compact_time (snd w)). intros a b. rewrite <- app_assoc. cbn [app]. clear LE. induction d as [|x d IH].
    - cbn [app format2]. change (Ascii.eqb "{" "{") with true. cbv iota. destruct (Ascii.eqb_spec c "{"); [congruence|]. destruct (Ascii.eqb_spec e "}"); [congruence|]. reflexivity.
    - cbn [app format2]. destruct (Ascii.eqb_spec x "{"); [subst; exfalso; apply B1; left; auto|]. destruct (Ascii.eqb_spec x "}"); [subst; exfalso; apply B2; left; auto|].
      rewrite IH; [reflexivity|intros K; apply B1; right; auto|intros K; apply B2; right; auto]. }
  destruct F as (x & ->). exists x. reflexivity.
Qed.
Print Assumptions C116_braces_refuted.

(** The run of C114, in classes of area from 0 to 5, 5 to 20 and 20 to 100; its flashes are of area 10. *)
Example C116_hypotheses : Forall (in_century 0) lt_edges /\ StronglySorted (fun a b => instant a + 1000000 <= instant b) lt_edges /\ ordered_bins [0; 5; 20; 100]%Q /\ brace_free (lit "figures-length/west") /\
  (forall n, In n ["b"; "a"] -> has_near lt_disk (0, 5 # 2)%Q (0, 2)%Q (lt_opts 1) n) /\ run_ok lt_disk lt_stats ["b"; "a"] [10; 0] (0, 5 # 2)%Q (0, 2)%Q west.
Proof.
  split; [constructor; [|constructor; [|constructor; [|constructor; [|constructor]]]]; (split; [constructor; cbn; try lia; intros K; discriminate K|cbn; lia])|]. split; [repeat constructor; vm_compute; discriminate|].
  split; [intros [|[|[|[|k]]]] a b E1 E2; cbn in E1, E2; try discriminate; injection E1 as <-; injection E2 as <-; vm_compute; discriminate|].
  split; [split; intros K; cbn in K; intuition discriminate|]. split; [apply C114_table_ex|apply lt_run].
Qed.
Example C116_run_ex : exists ds, flash_spectra (fun l => l) (fun _ => mkChild 0 0 None None None None) lt_disk lt_base ["b"; "a"] (mkDT 1 1 0 0 0 0) lt_edges (0, 5 # 2)%Q (0, 2)%Q west (lt_opts 1)
    (lit "out") [0; 5; 20; 100]%Q = Ok ds /\ map d_counts ds = [[0; 1; 0]; [0; 1; 0]; [0; 0; 0]] /\
    hd [] (map d_path ds) = lit "out/energy_spectrum_010101000000_010101000010.pdf".
Proof. eexists. split; [vm_compute; reflexivity|]. split; vm_compute; reflexivity. Qed.
Example C116_class_ex : StronglySorted Qlt [0; 5; 20; 100]%Q /\ (0 <= 20 <= last [5; 20; 100] 0)%Q /\ in_class [0; 5; 20; 100]%Q 2 (Some 20%Q).
Proof. split; [repeat constructor|]. split; [split; vm_compute; discriminate|]. exists 20%Q, 20%Q, 100%Q. repeat split; [vm_compute; discriminate|left; reflexivity]. Qed.
Example C116_braces_ex : brace_free (lit "figures-length/") /\ lit "figures-length/{storm}" = lit "figures-length/" ++ "{"%char :: "s"%char :: "t"%char :: lit "orm}".
Proof. split; [split; intros K; cbn in K; intuition discriminate|reflexivity]. Qed.
