(** C45 and C58: the example driver. *)
From Coq Require Import List ZArith QArith Qround Qabs Bool Ascii String Lia Lqa SpecFloat.
From Verif Require Import Base BaseProofs Glm Lut FileName FileNameSpec FileNameProofs FileNameProofs2 PropFileName Imagery Tiles TilesSpec TilesProofs PropTiles Unsigned GridSetup GridSetupSpec GridSetupProofs GridSetupProofs2.
Import ListNotations.

(** * C58 *)
Open Scope Z_scope.
(** Files whose names follow the convention, in any order and in any directories, no times
    on the command line: the window starts with the earliest file and ends twenty seconds
    after the start of the latest. *)
Theorem C58_window_from_names : forall fs, fs <> [] -> (forall f, In f fs -> named_ok f) ->
  exists start end_ first last, time_window (map path_of fs) None None = Ok (start, end_) /\
    In first fs /\ start = n_start first /\ (forall f, In f fs -> instant start <= instant (n_start f)) /\
    In last fs /\ instant end_ = instant (n_start last) + seconds 20 /\ (forall f, In f fs -> instant (n_start f) + seconds 20 <= instant end_).
Proof.
  intros fs NE H. assert (V : forall d, In d (map n_start fs) -> valid_from 1 d /\ dt_year d < 9999).
  { intros d Hd. apply in_map_iff in Hd. destruct Hd as (f & <- & Hf). destruct (H f Hf) as (_ & _ & _ & A & _ & _ & _ & _ & _ & B). auto. }
  unfold time_window. rewrite starts_of by auto. cbn [bind].
  destruct (dt_min_list (map n_start fs)) as [m|x] eqn:E1; [|destruct fs; [congruence|discriminate]].
  destruct (dt_max_list (map n_start fs)) as [M|x] eqn:E2; [|destruct fs; [congruence|discriminate]].
  apply dt_min_spec in E1; [|intros; apply V; auto]. apply dt_max_spec in E2; [|intros; apply V; auto]. destruct E1 as [I1 B1]. destruct E2 as [I2 B2].
  destruct (add20_spec M) as (e & A & _ & I); [apply V; auto ..|]. cbn [bind]. rewrite A. cbn [bind].
  apply in_map_iff in I1. destruct I1 as (f1 & F1 & F1'). apply in_map_iff in I2. destruct I2 as (f2 & F2 & F2').
  exists m, e, f1, f2. split; [reflexivity|]. split; [exact F1'|]. split; [congruence|]. split; [intros f Hf; apply B1; apply in_map; auto|]. split; [exact F2'|].
  split; [rewrite F2; exact I|]. intros f Hf. rewrite I. pose proof (B2 (n_start f) ltac:(apply in_map; auto)). lia.
Qed.
Print Assumptions C58_window_from_names.
(** Files that follow one another every twenty seconds: the window is exactly as long as
    the files together, whatever their order, and every instant covered by a file is in
    the window. *)
Corollary C58_consecutive_files : forall fs t0, fs <> [] -> (forall f, In f fs -> named_ok f) ->
  (forall k, (k < List.length fs)%nat -> exists f, In f fs /\ instant (n_start f) = t0 + seconds (20 * Z.of_nat k)) ->
  (forall f, In f fs -> exists k, (k < List.length fs)%nat /\ instant (n_start f) = t0 + seconds (20 * Z.of_nat k)) ->
  exists start end_, time_window (map path_of fs) None None = Ok (start, end_) /\
    instant start = t0 /\ instant end_ - instant start = seconds (20 * Z.of_nat (List.length fs)) /\
    forall t f, In f fs -> instant (n_start f) <= t < instant (n_start f) + seconds 20 -> instant start <= t < instant end_.
Proof.
  intros fs t0 NE H ALL ONLY. destruct (C58_window_from_names fs NE H) as (s & e & f1 & f2 & E & I1 & S1 & B1 & I2 & E2 & B2). exists s, e. split; [exact E|].
  assert (L : (0 < List.length fs)%nat) by (destruct fs; [congruence|simpl; lia]).
  assert (A : instant s = t0).
  { destruct (ALL 0%nat L) as (g & G1 & G2). destruct (ONLY f1 I1) as (k & _ & K). pose proof (B1 g G1). rewrite <- S1 in K. unfold seconds in *. lia. }
  assert (B : instant e = t0 + seconds (20 * Z.of_nat (List.length fs))).
  { destruct (ALL (List.length fs - 1)%nat ltac:(lia)) as (g & G1 & G2). destruct (ONLY f2 I2) as (k & K1 & K). pose proof (B2 g G1). unfold seconds in *. lia. }
  split; [exact A|]. split; [lia|]. intros t f Hf Ht. pose proof (B1 f Hf). pose proof (B2 f Hf). lia.
Qed.
Print Assumptions C58_consecutive_files.
(** Times on the command line are used as given, to the second; anything after the seconds
    is ignored.  The other end still comes from the names. *)
Theorem C58_command_line_times : forall fs c1 c2 rest1 rest2, fs <> [] -> (forall f, In f fs -> named_ok f) -> civil_valid c1 -> civil_valid c2 ->
  (exists s e, time_window (map path_of fs) (Some (iso c1 ++ rest1)) (Some (iso c2 ++ rest2)) = Ok (s, e) /\ instant s = civil_instant c1 /\ instant e = civil_instant c2) /\
  (exists s e s' e', time_window (map path_of fs) (Some (iso c1 ++ rest1)) None = Ok (s, e) /\ time_window (map path_of fs) None None = Ok (s', e') /\
     instant s = civil_instant c1 /\ e = e') /\
  (exists s e s' e', time_window (map path_of fs) None (Some (iso c2 ++ rest2)) = Ok (s, e) /\ time_window (map path_of fs) None None = Ok (s', e') /\
     s = s' /\ instant e = civil_instant c2).
Proof.
  intros fs c1 c2 r1 r2 NE H V1 V2. destruct (strptime_iso_spec c1 r1 V1) as (d1 & P1 & _ & I1 & _). destruct (strptime_iso_spec c2 r2 V2) as (d2 & P2 & _ & I2 & _).
  destruct (C58_window_from_names fs NE H) as (s & e & _ & _ & E & _). unfold time_window in *. rewrite starts_of in * by auto. cbn [bind] in *. rewrite P1, P2. cbn [bind].
  destruct (dt_min_list (map n_start fs)) as [m|x]; [|discriminate]. cbn [bind] in *. destruct (dt_max_list (map n_start fs)) as [M|x]; [|discriminate]. cbn [bind] in *. destruct (add20 M) as [e'|x]; [|discriminate]. cbn [bind] in *.
  split; [|split]; repeat eexists; eauto.
Qed.
Print Assumptions C58_command_line_times.

(** Conversely, a text is taken as a time only if it names one that exists; any other text ends the setup
    with an exception. *)
Theorem C58_only_times_accepted : forall paths a b s e,
  time_window paths a b = Ok (s, e) ->
  (forall t, a = Some t -> exists c, civil_valid c /\ names_time c (firstn 19 t) /\ instant s = civil_instant c) /\
  (forall t, b = Some t -> exists c, civil_valid c /\ names_time c (firstn 19 t) /\ instant e = civil_instant c).
Proof.
  intros paths a b s e H. unfold time_window in H. destruct (filename_starts paths) as [l|]; [|discriminate]. cbn [bind] in H.
  destruct a as [ta|]; destruct b as [tb|]; cbn [bind] in H.
  - destruct (strptime_iso (firstn 19 ta)) as [ds|] eqn:E1; [|discriminate]. cbn [bind] in H.
    destruct (strptime_iso (firstn 19 tb)) as [de|] eqn:E2; [|discriminate]. cbn [bind] in H. injection H as <- <-.
    apply strptime_iso_inv in E1. apply strptime_iso_inv in E2. destruct E1 as (c1 & A1 & B1 & C1 & _). destruct E2 as (c2 & A2 & B2 & C2 & _).
    split; intros t Ht; injection Ht as <-; eauto.
  - destruct (strptime_iso (firstn 19 ta)) as [ds|] eqn:E1; [|discriminate]. cbn [bind] in H.
    apply strptime_iso_inv in E1. destruct E1 as (c1 & A1 & B1 & C1 & _).
    match type of H with bind ?x _ = _ => destruct x as [de|]; [|discriminate] end. cbn [bind] in H. injection H as <- <-.
    split; intros t Ht; [injection Ht as <-; eauto|discriminate].
  - match type of H with bind ?x _ = _ => destruct x as [ds|]; [|discriminate] end. cbn [bind] in H.
    destruct (strptime_iso (firstn 19 tb)) as [de|] eqn:E2; [|discriminate]. cbn [bind] in H. injection H as <- <-.
    apply strptime_iso_inv in E2. destruct E2 as (c2 & A2 & B2 & C2 & _).
    split; intros t Ht; [discriminate|injection Ht as <-; eauto].
  - split; intros t Ht; discriminate.
Qed.
Print Assumptions C58_only_times_accepted.
Example C58_accepted : exists s e, time_window [] (Some (lit "2018-7- 2t4:33:00")) (Some (lit "2020-02-29T23:59:59.5")) = Ok (s, e) /\
  time_window [] (Some (lit "2018-07-02T24:00:00")) (Some (lit "2018-07-03T00:00:00")) = Err ValueError /\
  time_window [] (Some (lit "2019-02-29T00:00:00")) (Some (lit "2019-03-01T00:00:00")) = Err ValueError.
Proof. do 2 eexists. vm_compute. auto. Qed.

(** Names that do not follow the convention: with both times given the setup goes on,
    provided that the failure is a ValueError; without one of the times it ends with
    UnboundLocalError. *)
Theorem C58_other_names_partial : forall paths c1 c2 rest1 rest2, map_res (fun p => parse_filename (basename p)) paths = Err ValueError -> civil_valid c1 -> civil_valid c2 ->
  (exists s e, time_window paths (Some (iso c1 ++ rest1)) (Some (iso c2 ++ rest2)) = Ok (s, e) /\ instant s = civil_instant c1 /\ instant e = civil_instant c2) /\
  (forall e, time_window paths None e = Err UnboundLocalError) /\ time_window paths (Some (iso c1 ++ rest1)) None = Err UnboundLocalError.
Proof.
  intros paths c1 c2 r1 r2 H V1 V2. destruct (strptime_iso_spec c1 r1 V1) as (d1 & P1 & _ & I1 & _). destruct (strptime_iso_spec c2 r2 V2) as (d2 & P2 & _ & I2 & _).
  unfold time_window, filename_starts. rewrite H. cbn [bind]. rewrite P1, P2. cbn [bind]. split; [|split; reflexivity]. exists d1, d2. auto.
Qed.
Print Assumptions C58_other_names_partial.

Lemma split_count : forall s, List.length (split_us s) = S (count_occ Ascii.ascii_dec s "_"%char).
Proof.
  induction s as [|c s IH]; [reflexivity|]. cbn [split_us count_occ]. destruct (Ascii.ascii_dec c "_") as [->|N].
  - rewrite Ascii.eqb_refl. cbn [List.length]. rewrite IH. reflexivity.
  - rewrite aeqb_neq by auto. destruct (split_us s); cbn [List.length] in *; [discriminate|exact IH].
Qed.
Lemma remove_count : forall n s, (List.length s <= n)%nat -> (count_occ Ascii.ascii_dec (remove_nc s) "_"%char <= count_occ Ascii.ascii_dec s "_"%char)%nat.
Proof.
  induction n as [|n IH]; intros s L; [destruct s; [auto|simpl in L; lia]|].
  destruct s as [|c r]; [auto|]. destruct r as [|a [|b r]].
  - cbn [remove_nc]. auto.
  - cbn [remove_nc]. auto.
  - assert (A : (count_occ Ascii.ascii_dec (remove_nc (a :: b :: r)) "_"%char <= count_occ Ascii.ascii_dec (a :: b :: r) "_"%char)%nat) by (apply IH; simpl in *; lia).
    assert (B : (count_occ Ascii.ascii_dec (remove_nc r) "_"%char <= count_occ Ascii.ascii_dec r "_"%char)%nat) by (apply IH; simpl in *; lia).
    change (remove_nc (c :: a :: b :: r)) with (if (Ascii.eqb c "." && Ascii.eqb a "n" && Ascii.eqb b "c")%bool then remove_nc r else c :: remove_nc (a :: b :: r)).
    destruct (Ascii.eqb c "." && Ascii.eqb a "n" && Ascii.eqb b "c")%bool.
    + cbn [count_occ]. destruct (Ascii.ascii_dec c "_"), (Ascii.ascii_dec a "_"), (Ascii.ascii_dec b "_"); lia.
    + set (R := remove_nc (a :: b :: r)) in *. clearbody R. set (T := a :: b :: r) in *. clearbody T. cbn [count_occ]. destruct (Ascii.ascii_dec c "_"); lia.
Qed.
Lemma remove_count_eq : forall n s, (List.length s <= n)%nat -> count_occ Ascii.ascii_dec (remove_nc s) "_"%char = count_occ Ascii.ascii_dec s "_"%char.
Proof.
  induction n as [|n IH]; intros s L; [destruct s; [auto|simpl in L; lia]|].
  destruct s as [|c r]; [auto|]. destruct r as [|a [|b r]].
  - cbn [remove_nc]. auto.
  - cbn [remove_nc]. auto.
  - assert (A : count_occ Ascii.ascii_dec (remove_nc (a :: b :: r)) "_"%char = count_occ Ascii.ascii_dec (a :: b :: r) "_"%char) by (apply IH; simpl in *; lia).
    assert (B : count_occ Ascii.ascii_dec (remove_nc r) "_"%char = count_occ Ascii.ascii_dec r "_"%char) by (apply IH; simpl in *; lia).
    change (remove_nc (c :: a :: b :: r)) with (if (Ascii.eqb c "." && Ascii.eqb a "n" && Ascii.eqb b "c")%bool then remove_nc r else c :: remove_nc (a :: b :: r)).
    destruct (Ascii.eqb c "." && Ascii.eqb a "n" && Ascii.eqb b "c")%bool eqn:E.
    + apply andb_prop in E. destruct E as [E E3]. apply andb_prop in E. destruct E as [E1 E2].
      apply Ascii.eqb_eq in E1, E2, E3. subst. rewrite B. reflexivity.
    + set (R := remove_nc (a :: b :: r)) in *. clearbody R. set (T := a :: b :: r) in *. clearbody T. cbn [count_occ]. destruct (Ascii.ascii_dec c "_"); lia.
Qed.
Lemma strptime_raises : forall s x, strptime s = Err x -> x = ValueError.
Proof.
  intros s x. unfold strptime. destruct (re_match _ s) as [[v r]|]; [|congruence].
  destruct v as [|y [|j [|h [|m [|sec [|? ?]]]]]]; destruct r; try congruence.
  destruct (y <? 1); [congruence|]. destruct (days_in_year y <? j); (destruct (9999 <? _); [congruence|]; destruct (59 <? sec); congruence).
Qed.
Lemma parse_time_raises : forall s x, parse_time s = Err x -> x = ValueError.
Proof.
  intros s x. unfold parse_time. destruct (strptime (middle s)) as [d|y] eqn:E.
  - cbn [bind]. destruct (rev s) eqn:R.
    + apply (f_equal (@rev _)) in R. rewrite rev_involutive in R. subst s. discriminate E.
    + destruct (digit_val _); congruence.
  - cbn [bind]. intros H. injection H as <-. exact (strptime_raises _ _ E).
Qed.
(** Names with at least five underscores: whatever is between them, explicit times are enough.  Reading such a
    name never raises anything but the ValueError that the driver handles. *)
Theorem C58_explicit_times_partial : forall paths c1 c2 rest1 rest2,
  (forall p, In p paths -> (5 <= count_occ Ascii.ascii_dec (basename p) "_"%char)%nat) -> civil_valid c1 -> civil_valid c2 ->
  exists s e, time_window paths (Some (iso c1 ++ rest1)) (Some (iso c2 ++ rest2)) = Ok (s, e) /\ instant s = civil_instant c1 /\ instant e = civil_instant c2.
Proof.
  intros paths c1 c2 r1 r2 H V1 V2. destruct (strptime_iso_spec c1 r1 V1) as (d1 & P1 & _ & I1 & _). destruct (strptime_iso_spec c2 r2 V2) as (d2 & P2 & _ & I2 & _).
  unfold time_window. rewrite P1, P2.
  assert (E : exists o, filename_starts paths = Ok o).
  { unfold filename_starts. destruct (map_res (fun p => parse_filename (basename p)) paths) as [l|x] eqn:M; [eauto|].
    assert (x = ValueError) as ->; [|eauto]. clear - H M. induction paths as [|p paths IH]; [discriminate|]. cbn [map_res] in M.
    destruct (parse_filename (basename p)) as [v|y] eqn:F; cbn [bind] in M.
    - destruct (map_res _ paths) as [w|z] eqn:M'; cbn [bind] in M; [discriminate|]. apply IH; [intros q Hq; apply H; right; auto|congruence].
    - assert (y = x) as -> by congruence. clear M IH. specialize (H p (or_introl eq_refl)). unfold parse_filename in F.
      set (parts := split_us (remove_nc (basename p))) in F.
      assert (L : (6 <= List.length parts)%nat) by (subst parts; rewrite split_count, (remove_count_eq _ _ (le_n _)); lia).
      clearbody parts. do 6 (destruct parts as [|? parts]; [cbn in L; lia|]). cbn in F.
      repeat match type of F with (match parse_time ?s with _ => _ end) = _ => let z := fresh in destruct (parse_time s) eqn:z; [cbn in F|injection F as <-; apply parse_time_raises in z; exact z] 
        | bind (parse_time ?s) _ = _ => let z := fresh in destruct (parse_time s) eqn:z; [cbn in F|injection F as <-; apply parse_time_raises in z; exact z] end.
      discriminate. }
  destruct E as [o E]. rewrite E. cbn [bind]. exists d1, d2. auto.
Qed.
Print Assumptions C58_explicit_times_partial.
Example C58_ex_explicit : forall p, In p [lit "dir/a_b_c_d_e_f.nc"; lit "OR_GLM-L2-LCFA_G16_s20181830433000_e20181830433200_c20181830433231.nc"] ->
  (5 <= count_occ Ascii.ascii_dec (basename p) "_"%char)%nat.
Proof. intros p [<-|[<-|[]]]; vm_compute; repeat constructor. Qed.

(** A name with fewer than three underscores, after files with standard names, ends the
    setup with IndexError even though both times are given: the message of the handler
    promises otherwise. *)
Theorem C58_other_names_refuted : forall fs p rest start end_, (forall f, In f fs -> named_ok f) ->
  (count_occ Ascii.ascii_dec (basename p) "_"%char < 3)%nat ->
  time_window (map path_of fs ++ p :: rest) start end_ = Err IndexError.
Proof.
  intros fs p rest start end_ H C. unfold time_window, filename_starts.
  assert (E : map_res (fun p => parse_filename (basename p)) (map path_of fs ++ p :: rest) = Err IndexError); [|rewrite E; reflexivity].
  induction fs as [|f fs IH].
  - cbn [map app map_res]. unfold parse_filename. set (parts := split_us (remove_nc (basename p))).
    assert (L : (List.length parts <= 3)%nat) by (subst parts; rewrite split_count; pose proof (remove_count _ (basename p) (le_n _)); lia).
    assert (N : nth_error parts 3 = None) by (apply nth_error_None; lia). unfold nth_res at 4. rewrite N. unfold nth_res.
    destruct (nth_error parts 0); [|reflexivity]. cbn [bind]. destruct (nth_error parts 1); [|reflexivity]. cbn [bind]. destruct (nth_error parts 2); reflexivity.
  - cbn [map app map_res]. rewrite parse_path by (apply H; left; auto). cbn [bind]. rewrite IH by (intros; apply H; right; auto). reflexivity.
Qed.
Print Assumptions C58_other_names_refuted.

(** Three files of July 2nd, 2018, not in order. *)
Definition nm (m s : Z) : named := mkNamed (Some (lit "/data/L2")) (lit "OR") (lit "GLM-L2-LCFA") (lit "G16") (mkDT 2018 183 4 m s 0) (mkDT 2018 183 4 m (s + 19) 900000) (mkDT 2018 183 4 33 0 500000).
Example C58_ex_hyp : forall f, In f [nm 30 20; nm 30 0; nm 30 40] -> named_ok f.
Proof.
  assert (P : forall s, In s [lit "OR"; lit "GLM-L2-LCFA"; lit "G16"] -> plain s).
  { intros s [<-|[<-|[<-|[]]]]; (split; [split; [simpl; intuition discriminate|apply no_dot_no_nc; simpl; intuition discriminate]|simpl; intuition discriminate]). }
  intros f [<-|[<-|[<-|[]]]]; unfold named_ok, nm; cbn [n_env n_alg n_plat n_start n_end n_created]; repeat match goal with |- _ /\ _ => split end; try (apply P; simpl; tauto); try (constructor; cbn; lia); try (cbn; lia); unfold in_tenths; cbn [dt_us]; first [exists 0; reflexivity | exists 5; reflexivity | exists 9; reflexivity].
Qed.
Example C58_ex : path_of (nm 30 20) = lit "/data/L2/OR_GLM-L2-LCFA_G16_s20181830430200_e20181830430399_c20181830433005.nc" /\
  time_window (map path_of [nm 30 20; nm 30 0; nm 30 40]) None None = Ok (mkDT 2018 183 4 30 0 0, mkDT 2018 183 4 31 0 0) /\
  time_window (map path_of [nm 30 20]) (Some (lit "2018-07-02T04:30:00Z")) None = Ok (mkDT 2018 183 4 30 0 0, mkDT 2018 183 4 30 40 0).
Proof. vm_compute. auto. Qed.
Example C58_ex_civil : civil_valid (mkCivil 2018 7 2 4 30 0) /\ iso (mkCivil 2018 7 2 4 30 0) = lit "2018-07-02T04:30:00" /\ civil_instant (mkCivil 2018 7 2 4 30 0) = instant (mkDT 2018 183 4 30 0 0).
Proof. split; [unfold civil_valid; cbn; lia|split; vm_compute; reflexivity]. Qed.
Example C58_ex_other : map_res (fun p => parse_filename (basename p)) [lit "dir/a_b_c_d_e_f.nc"] = Err ValueError /\
  time_window [lit "dir/glm_subset.nc"] (Some (lit "2018-07-02T04:30:00")) (Some (lit "2018-07-02T04:31:00")) = Err IndexError.
Proof. vm_compute. auto. Qed.
(** Over the end of a year. *)
Example C58_ex_new_year : add20 (mkDT 2016 366 23 59 40 0) = Ok (mkDT 2017 1 0 0 0 0).
Proof. reflexivity. Qed.

(** * C45 *)
Open Scope Q_scope.
Section C45.
Variable goes_grid : string -> string -> string -> res view.
Variable to_grid to_lonlat : Q -> Q * Q -> Q * Q.
Variable dlonlat : Q * Q -> Q * Q -> Q * Q -> Q * Q -> (Q * Q) * (Q * Q) * (Q * Q).
Let setup := grid_setup goes_grid to_grid to_lonlat dlonlat.

(** What it means for bounds to be those of [n] cells of size [d] around [ctr]; the
    gridder makes [n] cells of them. *)
Definition cells_around (bnd : Q * Q) (n : nat) (d ctr : Q) : Prop :=
  fst bnd + snd bnd == 2 * ctr /\ snd bnd - fst bnd == inject_Z (Z.of_nat n) * d /\ List.length (centers (grid_edges bnd d)) = n.
Lemma around : forall n d ctr, (0 <= n)%Z -> 0 < d -> exists b, axis_bnd n d ctr = Ok b /\ cells_around b (Z.to_nat n) d ctr.
Proof.
  intros n d ctr N D. destruct (axis_bnd_spec n d ctr N D) as (lo & hi & E & L & H). exists (lo, hi). split; [exact E|]. unfold cells_around. cbn [fst snd].
  assert (W : hi - lo == inject_Z (Z.of_nat (Z.to_nat n)) * d) by (rewrite Z2Nat.id, L, H by auto; field).
  split; [rewrite L, H; field|]. split; [exact W|].
  assert (FL : forall a b, qlist_eq a b -> List.length a = List.length b) by (intros a b K; induction K; cbn; congruence).
  rewrite (FL _ _ (whole_cells (lo, hi) d (Z.to_nat n) D W)). apply cells_length.
Qed.

(** Position, centre, width and height: the bounds are symmetric about the centre, the
    spacing is that of one kilometre times the one asked for, and the number of cells is
    the largest that fits. *)
Theorem C45_custom_grid : forall a v s e, a_fixed_grid a = true -> a_position a <> "none"%string -> a_sector a = "none"%string ->
  time_window (a_paths a) (a_start a) (a_end a) = Ok (s, e) -> goes_grid (a_position a) "full" "1.0km" = Ok v ->
  0 < vw_res v -> 0 < a_dx a -> 0 < a_dy a -> 0 <= a_width a -> 0 <= a_height a ->
  exists g nx ny, setup a = Ok (a_paths a, s, e, g) /\
    g_dx g == a_dx a * vw_res v /\ g_dy g == a_dy a * vw_res v /\
    inject_Z (Z.of_nat nx) * a_dx a <= a_width a < (inject_Z (Z.of_nat nx) + 1) * a_dx a /\
    inject_Z (Z.of_nat ny) * a_dy a <= a_height a < (inject_Z (Z.of_nat ny) + 1) * a_dy a /\
    (let ctr := to_grid (vw_nadir v) (a_lon a, a_lat a) in
     cells_around (g_xbnd g) nx (g_dx g) (fst ctr) /\ cells_around (g_ybnd g) ny (g_dy g) (snd ctr) /\ g_ctr g = to_lonlat (vw_nadir v) ctr) /\
    g_nadir g = Some (vw_nadir v) /\ g_fixed g = true.
Proof.
  intros a v s e FX P S W V R DX DY WD HT. unfold setup, grid_setup. rewrite W. cbn [bind fst snd]. rewrite FX.
  unfold fixed_spec. apply String.eqb_neq in P. rewrite P, S. cbn [negb andb String.eqb Ascii.eqb Bool.eqb]. rewrite V. cbn [bind].
  assert (ID : forall w d, 0 < d -> 0 <= w -> exists n, int_div w d = Ok n /\ (0 <= n)%Z /\ inject_Z n * d <= w < (inject_Z n + 1) * d).
  { intros w d D WW. unfold int_div. destruct (Qeq_bool d 0) eqn:E; [apply Qeq_bool_eq in E; lra|]. eexists. split; [reflexivity|].
    destruct (qint_nonneg (w / d)) as (A & B & C); [apply div_nonneg; auto|]. split; [exact A|]. assert (Q : w / d * d == w) by (field; lra).
    split; [rewrite <- Q at 2; apply Qmult_le_compat_r; lra|rewrite <- Q at 1; apply Qmult_lt_compat_r; lra]. }
  destruct (ID (a_width a) (a_dx a) DX WD) as (nx & EX & NX & BX). destruct (ID (a_height a) (a_dy a) DY HT) as (ny & EY & NY & BY).
  rewrite EX, EY. cbn [bind fst snd]. set (ctr := to_grid (vw_nadir v) (a_lon a, a_lat a)).
  destruct (around nx (a_dx a * vw_res v) (fst ctr) NX ltac:(apply Qmult_lt_0_compat; auto)) as (xb & XB & XC).
  destruct (around ny (a_dy a * vw_res v) (snd ctr) NY ltac:(apply Qmult_lt_0_compat; auto)) as (yb & YB & YC).
  rewrite XB, YB. cbn [bind]. eexists. exists (Z.to_nat nx), (Z.to_nat ny). split; [reflexivity|]. cbn [g_dx g_dy g_xbnd g_ybnd g_nadir g_fixed g_ctr]. rewrite !Z2Nat.id by auto.
  split; [reflexivity|]. split; [reflexivity|]. split; [exact BX|]. split; [exact BY|]. split; [split; [exact XC|split; [exact YC|reflexivity]]|]. split; reflexivity.
Qed.
(** A named sector: spacing and numbers of cells are those of the sector at the nearest
    resolution, centred where the sector is or, for a mesoscale sector, at the place asked
    for. *)
Theorem C45_sector_grid : forall a v s e ctr, a_fixed_grid a = true -> a_position a <> "none"%string -> a_sector a <> "none"%string ->
  time_window (a_paths a) (a_start a) (a_end a) = Ok (s, e) -> goes_grid (a_position a) (a_sector a) (nearest_resolution (a_dx a)) = Ok v ->
  0 < vw_res v -> (0 <= vw_ew v)%Z -> (0 <= vw_ns v)%Z ->
  (vw_ctr v = Some ctr \/ vw_ctr v = None /\ a_sector a = "meso"%string /\ ctr = to_grid (vw_nadir v) (a_lon a, a_lat a)) ->
  exists g, setup a = Ok (a_paths a, s, e, g) /\ g_dx g = vw_res v /\ g_dy g = vw_res v /\
    cells_around (g_xbnd g) (Z.to_nat (vw_ew v)) (vw_res v) (fst ctr) /\ cells_around (g_ybnd g) (Z.to_nat (vw_ns v)) (vw_res v) (snd ctr) /\
    g_ctr g = to_lonlat (vw_nadir v) ctr /\ g_nadir g = Some (vw_nadir v) /\ g_fixed g = true.
Proof.
  intros a v s e ctr FX P S W V R EW NS C. unfold setup, grid_setup. rewrite W. cbn [bind fst snd]. rewrite FX.
  unfold fixed_spec. apply String.eqb_neq in P. apply String.eqb_neq in S. rewrite P, S. cbn [negb andb]. rewrite V. cbn [bind].
  assert (CE : match vw_ctr v with Some c => Ok c | None => if String.eqb (a_sector a) "meso" then Ok (to_grid (vw_nadir v) (a_lon a, a_lat a)) else Err UnboundLocalError end = Ok ctr).
  { destruct C as [->|(-> & -> & ->)]; reflexivity. }
  rewrite CE. cbn [bind fst snd].
  destruct (around (vw_ew v) (vw_res v) (fst ctr) EW R) as (xb & XB & XC). destruct (around (vw_ns v) (vw_res v) (snd ctr) NS R) as (yb & YB & YC).
  rewrite XB, YB. cbn [bind]. eexists. split; [reflexivity|]. cbn [g_dx g_dy g_xbnd g_ybnd g_nadir g_fixed g_ctr]. auto 10.
Qed.
(** Without a fixed grid: the centre, the spacings and bounds symmetric about zero, all in
    metres, are handed to the conversion to degrees. *)
Theorem C45_latlong_grid : forall a s e, a_fixed_grid a = false -> time_window (a_paths a) (a_start a) (a_end a) = Ok (s, e) ->
  exists g mx my, setup a = Ok (a_paths a, s, e, g) /\ dlonlat (a_lat a, a_lon a) (1000 * a_dx a, 1000 * a_dy a) (- mx / 2, mx / 2) (- my / 2, my / 2) = (g_dx g, g_dy g, g_xbnd g, g_ybnd g) /\
    mx == 1000 * a_width a /\ my == 1000 * a_height a /\ g_ctr g = (a_lon a, a_lat a) /\ g_nadir g = None /\ g_fixed g = false.
Proof.
  intros a s e FX W. unfold setup, grid_setup. rewrite W. cbn [bind fst snd]. rewrite FX.
  destruct (dlonlat (a_lat a, a_lon a) _ _ _) as [[[dx dy] xb] yb] eqn:E. cbn [fst snd].
  eexists. exists (1000 * a_width a), (1000 * a_height a). split; [reflexivity|]. cbn [g_dx g_dy g_xbnd g_ybnd g_nadir g_fixed g_ctr]. rewrite E. repeat split; reflexivity.
Qed.
(** Minimum counts: every flash has an event and a group, and for such counts the limits
    passed on select what the command line says; one or less passes no limit at all.  All
    other options are passed on unchanged. *)
Theorem C45_limits_and_options : forall a paths s e g, setup a = Ok (paths, s, e, g) ->
  (g_min_points g = None <-> (a_min_events a <= 1)%Z) /\ (g_min_groups g = None <-> (a_min_groups a <= 1)%Z) /\
  (forall n, (1 <= n)%nat -> opt_atleast (g_min_points g) n = (a_min_events a <=? Z.of_nat n)%Z /\ opt_atleast (g_min_groups g) n = (a_min_groups a <=? Z.of_nat n)%Z) /\
  paths = a_paths a /\ time_window (a_paths a) (a_start a) (a_end a) = Ok (s, e) /\ g_dt g = a_dt a /\ g_subdivide g = a_subdivide a /\ g_scale g = a_scale a /\ g_clip g = a_split a /\ g_rev g = a_rev a /\
  g_fixed g = a_fixed_grid a /\ g_proj g = (if a_fixed_grid a then "geos" else "latlong")%string /\ (dt_year (g_base g), dt_yday (g_base g)) = (dt_year s, dt_yday s) /\ (dt_hour (g_base g), dt_min (g_base g), dt_sec (g_base g), dt_us (g_base g)) = (0, 0, 0, 0)%Z.
Proof.
  assert (M : forall k, min_count k = None <-> (k <= 1)%Z) by (intros k; unfold min_count; destruct (Z.leb_spec k 1); split; intros; try lia; auto; discriminate).
  assert (L : forall k n, (1 <= n)%nat -> opt_atleast (min_count k) n = (k <=? Z.of_nat n)%Z).
  { intros k n Hn. unfold min_count. destruct (Z.leb_spec k 1); cbn; [symmetry; apply Z.leb_le; lia|reflexivity]. }
  intros a paths s e g H. unfold setup, grid_setup in H. apply bind_ok_inv in H. destruct H as (w & W & H). rewrite W.
  destruct (a_fixed_grid a) eqn:FX.
  - apply bind_ok_inv in H. destruct H as ([[[dxy nxy] ctr] nadir] & _ & H). apply bind_ok_inv in H. destruct H as (xb & _ & H). apply bind_ok_inv in H. destruct H as (yb & _ & H).
    inversion H; subst. clear H. cbn. split; [apply M|]. split; [apply M|]. split; [intros n Hn; split; apply L; auto|]. destruct w. auto 13.
  - destruct (dlonlat (a_lat a, a_lon a) _ _ _) as [[dxy xb] yb]. inversion H; subst. clear H. cbn. split; [apply M|]. split; [apply M|]. split; [intros n Hn; split; apply L; auto|]. destruct w. auto 13.
Qed.

(** Driver and subdivision together: the tiles made for a grid with width and height are
    those of all its cells, none missing and none twice. *)
Corollary C45_tiles : forall a v s e t, a_fixed_grid a = true -> a_position a <> "none"%string -> a_sector a = "none"%string ->
  time_window (a_paths a) (a_start a) (a_end a) = Ok (s, e) -> goes_grid (a_position a) "full" "1.0km" = Ok v ->
  0 < vw_res v -> 0 < a_dx a -> 0 < a_dy a -> 0 <= a_width a -> 0 <= a_height a -> (1 <= t)%nat ->
  exists g tiles, setup a = Ok (a_paths a, s, e, g) /\ subdivided_fixed_grid (g_xbnd g) (g_ybnd g) (g_dx g) (g_dy g) t = Ok tiles /\
    (forall j, (j < t)%nat -> qlist_eq (List.concat (map (tile_x (g_dx g)) (in_row j tiles))) (centers (grid_edges (g_xbnd g) (g_dx g)))) /\
    (forall i, (i < t)%nat -> qlist_eq (List.concat (map (tile_y (g_dy g)) (in_col i tiles))) (centers (grid_edges (g_ybnd g) (g_dy g)))).
Proof.
  intros a v s e t FX P S W V R DX DY WD HT T. destruct (C45_custom_grid a v s e FX P S W V R DX DY WD HT) as (g & nx & ny & E & GX & GY & _ & _ & ((_ & XW & _) & (_ & YW & _) & _) & _).
  destruct (C41_tiles_join (g_xbnd g) (g_ybnd g) (g_dx g) (g_dy g) t nx ny) as (tiles & HT' & _ & A & B & _); auto.
  - rewrite GX. apply Qmult_lt_0_compat; auto.
  - rewrite GY. apply Qmult_lt_0_compat; auto.
  - exists g, tiles. auto.
Qed.
End C45.
Print Assumptions C45_custom_grid.
Print Assumptions C45_sector_grid.
Print Assumptions C45_latlong_grid.
Print Assumptions C45_limits_and_options.
Print Assumptions C45_tiles.

(** The resolution of the specification used for a spacing is a nearest one, and of two
    nearest ones the finer. *)
Theorem C45_nearest_resolution : forall dx,
  exists r, In (r, nearest_resolution dx) [(1 # 2, "0.5km"); (1, "1.0km"); (2, "2.0km"); (4, "4.0km"); (8, "8.0km"); (10, "10.0km")]%string /\
    forall r', In r' [1 # 2; 1; 2; 4; 8; 10] -> Qabs (r - dx) <= Qabs (r' - dx) /\ (Qabs (r - dx) == Qabs (r' - dx) -> r <= r').
Proof.
  intros dx. unfold nearest_resolution. cbn [tl resolutions].
  assert (K : forall l best (seen : list (Q * string)), In best seen ->
    (forall o, In o seen -> Qabs (fst best - dx) <= Qabs (fst o - dx) /\ (Qabs (fst best - dx) == Qabs (fst o - dx) -> fst best <= fst o)) ->
    (forall o o', In o seen -> In o' l -> fst o <= fst o') -> (forall l1 o l2, l = l1 ++ o :: l2 -> forall o', In o' l2 -> fst o <= fst o') ->
    let f := fold_left (fun best o => if Qlt_bool (Qabs (fst o - dx)) (Qabs (fst best - dx)) then o else best) l best in
    In f (seen ++ l) /\ forall o, In o (seen ++ l) -> Qabs (fst f - dx) <= Qabs (fst o - dx) /\ (Qabs (fst f - dx) == Qabs (fst o - dx) -> fst f <= fst o)).
  { induction l as [|o l IH]; intros best seen IB B S1 S2; cbn [fold_left]; [rewrite app_nil_r; auto|].
    replace (seen ++ o :: l) with ((seen ++ [o]) ++ l) by (rewrite <- app_assoc; reflexivity).
    assert (T1 : forall o1 o', In o1 (seen ++ [o]) -> In o' l -> fst o1 <= fst o').
    { intros o1 o' H1 H2. apply in_app_iff in H1. destruct H1 as [H1|[<-|[]]]; [apply S1; simpl; auto|apply (S2 [] o l eq_refl); auto]. }
    assert (T2 : forall l1 o1 l2, l = l1 ++ o1 :: l2 -> forall o', In o' l2 -> fst o1 <= fst o').
    { intros l1 o1 l2 -> . apply (S2 (o :: l1)). reflexivity. }
    change (Qlt_bool (Qabs (fst o - dx)) (Qabs (fst best - dx))) with (negb (Qle_bool (Qabs (fst best - dx)) (Qabs (fst o - dx)))). destruct (Qle_bool (Qabs (fst best - dx)) (Qabs (fst o - dx))) eqn:E; cbn [negb].
    - apply Qle_bool_iff in E. apply IH; [apply in_app_iff; auto| |exact T1|exact T2]. intros o1 H1. apply in_app_iff in H1. destruct H1 as [H1|[<-|[]]]; [auto|]. split; [exact E|]. intros _. apply S1; simpl; auto.
    - assert (L : Qabs (fst o - dx) < Qabs (fst best - dx)) by (apply Qnot_le_lt; intros Hc; apply Qle_bool_iff in Hc; congruence).
      apply IH; [apply in_app_iff; simpl; auto| |exact T1|exact T2]. intros o1 H1. apply in_app_iff in H1. destruct H1 as [H1|[<-|[]]]; [|split; [lra|intros _; lra]].
      destruct (B o1 H1) as [B1 _]. split; [lra|]. intros Hc. lra. }
  specialize (K (tl resolutions) (1 # 2, "0.5km"%string) [(1 # 2, "0.5km"%string)]). cbn zeta in K. cbn [tl resolutions] in K.
  set (f := fold_left _ _ _) in *. destruct K as [A B].
  - left. reflexivity.
  - intros o [<-|[]]. split; [lra|intros _; lra].
  - intros o o' [<-|[]] H. cbn in H. intuition (subst; cbn; lra).
  - intros l1 o l2 H o' Ho'. do 5 (destruct l1 as [|? l1]; [inversion H; subst; cbn in *; intuition (subst; cbn; lra)|injection H as _ H]).
    destruct l1; discriminate.
  - exists (fst f). split; [destruct f; exact A|]. intros r' Hr. cbn in Hr. 
    destruct Hr as [<-|[<-|[<-|[<-|[<-|[<-|[]]]]]]].
    + apply (B (1 # 2, "0.5km"%string)). simpl. tauto.
    + apply (B (1, "1.0km"%string)). simpl. tauto.
    + apply (B (2, "2.0km"%string)). simpl. tauto.
    + apply (B (4, "4.0km"%string)). simpl. tauto.
    + apply (B (8, "8.0km"%string)). simpl. tauto.
    + apply (B (10, "10.0km"%string)). simpl. tauto.
Qed.
Print Assumptions C45_nearest_resolution.

(** In binary arithmetic a cell can be lost although the width is a multiple of the
    spacing: [int(0.6/0.2)] is 2. *)
Theorem C45_binary_width_refuted : exists width dx : f64, width = fdiv (of_int 6) (of_int 10) /\ dx = fdiv (of_int 2) (of_int 10) /\ to_int (fdiv width dx) = Some 2%Z.
Proof. eexists. eexists. split; [reflexivity|]. split; [reflexivity|]. vm_compute. reflexivity. Qed.
Print Assumptions C45_binary_width_refuted.

(** 25 by 10 km, cells of 10 by 4 km. *)
Definition ex_goes (p s r : string) : res view := Ok (mkView (-75) (28 # 1000000) 5000 3000 (if String.eqb s "meso" then None else Some (0, 1 # 10))).
Definition ex_cmd (sector : string) := mkCmd (map path_of [nm 30 20; nm 30 0]) None None 10 4 25 10 (-100) 33 60 1 3 true 1 "east" sector true true (-1).
Definition ex_setup := grid_setup ex_goes (fun _ p => (-(5 # 100), 9 # 100)) (fun _ p => p) (fun _ d x y => (d, x, y)).
Example C45_ex : exists xb yb g, ex_setup (ex_cmd "none") = Ok (map path_of [nm 30 20; nm 30 0], mkDT 2018 183 4 30 0 0, mkDT 2018 183 4 30 40 0, g) /\
  g_xbnd g = xb /\ g_ybnd g = yb /\ fst xb == -(5 # 100) - (280 # 1000000) /\ snd xb == -(5 # 100) + (280 # 1000000) /\ fst yb == (9 # 100) - (112 # 1000000) /\ snd yb == (9 # 100) + (112 # 1000000) /\ g_min_points g = None /\ g_min_groups g = Some 3%Z.
Proof. eexists. eexists. eexists. split; [vm_compute; reflexivity|]. cbn [g_xbnd g_ybnd g_min_points g_min_groups]. repeat split; reflexivity. Qed.
Example C45_ex_sector : exists g, ex_setup (ex_cmd "full") = Ok (map path_of [nm 30 20; nm 30 0], mkDT 2018 183 4 30 0 0, mkDT 2018 183 4 30 40 0, g) /\ fst (g_xbnd g) == - (7 # 100) /\ snd (g_xbnd g) == 7 # 100.
Proof.
  assert (T : exists s e, time_window (a_paths (ex_cmd "full")) None None = Ok (s, e) /\ s = mkDT 2018 183 4 30 0 0 /\ e = mkDT 2018 183 4 30 40 0) by (eexists; eexists; split; [vm_compute; reflexivity|split; reflexivity]).
  destruct T as (s & e & T & -> & ->).
  destruct (C45_sector_grid ex_goes (fun _ p => (-(5 # 100), 9 # 100)) (fun _ p => p) (fun _ d x y => (d, x, y)) (ex_cmd "full") (mkView (-75) (28 # 1000000) 5000 3000 (Some (0, 1 # 10))) _ _ (0, 1 # 10)
    eq_refl ltac:(discriminate) ltac:(discriminate) T eq_refl ltac:(reflexivity) ltac:(cbn; lia) ltac:(cbn; lia) (or_introl eq_refl)) as (g & E & _ & _ & (A & B & _) & _).
  exists g. split; [exact E|]. cbn [fst] in A. change (inject_Z (Z.of_nat (Z.to_nat (vw_ew (mkView (-75) (28 # 1000000) 5000 3000 (Some (0, 1 # 10))))))) with 5000 in B. cbn [vw_res] in B. lra.
Qed.
Example C45_ex_meso : nearest_resolution 3 = "2.0km"%string /\ nearest_resolution 9 = "8.0km"%string /\ nearest_resolution 100 = "10.0km"%string.
Proof. vm_compute. auto. Qed.
