(** Lemmas about the plotting script. *)
From Coq Require Import List ZArith QArith Bool Ascii String Sorted Lia.
From Verif Require Import Base BaseProofs Glm FileName FileNameSpec FileNameProofs FileNameProofs2 GridSetup GridSetupSpec GridSetupProofs Aggregate Output OutputProofs OutputProofs2 OutputProofs3 Plot PlotSpec PlotProofs PropPlot PlotFiles.
Import ListNotations.
Open Scope Z_scope.
Open Scope list_scope.

(** * The data while plotting *)
(** The same dataset but for missing values that became zero. *)
Definition same_frame (a b : frame (nat * nat)) : Prop :=
  fr_time a = fr_time b /\ forall v p, zero_nan (fr_at a v p) = zero_nan (fr_at b v p).
Definition alike (g h : gridded) : Prop :=
  gr_x g = gr_x h /\ gr_y g = gr_y h /\ gr_height g = gr_height h /\ s_vars (gr_series g) = s_vars (gr_series h) /\
  Forall2 same_frame (s_frames (gr_series g)) (s_frames (gr_series h)).
Lemma frames_refl : forall l, Forall2 same_frame l l.
Proof. induction l; constructor; auto. split; auto. Qed.
Lemma alike_refl : forall g, alike g g.
Proof. intros g. repeat split; auto. apply frames_refl. Qed.
Lemma alike_trans : forall a b c, alike a b -> alike b c -> alike a c.
Proof.
  intros a b c (A1 & A2 & A3 & A4 & A5) (B1 & B2 & B3 & B4 & B5). repeat split; try congruence.
  clear - A5 B5. revert B5. generalize (s_frames (gr_series c)). induction A5 as [|x y l l' [E F] _ IH]; intros k B; inversion B; subst; constructor.
  - destruct H1 as [E' F']. split; [congruence|]. intros v p. rewrite F. apply F'.
  - apply IH. assumption.
Qed.
Lemma fill_alike : forall t f g, alike g (fill_field t f g).
Proof.
  intros t f g. repeat split; auto. cbn [fill_field gr_series s_frames]. induction (s_frames (gr_series g)) as [|a l IH]; constructor; auto.
  unfold fill_frame. destruct (fr_time a =? t); [|split; auto]. split; [reflexivity|]. intros v p. cbn [fr_at]. destruct (String.eqb v f); reflexivity.
Qed.
Lemma filter_alike : forall t l l', Forall2 same_frame l l' ->
  Forall2 same_frame (filter (fun fr => fr_time fr =? t) l) (filter (fun fr => fr_time fr =? t) l').
Proof.
  induction 1 as [|a b l l' [E F] _ IH]; [constructor|]. cbn. rewrite <- E. destruct (fr_time a =? t); [constructor; [split; auto|auto]|auto].
Qed.
Lemma select_alike : forall g h f t fr, alike g h -> select_time (gr_series g) f t = Ok fr ->
  exists fr', select_time (gr_series h) f t = Ok fr' /\ same_frame fr fr'.
Proof.
  intros g h f t fr (_ & _ & _ & V & F) H. unfold select_time in *. unfold has in *. rewrite <- V.
  destruct (existsb _ _); [|discriminate]. apply (filter_alike t) in F. inversion F as [E1 E2|a b l l' S F' E1 E2]; rewrite <- E1 in H; [discriminate|].
  inversion F' as [E3 E4|? ? ? ? ? ? E3 E4]; rewrite <- E3 in H; [|discriminate]. injection H as <-. exists b. auto.
Qed.

(** * One image *)
(** The panels of an image of time [t]. *)
Definition panel_for (g : gridded) (t : Z) (f : string) (p : panel) : Prop :=
  pn_field p = f /\ pn_time p = t /\ exists fr, select_time (gr_series g) f t = Ok fr /\
    forall r c, pn_shown p r c = zero_nan (fr_at fr f (r, c)).
Lemma step_fold : forall t rows cols g0 l g s, gr_x g0 <> [] -> gr_y g0 <> [] -> alike g0 g ->
  (0 < rows)%Z -> (0 < cols)%Z ->
  (forall jf, In jf l -> In (snd jf) (map fst display_params) /\ (Z.of_nat (S (fst jf)) <= rows * cols)%Z /\ (fst jf < 12)%nat /\
     exists fr, select_time (gr_series g0) (snd jf) t = Ok fr) ->
  exists g' ps, fold_res (plot_glm_step t rows cols) l (g, s) = Ok (g', s ++ ps) /\ alike g0 g' /\
    Forall2 (fun jf p => panel_for g0 t (snd jf) p) l ps.
Proof.
  intros t rows cols g0 l. induction l as [|[j f] l IH]; intros g s Hx Hy A Hr Hc K.
  - exists g, []. rewrite app_nil_r. split; [reflexivity|]. split; [exact A|constructor].
  - destruct (K (j, f) (or_introl eq_refl)) as (K1 & K2 & K3 & fr & K4). cbn [fst snd] in *.
    destruct (select_alike _ _ _ _ _ A K4) as (fr' & S & Q). pose proof A as (Ax & Ay & _).
    destruct (plot_field_ok g t rows cols j f fr') as [p P]; auto; try congruence.
    destruct (IH (fill_field t f g) (s ++ [p])) as (g' & ps & E & A' & F); auto.
    { apply alike_trans with g; auto. apply fill_alike. }
    { intros jf Hj. apply K. right. auto. }
    exists g', (p :: ps). cbn [fold_res]. unfold plot_glm_step at 1. cbn [fst snd]. rewrite P. cbn [bind]. rewrite E. split; [rewrite <- app_assoc; reflexivity|]. split; auto.
    constructor; auto. destruct (plot_field_inv _ _ _ _ _ _ _ P) as (pr & fr2 & l2 & m & _ & S2 & _ & _ & _ & _ & _ & x0 & x1 & y0 & y1 & _ & _ & _ & _ & ->).
    cbn [snd]. unfold panel_for. cbn [pn_field pn_time pn_shown]. split; auto. split; auto. exists fr. split; auto. intros r c.
    assert (fr2 = fr') by congruence. subst. destruct Q as [_ Q]. symmetry. apply Q.
Qed.
Lemma six_known : forall f, In f fields_6panel -> In f (map fst display_params).
Proof. intros f H. cbn in H |- *. intuition (subst; auto 12). Qed.
Lemma enumerate_in : forall A (l : list A) jf, In jf (enumerate l) -> (fst jf < List.length l)%nat /\ In (snd jf) l.
Proof.
  intros A l jf H. apply In_nth_error in H. destruct H as [i H]. apply nth_enumerate in H. destruct H as [<- H]. split; [|eapply nth_error_In; eauto].
  apply nth_error_Some. congruence.
Qed.
Lemma combine_F2 : forall A B (l : list A) k (ps : list B) (R : A -> B -> Prop),
  Forall2 (fun jf p => R (snd jf) p) (combine (seq k (List.length l)) l) ps -> Forall2 R l ps.
Proof. induction l as [|a l IH]; intros k ps R H; cbn in H; inversion H; subst; constructor; eauto. Qed.
(** What the plot of one time needs and gives. *)
Lemma plot_glm_ok : forall g0 g t, gr_x g0 <> [] -> gr_y g0 <> [] -> alike g0 g ->
  (forall f, In f fields_6panel -> exists fr, select_time (gr_series g0) f t = Ok fr) ->
  exists g' ps, plot_glm g t fields_6panel 2 3 = Ok (g', ps) /\ alike g0 g' /\ Forall2 (panel_for g0 t) fields_6panel ps.
Proof.
  intros g0 g t Hx Hy A K. pose proof A as (Ax & Ay & _).
  destruct (step_fold t 2 3 g0 (enumerate fields_6panel) g [] Hx Hy A) as (g' & ps & E & A' & F); try lia.
  { intros jf H. apply enumerate_in in H. destruct H as [H1 H2]. cbn [fields_6panel List.length] in H1. split; [apply six_known; auto|]. split; [lia|]. split; [lia|]. auto. }
  exists g', ps. apply combine_F2 in F. split; auto. unfold plot_glm.
  destruct (amin_some (gr_x g)) as [x0 ->]; [congruence|]. destruct (amin_some (gr_y g)) as [y0 ->]; [congruence|]. cbn [bind].
  rewrite E. cbn [bind snd app]. destruct ps; [inversion F|reflexivity].
Qed.

(** * Names *)
Lemma comps_slash_end : forall a, comps (a ++ ["/"%char]) = comps a.
Proof. intros a. rewrite comps_app. apply app_nil_r. Qed.
Lemma join_norm : forall a c b, c <> "/"%char -> norm (join a (c :: b)) = (fst (norm a), comps a ++ comps (c :: b)).
Proof.
  intros a c b N. unfold join. destruct (rev a) as [|x r] eqn:R.
  - apply (f_equal (@rev _)) in R. rewrite rev_involutive in R. cbn in R. subst. unfold norm. cbn [fst]. rewrite aeqb_neq by auto. reflexivity.
  - apply (f_equal (@rev _)) in R. rewrite rev_involutive in R. cbn in R. subst. destruct (Ascii.eqb_spec x "/") as [->|Nx].
    + unfold norm. fold (comps ((rev r ++ ["/"%char]) ++ c :: b)). rewrite <- app_assoc. cbn [app]. rewrite comps_app, comps_slash_end. destruct (rev r); reflexivity.
    + unfold norm. fold (comps ((rev r ++ [x]) ++ "/"%char :: c :: b)). rewrite comps_app. destruct (rev r); reflexivity.
Qed.
Lemma tidy_id : forall s, ~ In " "%char s -> ~ In ":"%char s -> tidy s = s.
Proof.
  induction s as [|c s IH]; intros H1 H2; [reflexivity|]. unfold tidy. cbn [map filter]. fold (tidy s). 
  assert (c <> " "%char) by (intros ->; apply H1; left; auto). assert (c <> ":"%char) by (intros ->; apply H2; left; auto).
  rewrite (aeqb_neq c " ") by auto. rewrite (aeqb_neq c ":") by auto. cbn [negb]. f_equal. apply IH; intros K; [apply H1|apply H2]; right; auto.
Qed.
Lemma tidy_app : forall a b, tidy (a ++ b) = tidy a ++ tidy b.
Proof. intros. unfold tidy. rewrite map_app, filter_app. reflexivity. Qed.
Lemma pad_code : forall k n c, In c (pad k n) -> exists d, 0 <= d < 10 /\ c = digit d.
Proof.
  induction k as [|k IH]; intros n c H; [contradiction|]. cbn in H. apply in_app_or in H. destruct H as [H|[<-|[]]]; [eauto|].
  exists (n mod 10). split; auto. apply Z.mod_pos_bound. lia.
Qed.
Lemma digit_not : forall d c, 0 <= d < 10 -> (N_of_ascii c < 48 \/ 57 < N_of_ascii c)%N -> digit d <> c.
Proof. intros d c H K E. subst c. rewrite digit_code in K by auto. lia. Qed.
Lemma pad_not : forall k n c, (N_of_ascii c < 48 \/ 57 < N_of_ascii c)%N -> ~ In c (pad k n).
Proof. intros k n c H K. apply pad_code in K. destruct K as (d & D & ->). apply (digit_not d (digit d)); auto. Qed.
Lemma lit_in : forall c s, existsb (Ascii.eqb c) (lit s) = false -> ~ In c (lit s).
Proof.
  intros c s H K. assert (existsb (Ascii.eqb c) (lit s) = true); [|congruence]. apply existsb_exists. exists c. split; auto. apply Ascii.eqb_refl.
Qed.
Lemma month_in : forall c m, (forall s, In s ["Jan"; "Feb"; "Mar"; "Apr"; "May"; "Jun"; "Jul"; "Aug"; "Sep"; "Oct"; "Nov"; "Dec"; ""]%string -> ~ In c (lit s)) -> ~ In c (month_abbr m).
Proof.
  intros c m H. unfold month_abbr. apply H. 
  destruct (nth_in_or_default (Z.to_nat (m - 1)) ["Jan"; "Feb"; "Mar"; "Apr"; "May"; "Jun"; "Jul"; "Aug"; "Sep"; "Oct"; "Nov"; "Dec"]%string ""%string) as [K| ->]; [|cbn; auto 14].
  revert K. generalize (nth (Z.to_nat (m - 1)) ["Jan"; "Feb"; "Mar"; "Apr"; "May"; "Jun"; "Jul"; "Aug"; "Sep"; "Oct"; "Nov"; "Dec"]%string ""%string). intros s K. cbn in K |- *. tauto.
Qed.
Definition special (c : ascii) : Prop := c = " "%char \/ c = ":"%char \/ c = "/"%char.
Lemma special_code : forall c, special c -> (N_of_ascii c < 48 \/ 57 < N_of_ascii c)%N.
Proof. intros c [->|[->| ->]]; vm_compute; auto. Qed.
Lemma month_plain : forall c m, special c -> ~ In c (month_abbr m).
Proof.
  intros c m S. apply month_in. intros s H. cbn in H. destruct S as [->|[->| ->]];
    repeat (destruct H as [<-|H]; [apply lit_in; reflexivity|]); contradiction.
Qed.
Lemma png_plain : forall c d, special c -> ~ In c (png_name d).
Proof.
  intros c d S. unfold png_name. rewrite !in_app_iff. pose proof (special_code _ S).
  intros [K|[[K|[K|[K|[K|K]]]]|K]]; revert K; try (apply pad_not; auto);
    destruct S as [->|[->| ->]]; apply lit_in; reflexivity.
Qed.
Lemma day_plain : forall c d, special c -> c <> "/"%char -> ~ In c (day_text d).
Proof.
  intros c d S N. unfold day_text. pose proof (special_code _ S). rewrite in_app_iff. intros [K|K].
  { revert K. destruct S as [->|[->| ->]]; apply lit_in; reflexivity. }
  rewrite in_app_iff in K. destruct K as [K|[K|K]]; [revert K; apply pad_not; auto|auto|].
  rewrite in_app_iff in K. destruct K as [K|[K|K]]; [revert K; apply month_plain; auto|auto|]. revert K. apply pad_not; auto.
Qed.
Lemma pad2_not_trivial : forall n, trivial_part (pad 2 n) = false.
Proof.
  intros n. cbn [pad app]. reflexivity.
Qed.
Lemma day_comps : forall d, 1 <= fst (date_of d) <= 12 ->
  comps (day_text d) = [lit "20" ++ pad 2 (dt_year d mod 100); month_abbr (fst (date_of d)); pad 2 (snd (date_of d))].
Proof.
  intros d H. unfold day_text. set (y := dt_year d mod 100). change (lit "20" ++ pad 2 y ++ "/"%char :: month_abbr (fst (date_of d)) ++ "/"%char :: pad 2 (snd (date_of d)))
    with ((lit "20" ++ pad 2 y) ++ "/"%char :: month_abbr (fst (date_of d)) ++ "/"%char :: pad 2 (snd (date_of d))).
  rewrite !comps_app. assert (Sl : special "/"%char) by (right; right; auto).
  rewrite (comps_plain (lit "20" ++ pad 2 y)), (comps_plain (pad 2 _)), (comps_plain (month_abbr _)); auto.
  - apply month_plain; auto.
  - assert (E : exists k, (k < 12)%nat /\ fst (date_of d) = Z.of_nat k + 1) by (exists (Z.to_nat (fst (date_of d) - 1)); lia).
    destruct E as (k & Hk & ->). do 12 (destruct k as [|k]; [reflexivity|]). lia.
  - apply pad_not. apply special_code; auto.
  - rewrite in_app_iff. intros [K|K]; revert K; [apply lit_in; reflexivity|apply pad_not; apply special_code; auto].
Qed.
Lemma png_trivial : forall d, trivial_part (png_name d) = false.
Proof. intros d. unfold png_name. reflexivity. Qed.
Lemma png_comps : forall d, comps (png_name d) = [png_name d].
Proof. intros d. apply comps_plain; [apply png_plain; right; right; auto|apply png_trivial]. Qed.

(** * Joining paths *)
Lemma join_end : forall s c b, c <> "/"%char -> join (s ++ [c]) b = (s ++ [c]) ++ "/"%char :: b.
Proof. intros s c b N. unfold join. rewrite rev_app_distr. cbn [rev app]. rewrite aeqb_neq by auto. reflexivity. Qed.
Lemma join_suffix : forall a b, exists p, join a b = p ++ b /\ (forall c, In c p -> In c a \/ c = "/"%char).
Proof.
  intros a b. unfold join. destruct (rev a) as [|c r].
  - exists []. split; auto. intros c [].
  - destruct (Ascii.eqb c "/").
    + exists a. auto.
    + exists (a ++ ["/"%char]). rewrite <- app_assoc. split; auto. intros x K. apply in_app_or in K. destruct K as [K|[<-|[]]]; auto.
Qed.
Lemma day_last : forall d, exists s c, day_text d = s ++ [c] /\ c <> "/"%char.
Proof.
  intros d. unfold day_text. exists (lit "20" ++ pad 2 (dt_year d mod 100) ++ "/"%char :: month_abbr (fst (date_of d)) ++ "/"%char :: pad 1 (snd (date_of d) / 10)), (digit (snd (date_of d) mod 10)).
  split; [|apply digit_not; [apply Z.mod_pos_bound; lia|vm_compute; auto]].
  change (pad 2 (snd (date_of d))) with (pad 1 (snd (date_of d) / 10) ++ [digit (snd (date_of d) mod 10)]).
  rewrite <- !app_assoc. cbn [app]. rewrite <- app_assoc. cbn [app]. reflexivity.
Qed.
Lemma outfile_join : forall outdir d, join (join outdir (day_text d)) (png_name d) = join outdir (day_text d) ++ "/"%char :: png_name d.
Proof.
  intros outdir d. destruct (join_suffix outdir (day_text d)) as (p & E & _). destruct (day_last d) as (s & c & F & N). rewrite E, F, app_assoc. apply join_end. auto.
Qed.
Lemma day_head : forall d, exists r, day_text d = "2"%char :: r.
Proof. intros d. eexists. reflexivity. Qed.

(** Where the images of a time belong. *)
Definition year_text (d : datetime) : pystr := lit "20" ++ pad 2 (dt_year d mod 100).
Definition day_place (outdir : pystr) (d : datetime) : path :=
  (fst (norm outdir), snd (norm outdir) ++ [year_text d; month_abbr (fst (date_of d)); pad 2 (snd (date_of d))]).
Definition image_place (outdir : pystr) (d : datetime) : path :=
  (fst (norm outdir), snd (day_place outdir d) ++ [png_name d]).
Lemma day_norm : forall outdir d, 1 <= fst (date_of d) <= 12 -> norm (join outdir (day_text d)) = day_place outdir d.
Proof.
  intros outdir d H. destruct (day_head d) as [r E]. pose proof (day_comps d H) as C. rewrite E in *. rewrite join_norm by discriminate. rewrite C. reflexivity.
Qed.
Lemma outpath_head : forall outdir d, exists c r, join outdir (day_text d) = c :: r.
Proof.
  intros outdir d. destruct (join_suffix outdir (day_text d)) as (p & E & _). destruct (day_head d) as [r F]. rewrite E, F. destruct p; cbn; eauto.
Qed.
Lemma slash_norm : forall c r, norm ((c :: r) ++ ["/"%char]) = norm (c :: r).
Proof. intros c r. unfold norm. fold (comps ((c :: r) ++ ["/"%char])). rewrite comps_slash_end. reflexivity. Qed.
Definition blank_free (s : pystr) : Prop := ~ In " "%char s /\ ~ In ":"%char s.
Lemma outfile_facts : forall outdir d, blank_free outdir -> 1 <= fst (date_of d) <= 12 ->
  let out := tidy (join (join outdir (day_text d)) (png_name d)) in
  out = join outdir (day_text d) ++ "/"%char :: png_name d /\ norm out = image_place outdir d /\ norm (dirname out) = day_place outdir d.
Proof.
  intros outdir d [B1 B2] H. cbv zeta.
  assert (E : tidy (join (join outdir (day_text d)) (png_name d)) = join outdir (day_text d) ++ "/"%char :: png_name d).
  { rewrite outfile_join. destruct (join_suffix outdir (day_text d)) as (p & E & P).
    apply tidy_id; rewrite in_app_iff; intros [K|[K|K]]; try discriminate; try (revert K; apply png_plain; unfold special; auto);
      rewrite E in K; apply in_app_or in K; destruct K as [K|K]; try (apply P in K; destruct K as [K|K]; [auto|discriminate]);
      revert K; apply day_plain; unfold special; auto; discriminate. }
  rewrite E. split; auto. destruct (dirname_norm (join outdir (day_text d)) (png_name d)) as [D _]; [apply png_plain; unfold special; auto|].
  destruct (outpath_head outdir d) as (c & r & F). rewrite D, norm_file; [|apply png_plain; unfold special; auto|apply png_trivial].
  rewrite F, slash_norm, <- F, day_norm by auto. split; reflexivity.
Qed.

(** * The files of the loop *)
Lemma lookup_cons : forall ds p im fl q, ga_lookup (mkGallery ds ((p, im) :: fl)) q = if path_eqb q p then Some im else ga_lookup (mkGallery ds fl) q.
Proof. intros. unfold ga_lookup. cbn [ga_files find fst]. destruct (path_eqb q p); reflexivity. Qed.
Lemma lookup_dirs : forall ds ds' fl q, ga_lookup (mkGallery ds fl) q = ga_lookup (mkGallery ds' fl) q.
Proof. reflexivity. Qed.
Lemma is_dir_long : forall ds fl p, snd p <> [] -> ga_is_dir (mkGallery ds fl) p = existsb (path_eqb p) ds.
Proof. intros ds fl [b [|c r]] H; cbn in *; congruence. Qed.
Lemma existsb_path : forall p ds, existsb (path_eqb p) ds = true <-> In p ds.
Proof.
  intros p ds. rewrite existsb_exists. split; [intros (q & Q & E); apply path_eqb_iff in E; subst; auto|intros Q; exists p; split; auto; apply path_eqb_refl].
Qed.
Definition no_file_on (fs : gallery) (p : path) : Prop := forall q, In q (prefixes p) -> ga_lookup fs q = None.
Lemma day_place_len : forall outdir d, List.length (snd (day_place outdir d)) = (List.length (comps outdir) + 3)%nat.
Proof. intros. unfold day_place. cbn [snd]. rewrite app_length, norm_comps. reflexivity. Qed.
Lemma image_place_len : forall outdir d, List.length (snd (image_place outdir d)) = (List.length (comps outdir) + 4)%nat.
Proof. intros. unfold image_place. cbn [snd]. rewrite app_length, day_place_len. cbn. lia. Qed.
Lemma prefix_len : forall q p, In q (prefixes p) -> (List.length (snd q) <= List.length (snd p))%nat.
Proof. intros q p H. apply in_prefixes in H. destruct H as (_ & r & ->). rewrite app_length. lia. Qed.
Lemma len_neq : forall (p q : path), List.length (snd p) <> List.length (snd q) -> path_eqb p q = false.
Proof. intros p q H. destruct (path_eqb p q) eqn:E; auto. apply path_eqb_iff in E. subst. congruence. Qed.
Lemma nonempty_len : forall (p : path) n, List.length (snd p) = (n + 3)%nat -> snd p <> [].
Proof. intros p n H E. rewrite E in H. cbn in H. lia. Qed.
Lemma nonempty_len4 : forall (p : path) n, List.length (snd p) = (n + 4)%nat -> snd p <> [].
Proof. intros p n H E. rewrite E in H. cbn in H. lia. Qed.
Definition usable (outdir : pystr) (fs : gallery) (d : datetime) : Prop :=
  no_file_on fs (day_place outdir d) /\ ga_is_dir fs (image_place outdir d) = false.
Lemma step_files : forall outdir fs d im, blank_free outdir -> 1 <= fst (date_of d) <= 12 -> usable outdir fs d ->
  exists ds, (if ga_exists fs (join outdir (day_text d)) then Ok fs else ga_makedirs fs (join outdir (day_text d))) = Ok (mkGallery ds (ga_files fs)) /\
    ga_save (mkGallery ds (ga_files fs)) (tidy (join (join outdir (day_text d)) (png_name d))) im
      = Ok (mkGallery ds ((image_place outdir d, im) :: ga_files fs)) /\
    (forall p, In p ds -> In p (ga_dirs fs) \/ In p (prefixes (day_place outdir d))).
Proof.
  intros outdir [ds fl] d im B M [U1 U2]. destruct (outfile_facts outdir d B M) as (_ & N1 & N2). 
  pose proof (day_place_len outdir d) as L3. pose proof (image_place_len outdir d) as L4. pose proof (nonempty_len _ _ L3) as NE3. pose proof (nonempty_len4 _ _ L4) as NE4.
  pose proof (prefixes_self _ NE3) as PS.
  rewrite is_dir_long in U2 by auto. cbn [ga_files ga_dirs].
  destruct (ga_exists (mkGallery ds fl) (join outdir (day_text d))) eqn:E.
  - exists ds. split; [reflexivity|]. split; [|auto]. unfold ga_save. rewrite N1, N2. rewrite !is_dir_long, U2 by auto.
    unfold ga_exists in E. destruct (outpath_head outdir d) as (c & r & F). rewrite F in E. rewrite <- F, day_norm in E by auto.
    rewrite (U1 _ PS), orb_false_r, is_dir_long in E by auto. rewrite E. reflexivity.
  - exists (prefixes (day_place outdir d) ++ ds). split; [|split].
    + unfold ga_makedirs. destruct (outpath_head outdir d) as (c & r & F). rewrite F. rewrite <- F, day_norm by auto.
      destruct (existsb _ (prefixes (day_place outdir d))) eqn:X; [|reflexivity]. apply existsb_exists in X. destruct X as (q & Q & X). rewrite (U1 q Q) in X. discriminate.
    + unfold ga_save. rewrite N1, N2. rewrite !is_dir_long by auto. rewrite !existsb_app, U2, orb_false_r.
      destruct (existsb (path_eqb (image_place outdir d)) (prefixes (day_place outdir d))) eqn:X.
      { apply existsb_path in X. apply prefix_len in X. lia. }
      replace (existsb (path_eqb (day_place outdir d)) (prefixes (day_place outdir d))) with true by (symmetry; apply existsb_path; auto). reflexivity.
    + intros p K. apply in_app_or in K. tauto.
Qed.
Lemma usable_kept : forall outdir fs d d' ds im, usable outdir fs d' ->
  (forall p, In p ds -> In p (ga_dirs fs) \/ In p (prefixes (day_place outdir d))) ->
  usable outdir (mkGallery ds ((image_place outdir d, im) :: ga_files fs)) d'.
Proof.
  intros outdir [ds0 fl] d d' ds im [U1 U2] K. pose proof (image_place_len outdir d) as L4. pose proof (image_place_len outdir d') as L4'. pose proof (nonempty_len4 _ _ L4') as NE4.
  cbn [ga_files ga_dirs] in *. split.
  - intros q Q. rewrite lookup_cons. pose proof (prefix_len _ _ Q) as PL. rewrite day_place_len in PL. rewrite len_neq by lia. rewrite (lookup_dirs ds ds0). apply U1. auto.
  - rewrite is_dir_long in * by auto. destruct (existsb _ ds) eqn:X; auto. apply existsb_path in X. apply K in X. destruct X as [X|X].
    + apply existsb_path in X. congruence.
    + apply prefix_len in X. rewrite day_place_len in X. lia.
Qed.

Section Loop.
Variables (stamp : Z -> datetime) (outdir : pystr).
Definition image_of (g0 : gridded) (t : Z) (im : list panel) : Prop := Forall2 (panel_for g0 t) fields_6panel im.
Lemma save_all_ok : forall g0, gr_x g0 <> [] -> gr_y g0 <> [] -> blank_free outdir ->
  forall ts g fs, alike g0 g ->
  (forall t, In t ts -> 1 <= fst (date_of (stamp t)) <= 12 /\ usable outdir fs (stamp t) /\
     forall f, In f fields_6panel -> exists fr, select_time (gr_series g0) f t = Ok fr) ->
  exists g' fs', save_all stamp outdir g fs ts = Ok (g', fs', map (fun t => join outdir (day_text (stamp t)) ++ "/"%char :: png_name (stamp t)) ts) /\
    (forall p, ~ In p (map (fun t => image_place outdir (stamp t)) ts) -> ga_lookup fs' p = ga_lookup fs p) /\
    (forall l1 t l2, ts = l1 ++ t :: l2 -> (forall u, In u l2 -> image_place outdir (stamp u) <> image_place outdir (stamp t)) ->
       exists im, ga_lookup fs' (image_place outdir (stamp t)) = Some im /\ image_of g0 t im).
Proof.
  intros g0 Hx Hy B. induction ts as [|t ts IH]; intros g fs A K.
  - exists g, fs. split; [reflexivity|]. split; [auto|]. intros [|] ? ? E; discriminate.
  - destruct (K t (or_introl eq_refl)) as (K1 & K2 & K3). destruct (plot_glm_ok g0 g t Hx Hy A K3) as (g1 & ps & P & A1 & F).
    destruct (step_files outdir fs (stamp t) ps B K1 K2) as (ds & D1 & D2 & D3). destruct (outfile_facts outdir (stamp t) B K1) as (O & _).
    set (fs1 := mkGallery ds ((image_place outdir (stamp t), ps) :: ga_files fs)) in *.
    destruct (IH g1 fs1 A1) as (g' & fs' & E & E1 & E2).
    { intros u Hu. destruct (K u (or_intror Hu)) as (Q1 & Q2 & Q3). split; auto. split; auto. apply usable_kept; auto. }
    exists g', fs'. split; [|split].
    + cbn [save_all]. unfold save_one. rewrite P. cbn [bind snd fst]. rewrite D1. cbn [bind]. rewrite D2. cbn [bind]. fold fs1. rewrite E. cbn [bind map]. rewrite O. reflexivity.
    + intros p H. cbn [map In] in H. rewrite E1 by tauto. unfold fs1. rewrite lookup_cons. destruct (path_eqb p (image_place outdir (stamp t))) eqn:X; [|reflexivity].
      apply path_eqb_iff in X. subst. exfalso. apply H. auto.
    + intros l1 u l2 S H. destruct l1 as [|v l1].
      * cbn [app] in S. injection S as S1 S2. subst u l2. exists ps. split; auto. rewrite E1.
        -- unfold fs1. rewrite lookup_cons, path_eqb_refl. reflexivity.
        -- intros X. apply in_map_iff in X. destruct X as (w & W1 & W2). apply (H w W2 W1).
      * cbn [app] in S. injection S as _ S2. apply (E2 l1 u l2 S2 H).
Qed.

(** What a run that succeeded left. *)
Lemma fold_times : forall t rows cols l g s g' s', fold_res (plot_glm_step t rows cols) l (g, s) = Ok (g', s') ->
  forall p, In p s' -> In p s \/ pn_time p = t.
Proof.
  induction l as [|[j f] l IH]; intros g s g' s' H p Hp; cbn [fold_res] in H; [injection H as <- <-; auto|].
  unfold plot_glm_step at 1 in H. cbn [fst snd] in H. destruct (plot_field g t rows cols j f) as [q|] eqn:P; [|discriminate]. cbn [bind] in H.
  destruct (IH _ _ _ _ H p Hp) as [K|K]; auto. apply in_app_or in K. destruct K as [K|[<-|[]]]; auto. right.
  destruct (plot_field_inv _ _ _ _ _ _ _ P) as (? & ? & ? & ? & _ & _ & _ & _ & _ & _ & _ & ? & ? & ? & ? & _ & _ & _ & _ & ->). reflexivity.
Qed.
Lemma plot_glm_times : forall g t fields rows cols g' ps, plot_glm g t fields rows cols = Ok (g', ps) -> forall p, In p ps -> pn_time p = t.
Proof.
  intros g t fields rows cols g' ps H p Hp. unfold plot_glm in H. destruct (amin (gr_x g)); [|discriminate]. destruct (amin (gr_y g)); [|discriminate]. cbn [bind] in H.
  destruct (fold_res _ _ _) as [[g1 s1]|] eqn:E; [|discriminate]. cbn [bind snd] in H. assert (s1 = ps) by (destruct s1; congruence). subst.
  destruct (fold_times _ _ _ _ _ _ _ _ E p Hp) as [[]|]; auto.
Qed.
Definition outfile (t : Z) : path := norm (tidy (join (join outdir (day_text (stamp t))) (png_name (stamp t)))).
Lemma save_one_inv : forall g fs t g' fs' out, save_one stamp outdir g fs t = Ok (g', fs', out) ->
  exists ds ps, fs' = mkGallery ds ((outfile t, ps) :: ga_files fs) /\ (forall p, In p ps -> pn_time p = t).
Proof.
  intros g fs t g' fs' out H. unfold save_one in H. destruct (plot_glm _ _ _ _ _) as [[g1 ps]|] eqn:P; [|discriminate]. cbn [bind fst snd] in H.
  destruct (if ga_exists fs _ then _ else _) as [fs1|] eqn:D; [|discriminate]. cbn [bind] in H.
  assert (ga_files fs1 = ga_files fs).
  { destruct (ga_exists fs _); [congruence|]. unfold ga_makedirs in D. destruct (join _ _); [discriminate|]. destruct (existsb _ _); [discriminate|]. injection D as <-. reflexivity. }
  unfold ga_save in H. destruct (ga_is_dir fs1 _); [discriminate|]. destruct (negb _); [discriminate|]. cbn [bind] in H. injection H as _ <- _.
  exists (ga_dirs fs1), ps. rewrite H0. split; [reflexivity|]. intros p. eapply plot_glm_times; eauto.
Qed.
Lemma save_all_inv : forall ts g fs g' fs' outs, save_all stamp outdir g fs ts = Ok (g', fs', outs) ->
  forall p im, ga_lookup fs' p = Some im ->
  (ga_lookup fs p = Some im /\ (forall u, In u ts -> outfile u <> p)) \/
  exists l1 t l2, ts = l1 ++ t :: l2 /\ p = outfile t /\ (forall u, In u l2 -> outfile u <> p) /\ (forall q, In q im -> pn_time q = t).
Proof.
  induction ts as [|t ts IH]; intros g fs g' fs' outs H p im L; cbn [save_all] in H.
  - injection H as <- <- <-. left. split; auto.
  - destruct (save_one stamp outdir g fs t) as [[[g1 fs1] o]|] eqn:S; [|discriminate]. cbn [bind] in H. destruct (save_all stamp outdir g1 fs1 ts) as [[[g2 fs2] os]|] eqn:T; [|discriminate].
    cbn [bind] in H. injection H as <- <- <-. apply save_one_inv in S. destruct S as (ds & ps & -> & S). destruct (IH _ _ _ _ _ T p im L) as [[K1 K2]|(l1 & u & l2 & -> & K)].
    + rewrite lookup_cons in K1. destruct (path_eqb p (outfile t)) eqn:X.
      * apply path_eqb_iff in X. injection K1 as <-. right. exists [], t, ts. split; [reflexivity|]. auto.
      * left. split; [exact K1|]. intros u [<-|Hu]; auto. intros <-. rewrite path_eqb_refl in X. discriminate.
    + right. exists (t :: l1), u, l2. split; [reflexivity|exact K].
Qed.
End Loop.

(** * Order of the times *)
Lemma insert_in : forall t l u, In u (insert_time t l) <-> u = t \/ In u l.
Proof. induction l as [|a l IH]; intros u; cbn; [intuition|]. destruct (t <=? a); cbn; [intuition|]. rewrite IH. tauto. Qed.
Lemma sorted_in : forall l u, In u (sorted_times l) <-> In u l.
Proof. induction l as [|a l IH]; intros u; cbn; [tauto|]. fold (sorted_times l). rewrite insert_in, IH. intuition. Qed.
Lemma insert_sorted : forall t l, StronglySorted Z.le l -> StronglySorted Z.le (insert_time t l).
Proof.
  induction 1 as [|a l S IH F]; cbn; [repeat constructor|]. destruct (Z.leb_spec t a).
  - constructor; [constructor; auto|]. constructor; auto. eapply Forall_impl; [|exact F]. cbn. intros. lia.
  - constructor; auto. apply Forall_forall. intros u Hu. apply insert_in in Hu. destruct Hu as [->|Hu]; [lia|]. rewrite Forall_forall in F. auto.
Qed.
Lemma sorted_sorted : forall l, StronglySorted Z.le (sorted_times l).
Proof. induction l; cbn; [constructor|]. apply insert_sorted. auto. Qed.
Lemma insert_nodup : forall t l, ~ In t l -> NoDup l -> NoDup (insert_time t l).
Proof.
  induction l as [|a l IH]; intros N D; cbn; [repeat constructor; auto|]. inversion D; subst. destruct (t <=? a); [constructor; auto|].
  constructor; [|apply IH; auto; intros K; apply N; right; auto]. rewrite insert_in. intros [->|K]; [apply N; left; auto|auto].
Qed.
Lemma sorted_nodup : forall l, NoDup l -> NoDup (sorted_times l).
Proof. induction 1; cbn; [constructor|]. apply insert_nodup; auto. fold (sorted_times l). rewrite sorted_in. auto. Qed.
Lemma sorted_split : forall l1 t l2, StronglySorted Z.le (l1 ++ t :: l2) -> (forall u, In u l1 -> u <= t) /\ (forall u, In u l2 -> t <= u).
Proof.
  induction l1 as [|a l1 IH]; intros t l2 H; inversion H as [|? ? S F]; subst.
  - split; [intros u []|]. rewrite Forall_forall in F. auto.
  - destruct (IH _ _ S) as [A B]. split; auto. intros u [<-|Hu]; auto. rewrite Forall_forall in F. apply F. apply in_or_app. right. left. auto.
Qed.

(** * Minutes *)
Definition minute (t : Z) : Z := t / 60000000.
Lemma instant_minute : forall d, valid_from 1 d -> minute (instant d) = ((days_before_year (dt_year d) + dt_yday d - 1) * 24 + dt_hour d) * 60 + dt_min d.
Proof.
  intros d V. destruct V. unfold minute, instant. symmetry. apply Z.div_unique with (dt_sec d * 1000000 + dt_us d); lia.
Qed.
Lemma str_refl : forall s, str_compare s s = Eq.
Proof. induction s as [|c s IH]; cbn; auto. rewrite N.compare_refl. auto. Qed.
Lemma same_minute_name : forall a b, valid_from 1 a -> valid_from 1 b -> minute (instant a) = minute (instant b) ->
  day_text a = day_text b /\ png_name a = png_name b.
Proof.
  intros a b Va Vb E.
  assert (T : forall d, valid_from 1 d -> valid_from 1 (mkDT (dt_year d) (dt_yday d) (dt_hour d) (dt_min d) 0 0)).
  { intros d V. destruct V. constructor; cbn; auto; lia. }
  destruct (instant_fields _ _ (T a Va) (T b Vb)) as (E1 & E2 & E3 & E4 & _).
  { rewrite !instant_minute in E by auto. unfold instant. cbn. lia. }
  cbn in E1, E2, E3, E4. unfold day_text, png_name, date_of. rewrite E1, E2, E3, E4. auto.
Qed.
Lemma name_minute : forall a b, valid_from 1 a -> valid_from 1 b -> png_name a = png_name b -> minute (instant a) = minute (instant b).
Proof.
  intros a b Va Vb E. unfold png_name in E. apply app_inv_head in E. apply app_inv_tail in E. assert (C := str_refl (pad 4 (dt_year b) ++ pad 2 (fst (date_of b)) ++ pad 2 (snd (date_of b)) ++ pad 2 (dt_hour b) ++ pad 2 (dt_min b))).
  rewrite <- E in C at 1. destruct (civil_of a Va) as [A1 A2]. destruct (civil_of b Vb) as [B1 B2]. unfold civil_valid in A1, B1. cbn [c_year c_month c_day c_hour c_min c_sec] in A1, B1.
  assert (ML : forall y m, 1 <= m <= 12 -> month_length y m <= 31).
  { intros y m _. unfold month_length, days_in_year. destruct (m =? 2); [destruct (leap y); lia|]. destruct (_ || _)%bool; lia. }
  pose proof (ML (dt_year a) (fst (date_of a)) ltac:(lia)). pose proof (ML (dt_year b) (fst (date_of b)) ltac:(lia)).
  rewrite pad_compare in C by (cbn; destruct Va, Vb; lia). destruct (Z.compare_spec (dt_year a) (dt_year b)) as [E1|?|?]; try discriminate.
  rewrite pad_compare in C by (change (10 ^ Z.of_nat 2) with 100; lia). destruct (Z.compare_spec (fst (date_of a)) (fst (date_of b))) as [E2|?|?]; try discriminate.
  rewrite pad_compare in C by (change (10 ^ Z.of_nat 2) with 100; lia). destruct (Z.compare_spec (snd (date_of a)) (snd (date_of b))) as [E3|?|?]; try discriminate.
  rewrite pad_compare in C by (change (10 ^ Z.of_nat 2) with 100; lia). destruct (Z.compare_spec (dt_hour a) (dt_hour b)) as [E4|?|?]; try discriminate.
  rewrite <- (app_nil_r (pad 2 (dt_min a))), <- (app_nil_r (pad 2 (dt_min b))) in C. rewrite pad_compare in C by (change (10 ^ Z.of_nat 2) with 100; lia).
  destruct (Z.compare_spec (dt_min a) (dt_min b)) as [E5|?|?]; try discriminate.
  rewrite !instant_minute by auto. rewrite E1, E4, E5, <- A2, <- B2, E1, E2, E3. reflexivity.
Qed.

(** * Directories with blanks *)
Lemma split_tidy : forall s, split_slash (tidy s) = map tidy (split_slash s).
Proof.
  induction s as [|c s IH]; [reflexivity|]. unfold tidy at 1. cbn [map filter]. fold (tidy s). cbn [split_slash].
  destruct (split_slash s) as [|h r] eqn:E; [destruct (split_nil s E)|]. cbn [map] in IH.
  destruct (Ascii.eqb_spec c " ") as [->|N1].
  - change (Ascii.eqb "_" ":") with false. change (Ascii.eqb " " "/") with false. cbn [negb]. cbn [split_slash]. change (Ascii.eqb "_" "/") with false. cbv iota. fold (tidy s). rewrite IH. reflexivity.
  - destruct (Ascii.eqb_spec c ":") as [->|N2].
    + cbn [negb]. change (Ascii.eqb ":" "/") with false. cbv iota. fold (tidy s). rewrite IH. reflexivity.
    + cbn [negb]. fold (tidy s). cbn [split_slash]. rewrite IH. destruct (Ascii.eqb_spec c "/"); [reflexivity|]. cbn [map]. f_equal. 
      unfold tidy. cbn [map filter]. rewrite (aeqb_neq c " ") by auto. rewrite (aeqb_neq c ":") by auto. reflexivity.
Qed.
Lemma tidy_clean : forall s, blank_free (tidy s).
Proof.
  intros s. unfold tidy. split; intros K; apply filter_In in K; destruct K as [K1 K2]; [|discriminate].
  apply in_map_iff in K1. destruct K1 as (c & E & _). destruct (Ascii.eqb_spec c " "); [discriminate|congruence].
Qed.
Definition cleanb (s : pystr) : bool := forallb (fun c => negb (Ascii.eqb c " ") && negb (Ascii.eqb c ":")) s.
Lemma cleanb_spec : forall s, cleanb s = true <-> blank_free s.
Proof.
  intros s. unfold cleanb, blank_free. rewrite forallb_forall. split.
  - intros H. split; intros K; apply H in K; discriminate.
  - intros [H1 H2] c K. destruct (Ascii.eqb_spec c " "); [subst; contradiction|]. destruct (Ascii.eqb_spec c ":"); [subst; contradiction|]. reflexivity.
Qed.
Lemma tidied_parts : forall l, (List.length (filter cleanb (filter (fun p => negb (trivial_part p)) l)) <=
  List.length (filter (fun p => negb (trivial_part p)) (map tidy l)))%nat.
Proof.
  induction l as [|a l IH]; [auto|]. cbn [map filter]. destruct (trivial_part a) eqn:T; cbn [negb].
  - destruct (negb (trivial_part (tidy a))); cbn [List.length]; lia.
  - cbn [filter]. destruct (cleanb a) eqn:C.
    + apply cleanb_spec in C. destruct C. rewrite tidy_id by auto. rewrite T. cbn [negb List.length]. lia.
    + destruct (negb (trivial_part (tidy a))); cbn [List.length]; lia.
Qed.
Lemma char_part : forall c s, In c s -> c <> "/"%char -> exists p, In p (split_slash s) /\ In c p.
Proof.
  induction s as [|a s IH]; intros H N; [contradiction|]. cbn [split_slash]. destruct (split_slash s) as [|h r] eqn:E; [destruct (split_nil s E)|].
  destruct H as [<-|H].
  - rewrite aeqb_neq by auto. exists (a :: h). split; left; auto.
  - destruct (IH H N) as (p & P1 & P2). destruct (Ascii.eqb a "/"); [exists p; split; auto; right; auto|].
    destruct P1 as [<-|P1]; [exists (a :: h); split; [left; auto|right; auto]|exists p; split; auto; right; auto].
Qed.
Lemma bad_part : forall s, ~ blank_free s -> exists p, In p (comps s) /\ cleanb p = false.
Proof.
  intros s H. assert (K : exists c, In c s /\ (c = " "%char \/ c = ":"%char)).
  { destruct (cleanb s) eqn:C; [apply cleanb_spec in C; contradiction|]. unfold cleanb in C. clear H. induction s as [|a s IH]; [discriminate|]. cbn in C.
    destruct (Ascii.eqb_spec a " "); [exists a; cbn; auto|]. destruct (Ascii.eqb_spec a ":"); [exists a; cbn; auto|]. cbn in C. destruct (IH C) as (c & ? & ?). exists c. cbn. auto. }
  destruct K as (c & K1 & K2). destruct (char_part c s K1) as (p & P1 & P2); [destruct K2; subst; discriminate|]. exists p.
  assert (C : cleanb p = false). { destruct (cleanb p) eqn:C; auto. apply cleanb_spec in C. destruct C. destruct K2; subst; contradiction. }
  split; auto. apply filter_In. split; auto. destruct (trivial_part p) eqn:T; auto. exfalso. 
  destruct p as [|x p]; [discriminate|]. destruct p as [|y p]; cbn in T; [|destruct x as [[] [] [] [] [] [] [] []]; discriminate].
  assert (x = "."%char). { destruct x as [[] [] [] [] [] [] [] []]; try discriminate; reflexivity. } subst. discriminate.
Qed.
Lemma first_bad : forall l, (exists p, In p l /\ cleanb p = false) -> exists a b r, l = a ++ b :: r /\ filter cleanb a = a /\ cleanb b = false.
Proof.
  induction l as [|x l IH]; intros (p & P & C); [contradiction|]. destruct (cleanb x) eqn:X.
  - destruct P as [->|P]; [congruence|]. destruct (IH (ex_intro _ p (conj P C))) as (a & b & r & -> & F & B). exists (x :: a), b, r. split; auto. cbn. rewrite X, F. auto.
  - exists [], x, l. auto.
Qed.
Lemma tidied_elsewhere : forall outdir d, ~ blank_free outdir -> 1 <= fst (date_of d) <= 12 ->
  ~ In (norm (tidy (join outdir (day_text d)))) (prefixes (day_place outdir d)).
Proof.
  intros outdir d B M H. apply in_prefixes in H. destruct H as (_ & rest & H). rewrite norm_comps in H. rewrite <- (day_norm outdir d M) in H. rewrite norm_comps in H.
  assert (D : comps (join outdir (day_text d)) = comps outdir ++ [year_text d; month_abbr (fst (date_of d)); pad 2 (snd (date_of d))]).
  { rewrite <- norm_comps, day_norm by auto. unfold day_place. cbn [snd]. rewrite norm_comps. reflexivity. }
  destruct (first_bad (comps outdir) (bad_part _ B)) as (a & b & r & E & F & C).
  unfold comps at 2 in H. rewrite split_tidy in H. pose proof (tidied_parts (split_slash (join outdir (day_text d)))) as T.
  fold (comps (join outdir (day_text d))) in T. rewrite D, E in T, H. 
  set (q := filter _ (map tidy _)) in *.
  assert (Q : forall p, In p q -> cleanb p = true).
  { intros p K. apply filter_In in K. destruct K as [K _]. apply in_map_iff in K. destruct K as (x & <- & _). apply cleanb_spec, tidy_clean. }
  rewrite <- !app_assoc in T, H. cbn [app] in T, H. rewrite filter_app, F in T. cbn [filter] in T. rewrite C, filter_app in T. cbn [filter] in T.
  assert (Y : cleanb (pad 2 (snd (date_of d))) = true).
  { apply cleanb_spec. split; apply pad_not; vm_compute; auto. }
  rewrite Y in T. rewrite !app_length in T. assert (L : (List.length a < List.length q)%nat).
  { destruct (cleanb (year_text d)), (cleanb (month_abbr (fst (date_of d)))); cbn [List.length] in T; lia. }
  assert (N : nth_error q (List.length a) = Some b).
  { rewrite <- (nth_error_app1 q rest L), <- H. rewrite nth_error_app2 by lia. rewrite Nat.sub_diag. reflexivity. }
  apply nth_error_In in N. apply Q in N. congruence.
Qed.
Lemma blank_fails : forall stamp outdir g fs t, ga_dirs fs = [] -> ga_files fs = [] -> ~ blank_free outdir -> 1 <= fst (date_of (stamp t)) <= 12 ->
  exists e, save_one stamp outdir g fs t = Err e.
Proof.
  intros stamp outdir g [ds fl] t E1 E2 B M. cbn in E1, E2. subst. unfold save_one. destruct (plot_glm _ _ _ _ _) as [[g1 ps]|e]; [|exists e; reflexivity]. cbn [bind fst snd].
  pose proof (nonempty_len _ _ (day_place_len outdir (stamp t))) as NE. set (d := stamp t) in *.
  unfold ga_exists. destruct (outpath_head outdir d) as (c & r & F). rewrite F. rewrite <- F. rewrite day_norm by auto. rewrite is_dir_long by auto. cbn [existsb orb ga_lookup ga_files find].
  unfold ga_makedirs. rewrite F. rewrite <- F. rewrite day_norm by auto.
  destruct (existsb _ (prefixes _)); [eexists; reflexivity|]. cbn [bind ga_dirs ga_files]. rewrite app_nil_r.
  unfold ga_save. destruct (ga_is_dir _ _); [eexists; reflexivity|].
  rewrite outfile_join, tidy_app. change (tidy ("/"%char :: png_name d)) with ("/"%char :: tidy (png_name d)).
  rewrite (tidy_id (png_name d)) by (apply png_plain; unfold special; auto).
  destruct (dirname_norm (tidy (join outdir (day_text d))) (png_name d)) as [D _]; [apply png_plain; unfold special; auto|]. rewrite D.
  assert (S : norm (tidy (join outdir (day_text d)) ++ ["/"%char]) = norm (tidy (join outdir (day_text d)))).
  { destruct (join_suffix outdir (day_text d)) as (p & E & _). destruct (day_head d) as [x X]. rewrite E, X, tidy_app. change (tidy ("2"%char :: x)) with ("2"%char :: tidy x).
    destruct (tidy p); cbn [app]; apply slash_norm. }
  rewrite S. pose proof (tidied_elsewhere outdir d B M) as T.
  destruct (ga_is_dir _ _) eqn:I; [|eexists; reflexivity]. exfalso. rewrite is_dir_long in I.
  - apply existsb_path in I. auto.
  - rewrite norm_comps. destruct (join_suffix outdir (day_text d)) as (p & E & _). intros Z. unfold comps in Z. rewrite split_tidy in Z.
    pose proof (tidied_parts (split_slash (join outdir (day_text d)))) as P. rewrite Z in P. fold (comps (join outdir (day_text d))) in P. rewrite <- norm_comps, day_norm in P by auto.
    unfold day_place in P. cbn [snd] in P. rewrite filter_app, app_length in P. cbn [filter] in P.
    assert (Y : cleanb (pad 2 (snd (date_of d))) = true) by (apply cleanb_spec; split; apply pad_not; vm_compute; auto). rewrite Y in P.
    destruct (cleanb (year_text d)), (cleanb (month_abbr (fst (date_of d)))); cbn [List.length] in P; lia.
Qed.
Lemma year_pad : forall y, 2000 <= y <= 2099 -> lit "20" ++ pad 2 (y mod 100) = pad 4 y.
Proof.
  intros y H. assert (E : exists k, y = 2000 + k /\ 0 <= k < 100) by (exists (y - 2000); lia). destruct E as (k & -> & K).
  replace ((2000 + k) mod 100) with k by (apply (Z.mod_unique _ _ 20); [left; lia|lia]).
  change (pad 4 (2000 + k)) with ([digit ((2000 + k) / 10 / 10 / 10 mod 10); digit ((2000 + k) / 10 / 10 mod 10); digit ((2000 + k) / 10 mod 10); digit ((2000 + k) mod 10)]). change (lit "20" ++ pad 2 k) with ([digit 2; digit 0; digit (k / 10 mod 10); digit (k mod 10)]). rewrite !Z.div_div by lia. repeat match goal with |- context[(2000 + k) / (10 * ?e)] => let v := eval vm_compute in (10 * e) in change (10 * e) with v end. repeat match goal with |- context[(2000 + k) / (?e * 10)] => let v := eval vm_compute in (e * 10) in change (e * 10) with v end.
  assert (Q1 : (2000 + k) / 1000 = 2) by (symmetry; apply Z.div_unique with k; lia). assert (Q2 : (2000 + k) / 100 = 20) by (symmetry; apply Z.div_unique with k; lia).
  assert (Q3 : (2000 + k) / 10 = 200 + k / 10) by (replace (2000 + k) with (k + 200 * 10) by lia; rewrite Z_div_plus_full; lia).
  rewrite Q1, Q2, Q3. replace ((200 + k / 10) mod 10) with ((k / 10) mod 10) by (replace (200 + k / 10) with (k / 10 + 20 * 10) by lia; rewrite Z_mod_plus_full; reflexivity).
  replace ((2000 + k) mod 10) with (k mod 10) by (replace (2000 + k) with (k + 200 * 10) by lia; rewrite Z_mod_plus_full; reflexivity). reflexivity.
Qed.
