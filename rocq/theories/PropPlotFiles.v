(** C89: the images saved by the script that plots gridded files. *)
From Coq Require Import List ZArith QArith Bool Ascii String Sorted Lia.
From Verif Require Import Base BaseProofs Glm FileName FileNameSpec FileNameProofs FileNameProofs2 GridSetup GridSetupSpec GridSetupProofs Aggregate Output OutputProofs OutputProofs2 OutputProofs3 Plot PlotSpec PlotProofs PropPlot PlotFiles PlotFilesProofs.
Import ListNotations.
Open Scope Z_scope.
Open Scope list_scope.

(** Where the image of a time belongs: outdir/YYYY/Mon/DD/satellite.GOES-16.YYYYMMDDHHMM.GLM_fed_afa_toe_ged_aga_gcd.png. *)
Definition belongs (outdir : pystr) (d : datetime) (p : path) : Prop :=
  exists m day, 1 <= m <= 12 /\ 1 <= day <= month_length (dt_year d) m /\ day_of_year (dt_year d) m day = dt_yday d /\
  p = (fst (norm outdir), snd (norm outdir) ++
        [ decimal 4 (dt_year d);
          lit (nth (Z.to_nat (m - 1)) ["Jan"; "Feb"; "Mar"; "Apr"; "May"; "Jun"; "Jul"; "Aug"; "Sep"; "Oct"; "Nov"; "Dec"]%string ""%string);
          decimal 2 day;
          lit "satellite.GOES-16." ++ decimal 4 (dt_year d) ++ decimal 2 m ++ decimal 2 day ++ decimal 2 (dt_hour d) ++ decimal 2 (dt_min d)
            ++ lit ".GLM_fed_afa_toe_ged_aga_gcd.png" ]).
(** The six fields of the data at time [t], missing values as zero. *)
Definition shows_time (g : gridded) (t : Z) (image : list panel) : Prop :=
  map pn_field image = ["flash_extent_density"; "average_flash_area"; "total_energy"; "group_extent_density"; "average_group_area"; "group_centroid_density"]%string /\
  forall p, In p image -> pn_time p = t /\
    forall r c, exists v, stored g t (pn_field p) r c v /\ pn_shown p r c = match v with Some q => q | None => 0%Q end.
(** The calendar: an instant and its date and time of day, in this century. *)
Definition calendar (stamp : Z -> datetime) (ts : list Z) : Prop :=
  forall t, In t ts -> valid_from 2000 (stamp t) /\ dt_year (stamp t) <= 2099 /\ instant (stamp t) = t.
Definition times (g : gridded) : list Z := map fr_time (s_frames (gr_series g)).

Lemma valid_weaken : forall d, valid_from 2000 d -> valid_from 1 d.
Proof. intros d V. destruct V. constructor; auto; lia. Qed.
Lemma belongs_place : forall outdir d, valid_from 2000 d -> dt_year d <= 2099 -> belongs outdir d (image_place outdir d).
Proof.
  intros outdir d V Y. destruct (civil_of d (valid_weaken d V)) as [A B]. unfold civil_valid in A. cbn [c_year c_month c_day c_hour c_min c_sec] in A.
  exists (fst (date_of d)), (snd (date_of d)). repeat (split; [tauto|]). unfold image_place, day_place. cbn [snd]. rewrite <- app_assoc. cbn [app]. f_equal. f_equal.
  unfold year_text, png_name, month_abbr. rewrite year_pad by (destruct V; lia). rewrite !decimal_pad. rewrite <- !app_assoc. reflexivity.
Qed.
Lemma month_ok : forall d, valid_from 2000 d -> 1 <= fst (date_of d) <= 12.
Proof. intros d V. destruct (civil_of d (valid_weaken d V)) as [A B]. unfold civil_valid in A. cbn [c_year c_month c_day c_hour c_min c_sec] in A. tauto. Qed.
Lemma belongs_unique : forall outdir d p, valid_from 2000 d -> dt_year d <= 2099 -> belongs outdir d p -> p = image_place outdir d.
Proof.
  intros outdir d p V Y (m & day & M & D & J & ->).
  assert (E : date_of d = (m, day)).
  { unfold date_of. rewrite <- J. clear - M D. unfold day_of_year, month_length, days_in_year, month_days in *.
    assert (X : m = 1 \/ m = 2 \/ m = 3 \/ m = 4 \/ m = 5 \/ m = 6 \/ m = 7 \/ m = 8 \/ m = 9 \/ m = 10 \/ m = 11 \/ m = 12) by lia.
    destruct (leap (dt_year d)); repeat (destruct X as [X|X]); subst m; ev_nat; cbn -[Z.add Z.sub Z.leb] in D |- *;
      repeat match goal with |- context[?a <=? ?b] => destruct (Z.leb_spec a b); try lia end; f_equal; lia. }
  unfold image_place, day_place. cbn [snd]. rewrite <- app_assoc. cbn [app]. f_equal. f_equal.
  unfold year_text, png_name, month_abbr. rewrite year_pad by (destruct V; lia). rewrite !decimal_pad, E. cbn [fst snd]. rewrite <- !app_assoc. reflexivity.
Qed.
Lemma image_shows : forall g t im, image_of g t im -> shows_time g t im.
Proof.
  intros g t im H. unfold image_of in H. split.
  - change (map pn_field im = fields_6panel). induction H as [|f p l l' [E _] _ IH]; [reflexivity|]. cbn. rewrite E, IH. reflexivity.
  - intros p Hp. apply In_nth_error in Hp. destruct Hp as [i Hp].
    assert (K : exists f, panel_for g t f p).
    { clear - H Hp. revert i Hp. induction H as [|f q l l' Q _ IH]; intros [|i] Hp; try discriminate; [injection Hp as ->; eauto|eauto]. }
    destruct K as (f & <- & Kt & fr & S & V). split; auto. intros r c. exists (fr_at fr (pn_field p) (r, c)). apply select_stored in S. destruct S as (S1 & pre & post & S2 & S3 & S4).
    split; [|apply V]. split; auto. exists pre, fr, post. auto.
Qed.
Lemma times_select : forall g t, NoDup (times g) -> In t (times g) ->
  (forall f, In f fields_6panel -> In f (s_vars (gr_series g))) ->
  forall f, In f fields_6panel -> exists fr, select_time (gr_series g) f t = Ok fr.
Proof.
  intros g t D H K f Hf. apply in_map_iff in H. destruct H as (fr & E & H). exists fr. apply select_stored. split; auto.
  apply in_split in H. destruct H as (pre & post & H). exists pre, post. repeat split; auto.
  unfold times in D. rewrite H, map_app in D. cbn [map] in D. apply NoDup_remove_2 in D. rewrite <- map_app in D.
  apply Forall_forall. intros x Hx X. apply D. rewrite E, <- X. apply in_map. auto.
Qed.

(** All images are there and each shows its own time, if no two times lie in the same minute; a later
    time of the same minute takes the place of the earlier.  Other files keep their content.  The
    directory given must have no blanks or colons, and nothing may be in the way. *)
Theorem C89_images_partial : forall stamp outdir g fs,
  gr_x g <> [] -> gr_y g <> [] -> NoDup (times g) -> calendar stamp (times g) ->
  (forall f, In f ["flash_extent_density"; "average_flash_area"; "total_energy"; "group_extent_density"; "average_group_area"; "group_centroid_density"]%string -> In f (s_vars (gr_series g))) ->
  ~ In " "%char outdir -> ~ In ":"%char outdir ->
  (forall t p, In t (times g) -> belongs outdir (stamp t) p ->
     ga_is_dir fs p = false /\ forall k, (0 < k < List.length (snd p))%nat -> ga_lookup fs (fst p, firstn k (snd p)) = None) ->
  exists g' fs' outs, plot_files stamp outdir g fs = Ok (g', fs', outs) /\
    Forall2 (fun t out => belongs outdir (stamp t) (norm out)) (sorted_times (times g)) outs /\
    (forall p, (forall t, In t (times g) -> ~ belongs outdir (stamp t) p) -> ga_lookup fs' p = ga_lookup fs p) /\
    (forall t, In t (times g) -> (forall t', In t' (times g) -> t < t' -> t / 60000000 <> t' / 60000000) ->
       exists p image, belongs outdir (stamp t) p /\ ga_lookup fs' p = Some image /\ shows_time g t image).
Proof.
  intros stamp outdir g fs Hx Hy ND C V B1 B2 U.
  assert (B : blank_free outdir) by (split; auto).
  destruct (save_all_ok stamp outdir g Hx Hy B (sorted_times (times g)) g fs (alike_refl g)) as (g' & fs' & E & E1 & E2).
  { intros t Ht. apply (proj1 (sorted_in _ _)) in Ht. destruct (C t Ht) as (C1 & C2 & C3). split; [apply month_ok; auto|]. split; [|apply times_select; auto].
    destruct (U t _ Ht (belongs_place outdir _ C1 C2)) as [U1 U2]. split; auto. intros q Q. unfold prefixes in Q. apply in_map_iff in Q. destruct Q as (k & <- & K). apply in_seq in K.
    rewrite day_place_len in K. specialize (U2 k). rewrite image_place_len in U2. unfold image_place in U2. cbn [fst snd] in U2. rewrite firstn_app in U2.
    rewrite day_place_len in U2. replace (k - (List.length (comps outdir) + 3))%nat with 0%nat in U2 by lia. cbn [firstn] in U2. rewrite app_nil_r in U2. apply U2. lia. }
  exists g', fs'. eexists. split; [exact E|]. split; [|split].
  - assert (K : forall t, In t (sorted_times (times g)) -> In t (times g)) by (intros t; apply sorted_in). revert K. generalize (sorted_times (times g)). induction l as [|t l IH]; intros K; constructor.
    + assert (Ht : In t (times g)) by (apply K; left; auto). destruct (C t Ht) as (C1 & C2 & _). destruct (outfile_facts outdir (stamp t) B (month_ok _ C1)) as (F1 & F2 & _).
      rewrite <- F1, F2. apply belongs_place; auto.
    + apply IH. intros u Hu. apply K. right. auto.
  - intros p H. apply E1. intros K. apply in_map_iff in K. destruct K as (t & <- & K). apply (proj1 (sorted_in _ _)) in K. destruct (C t K) as (C1 & C2 & _). apply (H t K). apply belongs_place; auto.
  - intros t Ht L. destruct (C t Ht) as (C1 & C2 & C3). assert (Hs : In t (sorted_times (times g))) by (apply sorted_in; auto). apply in_split in Hs. destruct Hs as (l1 & l2 & S).
    pose proof (sorted_sorted (times g)) as SS. rewrite S in SS. apply sorted_split in SS. destruct SS as [_ SS].
    pose proof (sorted_nodup _ ND) as SN. rewrite S in SN. apply NoDup_remove_2 in SN.
    destruct (E2 l1 t l2 S) as (im & I1 & I2).
    { intros u Hu X. assert (Hu' : In u (times g)) by (apply sorted_in; rewrite S; apply in_or_app; right; right; auto). destruct (C u Hu') as (Q1 & Q2 & Q3).
      assert (t < u). { pose proof (SS u Hu). assert (t <> u) by (intros ->; apply SN; apply in_or_app; auto). lia. }
      unfold image_place in X. injection X as X. apply app_inj_tail in X. destruct X as [_ X]. apply name_minute in X; try (apply valid_weaken; auto). rewrite C3, Q3 in X. apply (L u Hu' H). symmetry. exact X. }
    exists (image_place outdir (stamp t)), im. split; [apply belongs_place; auto|]. split; auto. apply image_shows; auto.
Qed.
Print Assumptions C89_images_partial.

(** Of two times in the same minute, the image of the earlier is lost: nothing that was saved shows it. *)
Theorem C89_same_minute_refuted : forall stamp outdir g g' fs' outs t t',
  calendar stamp (times g) -> In t (times g) -> In t' (times g) -> t < t' -> t / 60000000 = t' / 60000000 ->
  plot_files stamp outdir g (mkGallery [] []) = Ok (g', fs', outs) ->
  forall p image q, ga_lookup fs' p = Some image -> In q image -> pn_time q <> t.
Proof.
  intros stamp outdir g g' fs' outs t t' C Ht Ht' L M H p im q Lk Hq Eq.
  destruct (save_all_inv _ _ _ _ _ _ _ _ H p im Lk) as [[K _]|(l1 & u & l2 & S & P & K1 & K2)]; [discriminate|].
  rewrite (K2 q Hq) in Eq. subst u. pose proof (sorted_sorted (times g)) as SS. fold (times g) in S. rewrite S in SS. apply sorted_split in SS. destruct SS as [S1 S2].
  assert (I : In t' (sorted_times (times g))) by (apply sorted_in; auto). rewrite S in I. apply in_app_or in I. destruct I as [I|[I|I]]; [apply S1 in I; lia|lia|].
  apply (K1 t' I). rewrite P. destruct (C t Ht) as (C1 & _ & C3). destruct (C t' Ht') as (D1 & _ & D3).
  destruct (same_minute_name (stamp t) (stamp t')) as [N1 N2]; try (apply valid_weaken; auto); [rewrite C3, D3; exact M|]. unfold outfile. rewrite N1, N2. reflexivity.
Qed.
Print Assumptions C89_same_minute_refuted.

(** With a blank or a colon in the directory the script stops at the first time: it makes one directory and
    saves to another. *)
Theorem C89_blank_in_directory_refuted : forall stamp outdir g,
  In " "%char outdir \/ In ":"%char outdir -> times g <> [] -> calendar stamp (times g) ->
  exists e, plot_files stamp outdir g (mkGallery [] []) = Err e.
Proof.
  intros stamp outdir g B N C. assert (NB : ~ blank_free outdir) by (intros [X Y]; tauto).
  unfold plot_files. fold (times g). destruct (sorted_times (times g)) as [|t r] eqn:S.
  - exfalso. apply N. destruct (times g) as [|u l] eqn:T; auto. exfalso. assert (In u (sorted_times (u :: l))) by (apply sorted_in; left; auto). rewrite S in H. contradiction.
  - cbn [save_all]. assert (Ht : In t (times g)) by (apply sorted_in; rewrite S; left; auto). destruct (C t Ht) as (C1 & _ & _).
    destruct (blank_fails stamp outdir g (mkGallery [] []) t eq_refl eq_refl NB (month_ok _ C1)) as [e E]. rewrite E. exists e. reflexivity.
Qed.
Print Assumptions C89_blank_in_directory_refuted.

(** Every time has one place, and two times share it exactly when they lie in the same minute. *)
Theorem C89_place_of_minute : forall stamp outdir ts t t' p p', calendar stamp ts -> In t ts -> In t' ts ->
  belongs outdir (stamp t) p -> belongs outdir (stamp t') p' -> (p = p' <-> t / 60000000 = t' / 60000000).
Proof.
  intros stamp outdir ts t t' p p' C Ht Ht' B B'. destruct (C t Ht) as (C1 & C2 & C3). destruct (C t' Ht') as (D1 & D2 & D3).
  apply belongs_unique in B; auto. apply belongs_unique in B'; auto. subst p p'. split.
  - intros X. unfold image_place in X. injection X as X. apply app_inj_tail in X. destruct X as [_ X]. apply name_minute in X; try (apply valid_weaken; auto). rewrite C3, D3 in X. exact X.
  - intros M. assert (M' : minute (instant (stamp t)) = minute (instant (stamp t'))) by (rewrite C3, D3; exact M).
    destruct (civil_of _ (valid_weaken _ C1)) as [A _]. destruct (civil_of _ (valid_weaken _ D1)) as [A' _]. 
    destruct (same_minute_name (stamp t) (stamp t')) as [N1 N2]; try (apply valid_weaken; auto); auto.
    unfold image_place. rewrite N2. f_equal. f_equal. rewrite <- (day_norm outdir (stamp t)), <- (day_norm outdir (stamp t')), N1 by (apply month_ok; auto). reflexivity.
Qed.
Print Assumptions C89_place_of_minute.

(** Two images of 2 July 2018, at 04:33 and 04:34, and a third twenty seconds after the first. *)
Definition ex_d1 := mkDT 2018 183 4 33 0 0.
Definition ex_d2 := mkDT 2018 183 4 34 0 0.
Definition ex_d3 := mkDT 2018 183 4 33 20 0.
Definition ex_stamp (t : Z) : datetime := if t =? instant ex_d1 then ex_d1 else if t =? instant ex_d2 then ex_d2 else ex_d3.
Definition ex_pixel (t : Z) : frame (nat * nat) := mkFrame t (fun v _ => if String.eqb v "total_energy" then None else Some 2%Q).
Definition ex_series (ts : list Z) : gridded := mkGridded [0%Q; (1 # 10)%Q] [0%Q] 100 (mkSeries fields_6panel (map ex_pixel ts)).
Lemma ex_calendar : calendar ex_stamp [instant ex_d1; instant ex_d2; instant ex_d3].
Proof.
  intros t [<-|[<-|[<-|[]]]]; (split; [|split; [vm_compute; discriminate|reflexivity]]);
  (constructor; [vm_compute; split; discriminate | vm_compute; split; discriminate | intros H; vm_compute in H; discriminate | vm_compute; split; congruence ..]).
Qed.
Example C89_ex : exists g' fs' outs im, plot_files ex_stamp (lit "plots/case 1") (ex_series [instant ex_d2; instant ex_d1]) (mkGallery [] []) = Err FileNotFoundError /\
  plot_files ex_stamp (lit "/plots/case1/") (ex_series [instant ex_d2; instant ex_d1]) (mkGallery [] []) = Ok (g', fs', outs) /\
  outs = [lit "/plots/case1/2018/Jul/02/satellite.GOES-16.201807020433.GLM_fed_afa_toe_ged_aga_gcd.png";
          lit "/plots/case1/2018/Jul/02/satellite.GOES-16.201807020434.GLM_fed_afa_toe_ged_aga_gcd.png"] /\
  ga_lookup fs' (norm (lit "/plots/case1/2018/Jul/02/satellite.GOES-16.201807020433.GLM_fed_afa_toe_ged_aga_gcd.png")) = Some im /\
  map (fun p => pn_shown p 0%nat 1%nat) im = [2; 2; 0; 2; 2; 2]%Q /\ map pn_time im = repeat (instant ex_d1) 6.
Proof. do 4 eexists. split; [vm_compute; reflexivity|]. split; [vm_compute; reflexivity|]. split; [vm_compute; reflexivity|]. split; [vm_compute; reflexivity|]. split; vm_compute; reflexivity. Qed.
Example C89_hypotheses : calendar ex_stamp (times (ex_series [instant ex_d3; instant ex_d1])) /\ instant ex_d1 < instant ex_d3 /\
  instant ex_d1 / 60000000 = instant ex_d3 / 60000000 /\
  exists g' fs' outs, plot_files ex_stamp (lit "out") (ex_series [instant ex_d3; instant ex_d1]) (mkGallery [] []) = Ok (g', fs', outs).
Proof.
  split; [|split; [vm_compute; reflexivity|split; [vm_compute; reflexivity|do 3 eexists; vm_compute; reflexivity]]].
  intros t H. apply ex_calendar. cbn in H |- *. tauto.
Qed.
