(** C110: the templates of paths shown in the documentation. *)
From Coq Require Import List ZArith QArith Qabs Qround Bool Ascii String Lia Lqa.
From Verif Require Import Base BaseProofs Glm GlmProofs3 Lut FileName FileNameSpec FileNameProofs FileNameProofs2 GridSetup GridSetupSpec GridSetupProofs Imagery ImagerySpec ImageryProofs PropImagery Aggregate AggregateSpec AggregateProofs PropAggregate Output OutputSpec OutputProofs OutputProofs2 OutputProofs3 OutputProofs4 PropOutput TemplatesSpec.
Import ListNotations.
Open Scope nat_scope.

Definition good (c : pystr) : Prop := ~ In "/"%char c /\ trivial_part c = false.
(** The path of a frame: [n] directories below that of [d], and a file. *)
Definition goes_below (d : pystr) (n : nat) (p : pystr) (cs : list pystr) (base : pystr) : Prop :=
  exists dd, p = dd ++ "/"%char :: base /\ norm (dd ++ lit "/") = (fst (norm (d ++ lit "/")), snd (norm (d ++ lit "/")) ++ cs) /\
    List.length cs = n /\ good base.
Lemma below_norm : forall d n p cs base, goes_below d n p cs base ->
  norm p = (fst (norm (d ++ lit "/")), snd (norm (d ++ lit "/")) ++ cs ++ [base]) /\
  norm (dirname p) = (fst (norm (d ++ lit "/")), snd (norm (d ++ lit "/")) ++ cs) /\ dirname p <> [].
Proof.
  intros d n p cs base (dd & -> & N & _ & G1 & G2). destruct (dirname_norm dd base G1) as [A B]. split; [|split; [rewrite A; exact N|exact B]].
  rewrite norm_file by auto. change (dd ++ ["/"%char]) with (dd ++ lit "/"). rewrite N. cbn [fst snd]. rewrite <- app_assoc. reflexivity.
Qed.
Lemma split_prefix : forall (D cs q rest : list pystr), D ++ cs = q ++ rest -> (exists r, D = q ++ r) \/ exists r, q = D ++ r /\ cs = r ++ rest.
Proof.
  induction D as [|x D IH]; intros cs q rest H; [right; exists q; auto|]. destruct q as [|y q]; [left; exists (x :: D); reflexivity|].
  cbn in H. inversion H; subst y. destruct (IH cs q rest H2) as [(r & ->)|(r & -> & ->)]; [left; exists r; reflexivity|right; exists r; auto].
Qed.

Lemma loop_below : forall gd xs ys scaled sc res slot instr T d n stamp nx ny nt nows edges st fs t,
  simple_divide (gd_divide gd) -> t + (List.length edges - 1) <= nt -> List.length (gd_names gd) = List.length st -> shaped st nx ny nt ->
  2 <= List.length (slice_list xs (centers (gd_xedge gd))) -> 1 <= List.length (slice_list ys (centers (gd_yedge gd))) -> ~ In "/"%char (gd_platform gd) ->
  (forall a b name r, In a edges -> In b edges -> ~ In "/"%char name -> name = lit "OR_GLM-L2-GLM" ++ r -> exists cs base, goes_below d n (format_path T (stamp a) (stamp b) name) cs base) ->
  tidy (norm (d ++ lit "/")) n fs ->
  exists r, write_loop gd xs ys scaled sc res slot instr T stamp nows st fs t edges = Ok r /\ tidy (norm (d ++ lit "/")) n (snd (fst r)).
Proof.
  intros gd xs ys scaled sc res slot instr T d n stamp nx ny nt nows edges. induction edges as [|e0 edges IH]; intros st fs t HD Ht HN HS Hx Hy PS SH TD; [eexists; split; [reflexivity|exact TD]|].
  destruct edges as [|e1 edges]; [eexists; split; [reflexivity|exact TD]|]. cbn [List.length] in Ht.
  set (one := write_one gd xs ys scaled sc res slot instr T stamp). set (loop := write_loop gd xs ys scaled sc res slot instr T stamp) in *.
  change (exists r, (so <- one (nows t) st fs t e0 e1 ;; r <- loop nows (fst (fst so)) (snd (fst so)) (S t) (e1 :: edges) ;; Ok (fst r, snd so :: snd r)) = Ok r /\ tidy (norm (d ++ lit "/")) n (snd (fst r))).
  destruct (frame_ok_scene sc _ (rev (slice_list ys (centers (gd_yedge gd)))) Hx ltac:(rewrite rev_length; auto)) as (scene & Es & (code & Ec) & (sn & Esn)).
  destruct (fields_loop gd xs ys scaled nx ny nt HD t st ltac:(lia) HN HS) as (S1 & E1 & (L1 & SH1 & _)).
  assert (RT : exists rt, resolution res (slice_list xs (centers (gd_xedge gd))) = Ok rt).
  { unfold resolution. destruct (slice_list xs (centers (gd_xedge gd))) as [|x0 [|x1 xr]]; cbn in Hx; try lia. eexists. reflexivity. }
  destruct RT as (rt & ERT).
  assert (NM : exists name, dataset_name (stamp e0) (stamp e1) (nows t) (gd_platform gd) scene "ABI Mode 3" = Ok name).
  { unfold dataset_name. rewrite Ec. eexists. reflexivity. }
  destruct NM as (name & EN). destruct (output_name_shape _ _ _ _ _ _ _ EN PS) as [NS (r0 & ER)].
  set (D := norm (d ++ lit "/")) in *.
  destruct (SH e0 e1 name r0) as (cs & base & GB); [left; auto|right; left; auto|exact NS|exact ER|].
  set (p := format_path T (stamp e0) (stamp e1) name) in *. destruct (below_norm _ _ _ _ _ GB) as (NF & DN & DNE). fold D in NF, DN.
  assert (LC : List.length cs = n) by (destruct GB as (? & _ & _ & L & _); exact L). destruct TD as [TF TDI].
  assert (MK : exists fs1, (if exists_ fs (dirname p) then Ok fs else makedirs fs (dirname p)) = Ok fs1 /\
    fs_files fs1 = fs_files fs /\ is_dir fs1 (fst D, snd D ++ cs) = true /\ forall q, In q (fs_dirs fs1) -> In q (fs_dirs fs) \/ (fst q = fst D /\ exists rest, snd D ++ cs = snd q ++ rest)).
  { assert (NFD : forall q, (fst q = fst D /\ exists rest, snd D ++ cs = snd q ++ rest) -> lookup fs q = None).
    { intros q (Q1 & rest & Q2). destruct (lookup fs q) as [f|] eqn:E; [|reflexivity]. exfalso. destruct (TF q f E Q1) as [A B].
      destruct (split_prefix _ _ _ _ Q2) as [(r & K)|(r & K & K')]; [exact (A r K)|]. specialize (B r K). rewrite K', app_length in LC. lia. }
    unfold exists_, makedirs. rewrite DN. destruct (dirname p) as [|c0 dn]; [congruence|].
    rewrite (NFD (fst D, snd D ++ cs)) by (split; [auto|exists []; rewrite app_nil_r; auto]). rewrite orb_false_r. destruct (is_dir fs (fst D, snd D ++ cs)) eqn:ED.
    - exists fs. repeat split; auto.
    - match goal with |- context [existsb ?g ?l] => assert (EX : existsb g l = false) end.
      { match goal with |- ?b = false => destruct b eqn:B; [|reflexivity] end. apply existsb_exists in B. destruct B as (q & Hq & B). rewrite NFD in B by (apply (in_prefixes q (fst D, snd D ++ cs)); auto). discriminate B. }
      rewrite EX. eexists. split; [reflexivity|]. cbn [fs_files fs_dirs]. split; [reflexivity|]. split.
      + unfold is_dir in ED |- *. cbn [snd] in *. destruct (snd D ++ cs) as [|c1 cs1] eqn:ESD; [reflexivity|]. cbn [fs_dirs]. apply existsb_exists. exists (fst D, c1 :: cs1). split; [|apply path_eqb_refl]. apply in_or_app. left. apply prefixes_self. discriminate.
      + intros q Hq. apply in_app_or in Hq. destruct Hq as [Hq|Hq]; [right; apply (in_prefixes q (fst D, snd D ++ cs)); auto|auto]. }
  destruct MK as (fs1 & EF & FF & ID & DD).
  assert (DEEP : forall q rest, In q (fs_dirs fs1) -> fst q = fst D -> snd q = snd D ++ rest -> List.length rest <= n).
  { intros q rest Hq Q1 Q2. destruct (DD q Hq) as [K|(_ & r & K)]; [exact (TDI q rest K Q1 Q2)|]. rewrite Q2, <- app_assoc in K. apply app_inv_head in K. apply (f_equal (@List.length _)) in K. rewrite app_length in K. lia. }
  assert (TN : forall f, to_netcdf fs1 p f = Ok (mkFs (fs_dirs fs1) ((norm p, f) :: fs_files fs1))).
  { intros f. unfold to_netcdf. rewrite DN, ID, NF. cbn [negb].
    assert (X : is_dir fs1 (fst D, snd D ++ cs ++ [base]) = false); [|rewrite X; reflexivity]. unfold is_dir. cbn [snd]. destruct (snd D ++ cs ++ [base]) as [|c1 cs1] eqn:EC; [destruct (snd D); [destruct cs|]; discriminate EC|]. rewrite <- EC.
    match goal with |- ?b = false => destruct b eqn:B; [|reflexivity] end. apply existsb_exists in B. destruct B as (q & Hq & B). apply path_eqb_iff in B. subst q. exfalso.
    specialize (DEEP _ (cs ++ [base]) Hq eq_refl eq_refl). rewrite app_length in DEEP. cbn in DEEP. lia. }
  unfold one at 1, write_one. rewrite ERT. cbn [bind]. rewrite Es. cbn [bind]. unfold global_attrs. rewrite EN, Esn. cbn [bind at_name]. fold p. rewrite EF. cbn [bind]. rewrite HN, Nat.min_id, E1. cbn [bind]. rewrite TN. cbn [bind fst snd].
  match goal with |- context [loop nows S1 ?fs2 (S t) _] => destruct (IH S1 fs2 (S t)) as (r & E & TR) end; auto; try (cbn [List.length]; lia); try congruence.
  - intros a b nm r Ha Hb. apply SH; right; auto.
  - split.
    + intros q f LK Q1. unfold lookup in LK. cbn [fs_files find fst] in LK. destruct (path_eqb q (norm p)) eqn:B.
      * apply path_eqb_iff in B. rewrite NF in B. subst q. cbn [snd]. split.
        -- intros rest K. apply (f_equal (@List.length _)) in K. rewrite !app_length in K. cbn in K. lia.
        -- intros rest K. apply app_inv_head in K. subst rest. rewrite app_length. cbn. lia.
      * rewrite FF in LK. exact (TF q f LK Q1).
    + intros q rest Hq. cbn [fs_dirs] in Hq. apply DEEP. exact Hq.
  - rewrite E. eexists. split; [reflexivity|]. exact TR.
Qed.

(** * The two templates *)
Lemma long_good : forall c, ~ In "/"%char c -> 2 <= List.length c -> good c.
Proof. intros c N L. split; [exact N|]. destruct c as [|a [|b c]]; cbn in L; try lia. reflexivity. Qed.
Lemma pad_good : forall k n, 2 <= k -> good (pad k n).
Proof. intros k n H. apply long_good; [apply pad_no_slash|rewrite pad_length; exact H]. Qed.
Lemma month_good : forall m, (1 <= m <= 12)%Z -> good (month_abbr m).
Proof.
  intros m H. destruct (month_abbr_name m H) as (name & N & ->). destruct N; (apply long_good; [cbn; intuition discriminate|cbn; lia]).
Qed.
Lemma below_three : forall d y m dd base, good y -> good m -> good dd -> good base ->
  goes_below d 3 (d ++ "/"%char :: y ++ "/"%char :: m ++ "/"%char :: dd ++ "/"%char :: base) [y; m; dd] base.
Proof.
  intros d y m dd base [Y1 Y2] [M1 M2] [D1 D2] B. exists (d ++ "/"%char :: y ++ "/"%char :: m ++ "/"%char :: dd). split.
  - repeat (rewrite <- ?app_assoc; cbn [app]). reflexivity.
  - split; [|split; [reflexivity|exact B]]. unfold norm. f_equal.
    + destruct d; reflexivity.
    + fold (comps ((d ++ "/"%char :: y ++ "/"%char :: m ++ "/"%char :: dd) ++ lit "/")). fold (comps (d ++ lit "/")). change (lit "/") with ["/"%char].
      rewrite !comps_app. rewrite (comps_plain y), (comps_plain m), (comps_plain dd) by auto. replace (comps []) with (@nil pystr) by reflexivity. rewrite !app_nil_r. reflexivity.
Qed.
Definition time_base (s : datetime) : pystr :=
  lit "GLM_" ++ pad 4 (dt_year s) ++ pad 2 (fst (date_of s)) ++ pad 2 (snd (date_of s)) ++ lit "_" ++ pad 2 (dt_hour s) ++ pad 2 (dt_min s) ++ pad 2 (dt_sec s) ++ lit ".nc".
Lemma time_base_good : forall s, good (time_base s).
Proof.
  intros s. apply long_good; [|cbn; lia]. unfold time_base. intros K. rewrite !in_app_iff in K.
  repeat (match type of K with _ \/ _ => destruct K as [K|K] end); try (exact (pad_no_slash _ _ K)); cbn in K; intuition discriminate.
Qed.
(** The two forms of the path of a frame. *)
Lemma date_path : forall d s e name, format_path (by_date d) s e name =
  d ++ "/"%char :: pad 4 (dt_year s) ++ "/"%char :: month_abbr (fst (date_of s)) ++ "/"%char :: pad 2 (snd (date_of s)) ++ "/"%char :: name.
Proof. intros. unfold format_path, by_date, fmt_time. cbn [flat_map fmt_directive slash]. rewrite ?app_nil_r, <- ?app_assoc. cbn [lit list_ascii_of_string app]. rewrite ?app_nil_r, <- ?app_assoc. reflexivity. Qed.
Lemma time_path : forall d s e name, format_path (by_time d) s e name =
  d ++ "/"%char :: pad 2 (dt_year s mod 100) ++ "/"%char :: month_abbr (fst (date_of s)) ++ "/"%char :: pad 2 (snd (date_of s)) ++ "/"%char :: time_base s.
Proof. intros. unfold format_path, by_time, fmt_time, time_base. cbn [flat_map fmt_directive slash]. rewrite ?app_nil_r, <- ?app_assoc. cbn [lit list_ascii_of_string app]. rewrite ?app_nil_r, <- ?app_assoc. cbn [app]. rewrite <- ?app_assoc. reflexivity. Qed.
Lemma day_of : forall s, valid_from 1 s -> good (month_abbr (fst (date_of s))) /\ good (pad 2 (snd (date_of s))).
Proof. intros s V. destruct (civil_of s V) as [(_ & M & _) _]. cbn [c_month] in M. split; [apply month_good; exact M|apply pad_good; lia]. Qed.
Lemma documented_below : forall d T s e name r, documented d T -> valid_from 1 s -> ~ In "/"%char name -> name = lit "OR_GLM-L2-GLM" ++ r ->
  exists y, goes_below d 3 (format_path T s e name) [y; month_abbr (fst (date_of s)); pad 2 (snd (date_of s))] (if list_eq_dec ascii_dec y (pad 4 (dt_year s)) then name else time_base s) /\
    (T = by_date d /\ y = pad 4 (dt_year s) \/ T = by_time d /\ y = pad 2 (dt_year s mod 100)).
Proof.
  intros d T s e name r DC V NS EN. destruct (day_of s V) as [GM GD]. destruct DC as [-> | ->].
  - exists (pad 4 (dt_year s)). split; [|auto]. destruct (list_eq_dec _ _ _) as [_|N]; [|congruence]. rewrite date_path. apply below_three; auto; [apply pad_good; lia|]. apply long_good; auto. rewrite EN. cbn. lia.
  - exists (pad 2 (dt_year s mod 100)). split; [|auto]. destruct (list_eq_dec _ _ _) as [E|_]; [apply (f_equal (@List.length _)) in E; rewrite !pad_length in E; discriminate E|].
    rewrite time_path. apply below_three; auto; [apply pad_good; lia|]. apply time_base_good.
Qed.
Lemma some_pair : forall (a b : Z) (x y : pystr), Some (a, x) = Some (b, y) -> a = b /\ x = y.
Proof. intros a b x y E. split; congruence. Qed.
Lemma time_base_second : forall a b, valid_from 1 a -> valid_from 1 b -> time_base a = time_base b -> to_second a = to_second b.
Proof.
  intros a b VA VB E. destruct (civil_of a VA) as [CA DA]. destruct (civil_of b VB) as [CB DB]. unfold civil_valid in CA, CB. cbn [c_year c_month c_day c_hour c_min c_sec] in CA, CB.
  assert (ML : forall y m, (month_length y m <= 31)%Z) by (intros y m; unfold month_length, days_in_year; destruct (m =? 2)%Z; [destruct (leap y); lia|]; destruct (_ || _)%bool; lia).
  pose proof (ML (dt_year a) (fst (date_of a))). pose proof (ML (dt_year b) (fst (date_of b))).
  destruct VA as [a1 a2 a3 a4 a5 a6 a7]. destruct VB as [b1 b2 b3 b4 b5 b6 b7]. unfold time_base in E. apply app_inv_head in E.
  apply (f_equal (first_cls iso_Y)) in E. rewrite !first_iso_Y in E by lia. destruct (some_pair _ _ _ _ E) as [EY E1]. clear E.
  apply (f_equal (first_cls iso_m)) in E1. rewrite !first_iso_m in E1 by lia. destruct (some_pair _ _ _ _ E1) as [EM E2]. clear E1.
  apply (f_equal (first_cls iso_d)) in E2. rewrite !first_iso_d in E2 by lia. destruct (some_pair _ _ _ _ E2) as [ED E3]. clear E2. apply app_inv_head in E3.
  apply (f_equal (first_cls iso_H)) in E3. rewrite !first_iso_H in E3 by lia. destruct (some_pair _ _ _ _ E3) as [EH E4]. clear E3.
  apply (f_equal (first_cls iso_M)) in E4. rewrite !first_iso_M in E4 by lia. destruct (some_pair _ _ _ _ E4) as [EMi E5]. clear E4.
  apply (f_equal (first_cls iso_S)) in E5. rewrite !first_iso_S in E5 by lia. destruct (some_pair _ _ _ _ E5) as [ES _]. clear E5.
  unfold to_second. rewrite EY, EH, EMi, ES, <- DA, <- DB, EY, EM, ED. reflexivity.
Qed.

(** * C110 *)
Lemma frame_shape : forall j og fs af fs' paths d k s p, saves j og fs af fs' paths -> dated 1 9999 j -> ~ In "/"%char (gd_platform (j_gd j)) -> documented d (j_outpath j) ->
  frame_path j paths k s p -> exists f files, nth_error files k = Some f /\ List.length files = List.length paths /\
    writes (j_gd j) (j_pad j) (j_scaled j) (j_mx j) (j_my j) og af (map nc_out files) /\ fs_files fs' = rev (combine (map norm paths) files) ++ fs_files fs /\ valid_from 1 s /\
    exists e scene y, frame_times j k s e /\ dataset_name s e (j_nows j k) (gd_platform (j_gd j)) scene "ABI Mode 3" = Ok (at_name (nc_attrs f)) /\ of_name (nc_out f) = at_name (nc_attrs f) /\
    (exists r, at_name (nc_attrs f) = lit "OR_GLM-L2-GLM" ++ r) /\
    goes_below d 3 p [y; month_abbr (fst (date_of s)); pad 2 (snd (date_of s))] (if list_eq_dec ascii_dec y (pad 4 (dt_year s)) then at_name (nc_attrs f) else time_base s) /\
    (j_outpath j = by_date d /\ y = pad 4 (dt_year s) \/ j_outpath j = by_time d /\ y = pad 2 (dt_year s mod 100)).
Proof.
  intros j og fs af fs' paths d k s p SV [DT _] PS DC (Hp & e' & t0' & t1' & T0' & T1' & Es' & Ee'). destruct (saves_spec _ _ _ _ _ _ SV) as (files & W & L1 & L2 & P & F & _).
  assert (Ek : k < List.length files) by (rewrite L1; apply nth_error_Some; congruence). destruct (nth_error files k) as [f|] eqn:Hf; [|apply nth_error_Some in Ek; congruence].
  destruct (P k f Hf) as (t0 & t1 & s0 & T0 & T1 & Es & M). rewrite Hp in Es. inversion Es; subst s0. rewrite T0 in T0'. inversion T0'; subst t0'. 
  destruct (made_name _ _ _ _ _ _ M) as (sc & N). destruct (output_name_shape _ _ _ _ _ _ _ N PS) as [S1 (r & R)].
  destruct (DT t0 (edge_in _ _ _ T0)) as [V0 _]. exists f, files. rewrite Es'. split; [exact Hf|]. split; [exact L1|]. split; [exact W|]. split; [exact F|]. split; [exact V0|].
  destruct (documented_below d (j_outpath j) (j_stamp j t0) (j_stamp j t1) _ r DC V0 S1 R) as (y & GB & C). rewrite (md_path _ _ _ _ _ _ _ _ _ _ _ _ _ _ M).
  exists (j_stamp j t1), sc, y. split; [exists t0, t1; auto|]. split; [exact N|]. split; [exact (md_name _ _ _ _ _ _ _ _ _ _ _ _ _ _ M)|]. split; [exists r; exact R|]. auto.
Qed.

(** A call with one of the templates of the documentation ends without exception, making
    the directories of the day where they are missing, and leaves the directory fit for
    further calls. *)
Theorem C110_writing_succeeds : forall j outgrids fs d, proper j outgrids -> 2 <= j_mx j -> 1 <= j_my j -> ~ In "/"%char (gd_platform (j_gd j)) ->
  dated 1 9999 j -> documented d (j_outpath j) -> tidy (norm (d ++ lit "/")) 3 fs ->
  exists after fs' paths, saves j outgrids fs after fs' paths /\ tidy (norm (d ++ lit "/")) 3 fs'.
Proof.
  intros j og fs d PR Hx Hy PS [DT DN] DC TD. destruct (cols_rows j og PR) as [CX CY]. assert (PR' := PR). destruct PR as (A1 & A2 & A3 & A4 & A5 & A6 & A7).
  destruct (loop_below (j_gd j) (slices j) (slices j) (j_scaled j) (j_scenes j) (j_resolutions j) (j_slot j) (j_instrument j) (j_outpath j) d 3 (j_stamp j) _ _ _ (j_nows j) (gd_tedges (j_gd j)) og fs 0 A7 ltac:(reflexivity) A6 A5) as (((af & fs') & ps) & E & T); auto.
  - rewrite CX. unfold columns. rewrite map_length, seq_length. exact Hx.
  - rewrite CY. unfold rows. rewrite map_length, seq_length. exact Hy.
  - intros a b name r Ha Hb NS EN. destruct (documented_below d (j_outpath j) (j_stamp j a) (j_stamp j b) name r DC (proj1 (DT a Ha)) NS EN) as (y & GB & _). eexists. eexists. exact GB.
  - exists af, fs', ps. split; [|exact T]. split; [exact PR'|]. exact E.
Qed.
Print Assumptions C110_writing_succeeds.

(** The file of a frame is in the directory of the day on which the frame starts, under
    its own name or that of its start. *)
Theorem C110_directories : forall j outgrids fs after fs' paths d k s p, saves j outgrids fs after fs' paths -> dated 1 9999 j -> ~ In "/"%char (gd_platform (j_gd j)) ->
  documented d (j_outpath j) -> frame_path j paths k s p ->
  exists y m day base files f, norm p = (fst (norm (d ++ lit "/")), snd (norm (d ++ lit "/")) ++ [y; m; day; base]) /\
    writes (j_gd j) (j_pad j) (j_scaled j) (j_mx j) (j_my j) outgrids after (map nc_out files) /\ nth_error files k = Some f /\
    (j_outpath j = by_date d /\ day_dirs 4 s y m day /\ base = of_name (nc_out f) \/
     j_outpath j = by_time d /\ day_dirs 2 s y m day /\ start_name s base).
Proof.
  intros j og fs af fs' paths d k s p SV DT PS DC FP. destruct (frame_shape _ _ _ _ _ _ _ _ _ _ SV DT PS DC FP) as (f & files & Hf & _ & W & _ & V & e & sc & y & _ & _ & NO & _ & GB & C).
  destruct (below_norm _ _ _ _ _ GB) as [N _]. 
  destruct (civil_of s V) as [(_ & M & Y & _) CD]. cbn [c_month c_day c_year] in M, Y. destruct (month_abbr_name (fst (date_of s)) M) as (nm & MN & EM).
  assert (YR : (1 <= dt_year s <= 9999)%Z) by (destruct V; lia).
  do 4 eexists. exists files, f. split; [rewrite N; reflexivity|]. split; [exact W|]. split; [exact Hf|].
  assert (DD : forall n, y = pad n (dt_year s mod 10 ^ Z.of_nat n)%Z -> day_dirs n s y (month_abbr (fst (date_of s))) (pad 2 (snd (date_of s)))).
  { intros n E. exists (fst (date_of s)), (snd (date_of s)), nm. rewrite !decimal_pad. auto 10. }
  destruct C as [[C E]|[C E]]; [left|right]; (split; [exact C|]).
  - destruct (list_eq_dec _ _ _) as [_|K]; [|congruence]. split; [|auto]. apply DD. rewrite Z.mod_small by (change (10 ^ Z.of_nat 4)%Z with 10000%Z; lia). exact E.
  - destruct (list_eq_dec _ _ _) as [K|_]; [rewrite E in K; apply (f_equal (@List.length _)) in K; rewrite !pad_length in K; discriminate K|]. split; [apply DD; exact E|].
    exists (fst (date_of s)), (snd (date_of s)). rewrite !decimal_pad. auto 10.
Qed.
Print Assumptions C110_directories.

(** Paths of one call or of two, with the templates of the documentation below the same
    directory: two frames have the same path only if they start within the same second. *)
Lemma same_second : forall j og fs af fs' paths j' og' gs af' gs' paths' d k s p k' s' p', saves j og fs af fs' paths -> saves j' og' gs af' gs' paths' ->
  dated 1000 9999 j -> dated 1000 9999 j' -> plain (gd_platform (j_gd j)) -> plain (gd_platform (j_gd j')) -> documented d (j_outpath j) -> documented d (j_outpath j') ->
  frame_path j paths k s p -> frame_path j' paths' k' s' p' -> same_path p p' -> (Z.abs (instant s - instant s') < 1000000)%Z.
Proof.
  assert (WK : forall j, dated 1000 9999 j -> dated 1 9999 j).
  { intros j [A B]. split; [intros t Ht; destruct (A t Ht); split; [apply valid_1000; auto|auto]|intros k; apply valid_1000; auto]. }
  intros j og fs af fs' paths j' og' gs af' gs' paths' d k s p k' s' p' SV SV' DT DT' [PC PS] [PC' PS'] DC DC' FP FP' SP.
  destruct (frame_shape _ _ _ _ _ _ _ _ _ _ SV (WK _ DT) PS DC FP) as (f & files & _ & _ & _ & _ & V & e & sc & y & FT & DN & _ & (r & R) & GB & C).
  destruct (frame_shape _ _ _ _ _ _ _ _ _ _ SV' (WK _ DT') PS' DC' FP') as (f' & files' & _ & _ & _ & _ & V' & e' & sc' & y' & FT' & DN' & _ & (r' & R') & GB' & C').
  destruct (below_norm _ _ _ _ _ GB) as [N _]. destruct (below_norm _ _ _ _ _ GB') as [N' _]. unfold same_path in SP. rewrite N, N' in SP.
  apply (f_equal snd) in SP. cbn [snd] in SP. apply app_inv_head in SP. cbn [app] in SP. apply (f_equal (fun l => nth 3 l [])) in SP. cbn [nth] in SP. apply instant_seconds; auto.
  destruct (list_eq_dec _ y _) as [Ey|Ey]; destruct (list_eq_dec _ y' _) as [Ey'|Ey'].
  - destruct FT as (t0 & t1 & T0 & T1 & -> & ->). destruct FT' as (t0' & t1' & T0' & T1' & -> & ->). destruct DT as [DT DN0]. destruct DT' as [DT' DN0'].
    destruct (DT t0 (edge_in _ _ _ T0)) as [V0 _]. destruct (DT t1 (edge_in _ _ _ T1)) as [V1 _]. destruct (DT' t0' (edge_in _ _ _ T0')) as [V0' _]. destruct (DT' t1' (edge_in _ _ _ T1')) as [V1' _].
    destruct (parse_dataset_name _ _ _ _ _ _ _ V0 V1 (DN0 k) PC DN) as (c1 & _ & A1). destruct (parse_dataset_name _ _ _ _ _ _ _ V0' V1' (DN0' k') PC' DN') as (c2 & _ & A2).
    rewrite SP, A2 in A1. inversion A1; unfold to_second; congruence.
  - rewrite R in SP. discriminate SP.
  - rewrite R' in SP. discriminate SP.
  - apply time_base_second; auto.
Qed.
Theorem C110_own_files : forall j outgrids fs after fs' paths d, saves j outgrids fs after fs' paths -> dated 1000 9999 j ->
  plain (gd_platform (j_gd j)) -> documented d (j_outpath j) ->
  (forall k k' s e s' e', k < k' -> frame_times j k s e -> frame_times j k' s' e' -> (instant s + 1000000 <= instant s')%Z) ->
  exists files, writes (j_gd j) (j_pad j) (j_scaled j) (j_mx j) (j_my j) outgrids after (map nc_out files) /\ List.length files = List.length paths /\
    forall k p f, nth_error paths k = Some p -> nth_error files k = Some f -> holds fs' p f.
Proof.
  intros j og fs af fs' paths d SV DT PL DC ST. destruct (saves_spec _ _ _ _ _ _ SV) as (files & W & L1 & L2 & P & F & _). exists files. split; [exact W|]. split; [exact L1|].
  assert (FT : forall k p, nth_error paths k = Some p -> exists s, frame_path j paths k s p).
  { intros k p Hp. assert (Ek : k < List.length files) by (rewrite L1; apply nth_error_Some; congruence). destruct (nth_error files k) as [f|] eqn:Hf; [|apply nth_error_Some in Ek; congruence].
    destruct (P k f Hf) as (t0 & t1 & s0 & T0 & T1 & Es & M). exists (j_stamp j t0). split; [exact Hp|]. exists (j_stamp j t1), t0, t1. auto. }
  intros k p f Hp Hf. eapply found; eauto. intros k' p' L Hp' SP. destruct (FT k p Hp) as (s & FP). destruct (FT k' p' Hp') as (s' & FP').
  pose proof (same_second _ _ _ _ _ _ _ _ _ _ _ _ _ _ _ _ _ _ _ SV SV DT DT PL PL DC DC FP FP' SP). destruct FP as (_ & e & T). destruct FP' as (_ & e' & T'). specialize (ST k k' s e s' e' L T T'). lia.
Qed.
Print Assumptions C110_own_files.

(** A later call below the same directory, with either template, keeps the files of the
    frames of an earlier call that start at least a second before or after its own. *)
Theorem C110_calls_keep_files : forall j outgrids fs after fs' paths j' outgrids' after' fs'' paths' d k s p f,
  saves j outgrids fs after fs' paths -> saves j' outgrids' fs' after' fs'' paths' -> dated 1000 9999 j -> dated 1000 9999 j' ->
  plain (gd_platform (j_gd j)) -> plain (gd_platform (j_gd j')) -> documented d (j_outpath j) -> documented d (j_outpath j') ->
  frame_path j paths k s p -> holds fs' p f ->
  (forall k' s' e', frame_times j' k' s' e' -> (1000000 <= Z.abs (instant s - instant s'))%Z) ->
  holds fs'' p f.
Proof.
  intros j og fs af fs' paths j' og' af' fs'' paths' d k s p f SV SV' DT DT' PL PL' DC DC' FP H AP.
  destruct (saves_spec _ _ _ _ _ _ SV') as (files & W & L1 & L2 & P & F & _). unfold holds in *. rewrite <- H. rewrite (lookup_files _ _ _ F). rewrite find_none_all; [reflexivity|].
  intros [a b] Hin. apply in_rev in Hin. cbn [fst]. destruct (path_eqb (norm p) a) eqn:E; [|reflexivity]. apply path_eqb_iff in E. subst a. exfalso.
  apply in_combine_l in Hin. apply in_map_iff in Hin. destruct Hin as (p' & EP & Hp'). apply In_nth_error in Hp'. destruct Hp' as (k' & Hk).
  assert (Ek : k' < List.length files) by (rewrite L1; apply nth_error_Some; congruence). destruct (nth_error files k') as [g|] eqn:Hg; [|apply nth_error_Some in Ek; congruence].
  destruct (P k' g Hg) as (t0 & t1 & s0 & T0 & T1 & Es & M).
  assert (FP' : frame_path j' paths' k' (j_stamp j' t0) p') by (split; [exact Hk|]; exists (j_stamp j' t1), t0, t1; auto).
  pose proof (same_second _ _ _ _ _ _ _ _ _ _ _ _ _ _ _ _ _ _ _ SV SV' DT DT' PL PL' DC DC' FP FP' (eq_sym EP)). destruct FP' as (_ & e' & T'). specialize (AP _ _ _ T'). lia.
Qed.
Print Assumptions C110_calls_keep_files.

(** ** Cases *)
(** Two calls with the two templates below the same directory, in an empty file system. *)
Lemma ex_tidy : forall d, tidy (norm (d ++ lit "/")) 3 ex_fs.
Proof. intros d. split; [intros p f H; discriminate H|intros p rest H; destruct H]. Qed.
Lemma ex_dated_wide : forall o, dated 1000 9999 (ex_job o).
Proof.
  intros o. destruct (ex_dated o) as [A B]. split; [intros t Ht; destruct (A t Ht) as [[] C]|intros k; destruct (B k)]; [split; [|lia]|]; constructor; auto; lia.
Qed.
Lemma dated_low : forall j, dated 1000 9999 j -> dated 1 9999 j.
Proof. intros j [A B]. split; [intros t Ht; destruct (A t Ht); split; [apply valid_1000; auto|auto]|intros k; apply valid_1000; auto]. Qed.
(** A call with the frames of the next minutes. *)
Definition ex_later (o : list piece) : job :=
  mkJob ex_out_gd 0 3 3 true (j_scenes (ex_job o)) ex_resolutions (lit "GOES-East") (lit "GLM-1") o (fun t => mkDT 2018 183 4 (32 + Qfloor (t / 60)) 0 0) (fun _ => mkDT 2018 183 5 0 0 0).
Lemma ex_later_dated : forall o, dated 1000 9999 (ex_later o).
Proof.
  intros o. split; [|intros k; constructor; cbn; try lia]. intros t Ht. cbn in Ht. 
  destruct Ht as [<-|[<-|[<-|[]]]]; (split; [constructor; vm_compute; intuition discriminate|vm_compute; discriminate]).
Qed.
Example C110_hypotheses : exists j outgrids after fs' paths j' after' fs'' paths',
  saves j outgrids ex_fs after fs' paths /\ saves j' outgrids fs' after' fs'' paths' /\ dated 1000 9999 j /\ dated 1000 9999 j' /\ plain (gd_platform (j_gd j)) /\ plain (gd_platform (j_gd j')) /\
  documented (lit ".") (j_outpath j) /\ documented (lit ".") (j_outpath j') /\ tidy (norm (lit "./")) 3 ex_fs /\ tidy (norm (lit "./")) 3 fs' /\
  (forall k s e k' s' e', frame_times j k s e -> frame_times j' k' s' e' -> (1000000 <= Z.abs (instant s - instant s'))%Z) /\
  map string_of_list_ascii paths = ["./2018/Jul/02/OR_GLM-L2-GLMM1-M3_G16_s20181830430000_e20181830431000_c20181830500000.nc"; "./2018/Jul/02/OR_GLM-L2-GLMM1-M3_G16_s20181830431000_e20181830432000_c20181830500000.nc"]%string /\
  map string_of_list_ascii paths' = ["./18/Jul/02/GLM_20180702_043200.nc"; "./18/Jul/02/GLM_20180702_043300.nc"]%string.
Proof.
  set (j := ex_job (by_date (lit "."))). set (j' := ex_later (by_time (lit "."))).
  assert (PL := ex_plain).
  destruct (C110_writing_succeeds j ex_grids ex_fs (lit ".") (ex_proper _)) as (af & fs' & paths & SV & TD);
    [cbn; lia|cbn; lia|apply PL|apply dated_low, ex_dated_wide|left; reflexivity|apply ex_tidy|].
  destruct (C110_writing_succeeds j' ex_grids fs' (lit ".") (ex_proper (by_date (lit ".")))) as (af' & fs'' & paths' & SV' & TD');
    [cbn; lia|cbn; lia|apply PL|apply dated_low, ex_later_dated|right; reflexivity|exact TD|].
  exists j, ex_grids, af, fs', paths, j', af', fs'', paths'. split; [exact SV|]. split; [exact SV'|]. split; [apply ex_dated_wide|]. split; [apply ex_later_dated|]. split; [exact PL|]. split; [exact PL|].
  split; [left; reflexivity|]. split; [right; reflexivity|]. split; [exact (ex_tidy (lit "."))|]. split; [exact TD|]. split.
  - intros k s e k' s' e' (t0 & t1 & T0 & T1 & -> & _) (t0' & t1' & T0' & T1' & -> & _).
    destruct k as [|[|[|[|k]]]]; try discriminate T1; destruct k' as [|[|[|[|k']]]]; try discriminate T1'.
    all: cbn in T0, T0'; inversion T0; inversion T0'; subst; vm_compute; discriminate.
  - destruct SV as [_ E]. destruct SV' as [_ E']. vm_compute in E. inversion E. subst af fs' paths. vm_compute in E'. inversion E'. split; reflexivity.
Qed.
