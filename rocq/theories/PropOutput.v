(** C62-C66: metadata, coordinates, times and paths of written imagery, and reading it
    back. *)
From Coq Require Import List ZArith QArith Qabs Qround Bool Ascii String Lia Lqa.
From Verif Require Import Base BaseProofs Glm GlmProofs3 Lut FileName FileNameSpec FileNameProofs FileNameProofs2 GridSetup GridSetupSpec GridSetupProofs Imagery ImagerySpec ImageryProofs PropImagery Aggregate AggregateSpec AggregateProofs PropAggregate Output OutputSpec OutputProofs OutputProofs2 OutputProofs3 OutputProofs4.
Import ListNotations.
Open Scope nat_scope.

(** * Helpers *)
Lemma edge_in : forall j k t, nth_error (gd_tedges (j_gd j)) k = Some t -> In t (gd_tedges (j_gd j)).
Proof. intros. eapply nth_error_In; eauto. Qed.
Lemma valid_weaken : forall a b d, (b <= a)%Z -> valid_from a d -> valid_from b d.
Proof. intros a b d L [w1 w2 w3 w4 w5 w6 w7]. constructor; auto. lia. Qed.
(** The file of the last frame put under a path is found there. *)
Lemma found : forall j og fs af fs' paths files, saves j og fs af fs' paths -> List.length files = List.length paths ->
  fs_files fs' = rev (combine (map norm paths) files) ++ fs_files fs ->
  forall k p f, nth_error paths k = Some p -> nth_error files k = Some f -> (forall k' p', k < k' -> nth_error paths k' = Some p' -> ~ same_path p p') -> holds fs' p f.
Proof.
  intros j og fs af fs' paths files S L F k p f Hp Hf N. unfold holds. rewrite (lookup_files _ _ _ F).
  rewrite (last_put (map norm paths) files k (norm p) f); [reflexivity|rewrite map_length; auto|rewrite nth_error_map, Hp; reflexivity|exact Hf|].
  intros k' L' E. rewrite nth_error_map in E. destruct (nth_error paths k') as [p'|] eqn:E'; [|discriminate E]. apply (N k' p' L' E'). unfold same_path. cbn [option_map] in E. congruence.
Qed.
(** Under every returned path is the file of some frame. *)
Lemma under : forall j og fs af fs' paths, saves j og fs af fs' paths ->
  forall p, In p paths -> exists k q t0 t1 f, nth_error paths k = Some q /\ same_path q p /\ nth_error (gd_tedges (j_gd j)) k = Some t0 /\ nth_error (gd_tedges (j_gd j)) (S k) = Some t1 /\
    made_by j k t0 t1 f q /\ holds fs' p f /\ shows_frame (j_gd j) (slices j) (slices j) (j_scaled j) (j_mx j + 2 * j_pad j) (j_my j + 2 * j_pad j) og k (nc_out f).
Proof.
  intros j og fs af fs' paths SV p Hp. destruct (saves_spec _ _ _ _ _ _ SV) as (files & W & L1 & L2 & P & F & _).
  destruct (last_index (map norm paths) (norm p) (in_map norm _ _ Hp)) as (k & A & B). rewrite nth_error_map in A. destruct (nth_error paths k) as [q|] eqn:Eq; [|discriminate A]. assert (EN : norm q = norm p) by (cbn [option_map] in A; congruence).
  assert (Hk : k < List.length files) by (rewrite L1; apply nth_error_Some; congruence). destruct (nth_error files k) as [f|] eqn:Ef; [|apply nth_error_Some in Hk; congruence].
  destruct (P k f Ef) as (t0 & t1 & s & T0 & T1 & Es & M). rewrite Eq in Es. inversion Es; subst s. exists k, q, t0, t1, f. split; [exact Eq|]. split; [exact EN|]. split; [exact T0|]. split; [exact T1|]. split; [exact M|]. split.
  - unfold holds. rewrite <- EN. apply (found j og fs af fs' paths files SV L1 F k q f Eq Ef). intros k' p' Lk Ep' SP. apply (B k' Lk). rewrite nth_error_map, Ep'. cbn [option_map]. unfold same_path in SP. congruence.
  - destruct (writes_files _ _ _ _ _ _ _ _ W) as (_ & FF & _). apply FF. rewrite nth_error_map, Ef. reflexivity.
Qed.

(** * C65 *)
(** One path for each frame, in their order: the template with the times of the frame and
    the name of its file filled in.  The file of a frame whose path is not used again
    later in the call is there afterwards; files under other paths are as before, and
    directories are not removed. *)
Theorem C65_paths_and_files : forall j outgrids fs after fs' paths, saves j outgrids fs after fs' paths -> dated 1 9999 j ->
  exists files, writes (j_gd j) (j_pad j) (j_scaled j) (j_mx j) (j_my j) outgrids after (map nc_out files) /\
    S (List.length paths) = Nat.max 1 (List.length (gd_tedges (j_gd j))) /\ List.length files = List.length paths /\
    (forall k p f, nth_error paths k = Some p -> nth_error files k = Some f ->
       (exists s e, frame_times j k s e /\ filled s e (of_name (nc_out f)) (j_outpath j) p) /\
       ((forall k' p', k < k' -> nth_error paths k' = Some p' -> ~ same_path p p') -> holds fs' p f)) /\
    (forall q, (forall p, In p paths -> norm p <> q) -> lookup fs' q = lookup fs q) /\
    forall d, In d (fs_dirs fs) -> In d (fs_dirs fs').
Proof.
  intros j og fs af fs' paths SV DT. destruct (saves_spec _ _ _ _ _ _ SV) as (files & W & L1 & L2 & P & F & (l & D)). exists files. split; [exact W|]. split; [lia|]. split; [exact L1|].
  split; [|split].
  - intros k p f Hp Hf. destruct (P k f Hf) as (t0 & t1 & s & T0 & T1 & Es & M). rewrite Hp in Es. inversion Es; subst s. split; [|intros N; eapply found; eauto].
    exists (j_stamp j t0), (j_stamp j t1). split; [exists t0, t1; auto|]. rewrite (md_path _ _ _ _ _ _ _ _ _ _ _ _ _ _ M), (md_name _ _ _ _ _ _ _ _ _ _ _ _ _ _ M).
    destruct DT as [DT _]. apply fmt_filled; apply DT; eapply edge_in; eauto.
  - intros q N. rewrite (lookup_files _ _ _ F). rewrite find_none_all; [reflexivity|]. intros [a b] Hin. apply in_rev in Hin. apply in_combine_l in Hin. apply in_map_iff in Hin.
    destruct Hin as (p & <- & Hp). cbn [fst]. destruct (path_eqb q (norm p)) eqn:E; [|reflexivity]. apply path_eqb_iff in E. destruct (N p Hp). auto.
  - intros d Hd. rewrite D. apply in_or_app. auto.
Qed.
Print Assumptions C65_paths_and_files.

(** With a template that is a directory and the name, frames that start at least a second
    apart keep separate files. *)
Lemma made_name : forall j k t0 t1 f s, made_by j k t0 t1 f s -> exists scene, dataset_name (j_stamp j t0) (j_stamp j t1) (j_nows j k) (gd_platform (j_gd j)) scene "ABI Mode 3" = Ok (at_name (nc_attrs f)).
Proof. intros j k t0 t1 f s M. destruct (md_scene _ _ _ _ _ _ _ _ _ _ _ _ _ _ M) as (scene & _ & _ & E). exists scene. exact E. Qed.
Lemma name_not_trivial : forall r, trivial_part (lit "OR_GLM-L2-GLM" ++ r) = false.
Proof. reflexivity. Qed.
Theorem C65_frames_keep_their_files : forall j outgrids fs after fs' paths d, saves j outgrids fs after fs' paths -> dated 1000 9999 j ->
  plain (gd_platform (j_gd j)) -> j_outpath j = [PText (d ++ lit "/"); PName] ->
  (forall k k' s e s' e', k < k' -> frame_times j k s e -> frame_times j k' s' e' -> (instant s + 1000000 <= instant s')%Z) ->
  forall k k' p p', k <> k' -> nth_error paths k = Some p -> nth_error paths k' = Some p' -> ~ same_path p p'.
Proof.
  intros j og fs af fs' paths d SV [DT DN] [PC PS] TP ST. destruct (saves_spec _ _ _ _ _ _ SV) as (files & W & L1 & L2 & P & F & _).
  assert (K : forall k k' p p', k < k' -> nth_error paths k = Some p -> nth_error paths k' = Some p' -> ~ same_path p p').
  { intros k k' p p' L Hp Hp' SP. assert (Ek : k < List.length files) by (rewrite L1; apply nth_error_Some; congruence). assert (Ek' : k' < List.length files) by (rewrite L1; apply nth_error_Some; congruence).
    destruct (nth_error files k) as [f|] eqn:Hf; [|apply nth_error_Some in Ek; congruence]. destruct (nth_error files k') as [f'|] eqn:Hf'; [|apply nth_error_Some in Ek'; congruence].
    destruct (P k f Hf) as (t0 & t1 & s & T0 & T1 & Es & M). destruct (P k' f' Hf') as (t0' & t1' & s' & T0' & T1' & Es' & M'). rewrite Hp in Es. rewrite Hp' in Es'. inversion Es; inversion Es'; subst s s'.
    destruct (made_name _ _ _ _ _ _ M) as (sc1 & N1). destruct (made_name _ _ _ _ _ _ M') as (sc2 & N2).
    destruct (output_name_shape _ _ _ _ _ _ _ N1 PS) as [S1 (r1 & R1)]. destruct (output_name_shape _ _ _ _ _ _ _ N2 PS) as [S2 (r2 & R2)].
    pose proof (md_path _ _ _ _ _ _ _ _ _ _ _ _ _ _ M) as Q1. pose proof (md_path _ _ _ _ _ _ _ _ _ _ _ _ _ _ M') as Q2. rewrite TP in Q1, Q2. cbn [format_path flat_map] in Q1, Q2. rewrite app_nil_r, <- app_assoc in Q1, Q2. cbn [lit list_ascii_of_string app] in Q1, Q2.
    unfold same_path in SP. rewrite Q1, Q2 in SP. rewrite (norm_file d (at_name (nc_attrs f))), (norm_file d (at_name (nc_attrs f'))) in SP by (auto; rewrite ?R1, ?R2; apply name_not_trivial).
    assert (E : at_name (nc_attrs f) = at_name (nc_attrs f')). { apply (f_equal snd) in SP. cbn [snd] in SP. apply app_inj_tail in SP. destruct SP as [_ E]. exact E. }
    assert (X : (instant (j_stamp j t0) + 1000000 <= instant (j_stamp j t0'))%Z) by (apply (ST k k' _ (j_stamp j t1) _ (j_stamp j t1') L); [exists t0, t1|exists t0', t1']; auto).
    destruct (DT t0 (edge_in _ _ _ T0)) as [V0 _]. destruct (DT t1 (edge_in _ _ _ T1)) as [V1 _]. destruct (DT t0' (edge_in _ _ _ T0')) as [V0' _]. destruct (DT t1' (edge_in _ _ _ T1')) as [V1' _].
    destruct (parse_dataset_name _ _ _ _ _ _ _ V0 V1 (DN k) PC N1) as (c1 & _ & A1). destruct (parse_dataset_name _ _ _ _ _ _ _ V0' V1' (DN k') PC N2) as (c2 & _ & A2).
    rewrite E, A2 in A1.
    assert (TS : to_second (j_stamp j t0') = to_second (j_stamp j t0)) by (inversion A1; unfold to_second; congruence).
    pose proof (instant_seconds _ _ (valid_1000 _ V0') (valid_1000 _ V0) TS). lia. }
  intros k k' p p' N Hp Hp' SP. destruct (Nat.lt_ge_cases k k') as [L|L]; [exact (K k k' p p' L Hp Hp' SP)|]. apply (K k' k p' p); auto; [lia|]. unfold same_path in *. congruence.
Qed.
Print Assumptions C65_frames_keep_their_files.

(** The call ends without exception, making the directory if need be, as soon as two
    columns and one row are written, unless a file is in the way of the directory or a
    directory in the way of a file. *)
Lemma frame_ok_scene : forall sc x y, 2 <= List.length x -> 1 <= List.length y -> exists s, infer_scene sc x y = Ok s /\ (exists code, scene_code s = Ok code) /\ exists sn, scene_name s = Ok sn.
Proof.
  intros sc x y Hx Hy. destruct (scene_ok (mkSlice None None) (mkSlice None None) sc 0 0 x y Hx Hy) as (s & E & (c & Ec)). exists s. split; [exact E|]. split; [exists c; exact Ec|].
  unfold scene_code in Ec. unfold scene_name. repeat (destruct (String.eqb s _); [eexists; reflexivity|]). discriminate Ec.
Qed.
Lemma loop_succeeds : forall gd xs ys scaled sc res slot instr d stamp nx ny nt nows edges st fs t,
  simple_divide (gd_divide gd) -> t + (List.length edges - 1) <= nt -> List.length (gd_names gd) = List.length st -> shaped st nx ny nt ->
  2 <= List.length (slice_list xs (centers (gd_xedge gd))) -> 1 <= List.length (slice_list ys (centers (gd_yedge gd))) -> ~ In "/"%char (gd_platform gd) ->
  (forall p f rest, lookup fs p = Some f -> fst p = fst (norm (d ++ lit "/")) -> snd (norm (d ++ lit "/")) <> snd p ++ rest) ->
  (forall p n, In p (fs_dirs fs) -> p <> (fst (norm (d ++ lit "/")), snd (norm (d ++ lit "/")) ++ [lit "OR_GLM-L2-GLM" ++ n])) ->
  exists r, write_loop gd xs ys scaled sc res slot instr [PText (d ++ lit "/"); PName] stamp nows st fs t edges = Ok r.
Proof.
  intros gd xs ys scaled sc res slot instr d stamp nx ny nt nows edges. induction edges as [|e0 edges IH]; intros st fs t HD Ht HN HS Hx Hy PS HF HDIR; [eexists; reflexivity|].
  destruct edges as [|e1 edges]; [eexists; reflexivity|]. cbn [List.length] in Ht.
  set (one := write_one gd xs ys scaled sc res slot instr [PText (d ++ lit "/"); PName] stamp). set (loop := write_loop gd xs ys scaled sc res slot instr [PText (d ++ lit "/"); PName] stamp) in *.
  change (exists r, (so <- one (nows t) st fs t e0 e1 ;; r <- loop nows (fst (fst so)) (snd (fst so)) (S t) (e1 :: edges) ;; Ok (fst r, snd so :: snd r)) = Ok r).
  destruct (frame_ok_scene sc _ (rev (slice_list ys (centers (gd_yedge gd)))) Hx ltac:(rewrite rev_length; auto)) as (scene & Es & (code & Ec) & (sn & Esn)).
  destruct (fields_loop gd xs ys scaled nx ny nt HD t st ltac:(lia) HN HS) as (S1 & E1 & (L1 & SH1 & _)).
  assert (RT : exists rt, resolution res (slice_list xs (centers (gd_xedge gd))) = Ok rt).
  { unfold resolution. destruct (slice_list xs (centers (gd_xedge gd))) as [|x0 [|x1 xr]]; cbn in Hx; try lia. eexists. reflexivity. }
  destruct RT as (rt & ERT).
  assert (NM : exists name, dataset_name (stamp e0) (stamp e1) (nows t) (gd_platform gd) scene "ABI Mode 3" = Ok name).
  { unfold dataset_name. rewrite Ec. eexists. reflexivity. }
  destruct NM as (name & EN). destruct (output_name_shape _ _ _ _ _ _ _ EN PS) as [NS (r0 & ER)].
  set (D := norm (d ++ lit "/")) in *.
  assert (PATH : format_path [PText (d ++ lit "/"); PName] (stamp e0) (stamp e1) name = d ++ "/"%char :: name).
  { cbn [format_path flat_map]. rewrite app_nil_r, <- app_assoc. reflexivity. }
  destruct (dirname_norm d name NS) as [DN DNE]. change (d ++ ["/"%char]) with (d ++ lit "/") in DN. fold D in DN.
  assert (NF : norm (d ++ "/"%char :: name) = (fst D, snd D ++ [name])) by (apply norm_file; [auto|rewrite ER; reflexivity]).
  assert (MK : exists fs1, (if exists_ fs (dirname (d ++ "/"%char :: name)) then Ok fs else makedirs fs (dirname (d ++ "/"%char :: name))) = Ok fs1 /\
    fs_files fs1 = fs_files fs /\ is_dir fs1 D = true /\ forall p, In p (fs_dirs fs1) -> In p (fs_dirs fs) \/ (fst p = fst D /\ exists rest, snd D = snd p ++ rest)).
  { assert (NFD : forall q, (fst q = fst D /\ exists rest, snd D = snd q ++ rest) -> lookup fs q = None).
    { intros q (Q1 & rest & Q2). destruct (lookup fs q) as [f|] eqn:E; [|reflexivity]. destruct (HF q f rest E Q1 Q2). }
    unfold exists_, makedirs. rewrite DN. destruct (dirname (d ++ "/"%char :: name)) as [|c0 dn]; [congruence|].
    rewrite (NFD D) by (split; [auto|exists []; rewrite app_nil_r; auto]). rewrite orb_false_r. destruct (is_dir fs D) eqn:ED.
    - exists fs. repeat split; auto.
    - match goal with |- context [existsb ?g ?l] => assert (EX : existsb g l = false) end.
      { match goal with |- ?b = false => destruct b eqn:B; [|reflexivity] end. apply existsb_exists in B. destruct B as (q & Hq & B). rewrite NFD in B by (apply in_prefixes; auto). discriminate B. }
      rewrite EX. eexists. split; [reflexivity|]. cbn [fs_files fs_dirs]. split; [reflexivity|]. split.
      + unfold is_dir in ED |- *. destruct (snd D) as [|c1 cs] eqn:ESD; [reflexivity|]. cbn [fs_dirs]. apply existsb_exists. exists D. split; [|apply path_eqb_refl]. apply in_or_app. left. apply prefixes_self. rewrite ESD. discriminate.
      + intros p Hp. apply in_app_or in Hp. destruct Hp as [Hp|Hp]; [right; apply in_prefixes; auto|auto]. }
  destruct MK as (fs1 & EF & FF & ID & DD).
  assert (TN : forall f, to_netcdf fs1 (d ++ "/"%char :: name) f = Ok (mkFs (fs_dirs fs1) ((norm (d ++ "/"%char :: name), f) :: fs_files fs1))).
  { intros f. unfold to_netcdf. rewrite DN, ID, NF. cbn [negb].
    assert (X : is_dir fs1 (fst D, snd D ++ [name]) = false); [|rewrite X; reflexivity]. unfold is_dir. cbn [snd]. destruct (snd D ++ [name]) as [|c1 cs] eqn:EC; [destruct (snd D); discriminate EC|]. rewrite <- EC.
    match goal with |- ?b = false => destruct b eqn:B; [|reflexivity] end. apply existsb_exists in B. destruct B as (q & Hq & B). apply path_eqb_iff in B. subst q. exfalso.
    destruct (DD _ Hq) as [K|(_ & rest & K)]; [apply (HDIR _ r0 K); rewrite ER; reflexivity|]. cbn [snd] in K. apply (f_equal (@List.length _)) in K. rewrite !app_length in K. cbn in K. lia. }
  unfold one at 1, write_one. rewrite ERT. cbn [bind]. rewrite Es. cbn [bind]. unfold global_attrs. rewrite EN, Esn. cbn [bind at_name]. rewrite PATH, EF. cbn [bind]. rewrite HN, Nat.min_id, E1. cbn [bind]. rewrite TN. cbn [bind fst snd].
  match goal with |- context [loop nows S1 ?fs2 (S t) _] => destruct (IH S1 fs2 (S t)) as (r & E) end; auto; try (cbn [List.length]; lia); try congruence.
  - intros p f rest LK Q1 Q2. unfold lookup in LK. cbn [fs_files find fst] in LK. destruct (path_eqb p (norm (d ++ "/"%char :: name))) eqn:B.
    + apply path_eqb_iff in B. rewrite NF in B. subst p. cbn [snd] in Q2. apply (f_equal (@List.length _)) in Q2. rewrite !app_length in Q2. cbn in Q2. lia.
    + rewrite FF in LK. exact (HF p f rest LK Q1 Q2).
  - intros p n Hp Q. cbn [fs_dirs] in Hp. destruct (DD p Hp) as [K|(_ & rest & K)]; [exact (HDIR p n K Q)|]. subst p. cbn [snd] in K. apply (f_equal (@List.length _)) in K. rewrite !app_length in K. cbn [List.length] in K. lia.
  - rewrite E. eexists. reflexivity.
Qed.
Theorem C65_writing_succeeds : forall j outgrids fs d, proper j outgrids -> 2 <= j_mx j -> 1 <= j_my j -> ~ In "/"%char (gd_platform (j_gd j)) ->
  j_outpath j = [PText (d ++ lit "/"); PName] ->
  (forall p f rest, lookup fs p = Some f -> fst p = fst (norm (d ++ lit "/")) -> snd (norm (d ++ lit "/")) <> snd p ++ rest) ->
  (forall p n, In p (fs_dirs fs) -> p <> (fst (norm (d ++ lit "/")), snd (norm (d ++ lit "/")) ++ [lit "OR_GLM-L2-GLM" ++ n])) ->
  exists after fs' paths, saves j outgrids fs after fs' paths.
Proof.
  intros j og fs d PR Hx Hy PS TP HF HD. destruct (cols_rows j og PR) as [CX CY]. assert (PR' := PR). destruct PR as (A1 & A2 & A3 & A4 & A5 & A6 & A7).
  destruct (loop_succeeds (j_gd j) (slices j) (slices j) (j_scaled j) (j_scenes j) (j_resolutions j) (j_slot j) (j_instrument j) d (j_stamp j) _ _ _ (j_nows j) (gd_tedges (j_gd j)) og fs 0 A7 ltac:(reflexivity) A6 A5) as (((af & fs') & ps) & E); auto.
  - rewrite CX. unfold columns. rewrite map_length, seq_length. exact Hx.
  - rewrite CY. unfold rows. rewrite map_length, seq_length. exact Hy.
  - exists af, fs', ps. split; [exact PR'|]. unfold call, write_imagery. rewrite TP. exact E.
Qed.
Print Assumptions C65_writing_succeeds.

(** A template with nothing but the name always fails, although it is a path in the
    working directory: the empty text is not an existing directory. *)
Theorem C65_bare_name_refuted : forall j outgrids fs, proper j outgrids -> 2 <= j_mx j -> 1 <= j_my j -> ~ In "/"%char (gd_platform (j_gd j)) ->
  2 <= List.length (gd_tedges (j_gd j)) -> j_outpath j = [PName] -> call j outgrids fs = Err FileNotFoundError.
Proof.
  intros j og fs PR Hx Hy PS HT TP. destruct (cols_rows j og PR) as [CX CY]. unfold call, write_imagery. fold (slices j). destruct (gd_tedges (j_gd j)) as [|e0 [|e1 es]]; cbn in HT; try lia.
  cbn [write_loop]. rewrite TP.
  assert (LX : 2 <= List.length (slice_list (slices j) (centers (gd_xedge (j_gd j))))) by (rewrite CX; unfold columns; rewrite map_length, seq_length; exact Hx).
  assert (LY : 1 <= List.length (rev (slice_list (slices j) (centers (gd_yedge (j_gd j)))))) by (rewrite CY; unfold rows; rewrite rev_length, map_length, seq_length; exact Hy).
  destruct (frame_ok_scene (j_scenes j) _ _ LX LY) as (scene & Es & (code & Ec) & (sn & Esn)).
  assert (RT : exists rt, resolution (j_resolutions j) (slice_list (slices j) (centers (gd_xedge (j_gd j)))) = Ok rt).
  { unfold resolution. destruct (slice_list _ (centers (gd_xedge (j_gd j)))) as [|x0 [|x1 xr]]; cbn in LX; try lia. eexists. reflexivity. }
  destruct RT as (rt & ERT).
  assert (NM : exists name, dataset_name (j_stamp j e0) (j_stamp j e1) (j_nows j 0) (gd_platform (j_gd j)) scene "ABI Mode 3" = Ok name) by (unfold dataset_name; rewrite Ec; eexists; reflexivity).
  destruct NM as (name & EN). destruct (output_name_shape _ _ _ _ _ _ _ EN PS) as [NS _].
  unfold write_one. rewrite ERT. cbn [bind]. rewrite Es. cbn [bind]. unfold global_attrs. rewrite EN, Esn. cbn [bind at_name format_path flat_map]. rewrite app_nil_r.
  unfold dirname. rewrite upto_plain by auto. reflexivity.
Qed.
Print Assumptions C65_bare_name_refuted.

(** ** Cases *)
Definition ex_edges : list Q := [0; 56 # 1000000; 112 # 1000000; 168 # 1000000]%Q.
Definition ex_out_gd : gridder := mkGridder ex_edges ex_edges [0; 60; 120]%Q ["flash_extent_density"%string] (fun _ => None) (lit "G16").
Definition ex_stamp (t : Q) : datetime := mkDT 2018 183 4 (30 + Qfloor (t / 60)) 0 0.
Definition ex_resolutions : list (string * Q) := [("0.5km"%string, 14 # 1000000); ("1.0km"%string, 28 # 1000000); ("2.0km"%string, 56 # 1000000); ("4.0km"%string, 112 # 1000000)]%Q.
Definition ex_job (outpath : list piece) : job :=
  mkJob ex_out_gd 0 3 3 true (mkScenes (304 # 1000, 304 # 1000) (140 # 1000, 84 # 1000) (28 # 1000, 28 # 1000))%Q ex_resolutions (lit "GOES-East") (lit "GLM-1") outpath ex_stamp (fun _ => mkDT 2018 183 5 0 0 0).
Definition ex_grids : list array3 := [mkArr 3 3 2 (fun x y t => Some (inject_Z (Z.of_nat (x + 3 * y + 10 * t))))].
Definition ex_fs : fsys := mkFs [] [].
Lemma ex_edges_asc : ascending ex_edges.
Proof. apply ex_ascending. repeat constructor; cbn; intros; try lia; reflexivity. Qed.
Lemma ex_proper : forall o, proper (ex_job o) ex_grids.
Proof. intros o. split; [exact ex_edges_asc|]. split; [exact ex_edges_asc|]. split; [reflexivity|]. split; [reflexivity|]. split; [repeat constructor|]. split; [reflexivity|]. intros i d H. discriminate H. Qed.
Lemma ex_dated : forall o, dated 1678 2261 (ex_job o).
Proof.
  intros o. split; [|intros k; constructor; cbn; try lia]. intros t Ht. cbn in Ht. 
  destruct Ht as [<-|[<-|[<-|[]]]]; (split; [constructor; vm_compute; intuition discriminate|vm_compute; discriminate]).
Qed.
(** A template with the day alone: both frames of the example go to the same file and only
    the second is left. *)
Theorem C65_coarse_template_refuted : ~ (forall j outgrids fs after fs' paths, saves j outgrids fs after fs' paths -> dated 1000 9999 j -> plain (gd_platform (j_gd j)) ->
  (forall k k' s e s' e', k < k' -> frame_times j k s e -> frame_times j k' s' e' -> (instant s + 1000000 <= instant s')%Z) ->
  forall k p s e, nth_error paths k = Some p -> frame_times j k s e -> exists f, holds fs' p f /\ timestamp (at_start (nc_attrs f)) = Ok s).
Proof.
  intros H. set (o := [PText (lit "./"); PStart [DirY; Dirm; Dird]; PText (lit ".nc")]).
  destruct (call (ex_job o) ex_grids ex_fs) as [((af & fs') & paths)|] eqn:E; [|vm_compute in E; discriminate E].
  pose proof (H (ex_job o) ex_grids ex_fs af fs' paths (conj (ex_proper o) E)) as K. 
  assert (TE : forall k s e, frame_times (ex_job o) k s e -> k = 0 /\ s = ex_stamp 0 \/ k = 1 /\ s = ex_stamp 60).
  { intros k s e (t0 & t1 & T0 & T1 & -> & ->). destruct k as [|[|[|k]]]; cbn in T0, T1; inversion T0; inversion T1; auto; destruct k; discriminate. }
  destruct (K ltac:(destruct (ex_dated o) as [A B]; split; [intros t Ht; destruct (A t Ht); split; [eapply valid_weaken; [|eauto]; lia|lia]|intros k; eapply valid_weaken; [|apply B]; lia])
    ltac:(split; [split; [cbn; intuition discriminate|apply no_dot_no_nc; cbn; intuition discriminate]|cbn; intuition discriminate])
    ltac:(intros k k' s e s' e' L F1 F2; apply TE in F1; apply TE in F2; destruct F1 as [[-> ->]|[-> ->]], F2 as [[-> ->]|[-> ->]]; try lia; vm_compute; discriminate)
    0 (lit "./20180702.nc") (ex_stamp 0) (ex_stamp 60)) as (f & HF & T).
  - vm_compute in E. inversion E. reflexivity.
  - exists 0%Q, 60%Q. auto.
  - unfold holds in HF. vm_compute in E. inversion E; subst fs' af paths. vm_compute in HF. inversion HF; subst f. vm_compute in T. discriminate T.
Qed.
Print Assumptions C65_coarse_template_refuted.
Definition ex_default := [PText (lit "." ++ lit "/"); PName].
Lemma ex_saves : exists af fs' paths, saves (ex_job ex_default) ex_grids ex_fs af fs' paths.
Proof.
  apply (C65_writing_succeeds (ex_job ex_default) ex_grids ex_fs (lit ".") (ex_proper _)); cbn; try lia; try reflexivity.
  all: first [intuition discriminate | intros p f rest H; discriminate H | intros p n []].
Qed.
Lemma ex_times : forall k k' s e s' e', k < k' -> frame_times (ex_job ex_default) k s e -> frame_times (ex_job ex_default) k' s' e' -> (instant s + 1000000 <= instant s')%Z.
Proof.
  assert (TE : forall k s e, frame_times (ex_job ex_default) k s e -> k = 0 /\ s = ex_stamp 0 \/ k = 1 /\ s = ex_stamp 60).
  { intros k s e (t0 & t1 & T0 & T1 & -> & ->). destruct k as [|[|[|k]]]; cbn in T0, T1; inversion T0; inversion T1; auto; destruct k; discriminate. }
  intros k k' s e s' e' L F1 F2. apply TE in F1. apply TE in F2. destruct F1 as [[-> ->]|[-> ->]], F2 as [[-> ->]|[-> ->]]; try lia. vm_compute. discriminate.
Qed.
Lemma ex_plain : plain (lit "G16").
Proof. split; [split; [cbn; intuition discriminate|apply no_dot_no_nc; cbn; intuition discriminate]|cbn; intuition discriminate]. Qed.
Example C65_ex : exists af fs' paths, saves (ex_job ex_default) ex_grids ex_fs af fs' paths /\
  map string_of_list_ascii paths = ["./OR_GLM-L2-GLMM1-M3_G16_s20181830430000_e20181830431000_c20181830500000.nc"; "./OR_GLM-L2-GLMM1-M3_G16_s20181830431000_e20181830432000_c20181830500000.nc"]%string.
Proof. destruct ex_saves as (af & fs' & paths & PR & E). exists af, fs', paths. split; [split; auto|]. vm_compute in E. inversion E. reflexivity. Qed.
Example C65_bare_ex : proper (ex_job [PName]) ex_grids /\ call (ex_job [PName]) ex_grids ex_fs = Err FileNotFoundError.
Proof. split; [apply ex_proper|]. apply C65_bare_name_refuted; cbn; try lia; try reflexivity; [apply ex_proper|intuition discriminate]. Qed.

(** * C64 *)
(** Start and end of a frame in its file: as text that gives them back to the
    microsecond, and to the second in the name.  Each frame ends when the next starts. *)
Lemma nth_file : forall j og fs af fs' paths, saves j og fs af fs' paths -> forall k p, nth_error paths k = Some p ->
  (forall k' p', k < k' -> nth_error paths k' = Some p' -> ~ same_path p p') ->
  exists t0 t1 f, nth_error (gd_tedges (j_gd j)) k = Some t0 /\ nth_error (gd_tedges (j_gd j)) (S k) = Some t1 /\ made_by j k t0 t1 f p /\ holds fs' p f.
Proof.
  intros j og fs af fs' paths SV k p Hp N. destruct (saves_spec _ _ _ _ _ _ SV) as (files & W & L1 & L2 & P & F & _).
  assert (Hk : k < List.length files) by (rewrite L1; apply nth_error_Some; congruence). destruct (nth_error files k) as [f|] eqn:Ef; [|apply nth_error_Some in Hk; congruence].
  destruct (P k f Ef) as (t0 & t1 & s & T0 & T1 & Es & M). rewrite Hp in Es. inversion Es; subst s. exists t0, t1, f. split; [exact T0|]. split; [exact T1|]. split; [exact M|].
  eapply found; eauto.
Qed.
Lemma iso_text_of : forall d, valid_from 1 d -> iso_text d (isoformat d ++ lit "Z").
Proof.
  intros d V. destruct (civil_of d V) as [CV CD]. eexists. split; [exact CV|]. split.
  - unfold civil_instant, instant. cbn [c_year c_month c_day c_hour c_min c_sec]. rewrite CD. lia.
  - rewrite isoformat_iso, decimal_pad, <- app_assoc. reflexivity.
Qed.
Theorem C64_times_of_frames : forall j outgrids fs after fs' paths, saves j outgrids fs after fs' paths -> dated 1678 2261 j -> component (gd_platform (j_gd j)) ->
  forall k p, nth_error paths k = Some p -> (forall k' p', k < k' -> nth_error paths k' = Some p' -> ~ same_path p p') ->
  exists f s e alg, holds fs' p f /\ frame_times j k s e /\
    iso_text s (at_start (nc_attrs f)) /\ iso_text e (at_end (nc_attrs f)) /\ iso_text (j_nows j k) (at_created (nc_attrs f)) /\
    timestamp (at_start (nc_attrs f)) = Ok s /\ timestamp (at_end (nc_attrs f)) = Ok e /\
    parse_filename (at_name (nc_attrs f)) = Ok (lit "OR", alg, gd_platform (j_gd j), to_second s, to_second e, to_second (j_nows j k)) /\
    of_name (nc_out f) = at_name (nc_attrs f) /\ at_platform (nc_attrs f) = gd_platform (j_gd j) /\
    at_slot (nc_attrs f) = j_slot j /\ at_instrument (nc_attrs f) = j_instrument j /\
    forall s' e', frame_times j (S k) s' e' -> s' = e.
Proof.
  intros j og fs af fs' paths SV [DT DN] PC k p Hp N. destruct (nth_file _ _ _ _ _ _ SV k p Hp N) as (t0 & t1 & f & T0 & T1 & M & HF).
  destruct (DT t0 (edge_in _ _ _ T0)) as [V0 Y0]. destruct (DT t1 (edge_in _ _ _ T1)) as [V1 Y1]. pose proof (DN k) as VN.
  assert (W : forall d, valid_from 1678 d -> valid_from 1 d /\ valid_from 1000 d) by (intros d V; split; eapply valid_weaken; eauto; lia).
  destruct (W _ V0) as [V0a V0b]. destruct (W _ V1) as [V1a V1b]. destruct (W _ VN) as [VNa VNb].
  destruct (made_name _ _ _ _ _ _ M) as (scene & EN). destruct (parse_dataset_name _ _ _ _ _ _ _ V0b V1b VNb PC EN) as (code & _ & PN).
  exists f, (j_stamp j t0), (j_stamp j t1), (lit "GLM-L2-GLM" ++ lit code ++ lit "-M3"). destruct M as [_ _ m1 m2 m3 m4 m5 m6 _ _ m7 _]. rewrite m1, m2, m3.
  split; [exact HF|]. split; [exists t0, t1; auto|]. split; [apply iso_text_of; auto|]. split; [apply iso_text_of; auto|]. split; [apply iso_text_of; auto|].
  split; [apply timestamp_isoformat; auto; destruct V0; lia|]. split; [apply timestamp_isoformat; auto; destruct V1; lia|]. split; [exact PN|]. split; [exact m7|]. split; [exact m6|]. split; [exact m4|]. split; [exact m5|].
  intros s' e' (u0 & u1 & U0 & _ & -> & _). congruence.
Qed.
Print Assumptions C64_times_of_frames.
Lemma ex_component : component (lit "G16").
Proof. apply ex_plain. Qed.
Lemma ex_kept : forall af fs' paths, saves (ex_job ex_default) ex_grids ex_fs af fs' paths -> forall k k' p p', k <> k' -> nth_error paths k = Some p -> nth_error paths k' = Some p' -> ~ same_path p p'.
Proof.
  intros af fs' paths SV. apply (C65_frames_keep_their_files (ex_job ex_default) ex_grids ex_fs af fs' paths (lit ".") SV); [|exact ex_plain|reflexivity|exact ex_times].
  destruct (ex_dated ex_default) as [A B]. split; [intros t Ht; destruct (A t Ht); split; [eapply valid_weaken; [|eauto]; lia|lia]|intros k; eapply valid_weaken; [|apply B]; lia].
Qed.
Example C64_ex : exists af fs' paths p f, saves (ex_job ex_default) ex_grids ex_fs af fs' paths /\ nth_error paths 1 = Some p /\ holds fs' p f /\
  string_of_list_ascii (at_start (nc_attrs f)) = "2018-07-02T04:31:00Z"%string /\ string_of_list_ascii (at_end (nc_attrs f)) = "2018-07-02T04:32:00Z"%string.
Proof.
  destruct ex_saves as (af & fs' & paths & SV). assert (SV' := SV). destruct SV as [PR E]. vm_compute in E. inversion E; subst af fs' paths. eexists. eexists. eexists. eexists. eexists. split; [exact SV'|]. split; [reflexivity|].
  split; [vm_compute; reflexivity|]. split; reflexivity.
Qed.

(** * C63 *)
Open Scope Q_scope.
Lemma spaced : forall (l : list Q) s, (forall c x x', nth_error l c = Some x -> nth_error l (S c) = Some x' -> x + s <= x') -> 0 <= s ->
  forall c c' x x', (c < c')%nat -> nth_error l c = Some x -> nth_error l c' = Some x' -> x + s <= x'.
Proof.
  intros l s H S0 c c'. induction c' as [|c' IH]; intros x x' L A B; [lia|]. destruct (Nat.eq_dec c c') as [->|N]; [exact (H _ _ _ A B)|].
  destruct (nth_error l c') as [m|] eqn:E; [|apply nth_error_None in E; assert (nth_error l (Datatypes.S c') <> None) as K by congruence; apply nth_error_Some in K; lia].
  specialize (IH x m ltac:(lia) A eq_refl). specialize (H _ _ _ E B). lra.
Qed.
Lemma quot_step : forall a b, a + step56 <= b -> a / step56 + 1 <= b / step56.
Proof. intros a b H. setoid_replace (a / step56 + 1) with ((a + step56) / step56) by (unfold step56; field). apply step_mono. exact H. Qed.
Lemma not_half : forall v, ~ half_way v -> ~ exists k : Z, (v + (151844 # 1000000)) / step56 == inject_Z k + (1 # 2).
Proof.
  intros v N (k & E). apply N. exists (k - 2711)%Z. unfold Z.sub. rewrite inject_Z_plus. change (inject_Z (- (2711))) with (-2711 # 1).
  assert (M : (v + (151844 # 1000000)) / step56 * step56 == (inject_Z k + (1 # 2)) * step56) by (rewrite E; reflexivity). rewrite over_step in M. unfold step56 in *. lra.
Qed.
Lemma not_half_y : forall v, ~ half_way v -> ~ exists k : Z, ((151844 # 1000000) - v) / step56 == inject_Z k + (1 # 2).
Proof.
  intros v N (k & E). apply N. exists (2711 - k)%Z. unfold Z.sub. rewrite inject_Z_plus, inject_Z_opp. change (inject_Z 2711) with (2711 # 1).
  assert (M : ((151844 # 1000000) - v) / step56 * step56 == (inject_Z k + (1 # 2)) * step56) by (rewrite E; reflexivity). rewrite over_step in M. unfold step56 in *. lra.
Qed.
Lemma code_int_x : forall k : Z, (-900 <= k + 2712 <= 6500)%Z -> forall v, v == (inject_Z k + (1 # 2)) * step56 -> pack_coord x_enc v = (k + 2712)%Z.
Proof.
  intros k R v E. unfold pack_coord. rewrite (round_compat _ (inject_Z (k + 2712))); [rewrite round_int; apply int16_id; lia|].
  rewrite x_enc_q, E, inject_Z_plus. change (inject_Z 2712) with (2712 # 1). unfold step56. field.
Qed.
Lemma code_int_y : forall k : Z, (-900 <= 2711 - k <= 6500)%Z -> forall v, v == (inject_Z k + (1 # 2)) * step56 -> pack_coord y_enc v = (2711 - k)%Z.
Proof.
  intros k R v E. unfold pack_coord. rewrite (round_compat _ (inject_Z (2711 - k))); [rewrite round_int; apply int16_id; lia|].
  rewrite y_enc_q, E. unfold Z.sub. rewrite inject_Z_plus, inject_Z_opp. change (inject_Z 2711) with (2711 # 1). unfold step56. field.
Qed.
Lemma grid_range : forall (k : Z) v, v == (inject_Z k + (1 # 2)) * step56 -> -(2 # 10) <= v <= 2 # 10 -> (-3600 <= k <= 3600)%Z.
Proof.
  intros k v E [A B]. split; apply int_bounds; [change (inject_Z (-3600)) with (-3600 # 1)|change (inject_Z 3600) with (3600 # 1)]; unfold step56 in *; lra.
Qed.
(** What is read for a column or a row of a file is within half a step, 28 microradians,
    of its coordinate, and exactly it on the grid of full-disk images of 56 microradians.
    Columns and rows at least a step apart keep their order and stay apart, if none is
    half way between two steps.  Missing: finer grids. *)
Theorem C63_coordinates_partial : forall j outgrids fs after fs' paths, saves j outgrids fs after fs' paths ->
  (forall v, In v (columns j) \/ In v (rows j) -> -(2 # 10) <= v <= 2 # 10) ->
  forall p, In p paths -> exists f, holds fs' p f /\ List.length (nc_x f) = j_mx j /\ List.length (nc_y f) = j_my j /\
    (forall c x, nth_error (columns j) c = Some x -> exists u, read_x f c u /\ Qabs (u - x) <= step56 / 2 /\ (on_grid x -> u == x)) /\
    (forall r y, nth_error (rev (rows j)) r = Some y -> exists u, read_y f r u /\ Qabs (u - y) <= step56 / 2 /\ (on_grid y -> u == y)) /\
    ((forall c x x', nth_error (columns j) c = Some x -> nth_error (columns j) (S c) = Some x' -> x + step56 <= x') -> (forall x, In x (columns j) -> ~ half_way x) ->
       forall c c' u u', (c < c')%nat -> read_x f c u -> read_x f c' u' -> u < u') /\
    ((forall r y y', nth_error (rows j) r = Some y -> nth_error (rows j) (S r) = Some y' -> y + step56 <= y') -> (forall y, In y (rows j) -> ~ half_way y) ->
       forall r r' u u', (r < r')%nat -> read_y f r u -> read_y f r' u' -> u' < u).
Proof.
  intros j og fs af fs' paths SV R p Hp. destruct (under _ _ _ _ _ _ SV p Hp) as (k & q & t0 & t1 & f & _ & _ & _ & _ & M & HF & _). exists f. split; [exact HF|].
  destruct SV as [PR _]. destruct (cols_rows j og PR) as [CX CY]. pose proof (md_x _ _ _ _ _ _ _ _ _ _ _ _ _ _ M) as MX. pose proof (md_y _ _ _ _ _ _ _ _ _ _ _ _ _ _ M) as MY. rewrite CX in MX. rewrite CY in MY.
  split; [rewrite MX, map_length; unfold columns; rewrite map_length, seq_length; reflexivity|]. split; [rewrite MY, map_length, rev_length; unfold rows; rewrite map_length, seq_length; reflexivity|].
  assert (IX : forall c x, nth_error (columns j) c = Some x -> -(2 # 10) <= x <= 2 # 10) by (intros c x H; apply R; left; eapply nth_error_In; eauto).
  assert (IY : forall r y, nth_error (rev (rows j)) r = Some y -> -(2 # 10) <= y <= 2 # 10) by (intros r y H; apply R; right; apply in_rev; eapply nth_error_In; eauto).
  split; [|split; [|split]].
  - intros c x Hc. destruct (x_near x (IX c x Hc)) as (u & U1 & U2 & U3). exists u. split; [|split; [exact U2|]].
    + exists (pack_coord x_enc x), u. split; [rewrite MX, nth_error_map, Hc; reflexivity|]. split; [exact U1|reflexivity].
    + intros (i & E). pose proof (grid_range i x E (IX c x Hc)) as G. rewrite U3, (code_int_x i ltac:(lia) x E), E, inject_Z_plus. change (inject_Z 2712) with (2712 # 1). unfold step56. lra.
  - intros r y Hr. destruct (y_near y (IY r y Hr)) as (u & U1 & U2 & U3). exists u. split; [|split; [exact U2|]].
    + exists (pack_coord y_enc y), u. split; [rewrite MY, nth_error_map, Hr; reflexivity|]. split; [exact U1|reflexivity].
    + intros (i & E). pose proof (grid_range i y E (IY r y Hr)) as G. rewrite U3, (code_int_y i ltac:(lia) y E), E. unfold Z.sub. rewrite inject_Z_plus, inject_Z_opp. change (inject_Z 2711) with (2711 # 1). unfold step56. lra.
  - intros SP NH c c' u u' L (a & v & A1 & A2 & A3) (b & w & B1 & B2 & B3). rewrite MX, nth_error_map in A1, B1.
    destruct (nth_error (columns j) c) as [x|] eqn:Ec; [|discriminate A1]. destruct (nth_error (columns j) c') as [x'|] eqn:Ec'; [|discriminate B1]. inversion A1; subst a. inversion B1; subst b. clear A1 B1.
    destruct (x_near x (IX c x Ec)) as (u1 & U1 & _ & U3). destruct (x_near x' (IX c' x' Ec')) as (w1 & W1 & _ & W3). rewrite A2 in U1. rewrite B2 in W1. inversion U1; inversion W1; subst u1 w1.
    destruct (code_x x (IX c x Ec)) as [C1 _]. destruct (code_x x' (IX c' x' Ec')) as [C2 _].
    pose proof (spaced _ _ SP ltac:(discriminate) c c' x x' L Ec Ec') as D.
    pose proof (round_apart _ _ (quot_step (x + (151844 # 1000000)) (x' + (151844 # 1000000)) ltac:(lra)) (not_half x (NH x ltac:(eapply nth_error_In; eauto)))) as RA. rewrite <- C1, <- C2 in RA. rewrite Zlt_Qlt in RA.
    rewrite <- A3, <- B3, U3, W3. unfold step56. lra.
  - intros SP NH r r' u u' L (a & v & A1 & A2 & A3) (b & w & B1 & B2 & B3). rewrite MY, nth_error_map in A1, B1.
    destruct (nth_error (rev (rows j)) r) as [y|] eqn:Er; [|discriminate A1]. destruct (nth_error (rev (rows j)) r') as [y'|] eqn:Er'; [|discriminate B1]. inversion A1; subst a. inversion B1; subst b. clear A1 B1.
    destruct (y_near y (IY r y Er)) as (u1 & U1 & _ & U3). destruct (y_near y' (IY r' y' Er')) as (w1 & W1 & _ & W3). rewrite A2 in U1. rewrite B2 in W1. inversion U1; inversion W1; subst u1 w1.
    destruct (code_y y (IY r y Er)) as [C1 _]. destruct (code_y y' (IY r' y' Er')) as [C2 _].
    assert (LR : (r' < List.length (rows j))%nat) by (rewrite <- rev_length; apply nth_error_Some; congruence).
    pose proof Er as Er0. pose proof Er' as Er0'. rewrite nth_error_rev in Er0, Er0' by lia.
    pose proof (spaced _ _ SP ltac:(discriminate) (List.length (rows j) - 1 - r')%nat (List.length (rows j) - 1 - r)%nat y' y ltac:(lia) Er0' Er0) as D.
    pose proof (round_apart _ _ (quot_step ((151844 # 1000000) - y) ((151844 # 1000000) - y') ltac:(lra)) (not_half_y y (NH y ltac:(apply in_rev; eapply nth_error_In; eauto)))) as RA. rewrite <- C1, <- C2 in RA. rewrite Zlt_Qlt in RA.
    rewrite <- A3, <- B3, U3, W3. unfold step56. lra.
Qed.
Print Assumptions C63_coordinates_partial.
(** On grids of 28 microradians (1 km) or finer, two of any four neighbouring columns are
    read with the same coordinate. *)
Theorem C63_fine_grids_refuted : forall j outgrids fs after fs' paths, saves j outgrids fs after fs' paths ->
  forall p c x0 x1 x2 x3, In p paths -> nth_error (columns j) c = Some x0 -> nth_error (columns j) (c + 1) = Some x1 ->
  nth_error (columns j) (c + 2) = Some x2 -> nth_error (columns j) (c + 3) = Some x3 -> x3 <= x0 + 3 * (28 # 1000000) ->
  exists f c1 c2 code, holds fs' p f /\ (c <= c1 < c2)%nat /\ (c2 <= c + 3)%nat /\ nth_error (nc_x f) c1 = Some code /\ nth_error (nc_x f) c2 = Some code.
Proof.
  intros j og fs af fs' paths SV p c x0 x1 x2 x3 Hp E0 E1 E2 E3 D. destruct (under _ _ _ _ _ _ SV p Hp) as (k & q & t0 & t1 & f & _ & _ & _ & _ & M & HF & _). exists f.
  destruct SV as [PR _]. destruct (cols_rows j og PR) as [CX _]. pose proof (md_x _ _ _ _ _ _ _ _ _ _ _ _ _ _ M) as MX. rewrite CX in MX.
  set (q' := fun v => (v + (151844 # 1000000)) / step56). assert (PK : forall v, pack_coord x_enc v = int16 (round_even (q' v))) by (intros v; unfold pack_coord; rewrite (round_compat _ _ (x_enc_q v)); reflexivity).
  assert (MN : forall a b u v, (a < b)%nat -> nth_error (columns j) a = Some u -> nth_error (columns j) b = Some v -> u <= v).
  { destruct PR as (AX & _ & A3 & _). intros a b u v L Ha Hb. unfold columns in Ha, Hb. rewrite nth_error_map in Ha, Hb.
    assert (Hb' : (b < j_mx j)%nat) by (destruct (Nat.lt_ge_cases b (j_mx j)) as [T|T]; auto; rewrite (proj2 (nth_error_None (seq 0 (j_mx j)) b)) in Hb by (rewrite seq_length; auto); discriminate Hb).
    rewrite nth_error_seq in Ha, Hb by lia. inversion Ha; inversion Hb. apply Qlt_le_weak. apply center_mono; auto; lia. }
  assert (ST : forall u v, u <= v -> (round_even (q' u) <= round_even (q' v))%Z) by (intros u v L; apply round_mono; apply step_mono; lra).
  pose proof (ST _ _ (MN c (c + 1)%nat x0 x1 ltac:(lia) E0 E1)) as S1. pose proof (ST _ _ (MN (c + 1)%nat (c + 2)%nat x1 x2 ltac:(lia) E1 E2)) as S2. pose proof (ST _ _ (MN (c + 2)%nat (c + 3)%nat x2 x3 ltac:(lia) E2 E3)) as S3.
  assert (S4 : (round_even (q' x3) <= round_even (q' x0) + 2)%Z).
  { destruct (round_near (q' x0)) as [_ L]. destruct (round_near (q' x3)) as [U _].
    assert (QQ : q' x3 <= q' x0 + (3 # 2)). { unfold q'. setoid_replace ((x0 + (151844 # 1000000)) / step56 + (3 # 2)) with ((x0 + (151844 # 1000000) + (84 # 1000000)) / step56) by (unfold step56; field). apply step_mono. lra. }
    assert (LT : inject_Z (round_even (q' x3)) < inject_Z (round_even (q' x0) + 3)) by (rewrite inject_Z_plus; change (inject_Z 3) with (3 # 1); lra). apply int_lt in LT. lia. }
  assert (NX : forall c' x, nth_error (columns j) c' = Some x -> nth_error (nc_x f) c' = Some (int16 (round_even (q' x)))) by (intros c' x Hx; rewrite MX, nth_error_map, Hx, <- PK; reflexivity).
  destruct (four_in_three _ _ _ _ (conj S1 S2) (conj S3 S4)) as [K|[K|K]].
  - exists c, (c + 1)%nat, (int16 (round_even (q' x0))). split; [exact HF|]. split; [lia|]. split; [lia|]. split; [apply NX; auto|]. rewrite K. apply NX. auto.
  - exists (c + 1)%nat, (c + 2)%nat, (int16 (round_even (q' x1))). split; [exact HF|]. split; [lia|]. split; [lia|]. split; [apply NX; auto|]. rewrite K. apply NX. auto.
  - exists (c + 2)%nat, (c + 3)%nat, (int16 (round_even (q' x2))). split; [exact HF|]. split; [lia|]. split; [lia|]. split; [apply NX; auto|]. rewrite K. apply NX. auto.
Qed.
Print Assumptions C63_fine_grids_refuted.
Lemma round_half : forall m : Z, round_even (inject_Z m + (1 # 2)) = if Z.even m then m else (m + 1)%Z.
Proof.
  intros m. unfold round_even. assert (F : Qfloor (inject_Z m + (1 # 2)) = m).
  { pose proof (Qfloor_le (inject_Z m + (1 # 2))) as A. pose proof (Qlt_floor (inject_Z m + (1 # 2))) as B. set (z := Qfloor _) in *. rewrite inject_Z_plus in B. change (inject_Z 1) with 1 in B.
    assert (C : inject_Z z < inject_Z (m + 1)) by (rewrite inject_Z_plus; change (inject_Z 1) with 1; lra). assert (D : inject_Z (m - 1) < inject_Z z) by (unfold Z.sub; rewrite inject_Z_plus; change (inject_Z (- (1))) with (-1); lra).
    apply int_lt in C. apply int_lt in D. lia. }
  rewrite F. assert (R : inject_Z m + (1 # 2) - inject_Z m == 1 # 2) by lra.
  destruct (Qlt_bool (inject_Z m + (1 # 2) - inject_Z m) (1 # 2)) eqn:B1; [apply Qlt_bool_iff in B1; lra|]. destruct (Qlt_bool (1 # 2) (inject_Z m + (1 # 2) - inject_Z m)) eqn:B2; [apply Qlt_bool_iff in B2; lra|]. reflexivity.
Qed.
(** Even at 56 microradians: columns at even and odd multiples of a step, as in a grid with
    an odd number of columns around the subsatellite point, are read in pairs with the
    same coordinate.  (In binary64 the rounding errors of the quotient decide for each
    column; about half of the pairs remain.) *)
Theorem C63_half_way_refuted : forall j outgrids fs after fs' paths, saves j outgrids fs after fs' paths ->
  forall p c x x' (m : Z), In p paths -> nth_error (columns j) c = Some x -> nth_error (columns j) (S c) = Some x' ->
  x == inject_Z (2 * m) * step56 -> x' == inject_Z (2 * m + 1) * step56 ->
  exists f code, holds fs' p f /\ nth_error (nc_x f) c = Some code /\ nth_error (nc_x f) (S c) = Some code.
Proof.
  intros j og fs af fs' paths SV p c x x' m Hp E0 E1 X0 X1. destruct (under _ _ _ _ _ _ SV p Hp) as (k & q & t0 & t1 & f & _ & _ & _ & _ & M & HF & _). exists f.
  destruct SV as [PR _]. destruct (cols_rows j og PR) as [CX _]. pose proof (md_x _ _ _ _ _ _ _ _ _ _ _ _ _ _ M) as MX. rewrite CX in MX.
  exists (int16 (2 * m + 2712)). split; [exact HF|].
  assert (R1 : round_even ((x - snd x_enc) / fst x_enc) = (2 * m + 2712)%Z).
  { rewrite (round_compat _ (inject_Z (2 * m + 2711) + (1 # 2))). { rewrite round_half. replace (Z.even (2 * m + 2711)) with false; [lia|]. rewrite Z.even_add, Z.even_mul. reflexivity. }
    rewrite x_enc_q, X0, !inject_Z_plus. change (inject_Z 2711) with (2711 # 1). unfold step56. field. }
  assert (R2 : round_even ((x' - snd x_enc) / fst x_enc) = (2 * m + 2712)%Z).
  { rewrite (round_compat _ (inject_Z (2 * m + 2712) + (1 # 2))). { rewrite round_half. replace (Z.even (2 * m + 2712)) with true; [lia|]. rewrite Z.even_add, Z.even_mul. reflexivity. }
    rewrite x_enc_q, X1, !inject_Z_plus. change (inject_Z 2712) with (2712 # 1). change (inject_Z 1) with 1. unfold step56. field. }
  rewrite MX, !nth_error_map, E0, E1. cbn [option_map]. unfold pack_coord. rewrite R1, R2. auto.
Qed.
Print Assumptions C63_half_way_refuted.
Definition ex_coord_job (e : list Q) : job :=
  mkJob (mkGridder e ex_edges [0; 60; 120] ["flash_extent_density"%string] (fun _ => None) (lit "G16")) 0 (List.length e - 1) 3 true (mkScenes (304 # 1000, 304 # 1000) (140 # 1000, 84 # 1000) (28 # 1000, 28 # 1000))
    ex_resolutions (lit "GOES-East") (lit "GLM-1") ex_default ex_stamp (fun _ => mkDT 2018 183 5 0 0 0).
Definition ex_coord_grids (n : nat) : list array3 := [mkArr n 3 2 (fun _ _ _ => Some 1)].
Lemma ex_coord_saves : forall e, ascending e -> (3 <= List.length e)%nat -> exists af fs' paths, saves (ex_coord_job e) (ex_coord_grids (List.length e - 1)) ex_fs af fs' paths.
Proof.
  intros e A L. apply (C65_writing_succeeds (ex_coord_job e) _ ex_fs (lit ".")); cbn; try lia; try reflexivity; try (intuition discriminate).
  split; [exact A|]. split; [exact ex_edges_asc|]. cbn. split; [lia|]. split; [reflexivity|]. split; [repeat constructor; cbn; lia|]. split; [reflexivity|]. intros i d H. discriminate H.
Qed.
Lemma ex_path : forall e af fs' paths, saves (ex_coord_job e) (ex_coord_grids (List.length e - 1)) ex_fs af fs' paths -> exists p, In p paths.
Proof. intros e af fs' paths SV. destruct (saves_spec _ _ _ _ _ _ SV) as (files & _ & _ & L & _). cbn in L. destruct paths as [|p ps]; [discriminate L|]. exists p. left. reflexivity. Qed.
(** Columns at the places of the full-disk grid; five columns 28 microradians apart; three
    columns at multiples of 56. *)
Example C63_ex : (exists af fs' paths, saves (ex_coord_job ex_edges) (ex_coord_grids 3) ex_fs af fs' paths) /\
  (forall v, In v (columns (ex_coord_job ex_edges)) \/ In v (rows (ex_coord_job ex_edges)) -> -(2 # 10) <= v <= 2 # 10) /\
  (forall c x x', nth_error (columns (ex_coord_job ex_edges)) c = Some x -> nth_error (columns (ex_coord_job ex_edges)) (S c) = Some x' -> x + step56 <= x') /\
  (forall x, In x (columns (ex_coord_job ex_edges)) -> on_grid x /\ ~ half_way x).
Proof.
  split; [apply (ex_coord_saves ex_edges ex_edges_asc); cbn; lia|]. split; [|split].
  - intros v [H|H]; cbn in H; intuition (subst v; vm_compute; intuition discriminate).
  - intros [|[|[|c]]] x x' A B; cbn in A, B; inversion A; inversion B; try (vm_compute; discriminate); destruct c; discriminate.
  - assert (NH : forall m : Z, on_grid ((inject_Z m + (1 # 2)) * step56) /\ ~ half_way ((inject_Z m + (1 # 2)) * step56)).
    { intros m. split; [exists m; reflexivity|]. intros (k & E). unfold step56 in E. assert (E' : inject_Z (2 * m + 1) == inject_Z (2 * k)) by (rewrite inject_Z_plus, !inject_Z_mult; change (inject_Z 2) with 2; change (inject_Z 1) with 1; lra).
      apply (proj1 (inject_Z_injective _ _)) in E'. clear E. lia. }
    assert (CP : forall u v, u == v -> on_grid v /\ ~ half_way v -> on_grid u /\ ~ half_way u).
    { intros u v E [(k & A) B]. split; [exists k; rewrite E; exact A|]. intros (i & C). apply B. exists i. rewrite <- E. exact C. }
    intros x H. cbn in H. destruct H as [<-|[<-|[<-|[]]]]; [refine (CP _ _ _ (NH 0%Z)); vm_compute; reflexivity|refine (CP _ _ _ (NH 1%Z)); vm_compute; reflexivity|refine (CP _ _ _ (NH 2%Z)); vm_compute; reflexivity].
Qed.
Definition ex_fine : list Q := map (fun k => inject_Z k * (28 # 1000000)) [0; 1; 2; 3; 4]%Z.
Definition ex_half : list Q := map (fun k => (inject_Z k - (1 # 2)) * step56) [0; 1; 2]%Z.
Example C63_refuted_ex : (exists af fs' paths p, saves (ex_coord_job ex_fine) (ex_coord_grids 4) ex_fs af fs' paths /\ In p paths) /\ List.length (columns (ex_coord_job ex_fine)) = 4%nat /\
  (exists af fs' paths p, saves (ex_coord_job ex_half) (ex_coord_grids 2) ex_fs af fs' paths /\ In p paths) /\
  (exists x x', columns (ex_coord_job ex_half) = [x; x'] /\ x == inject_Z (2 * 0) * step56 /\ x' == inject_Z (2 * 0 + 1) * step56).
Proof.
  split; [|split; [reflexivity|split]].
  - destruct (ex_coord_saves ex_fine ltac:(apply ex_ascending; repeat constructor; cbn; intros; try lia; reflexivity) ltac:(cbn; lia)) as (af & fs' & paths & SV). destruct (ex_path _ _ _ _ SV) as (p & Hp). exists af, fs', paths, p. auto.
  - destruct (ex_coord_saves ex_half ltac:(apply ex_ascending; repeat constructor; cbn; intros; try lia; reflexivity) ltac:(cbn; lia)) as (af & fs' & paths & SV). destruct (ex_path _ _ _ _ SV) as (p & Hp). exists af, fs', paths, p. auto.
  - eexists. eexists. split; [reflexivity|]. split; vm_compute; reflexivity.
Qed.

(** * C62 *)
(** Every file names the scene that its extent fits, in its name and its attributes, and
    the resolution of its columns. *)
Theorem C62_scene_and_resolution : forall j outgrids fs after fs' paths, saves j outgrids fs after fs' paths -> dated 1000 9999 j -> component (gd_platform (j_gd j)) ->
  forall p, In p paths -> exists f code s e c x0 x1, holds fs' p f /\
    parse_filename (at_name (nc_attrs f)) = Ok (lit "OR", lit "GLM-L2-GLM" ++ code ++ lit "-M3", gd_platform (j_gd j), s, e, c) /\
    scene_is (j_scenes j) (columns j) (rows j) code (at_scene (nc_attrs f)) /\
    nth_error (columns j) 0 = Some x0 /\ nth_error (columns j) 1 = Some x1 /\ resolution_is (j_resolutions j) (x1 - x0) (at_resolution (nc_attrs f)).
Proof.
  intros j og fs af fs' paths SV [DT DN] PC p Hp. destruct (under _ _ _ _ _ _ SV p Hp) as (k & q & t0 & t1 & f & _ & _ & T0 & T1 & M & HF & _). exists f.
  destruct SV as [PR _]. destruct (cols_rows j og PR) as [CX CY]. destruct (md_scene _ _ _ _ _ _ _ _ _ _ _ _ _ _ M) as (scene & ES & ESN & EN). rewrite CX, CY in ES.
  destruct (scene_spec _ _ _ _ ES) as (code & name & EC & EN' & SI). rewrite ESN in EN'. inversion EN'; subst name.
  destruct (DT t0 (edge_in _ _ _ T0)) as [V0 _]. destruct (DT t1 (edge_in _ _ _ T1)) as [V1 _].
  destruct (parse_dataset_name _ _ _ _ _ _ _ V0 V1 (DN k) PC EN) as (code' & EC' & PN). rewrite EC in EC'. inversion EC'; subst code'.
  pose proof (md_res _ _ _ _ _ _ _ _ _ _ _ _ _ _ M) as MR. rewrite CX in MR.
  destruct (columns j) as [|x0 [|x1 x]] eqn:EX; try discriminate MR. apply resolution_spec in MR.
  exists (lit code), (to_second (j_stamp j t0)), (to_second (j_stamp j t1)), (to_second (j_nows j k)), x0, x1. split; [exact HF|]. split; [exact PN|]. split; [exact SI|]. split; [reflexivity|]. split; [reflexivity|].
  assert (POS : x0 < x1).
  { destruct PR as (AX & _ & A3 & _). unfold columns in EX. destruct (j_mx j) as [|[|mx]] eqn:EM; try discriminate EX. cbn [seq map] in EX. inversion EX. apply center_mono; auto; [lia|rewrite A3; cbn; lia]. }
  assert (AB : Qabs (x1 - x0) == x1 - x0) by (apply Qabs_pos; lra).
  destruct MR as [(bf & n & r & aft & sh & E1 & E2 & E3 & E4 & E5 & E6)|(N & k0 & n & E1 & E2 & E3 & E4)].
  - left. exists bf, n, r, aft, sh. split; [exact E1|]. split; [unfold close in *; rewrite AB in E2; exact E2|]. split; [|auto]. intros n' r' Hin C. apply (E3 n' r' Hin). unfold close in *. rewrite AB. exact C.
  - right. split; [intros n' r' Hin C; apply (N n' r' Hin); unfold close in *; rewrite AB; exact C|]. exists k0, n. split; [exact E1|]. split; [exact E2|]. split; [exact E3|]. rewrite <- AB. exact E4.
Qed.
Print Assumptions C62_scene_and_resolution.
(** Grids of at least a hundred by a hundred equal cells that span a sector from edge to
    edge fit it, whatever their resolution. *)
Lemma even_span : forall e pad m w d, (forall c, (c < m)%nat -> nth (pad + S c) e 0 - nth (pad + c) e 0 == d) -> nth (pad + m) e 0 - nth pad e 0 == w -> (100 <= m)%nat -> 0 < w ->
  span (map (fun c => center e (pad + c)) (seq 0 m)) (w - d) /\ close (w - d) w.
Proof.
  intros e pad m w d EV W M P.
  assert (LIN : forall c, (c <= m)%nat -> nth (pad + c) e 0 == nth pad e 0 + inject_Z (Z.of_nat c) * d).
  { induction c as [|c IH]; intros H; [rewrite Nat.add_0_r; change (inject_Z (Z.of_nat 0)) with 0; lra|]. specialize (IH ltac:(lia)). specialize (EV c ltac:(lia)). rewrite Nat2Z.inj_succ, <- Z.add_1_r, inject_Z_plus. change (inject_Z 1) with 1. lra. }
  assert (WD : w == inject_Z (Z.of_nat m) * d) by (rewrite <- W, (LIN m) by lia; lra).
  assert (M100 : 100 <= inject_Z (Z.of_nat m)) by (change 100 with (inject_Z 100); rewrite <- Zle_Qle; lia).
  assert (D0 : 0 < d). { destruct (Qlt_le_dec 0 d) as [K|K]; [exact K|]. exfalso. assert (inject_Z (Z.of_nat m) * d <= 0). { setoid_replace 0 with (inject_Z (Z.of_nat m) * 0) by lra. apply Qmult_le_l; lra. } lra. }
  assert (CC : forall c, (c < m)%nat -> center e (pad + c) == nth pad e 0 + inject_Z (Z.of_nat c) * d + d * (1 # 2)).
  { intros c H. unfold center. replace (S (pad + c)) with (pad + S c)%nat by lia. rewrite (LIN c), (LIN (S c)) by lia. rewrite Nat2Z.inj_succ, <- Z.add_1_r, inject_Z_plus. change (inject_Z 1) with 1. field. }
  split.
  - exists (center e (pad + 0)), (center e (pad + (m - 1))). split; [apply in_map_iff; exists 0%nat; split; [reflexivity|apply in_seq; lia]|]. split; [apply in_map_iff; exists (m - 1)%nat; split; [reflexivity|apply in_seq; lia]|].
    assert (Z0 : forall a b, (a <= b)%nat -> inject_Z (Z.of_nat a) * d <= inject_Z (Z.of_nat b) * d) by (intros a b L; apply Qmult_le_r; [exact D0|]; rewrite <- Zle_Qle; lia).
    split.
    + intros v Hv. apply in_map_iff in Hv. destruct Hv as (c & <- & Hc). apply in_seq in Hc. rewrite (CC c), (CC 0%nat), (CC (m - 1)%nat) by lia. pose proof (Z0 0%nat c ltac:(lia)). pose proof (Z0 c (m - 1)%nat ltac:(lia)). lra.
    + rewrite (CC 0%nat), (CC (m - 1)%nat) by lia. rewrite Nat2Z.inj_sub by lia. unfold Z.sub. rewrite inject_Z_plus. change (inject_Z (- Z.of_nat 1)) with (-1). change (inject_Z (Z.of_nat 0)) with 0. rewrite WD. lra.
  - unfold close. setoid_replace (w - d - w) with (- d) by lra. rewrite Qabs_opp, Qabs_pos, Qabs_pos by lra.
    assert (100 * d <= w). { rewrite WD. apply Qmult_le_r; assumption. } lra.
Qed.
Theorem C62_sector_grids_fit : forall j outgrids sector dx dy, proper j outgrids -> (100 <= j_mx j)%nat -> (100 <= j_my j)%nat -> 0 < fst sector -> 0 < snd sector ->
  (forall c, (c < j_mx j)%nat -> nth (j_pad j + S c) (gd_xedge (j_gd j)) 0 - nth (j_pad j + c) (gd_xedge (j_gd j)) 0 == dx) ->
  (forall r, (r < j_my j)%nat -> nth (j_pad j + S r) (gd_yedge (j_gd j)) 0 - nth (j_pad j + r) (gd_yedge (j_gd j)) 0 == dy) ->
  nth (j_pad j + j_mx j) (gd_xedge (j_gd j)) 0 - nth (j_pad j) (gd_xedge (j_gd j)) 0 == fst sector ->
  nth (j_pad j + j_my j) (gd_yedge (j_gd j)) 0 - nth (j_pad j) (gd_yedge (j_gd j)) 0 == snd sector ->
  fits (columns j) (rows j) sector.
Proof.
  intros j og sector dx dy PR MX MY P1 P2 EX EY WX WY. destruct (even_span _ _ _ _ _ EX WX MX P1) as [A1 A2]. destruct (even_span _ _ _ _ _ EY WY MY P2) as [B1 B2].
  exists (fst sector - dx), (snd sector - dy). auto.
Qed.
Print Assumptions C62_sector_grids_fit.
Definition ex_line (n : nat) : list Q := map (fun k => inject_Z (Z.of_nat k) * (1 # 1000)) (seq 0 (S n)).
Lemma ex_line_nth : forall n k, (k <= n)%nat -> nth k (ex_line n) 0 = inject_Z (Z.of_nat k) * (1 # 1000).
Proof.
  intros n k H. unfold ex_line. rewrite nth_indep with (d' := inject_Z (Z.of_nat 0) * (1 # 1000)) by (rewrite map_length, seq_length; lia).
  rewrite (map_nth (fun k => inject_Z (Z.of_nat k) * (1 # 1000))), seq_nth by lia. reflexivity.
Qed.
Definition ex_line_job : job :=
  mkJob (mkGridder (ex_line 100) (ex_line 100) [0; 60] ["flash_extent_density"%string] (fun _ => None) (lit "G16")) 0 100 100 true (mkScenes (1 # 10, 1 # 10) (1 # 20, 1 # 20) (1 # 40, 1 # 40))
    ex_resolutions (lit "GOES-East") (lit "GLM-1") ex_default ex_stamp (fun _ => mkDT 2018 183 5 0 0 0).
Example C62_sector_ex : proper ex_line_job [mkArr 100 100 1 (fun _ _ _ => Some 1)] /\ fits (columns ex_line_job) (rows ex_line_job) (sc_full (j_scenes ex_line_job)).
Proof.
  assert (A : ascending (ex_line 100)).
  { intros i k [L1 L2]. unfold ex_line in L2. rewrite map_length, seq_length in L2. rewrite !ex_line_nth by lia. apply Qmult_lt_compat_r; [reflexivity|]. rewrite <- Zlt_Qlt. lia. }
  assert (PR : proper ex_line_job [mkArr 100 100 1 (fun _ _ _ => Some 1)]).
  { split; [exact A|]. split; [exact A|]. split; [reflexivity|]. split; [reflexivity|]. split; [repeat constructor|]. split; [reflexivity|]. intros i d H. discriminate H. }
  split; [exact PR|]. assert (EV : forall c, (c < 100)%nat -> nth (0 + S c) (ex_line 100) 0 - nth (0 + c) (ex_line 100) 0 == 1 # 1000).
  { intros c H. rewrite !ex_line_nth by lia. cbn [Nat.add]. rewrite Nat2Z.inj_succ, <- Z.add_1_r, inject_Z_plus. change (inject_Z 1) with 1. lra. }
  apply (C62_sector_grids_fit ex_line_job _ _ (1 # 1000) (1 # 1000) PR); try (cbn [j_mx j_my ex_line_job]; lia); try reflexivity; try exact EV.
Qed.
(** The name of a file does not tell a mesoscale image from one of any other size: written
    for the same time, they go to the same path. *)
Theorem C62_custom_grids_refuted : ~ (forall j j' og og' fs af af' fs' fs'' paths paths', saves j og fs af fs' paths -> saves j' og' fs' af' fs'' paths' ->
  (forall k, j_nows j k = j_nows j' k) -> j_outpath j = j_outpath j' -> gd_tedges (j_gd j) = gd_tedges (j_gd j') -> j_stamp j = j_stamp j' -> j_scenes j = j_scenes j' ->
  fits (columns j) (rows j) (sc_meso (j_scenes j)) -> ~ fits (columns j') (rows j') (sc_meso (j_scenes j)) ->
  forall p p', In p paths -> In p' paths' -> ~ same_path p p').
Proof.
  intros H. set (sc := mkScenes (304 # 1000, 304 # 1000) (140 # 1000, 84 # 1000) (112 # 1000000, 112 # 1000000)).
  set (mk := fun e => mkJob (mkGridder e ex_edges [0; 60] ["flash_extent_density"%string] (fun _ => None) (lit "G16")) 0 3 3 true sc ex_resolutions (lit "GOES-East") (lit "GLM-1") ex_default ex_stamp (fun _ => mkDT 2018 183 5 0 0 0)).
  set (og := [mkArr 3 3 1 (fun _ _ _ => Some 1)]). set (wide := map (fun q => 10 * q) ex_edges).
  assert (AW : ascending wide) by (apply ex_ascending; repeat constructor; cbn; intros; try lia; reflexivity).
  assert (PR : forall e, ascending e -> List.length e = 4%nat -> proper (mk e) og).
  { intros e A L. split; [exact A|]. split; [exact ex_edges_asc|]. split; [exact L|]. split; [reflexivity|]. split; [repeat constructor|]. split; [reflexivity|]. intros i d K. discriminate K. }
  destruct (call (mk ex_edges) og ex_fs) as [((af & fs') & paths)|] eqn:E1; [|vm_compute in E1; discriminate E1].
  assert (E2 : exists r, call (mk wide) og fs' = Ok r) by (vm_compute in E1; inversion E1; subst; eexists; vm_compute; reflexivity).
  destruct E2 as (((af' & fs'') & paths') & E2).
  assert (SX : span (columns (mk ex_edges)) (112 # 1000000)) by (exists (center ex_edges 0), (center ex_edges 2); split; [left; reflexivity|]; split; [right; right; left; reflexivity|]; split; [|vm_compute; reflexivity]; intros v Hv; cbn in Hv; intuition (subst v; vm_compute; intuition discriminate)).
  destruct paths as [|p ps] eqn:EP; [vm_compute in E1; discriminate E1|]. destruct paths' as [|p' ps'] eqn:EP'; [vm_compute in E1; inversion E1; subst fs'; vm_compute in E2; discriminate E2|].
  refine (H (mk ex_edges) (mk wide) og og ex_fs af af' fs' fs'' (p :: ps) (p' :: ps') (conj (PR _ ex_edges_asc eq_refl) E1) (conj (PR _ AW eq_refl) E2) (fun _ => eq_refl) eq_refl eq_refl eq_refl eq_refl _ _ p p' (or_introl eq_refl) (or_introl eq_refl) _).
  - exists (112 # 1000000), (112 # 1000000). split; [exact SX|]. split; [exact SX|]. split; vm_compute; discriminate.
  - intros (ew & ns & S1 & _ & C & _). assert (S2 : span (columns (mk wide)) (1120 # 1000000)) by (exists (center wide 0), (center wide 2); split; [left; reflexivity|]; split; [right; right; left; reflexivity|]; split; [|vm_compute; reflexivity]; intros v Hv; cbn in Hv; intuition (subst v; vm_compute; intuition discriminate)).
    apply (close_compat _ _ _ (span_unique _ _ _ S1 S2)) in C. vm_compute in C. apply C. reflexivity.
  - vm_compute in E1. inversion E1; subst. vm_compute in E2. inversion E2; subst. reflexivity.
Qed.
Print Assumptions C62_custom_grids_refuted.
Example C62_ex : exists af fs' paths p f, saves (ex_job ex_default) ex_grids ex_fs af fs' paths /\ nth_error paths 1 = Some p /\ holds fs' p f /\
  string_of_list_ascii (at_scene (nc_attrs f)) = "Custom"%string /\ string_of_list_ascii (at_resolution (nc_attrs f)) = "2km at nadir"%string.
Proof.
  destruct ex_saves as (af & fs' & paths & SV). assert (SV' := SV). destruct SV as [PR E]. vm_compute in E. inversion E; subst af fs' paths. eexists. eexists. eexists. eexists. eexists. split; [exact SV'|]. split; [reflexivity|].
  split; [vm_compute; reflexivity|]. split; reflexivity.
Qed.
