(** C73-C76: arguments and results of grid_GLM_flashes, histories of calls, exceptions. *)
From Coq Require Import List ZArith QArith Qround Bool Ascii String Lia Lqa.
From Verif Require Import Base BaseProofs Glm GlmProofs3 Lut FileName FileNameSpec Imagery ImagerySpec ImageryProofs PropImagery Aggregate Output OutputSpec OutputProofs OutputProofs2 OutputProofs3 PropOutput Tiles TilesProofs PropTiles Gridder Calls CallsSpec CallsProofs CallsProofs2 CallsProofs3 CallsProofs4 CallsProofs5 CallsProofs6.
Import ListNotations.
Open Scope string_scope.
Open Scope list_scope.

Lemma call_ok : forall prepare sc resolutions stamp clock kw st st' out, grid_GLM_flashes prepare sc resolutions stamp clock kw st = (st', Ok out) ->
  exists sgs, subgrids kw = Ok sgs /\ proc_all prepare sc resolutions stamp clock sgs st = (st', Ok out).
Proof.
  intros. unfold grid_GLM_flashes, and_then, pure in H. cbn [fst snd] in H. destruct (subgrids kw) as [sgs|]; [|inversion H]. exists sgs. auto.
Qed.
Lemma fixed_tiles : forall kw sgs s, keywords kw -> fixed_grid kw -> tiles_along kw s -> subgrids kw = Ok sgs ->
  exists dx dy xb yb ts prefix writer, subdivided_fixed_grid xb yb dx dy s = Ok ts /\ map (fun t => (t_i t, t_j t)) ts = indices s /\
    sgs = map (tile_sub (grid_args kw) (proc_args kw) (out_args kw) prefix writer) ts.
Proof.
  intros kw sgs s KW [NL FG] TA H. rewrite subgrids_eq in H. destruct (need "proj_name" (grid_args kw)) as [proj|] eqn:EP; cbn [bind] in H; [|discriminate].
  apply need_inv in EP. rewrite grid_get in EP by (cbn; tauto). destruct (is_lonlat proj) eqn:EL; [destruct NL; apply (lonlat_iff kw proj KW EP); exact EL|].
  assert (HF : khas "fixed_grid" (proc_args kw) = true). { apply khas_given in FG. unfold khas in *. rewrite proc_get. exact FG. }
  rewrite HF in H. assert (HS : natural (subdivide_arg kw) = Ok s).
  { unfold subdivide_arg. destruct TA as [I|[O ->]].
    - apply (kget_given kw "subdivide" _ KW) in I. rewrite I. reflexivity.
    - apply kget_none in O. rewrite O. reflexivity. }
  rewrite HS in H. cbn [bind] in H. apply fixed_inv in H. destruct H as (dx & dy & xb & yb & ts & _ & _ & _ & _ & _ & ET & IX & _ & prefix & writer & _ & _ & ->). exists dx, dy, xb, yb, ts, prefix, writer. auto.
Qed.

(** * C73 *)
(** In the fixed grid there is one entry for each tile, in row-major order, but none has
    the name of a file, whatever was written: [n] files for each of the [s] by [s]
    tiles. *)
Theorem C73_fixed_grid_refuted : forall prepare sc resolutions stamp clock kw st st' out s n,
  keywords kw -> fixed_grid kw -> tiles_along kw s ->
  (forall a r b p, prepare a r b = Ok p -> List.length (gd_tedges (pr_gd p)) = S n) ->
  grid_GLM_flashes prepare sc resolutions stamp clock kw st = (st', Ok out) ->
  map fst out = indices s /\ (forall ij names, In (ij, names) out -> names = []) /\
  exists new, fs_files (st_fs st') = new ++ fs_files (st_fs st) /\ List.length new = (s * s * n)%nat.
Proof.
  intros prepare sc resolutions stamp clock kw st st' out s n KW FG TA HN H. apply call_ok in H. destruct H as (sgs & ES & H).
  destruct (fixed_tiles kw sgs s KW FG TA ES) as (dx & dy & xb & yb & ts & prefix & writer & ET & IX & ->).
  apply (all_fixed prepare sc resolutions stamp clock n HN) in H.
  - rewrite map_map in H. cbn [tile_sub sg_ij] in H. rewrite IX, map_length in H. destruct H as (A & B & new & F & L). split; [exact A|]. split; [exact B|]. exists new. split; [exact F|].
    rewrite L. f_equal. apply (f_equal (@List.length _)) in IX. rewrite map_length in IX. rewrite IX. unfold indices. rewrite prod_length, seq_length. reflexivity.
  - intros sg I. apply in_map_iff in I. destruct I as (t & <- & _). discriminate.
Qed.
Print Assumptions C73_fixed_grid_refuted.

(** Otherwise there is one entry, with the paths of the files: one for each frame, all of
    them there afterwards, and no other file was touched. *)
Theorem C73_single_grid_partial : forall prepare sc resolutions stamp clock kw st st' out n,
  keywords kw -> ~ fixed_grid kw ->
  (forall a r b p, prepare a r b = Ok p -> List.length (gd_tedges (pr_gd p)) = S n) ->
  grid_GLM_flashes prepare sc resolutions stamp clock kw st = (st', Ok out) ->
  exists names, out = [((0, 0)%nat, names)] /\ List.length names = n /\ (forall p, In p names -> present st' p) /\
    (forall q, (forall p, In p names -> norm p <> q) -> lookup (st_fs st') q = lookup (st_fs st) q) /\
    exists new, fs_files (st_fs st') = new ++ fs_files (st_fs st) /\ List.length new = n.
Proof.
  intros prepare sc resolutions stamp clock kw st st' out n KW NF HN H. apply call_ok in H. destruct H as (sgs & ES & H).
  assert (ONE : exists sg, sgs = [sg] /\ sg_ij sg = (0, 0)%nat /\ sg_pre sg = None).
  { rewrite subgrids_eq in ES. destruct (need "proj_name" (grid_args kw)) as [proj|] eqn:EP; cbn [bind] in ES; [|discriminate]. apply need_inv in EP. rewrite grid_get in EP by (cbn; tauto).
    destruct (is_lonlat proj) eqn:EL.
    - destruct (need "x_bnd" _); cbn [bind] in ES; [|discriminate]. destruct (need "y_bnd" _); cbn [bind] in ES; [|discriminate]. inversion ES; subst. eexists. split; [reflexivity|]. split; reflexivity.
    - destruct (khas "fixed_grid" (proc_args kw)) eqn:HF; [|inversion ES; subst; eexists; split; [reflexivity|]; split; reflexivity]. destruct NF. split.
      + intros X. apply (lonlat_iff kw proj KW EP) in X. congruence.
      + apply khas_given. unfold khas in *. rewrite proc_get in HF. exact HF. }
  destruct ONE as (sg & -> & IJ & PRE). apply all_ok_step in H. destruct H as (st1 & [ij names] & out' & E1 & E2 & ->). inversion E2; subst.
  apply one_ok in E1. cbn [fst snd] in E1. destruct E1 as (-> & p & er & pr & names' & EP & EN & L & files & LF & F). rewrite PRE in EN. subst names'. rewrite (HN _ _ _ _ EP) in L.
  exists names. rewrite IJ. split; [reflexivity|]. split; [lia|]. split; [|split].
  - intros q Iq. unfold present. rewrite (lookup_files _ _ _ F). destruct (find _ (rev _)) as [e|] eqn:FD; [eexists; reflexivity|]. exfalso.
    apply In_nth_error in Iq. destruct Iq as (k & Hk). assert (Hf : (k < List.length files)%nat) by (rewrite LF; apply nth_error_Some; congruence). destruct (nth_error files k) as [f|] eqn:Ef; [|apply nth_error_Some in Hf; congruence].
    assert (I : In (norm q, f) (rev (combine (map norm names) files))). { apply -> in_rev. apply nth_error_In with k. apply nth_error_combine. split; [rewrite nth_error_map, Hk; reflexivity|exact Ef]. }
    apply (find_none _ _ FD) in I. cbn [fst] in I. rewrite path_eqb_refl in I. discriminate I.
  - intros q N. rewrite (lookup_files _ _ _ F). rewrite find_none_all; [reflexivity|]. intros [a b] Hin. apply in_rev in Hin. apply in_combine_l in Hin. apply in_map_iff in Hin. destruct Hin as (p' & <- & Hp). cbn [fst]. destruct (path_eqb q (norm p')) eqn:E; [|reflexivity]. apply path_eqb_iff in E. destruct (N p' Hp). auto.
  - eexists. split; [exact F|]. rewrite rev_length, combine_length, map_length, LF, Nat.min_id. lia.
Qed.
Print Assumptions C73_single_grid_partial.

(** * C74 *)
(** Without one of the required arguments the call raises, before anything is written or
    changed. *)
Theorem C74_missing_arguments : forall prepare sc resolutions stamp clock kw st k, keywords kw -> required kw k -> omitted kw k ->
  exists e, grid_GLM_flashes prepare sc resolutions stamp clock kw st = (st, Err e).
Proof.
  intros prepare sc resolutions stamp clock kw st k KW R O. unfold grid_GLM_flashes, and_then, pure. cbn [fst snd]. destruct (subgrids kw) as [sgs|e] eqn:ES; [|exists e; reflexivity].
  destruct (subgrids_ok kw sgs KW ES) as (NE & GP & GL & GF & GA). assert (NG : ~ given kw k) by (intros (v & I); exact (O v I)).
  destruct R as [k I|k LL I|k FG I].
  - destruct sgs as [|sg sgs]; [congruence|]. cbn [proc_all]. assert (X : exists e, proc_each_grid prepare sc resolutions stamp (clock (sg_ij sg)) sg st = (st, Err e)); [|destruct X as (e & X); exists e; unfold and_then; rewrite X; reflexivity].
    apply kget_none in O. cbn in I. destruct I as [<-|[<-|[<-|[]]]].
    + contradiction.
    + unfold proc_each_grid, need. rewrite (GA sg "ellipse_rev") by (cbn; tauto). rewrite O. exists KeyError. reflexivity.
    + unfold proc_each_grid, need. rewrite (GA sg "ellipse_rev") by (cbn; tauto). destruct (kget "ellipse_rev" kw); [|exists KeyError; reflexivity]. unfold and_then, pure. cbn [fst snd].
      assert (HC : khas "clip_events" (kdel "ellipse_rev" (sg_proc sg)) = false). { rewrite khas_kdel. unfold khas. rewrite (GA sg "clip_events") by (cbn; tauto). rewrite O. reflexivity. }
      rewrite HC. exists ValueError. reflexivity.
  - destruct (GL LL) as [GX GY]. cbn in I. destruct I as [<-|[<-|[]]]; contradiction.
  - exfalso. apply NG. apply GF; auto.
Qed.
Print Assumptions C74_missing_arguments.

(** The value of clip_events is not looked at: False is the same as True.  The writers that
    are given are not used (the documentation says so), yet in the fixed grid
    output_writer must be given, see above. *)
Theorem C74_value_not_used_refuted : forall prepare sc resolutions stamp clock kw kw' st k,
  In k ["clip_events"; "output_writer"; "output_writer_3d"] -> differ_in k kw kw' ->
  grid_GLM_flashes prepare sc resolutions stamp clock kw st = grid_GLM_flashes prepare sc resolutions stamp clock kw' st.
Proof.
  intros prepare sc resolutions stamp clock kw kw' st k I D. unfold grid_GLM_flashes, and_then, pure. cbn [fst snd]. pose proof (subgrids_alike k kw kw' D I) as S.
  destruct (subgrids kw) as [sgs|] eqn:E, (subgrids kw') as [sgs'|]; cbn in S; try contradiction; [|congruence].
  assert (A : forall sg, In sg sgs -> kget "clip_events" (sg_kw sg) = None /\ (k <> "clip_events" -> kget k (sg_kw sg) = None /\ kget k (sg_proc sg) = None)).
  { intros sg J. destruct (subgrids_args kw sgs sg E J) as (G & P & _). split; [apply G; cbn; tauto|]. intros N. split; [apply G; auto|apply P]. cbn in *. intuition congruence. }
  clear E. revert st. induction S as [|a b l l' AL F IH]; intros st; [reflexivity|]. cbn [proc_all]. destruct (A a (or_introl eq_refl)) as [NC NO].
  assert (IJ : sg_ij a = sg_ij b) by (destruct AL; auto). rewrite <- IJ. rewrite (one_alike prepare sc resolutions stamp k a b (clock (sg_ij a)) st AL I NO NC).
  unfold and_then. destruct (proc_each_grid _ _ _ _ _ b st) as [st1 [o|e]]; cbn [fst snd]; [|reflexivity]. rewrite IH by (intros; apply A; right; auto). reflexivity.
Qed.
Print Assumptions C74_value_not_used_refuted.

(** With the required arguments a call in the fixed grid succeeds, if processing the data
    does and the grids of the tiles can be written to the working directory. *)
Theorem C74_sufficient_arguments_partial : forall prepare sc resolutions stamp clock kw st s dx dy xb yb prefix px py,
  keywords kw -> fixed_grid kw -> tiles_along kw s -> (1 <= s)%nat ->
  (forall k, In k ["proj_name"; "ellipse_rev"; "clip_events"; "nadir_lon"; "output_writer"] -> given kw k) ->
  In ("x_bnd", KRange xb) kw -> In ("y_bnd", KRange yb) kw -> In ("dx", KNum dx) kw -> In ("dy", KNum dy) kw -> (0 < dx)%Q -> (0 < dy)%Q ->
  In ("output_filename_prefix", KText prefix) kw -> omitted kw "outpath" -> (omitted kw "output_kwargs" \/ In ("output_kwargs", KDict Caller) kw) ->
  Z.of_nat px = Qfloor (default_pad / dx) -> Z.of_nat py = Qfloor (default_pad / dy) ->
  (forall a r b, exists p, prepare a r b = Ok p /\ writable px py p) -> clear (st_fs st) ->
  exists st' out, grid_GLM_flashes prepare sc resolutions stamp clock kw st = (st', Ok out).
Proof.
  intros prepare sc resolutions stamp clock kw st s dx dy xb yb prefix px py KW FG TA S1 GV GX GY GDX GDY PX PY GP NO OK HPX HPY PR CL.
  assert (GET : forall k v, In (k, v) kw -> kget k kw = Some v) by (intros k v I; apply kget_given; auto).
  assert (GIV : forall k, given kw k -> exists v, kget k kw = Some v) by (intros k (v & I); exists v; auto).
  assert (ZX : Qeq_bool dx 0 = false). { destruct (Qeq_bool dx 0) eqn:Z; [|reflexivity]. apply Qeq_bool_iff in Z. lra. }
  assert (ZY : Qeq_bool dy 0 = false). { destruct (Qeq_bool dy 0) eqn:Z; [|reflexivity]. apply Qeq_bool_iff in Z. lra. }
  assert (QX : qint (default_pad / dx) = Z.of_nat px).
  { rewrite HPX. unfold qint. destruct (Qlt_bool (default_pad / dx) 0) eqn:Z; [|reflexivity]. apply Qlt_bool_iff in Z. exfalso. assert (X : (0 <= default_pad / dx)%Q) by (apply Qle_shift_div_l; [exact PX|unfold default_pad; lra]). lra. }
  assert (QY : qint (default_pad / dy) = Z.of_nat py).
  { rewrite HPY. unfold qint. destruct (Qlt_bool (default_pad / dy) 0) eqn:Z; [|reflexivity]. apply Qlt_bool_iff in Z. exfalso. assert (X : (0 <= default_pad / dy)%Q) by (apply Qle_shift_div_l; [exact PY|unfold default_pad; lra]). lra. }
  destruct (GIV "proj_name") as (proj & EP); [apply GV; cbn; tauto|]. destruct (GIV "nadir_lon") as (nl & EN); [apply GV; cbn; tauto|]. destruct (GIV "output_writer") as (wr & EW); [apply GV; cbn; tauto|].
  assert (SG : exists ts, subgrids kw = Ok (map (tile_sub (grid_args kw) (proc_args kw) (out_args kw) prefix wr) ts) /\ forall t, In t ts -> t_npx t = Z.of_nat px /\ t_npy t = Z.of_nat py).
  { rewrite subgrids_eq. destruct FG as [NL FG]. assert (HF : khas "fixed_grid" (proc_args kw) = true). { apply khas_given in FG. unfold khas in *. rewrite proc_get. exact FG. }
    assert (HS : natural (subdivide_arg kw) = Ok s). { unfold subdivide_arg. destruct TA as [I|[O ->]]; [rewrite (GET _ _ I); reflexivity|apply kget_none in O; rewrite O; reflexivity]. }
    assert (EP' := EP). unfold need at 1. rewrite grid_get, EP by (cbn; tauto). cbn [bind]. destruct (is_lonlat proj) eqn:EL; [destruct NL; apply (lonlat_iff kw proj KW EP); exact EL|]. rewrite HF, HS. cbn [bind].
    unfold fixed_subgrids, need. rewrite !grid_get by (cbn; tauto). rewrite (GET _ _ GDX), (GET _ _ GDY), (GET _ _ GX), (GET _ _ GY). cbn [bind number bounds]. rewrite ZX, ZY. cbn [bind]. rewrite proc_get. change (existsb (String.eqb "nadir_lon") process_keys) with true. cbv iota. rewrite EN.
    destruct s as [|s']; [lia|].
    unfold subdivided_fixed_grid. rewrite ZX, ZY. cbn [orb]. assert (SB : forall b d, Qeq_bool d 0 = false -> exists e, subdivide_bnd b d (S s') = Ok e) by (intros b d Z; unfold subdivide_bnd; rewrite Z; eexists; reflexivity).
    destruct (SB xb dx ZX) as (ex & EX). destruct (SB yb dy ZY) as (ey & EY). rewrite EX, EY. cbn [bind]. rewrite QX, QY.
    match goal with |- context [map_res _ ?l] => exists l end. split.
    - rewrite !out_get. change (existsb (String.eqb "output_filename_prefix") output_keys) with true. change (existsb (String.eqb "output_writer") output_keys) with true. cbv iota. rewrite (GET _ _ GP), EW. cbn [bind text].
      match goal with |- map_res _ ?l = _ => generalize l end. intros l. induction l as [|t l IH]; [reflexivity|]. cbn [map_res bind map]. rewrite IH. reflexivity.
    - intros t I. apply in_map_iff in I. destruct I as (ij & <- & _). split; reflexivity. }
  destruct SG as (ts & ES & PADS). unfold grid_GLM_flashes, and_then, pure. cbn [fst snd]. rewrite ES.
  destruct (all_succeeds sc resolutions stamp prepare px py clock (map (tile_sub (grid_args kw) (proc_args kw) (out_args kw) prefix wr) ts) st PR CL) as (st' & out & E & _).
  - intros sg I. destruct (subgrids_ok kw _ KW ES) as (_ & _ & _ & _ & GA). destruct (subgrids_args kw _ sg ES I) as (_ & _ & O & _). rewrite !(GA sg _ I) by (cbn; tauto). rewrite !O by (cbn; tauto).
    split; [destruct (GIV "ellipse_rev") as (v & X); [apply GV; cbn; tauto|congruence]|]. split; [destruct (GIV "clip_events") as (v & X); [apply GV; cbn; tauto|congruence]|]. split; [apply kget_none; exact NO|]. split.
    + apply in_map_iff in I. destruct I as (t & <- & It). destruct (PADS t It) as [P1 P2]. exists wr. cbn [tile_sub sg_pre]. rewrite P1, P2. reflexivity.
    + destruct OK as [K|K]; [left; apply kget_none; exact K|right; apply GET; exact K].
  - exists st', out. exact E.
Qed.
Print Assumptions C74_sufficient_arguments_partial.

(** * C75 *)
(** Every argument reaches the gridder or the data under its own name and with the value
    given, and nothing else is asked of them: two ways of making grids that agree on what is
    [asked] can not be told apart. *)
Theorem C74_arguments_passed_on : forall prepare prepare' sc resolutions stamp clock kw st, keywords kw ->
  (forall a r b, asked kw a r b -> prepare a r b = prepare' a r b) ->
  grid_GLM_flashes prepare sc resolutions stamp clock kw st = grid_GLM_flashes prepare' sc resolutions stamp clock kw st.
Proof.
  intros prepare prepare' sc resolutions stamp clock kw st KW H. unfold grid_GLM_flashes, and_then, pure. cbn [fst snd]. destruct (subgrids kw) as [sgs|] eqn:E; [|reflexivity].
  assert (A : forall sg, In sg sgs -> forall nows st, proc_each_grid prepare sc resolutions stamp nows sg st = proc_each_grid prepare' sc resolutions stamp nows sg st).
  { intros sg I nows st0. apply one_asks. intros r ER CE. apply H. exact (subgrids_asked kw sgs sg r KW E I ER CE). }
  clear E. revert st. induction sgs as [|sg sgs IH]; intros st; [reflexivity|]. cbn [proc_all]. rewrite (A sg (or_introl eq_refl)). unfold and_then. destruct (proc_each_grid _ _ _ _ _ sg st) as [st1 [o|e]]; cbn [fst snd]; [|reflexivity].
  rewrite IH by (intros; apply A; right; auto). reflexivity.
Qed.
Print Assumptions C74_arguments_passed_on.

(** Calls that do not pass output_kwargs do not depend on the calls before, whether those
    succeeded or not, except through the files: they do what they would do in a new
    process. *)
Theorem C75_calls_without_options : forall prepare sc resolutions stamp before clock kw st,
  fresh st -> (forall c, In c before -> from_outside (snd c)) -> omitted kw "output_kwargs" ->
  let st1 := fst (program prepare sc resolutions stamp before st) in
  let r := grid_GLM_flashes prepare sc resolutions stamp clock kw st1 in
  let r' := grid_GLM_flashes prepare sc resolutions stamp clock kw (mkState (fun _ => []) (st_fs st1)) in
  snd r = snd r' /\ st_fs (fst r) = st_fs (fst r').
Proof.
  intros prepare sc resolutions stamp before clock kw st FR OUT O st1.
  assert (F1 : fresh st1).
  { unfold st1. clear st1. revert st FR OUT. induction before as [|c before IH]; intros st FR OUT; [exact FR|]. cbn [program]. destruct (grid_GLM_flashes prepare sc resolutions stamp (fst c) (snd c) st) as [s1 r1] eqn:E. cbn [fst snd].
    apply IH; [eapply call_fresh; [exact E|apply OUT; left; reflexivity|exact FR]|intros; apply OUT; right; auto]. }
  unfold grid_GLM_flashes, and_then, pure. cbn [fst snd]. destruct (subgrids kw) as [sgs|] eqn:ES; cbn [fst snd]; [|split; reflexivity].
  apply all_same; auto; [reflexivity|]. intros sg I. destruct (subgrids_args kw sgs sg ES I) as (_ & _ & OO & _). rewrite OO by (cbn; tauto). apply kget_none. exact O.
Qed.
Print Assumptions C75_calls_without_options.

(** The dictionary passed as output_kwargs has lost 'scale_and_offset' and 'pad' after
    every successful call, so that the same call again means something else. *)
Theorem C75_caller_dictionary_refuted : forall prepare sc resolutions stamp clock kw st st' out,
  keywords kw -> In ("output_kwargs", KDict Caller) kw -> grid_GLM_flashes prepare sc resolutions stamp clock kw st = (st', Ok out) ->
  dict_get "scale_and_offset" (st_heap st' Caller) = None /\ dict_get "pad" (st_heap st' Caller) = None /\
  forall k, k <> "scale_and_offset" -> k <> "pad" -> dict_get k (st_heap st' Caller) = dict_get k (st_heap st Caller).
Proof.
  intros prepare sc resolutions stamp clock kw st st' out KW I H. apply call_ok in H. destruct H as (sgs & ES & H). destruct (subgrids_ok kw sgs KW ES) as (NE & _).
  apply all_left in H; auto.
  - destruct H as (A & B & C). split; [auto|]. split; auto.
  - intros sg J. destruct (subgrids_args kw sgs sg ES J) as (_ & _ & OO & _). rewrite OO by (cbn; tauto). apply kget_given; auto.
Qed.
Print Assumptions C75_caller_dictionary_refuted.

(** * C76 *)
(** Whatever a call does, success or exception, the files after it are those left by
    successful calls of write_goes_imagery: for all frames of some number of tiles, and,
    if it raised, perhaps for the first frames of one more.  Directories are never
    removed. *)
Theorem C76_whole_files_only : forall prepare sc resolutions stamp clock kw st st' r n,
  (forall a r b p, prepare a r b = Ok p -> List.length (gd_tedges (pr_gd p)) = S n) ->
  grid_GLM_flashes prepare sc resolutions stamp clock kw st = (st', r) ->
  (exists l, fs_dirs (st_fs st') = l ++ fs_dirs (st_fs st)) /\
  exists k ms, whole_files prepare sc resolutions stamp (repeat n k ++ ms) (st_fs st) (st_fs st') /\
    match r with
    | Ok out => k = List.length out /\ ms = []
    | Err _ => ms = [] \/ exists m, ms = [m] /\ (m <= n)%nat
    end.
Proof.
  intros prepare sc resolutions stamp clock kw st st' r n HN H. unfold grid_GLM_flashes, and_then, pure in H. cbn [fst snd] in H. destruct (subgrids kw) as [sgs|e] eqn:ES.
  - destruct (all_whole prepare sc resolutions stamp clock n HN sgs st st' r H) as (D & X). split; [exact D|]. destruct X as [(out & -> & W)|[(e & k & m & -> & Hk & Hm & W)|(e & k & -> & Hk & W)]].
    + exists (List.length sgs), []. rewrite app_nil_r. split; [exact W|]. split; [|reflexivity]. clear - H. revert st out H. induction sgs as [|sg sgs IH]; intros st out H; [inversion H; reflexivity|].
      apply all_ok_step in H. destruct H as (st1 & o & out' & _ & E2 & ->). cbn [List.length]. f_equal. eapply IH. exact E2.
    + exists k, [m]. split; [exact W|]. right. exists m. auto.
    + exists k, []. rewrite app_nil_r. split; [exact W|]. left. reflexivity.
  - inversion H; subst. split; [exists []; reflexivity|]. exists 0%nat, []. split; [apply W_none; reflexivity|]. left. reflexivity.
Qed.
Print Assumptions C76_whole_files_only.

(** Every file that is there afterwards and was not before shows a frame with all its
    fields. *)
Lemma loop_entries : forall gd xs ys scaled sc resolutions slot instrument outpath stamp nows nx ny nt edges g fs t g' fs' paths,
  simple_divide (gd_divide gd) -> (t + (List.length edges - 1) <= nt)%nat -> List.length (gd_names gd) = List.length g -> shaped g nx ny nt ->
  write_loop gd xs ys scaled sc resolutions slot instrument outpath stamp nows g fs t edges = Ok (g', fs', paths) ->
  forall q f, In (q, f) (fs_files fs') -> In (q, f) (fs_files fs) \/
    exists k t0 t1, nth_error edges k = Some t0 /\ nth_error edges (S k) = Some t1 /\
      at_start (nc_attrs f) = isoformat (stamp t0) ++ lit "Z" /\ at_end (nc_attrs f) = isoformat (stamp t1) ++ lit "Z" /\ map fst (of_fields (nc_out f)) = gd_names gd.
Proof.
  intros gd xs ys scaled sc resolutions slot instrument outpath stamp nows nx ny nt edges. induction edges as [|t0 edges IH]; intros g fs t g' fs' paths SD Ht HN HS H q f I; [inversion H; subst; left; exact I|].
  destruct edges as [|t1 edges]; [inversion H; subst; left; exact I|]. rewrite loop_step in H. cbn [List.length] in Ht.
  destruct (write_one gd xs ys scaled sc resolutions slot instrument outpath stamp (nows t) g fs t t0 t1) as [[[g1 fs1] s1]|] eqn:E1; cbn [bind fst snd] in H; [|discriminate].
  destruct (write_loop gd xs ys scaled sc resolutions slot instrument outpath stamp nows g1 fs1 (S t) (t1 :: edges)) as [[[g2 fs2] ps]|] eqn:E2; cbn [bind fst snd] in H; [|discriminate]. inversion H; subst g2 fs2; clear H.
  destruct (one_inv _ _ _ _ _ _ _ _ _ _ _ _ _ _ _ _ _ _ _ E1) as (f1 & WF & M & FF & _).
  destruct (fields_loop gd xs ys scaled nx ny nt SD t g ltac:(lia) HN HS) as (S1 & EF & (L1 & SH1 & _)).
  assert (G1 : g1 = S1 /\ map fst (of_fields (nc_out f1)) = gd_names gd).
  { unfold write_frame in WF. apply bind_ok_inv in WF. destruct WF as (scene & _ & WF). apply bind_ok_inv in WF. destruct WF as (name & _ & WF). rewrite HN, Nat.min_id, EF in WF. cbn [bind] in WF. inversion WF as [[A B]]. split; [reflexivity|].
    cbn [of_fields]. rewrite map_map. cbn [fst]. rewrite <- A. assert (LL : List.length (gd_names gd) = List.length S1) by congruence. clear - LL. revert LL. generalize (gd_names gd) as l. generalize S1. intros m l. revert m. induction l as [|a l IH]; intros [|b m] LL; cbn in *; try discriminate; [reflexivity|]. f_equal. apply IH. lia. }
  destruct G1 as [-> NF].
  destruct (IH S1 fs1 (S t) g' fs' ps SD) with (q := q) (f := f) as [J|(k & u0 & u1 & A & B & C)]; auto; try (cbn [List.length]; lia); try congruence.
  - rewrite FF in J. destruct J as [J|J]; [|left; exact J]. inversion J; subst. right. exists 0%nat, t0, t1. cbn. split; [reflexivity|]. split; [reflexivity|]. split; [exact (md_start _ _ _ _ _ _ _ _ _ _ _ _ _ _ M)|]. split; [exact (md_end _ _ _ _ _ _ _ _ _ _ _ _ _ _ M)|exact NF].
  - right. exists (S k), u0, u1. auto.
Qed.
Lemma nth_firstn : forall A (l : list A) n k a, nth_error (firstn n l) k = Some a -> nth_error l k = Some a.
Proof. intros A l n k a H. rewrite <- (firstn_skipn n l). rewrite nth_error_app1; [exact H|]. apply nth_error_Some. congruence. Qed.
Theorem C76_every_file_complete : forall prepare sc resolutions stamp clock kw st st' r n,
  (forall a r b p, prepare a r b = Ok p -> List.length (gd_tedges (pr_gd p)) = S n /\ exists px py, writable px py p) ->
  grid_GLM_flashes prepare sc resolutions stamp clock kw st = (st', r) ->
  forall q f, In (q, f) (fs_files (st_fs st')) -> In (q, f) (fs_files (st_fs st)) \/
    exists a r b p k t0 t1, prepare a r b = Ok p /\ nth_error (gd_tedges (pr_gd p)) k = Some t0 /\ nth_error (gd_tedges (pr_gd p)) (S k) = Some t1 /\
      at_start (nc_attrs f) = isoformat (stamp t0) ++ lit "Z" /\ at_end (nc_attrs f) = isoformat (stamp t1) ++ lit "Z" /\ map fst (of_fields (nc_out f)) = gd_names (pr_gd p).
Proof.
  intros prepare sc resolutions stamp clock kw st st' r n HP H. destruct (C76_whole_files_only prepare sc resolutions stamp clock kw st st' r n) as (_ & k & ms & W & _); [intros a q b p E; apply (HP _ _ _ _ E)|exact H|].
  generalize dependent (repeat n k ++ ms). clear H. intros l W. induction W as [fs fs' E|l m fs fs1 fs2 fs' a er b p xs ys scaled slot instrument outpath nows g paths W IH EP Hm AT EW F]; intros q f I; [rewrite E in I; left; exact I|].
  rewrite F in I. rewrite write_first in EW. destruct (HP _ _ _ _ EP) as (_ & px & py & (_ & SD & LN & _ & mx & my & _ & _ & _ & _ & SH)).
  assert (LE : (0 + (List.length (firstn (S m) (gd_tedges (pr_gd p))) - 1) <= List.length (gd_tedges (pr_gd p)) - 1)%nat) by (rewrite firstn_length; lia).
  destruct (loop_entries _ _ _ _ _ _ _ _ _ _ _ _ _ _ _ _ _ _ _ _ _ SD LE LN SH EW q f I) as [J|(j & t0 & t1 & A & B & C)]; [exact (IH q f J)|].
  right. exists a, er, b, p, j, t0, t1. split; [exact EP|]. split; [eapply nth_firstn; exact A|]. split; [eapply nth_firstn; exact B|exact C].
Qed.
Print Assumptions C76_every_file_complete.

(** * Examples *)
(** A gridder for the bounds in the arguments; two frames. *)
Definition ex_prepare (kw : kwargs) (er : kval) (proc : kwargs) : res prepared :=
  let e := map (fun k => inject_Z k * ex_d)%Q [0; 1; 2; 3; 4]%Z in
  Ok (mkPrep (mkGridder e e [0; 60; 120]%Q ["flash_extent_density"] (fun _ => None) (lit "G16"))
        [mkArr 4 4 2 (fun x y t => Some (1 # 3)%Q)] (Some (lit "GOES-East", lit "GLM-1"))).
Lemma ex_prepared : forall a r b, exists p, ex_prepare a r b = Ok p /\ writable 1 1 p.
Proof.
  intros. eexists. split; [reflexivity|]. split; [discriminate|]. split; [intros i d H; discriminate H|]. split; [reflexivity|]. split; [cbn; intuition discriminate|].
  exists 2%nat, 2%nat. split; [lia|]. split; [lia|]. split; [reflexivity|]. split; [reflexivity|]. repeat constructor.
Qed.
Lemma ex_frames : forall a r b p, ex_prepare a r b = Ok p -> List.length (gd_tedges (pr_gd p)) = 3%nat.
Proof. intros a r b p H. inversion H; subst. reflexivity. Qed.
Definition ex_kw : kwargs :=
  [("proj_name", KText (lit "geos")); ("fixed_grid", KBool true); ("subdivide", KNat 2); ("x_bnd", KRange (0, 4 * ex_d)%Q); ("y_bnd", KRange (0, 4 * ex_d)%Q); ("dx", KNum ex_d); ("dy", KNum ex_d);
   ("clip_events", KBool true); ("ellipse_rev", KObj (-1)); ("nadir_lon", KNum (-75)%Q); ("output_writer", KObj 0); ("output_filename_prefix", KText (lit "GLM"))].
Ltac nodup := repeat constructor; cbn; intuition discriminate.
Lemma ex_keywords : keywords ex_kw.
Proof. unfold keywords, ex_kw. cbn [map fst]. nodup. Qed.
Lemma ex_fixed : fixed_grid ex_kw.
Proof. split; [unfold lonlat_grid; cbn; intuition discriminate|exists (KBool true); cbn; tauto]. Qed.
Definition ex_state : state := mkState (fun _ => []) ex_fs.
Definition ex_call := grid_GLM_flashes ex_prepare ex_scenes ex_resolutions ex_stamp.
(** A call of four tiles with all that is required succeeds ... *)
Lemma ex_succeeds : exists st' out, ex_call (fun _ _ => ex_time) ex_kw ex_state = (st', Ok out).
Proof.
  assert (X : Qlt 0 ex_d) by reflexivity.
  apply (C74_sufficient_arguments_partial ex_prepare ex_scenes ex_resolutions ex_stamp _ ex_kw ex_state 2 ex_d ex_d (0, 4 * ex_d)%Q (0, 4 * ex_d)%Q (lit "GLM") 1 1 ex_keywords ex_fixed); auto; try (cbn; tauto); try exact ex_prepared.
  - left. cbn. tauto.
  - intros k I. cbn in I. destruct I as [<-|[<-|[<-|[<-|[<-|[]]]]]]; eexists; cbn; tauto.
  - intros v I. cbn in I. intuition discriminate.
  - left. intros v I. cbn in I. intuition discriminate.
  - split; [intros f H; discriminate H|intros n []].
Qed.
Example C74_ex : exists st' out, ex_call (fun _ _ => ex_time) ex_kw ex_state = (st', Ok out).
Proof. exact ex_succeeds. Qed.
(** ... and writes eight files, of which it names none. *)
Example C73_ex : exists st' out new, ex_call (fun _ _ => ex_time) ex_kw ex_state = (st', Ok out) /\ out = [((0, 0), []); ((0, 1), []); ((1, 0), []); ((1, 1), [])]%nat /\
  fs_files (st_fs st') = new ++ [] /\ List.length new = 8%nat.
Proof.
  destruct ex_succeeds as (st' & out & E). assert (TA : tiles_along ex_kw 2) by (left; cbn; tauto).
  destruct (C73_fixed_grid_refuted _ _ _ _ _ _ _ _ _ 2 2 ex_keywords ex_fixed TA ex_frames E) as (A & B & new & F & L). exists st', out, new. split; [exact E|]. split; [|split; [exact F|exact L]].
  destruct out as [|[i0 n0] [|[i1 n1] [|[i2 n2] [|[i3 n3] [|x out]]]]]; try discriminate A. cbn in A. inversion A; subst.
  rewrite (B (0, 0)%nat n0), (B (0, 1)%nat n1), (B (1, 0)%nat n2), (B (1, 1)%nat n3) by (cbn; tauto). reflexivity.
Qed.
(** What is asked for the tile (1, 0). *)
Example C74_asked_ex : exists a b, asked ex_kw a (KObj (-1)) b /\ In ("dx", KNum ex_d) a /\ In ("nadir_lon", KNum (-75)%Q) b /\
  exists rx ry, In ("x_bnd", KRange rx) b /\ In ("y_bnd", KRange ry) b /\ (fst rx == 2 * ex_d - (28 # 10000))%Q /\ (snd ry == 2 * ex_d + (28 # 10000))%Q.
Proof.
  destruct (subgrids ex_kw) as [sgs|] eqn:E; [|vm_compute in E; discriminate E]. destruct sgs as [|s0 [|s1 [|s2 sgs]]]; try (vm_compute in E; discriminate E).
  exists (sg_kw s2), (data_args s2). split; [apply (subgrids_asked ex_kw (s0 :: s1 :: s2 :: sgs) s2 (KObj (-1)) ex_keywords E); [cbn; tauto| |]|]; vm_compute in E; inversion E; subst; [reflexivity..|].
  split; [cbn; tauto|]. split; [cbn; tauto|]. do 2 eexists. split; [cbn; tauto|]. split; [cbn; tauto|]. split; vm_compute; reflexivity.
Qed.
(** Left out: the writer, which is not used. *)
Example C74_missing_ex : required ex_kw "output_writer" /\ omitted (kdel "output_writer" ex_kw) "output_writer" /\ snd (ex_call (fun _ _ => ex_time) (kdel "output_writer" ex_kw) ex_state) = Err KeyError.
Proof. split; [apply R_fixed; [exact ex_fixed|cbn; tauto]|]. split; [intros v I; cbn in I; intuition discriminate|reflexivity]. Qed.
(** clip_events=False. *)
Example C74_value_ex : differ_in "clip_events" ex_kw (map (fun a => if String.eqb (fst a) "clip_events" then ("clip_events", KBool false) else a) ex_kw).
Proof. unfold differ_in, ex_kw. cbn [map]. repeat constructor; cbn; intros; congruence. Qed.
(** The single grid: longitude and latitude. *)
Definition ex_lonlat : kwargs :=
  [("proj_name", KText (lit "latlong")); ("x_bnd", KRange (0, 4)%Q); ("y_bnd", KRange (0, 4)%Q); ("clip_events", KBool true); ("ellipse_rev", KObj (-1)); ("output_kwargs", KDict Caller)].
Definition ex_scale_off : state := mkState (fun _ => [("scale_and_offset", OBool false)]) ex_fs.
Definition names_of (r : res (list (nat * nat * list pystr))) : list (list string) := match r with Ok l => map (fun e => map string_of_list_ascii (snd e)) l | Err _ => [] end.
Example C73_single_ex : keywords ex_lonlat /\ ~ fixed_grid ex_lonlat /\
  names_of (snd (ex_call (fun _ _ => ex_time) ex_lonlat ex_scale_off)) =
    [["./OR_GLM-L2-GLMM1-M3_G16_s20181830430000_e20181830431000_c20200010000000.nc"; "./OR_GLM-L2-GLMM1-M3_G16_s20181830431000_e20181830432000_c20200010000000.nc"]].
Proof. split; [unfold keywords, ex_lonlat; cbn [map fst]; nodup|]. split; [intros [_ (v & I)]; cbn in I; intuition discriminate|]. vm_compute. reflexivity. Qed.
(** The same call twice: the value 1/3 is written first as it is, then rounded. *)
Definition first_value (st : state) : fval := match fs_files (st_fs st) with (_, f) :: _ => field_at f "flash_extent_density" (0, 0)%nat | [] => None end.
Example C75_ex : let r1 := ex_call (fun _ _ => ex_time) ex_lonlat ex_scale_off in let r2 := ex_call (fun _ _ => ex_time) ex_lonlat (fst r1) in
  first_value (fst r1) = Some (1 # 3)%Q /\ exists v, first_value (fst r2) = Some v /\ ~ (v == 1 # 3)%Q.
Proof. cbv zeta. split; [vm_compute; reflexivity|]. eexists. split; [vm_compute; reflexivity|]. intros H. discriminate H. Qed.
Example C75_hypotheses : fresh ex_state /\ from_outside ex_kw /\ omitted ex_kw "output_kwargs" /\ keywords ex_lonlat /\ In ("output_kwargs", KDict Caller) ex_lonlat.
Proof.
  split; [reflexivity|]. split; [intros k r I; cbn in I; intuition discriminate|]. split; [intros v I; cbn in I; intuition discriminate|]. split; [unfold keywords, ex_lonlat; cbn [map fst]; nodup|cbn; tauto].
Qed.
(** A directory is where the second frame should go: the file of the first one is left. *)
Definition ex_blocked : state := mkState (fun _ => []) (mkFs [(false, [lit "31"])] []).
Definition ex_minutes : kwargs := ("outpath", KPath [PText (lit "./"); PStart [DirM]]) :: ex_lonlat.
Example C76_ex : snd (ex_call (fun _ _ => ex_time) ex_minutes ex_blocked) = Err OSError /\ map fst (fs_files (st_fs (fst (ex_call (fun _ _ => ex_time) ex_minutes ex_blocked)))) = [(false, [lit "30"])].
Proof. split; vm_compute; reflexivity. Qed.
