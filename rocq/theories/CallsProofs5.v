(** Lemmas about calls of grid_GLM_flashes, continued: calls that succeed. *)
From Coq Require Import List ZArith QArith Qround Bool Ascii String Lia Lqa.
From Verif Require Import Base BaseProofs Glm GlmProofs3 Lut FileName FileNameSpec Imagery ImagerySpec ImageryProofs PropImagery Aggregate Output OutputSpec OutputProofs OutputProofs2 OutputProofs3 PropOutput Tiles TilesProofs Gridder Calls CallsSpec CallsProofs CallsProofs2 CallsProofs3 CallsProofs4.
Import ListNotations.
Open Scope string_scope.
Open Scope list_scope.

Section K.
Variables (sc : scenes) (resolutions : list (string * Q)) (stamp : Q -> datetime).
(** Writing to the working directory makes no directories, and files with names of
    imagery only. *)
Lemma default_keeps : forall gd xs ys scaled slot instrument nows edges g fs t g' fs' paths, ~ In "/"%char (gd_platform gd) ->
  write_loop gd xs ys scaled sc resolutions slot instrument default_outpath stamp nows g fs t edges = Ok (g', fs', paths) -> clear fs -> clear fs'.
Proof.
  intros gd xs ys scaled slot instrument nows edges. induction edges as [|t0 edges IH]; intros g fs t g' fs' paths PL H CL; [inversion H; subst; exact CL|]. destruct edges as [|t1 edges]; [inversion H; subst; exact CL|].
  rewrite loop_step in H. destruct (write_one gd xs ys scaled sc resolutions slot instrument default_outpath stamp (nows t) g fs t t0 t1) as [so|] eqn:E1; cbn [bind] in H; [|discriminate].
  destruct (write_loop gd xs ys scaled sc resolutions slot instrument default_outpath stamp nows (fst (fst so)) (snd (fst so)) (S t) (t1 :: edges)) as [[[g2 fs2] ps]|] eqn:E2; cbn in H; [|discriminate]. inversion H; subst.
  eapply IH; [exact PL|exact E2|]. clear E2 H IH. unfold write_one in E1.
  destruct (resolution resolutions _) as [rt|]; cbn [bind] in E1; [|discriminate]. destruct (infer_scene _ _ _) as [scene|]; cbn [bind] in E1; [|discriminate].
  unfold global_attrs in E1. destruct (dataset_name _ _ _ _ _ _) as [name|] eqn:EN; cbn [bind] in E1; [|discriminate]. destruct (scene_name scene) as [sn|]; cbn [bind at_name] in E1; [|discriminate].
  destruct (output_name_shape _ _ _ _ _ _ _ EN PL) as [NS (r0 & ER)].
  assert (PATH : format_path default_outpath (stamp t0) (stamp t1) name = lit "." ++ "/"%char :: name) by (cbn [format_path flat_map default_outpath]; rewrite app_nil_r; reflexivity).
  rewrite PATH in E1. destruct (dirname_norm (lit ".") name NS) as [DN DNE]. change (norm (lit "." ++ ["/"%char])) with (false, @nil pystr) in DN.
  assert (EX : exists_ fs (dirname (lit "." ++ "/"%char :: name)) = true). { unfold exists_. destruct (dirname _) eqn:ED; [congruence|]. rewrite DN. reflexivity. }
  rewrite EX in E1. cbn [bind] in E1. destruct (fold_res _ _ _) as [st'|]; cbn [bind] in E1; [|discriminate]. unfold to_netcdf in E1. destruct (is_dir fs (norm _)); cbn [bind] in E1; [discriminate|]. destruct (negb _); cbn [bind] in E1; [discriminate|].
  assert (NF : norm (lit "." ++ "/"%char :: name) = (false, [name])) by (rewrite (norm_file (lit ".") name NS) by (rewrite ER; reflexivity); reflexivity).
  rewrite NF in E1. inversion E1; subst so. cbn [fst snd]. destruct CL as [C1 C2]. split; [|exact C2]. intros f. unfold lookup. cbn [fs_files find fst].
  assert (X : path_eqb (false, []) (false, [name]) = false). { destruct (path_eqb _ _) eqn:X; [|reflexivity]. apply path_eqb_iff in X. discriminate X. }
  rewrite X. apply C1.
Qed.
Lemma slice_len_pad : forall (e : list Q) pad m, List.length e = S (m + 2 * pad) -> List.length (slice_list (pad_slice (Z.of_nat pad)) (centers e)) = m.
Proof. intros e pad m L. apply (proj1 (coords e pad m L)). Qed.
(** One tile. *)
Variable prepare : kwargs -> kval -> kwargs -> res prepared.
Lemma write_ok : forall px py p nows scaled slot instrument fs, writable px py p -> clear fs ->
  exists fs' paths, write_frames_to sc resolutions stamp (pr_gd p) (pad_slice (Z.of_nat px)) (pad_slice (Z.of_nat py)) scaled slot instrument default_outpath nows (pr_grids p) fs 0 (gd_tedges (pr_gd p)) = (fs', Ok paths) /\ clear fs'.
Proof.
  intros px py p nows scaled slot instrument fs (AT & SD & LN & PL & mx & my & Hx & Hy & LX & LY & SH) CL.
  destruct (loop_succeeds (pr_gd p) (pad_slice (Z.of_nat px)) (pad_slice (Z.of_nat py)) scaled sc resolutions slot instrument (lit ".") stamp _ _ _ nows (gd_tedges (pr_gd p)) (pr_grids p) fs 0 SD ltac:(reflexivity) LN SH) as (r & E).
  - rewrite (slice_len_pad _ _ _ LX). exact Hx.
  - rewrite (slice_len_pad _ _ _ LY). exact Hy.
  - exact PL.
  - change (norm (lit "." ++ lit "/")) with (false, @nil pystr). intros q f rest LK Q1 Q2. cbn [fst snd] in *. destruct q as [a b]. cbn [fst snd] in *. destruct b; [|discriminate Q2]. subst a. destruct CL as [C1 _]. exact (C1 f LK).
  - change (norm (lit "." ++ lit "/")) with (false, @nil pystr). cbn [fst snd app]. intros q n I ->. destruct CL as [_ C2]. exact (C2 n I).
  - change [PText (lit "." ++ lit "/"); PName] with default_outpath in E. destruct r as [[g' fs'] paths]. exists fs', paths. split; [apply (loop_to _ _ _ _ _ _ _ _ _ _ _ _ _ _ _ g'); exact E|]. eapply default_keeps; eauto.
Qed.
Lemma one_succeeds : forall px py nows sg st w, (forall a r b, exists p, prepare a r b = Ok p /\ writable px py p) -> clear (st_fs st) ->
  kget "ellipse_rev" (sg_proc sg) <> None -> kget "clip_events" (sg_proc sg) <> None -> kget "outpath" (sg_out sg) = None ->
  sg_pre sg = Some (Z.of_nat px, Z.of_nat py, w) -> (kget "output_kwargs" (sg_out sg) = None \/ kget "output_kwargs" (sg_out sg) = Some (KDict Caller)) ->
  exists st' o, proc_each_grid prepare sc resolutions stamp nows sg st = (st', Ok o) /\ clear (st_fs st').
Proof.
  intros px py nows sg st w PR CL ER CE OP PRE OK. unfold proc_each_grid, and_then, pure. cbn [fst snd]. unfold need.
  destruct (kget "ellipse_rev" (sg_proc sg)) as [er|]; [|congruence]. cbn [fst snd].
  assert (HC : khas "clip_events" (kdel "ellipse_rev" (sg_proc sg)) = true). { rewrite khas_kdel. unfold khas. destruct (kget "clip_events" (sg_proc sg)); [reflexivity|congruence]. }
  rewrite HC. change (pipeline_setup GLMlutGridder) with (Ok [Sum "lutevent_flash_count"; Points Flashes; Sum "lutevent_total_flash_area"; Sum "power"; Sum "lutevent_group_count"; Points Groups; Sum "lutevent_total_group_area"; Min "lutevent_min_flash_area"]). cbn [fst snd].
  destruct (PR (sg_kw sg) er (kset "clip_events" KMesh (kdel "ellipse_rev" (sg_proc sg)))) as (p & EP & WR). rewrite EP. cbn [fst snd]. rewrite PRE.
  assert (GO : forall out st0 q, st_fs st0 = st_fs st -> kget "output_kwargs" out = Some (KDict q) -> kget "outpath" out = None ->
    exists st' o, (let st' := mkState (store q (dict_set "pad" (OPad (pad_slice (Z.of_nat px)) (pad_slice (Z.of_nat py))) (st_heap st0 q)) (st_heap st0)) (st_fs st0) in
      match snd (write_grids sc resolutions stamp nows p out st') with
      | Ok a => (fst (write_grids sc resolutions stamp nows p out st'), Ok (sg_ij sg, write_all w []))
      | Err e => (fst (write_grids sc resolutions stamp nows p out st'), Err e)
      end) = (st', Ok o) /\ clear (st_fs st')).
  { intros out st0 q FS KO KP. cbv zeta.
    match goal with |- context [write_grids ?a ?b ?c ?d ?e ?f ?g] => destruct (write_grids a b c d e f g) as [s2 r2] eqn:W end.
    unfold write_grids, and_then, pure in W. cbn [fst snd] in W. rewrite KO in W. cbn [fst snd st_heap] in W. unfold store at 1 2 in W.
    assert (RE : forall x, ref_eqb x x = true) by (intros []; reflexivity). rewrite !RE in W. rewrite dget_set in W. cbn [String.eqb Ascii.eqb Bool.eqb fst snd] in W.
    destruct (Nat.leb (List.length (gd_tedges (pr_gd p))) 1) eqn:LE.
    - inversion W; subst. cbn [fst snd]. eexists. eexists. split; [reflexivity|]. cbn [st_fs]. rewrite FS. exact CL.
    - destruct (pr_attrs p) as [si|] eqn:EA; [|destruct WR as (X & _); congruence]. cbn [fst snd] in W. rewrite KP in W. cbn [fst snd st_fs] in W.
      match type of W with context [write_frames_to ?a ?b ?c ?d ?e ?f ?sca ?sl ?ins ?j ?k ?l ?m ?n ?o] => destruct (write_ok px py p nows sca sl ins (st_fs st) WR CL) as (fs' & paths & E & CL') end.
      rewrite FS, E in W. cbn [fst snd] in W. inversion W; subst. cbn [fst snd]. eexists. eexists. split; [reflexivity|exact CL']. }
  unfold khas. destruct OK as [K|K]; rewrite K.
  - rewrite kget_kset. cbn [String.eqb Ascii.eqb Bool.eqb fst snd].
    apply (GO (kset "output_kwargs" (KDict Fresh) (sg_out sg)) (mkState (store Fresh [] (st_heap st)) (st_fs st)) Fresh); [reflexivity|rewrite kget_kset; reflexivity|rewrite kget_kset; exact OP].
  - rewrite K. cbn [fst snd]. apply (GO (sg_out sg) st Caller); auto.
Qed.
Lemma all_succeeds : forall px py clock sgs st, (forall a r b, exists p, prepare a r b = Ok p /\ writable px py p) -> clear (st_fs st) ->
  (forall sg, In sg sgs -> kget "ellipse_rev" (sg_proc sg) <> None /\ kget "clip_events" (sg_proc sg) <> None /\ kget "outpath" (sg_out sg) = None /\
     (exists w, sg_pre sg = Some (Z.of_nat px, Z.of_nat py, w)) /\ (kget "output_kwargs" (sg_out sg) = None \/ kget "output_kwargs" (sg_out sg) = Some (KDict Caller))) ->
  exists st' out, proc_all prepare sc resolutions stamp clock sgs st = (st', Ok out) /\ clear (st_fs st').
Proof.
  intros px py clock sgs. induction sgs as [|sg sgs IH]; intros st PR CL H; [exists st, []; split; [reflexivity|exact CL]|].
  destruct (H sg (or_introl eq_refl)) as (A & B & C & (w & D) & E). destruct (one_succeeds px py (clock (sg_ij sg)) sg st w PR CL A B C D E) as (st1 & o & E1 & CL1).
  destruct (IH st1 PR CL1) as (st2 & out & E2 & CL2); [intros; apply H; right; auto|]. exists st2, (o :: out). split; [|exact CL2]. cbn [proc_all]. unfold and_then. rewrite E1. cbn [fst snd]. rewrite E2. reflexivity.
Qed.
End K.
