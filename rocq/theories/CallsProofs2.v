(** Lemmas about calls of grid_GLM_flashes, continued: arguments and tiles. *)
From Coq Require Import List ZArith QArith Bool String Lia.
From Verif Require Import Base BaseProofs Glm Lut FileName Imagery ImageryProofs Aggregate Output OutputProofs OutputProofs2 Tiles TilesProofs Gridder Calls CallsSpec CallsProofs.
Import ListNotations.
Open Scope string_scope.
Open Scope list_scope.

(** * Arguments *)
(** The three dictionaries that a call makes of its arguments (make_grids.py 792-812). *)
Definition start_args (kw0 : kwargs) : kwargs := kdel "subdivide" (kset "do_3d" (KBool false) kw0).
Definition proc_args (kw0 : kwargs) : kwargs := snd (move process_keys (start_args kw0) []).
Definition mid_args (kw0 : kwargs) : kwargs :=
  let kw3 := fst (move process_keys (start_args kw0) []) in
  if khas "clip_events" (proc_args kw0) then kset "event_grid_area_fraction_key" (KText (lit "mesh_frac")) kw3 else kw3.
Definition out_args (kw0 : kwargs) : kwargs := snd (move output_keys (mid_args kw0) []).
Definition grid_args (kw0 : kwargs) : kwargs := fst (move output_keys (mid_args kw0) []).
Definition is_lonlat (proj : kval) : bool :=
  match proj with KText p => if list_eq_dec Ascii.ascii_dec p (lit "latlong") then true else false | _ => false end.
Definition subdivide_arg (kw0 : kwargs) : kval := match kget "subdivide" kw0 with Some v => v | None => KNat 1 end.
Lemma subgrids_eq : forall kw0, subgrids kw0 =
  (proj <- need "proj_name" (grid_args kw0) ;;
   if is_lonlat proj then
     xb <- need "x_bnd" (grid_args kw0) ;;
     yb <- need "y_bnd" (grid_args kw0) ;;
     Ok [mkSub (0, 0)%nat (grid_args kw0) (kset "lat_bnd" yb (kset "lon_bnd" xb (proc_args kw0))) (out_args kw0) None]
   else if khas "fixed_grid" (proc_args kw0) then
     s <- natural (subdivide_arg kw0) ;;
     fixed_subgrids (grid_args kw0) (proc_args kw0) (out_args kw0) s
   else Ok [mkSub (0, 0)%nat (grid_args kw0) (kset "lat_bnd" KNone (kset "lon_bnd" KNone (proc_args kw0))) (out_args kw0) None]).
Proof.
  intros kw0. unfold subgrids, grid_args, out_args, mid_args, proc_args, start_args, subdivide_arg.
  rewrite kget_kset. change (String.eqb "subdivide" "do_3d") with false. cbv iota.
  destruct (move process_keys (kdel "subdivide" (kset "do_3d" (KBool false) kw0)) []) as [kw3 proc]. cbn [fst snd].
  destruct (move output_keys _ []) as [kw out]. reflexivity.
Qed.
Lemma start_get : forall kw0 k, k <> "subdivide" -> k <> "do_3d" -> kget k (start_args kw0) = kget k kw0.
Proof. intros kw0 k A B. unfold start_args. rewrite kget_kdel, kget_kset. apply String.eqb_neq in A, B. rewrite A, B. reflexivity. Qed.
Lemma proc_get : forall kw0 k, kget k (proc_args kw0) = if existsb (String.eqb k) process_keys then kget k kw0 else None.
Proof.
  intros kw0 k. unfold proc_args. rewrite (proj2 (move_get process_keys (start_args kw0) [] k process_nodup)). destruct (existsb (String.eqb k) process_keys) eqn:E; [|reflexivity].
  rewrite start_get; [destruct (kget k kw0); reflexivity| |]; intros ->; discriminate E.
Qed.
Lemma mid_get : forall kw0 k, existsb (String.eqb k) process_keys = false -> k <> "subdivide" -> k <> "do_3d" -> k <> "event_grid_area_fraction_key" -> kget k (mid_args kw0) = kget k kw0.
Proof.
  intros kw0 k N A B C. assert (X : kget k (fst (move process_keys (start_args kw0) [])) = kget k kw0).
  { rewrite (proj1 (move_get process_keys (start_args kw0) [] k process_nodup)), N. apply start_get; auto. }
  unfold mid_args. destruct (khas _ _); [|exact X]. rewrite kget_kset. apply String.eqb_neq in C. rewrite C. exact X.
Qed.
Lemma out_get : forall kw0 k, kget k (out_args kw0) = if existsb (String.eqb k) output_keys then kget k kw0 else None.
Proof.
  intros kw0 k. unfold out_args. rewrite (proj2 (move_get output_keys (mid_args kw0) [] k output_nodup)). destruct (existsb (String.eqb k) output_keys) eqn:E; [|reflexivity].
  assert (X : kget k (mid_args kw0) = kget k kw0); [|rewrite X; destruct (kget k kw0); reflexivity].
  apply existsb_exists in E. destruct E as (k' & I & E). apply String.eqb_eq in E. subst k'. cbn in I. destruct I as [<-|[<-|[<-|[<-|[<-|[]]]]]]; apply mid_get; try reflexivity; discriminate.
Qed.
Lemma grid_get : forall kw0 k, In k ["proj_name"; "x_bnd"; "y_bnd"; "dx"; "dy"] -> kget k (grid_args kw0) = kget k kw0.
Proof.
  intros kw0 k I. unfold grid_args. rewrite (proj1 (move_get output_keys (mid_args kw0) [] k output_nodup)).
  cbn in I. destruct I as [<-|[<-|[<-|[<-|[<-|[]]]]]]; rewrite mid_get; try reflexivity; discriminate.
Qed.
Lemma need_inv : forall k kw v, need k kw = Ok v -> kget k kw = Some v.
Proof. unfold need. intros k kw v H. destruct (kget k kw); inversion H; reflexivity. Qed.
Lemma lonlat_iff : forall kw0 proj, keywords kw0 -> kget "proj_name" kw0 = Some proj -> (is_lonlat proj = true <-> lonlat_grid kw0).
Proof.
  intros kw0 proj KW E. unfold lonlat_grid. rewrite <- (kget_given _ _ _ KW), E. unfold is_lonlat. destruct proj; split; intros H; try discriminate; try congruence.
  - destruct (list_eq_dec _ _ _) as [->|]; [reflexivity|discriminate].
  - inversion H; subst. destruct (list_eq_dec _ _ _); congruence.
Qed.

(** * Tiles *)
Definition tile_bounds (t : tile) (d : kwargs) : kwargs := kset "y_bnd" (KRange (t_ybnd t)) (kset "x_bnd" (KRange (t_xbnd t)) d).
Definition tile_sub (kw proc out : kwargs) (prefix : pystr) (writer : kval) (t : tile) : subgrid :=
  mkSub (t_i t, t_j t) (tile_bounds t kw) (kset "lat_bnd" KNone (kset "lon_bnd" KNone (tile_bounds t proc)))
    (kset "output_writer" KCapture (kset "output_filename_prefix" (KText (prefix ++ tile_suffix (t_i t) (t_j t))) out)) (Some (t_npx t, t_npy t, writer)).
Lemma map_res_ext_ok : forall A B (f : A -> res B) l bs, map_res f l = Ok bs -> Forall2 (fun a b => f a = Ok b) l bs.
Proof.
  induction l as [|a l IH]; intros bs H; cbn in H; [inversion H; constructor|]. destruct (f a) as [b|] eqn:E; [|discriminate]. cbn in H. destruct (map_res f l) as [bs'|]; [|discriminate]. inversion H; subst. constructor; auto.
Qed.
Lemma fixed_inv : forall kw proc out s sgs, fixed_subgrids kw proc out s = Ok sgs ->
  exists dx dy xb yb ts, kget "dx" kw <> None /\ kget "dy" kw <> None /\ kget "x_bnd" kw = Some (KRange xb) /\ kget "y_bnd" kw = Some (KRange yb) /\ kget "nadir_lon" proc <> None /\
    subdivided_fixed_grid xb yb dx dy s = Ok ts /\ map (fun t => (t_i t, t_j t)) ts = indices s /\ s <> 0%nat /\
    exists prefix writer, kget "output_filename_prefix" out = Some (KText prefix) /\ kget "output_writer" out = Some writer /\ sgs = map (tile_sub kw proc out prefix writer) ts.
Proof.
  intros kw proc out s sgs H. unfold fixed_subgrids in H.
  unfold need in H. destruct (kget "dx" kw) as [vx|] eqn:Gx; cbn [bind] in H; [|discriminate]. destruct (number vx) as [dx|]; cbn [bind] in H; [|discriminate]. destruct (Qeq_bool dx 0) eqn:Zx; cbn [bind] in H; [discriminate|].
  destruct (kget "dy" kw) as [vy|] eqn:Gy; cbn [bind] in H; [|discriminate]. destruct (number vy) as [dy|]; cbn [bind] in H; [|discriminate]. destruct (Qeq_bool dy 0) eqn:Zy; cbn [bind] in H; [discriminate|].
  destruct (kget "x_bnd" kw) as [bx|] eqn:GX; cbn [bind] in H; [|discriminate]. destruct bx as [| |xb| | | | | | | |]; cbn [bind bounds] in H; try discriminate.
  destruct (subdivide_bnd xb dx s) as [ex|] eqn:EX; cbn [bind] in H; [|discriminate].
  destruct (kget "y_bnd" kw) as [by_|] eqn:GY; cbn [bind] in H; [|discriminate]. destruct by_ as [| |yb| | | | | | | |]; cbn [bind bounds] in H; try discriminate.
  destruct (subdivided_fixed_grid xb yb dx dy s) as [ts|] eqn:ET; cbn [bind] in H; [|discriminate].
  destruct (kget "nadir_lon" proc) as [nl|] eqn:GN; cbn [bind] in H; [|discriminate].
  assert (S0 : s <> 0%nat). { intros ->. unfold subdivide_bnd in EX. rewrite Zx in EX. discriminate EX. }
  assert (IX : map (fun t => (t_i t, t_j t)) ts = indices s).
  { unfold subdivided_fixed_grid in ET. rewrite Zx, Zy in ET. cbn [orb] in ET. rewrite EX in ET. cbn [bind] in ET. destruct (subdivide_bnd yb dy s) as [ey|]; cbn [bind] in ET; [|discriminate]. inversion ET; subst ts.
    rewrite map_map. cbn [t_i t_j]. unfold indices. rewrite <- (map_id (list_prod _ _)) at 2. apply map_ext. intros [a b]. reflexivity. }
  exists dx, dy, xb, yb, ts. split; [congruence|]. split; [congruence|]. split; [auto|]. split; [auto|]. split; [congruence|]. split; [auto|]. split; [exact IX|]. split; [exact S0|].
  apply map_res_ext_ok in H. destruct ts as [|t0 ts].
  { exfalso. destruct s; [congruence|]. discriminate IX. }
  inversion H as [|a b la lb E1 F]; subst. destruct (kget "output_filename_prefix" out) as [vp|] eqn:GP; cbn [bind] in E1; [|discriminate]. destruct (text vp) as [prefix|] eqn:TP; cbn [bind] in E1; [|discriminate].
  destruct (kget "output_writer" out) as [writer|] eqn:GW; cbn [bind] in E1; [|discriminate]. assert (vp = KText prefix) by (destruct vp; inversion TP; reflexivity). subst vp.
  exists prefix, writer. split; [auto|]. split; [auto|]. cbn [map]. f_equal; [inversion E1; reflexivity|].
  clear - F. induction F as [|a b la lb E F IH]; [reflexivity|]. cbn [map text bind] in *. inversion E; subst. f_equal; auto.
Qed.

(** * Writing *)
Section P.
Variable prepare : kwargs -> kval -> kwargs -> res prepared.
Variables (sc : scenes) (resolutions : list (string * Q)) (stamp : Q -> datetime).
Let wg := write_grids sc resolutions stamp.
Let one := proc_each_grid prepare sc resolutions stamp.
Let all := proc_all prepare sc resolutions stamp.

(** What write_grids adds to the files. *)
Lemma write_grids_ok : forall nows p out st st' names, wg nows p out st = (st', Ok names) ->
  List.length names = (List.length (gd_tedges (pr_gd p)) - 1)%nat /\
  exists files, List.length files = List.length names /\ fs_files (st_fs st') = rev (combine (map norm names) files) ++ fs_files (st_fs st).
Proof.
  intros nows p out st st' names H. unfold wg, write_grids, and_then, pure in H. cbn [fst snd] in H.
  destruct (match kget "output_kwargs" out with None => Ok Default | Some (KDict r) => Ok r | Some _ => Err AttributeError end) as [r|]; cbn [fst snd] in H; [|inversion H].
  match type of H with context [match ?m with Ok _ => _ | Err _ => _ end] => destruct m as [sl|]; cbn [fst snd] in H; [|inversion H] end.
  destruct (Nat.leb _ 1) eqn:LE.
  { inversion H; subst. cbn [st_fs]. apply Nat.leb_le in LE. split; [cbn; lia|]. exists []. split; reflexivity. }
  destruct (pr_attrs p) as [si|]; cbn [fst snd] in H; [|inversion H].
  match type of H with context [match ?m with Ok _ => _ | Err _ => _ end] => destruct m as [op|]; cbn [fst snd] in H; [|inversion H] end.
  match type of H with context [write_frames_to ?a ?b ?c ?d ?e ?f ?g ?h ?i ?j ?k ?l ?m ?n ?o] => destruct (write_frames_to a b c d e f g h i j k l m n o) as [fs' r'] eqn:W end.
  cbn [fst snd st_fs st_heap] in H. inversion H; subst. apply to_ok in W. destruct W as (g' & W). apply loop_spec in W. destruct W as (files & _ & L1 & L2 & _ & F & _). cbn [st_fs]. split; [exact L2|]. exists files. auto.
Qed.
Lemma one_ok : forall nows sg st st' o, one nows sg st = (st', Ok o) ->
  fst o = sg_ij sg /\ exists p er pr names, prepare (sg_kw sg) er pr = Ok p /\ snd o = match sg_pre sg with Some _ => [] | None => names end /\
    List.length names = (List.length (gd_tedges (pr_gd p)) - 1)%nat /\
    exists files, List.length files = List.length names /\ fs_files (st_fs st') = rev (combine (map norm names) files) ++ fs_files (st_fs st).
Proof.
  intros nows sg st st' o H. unfold one, proc_each_grid, and_then, pure in H. cbn [fst snd] in H.
  destruct (need "ellipse_rev" _) as [er|]; cbn [fst snd] in H; [|inversion H].
  destruct (pipeline_setup _) as [fd|]; cbn [fst snd] in H; [|inversion H].
  match type of H with context [prepare ?a ?b ?c] => destruct (prepare a b c) as [p|] eqn:EP end; cbn [fst snd] in H; [|inversion H].
  destruct (sg_pre sg) as [[[npx npy] w]|].
  - destruct (if khas "output_kwargs" (sg_out sg) then _ else _) as [out st0] eqn:EO. assert (FS : st_fs st0 = st_fs st) by (destruct (khas "output_kwargs" (sg_out sg)); inversion EO; reflexivity).
    match type of H with context [match ?m with Ok _ => _ | Err _ => _ end] => destruct m as [r|]; cbn [fst snd] in H; [|inversion H] end.
    match type of H with context [write_grids ?a ?b ?c ?d ?e ?f ?g] => destruct (write_grids a b c d e f g) as [s2 [names|]] eqn:W end; cbn [fst snd] in H; [|inversion H].
    inversion H; subst. apply write_grids_ok in W. cbn [st_fs] in W. rewrite FS in W. destruct W as (A & B). cbn [fst snd]. split; [reflexivity|]. exists p, er; eexists; exists names; split; [exact EP|]. split; [destruct w as [| | |[]| | | | | | |]; reflexivity|]. auto.
  - match type of H with context [write_grids ?a ?b ?c ?d ?e ?f ?g] => destruct (write_grids a b c d e f g) as [s2 [names|]] eqn:W end; cbn [fst snd] in H; [|inversion H].
    inversion H; subst. apply write_grids_ok in W. destruct W as (A & B). cbn [fst snd]. split; [reflexivity|]. exists p, er; eexists; exists names; split; [exact EP|]. auto.
Qed.
Lemma all_step : forall clock sg sgs st, all clock (sg :: sgs) st = and_then (one (clock (sg_ij sg)) sg st) (fun r st => and_then (all clock sgs st) (fun q st => (st, Ok (r :: q)))).
Proof. reflexivity. Qed.
Lemma all_ok_step : forall clock sg sgs st st' out, all clock (sg :: sgs) st = (st', Ok out) ->
  exists st1 o out', one (clock (sg_ij sg)) sg st = (st1, Ok o) /\ all clock sgs st1 = (st', Ok out') /\ out = o :: out'.
Proof.
  intros clock sg sgs st st' out H. rewrite all_step in H. unfold and_then in H. destruct (one (clock (sg_ij sg)) sg st) as [st1 [o|]] eqn:E; cbn [fst snd] in H; [|inversion H].
  destruct (all clock sgs st1) as [st2 [q|]] eqn:E2; cbn [fst snd] in H; [|inversion H]. inversion H; subst. eauto 6.
Qed.
Lemma all_fixed : forall clock n, (forall a r b p, prepare a r b = Ok p -> List.length (gd_tedges (pr_gd p)) = S n) ->
  forall sgs st st' out, (forall sg, In sg sgs -> sg_pre sg <> None) -> all clock sgs st = (st', Ok out) ->
  map fst out = map sg_ij sgs /\ (forall ij names, In (ij, names) out -> names = []) /\
  exists new, fs_files (st_fs st') = new ++ fs_files (st_fs st) /\ List.length new = (List.length sgs * n)%nat.
Proof.
  intros clock n HN. induction sgs as [|sg sgs IH]; intros st st' out PRE H.
  - inversion H; subst. split; [reflexivity|]. split; [intros ? ? []|]. exists []. split; reflexivity.
  - apply all_ok_step in H. destruct H as (st1 & o & out' & E1 & E2 & ->). apply one_ok in E1. destruct E1 as (IJ & p & er & pr & names & EP & NM & L & files & LF & F).
    destruct (IH st1 st' out') as (A & B & new & F2 & L2); [intros; apply PRE; right; auto|auto|]. assert (X := PRE sg (or_introl eq_refl)). destruct (sg_pre sg); [|congruence].
    cbn [map]. split; [congruence|]. split.
    + intros ij nm [I|I]; [subst o; exact NM|eauto].
    + exists (new ++ rev (combine (map norm names) files)). rewrite F2, F, app_assoc. split; [reflexivity|]. rewrite app_length, L2, rev_length, combine_length, map_length, LF, Nat.min_id, L, (HN _ _ _ _ EP). cbn [List.length]. lia.
Qed.
End P.
