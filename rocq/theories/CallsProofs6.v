(** Lemmas about calls of grid_GLM_flashes, continued: what is asked of the gridder and of
    the data. *)
From Coq Require Import List ZArith QArith Bool String Lia.
From Verif Require Import Base BaseProofs Glm Lut FileName Imagery ImageryProofs Aggregate Output OutputProofs OutputProofs2 Tiles TilesProofs Gridder Calls CallsSpec CallsProofs CallsProofs2 CallsProofs3 CallsProofs4.
Import ListNotations.
Open Scope string_scope.
Open Scope list_scope.

Lemma kw_del : forall k d, keywords d -> keywords (kdel k d).
Proof.
  unfold keywords, kdel. induction d as [|[a b] d IH]; intros H; [constructor|]. cbn [map fst] in H. inversion H; subst. cbn [filter fst]. destruct (negb _); [|auto].
  cbn [map fst]. constructor; [|auto]. intros I. apply H2. apply in_map_iff in I. destruct I as (x & E & I). apply filter_In in I. apply in_map_iff. exists x. tauto.
Qed.
Lemma nodup_snoc : forall A (l : list A) a, NoDup l -> ~ In a l -> NoDup (l ++ [a]).
Proof.
  induction l as [|x l IH]; intros a N I; cbn; [repeat constructor; auto|]. inversion N; subst. constructor.
  - intros J. apply in_app_or in J. destruct J as [J|[->|[]]]; [auto|]. apply I. left; auto.
  - apply IH; auto. intros J; apply I; right; auto.
Qed.
Lemma kw_set : forall k v d, keywords d -> keywords (kset k v d).
Proof.
  intros k v d H. unfold kset, keywords. rewrite map_app. cbn [map fst]. apply nodup_snoc; [apply kw_del; exact H|].
  intros I. apply in_map_iff in I. destruct I as ([a b] & E & I). cbn in E. subst a.
  assert (O : omitted (kdel k d) k) by (apply kget_none; rewrite kget_kdel, String.eqb_refl; reflexivity). exact (O b I).
Qed.
Lemma kw_move : forall names from into, keywords from -> keywords into -> keywords (fst (move names from into)) /\ keywords (snd (move names from into)).
Proof.
  induction names as [|n names IH]; intros from into A B; [auto|]. cbn [move]. destruct (kget n from); apply IH; auto using kw_del, kw_set.
Qed.
Lemma kw_start : forall kw, keywords kw -> keywords (start_args kw).
Proof. intros. unfold start_args. auto using kw_del, kw_set. Qed.
Lemma kw_proc : forall kw, keywords kw -> keywords (proc_args kw).
Proof. intros. unfold proc_args. apply kw_move; [apply kw_start; auto|constructor]. Qed.
Lemma kw_mid : forall kw, keywords kw -> keywords (mid_args kw).
Proof.
  intros kw H. unfold mid_args. assert (X : keywords (fst (move process_keys (start_args kw) []))) by (apply kw_move; [apply kw_start; auto|constructor]).
  destruct (khas _ _); auto using kw_set.
Qed.
Lemma kw_grid : forall kw, keywords kw -> keywords (grid_args kw).
Proof. intros. unfold grid_args. apply kw_move; [apply kw_mid; auto|constructor]. Qed.

(** The arguments of the gridder. *)
Lemma grid_get_all : forall kw k, kget k (grid_args kw) =
  if existsb (String.eqb k) not_for_grid then None
  else if String.eqb k "event_grid_area_fraction_key" then if khas "clip_events" kw then Some (KText (lit "mesh_frac")) else kget k kw
  else if String.eqb k "do_3d" then Some (KBool false) else kget k kw.
Proof.
  intros kw k. destruct (existsb (String.eqb k) not_for_grid) eqn:N.
  - destruct (in_dec string_dec k (process_keys ++ output_keys)) as [I|I]; [apply grid_no; exact I|].
    assert (E : k = "subdivide"). { apply existsb_exists in N. destruct N as (x & J & E). apply String.eqb_eq in E. subst x. cbn in J, I. intuition congruence. }
    subst k. unfold grid_args. rewrite (proj1 (move_get output_keys _ [] "subdivide" output_nodup)). change (existsb (String.eqb "subdivide") output_keys) with false. cbv iota.
    unfold mid_args. assert (X : kget "subdivide" (fst (move process_keys (start_args kw) [])) = None).
    { rewrite (proj1 (move_get process_keys _ [] "subdivide" process_nodup)). change (existsb (String.eqb "subdivide") process_keys) with false. cbv iota. unfold start_args. rewrite kget_kdel, String.eqb_refl. reflexivity. }
    destruct (khas _ _); [rewrite kget_kset|]; exact X.
  - assert (NO : existsb (String.eqb k) output_keys = false /\ existsb (String.eqb k) process_keys = false /\ String.eqb k "subdivide" = false).
    { unfold not_for_grid in N. cbn [existsb] in N. unfold output_keys, process_keys. cbn [existsb]. repeat (apply orb_false_iff in N; let H := fresh in destruct N as [H N]; rewrite ?H). auto. }
    destruct NO as (NO & NP & NS). unfold grid_args. rewrite (proj1 (move_get output_keys _ [] k output_nodup)), NO. unfold mid_args.
    assert (X : kget k (fst (move process_keys (start_args kw) [])) = if String.eqb k "do_3d" then Some (KBool false) else kget k kw).
    { rewrite (proj1 (move_get process_keys _ [] k process_nodup)), NP. unfold start_args. rewrite kget_kdel, NS, kget_kset. reflexivity. }
    assert (C : khas "clip_events" (proc_args kw) = khas "clip_events" kw) by (unfold khas; rewrite proc_get; reflexivity). rewrite C.
    destruct (khas "clip_events" kw).
    + rewrite kget_kset, X. reflexivity.
    + rewrite X. destruct (String.eqb k "event_grid_area_fraction_key") eqn:E; [|reflexivity]. apply String.eqb_eq in E. subst k. reflexivity.
Qed.
Lemma number_is : forall v q, number v = Ok q -> is_number v q.
Proof. intros v q H. destruct v; inversion H; subst; [left; auto|right; eauto]. Qed.
(** The tiles with the numbers they are made of. *)
Lemma fixed_inv2 : forall kw proc out s sgs, fixed_subgrids kw proc out s = Ok sgs ->
  exists vx vy dx dy xb yb ts, kget "dx" kw = Some vx /\ kget "dy" kw = Some vy /\ number vx = Ok dx /\ number vy = Ok dy /\ kget "x_bnd" kw = Some (KRange xb) /\ kget "y_bnd" kw = Some (KRange yb) /\
    subdivided_fixed_grid xb yb dx dy s = Ok ts /\
    forall sg, In sg sgs -> exists t, In t ts /\ sg_kw sg = tile_bounds t kw /\ sg_proc sg = kset "lat_bnd" KNone (kset "lon_bnd" KNone (tile_bounds t proc)).
Proof.
  intros kw proc out s sgs H. unfold fixed_subgrids in H.
  unfold need in H. destruct (kget "dx" kw) as [vx|] eqn:Gx; cbn [bind] in H; [|discriminate]. destruct (number vx) as [dx|] eqn:NX; cbn [bind] in H; [|discriminate]. destruct (Qeq_bool dx 0) eqn:Zx; cbn [bind] in H; [discriminate|].
  destruct (kget "dy" kw) as [vy|] eqn:Gy; cbn [bind] in H; [|discriminate]. destruct (number vy) as [dy|] eqn:NY; cbn [bind] in H; [|discriminate]. destruct (Qeq_bool dy 0) eqn:Zy; cbn [bind] in H; [discriminate|].
  destruct (kget "x_bnd" kw) as [bx|] eqn:GX; cbn [bind] in H; [|discriminate]. destruct bx as [| |xb| | | | | | | |]; cbn [bind bounds] in H; try discriminate.
  destruct (subdivide_bnd xb dx s) as [ex|] eqn:EX; cbn [bind] in H; [|discriminate].
  destruct (kget "y_bnd" kw) as [by_|] eqn:GY; cbn [bind] in H; [|discriminate]. destruct by_ as [| |yb| | | | | | | |]; cbn [bind bounds] in H; try discriminate.
  destruct (subdivided_fixed_grid xb yb dx dy s) as [ts|] eqn:ET; cbn [bind] in H; [|discriminate].
  destruct (kget "nadir_lon" proc) as [nl|] eqn:GN; cbn [bind] in H; [|discriminate].
  exists vx, vy, dx, dy, xb, yb, ts. do 6 (split; [auto|]). split; [auto|].
  apply map_res_ext_ok in H. clear - H. induction H as [|t g ts gs E H IH]; intros sg I; [destruct I|]. destruct I as [<-|I].
  - exists t. split; [left; auto|]. destruct (kget "output_filename_prefix" out) as [vp|]; cbn [bind] in E; [|discriminate]. destruct (text vp); cbn [bind] in E; [|discriminate].
    destruct (kget "output_writer" out); cbn [bind] in E; [|discriminate]. inversion E; subst. split; reflexivity.
  - destruct (IH sg I) as (t' & J & R). exists t'. split; [right; auto|exact R].
Qed.

(** The options of the data, besides the bounds. *)
Lemma proc_get_all : forall kw k, kget k (kset "clip_events" KMesh (kdel "ellipse_rev" (proc_args kw))) =
  if String.eqb k "clip_events" then Some KMesh
  else if existsb (String.eqb k) ["min_points_per_flash"; "min_groups_per_flash"; "fixed_grid"; "nadir_lon"; "corner_pickle"] then kget k kw else None.
Proof.
  intros kw k. rewrite kget_kset, kget_kdel, proc_get. destruct (String.eqb k "clip_events") eqn:C; [reflexivity|]. unfold process_keys. cbn [existsb]. rewrite C.
  destruct (String.eqb k "ellipse_rev") eqn:E.
  - apply String.eqb_eq in E. subst k. reflexivity.
  - repeat rewrite orb_false_r. cbn [orb]. reflexivity.
Qed.
Lemma not_in_eqb : forall k l, ~ In k l -> existsb (String.eqb k) l = false.
Proof. intros k l H. destruct (existsb _ l) eqn:E; [|reflexivity]. apply existsb_exists in E. destruct E as (x & I & E). apply String.eqb_eq in E. subst x. contradiction. Qed.
Lemma in_eqb : forall k l, In k l -> existsb (String.eqb k) l = true.
Proof. intros k l H. apply existsb_exists. exists k. split; [auto|apply String.eqb_refl]. Qed.

Definition data_args (sg : subgrid) : kwargs := kset "clip_events" KMesh (kdel "ellipse_rev" (sg_proc sg)).
Lemma in_iff_get : forall d d' k, keywords d -> keywords d' -> kget k d = kget k d' -> forall v, In (k, v) d <-> In (k, v) d'.
Proof. intros d d' k A B E v. rewrite <- (kget_given d k v A), <- (kget_given d' k v B), E. reflexivity. Qed.
Lemma subgrids_asked : forall kw sgs sg r, keywords kw -> subgrids kw = Ok sgs -> In sg sgs -> kget "ellipse_rev" (sg_proc sg) = Some r -> khas "clip_events" (kdel "ellipse_rev" (sg_proc sg)) = true ->
  asked kw (sg_kw sg) r (data_args sg).
Proof.
  intros kw sgs sg r KW H I ER CE. rewrite subgrids_eq in H. destruct (need "proj_name" (grid_args kw)) as [proj|] eqn:EP; cbn [bind] in H; [|discriminate].
  apply need_inv in EP. rewrite grid_get in EP by (cbn; tauto). pose proof (lonlat_iff kw proj KW EP) as LL. assert (FH : khas "fixed_grid" (proc_args kw) = khas "fixed_grid" kw) by (unfold khas; rewrite proc_get; reflexivity).
  (* the three forms of a tile *)
  assert (FORM : (lonlat_grid kw /\ exists xb yb, kget "x_bnd" kw = Some xb /\ kget "y_bnd" kw = Some yb /\ sg_kw sg = grid_args kw /\ sg_proc sg = kset "lat_bnd" yb (kset "lon_bnd" xb (proc_args kw))) \/
     (fixed_grid kw /\ exists vx vy dx dy xb yb s ts t, kget "dx" kw = Some vx /\ kget "dy" kw = Some vy /\ number vx = Ok dx /\ number vy = Ok dy /\ kget "x_bnd" kw = Some (KRange xb) /\ kget "y_bnd" kw = Some (KRange yb) /\
        tiles_along kw s /\ subdivided_fixed_grid xb yb dx dy s = Ok ts /\ In t ts /\ sg_kw sg = tile_bounds t (grid_args kw) /\ sg_proc sg = kset "lat_bnd" KNone (kset "lon_bnd" KNone (tile_bounds t (proc_args kw)))) \/
     (~ lonlat_grid kw /\ ~ fixed_grid kw /\ sg_kw sg = grid_args kw /\ sg_proc sg = kset "lat_bnd" KNone (kset "lon_bnd" KNone (proc_args kw)))).
  { destruct (is_lonlat proj); [left|right].
    - split; [apply LL; reflexivity|]. destruct (need "x_bnd" _) as [xb|] eqn:X; cbn [bind] in H; [|discriminate]. destruct (need "y_bnd" _) as [yb|] eqn:Y; cbn [bind] in H; [|discriminate]. inversion H; subst. destruct I as [<-|[]].
      apply need_inv in X, Y. rewrite grid_get in X, Y by (cbn; tauto). exists xb, yb. auto.
    - assert (NL : ~ lonlat_grid kw) by (intros L; apply LL in L; discriminate). destruct (khas "fixed_grid" (proc_args kw)) eqn:EF; [left|right].
      + split; [split; [exact NL|apply khas_given; congruence]|]. destruct (natural (subdivide_arg kw)) as [s|] eqn:ES; cbn [bind] in H; [|discriminate].
        apply fixed_inv2 in H. destruct H as (vx & vy & dx & dy & xb & yb & ts & A1 & A2 & A3 & A4 & A5 & A6 & A7 & A8). destruct (A8 sg I) as (t & It & B1 & B2). rewrite grid_get in A1, A2, A5, A6 by (cbn; tauto).
        exists vx, vy, dx, dy, xb, yb, s, ts, t. do 6 (split; [auto|]). split; [|auto].
        unfold subdivide_arg in ES. destruct (kget "subdivide" kw) as [v|] eqn:K; [left|right].
        * apply kget_in in K. destruct v; inversion ES; subst; auto.
        * apply kget_none in K. inversion ES. auto.
      + inversion H; subst. destruct I as [<-|[]]. split; [exact NL|]. split; [|auto]. intros [_ G]. apply khas_given in G. congruence. }
  assert (KG : keywords (sg_kw sg)) by (destruct FORM as [(_ & xb & yb & _ & _ & -> & _)|[(_ & vx & vy & dx & dy & xb & yb & s & ts & t & _ & _ & _ & _ & _ & _ & _ & _ & _ & -> & _)|(_ & _ & -> & _)]]; unfold tile_bounds; repeat apply kw_set; apply kw_grid; exact KW).
  assert (KP : keywords (sg_proc sg)) by (destruct FORM as [(_ & xb & yb & _ & _ & _ & ->)|[(_ & vx & vy & dx & dy & xb & yb & s & ts & t & _ & _ & _ & _ & _ & _ & _ & _ & _ & _ & ->)|(_ & _ & _ & ->)]]; unfold tile_bounds; repeat apply kw_set; apply kw_proc; exact KW).
  assert (KD : keywords (data_args sg)) by (unfold data_args; apply kw_set, kw_del; exact KP).
  assert (GG : forall k, k <> "x_bnd" -> k <> "y_bnd" -> kget k (sg_kw sg) = kget k (grid_args kw)).
  { intros k NX NY. apply String.eqb_neq in NX, NY. destruct FORM as [(_ & xb & yb & _ & _ & -> & _)|[(_ & vx & vy & dx & dy & xb & yb & s & ts & t & _ & _ & _ & _ & _ & _ & _ & _ & _ & -> & _)|(_ & _ & -> & _)]]; try reflexivity.
    unfold tile_bounds. rewrite !kget_kset, NX, NY. reflexivity. }
  assert (GP : forall k, k <> "x_bnd" -> k <> "y_bnd" -> k <> "lon_bnd" -> k <> "lat_bnd" -> kget k (sg_proc sg) = kget k (proc_args kw)).
  { intros k NX NY NX' NY'. apply String.eqb_neq in NX, NY, NX', NY'. destruct FORM as [(_ & xb & yb & _ & _ & _ & ->)|[(_ & vx & vy & dx & dy & xb & yb & s & ts & t & _ & _ & _ & _ & _ & _ & _ & _ & _ & _ & ->)|(_ & _ & _ & ->)]];
      unfold tile_bounds; rewrite !kget_kset, ?NX, ?NY, ?NX', ?NY'; reflexivity. }
  assert (GD : forall k, k <> "x_bnd" -> k <> "y_bnd" -> k <> "lon_bnd" -> k <> "lat_bnd" -> kget k (data_args sg) =
     if String.eqb k "clip_events" then Some KMesh else if existsb (String.eqb k) ["min_points_per_flash"; "min_groups_per_flash"; "fixed_grid"; "nadir_lon"; "corner_pickle"] then kget k kw else None).
  { intros k NX NY NX' NY'. rewrite <- (proc_get_all kw k). unfold data_args. rewrite !kget_kset, !kget_kdel, GP; auto. }
  assert (CL : khas "clip_events" kw = true). { rewrite khas_kdel in CE. apply andb_true_iff in CE. destruct CE as [_ CE]. unfold khas in CE |- *. rewrite GP in CE by discriminate. rewrite proc_get in CE. exact CE. }
  assert (PUT : forall d k v, kget k d = Some v -> In (k, v) d) by (intros; apply kget_in; auto).
  constructor.
  - apply PUT. rewrite GP in ER by discriminate. rewrite proc_get in ER. exact ER.
  - intros k v N. apply in_iff_get; auto. rewrite GG by (intros ->; apply N; cbn; tauto). rewrite grid_get_all, not_in_eqb by (intros J; apply N; apply in_or_app; auto).
    assert (N1 : k <> "event_grid_area_fraction_key") by (intros ->; apply N; cbn; tauto). assert (N2 : k <> "do_3d") by (intros ->; apply N; cbn; tauto). apply String.eqb_neq in N1, N2. rewrite N1, N2. reflexivity.
  - intros k J. apply kget_none. rewrite GG; [rewrite grid_get_all, in_eqb by exact J; reflexivity| |]; intros ->; cbn in J; intuition discriminate.
  - apply PUT. rewrite GG by discriminate. rewrite grid_get_all, CL. reflexivity.
  - apply PUT. rewrite GG by discriminate. rewrite grid_get_all. reflexivity.
  - intros k v J. apply in_iff_get; auto. rewrite GD; [|intros ->; cbn in J; intuition discriminate..]. rewrite in_eqb by exact J. destruct (String.eqb k "clip_events") eqn:E; [|reflexivity]. apply String.eqb_eq in E. subst k. cbn in J. intuition discriminate.
  - split; [apply khas_given; exact CL|]. apply PUT. rewrite GD by discriminate. reflexivity.
  - intros k N. apply kget_none. rewrite GD; [|intros ->; apply N; cbn; tauto..]. assert (NC : k <> "clip_events") by (intros ->; apply N; cbn; tauto). apply String.eqb_neq in NC. rewrite NC, not_in_eqb; [reflexivity|]. intros J. apply N. cbn in *. tauto.
  - intros L. destruct FORM as [(_ & xb & yb & X & Y & EG & EPR)|[([NL _] & _)|(NL & _)]]; [|contradiction..].
    unfold data_args. rewrite EPR, EG. split; [apply kget_none; rewrite kget_kset, kget_kdel, !kget_kset, proc_get; reflexivity|]. split; [apply kget_none; rewrite kget_kset, kget_kdel, !kget_kset, proc_get; reflexivity|].
    exists xb, yb. split; [auto|]. split; [auto|]. split; [apply PUT; rewrite grid_get by (cbn; tauto); exact X|]. split; [apply PUT; rewrite grid_get by (cbn; tauto); exact Y|].
    split; apply PUT; rewrite kget_kset, kget_kdel, !kget_kset; reflexivity.
  - intros FX. destruct FORM as [(L & _)|[(_ & vx & vy & dx & dy & xb & yb & s & ts & t & A1 & A2 & A3 & A4 & A5 & A6 & A7 & A8 & A9 & EG & EPR)|(_ & NF & _)]]; [destruct FX; contradiction| |contradiction].
    unfold data_args. rewrite EPR, EG. split; [apply PUT; rewrite kget_kset, kget_kdel, !kget_kset; reflexivity|]. split; [apply PUT; rewrite kget_kset, kget_kdel, !kget_kset; reflexivity|].
    exists xb, yb, vx, vy, dx, dy, s, ts, t. do 4 (split; [auto|]). split; [apply number_is; auto|]. split; [apply number_is; auto|]. do 3 (split; [auto|]). unfold tile_bounds.
    repeat split; apply PUT; rewrite ?kget_kset, ?kget_kdel, ?kget_kset; reflexivity.
  - intros NL NF. destruct FORM as [(L & _)|[(FX & _)|(_ & _ & EG & EPR)]]; [contradiction..|]. unfold data_args. rewrite EPR, EG.
    split; [apply kget_none; rewrite kget_kset, kget_kdel, !kget_kset, proc_get; reflexivity|]. split; [apply kget_none; rewrite kget_kset, kget_kdel, !kget_kset, proc_get; reflexivity|].
    split; [apply PUT; rewrite kget_kset, kget_kdel, !kget_kset; reflexivity|]. split; [apply PUT; rewrite kget_kset, kget_kdel, !kget_kset; reflexivity|].
    intros k v J. apply in_iff_get; auto using kw_grid. apply grid_get. cbn in *. tauto.
Qed.
Lemma one_asks : forall prepare prepare' sc resolutions stamp nows sg st,
  (forall r, kget "ellipse_rev" (sg_proc sg) = Some r -> khas "clip_events" (kdel "ellipse_rev" (sg_proc sg)) = true -> prepare (sg_kw sg) r (data_args sg) = prepare' (sg_kw sg) r (data_args sg)) ->
  proc_each_grid prepare sc resolutions stamp nows sg st = proc_each_grid prepare' sc resolutions stamp nows sg st.
Proof.
  intros prepare prepare' sc resolutions stamp nows sg st H. unfold proc_each_grid, and_then, pure. cbn [fst snd]. unfold need. destruct (kget "ellipse_rev" (sg_proc sg)) as [r|]; cbn [fst snd]; [|reflexivity].
  destruct (khas "clip_events" (kdel "ellipse_rev" (sg_proc sg))) eqn:C; [|reflexivity]. unfold data_args in H. rewrite (H r eq_refl eq_refl). reflexivity.
Qed.
