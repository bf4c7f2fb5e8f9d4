(** Property C81: grids of longitude and latitude with clip_events
    (make_grids.py 761-938 with proj_name='latlong', mimic_lma.py 95-98, 115-243). *)
From Coq Require Import List ZArith QArith Qabs Bool Lia Lqa Permutation.
From Verif Require Import Base BaseProofs Traversal TraversalSpec Glm GlmSpec GlmProofs3 Lut LutSpec LutProofs PropLut Accum Poly PolySpec BBox BBoxSpec BBoxProofs Slice SliceSpec SliceProofs
  Regroup Pipeline PipelineSpec PipelineProofs PropSlice PropPipeline ChunkSpec ChunkProofs PropChunks.
Import ListNotations.
Open Scope Z_scope.

Local Notation tbl := (table obs).

(** A function of rows that changes nothing but longitudes and latitudes. *)
Record moves (h : row obs -> row obs) : Prop :=
  { mv_id : forall r, rid (h r) = rid r;
    mv_parent : forall r, rpid (h r) = rpid r;
    mv_data : forall r, exists lon lat, rdat (h r) =
      mkObs lon lat (o_energy (rdat r)) (o_area (rdat r)) (o_x (rdat r)) (o_y (rdat r)) (o_flash (rdat r)) (o_nchild (rdat r)) (o_nevent (rdat r)) }.

Lemma gather_map : forall A B (f : A -> B) l i, gather (map f l) i = (a <- gather l i ;; Ok (map f a)).
Proof.
  induction i as [|k i IH]; [reflexivity|]. cbn [gather map_res]. cbn. rewrite nth_error_map. destruct (nth_error l k) as [a|]; cbn; [|reflexivity].
  rewrite IH. destruct (gather l i); reflexivity.
Qed.
Lemma map_res_ext : forall A B (f g : A -> res B) l, (forall a, f a = g a) -> map_res f l = map_res g l.
Proof. intros A B f g l H. induction l as [|a l IH]; [reflexivity|]. cbn. rewrite H, IH. reflexivity. Qed.

Section Moved.
Variable h : row obs -> row obs.
Hypothesis H : moves h.
Lemma mv_col : forall B (f : row obs -> B) (l : tbl), (forall r, f (h r) = f r) -> map f (map h l) = map f l.
Proof using. intros B f l E. rewrite map_map. apply map_ext. exact E. Qed.
Lemma mv_o : forall B (f : obs -> B), (forall a b a' b' e r x y fl c n, f (mkObs a b e r x y fl c n) = f (mkObs a' b' e r x y fl c n)) -> forall r, f (rdat (h r)) = f (rdat r).
Proof using H.
  intros B f E r. destruct (mv_data h H r) as (lon & lat & ->). destruct (rdat r). cbn. apply E.
Qed.
Lemma lut_row_moved : forall (F G E : tbl) ids k, lut_row (map h F) (map h G) (map h E) ids k = lut_row F G E ids k.
Proof using H.
  intros F G E ids k. unfold lut_row. destruct (lookup ids k) as [ev|]; cbn [bind]; [|reflexivity]. rewrite gather_map. destruct (gather E ev) as [evs|]; cbn [bind]; [|reflexivity].
  rewrite (mv_col _ (fun e => o_flash (rdat e))) by (apply mv_o; reflexivity). rewrite (mv_col _ rpid), !(mv_col _ rid) by apply H.
  destruct (map_res (lookup (map rid F)) _) as [rf|]; cbn [bind]; [|reflexivity]. rewrite gather_map. destruct (gather F (List.concat rf)) as [fl|]; cbn [bind]; [|reflexivity].
  destruct (map_res (lookup (map rid G)) _) as [rg|]; cbn [bind]; [|reflexivity]. rewrite gather_map. destruct (gather G (List.concat rg)) as [gr|]; cbn [bind]; [|reflexivity].
  rewrite (map_res_ext _ _ _ (fun fid => i <- lookup (map rid F) fid ;; f <- gather F i ;; np_min (map (fun r => o_area (rdat r)) f))).
  2: { intros fid. destruct (lookup (map rid F) fid) as [i|]; cbn [bind]; [|reflexivity]. rewrite gather_map. destruct (gather F i); cbn [bind]; [|reflexivity]. rewrite (mv_col _ (fun r => o_area (rdat r))) by (apply mv_o; reflexivity). reflexivity. }
  destruct (map_res _ _) as [mins|]; cbn [bind]; [|reflexivity]. destruct (py_min mins); cbn [bind]; [|reflexivity].
  rewrite !(mv_col _ (fun r => o_area (rdat r))) by (apply mv_o; reflexivity). rewrite (mv_col _ (fun r => o_x (rdat r))) by (apply mv_o; reflexivity).
  rewrite (mv_col _ (fun r => o_y (rdat r))) by (apply mv_o; reflexivity). rewrite (mv_col _ (fun r => o_energy (rdat r))) by (apply mv_o; reflexivity). reflexivity.
Qed.
(** Where a chunk goes on the grid does not depend on its longitudes and latitudes. *)
Theorem C81_lonlat_not_used_refuted : forall weird clip tree quad m (c : list tbl),
  read_chunk weird clip tree quad m (map (map h) c) = read_chunk weird clip tree quad m c.
Proof using H.
  intros weird clip tree quad m c. unfold read_chunk, chunk_weighted.
  assert (E : get_lutevents weird lut_scale lut_range lut_range (map (map h) c) = get_lutevents weird lut_scale lut_range lut_range c); [|rewrite E; reflexivity].
  destruct c as [|F [|G [|E [|? ?]]]]; try reflexivity. cbn [map]. unfold get_lutevents. rewrite !map_length.
  rewrite (mv_col _ (fun e => discretize weird lut_scale lut_range lut_range (o_x (rdat e)) (o_y (rdat e)))).
  2: { intros r. rewrite (mv_o _ o_x), (mv_o _ o_y) by reflexivity. reflexivity. }
  destruct (_ || _)%bool; [reflexivity|]. apply map_res_ext. intros k. apply lut_row_moved.
Qed.
End Moved.
Print Assumptions C81_lonlat_not_used_refuted.

(** Clipping gives nothing for polygons on different sides of a meridian. *)
Definition apart (clip : poly -> poly -> list poly) : Prop := forall p q c,
  (forall v, In v p -> (c < fst v)%Q) -> (forall v, In v q -> (fst v <= c)%Q) -> clip p q = [].
Lemma mesh_node : forall xe ye i j, (i < List.length ye)%nat -> (j < List.length xe)%nat -> In (fst (node (meshgrid_x xe ye) (meshgrid_y xe ye) i j)) xe.
Proof.
  intros xe ye i j Hi Hj. unfold node. cbn [fst]. unfold entry, meshgrid_x.
  assert (E : nth i (map (fun _ : Q => xe) ye) [] = xe) by (clear Hj; revert i Hi; induction ye as [|y ye IH]; intros [|i] Hi; cbn in *; [lia|lia|reflexivity|apply IH; lia]).
  rewrite E. apply nth_In. exact Hj.
Qed.
Lemma nothing_cut : forall clip tree xe ye p c, (1 < List.length xe)%nat -> (1 < List.length ye)%nat -> increasing xe -> increasing ye -> proper clip -> apart clip ->
  (forall x, In x xe -> (x <= c)%Q) -> (forall v, In v p -> (c < fst v)%Q) ->
  cut clip (regular_xy xe ye) p (nearby tree (regular_xy xe ye) p) = [].
Proof.
  intros clip tree xe ye p c HX HY IX IY PR AP W HP. pose proof (nearby_valid tree xe ye HX HY IX IY p) as V. unfold cut.
  induction V as [|[i j] l [V1 V2] V IH]; [reflexivity|]. cbn [flat_map]. rewrite IH, app_nil_r. rewrite (AP p _ c HP); [reflexivity|].
  cbn [fst snd] in V1, V2. intros v Hv. unfold cell_quad, regular_xy in Hv. cbn [me_x me_y] in Hv.
  destruct Hv as [<-|[<-|[<-|[<-|[]]]]]; apply W, mesh_node; lia.
Qed.
Lemma num_sub : forall (f : row obs -> fval) (A B : tbl), incl A B -> numbers (map f B) -> numbers (map f A).
Proof. intros f A B I N v Hv. apply in_map_iff in Hv. destruct Hv as (r & <- & Hr). apply N. apply in_map. auto. Qed.

(** On a grid of longitudes all west of one degree west, the image of a selection with a
    flash is never made: the coordinates of the events, scan angles of at most 0.31 radians,
    are taken for degrees. *)
Theorem C81_western_hemisphere_refuted : forall set_order, (forall l, Permutation (set_order l) l) ->
  forall weird clip tree quad xe ye chunk_size files1 files2 (F G E : tbl) q f Fs Gs Es,
  (1 < List.length xe)%nat -> (1 < List.length ye)%nat -> increasing xe -> increasing ye -> proper clip -> apart clip -> (0 < chunk_size)%nat ->
  derived_ok F G E -> F <> [] -> G <> [] -> E <> [] ->
  numbers (areas F) -> numbers (areas G) -> numbers (xs E) -> numbers (ys E) ->
  (forall q', q = Some q' -> q_check q' = true) -> selection set_order [F; G; E] q [f :: Fs; Gs; Es] ->
  (forall e x, In e E -> o_x (rdat e) = Some x -> (-(31 # 100) <= x <= 31 # 100)%Q) ->
  (forall x y v, (-(31 # 100) <= x <= 31 # 100)%Q -> In v (quad (Some x) y) -> (Qabs (fst v - x) <= 1 # 2)%Q) ->
  (forall x, In x xe -> (x <= -1)%Q) ->
  forall g, grid_files set_order weird clip tree quad xe ye chunk_size (files1 ++ [F; G; E] :: files2) q <> Ok g.
Proof.
  intros so HP weird clip tree quad xe ye cs f1 f2 F G E q f Fs Gs Es HX HY IX IY PR AP Hcs D nF nG nE NF NG NX NY HQ SEL RX QX WX g GF.
  destruct (C26_chunks_split_selection so HP cs F G E q Hcs D nF nG nE HQ) as (sel & chunks & SEL' & EC & (F2 & G2 & E2 & ES & L3 & CF & _) & _ & HC).
  assert (EQ : sel = [f :: Fs; Gs; Es]) by (unfold selection in *; destruct q; congruence). rewrite EQ in ES. injection ES as <- <- <-.
  destruct chunks as [|c chunks]; [discriminate CF|].
  assert (CC : exists p, c = [lev0 F p; lev1 G p; lev2 G E p]).
  { unfold flash_chunks in EC. apply bind_ok_inv in EC. destruct EC as (fd & _ & EC). destruct fd as [|F3 fd]; [discriminate EC|]. destruct (Nat.eqb _ 0); [discriminate EC|].
    apply map_res_inv in EC. inversion EC as [|p ? ps ? Hp]; subst. rewrite get_flashes_levels in Hp by auto. injection Hp as <-. exists p. reflexivity. }
  destruct CC as (p & EP).
  assert (I0 : incl (lev0 F p) F) by (intros r Hr; apply in_lev0 in Hr; tauto).
  assert (I1 : incl (lev1 G p) G) by (intros r Hr; apply in_lev1 in Hr; tauto).
  assert (I2 : incl (lev2 G E p) E) by (intros r Hr; apply in_lev2 in Hr; tauto).
  assert (LU : exists L, get_lutevents weird lut_scale lut_range lut_range c = Ok L).
  { pose proof GF as GF'. unfold grid_files in GF'. apply bind_ok_inv in GF'. destruct GF' as (bs & HR & _). unfold read_files in HR. apply bind_ok_inv in HR. destruct HR as (bss & HR & _). apply map_res_inv in HR.
    destruct (F2_in_l _ _ _ _ _ [F; G; E] HR) as (b & _ & EB); [apply in_or_app; right; left; reflexivity|]. cbn [nth_error] in EB. destruct E as [|e E]; [congruence|]. unfold read_flashes in EB. rewrite EC in EB. cbn [bind] in EB.
    apply map_res_inv in EB. destruct (F2_in_l _ _ _ _ _ c EB (or_introl eq_refl)) as (R & _ & ER). unfold read_chunk in ER. apply bind_ok_inv in ER. destruct ER as (W & EW & _).
    unfold chunk_weighted in EW. apply bind_ok_inv in EW. destruct EW as (L & EL & _). exists L. exact EL. }
  destruct LU as (L & EL).
  assert (EE : exists e E', nth_error [F; G; E] 2 = Some (e :: E')) by (destruct E as [|e E']; [congruence|]; exists e, E'; reflexivity).
  refine (C50_chunk_off_grid_refuted so weird clip tree quad xe ye cs f1 [F; G; E] f2 q c (c :: chunks) L HX HY IX IY PR EE EC (or_introl eq_refl) EL _ g GF).
  intros r Hr pp. apply (nothing_cut clip tree xe ye pp (-1)%Q); auto. intros v Hv.
  rewrite EP in EL.
  destruct (C24_position_is_mean weird lut_scale lut_range lut_range (lev0 F p) (lev1 G p) (lev2 G E p) L r) as (_ & _ & PX & _); auto.
  { apply (num_sub _ _ F); auto. } { apply (num_sub _ _ G); auto. } { apply (num_sub _ _ E); auto. } { apply (num_sub _ _ E); auto. }
  destruct (PX (-(31 # 100))%Q (31 # 100)%Q) as (x & EX & BX).
  { intros z Hz. unfold xs, cell_events in Hz. apply in_map_iff in Hz. destruct Hz as (e & Ez & He). apply filter_In in He. destruct He as [He _]. apply (RX e); auto. }
  unfold pp in Hv. rewrite EX in Hv. pose proof (QX x (lu_y r) v BX Hv) as K. apply Qabs_Qle_condition in K. destruct K, BX. lra.
Qed.
Print Assumptions C81_western_hemisphere_refuted.

(** * Example: a flash over Oklahoma, selected by a grid of the United States. *)
Definition lclip (p q : poly) : list poly :=
  if (Nat.eqb (List.length p) 4 && Nat.eqb (List.length q) 4)%bool then ex_clip p q else [].
Lemma lclip_ok : proper lclip /\ apart lclip.
Proof.
  split.
  - intros p q c Hc. unfold lclip in Hc. destruct (_ && _)%bool; [|destruct Hc]. destruct C30_hypotheses as [_ PR]. apply (PR p q c Hc).
  - intros p q c HP HQ. unfold lclip. destruct p as [|a [|b [|a2 [|a3 [|? ?]]]]]; try reflexivity. destruct q as [|u [|v [|u2 [|u3 [|? ?]]]]]; try reflexivity.
    unfold ex_clip. cbn [List.length Nat.eqb andb nth]. destruct a as [x0 y0], a2 as [x1 y1], u as [u0 v0], u2 as [u1 v1].
    assert (A : (c < x0)%Q) by (apply (HP (x0, y0)); left; reflexivity). assert (B : (u1 <= c)%Q) by (apply (HQ (u1, v1)); right; right; left; reflexivity).
    assert (K : Qlt_bool (qmax x0 u0) (qmin x1 u1) = false); [|rewrite K; reflexivity].
    unfold Qlt_bool. destruct (Qle_bool (qmin x1 u1) (qmax x0 u0)) eqn:E; [reflexivity|]. exfalso. apply not_true_iff_false in E. apply E. apply Qle_bool_iff.
    assert (L : forall a b, Qlt_bool a b = false -> (b <= a)%Q) by (intros ? ? L; unfold Qlt_bool in L; apply negb_false_iff, Qle_bool_iff in L; exact L).
    assert (L' : forall a b, Qlt_bool a b = true -> (a <= b)%Q) by (intros s t T; unfold Qlt_bool in T; apply negb_true_iff in T; destruct (Qlt_le_dec t s) as [X|X]; [apply Qlt_le_weak, Qle_bool_iff in X; congruence|exact X]).
    assert (M1 : (x0 <= qmax x0 u0)%Q) by (unfold qmax; destruct (Qlt_bool x0 u0) eqn:T; [apply L'; exact T|lra]).
    assert (M2 : (qmin x1 u1 <= u1)%Q) by (unfold qmin; destruct (Qlt_bool u1 x1) eqn:T; [lra|apply L; exact T]).
    lra.
Qed.
Definition lE : tbl := [mkRow 101 11 (mkObs (Some (-97)) (Some 35) (Some 3) None (Some (-(3 # 100))) (Some (9 # 100)) 1 0 0)]%Q.
Definition lG : tbl := [mkRow 11 1 (mkObs (Some (-97)) (Some 35) (Some 3) (Some 2) (Some (-(3 # 100))) (Some (9 # 100)) 0 1 0)]%Q.
Definition lF : tbl := [mkRow 1 0 (mkObs (Some (-97)) (Some 35) (Some 3) (Some 2) (Some (-(3 # 100))) (Some (9 # 100)) 0 1 1)]%Q.
Definition lxe : list Q := map inject_Z [-120; -110; -100; -90; -80].
Definition lye : list Q := map inject_Z [20; 30; 40; 50].
Definition lq : query := mkQuery (Some (-120, -80)%Q) (Some (20, 50)%Q) None None true None None.
Example C81_hypotheses : derived_ok lF lG lE /\ (exists f Fs Gs Es, selection (fun l => l) [lF; lG; lE] (Some lq) [f :: Fs; Gs; Es]) /\
  (forall e x, In e lE -> o_x (rdat e) = Some x -> (-(31 # 100) <= x <= 31 # 100)%Q) /\
  (forall x y v, (-(31 # 100) <= x <= 31 # 100)%Q -> In v (ex_quad (Some x) y) -> (Qabs (fst v - x) <= 1 # 2)%Q) /\
  (forall x, In x lxe -> (x <= -1)%Q) /\
  grid_files (fun l => l) (fun _ => 0) lclip ex_tree ex_quad lxe lye 20 [[lF; lG; lE]] (Some lq) = Err ValueError.
Proof.
  split; [split; [split|]|].
  - intros j T H. do 3 (destruct j as [|j]; [injection H as <-; cbn; repeat constructor; cbn; intuition lia|]). destruct j; discriminate.
  - intros j A B HA HB s Hs. destruct j as [|[|j]]; cbn in HA, HB.
    + injection HA as <-. injection HB as <-. destruct Hs as [<-|[]]. eexists. split; [left; reflexivity|reflexivity].
    + injection HA as <-. injection HB as <-. destruct Hs as [<-|[]]. eexists. split; [left; reflexivity|reflexivity].
    + destruct j as [|[|j]]; discriminate HB.
  - split; [|split].
    + intros e [<-|[]]. eexists. split; [left; reflexivity|split; reflexivity].
    + intros g [<-|[]]. reflexivity.
    + intros f [<-|[]]. split; reflexivity.
  - split; [do 4 eexists; vm_compute; reflexivity|]. split; [intros e x [<-|[]] E; injection E as <-; split; vm_compute; discriminate|].
    split; [|split; [|vm_compute; reflexivity]].
    + intros x y v _ Hv. unfold ex_quad in Hv. cbn [num] in Hv. destruct Hv as [<-|[<-|[<-|[<-|[]]]]]; cbn [fst]; apply Qabs_Qle_condition; lra.
    + intros x Hx. cbn in Hx. destruct Hx as [<-|[<-|[<-|[<-|[<-|[]]]]]]; vm_compute; discriminate.
Qed.
