(** C108: cells that two grids have in common; the flashes that reach a tile. *)
From Coq Require Import String List ZArith QArith Qabs Qround Bool Lia Lqa Permutation Sorting.Sorted.
From Verif Require Import Base BaseProofs Traversal TraversalSpec TraversalProofs TraversalProofs2 TraversalProofs3 TraversalProofs4 Glm GlmSpec GlmProofs GlmProofs2 GlmProofs3
  Lut LutSpec LutProofs PropGlm PropLut Accum AccumSpec AccumProofs Poly PolySpec PropPoly BBox BBoxSpec BBoxProofs Slice SliceSpec Regroup Pipeline PipelineSpec PipelineProofs PropSlice PropPipeline ChunkSpec ChunkProofs PropChunks RowOrderSpec RowOrderProofs PropRowOrder PropScaled ReachSpec ReachProofs.
Import ListNotations.
Open Scope Z_scope.
Local Notation tbl := (table obs).

Lemma tables_unique : forall so weird cs q files t t', tables_read so weird cs q files t -> tables_read so weird cs q files t' -> t = t'.
Proof.
  intros so weird cs q files t t' (x & T & ->) (xm & Tm & ->). f_equal. revert xm Tm. induction T as [|ds a files x H T IH]; intros xm Tm; inversion Tm as [|? b ? xm' Hb Tm']; subst; [reflexivity|]. f_equal; [|apply IH; auto].
  destruct H as [[Z ->]|[(e & E & Z) (c & C & L)]]; destruct Hb as [[Z' ->]|[(e' & E' & Z') (c' & C' & L')]]; try congruence. rewrite C in C'. inversion C'; subst c'. clear -L L'.
  revert b L'. induction L as [|c a cs ts H L IH]; intros b L'; inversion L' as [|? b0 ? b' Hb Lb]; subst; [reflexivity|]. f_equal; [congruence|apply IH; auto].
Qed.
Definition meetsb (clip : poly -> poly -> list poly) (quad : fval -> fval -> poly) (c : poly) (r : lutrow) : bool :=
  match clip (quad (lu_x r) (lu_y r)) c with [] => false | _ => true end.
Lemma meetsb_iff : forall clip quad c r, meetsb clip quad c r = true <-> meets clip quad c r.
Proof. intros. unfold meetsb, meets. destruct (clip _ _); split; intros; try discriminate; try congruence. Qed.
Lemma same_cell_refl : forall c, same_cell c c = true.
Proof. intros [a b]. unfold same_cell. cbn. rewrite !Nat.eqb_refl. reflexivity. Qed.
Lemma part_of : forall clip tree quad xe ye kx ky r, (1 < List.length xe)%nat -> (1 < List.length ye)%nat -> increasing xe -> increasing ye ->
  (meets clip quad (grid_cell xe ye kx ky) r -> In (ky, kx) (nearby tree (regular_xy xe ye) (quad (lu_x r) (lu_y r)))) ->
  (size_in clip (regular_xy xe ye) (quad (lu_x r) (lu_y r)) (nearby tree (regular_xy xe ye) (quad (lu_x r) (lu_y r))) (ky, kx) ==
   qsum (map size (clip (quad (lu_x r) (lu_y r)) (grid_cell xe ye kx ky))))%Q.
Proof.
  intros clip tree quad xe ye kx ky r HX HY IX IY FD. rewrite size_in_one by (apply nearby_nodup; auto). fold (grid_cell xe ye kx ky). unfold meets in FD.
  destruct (existsb (same_cell (ky, kx)) _) eqn:E; [reflexivity|]. destruct (clip _ (grid_cell xe ye kx ky)) as [|c l]; [reflexivity|]. exfalso.
  apply not_true_iff_false in E. apply E. apply existsb_exists. exists (ky, kx). split; [apply FD; discriminate|apply same_cell_refl].
Qed.
Lemma over_filter : forall (f w : lutrow -> Q) (b : lutrow -> bool) t, (forall r, In r (List.concat t) -> b r = false -> w r == 0)%Q ->
  (over (fun r => f r * w r) t == qsum (map (fun r => f r * w r) (filter b (List.concat t))))%Q.
Proof.
  intros f w b t H. unfold over. induction (List.concat t) as [|r l IH]; [reflexivity|]. cbn [map filter]. change (qsum (?x :: ?m)) with (x + qsum m)%Q. rewrite IH by (intros; apply H; cbn; auto).
  destruct (b r) eqn:B; [cbn [map]; reflexivity|]. rewrite (H r (or_introl eq_refl) B). ring.
Qed.
Lemma qsum_same : forall (f w f' w' : lutrow -> Q) l l', Forall2 same_pixel l l' ->
  (forall r r', In r l -> In r' l' -> same_pixel r r' -> f r * w r == f' r' * w' r')%Q -> (qsum (map (fun r => f r * w r) l) == qsum (map (fun r => f' r * w' r) l'))%Q.
Proof.
  intros f w f' w' l l' H. induction H as [|r r' l l' S H IH]; intros K; [reflexivity|]. cbn [map].
  change (qsum ((f r * w r)%Q :: ?m)) with (f r * w r + qsum m)%Q. change (qsum ((f' r' * w' r')%Q :: ?m)) with (f' r' * w' r' + qsum m)%Q. rewrite IH by (intros; apply K; cbn; auto). rewrite (K r r') by (cbn; auto). reflexivity.
Qed.

(** A cell that two grids have in common gets the same values in both, if the two runs take
    the same of the flashes that have an event in a pixel meeting the cell.  The grids may
    have other edges elsewhere, and the selections may differ elsewhere. *)
Theorem C108_common_cell : forall set_order, (forall l, Permutation (set_order l) l) ->
  forall weird clip tree quad xe ye xe' ye' chunk_size files q q' g g',
  (1 < List.length xe)%nat -> (1 < List.length ye)%nat -> increasing xe -> increasing ye ->
  (1 < List.length xe')%nat -> (1 < List.length ye')%nat -> increasing xe' -> increasing ye' ->
  proper clip -> by_corners clip -> by_position quad -> (0 < chunk_size)%nat ->
  (forall p, q = Some p -> q_check p = true) -> (forall p, q' = Some p -> q_check p = true) ->
  Forall usable files -> Forall (one_chunk set_order q chunk_size) files -> Forall (one_chunk set_order q' chunk_size) files ->
  grid_files set_order weird clip tree quad xe ye chunk_size files q = Ok g ->
  grid_files set_order weird clip tree quad xe' ye' chunk_size files q' = Ok g' ->
  exists t t', tables_read set_order weird chunk_size q files t /\ tables_read set_order weird chunk_size q' files t' /\
  forall kx ky kx' ky', is_cell xe ye kx ky -> is_cell xe' ye' kx' ky' -> same_corners (grid_cell xe ye kx ky) (grid_cell xe' ye' kx' ky') ->
    found clip tree quad xe ye kx ky t -> found clip tree quad xe' ye' kx' ky' t' ->
    agree weird clip quad (grid_cell xe ye kx ky) q q' files (t ++ t') ->
    ((forall r, In r (List.concat (t ++ t')) -> ~ (size (quad (lu_x r) (lu_y r)) == 0)%Q) ->
     forall h, In h [gr_energy; gr_fcount; gr_gcount; gr_farea; gr_garea] ->
     feq (g_at (h g) (Z.of_nat kx) (Z.of_nat ky)) (g_at (h g') (Z.of_nat kx') (Z.of_nat ky'))) /\
    ((forall r, In r (List.concat (t ++ t')) -> positive (lu_minarea r)) ->
     feq (g_at (gr_minarea g) (Z.of_nat kx) (Z.of_nat ky)) (g_at (gr_minarea g') (Z.of_nat kx') (Z.of_nat ky'))).
Proof.
  intros so HP weird clip tree quad xe ye xe' ye' cs files q q' g g' HX HY IX IY HX' HY' IX' IY' PR BC BP Hcs HQ HQ' US OC OC' H H'.
  destruct (C36_cells so weird clip tree quad xe ye cs files q g HX HY IX IY PR H) as (t & TR & V).
  destruct (C36_cells so weird clip tree quad xe' ye' cs files q' g' HX' HY' IX' IY' PR H') as (t' & TR' & V').
  destruct (C36_minimum so weird clip tree quad xe ye cs files q g HX HY IX IY PR H) as (tm & TRm & M).
  destruct (C36_minimum so weird clip tree quad xe' ye' cs files q' g' HX' HY' IX' IY' PR H') as (tm' & TRm' & M').
  rewrite (tables_unique _ _ _ _ _ _ _ TRm TR) in M. rewrite (tables_unique _ _ _ _ _ _ _ TRm' TR') in M'. clear TRm TRm' tm tm'.
  exists t, t'. split; [exact TR|]. split; [exact TR'|]. intros kx ky kx' ky' [Kx Ky] [Kx' Ky'] SC FD FD' AG.
  set (c := grid_cell xe ye kx ky) in *. set (c' := grid_cell xe' ye' kx' ky') in *.
  assert (BM : forall r r', same_pixel r r' -> meetsb clip quad c r = meetsb clip quad c' r').
  { intros r r' (_ & x & y & _). unfold meetsb. rewrite (BP _ _ _ _ x y). destruct (BC (quad (lu_x r') (lu_y r')) c c' SC); reflexivity. }
  assert (BM' : forall r, meetsb clip quad c r = meetsb clip quad c' r).
  { intros r. unfold meetsb. destruct (BC (quad (lu_x r) (lu_y r)) c c' SC); reflexivity. }
  assert (PIX : Forall2 same_pixel (filter (meetsb clip quad c) (List.concat t)) (filter (meetsb clip quad c') (List.concat t'))).
  { apply (files_meeting so HP weird cs Hcs files q q' t t'); auto. intros r Hr F G E f e Hd Hf He Ce. apply (AG r F G E f e); auto.
    - rewrite concat_app. apply in_or_app. tauto.
    - apply meetsb_iff. destruct Hr as [[_ h]|[_ h]]; [exact h|rewrite BM'; exact h]. }
  assert (PART : forall r r', In r (List.concat t) -> In r' (List.concat t') -> same_pixel r r' ->
    (size_in clip (regular_xy xe ye) (quad (lu_x r) (lu_y r)) (nearby tree (regular_xy xe ye) (quad (lu_x r) (lu_y r))) (ky, kx) ==
     size_in clip (regular_xy xe' ye') (quad (lu_x r') (lu_y r')) (nearby tree (regular_xy xe' ye') (quad (lu_x r') (lu_y r'))) (ky', kx'))%Q).
  { intros r r' Hr Hr' (_ & x & y & _). rewrite (part_of clip tree quad xe ye kx ky r HX HY IX IY (FD r Hr)), (part_of clip tree quad xe' ye' kx' ky' r' HX' HY' IX' IY' (FD' r' Hr')).
    rewrite (BP _ _ _ _ x y). apply size_pieces. apply BC. exact SC. }
  assert (ZERO : forall r, In r (List.concat t) -> meetsb clip quad c r = false -> (size_in clip (regular_xy xe ye) (quad (lu_x r) (lu_y r)) (nearby tree (regular_xy xe ye) (quad (lu_x r) (lu_y r))) (ky, kx) == 0)%Q).
  { intros r Hr B. rewrite (part_of clip tree quad xe ye kx ky r HX HY IX IY (FD r Hr)). unfold meetsb in B. fold c. destruct (clip _ c); [reflexivity|discriminate B]. }
  assert (ZERO' : forall r, In r (List.concat t') -> meetsb clip quad c' r = false -> (size_in clip (regular_xy xe' ye') (quad (lu_x r) (lu_y r)) (nearby tree (regular_xy xe' ye') (quad (lu_x r) (lu_y r))) (ky', kx') == 0)%Q).
  { intros r Hr B. rewrite (part_of clip tree quad xe' ye' kx' ky' r HX' HY' IX' IY' (FD' r Hr)). unfold meetsb in B. fold c'. destruct (clip _ c'); [reflexivity|discriminate B]. }
  destruct (observed_tables so HP weird cs files q t Hcs HQ US TR) as (es & _ & _ & NN).
  destruct (observed_tables so HP weird cs files q' t' Hcs HQ' US TR') as (es' & _ & _ & NN').
  split.
  - intros NZ h Hh.
    destruct V as (_ & W). { intros r Hr. destruct (NN r Hr) as (n1 & n2 & _). split; [apply NZ; rewrite concat_app; apply in_or_app; auto|auto]. }
    destruct V' as (_ & W'). { intros r Hr. destruct (NN' r Hr) as (n1 & n2 & _). split; [apply NZ; rewrite concat_app; apply in_or_app; auto|auto]. }
    specialize (W kx ky Kx Ky). specialize (W' kx' ky' Kx' Ky'). cbv zeta in W, W'.
    destruct W as (a1 & a2 & a3 & a4 & a5). destruct W' as (b1 & b2 & b3 & b4 & b5).
    assert (CS : (cell_size xe ye kx ky == cell_size xe' ye' kx' ky')%Q).
    { clear -SC Kx Ky Kx' Ky'. subst c c'. unfold grid_cell, cell_quad, regular_xy in SC. cbn [me_x me_y] in SC. rewrite !meshgrid_node in SC by lia. unfold cell_size, edge.
      inversion SC as [|? ? ? ? [p1 p2] S1]; subst. inversion S1 as [|? ? ? ? [p3 p4] S2]; subst. inversion S2 as [|? ? ? ? [p5 p6] S3]; subst. cbn [fst snd] in *. rewrite p1, p2, p3, p6. reflexivity. }
    assert (INF : forall (p : lutrow -> bool) l r, In r (filter p l) -> In r l) by (intros p l r K; apply filter_In in K; tauto).
    assert (GO : forall u v f w w', (forall r r', same_pixel r r' -> f r == f r')%Q ->
      (forall r r', In r (List.concat t) -> In r' (List.concat t') -> same_pixel r r' -> w r == w' r')%Q ->
      (forall r, In r (List.concat t) -> meetsb clip quad c r = false -> w r == 0)%Q -> (forall r, In r (List.concat t') -> meetsb clip quad c' r = false -> w' r == 0)%Q ->
      sums_to u f w t -> sums_to v f w' t' -> feq u v).
    { intros u v f w w' HF HW Z1 Z2 A1 A2. apply (is_num_feq _ _ _ _ A1 A2). rewrite (over_filter f w (meetsb clip quad c) t Z1), (over_filter f w' (meetsb clip quad c') t' Z2).
      apply qsum_same; [exact PIX|]. intros r r' Hr Hr' S. apply INF in Hr, Hr'. rewrite (HF r r' S), (HW r r' Hr Hr' S). reflexivity. }
    assert (DZ : forall a b : Q, (a == 0 -> a / b == 0)%Q) by (intros a b K; rewrite K; unfold Qdiv; ring).
    assert (SZ : forall r r', same_pixel r r' -> size (quad (lu_x r) (lu_y r)) = size (quad (lu_x r') (lu_y r'))) by (intros r r' (_ & x & y & _); rewrite (BP _ _ _ _ x y); reflexivity).
    destruct Hh as [<-|[<-|[<-|[<-|[<-|[]]]]]];
    [apply (GO _ _ (fun r => num (lu_energy r)) _ _) with (5 := a1) (6 := b1)
    |apply (GO _ _ (fun r => qnat (lu_fcount r)) _ _) with (5 := a2) (6 := b2)
    |apply (GO _ _ (fun r => qnat (lu_gcount r)) _ _) with (5 := a3) (6 := b3)
    |apply (GO _ _ (fun r => num (lu_farea r)) _ _) with (5 := a4) (6 := b4)
    |apply (GO _ _ (fun r => num (lu_garea r)) _ _) with (5 := a5) (6 := b5)];
    try (intros r Hr B; apply DZ; first [apply ZERO; assumption|apply ZERO'; assumption]);
    try (intros r r' Hr Hr' S; cbv beta; rewrite (PART r r' Hr Hr' S), ?(SZ r r' S), ?CS; reflexivity);
    intros r r' (_ & _ & _ & e & _ & fc & gc & fa & ga & _); cbv beta; first [apply feq_num; assumption|rewrite ?fc, ?gc; reflexivity].
  - intros POS. assert (POS1 : forall r, In r (List.concat t) -> positive (lu_minarea r)) by (intros; apply POS; rewrite concat_app; apply in_or_app; auto).
    assert (POS2 : forall r, In r (List.concat t') -> positive (lu_minarea r)) by (intros; apply POS; rewrite concat_app; apply in_or_app; auto).
    specialize (M POS1 kx ky Kx Ky). specialize (M' POS2 kx' ky' Kx' Ky'). cbv zeta in M, M'.
    assert (HERE : forall m p a, (exists x, In (x, a) (cut clip m p (nearby tree m p))) <-> In a (nearby tree m p) /\ clip p (cell_quad m a) <> []).
    { intros m p a. unfold cut. split.
      - intros (x & K). apply in_flat_map in K. destruct K as (a' & Ha & K). apply in_map_iff in K. destruct K as (y & E & Hy). inversion E; subst. split; [exact Ha|]. intros Z. rewrite Z in Hy. destruct Hy.
      - intros [Ha Z]. destruct (clip p (cell_quad m a)) as [|x l] eqn:E; [congruence|]. exists x. apply in_flat_map. exists a. split; [exact Ha|]. rewrite E. left. reflexivity. }
    assert (H1 : forall r, In r (List.concat t) -> (exists x, In (x, (ky, kx)) (cut clip (regular_xy xe ye) (quad (lu_x r) (lu_y r)) (nearby tree (regular_xy xe ye) (quad (lu_x r) (lu_y r))))) <-> In r (filter (meetsb clip quad c) (List.concat t))).
    { intros r Hr. rewrite HERE, filter_In, meetsb_iff. unfold meets. fold (grid_cell xe ye kx ky). fold c. split; [tauto|]. intros [_ K]. split; [|exact K]. apply FD; auto. }
    assert (H2 : forall r, In r (List.concat t') -> (exists x, In (x, (ky', kx')) (cut clip (regular_xy xe' ye') (quad (lu_x r) (lu_y r)) (nearby tree (regular_xy xe' ye') (quad (lu_x r) (lu_y r))))) <-> In r (filter (meetsb clip quad c') (List.concat t'))).
    { intros r Hr. rewrite HERE, filter_In, meetsb_iff. unfold meets. fold (grid_cell xe' ye' kx' ky'). fold c'. split; [tauto|]. intros [_ K]. split; [|exact K]. apply FD'; auto. }
    assert (INF : forall (p : lutrow -> bool) l r, In r (filter p l) -> In r l) by (intros p l r K; apply filter_In in K; tauto).
    destruct M as [[-> NO]|(r & Hr & HH & EV & LE)]; destruct M' as [[-> NO']|(r' & Hr' & HH' & EV' & LE')].
    + apply feq_refl.
    + exfalso. apply (H2 r' Hr') in HH'. destruct (F2_in_r _ _ _ _ _ _ PIX HH') as (r & K & _). apply (NO r (INF _ _ _ K)). apply H1; [exact (INF _ _ _ K)|exact K].
    + exfalso. apply (H1 r Hr) in HH. destruct (F2_in_l _ _ _ _ _ _ PIX HH) as (r' & K & _). apply (NO' r' (INF _ _ _ K)). apply H2; [exact (INF _ _ _ K)|exact K].
    + destruct (POS1 r Hr) as (a & Ea & _). destruct (POS2 r' Hr') as (b & Eb & _). rewrite <- EV, <- EV', Ea, Eb. cbn. rewrite <- EV, Ea in LE. rewrite <- EV', Eb in LE'.
      apply (H1 r Hr) in HH. apply (H2 r' Hr') in HH'. apply Qle_antisym.
      * destruct (F2_in_r _ _ _ _ _ _ PIX HH') as (r2 & K & (_ & _ & _ & _ & _ & _ & _ & _ & _ & mn)). rewrite Eb in mn. destruct (lu_minarea r2) as [d|] eqn:Ed; cbn in mn; [|destruct mn].
        rewrite <- mn. apply (LE r2 d a (INF _ _ _ K)); auto. apply H1; [exact (INF _ _ _ K)|exact K].
      * destruct (F2_in_l _ _ _ _ _ _ PIX HH) as (r2 & K & (_ & _ & _ & _ & _ & _ & _ & _ & _ & mn)). rewrite Ea in mn. destruct (lu_minarea r2) as [d|] eqn:Ed; cbn in mn; [|destruct mn].
        rewrite mn. apply (LE' r2 d b (INF _ _ _ K)); auto. apply H2; [exact (INF _ _ _ K)|exact K].
Qed.
Print Assumptions C108_common_cell.

(** * The flashes of a tile *)
From Verif Require Import FileName Imagery Aggregate Output Tiles TilesProofs Gridder Calls CallsSpec CallsProofs Reach ReachProofs2.
From Verif Require CallsProofs3.
Open Scope Z_scope.

(** What a call of grid_GLM_flashes selects for the grids it makes.  On longitude and
    latitude: the bounds of the grid.  On the fixed grid: for each tile the same bounds as
    those of its grid, padding included, and no others.  Elsewhere: only the minima, and
    with no minima everything. *)
Theorem C108_selection : forall kw a r b events groups, keywords kw -> keywords b -> asked kw a r b ->
  minimum kw "min_points_per_flash" events -> minimum kw "min_groups_per_flash" groups ->
  (lonlat_grid kw -> forall xb yb, In ("x_bnd"%string, KRange xb) kw -> In ("y_bnd"%string, KRange yb) kw ->
     process_flashes_query b = Ok (Some (mkQuery (Some xb) (Some yb) None None true events groups))) /\
  (fixed_grid kw -> exists xb yb, In ("x_bnd"%string, KRange xb) a /\ In ("y_bnd"%string, KRange yb) a /\
     process_flashes_query b = Ok (Some (mkQuery None None (Some xb) (Some yb) true events groups))) /\
  (~ lonlat_grid kw -> ~ fixed_grid kw ->
     (events = None /\ groups = None /\ process_flashes_query b = Ok None) \/
     ((events <> None \/ groups <> None) /\ process_flashes_query b = Ok (Some (mkQuery None None None None true events groups)))).
Proof.
  intros kw a r b events groups KW KB A ME MG. unfold process_flashes_query. rewrite (asked_names kw a r b A).
  rewrite (count_minimum kw b "min_points_per_flash" events KB (fun v => asked_options kw a r b A "min_points_per_flash" v ltac:(cbn; tauto)) ME), (count_minimum kw b "min_groups_per_flash" groups KB (fun v => asked_options kw a r b A "min_groups_per_flash" v ltac:(cbn; tauto)) MG).
  assert (UN : forall k v v', In (k, v) kw -> In (k, v') kw -> v = v') by (intros k v v' I J; apply (kget_given kw k v KW) in I; apply (kget_given kw k v' KW) in J; congruence).
  split; [|split].
  - intros L xb yb IX IY. destruct (asked_lonlat kw a r b A L) as (O1 & O2 & vx & vy & X1 & Y1 & _ & _ & X2 & Y2).
    rewrite (UN _ _ _ X1 IX) in X2. rewrite (UN _ _ _ Y1 IY) in Y2. apply kget_none in O1, O2. rewrite O1, O2, (kget_of b _ _ KB X2), (kget_of b _ _ KB Y2). reflexivity.
  - intros FX. destruct (asked_fixed kw a r b A FX) as (N1 & N2 & xb & yb & vx & vy & dx & dy & s & ts & t & _ & _ & _ & _ & _ & _ & _ & _ & _ & AX & AY & BX & BY).
    exists (t_xbnd t), (t_ybnd t). split; [exact AX|]. split; [exact AY|]. rewrite (kget_of b _ _ KB N1), (kget_of b _ _ KB N2), (kget_of b _ _ KB BX), (kget_of b _ _ KB BY). reflexivity.
  - intros NL NF. destruct (asked_plain kw a r b A NL NF) as (O1 & O2 & N1 & N2 & _). apply kget_none in O1, O2. rewrite O1, O2, (kget_of b _ _ KB N1), (kget_of b _ _ KB N2). cbn [range_of bind select_by].
    destruct events as [m|]; [right; split; [left; discriminate|reflexivity]|]. destruct groups as [m|]; [right; split; [right; discriminate|reflexivity]|]. left. auto.
Qed.
Print Assumptions C108_selection.

(** The minima that the gridder notes are those the selection went by: with them given
    explicitly the same flashes are taken.  (Without any selection, flashes outside the field
    of view are kept as well, so the hypothesis is needed.) *)
Theorem C108_noted_minima : forall proc points groups rd q, process_flashes proc = Ok (points, groups, rd) -> rd_query rd = Some q ->
  forall G E f, takes (Some q) G E f <-> takes (Some (mkQuery (q_lon q) (q_lat q) (q_x q) (q_y q) (q_check q) (Some points) (Some groups))) G E f.
Proof.
  intros proc points groups rd q H RQ G E f. unfold process_flashes in H. destruct (process_flashes_query proc) as [q0|] eqn:EQ; cbn [bind] in H; [|discriminate].
  unfold process_flashes_query in EQ. destruct (forallb _ proc); [|discriminate].
  destruct (range_of (kget "lon_bnd" proc)) as [lon|]; cbn [bind] in EQ; [|discriminate]. destruct (range_of (kget "lat_bnd" proc)) as [lat|]; cbn [bind] in EQ; [|discriminate].
  destruct (range_of (kget "x_bnd" proc)) as [x|]; cbn [bind] in EQ; [|discriminate]. destruct (range_of (kget "y_bnd" proc)) as [y|]; cbn [bind] in EQ; [|discriminate].
  unfold noted_minimum in H. destruct (count_of (kget "min_points_per_flash" proc)) as [ev|]; cbn [bind] in EQ, H; [|discriminate]. destruct (count_of (kget "min_groups_per_flash" proc)) as [gr|]; cbn [bind] in EQ, H; [|discriminate].
  injection H as <- <- <-. cbn [rd_query] in RQ. subst q0. assert (Q : q = mkQuery lon lat x y true ev gr). { unfold select_by in EQ. destruct lon, lat, x, y, ev, gr; inversion EQ; reflexivity. }
  subst q. clear EQ. unfold takes, wanted. cbn [q_x q_y q_lon q_lat q_min_events q_min_groups q_check].
  assert (POS : forall e, In e (flash_events G E (rid f)) -> 1 <= Z.of_nat (List.length (flash_events G E (rid f))) /\ 1 <= Z.of_nat (List.length (with_parent G (rid f)))).
  { intros e He. split; [destruct (flash_events G E (rid f)); [destruct He|cbn [List.length]; lia]|]. unfold flash_events in He. apply filter_In in He. destruct He as [_ He]. apply existsb_exists in He.
    destruct He as (g & Ig & K). apply andb_true_iff in K. destruct K as [_ K]. assert (I : In g (with_parent G (rid f))) by (apply filter_In; auto). destruct (with_parent G (rid f)); [destruct I|cbn [List.length]; lia]. }
  split; intros (A & B & C & D & ME & MG & e & He & R); destruct (POS e He) as [P1 P2]; (split; [exact A|]); (split; [exact B|]); (split; [exact C|]); (split; [exact D|]).
  - split; [intros m M; injection M as <-; destruct ev as [m|]; [apply ME; reflexivity|exact P1]|]. split; [intros m M; injection M as <-; destruct gr as [m|]; [apply MG; reflexivity|exact P2]|]. exists e. auto.
  - split; [intros m M; cbn in M; subst ev; apply ME; reflexivity|]. split; [intros m M; cbn in M; subst gr; apply MG; reflexivity|]. exists e. auto.
Qed.
Print Assumptions C108_noted_minima.
(** The value of corner_pickle has no influence on what is read. *)
Theorem C108_corner_pickle : forall kw kw', differ_in "corner_pickle" kw kw' ->
  process_flashes kw = process_flashes kw' /\ forall p g rd, process_flashes kw = Ok (p, g, rd) -> rd_corners rd = KNone.
Proof.
  intros kw kw' H. split.
  - assert (N : forallb (fun a => existsb (String.eqb (fst a)) process_names) kw = forallb (fun a => existsb (String.eqb (fst a)) process_names) kw').
    { clear - H. induction H as [|a b l l' [E _] H IH]; [reflexivity|]. cbn [forallb]. rewrite E, IH. reflexivity. }
    unfold process_flashes, process_flashes_query. rewrite N.
    rewrite (CallsProofs3.differ_get _ _ _ "lon_bnd" H), (CallsProofs3.differ_get _ _ _ "lat_bnd" H), (CallsProofs3.differ_get _ _ _ "x_bnd" H), (CallsProofs3.differ_get _ _ _ "y_bnd" H), (CallsProofs3.differ_get _ _ _ "min_points_per_flash" H),
      (CallsProofs3.differ_get _ _ _ "min_groups_per_flash" H), (CallsProofs3.differ_get _ _ _ "clip_events" H), (CallsProofs3.differ_get _ _ _ "fixed_grid" H), (CallsProofs3.differ_get _ _ _ "nadir_lon" H) by discriminate. reflexivity.
  - intros p g rd K. unfold process_flashes in K. destruct (process_flashes_query kw); cbn [bind] in K; [|discriminate]. destruct (noted_minimum _); cbn [bind] in K; [|discriminate]. destruct (noted_minimum _); cbn [bind] in K; [|discriminate].
    injection K as <- <- <-. reflexivity.
Qed.
Print Assumptions C108_corner_pickle.

(** The selection of a tile (by C108_selection). *)
Definition tile_query (t : tile) (events groups : option Z) : query := mkQuery None None (Some (t_xbnd t)) (Some (t_ybnd t)) true events groups.
(** Inside the bounds of a tile, padding included. *)
Definition inside (t : tile) (o : obs) : Prop := strictly (t_xbnd t) (o_x o) /\ strictly (t_ybnd t) (o_y o).
(** Every flash with an event in a pixel that meets the cell has its centroid inside the
    bounds of the tile, and that event is inside too and in the field of view. *)
Definition stays_near weird clip quad (c : poly) (t : tile) (files : list (list tbl)) (tables : list (list lutrow)) : Prop :=
  forall r F G E f e, In r (List.concat tables) -> meets clip quad c r -> In [F; G; E] files -> In f F ->
    In e (flash_events G E (rid f)) -> pixel_of weird e = lu_id r ->
    inside t (rdat f) /\ inside t (rdat e) /\ strictly (-(1349 # 10000), 1349 # 10000)%Q (o_x (rdat e)) /\ strictly (-(1349 # 10000), 1349 # 10000)%Q (o_y (rdat e)).

(** The value of a cell of a tile is that of the same cell of the undivided grid, for cells
    whose flashes stay near the tile: interior cells as well as those of the padding. *)
Theorem C108_tiles_partial : forall set_order, (forall l, Permutation (set_order l) l) ->
  forall weird clip tree quad x_bnd y_bnd dx dy s nx ny tiles whole t w chunk_size files events groups g g',
  (0 < dx)%Q -> (0 < dy)%Q -> (1 <= s)%nat -> (s <= nx)%nat -> (s <= ny)%nat ->
  (snd x_bnd - fst x_bnd == inject_Z (Z.of_nat nx) * dx)%Q -> (snd y_bnd - fst y_bnd == inject_Z (Z.of_nat ny) * dy)%Q ->
  subdivided_fixed_grid x_bnd y_bnd dx dy s = Ok tiles -> In t tiles -> subdivided_fixed_grid x_bnd y_bnd dx dy 1 = Ok whole -> In w whole ->
  proper clip -> by_corners clip -> by_position quad -> (0 < chunk_size)%nat ->
  let q := Some (tile_query t events groups) in let q' := Some (tile_query w events groups) in
  Forall usable files -> Forall (one_chunk set_order q chunk_size) files -> Forall (one_chunk set_order q' chunk_size) files ->
  let xe := grid_edges (t_xbnd t) dx in let ye := grid_edges (t_ybnd t) dy in
  let xe' := grid_edges (t_xbnd w) dx in let ye' := grid_edges (t_ybnd w) dy in
  grid_files set_order weird clip tree quad xe ye chunk_size files q = Ok g ->
  grid_files set_order weird clip tree quad xe' ye' chunk_size files q' = Ok g' ->
  exists tables tables', tables_read set_order weird chunk_size q files tables /\ tables_read set_order weird chunk_size q' files tables' /\
  forall kx ky, is_cell xe ye kx ky ->
    let kx' := (t_i t * (nx / s) + kx)%nat in let ky' := (t_j t * (ny / s) + ky)%nat in
    is_cell xe' ye' kx' ky' /\ same_corners (grid_cell xe ye kx ky) (grid_cell xe' ye' kx' ky') /\
    (found clip tree quad xe ye kx ky tables -> found clip tree quad xe' ye' kx' ky' tables' ->
     stays_near weird clip quad (grid_cell xe ye kx ky) t files (tables ++ tables') ->
     ((forall r, In r (List.concat (tables ++ tables')) -> ~ (SliceSpec.size (quad (lu_x r) (lu_y r)) == 0)%Q) ->
      forall h, In h [gr_energy; gr_fcount; gr_gcount; gr_farea; gr_garea] ->
      feq (g_at (h g) (Z.of_nat kx) (Z.of_nat ky)) (g_at (h g') (Z.of_nat kx') (Z.of_nat ky'))) /\
     ((forall r, In r (List.concat (tables ++ tables')) -> positive (lu_minarea r)) ->
      feq (g_at (gr_minarea g) (Z.of_nat kx) (Z.of_nat ky)) (g_at (gr_minarea g') (Z.of_nat kx') (Z.of_nat ky')))).
Proof.
  intros so HP weird clip tree quad x_bnd y_bnd dx dy s nx ny tiles whole t w cs files events groups g g' DX DY S1 SX SY WX WY HT It HW Iw PR BC BP Hcs q q' US OC OC' xe ye xe' ye' H H'.
  assert (LE : forall b d n, (0 < d)%Q -> (snd b - fst b == inject_Z (Z.of_nat n) * d)%Q -> (fst b <= snd b)%Q).
  { intros b d n D E. assert (0 <= inject_Z (Z.of_nat n) * d)%Q; [|lra]. apply Qmult_le_0_compat; [|lra]. change 0%Q with (inject_Z 0). rewrite <- Zle_Qle. lia. }
  destruct (tiles_eq x_bnd y_bnd dx dy s DX DY (LE _ _ _ DX WX) (LE _ _ _ DY WY) S1) as (PX & PY & E). rewrite E in HT. injection HT as <-. clear E.
  destruct (tiles_eq x_bnd y_bnd dx dy 1 DX DY (LE _ _ _ DX WX) (LE _ _ _ DY WY) (le_n 1)) as (_ & _ & E). rewrite E in HW. injection HW as <-. clear E.
  apply in_map_iff in It. destruct It as ((i & j) & <- & Hin). apply in_prod_iff in Hin. rewrite !in_seq in Hin. destruct Hin as [Hi Hj].
  cbn [seq list_prod map app] in Iw. destruct Iw as [<-|[]]. cbn [fst snd t_i t_j t_xbnd t_ybnd] in *.
  assert (Hi' : (i < s)%nat) by lia. assert (Hj' : (j < s)%nat) by lia. clear Hi Hj.
  assert (INC : forall e, (forall k l, (k < l < List.length e)%nat -> (nth k e 0 < nth l e 0)%Q) -> increasing e) by (intros e K; exact K).
  destruct (C108_common_cell so HP weird clip tree quad xe ye xe' ye' cs files q q' g g') as (tb & tb' & TR & TR' & V); auto.
  { exact (axis_long x_bnd dx s nx _ DX S1 WX PX SX i Hi'). }
  { exact (axis_long y_bnd dy s ny _ DY S1 WY PY SY j Hj'). }
  { apply INC. exact (axis_increasing x_bnd dx s nx _ DX S1 WX PX SX i Hi'). }
  { apply INC. exact (axis_increasing y_bnd dy s ny _ DY S1 WY PY SY j Hj'). }
  { exact (axis_long x_bnd dx 1 nx _ DX (le_n 1) WX PX ltac:(lia) 0%nat (le_n 1)). }
  { exact (axis_long y_bnd dy 1 ny _ DY (le_n 1) WY PY ltac:(lia) 0%nat (le_n 1)). }
  { apply INC. exact (axis_increasing x_bnd dx 1 nx _ DX (le_n 1) WX PX ltac:(lia) 0%nat (le_n 1)). }
  { apply INC. exact (axis_increasing y_bnd dy 1 ny _ DY (le_n 1) WY PY ltac:(lia) 0%nat (le_n 1)). }
  { intros p K. injection K as <-. reflexivity. }
  { intros p K. injection K as <-. reflexivity. }
  exists tb, tb'. split; [exact TR|]. split; [exact TR'|]. intros kx ky [Kx Ky]. set (kx' := (i * (nx / s) + kx)%nat). set (ky' := (j * (ny / s) + ky)%nat).
  pose proof (axis_common x_bnd dx s nx _ i kx DX S1 WX PX SX Hi' ltac:(fold xe; lia)) as [_ X0]. pose proof (axis_common x_bnd dx s nx _ i (S kx) DX S1 WX PX SX Hi' Kx) as [LX X1].
  pose proof (axis_common y_bnd dy s ny _ j ky DY S1 WY PY SY Hj' ltac:(fold ye; lia)) as [_ Y0]. pose proof (axis_common y_bnd dy s ny _ j (S ky) DY S1 WY PY SY Hj' Ky) as [LY Y1].
  fold xe xe' ye ye' in X0, X1, Y0, Y1, LX, LY. rewrite Nat.add_succ_r in X1, Y1, LX, LY. fold kx' in X0, X1, LX. fold ky' in Y0, Y1, LY.
  assert (IC : is_cell xe' ye' kx' ky') by (split; assumption). split; [exact IC|].
  assert (SC : same_corners (grid_cell xe ye kx ky) (grid_cell xe' ye' kx' ky')).
  { unfold same_corners, grid_cell, cell_quad, regular_xy. cbn [me_x me_y]. rewrite !meshgrid_node by lia. repeat constructor; cbn [fst snd]; assumption. }
  split; [exact SC|]. intros FD FD' NEAR. apply (V kx ky kx' ky'); auto; [split; assumption|].
  intros r F G EE f e Hr Hm Hd Hf He Ce. destruct (NEAR r F G EE f e Hr Hm Hd Hf He Ce) as (NF & NE & VX & VY).
  assert (GROW : forall o, inside (mkTile i j (padded (edge_list x_bnd dx s) i (inject_Z (qint (default_pad / dx)) * dx)) (padded (edge_list y_bnd dy s) j (inject_Z (qint (default_pad / dy)) * dy)) (qint (default_pad / dx)) (qint (default_pad / dy))) o ->
    strictly (padded (edge_list x_bnd dx 1) 0 (inject_Z (qint (default_pad / dx)) * dx)) (o_x o) /\ strictly (padded (edge_list y_bnd dy 1) 0 (inject_Z (qint (default_pad / dy)) * dy)) (o_y o)).
  { intros o [(x & Ex & x1 & x2) (y & Ey & y1 & y2)]. cbn [t_xbnd t_ybnd] in *. split; [exists x|exists y]; (split; [assumption|]).
    - exact (padded_inside x_bnd dx s nx _ i x DX S1 WX Hi' x1 x2).
    - exact (padded_inside y_bnd dy s ny _ j y DY S1 WY Hj' y1 y2). }
  unfold q, q', tile_query, takes, wanted. cbn [q_x q_y q_lon q_lat q_min_events q_min_groups t_xbnd t_ybnd].
  split; intros (_ & _ & _ & _ & ME & MG & _); destruct (GROW _ NF) as [GX GY]; destruct (GROW _ NE) as [HX HY]; destruct NF as [NFx NFy]; destruct NE as [NEx NEy]; cbn [t_xbnd t_ybnd] in *;
    (split; [intros z Z; injection Z as <-; assumption|]); (split; [intros z Z; injection Z as <-; assumption|]); (split; [discriminate|]); (split; [discriminate|]); (split; [exact ME|]); (split; [exact MG|]);
    exists e; (split; [exact He|]); cbv zeta; (split; [exact VX|]); (split; [exact VY|]); (split; intros z Z; injection Z as <-; assumption).
Qed.
Print Assumptions C108_tiles_partial.

(** * A flash longer than the padding *)
(** Four by two cells of 28e-4 rad in four tiles with a margin of one cell.  Flash 1 has an
    event in the first tile, but its light comes mostly from far outside; flash 2 is in the
    first tile. *)
Definition far_file : list tbl :=
  [[mkRow 1 0 (dob (Some (91 # 10000)) (Some (14 # 10000)) None (q1 10) 0 1 2); mkRow 2 0 (dob (Some (42 # 10000)) (Some (14 # 10000)) None (q1 4) 0 1 1)];
   [mkRow 5 1 (dob None None None (q1 3) 0 2 0); mkRow 6 2 (dob None None None (q1 2) 0 1 0)];
   [mkRow 100 5 (dob (Some (14 # 10000)) (Some (14 # 10000)) (q1 1) None 1 0 0); mkRow 101 5 (dob (Some (98 # 10000)) (Some (14 # 10000)) (q1 9) None 1 0 0);
    mkRow 102 6 (dob (Some (42 # 10000)) (Some (14 # 10000)) (q1 6) None 2 0 0)]]%Q.
Definition small_quad (x y : fval) : poly :=
  let x := Qred (num x) in let y := Qred (num y) in let h := (5 # 10000)%Q in
  [(x - h, y - h); (x + h, y - h); (x + h, y + h); (x - h, y + h)]%Q.
Definition ex_d : Q := (28 # 10000)%Q.
Definition ex_xb : Q * Q := (0, 112 # 10000)%Q.
Definition ex_yb : Q * Q := (0, 56 # 10000)%Q.
Definition tiles_of (s : nat) : list tile := match subdivided_fixed_grid ex_xb ex_yb ex_d ex_d s with Ok ts => ts | Err _ => [] end.
Definition no_tile : tile := mkTile 0 0 (0, 0)%Q (0, 0)%Q 0 0.
Definition ex_t : tile := nth 0 (tiles_of 2) no_tile.
Definition ex_w : tile := nth 0 (tiles_of 1) no_tile.
Definition ex_run (t : tile) := grid_files (fun l => l) (fun _ => 0) ex_clip ex_tree small_quad (grid_edges (t_xbnd t) ex_d) (grid_edges (t_ybnd t) ex_d) 2 [far_file] (Some (tile_query t None None)).
Lemma small_by_position : by_position small_quad.
Proof.
  intros x y x' y' Hx Hy. unfold small_quad. assert (K : forall a b, feq a b -> Qred (num a) = Qred (num b)) by (intros [a|] [b|] H; cbn in *; try contradiction; [apply Qred_complete; auto|reflexivity]).
  rewrite (K _ _ Hx), (K _ _ Hy). reflexivity.
Qed.
Lemma far_usable : usable far_file.
Proof.
  right. do 3 eexists. split; [reflexivity|]. split; [discriminate|]. split; [discriminate|]. split; [discriminate|]. split; [|split; [|split]].
  - split; [split|split; [|split]].
    + apply unique3. cbn. split; [|split]; repeat constructor; cbn; intuition discriminate.
    + apply linked_no_orphans. split.
      * intros s [<-|[<-|[]]]; [eexists; split; [left; reflexivity|reflexivity]|eexists; split; [right; left; reflexivity|reflexivity]].
      * intros s [<-|[<-|[<-|[]]]]; [eexists; split; [left; reflexivity|reflexivity]|eexists; split; [left; reflexivity|reflexivity]|eexists; split; [right; left; reflexivity|reflexivity]].
    + intros e [<-|[<-|[<-|[]]]]; [eexists; split; [left; reflexivity|split; reflexivity]|eexists; split; [left; reflexivity|split; reflexivity]|eexists; split; [right; left; reflexivity|split; reflexivity]].
    + intros g [<-|[<-|[]]]; reflexivity.
    + intros f [<-|[<-|[]]]; split; reflexivity.
  - intros v [<-|[<-|[]]]; discriminate.
  - intros v [<-|[<-|[]]]; discriminate.
  - intros v [<-|[<-|[<-|[]]]]; discriminate.
Qed.
Lemma lt_bool_eq : forall a a' b b', (a == a')%Q -> (b == b')%Q -> Qlt_bool a b = Qlt_bool a' b'.
Proof. intros a a' b b' A B. unfold Qlt_bool. f_equal. apply eq_true_iff_eq. rewrite !Qle_bool_iff, A, B. reflexivity. Qed.
Lemma qmax_eq : forall a b b', (b == b')%Q -> (qmax a b == qmax a b')%Q.
Proof. intros a b b' E. unfold qmax. rewrite (lt_bool_eq a a b b') by (auto; reflexivity). destruct (Qlt_bool a b'); [exact E|reflexivity]. Qed.
Lemma qmin_eq : forall a b b', (b == b')%Q -> (qmin a b == qmin a b')%Q.
Proof. intros a b b' E. unfold qmin. rewrite (lt_bool_eq b b' a a) by (auto; reflexivity). destruct (Qlt_bool b' a); [exact E|reflexivity]. Qed.
Lemma box_size : forall a b c d, (SliceSpec.size [(a, c); (b, c); (b, d); (a, d)] == Qabs ((b - a) * (d - c)))%Q.
Proof.
  intros. unfold SliceSpec.size. apply Qabs_wd. unfold signed_area, double_area, cross, vertex. cbn [seq List.length map qsum fold_right fst snd nth].
  change (qsum ?l) with (fold_right Qplus 0%Q l). cbn -[Qplus Qmult Qminus Qdiv]. field.
Qed.
Lemma nth_corner : forall c c' i, same_corners c c' -> (fst (nth i c (0, 0)) == fst (nth i c' (0, 0)) /\ snd (nth i c (0, 0)) == snd (nth i c' (0, 0)))%Q.
Proof. intros c c' i H. revert i. induction H as [|a b c c' S H IH]; intros [|i]; cbn [nth fst snd]; try (split; reflexivity); [exact S|apply IH]. Qed.
Lemma ex_by_corners : by_corners ex_clip.
Proof.
  intros p c c' H. unfold ex_clip. destruct (nth 0 p (0, 0)%Q) as [x0 y0], (nth 2 p (0, 0)%Q) as [x1 y1].
  pose proof (nth_corner c c' 0 H) as [A B]. pose proof (nth_corner c c' 2 H) as [C D].
  destruct (nth 0 c (0, 0)%Q) as [u0 v0], (nth 2 c (0, 0)%Q) as [u1 v1], (nth 0 c' (0, 0)%Q) as [u0' v0'], (nth 2 c' (0, 0)%Q) as [u1' v1']. cbn [fst snd] in *.
  pose proof (qmax_eq x0 _ _ A) as A'. pose proof (qmax_eq y0 _ _ B) as B'. pose proof (qmin_eq x1 _ _ C) as C'. pose proof (qmin_eq y1 _ _ D) as D'.
  rewrite (lt_bool_eq _ _ _ _ A' C'), (lt_bool_eq _ _ _ _ B' D'). destruct (_ && _); [|constructor]. constructor; [|constructor].
  rewrite !box_size, A', B', C', D'. reflexivity.
Qed.
Definition has (v : fval) (x : Q) : bool := match v with Some y => Qeq_bool y x | None => false end.
Lemma has_num : forall v x, has v x = true -> is_num v x.
Proof. intros [y|] x H; [|discriminate H]. exists y. split; [reflexivity|]. apply Qeq_bool_iff. exact H. Qed.
Lemma ex_values : match ex_run ex_t, ex_run ex_w with
  | Ok g, Ok g' => has (g_at (gr_energy g) 1 1) 0 && has (g_at (gr_energy g') 1 1) 1 && has (g_at (gr_fcount g) 1 1) 0 && negb (has (g_at (gr_fcount g') 1 1) 0) &&
      has (g_at (gr_energy g) 2 1) 6 && has (g_at (gr_energy g') 2 1) 6
  | _, _ => false end = true.
Proof. vm_compute. reflexivity. Qed.
(** A flash of which an event lies in the interior of the tile, where it is in the undivided
    grid: in the tile its light is missing.  Everything else that [C108_tiles_partial] asks
    for holds. *)
Theorem C108_long_flash_refuted : exists tiles whole g g' e,
  subdivided_fixed_grid ex_xb ex_yb ex_d ex_d 2 = Ok tiles /\ In ex_t tiles /\ subdivided_fixed_grid ex_xb ex_yb ex_d ex_d 1 = Ok whole /\ In ex_w whole /\
  usable far_file /\ In e (nth 2 far_file []) /\ inside ex_t (rdat e) /\ ex_run ex_t = Ok g /\ ex_run ex_w = Ok g' /\
  same_corners (grid_cell (grid_edges (t_xbnd ex_t) ex_d) (grid_edges (t_ybnd ex_t) ex_d) 1 1) (grid_cell (grid_edges (t_xbnd ex_w) ex_d) (grid_edges (t_ybnd ex_w) ex_d) 1 1) /\
  is_num (g_at (gr_energy g) 1 1) 0 /\ is_num (g_at (gr_energy g') 1 1) 1 /\ is_num (g_at (gr_fcount g) 1 1) 0 /\ ~ is_num (g_at (gr_fcount g') 1 1) 0.
Proof.
  pose proof ex_values as V. destruct (ex_run ex_t) as [g|]; [|discriminate V]. destruct (ex_run ex_w) as [g'|]; [|discriminate V].
  exists (tiles_of 2), (tiles_of 1), g, g', (mkRow 100 5 (dob (Some (14 # 10000)) (Some (14 # 10000)) (q1 1) None 1 0 0)%Q).
  split; [vm_compute; reflexivity|]. split; [left; reflexivity|]. split; [vm_compute; reflexivity|]. split; [left; reflexivity|]. split; [exact far_usable|]. split; [left; reflexivity|].
  split. { split; eexists; (split; [reflexivity|]); split; vm_compute; reflexivity. }
  split; [reflexivity|]. split; [reflexivity|].
  split. { unfold same_corners, grid_cell, cell_quad, regular_xy. cbn [me_x me_y]. rewrite !meshgrid_node by (vm_compute; lia). repeat constructor; vm_compute; reflexivity. }
  repeat (apply andb_true_iff in V; destruct V as [V ?]). repeat (split; [apply has_num; assumption|]).
  intros (x & X & Z). match goal with K : negb (has _ 0) = true |- _ => rewrite X in K; cbn in K; apply Qeq_bool_iff in Z; unfold has in K; rewrite Z in K; discriminate K end.
Qed.
Print Assumptions C108_long_flash_refuted.

(** * The hypotheses are met *)
(** Those of [C108_tiles_partial], and by it of [C108_common_cell], for the cell of flash 2. *)
Example C108_tiles_hypotheses : let xe := grid_edges (t_xbnd ex_t) ex_d in let ye := grid_edges (t_ybnd ex_t) ex_d in
  let xe' := grid_edges (t_xbnd ex_w) ex_d in let ye' := grid_edges (t_ybnd ex_w) ex_d in
  by_corners ex_clip /\ by_position small_quad /\ usable far_file /\
  one_chunk (fun l => l) (Some (tile_query ex_t None None)) 2 far_file /\ one_chunk (fun l => l) (Some (tile_query ex_w None None)) 2 far_file /\
  is_cell xe ye 2 1 /\
  exists tables tables', tables_read (fun l => l) (fun _ => 0) 2 (Some (tile_query ex_t None None)) [far_file] tables /\
    tables_read (fun l => l) (fun _ => 0) 2 (Some (tile_query ex_w None None)) [far_file] tables' /\
    found ex_clip ex_tree small_quad xe ye 2 1 tables /\ found ex_clip ex_tree small_quad xe' ye' 2 1 tables' /\
    stays_near (fun _ => 0) ex_clip small_quad (grid_cell xe ye 2 1) ex_t [far_file] (tables ++ tables') /\
    (exists r, In r (List.concat tables) /\ meets ex_clip small_quad (grid_cell xe ye 2 1) r) /\
    (forall r, In r (List.concat (tables ++ tables')) -> ~ (SliceSpec.size (small_quad (lu_x r) (lu_y r)) == 0)%Q /\ positive (lu_minarea r)).
Proof.
  cbv zeta. split; [exact ex_by_corners|]. split; [exact small_by_position|]. split; [exact far_usable|].
  split. { intros F G E K. vm_compute in K. injection K as <- _ _. cbn. lia. }
  split. { intros F G E K. vm_compute in K. injection K as <- _ _. cbn. lia. }
  split; [split; vm_compute; lia|].
  assert (TR : forall q ds chunks ts, (exists e E, nth_error ds 2 = Some (e :: E)) -> flash_chunks (fun l => l) 2 ds q = Ok chunks ->
    map_res (get_lutevents (fun _ => 0) lut_scale lut_range lut_range) chunks = Ok ts -> tables_read (fun l => l) (fun _ => 0) 2 q [ds] ts).
  { intros q ds chunks ts NE HC HM. exists [ts]. split; [|cbn [List.concat]; rewrite app_nil_r; reflexivity]. constructor; [|constructor]. right. split; [exact NE|]. exists chunks. split; [exact HC|]. apply map_res_inv. exact HM. }
  do 2 eexists. split; [eapply TR; [do 2 eexists; reflexivity|vm_compute; reflexivity|vm_compute; reflexivity]|].
  split; [eapply TR; [do 2 eexists; reflexivity|vm_compute; reflexivity|vm_compute; reflexivity]|].
  split. { intros r Hr M. cbn in Hr. repeat (destruct Hr as [<-|Hr]; [first [exfalso; apply M; vm_compute; reflexivity|vm_compute; tauto]|]). destruct Hr. }
  split. { intros r Hr M. cbn in Hr. repeat (destruct Hr as [<-|Hr]; [first [exfalso; apply M; vm_compute; reflexivity|vm_compute; tauto]|]). destruct Hr. }
  split.
  { intros r F G E f e Hr M [Hd|[]] Hf He Ce. injection Hd as <- <- <-. cbn in Hr.
    repeat (destruct Hr as [<-|Hr]; [try (exfalso; apply M; vm_compute; reflexivity)|]); try contradiction;
    destruct Hf as [<-|[<-|[]]]; cbn in He;
    repeat (destruct He as [<-|He]; [first [vm_compute in Ce; discriminate Ce|repeat split; eexists; (split; [reflexivity|]); split; vm_compute; reflexivity]|]); destruct He. }
  split. { eexists. split; [left; reflexivity|]. vm_compute. discriminate. }
  intros r Hr. cbn in Hr. repeat (destruct Hr as [<-|Hr]; [split; [vm_compute; discriminate|eexists; split; [reflexivity|reflexivity]]|]). destruct Hr.
Qed.
(** The two runs and their common value. *)
Example C108_tiles_ex : exists g g', ex_run ex_t = Ok g /\ ex_run ex_w = Ok g' /\ is_num (g_at (gr_energy g) 2 1) 6 /\ is_num (g_at (gr_energy g') 2 1) 6.
Proof.
  pose proof ex_values as V. destruct (ex_run ex_t) as [g|]; [|discriminate V]. destruct (ex_run ex_w) as [g'|]; [|discriminate V].
  exists g, g'. split; [reflexivity|]. split; [reflexivity|]. repeat (apply andb_true_iff in V; destruct V as [V ?]). split; apply has_num; assumption.
Qed.
(** What a call asks for, and the selection that comes of it. *)
Definition sel_kw : kwargs := [("min_points_per_flash", KNat 2); ("proj_name", KText (lit "geos")); ("fixed_grid", KBool true)]%string.
Example C108_selection_ex : minimum sel_kw "min_points_per_flash" (Some 2) /\ minimum sel_kw "min_groups_per_flash" None /\ fixed_grid sel_kw /\
  (exists p rd, process_flashes [("x_bnd", KRange (0, 1)%Q); ("min_points_per_flash", KNat 2); ("corner_pickle", KObj 7)]%string = Ok (p, 1, rd) /\
     rd_query rd = Some (mkQuery None None (Some (0, 1)%Q) None true (Some 2) None) /\ p = 2) /\
  process_flashes_query [("x_bnd", KRange (0, 1)%Q); ("y_bnd", KRange (2, 3)%Q); ("lon_bnd", KNone); ("lat_bnd", KNone); ("min_points_per_flash", KNat 2); ("clip_events", KMesh)]%string =
    Ok (Some (mkQuery None None (Some (0, 1)%Q) (Some (2, 3)%Q) true (Some 2) None)).
Proof.
  split; [right; exists 2%nat; split; [left; reflexivity|reflexivity]|]. split; [left; split; [left; intros v; cbn; intuition discriminate|reflexivity]|].
  split; [|split; [do 2 eexists; split; [reflexivity|split; reflexivity]|reflexivity]]. split; [cbn; intuition discriminate|]. eexists. right. right. left. reflexivity.
Qed.
From Verif Require CallsProofs6 PropCalls.
Example C108_asked : exists a r b, keywords PropCalls.ex_kw /\ keywords b /\ asked PropCalls.ex_kw a r b /\ fixed_grid PropCalls.ex_kw.
Proof.
  destruct (subgrids PropCalls.ex_kw) as [sgs|] eqn:E; [|vm_compute in E; discriminate].
  assert (HD : exists sg, In sg sgs /\ (exists r, kget "ellipse_rev" (sg_proc sg) = Some r) /\ khas "clip_events" (kdel "ellipse_rev" (sg_proc sg)) = true /\ keywords (CallsProofs6.data_args sg)).
  { vm_compute in E. injection E as <-. eexists. split; [left; reflexivity|]. split; [eexists; reflexivity|]. split; [reflexivity|]. vm_compute. repeat constructor; cbn; intuition discriminate. }
  destruct HD as (sg & I & (r & ER) & CE & KB). exists (sg_kw sg), r, (CallsProofs6.data_args sg). split; [exact PropCalls.ex_keywords|]. split; [exact KB|].
  split; [exact (CallsProofs6.subgrids_asked _ sgs sg r PropCalls.ex_keywords E I ER CE)|exact PropCalls.ex_fixed].
Qed.
