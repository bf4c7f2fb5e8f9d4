(** C30-C32: slicing polygons by a mesh, fractions, and inheritance of parent values. *)
From Coq Require Import List ZArith QArith Qabs Bool String Lia Lqa.
From Verif Require Import Base BaseProofs Traversal TraversalSpec PropTraversal Glm Lut LutSpec LutProofs Accum AccumProofs
  Poly PolySpec PolyProofs PropPoly GlmProofs3 BBox BBoxSpec BBoxProofs PropBBox Slice SliceSpec SliceProofs.
Import ListNotations.
Open Scope Z_scope.

(** * C30 *)
(** The k-th polygon gets the k-th area and list of pieces; the lists of vertices,
    fractions and indices of its pieces describe the same pieces in the same order,
    for any number of pieces per cell. *)
Theorem C30_aligned : forall clip tree m M N b polys chopped areas,
  mesh_ok tree m M N -> proper clip -> slice clip tree m polys b = Ok (chopped, areas) ->
  List.length chopped = List.length polys /\ List.length areas = List.length polys /\
  forall k p, nth_error polys k = Some p ->
    exists pc a cells, nth_error chopped k = Some pc /\ nth_error areas k = Some a /\ (a == size p)%Q /\
      looked_up tree m b p cells /\ aligned pc p (cut clip m p cells).
Proof.
  intros clip tree m M N b polys chopped areas H PR E. destruct (slice_spec _ _ _ _ _ _ _ _ _ H PR E) as [FA FC].
  split; [symmetry; eapply F2_length; eauto|]. split; [symmetry; eapply F2_length; eauto|]. clear E.
  revert chopped FC. induction FA as [|p a polys areas Ha FA IH]; intros chopped FC k q Hk; [destruct k; discriminate|].
  inversion FC as [|? pc ? ch' C1 C2]; subst. destruct k as [|k].
  - cbn in Hk. inversion Hk; subst q. destruct C1 as (cells & L & _ & A). exists pc, a, cells. auto.
  - cbn in Hk. apply (IH _ C2 k q Hk).
Qed.
(** Slicing does not fail: with bbox=True on a regular mesh always, without a box
    whenever the lookup does not find exactly one cell. *)
Theorem C30_succeeds_with_boxes : forall clip tree m M N polys,
  mesh_ok tree m M N -> proper clip -> (forall p, In p polys -> p <> []) ->
  exists r, slice clip tree m polys TrueBox = Ok r.
Proof.
  intros clip tree m M N polys H PR NE. apply (slice_total clip tree m M N); auto. intros p Hp.
  assert (exists idx, quads_in_bbox m (extent p) = Ok idx) as (idx & E).
  { destruct (extent p) as [[[x0 x1] y0] y1]. destruct (me_regular m) eqn:R.
    - destruct H as (_ & _ & _ & _ & H). rewrite R in H. destruct H as (xs & ys & at_ & Hx & Hy & MF).
      destruct (C29_valid_and_distinct xs ys m at_ (x0, x1, y0, y1) Hx Hy MF) as (l & E & _). eauto.
    - unfold quads_in_bbox. rewrite R. eauto. }
  destruct (bbox_cells _ _ _ _ _ _ H E) as (cells & -> & _). exists cells. split; [exact E|]. discriminate.
Qed.
Theorem C30_succeeds_without_box : forall clip tree m M N polys,
  mesh_ok tree m M N -> proper clip -> (forall p, In p polys -> p <> []) ->
  (forall p, In p polys -> exists cells, looked_up tree m NoBox p cells /\ List.length cells <> 1%nat) ->
  exists r, slice clip tree m polys NoBox = Ok r.
Proof.
  intros clip tree m M N polys H PR NE L. apply (slice_total clip tree m M N); auto. intros p Hp.
  destruct (L p Hp) as (cells & K & K'). exists cells. auto.
Qed.
(** Part of the claim that fails: an explicit box (or False) is not accepted. *)
Theorem C30_explicit_box_refuted : forall clip tree m polys b,
  polys <> [] -> (forall p, In p polys -> p <> []) -> (b = FalseBox \/ exists box, b = Box box) ->
  slice clip tree m polys b = Err UnboundLocalError.
Proof.
  intros clip tree m polys b HP NE HB. unfold slice.
  assert (exists ar, map_res (fun p => a <- area_of p ;; Ok (Qabs a)) polys = Ok ar) as (ar & ->).
  { clear HP. induction polys as [|p polys IH]; [exists []; reflexivity|]. destruct IH as (ar & E); [intros; apply NE; right; auto|].
    destruct (area_total p) as (a & Ea); [apply NE; left; auto|]. cbn [map_res]. rewrite Ea. cbn [bind]. rewrite E. cbn [bind]. eauto. }
  cbn [bind]. destruct polys as [|p polys]; [congruence|]. cbn [map_res].
  assert (find_quads tree m b p = Err UnboundLocalError) as -> by (destruct HB as [->|(box & ->)]; reflexivity). reflexivity.
Qed.
(** A mesh of a single cell cannot be used without a box. *)
Theorem C30_single_cell_refuted : forall clip tree xs ys p,
  List.length xs = 2%nat -> List.length ys = 2%nat -> increasing xs -> increasing ys -> p <> [] ->
  holds xs 0 (fst (vertex_mean p)) -> holds ys 0 (snd (vertex_mean p)) ->
  slice clip tree (regular_xy xs ys) [p] NoBox = Err ValueError.
Proof.
  intros clip tree xs ys p Lx Ly Ix Iy Hp Vx Vy. unfold slice. destruct (area_total p Hp) as (a & Ea). cbn [map_res]. rewrite Ea. cbn [bind].
  assert (Ex : edges_ok xs) by (split; [lia|auto]). assert (Ey : edges_ok ys) by (split; [lia|auto]).
  destruct (C29_nearest xs ys _ _ tree _ _ 0 0 Ex Ey (made_xy xs ys) Vx Vy) as (l & E & ND & C).
  assert (List.length l = 1%nat).
  { assert (L1 : incl l [(0, 0)]).
    { intros c Hc. apply C in Hc. destruct Hc as (kx & ky & -> & K1 & K2 & _). left. f_equal; lia. }
    assert (L2 : In (0, 0) l) by (apply C; exists 0%nat, 0%nat; split; [reflexivity|]; unfold apart; lia).
    pose proof (NoDup_incl_length ND L1) as L3. destruct l as [|? l]; [destruct L2|]. cbn in *. lia. }
  unfold find_quads, find_cells. rewrite (surjective_pairing (vertex_mean p)), E. cbn [bind]. rewrite H. reflexivity.
Qed.

(** * C31 *)
(** Fractions of a polygon with area are non-negative and add up to the covered part;
    if the pieces cover the polygon, to one. *)
Theorem C31_fractions : forall clip tree m M N b polys chopped areas k p,
  mesh_ok tree m M N -> proper clip -> slice clip tree m polys b = Ok (chopped, areas) ->
  nth_error polys k = Some p -> ~ (size p == 0)%Q ->
  exists pc cells, nth_error chopped k = Some pc /\ looked_up tree m b p cells /\
    numbers (pc_fracs pc) /\ (forall f, In (Some f) (pc_fracs pc) -> (0 <= f)%Q) /\
    (total (pc_fracs pc) == qsum (map (fun e => size (fst e)) (cut clip m p cells)) / size p)%Q /\
    (covered p (cut clip m p cells) -> total (pc_fracs pc) == 1)%Q.
Proof.
  intros clip tree m M N b polys chopped areas k p H PR E Hk Hp.
  destruct (C30_aligned _ _ _ _ _ _ _ _ _ H PR E) as (_ & _ & A). destruct (A k p Hk) as (pc & a & cells & E1 & _ & _ & L & (_ & _ & _ & AL)).
  destruct (fractions_total _ _ _ Hp AL) as (F1 & F2 & F3). exists pc, cells. split; [exact E1|]. split; [exact L|]. split; [exact F1|]. split; [exact F2|]. split; [exact F3|].
  intros C. unfold covered in C. rewrite F3, C. field. exact Hp.
Qed.
(** The mesh of the gridding code: the second fraction of a row is the part of the cell
    that the piece covers. *)
Lemma cell_quad_xy : forall xs ys i j, (S i < List.length ys)%nat -> (S j < List.length xs)%nat ->
  (signed_area (cell_quad (regular_xy xs ys) (i, j)) == (edge xs (S j) - edge xs j) * (edge ys (S i) - edge ys i))%Q.
Proof.
  intros xs ys i j Hi Hj. unfold cell_quad, regular_xy. cbn [me_x me_y]. rewrite !meshgrid_node by lia.
  unfold signed_area. rewrite double_cyc. unfold cyc. cbn [app]. rewrite !op_cons2. change (op [_]) with 0%Q. unfold cross, edge. cbn [fst snd]. field.
Qed.
Lemma cell_quad_ij : forall xs ys i j, (S i < List.length xs)%nat -> (S j < List.length ys)%nat ->
  (signed_area (cell_quad (regular_ij xs ys) (i, j)) == - ((edge xs (S i) - edge xs i) * (edge ys (S j) - edge ys j)))%Q.
Proof.
  intros xs ys i j Hi Hj. unfold cell_quad, regular_ij. cbn [me_x me_y]. rewrite !meshgrid_ij_node by lia.
  unfold signed_area. rewrite double_cyc. unfold cyc. cbn [app]. rewrite !op_cons2. change (op [_]) with 0%Q. unfold cross, edge. cbn [fst snd]. field.
Qed.
Lemma div_unit : forall a b, (0 <= a)%Q -> (a <= b)%Q -> (0 < b)%Q -> (0 <= a / b <= 1)%Q.
Proof.
  intros a b H0 H1 H2. split; [apply Qle_shift_div_l; lra|apply Qle_shift_div_r; lra].
Qed.
Theorem C31_mesh_fraction : forall xs ys p id s q i j,
  increasing xs -> increasing ys -> (S i < List.length ys)%nat -> (S j < List.length xs)%nat ->
  ~ (size p == 0)%Q -> is_row (regular_xy xs ys) p id s (q, (i, j)) ->
  let cell := ((edge xs (S j) - edge xs j) * (edge ys (S i) - edge ys i))%Q in
  (0 < cell)%Q /\ is_num (sp_mesh_frac s) (size q / cell) /\
  ((size q <= cell)%Q -> (0 <= num (sp_mesh_frac s) <= 1)%Q).
Proof.
  intros xs ys p id s q i j Ix Iy Hi Hj Hp R cell.
  assert (P : (0 < cell)%Q).
  { unfold cell. assert (edge xs j < edge xs (S j))%Q by (apply Ix; lia). assert (edge ys i < edge ys (S i))%Q by (apply Iy; lia).
    apply Qmult_lt_0_compat; lra. }
  destruct (row_mesh_frac _ _ _ _ _ R Hp) as [_ F]. cbn [fst snd] in F. pose proof (cell_quad_xy xs ys i j Hi Hj) as EA. fold cell in EA.
  destruct F as (x & Ex & Hx); [rewrite EA; intros K; rewrite K in P; discriminate|]. rewrite EA in Hx.
  split; [exact P|]. split; [exists x; auto|]. intros L. rewrite Ex. cbn [num]. rewrite Hx.
  apply div_unit; auto. apply size_nonneg.
Qed.
(** Part of the claim that fails: with 'ij' indexing (and increasing edges) the second
    fraction has the wrong sign. *)
Theorem C31_mesh_fraction_ij_refuted : forall xs ys p id s q i j,
  increasing xs -> increasing ys -> (S i < List.length xs)%nat -> (S j < List.length ys)%nat ->
  ~ (size p == 0)%Q -> (0 < size q)%Q -> is_row (regular_ij xs ys) p id s (q, (i, j)) ->
  exists x, sp_mesh_frac s = Some x /\ (x < 0)%Q.
Proof.
  intros xs ys p id s q i j Ix Iy Hi Hj Hp Hq R.
  assert (P : (0 < (edge xs (S i) - edge xs i) * (edge ys (S j) - edge ys j))%Q).
  { assert (edge xs i < edge xs (S i))%Q by (apply Ix; lia). assert (edge ys j < edge ys (S j))%Q by (apply Iy; lia).
    apply Qmult_lt_0_compat; lra. }
  destruct (row_mesh_frac _ _ _ _ _ R Hp) as [_ F]. cbn [fst snd] in F. pose proof (cell_quad_ij xs ys i j Hi Hj) as EA.
  set (c := ((edge xs (S i) - edge xs i) * (edge ys (S j) - edge ys j))%Q) in *.
  destruct F as (x & Ex & Hx); [rewrite EA; intros K; lra|]. exists x. split; [exact Ex|]. rewrite Hx, EA.
  assert (E : (size q / - c == - (size q / c))%Q) by (field; lra). rewrite E.
  assert (0 < size q / c)%Q by (apply Qlt_shift_div_l; lra). lra.
Qed.

Lemma concat_map2_total : forall (f : lutrow -> split -> fval) parents blocks,
  map w_energy (List.concat (map2 (fun r block => map (fun s => weight_row s r) block) parents blocks))
  = List.concat (map2 (fun r block => map (fun s => fmul (lu_energy r) (sp_frac s)) block) parents blocks).
Proof.
  intros f. induction parents as [|r parents IH]; intros [|b blocks]; try reflexivity.
  cbn [map2 List.concat]. rewrite map_app, IH, map_map. reflexivity.
Qed.
Lemma total_scaled : forall e block, numbers (map sp_frac block) ->
  numbers (map (fun s => fmul (Some e) (sp_frac s)) block) /\
  (total (map (fun s => fmul (Some e) (sp_frac s)) block) == e * total (map sp_frac block))%Q.
Proof.
  induction block as [|s block IH]; intros N; [split; [intros v []|unfold total; cbn; ring]|].
  destruct IH as [N1 T1]; [intros v Hv; apply N; right; auto|].
  destruct (sp_frac s) as [f|] eqn:Ef; [|exfalso; apply (N None); [left; auto|auto]].
  split.
  - intros v [<-|Hv]; [cbn [fmul]; rewrite Ef; discriminate|apply N1; auto].
  - unfold total in *. cbn [map]. rewrite Ef. cbn [fmul num qsum fold_right]. unfold qsum in *. cbn [fold_right]. rewrite T1. ring.
Qed.
Lemma rows_shares : forall m p id block l, Forall2 (is_row m p id) block l ->
  Forall2 (fun f e => is_share f (size (fst e)) (size p)) (map sp_frac block) l.
Proof. intros m p id block l H. induction H as [|s e block l R H IH]; constructor; auto. apply R. Qed.
Lemma rows_parent : forall m p id block l, Forall2 (is_row m p id) block l -> Forall (fun s => sp_parent s = id) block.
Proof. intros m p id block l H. induction H as [|s e block l R H IH]; constructor; auto. apply R. Qed.

(** Energy is conserved: the pieces of each parent together have the covered part of
    its energy (all of it when the polygon is covered). *)
Theorem C31_energy : forall clip tree m M N b polys chopped areas parents,
  mesh_ok tree m M N -> proper clip -> slice clip tree m polys b = Ok (chopped, areas) ->
  List.length parents = List.length polys -> NoDup (map lu_id parents) ->
  (forall p, In p polys -> ~ (size p == 0)%Q) ->
  exists children W, split_event_data m chopped areas (map lu_id parents) = Ok children /\
    replicate_and_weight_new parents children = Ok W /\
    forall k p r e, nth_error polys k = Some p -> nth_error parents k = Some r -> lu_energy r = Some e ->
      exists cells, looked_up tree m b p cells /\ numbers (energies_of (lu_id r) W) /\
        (total (energies_of (lu_id r) W) == e * (qsum (map (fun x => size (fst x)) (cut clip m p cells)) / size p))%Q /\
        (covered p (cut clip m p cells) -> total (energies_of (lu_id r) W) == e)%Q.
Proof.
  intros clip tree m M N b polys chopped areas parents H PR E L ND NZ.
  destruct (split_data_ok clip tree m M N b polys chopped areas (map lu_id parents) H PR E ltac:(rewrite map_length; auto)) as (blocks & ES & FB).
  exists (List.concat blocks).
  assert (FP : Forall2 (fun r block => Forall (fun s => sp_parent s = lu_id r) block) parents blocks).
  { clear -FB L. revert parents L blocks FB. induction polys as [|p polys IH]; intros [|r parents] L blocks FB; try discriminate; cbn [map combine] in FB.
    - inversion FB. constructor.
    - inversion FB as [|? block ? bl' B1 B2]; subst. constructor; [|apply IH; auto]. destruct B1 as (cells & _ & _ & R). apply (rows_parent _ _ _ _ _ R). }
  eexists. split; [exact ES|]. split; [apply (replicate_blocks parents parents blocks ND); auto|].
  intros k p r e Hp Hr He.
  assert (exists block cells, nth_error blocks k = Some block /\ looked_up tree m b p cells /\ Forall2 (is_row m p (lu_id r)) block (cut clip m p cells)) as (block & cells & Hb & LU & R).
  { clear -FB L Hp Hr. revert parents L blocks FB k Hp Hr. induction polys as [|p0 polys IH]; intros [|r0 parents] L blocks FB k Hp Hr; try discriminate; cbn [map combine] in FB.
    - destruct k; discriminate.
    - inversion FB as [|? block ? bl' B1 B2]; subst. destruct k as [|k].
      + cbn in Hp, Hr. inversion Hp; inversion Hr; subst. destruct B1 as (cells & LU & _ & R). exists block, cells. auto.
      + cbn in Hp, Hr. cbn in L. destruct (IH parents ltac:(lia) bl' B2 k Hp Hr) as (bl & c & K). exists bl, c. exact K. }
  exists cells. split; [exact LU|].
  assert (EO : energies_of (lu_id r) (List.concat (map2 (fun r block => map (fun s => weight_row s r) block) parents blocks))
    = map (fun s => fmul (lu_energy r) (sp_frac s)) block).
  { clear -FP ND Hr Hb. unfold energies_of. revert k Hr Hb. induction FP as [|r0 b0 parents blocks HB FP IH]; intros k Hr Hb; [destruct k; discriminate|].
    cbn [map2 List.concat]. rewrite filter_app, map_app. cbn in ND. inversion ND as [|? ? NI ND']; subst. destruct k as [|k].
    - cbn in Hr, Hb. inversion Hr; inversion Hb; subst. rewrite filter_all.
      + rewrite map_map. rewrite (filter_none _ _ (List.concat _)); [rewrite app_nil_r; reflexivity|].
        intros w Hw. apply Z.eqb_neq. intros K. apply NI.
        assert (T : forall w, In w (List.concat (map2 (fun r block => map (fun s => weight_row s r) block) parents blocks)) ->
          exists r', In r' parents /\ sp_parent (w_split w) = lu_id r').
        { clear -FP. induction FP as [|r1 b1 parents blocks HB FP IH]; intros w Hw; [destruct Hw|]. cbn [map2 List.concat] in Hw.
          apply in_app_iff in Hw. destruct Hw as [Hw|Hw].
          - apply in_map_iff in Hw. destruct Hw as (s & <- & Hs). rewrite Forall_forall in HB. exists r1. split; [left; auto|]. apply HB. exact Hs.
          - destruct (IH w Hw) as (r' & K1 & K2). exists r'. split; [right; auto|auto]. }
        destruct (T w Hw) as (r' & K1 & K2). rewrite <- K, K2. apply in_map. exact K1.
      + intros w Hw. apply in_map_iff in Hw. destruct Hw as (s & <- & Hs). rewrite Forall_forall in HB. apply Z.eqb_eq. apply HB. exact Hs.
    - cbn in Hr, Hb. rewrite (filter_none _ _ (map _ b0)).
      + cbn [map app]. apply (IH ND' k Hr Hb).
      + intros w Hw. apply in_map_iff in Hw. destruct Hw as (s & <- & Hs). rewrite Forall_forall in HB. apply Z.eqb_neq. intros K.
        apply NI. change (w_split (weight_row s r0)) with s in K. rewrite <- (HB s Hs), K. apply in_map. apply (nth_error_In _ _ Hr). }
  rewrite EO, He.
  assert (Sz : ~ (size p == 0)%Q) by (apply NZ; apply (nth_error_In _ _ Hp)).
  destruct (fractions_total _ _ _ Sz (rows_shares _ _ _ _ _ R)) as (N1 & _ & T1).
  destruct (total_scaled e block N1) as [N2 T2]. split; [exact N2|]. split; [rewrite T2, T1; reflexivity|].
  intros C. unfold covered in C. rewrite T2, T1, C. field. exact Sz.
Qed.

(** * C32 *)
(** The rows are those of the pieces, polygon by polygon; each row carries the
    identifier of the polygon its piece was cut from. *)
Theorem C32_rows : forall clip tree m M N b polys chopped areas ids,
  mesh_ok tree m M N -> proper clip -> slice clip tree m polys b = Ok (chopped, areas) ->
  List.length ids = List.length polys ->
  exists blocks, split_event_data m chopped areas ids = Ok (List.concat blocks) /\
    List.length blocks = List.length polys /\
    forall k p id, nth_error polys k = Some p -> nth_error ids k = Some id ->
      exists block cells, nth_error blocks k = Some block /\ looked_up tree m b p cells /\
        Forall2 (is_row m p id) block (cut clip m p cells).
Proof.
  intros clip tree m M N b polys chopped areas ids H PR E L.
  destruct (split_data_ok _ _ _ _ _ _ _ _ _ ids H PR E L) as (blocks & ES & FB). exists blocks. split; [exact ES|].
  split; [apply F2_length in FB; rewrite combine_length in FB; lia|]. clear ES E. revert ids L blocks FB.
  induction polys as [|p0 polys IH]; intros [|id0 ids] L blocks FB k p id Hp Hi; try discriminate; cbn [combine] in FB.
  - destruct k; discriminate.
  - inversion FB as [|? block ? bl' B1 B2]; subst. destruct k as [|k].
    + cbn in Hp, Hi. inversion Hp; inversion Hi; subst. destruct B1 as (cells & LU & _ & R). exists block, cells. auto.
    + cbn in Hp, Hi, L. apply (IH ids ltac:(lia) bl' B2 k p id Hp Hi).
Qed.
(** Lookup-table path: each piece gets the values of the row with its parent's identifier. *)
Theorem C32_lookup_path : forall parents children W,
  replicate_and_weight_new parents children = Ok W ->
  Forall2 (fun s w => exists r, In r parents /\ (forall r', In r' parents -> lu_id r' = sp_parent s -> r' = r) /\ inherits w s r) children W.
Proof.
  intros parents children W H. unfold replicate_and_weight_new in H. apply bind_ok_inv in H. destruct H as (reps & E & H). inversion H; subst. clear H.
  apply map_res_inv in E. remember (map sp_parent children) as ids. revert children Heqids.
  induction E as [|i r ids reps E1 E2 IH]; intros [|s children] Eq; try discriminate; [constructor|].
  cbn in Eq. inversion Eq; subst. cbn [map2]. constructor; [|apply IH; reflexivity].
  destruct (loc1_in _ _ _ E1) as (K1 & K2 & K3). exists r. split; [exact K1|]. split; [exact K3|]. apply weight_inherits. auto.
Qed.
Theorem C32_lookup_path_exists : forall parents children, NoDup (map lu_id parents) ->
  (forall s, In s children -> In (sp_parent s) (map lu_id parents)) ->
  exists W, replicate_and_weight_new parents children = Ok W.
Proof.
  intros parents children ND H. unfold replicate_and_weight_new.
  assert (exists reps, map_res (loc1 parents) (map sp_parent children) = Ok reps) as (reps & ->); [|cbn [bind]; eauto].
  induction children as [|s children IH]; [exists []; reflexivity|]. destruct IH as (reps & E); [intros; apply H; right; auto|].
  specialize (H s (or_introl eq_refl)). apply in_map_iff in H. destruct H as (r & Er & Hr).
  cbn [map map_res]. rewrite <- Er, (loc1_unique _ _ ND Hr). cbn [bind]. rewrite E. cbn [bind]. eauto.
Qed.
(** Plain path, on a GLM dataset with unique event ids. *)
Theorem C32_plain_path : forall F G E tv children,
  trav_init [F; G; E] entity_ids parent_ids = Ok tv -> F <> [] -> G <> [] -> E <> [] -> NoDup (map rid E) ->
  (forall s, In s children -> In (sp_parent s) (map rid E)) ->
  exists out, replicate_and_weight tv children = Ok out /\
    Forall2 (fun s o => se_split o = s /\ exists e, In e E /\ rid e = sp_parent s /\
               is_product (se_energy o) (o_energy (rdat e)) (sp_frac s) /\
               se_flash o = o_flash (rdat e) /\ se_group o = rpid e) children out.
Proof.
  intros F G E tv children HT HF HG HE ND HC.
  assert (NE : Forall (fun T : list (row obs) => T <> []) [F; G; E]) by (repeat constructor; auto).
  assert (NV : NoDup entity_ids) by (unfold entity_ids; repeat constructor; simpl; intuition discriminate).
  destruct (C04_prune_request_order [F; G; E] entity_ids parent_ids tv 2 "event_id"%string (map sp_parent children) E HT NV eq_refl NE eq_refl ND)
    as (ds & U & ER & EU & EI & HU).
  unfold replicate_and_weight. rewrite ER. cbn [bind]. rewrite EU.
  assert (EI' : map rid U = map sp_parent children).
  { rewrite EI. apply filter_all. intros i Hi. apply in_map_iff in Hi. destruct Hi as (s & <- & Hs).
    apply existsb_exists. specialize (HC s Hs). apply in_map_iff in HC. destruct HC as (e & Ee & He). exists e. split; auto. apply Z.eqb_eq. auto. }
  assert (LU : List.length U = List.length children) by (rewrite <- (map_length rid U), EI', map_length; reflexivity).
  rewrite LU, Nat.eqb_refl. eexists. split; [reflexivity|]. clear ER EU EI LU HC.
  revert U EI' HU. induction children as [|s children IH]; intros [|e U] EI HU; try discriminate; [constructor|].
  cbn in EI. inversion EI. cbn [map2]. constructor; [|apply IH; auto; intros; apply HU; right; auto].
  split; [reflexivity|]. exists e. split; [apply HU; left; auto|]. split; [auto|]. split; [apply is_product_fmul|]. split; reflexivity.
Qed.

(** * C49: lookup without a box *)
Definition uniform (e : list Q) (d : Q) : Prop := (0 < d)%Q /\ forall k, (k < List.length e)%nat -> (edge e k == edge e 0 + inject_Z (Z.of_nat k) * d)%Q.
(** Cell [k] and the interval from [a] to [b] overlap. *)
Definition overlaps (e : list Q) (k : nat) (a b : Q) : Prop := (edge e k < b /\ a < edge e (S k))%Q.
Lemma uniform_increasing : forall e d, uniform e d -> increasing e.
Proof.
  intros e d [P U] i j H. rewrite (U i), (U j) by lia.
  assert (inject_Z (Z.of_nat i) < inject_Z (Z.of_nat j))%Q by (rewrite <- Zlt_Qlt; lia). nra.
Qed.
Lemma two_cells : forall e d c v k a b, uniform e d -> (S k < List.length e)%nat -> holds e c v ->
  (v - 2 * d <= a)%Q -> (b <= v + 2 * d)%Q -> overlaps e k a b -> apart k c 2.
Proof.
  intros e d c v k a b [P U] Hk [Hc V] Ha Hb [O1 O2].
  assert (V' : (edge e c < v <= edge e (S c))%Q).
  { destruct V as [V|V]; [exact V|]. pose proof (uniform_increasing e d (conj P U) c (S c) ltac:(lia)). lra. }
  rewrite (U k) in O1 by lia. rewrite (U (S k)) in O2 by lia. rewrite (U c), (U (S c)) in V' by lia.
  rewrite !Nat2Z.inj_succ in *. unfold Z.succ in *. rewrite !inject_Z_plus in *.
  set (K := inject_Z (Z.of_nat k)) in *. set (C := inject_Z (Z.of_nat c)) in *. set (e0 := edge e 0) in *. change (inject_Z 1) with 1%Q in *.
  assert (A1 : (K < C + 3)%Q) by (assert (K * d < (C + 3) * d)%Q by lra; apply Qmult_lt_r with (z := d); auto).
  assert (A2 : (C < K + 3)%Q) by (assert (C * d < (K + 3) * d)%Q by lra; apply Qmult_lt_r with (z := d); auto).
  unfold K, C in *. change 3%Q with (inject_Z 3) in *. rewrite <- inject_Z_plus, <- Zlt_Qlt in *. unfold apart. lia.
Qed.
(** A polygon that extends at most two cells from the mean of its vertices is cut by
    every cell it overlaps. *)
Theorem C49_lookup_covers_partial : forall xs ys m at_ tree p cells dx dy cx cy x0 x1 y0 y1,
  uniform xs dx -> uniform ys dy -> edges_ok xs -> edges_ok ys -> made_from xs ys m at_ ->
  holds xs cx (fst (vertex_mean p)) -> holds ys cy (snd (vertex_mean p)) ->
  (fst (vertex_mean p) - 2 * dx <= x0)%Q -> (x1 <= fst (vertex_mean p) + 2 * dx)%Q ->
  (snd (vertex_mean p) - 2 * dy <= y0)%Q -> (y1 <= snd (vertex_mean p) + 2 * dy)%Q ->
  looked_up tree m NoBox p cells ->
  forall kx ky, (S kx < List.length xs)%nat -> (S ky < List.length ys)%nat ->
    overlaps xs kx x0 x1 -> overlaps ys ky y0 y1 -> In (at_ kx ky) (map zpair cells).
Proof.
  intros xs ys m at_ tree p cells dx dy cx cy x0 x1 y0 y1 Ux Uy Ex Ey M Hx Hy X0 X1 Y0 Y1 L kx ky Kx Ky Ox Oy.
  destruct (C29_nearest xs ys m at_ tree _ _ cx cy Ex Ey M Hx Hy) as (l & E & _ & C).
  unfold looked_up in L. rewrite (surjective_pairing (vertex_mean p)), E in L. inversion L; subst l.
  apply C. exists kx, ky. split; [reflexivity|]. split; [exact Kx|]. split; [exact Ky|].
  split; [apply (two_cells xs dx cx (fst (vertex_mean p)) kx x0 x1 Ux Kx Hx X0 X1 Ox)|apply (two_cells ys dy cy (snd (vertex_mean p)) ky y0 y1 Uy Ky Hy Y0 Y1 Oy)].
Qed.
(** Part of the claim that fails: a polygon that reaches further has cells that are
    not looked up, for every mesh and every such polygon. *)
Theorem C49_far_cells_refuted : forall xs ys m at_ tree p cx cy x0 x1,
  increasing xs -> edges_ok xs -> edges_ok ys -> made_from xs ys m at_ ->
  holds xs cx (fst (vertex_mean p)) -> holds ys cy (snd (vertex_mean p)) ->
  (cx + 4 < List.length xs)%nat -> (edge xs (cx + 3) < x1)%Q -> (x0 <= fst (vertex_mean p))%Q ->
  exists cells, quads_nearest tree m (vertex_mean p) = Ok cells /\ overlaps xs (cx + 3) x0 x1 /\ ~ In (at_ (cx + 3)%nat cy) cells.
Proof.
  intros xs ys m at_ tree p cx cy x0 x1 I Ex Ey M Hx Hy Hc H1 H0.
  destruct (C29_nearest xs ys m at_ tree _ _ cx cy Ex Ey M Hx Hy) as (l & E & _ & C).
  exists l. rewrite (surjective_pairing (vertex_mean p)). split; [exact E|]. split.
  - split; [exact H1|]. destruct Hx as [L V].
    assert (edge xs cx < edge xs (S cx))%Q by (apply I; lia). assert (edge xs (S cx) < edge xs (S (cx + 3)))%Q by (apply I; lia). cbn [fst] in *.
    destruct V as [V|V]; lra.
  - intros K. apply C in K. destruct K as (kx & ky & EQ & Kx & Ky & A1 & A2). inversion M; subst; inversion EQ; unfold apart in A1; lia.
Qed.

(** With boxes recomputed for each polygon (bbox=True) a polygon inside the mesh is cut by every cell that
    its extent meets, however large it is, and by none further than two from such a cell. *)
Lemma qmin_fold : forall l a, (In (fold_left qmin l a) (a :: l)) /\ (forall v, In v (a :: l) -> (fold_left qmin l a <= v)%Q).
Proof.
  induction l as [|b l IH]; intros a; [cbn; split; [auto|intros v [->|[]]; apply Qle_refl]|]. cbn [fold_left].
  assert (Q : (qmin a b = a /\ a <= b \/ qmin a b = b /\ b < a)%Q).
  { unfold qmin. destruct (Qlt_bool b a) eqn:E; [right; split; [auto|apply Qlt_bool_iff; auto]|left; split; auto].
    apply Qnot_lt_le. intros X. apply Qlt_bool_iff in X. congruence. }
  destruct (IH (qmin a b)) as [I1 I2]. split.
  - destruct I1 as [I1|I1]; [|right; right; auto]. destruct Q as [[Q _]|[Q _]]; rewrite Q in I1 at 1; [left|right; left]; auto.
  - assert (B : (fold_left qmin l (qmin a b) <= a)%Q /\ (fold_left qmin l (qmin a b) <= b)%Q).
    { pose proof (I2 _ (or_introl eq_refl)) as X. destruct Q as [[Q Q']|[Q Q']]; rewrite Q in X at 2; split; lra. }
    intros v [<-|[<-|K]]; [apply B|apply B|apply I2; right; auto].
Qed.
Lemma qmax_fold : forall l a, (In (fold_left qmax l a) (a :: l)) /\ (forall v, In v (a :: l) -> (v <= fold_left qmax l a)%Q).
Proof.
  induction l as [|b l IH]; intros a; [cbn; split; [auto|intros v [->|[]]; apply Qle_refl]|]. cbn [fold_left].
  assert (Q : (qmax a b = a /\ b <= a \/ qmax a b = b /\ a < b)%Q).
  { unfold qmax. destruct (Qlt_bool a b) eqn:E; [right; split; [auto|apply Qlt_bool_iff; auto]|left; split; auto].
    apply Qnot_lt_le. intros X. apply Qlt_bool_iff in X. congruence. }
  destruct (IH (qmax a b)) as [I1 I2]. split.
  - destruct I1 as [I1|I1]; [|right; right; auto]. destruct Q as [[Q _]|[Q _]]; rewrite Q in I1 at 1; [left|right; left]; auto.
  - assert (B : (a <= fold_left qmax l (qmax a b))%Q /\ (b <= fold_left qmax l (qmax a b))%Q).
    { pose proof (I2 _ (or_introl eq_refl)) as X. destruct Q as [[Q Q']|[Q Q']]; rewrite Q in X at 1; split; lra. }
    intros v [<-|[<-|K]]; [apply B|apply B|apply I2; right; auto].
Qed.
Lemma extent_spec : forall p, p <> [] -> exists x0 x1 y0 y1, extent p = (x0, x1, y0, y1) /\
  In x0 (map fst p) /\ In x1 (map fst p) /\ In y0 (map snd p) /\ In y1 (map snd p) /\
  (forall a, In a p -> x0 <= fst a <= x1 /\ y0 <= snd a <= y1)%Q.
Proof.
  intros [|a p] N; [congruence|]. do 4 eexists. split; [reflexivity|]. cbn [map hd tl].
  destruct (qmin_fold (map fst p) (fst a)) as [X1 X2]. destruct (qmax_fold (map fst p) (fst a)) as [X3 X4].
  destruct (qmin_fold (map snd p) (snd a)) as [Y1 Y2]. destruct (qmax_fold (map snd p) (snd a)) as [Y3 Y4].
  repeat (split; [assumption|]). intros b Hb. change (fst a :: map fst p) with (map fst (a :: p)) in *. change (snd a :: map snd p) with (map snd (a :: p)) in *.
  pose proof (in_map fst _ _ Hb). pose proof (in_map snd _ _ Hb). auto.
Qed.
Theorem C49_boxes_cover : forall xs ys m at_ tree p cells,
  edges_ok xs -> edges_ok ys -> made_from xs ys m at_ -> p <> [] ->
  (forall a, In a p -> inside xs (fst a) (fst a) /\ inside ys (snd a) (snd a)) ->
  looked_up tree m TrueBox p cells ->
  (forall kx ky a b c d, In a p -> In b p -> In c p -> In d p ->
     meets xs kx (fst a) (fst b) -> meets ys ky (snd c) (snd d) -> In (at_ kx ky) (map zpair cells)) /\
  (forall kx ky, In (at_ kx ky) (map zpair cells) -> exists lx ly a b c d, In a p /\ In b p /\ In c p /\ In d p /\
     meets xs lx (fst a) (fst b) /\ meets ys ly (snd c) (snd d) /\ apart kx lx 2 /\ apart ky ly 2).
Proof.
  intros xs ys m at_ tree p cells Ex Ey M N I L.
  destruct (extent_spec p N) as (x0 & x1 & y0 & y1 & E & X0 & X1 & Y0 & Y1 & B).
  apply in_map_iff in X0, X1, Y0, Y1. destruct X0 as (a & A & Ha), X1 as (b & Bb & Hb), Y0 as (c & Cc & Hc), Y1 as (d & D & Hd).
  assert (T : forall e u v, inside e u u -> inside e v v -> inside e u v).
  { intros e u v [(P1 & P2 & P3)|(P1 & P2 & P3)] [(Q1 & Q2 & Q3)|(Q1 & Q2 & Q3)]; [left; auto| | |right; auto].
    - assert (F : (edge e 0 < edge e (List.length e - 1))%Q) by lra. assert (F' : (edge e (List.length e - 1) < edge e 0)%Q) by lra. lra.
    - assert (F : (edge e 0 < edge e (List.length e - 1))%Q) by lra. assert (F' : (edge e (List.length e - 1) < edge e 0)%Q) by lra. lra. }
  destruct (C29_box_inside_partial xs ys m at_ x0 x1 y0 y1 Ex Ey M) as (l & El & C1 & C2).
  { rewrite <- A. apply B; auto. }
  { rewrite <- Cc. apply B; auto. }
  { rewrite <- A, <- Bb. apply T; [apply (I a Ha)|apply (I b Hb)]. }
  { rewrite <- Cc, <- D. apply T; [apply (I c Hc)|apply (I d Hd)]. }
  unfold looked_up in L. rewrite E, El in L. injection L as ->. split.
  - intros kx ky a' b' c' d' Ha' Hb' Hc' Hd' (K1 & v & V & W) (K2 & w & V' & W'). destruct (B a' Ha'), (B b' Hb'), (B c' Hc'), (B d' Hd').
    apply C1; (split; [assumption|]); [exists v|exists w]; (split; [lra|assumption]).
  - intros kx ky K. destruct (C2 kx ky K) as (lx & ly & P1 & P2 & P3 & P4). exists lx, ly, a, b, c, d. rewrite A, Bb, Cc, D. auto 10.
Qed.
Print Assumptions C49_boxes_cover.

(** * Examples *)
Definition ex_xs : list Q := map inject_Z [0; 2; 4; 6].
Definition ex_ys : list Q := map inject_Z [0; 3; 6].
(** A clipping function that is exact for rectangles given by their lower left and
    upper right corners (vertices 0 and 2). *)
Definition ex_clip (p q : poly) : list poly :=
  let '(x0, y0) := nth 0 p (0, 0)%Q in let '(x1, y1) := nth 2 p (0, 0)%Q in
  let '(u0, v0) := nth 0 q (0, 0)%Q in let '(u1, v1) := nth 2 q (0, 0)%Q in
  let a := qmax x0 u0 in let b := qmin x1 u1 in let c := qmax y0 v0 in let d := qmin y1 v1 in
  if Qlt_bool a b && Qlt_bool c d then [[(a, c); (b, c); (b, d); (a, d)]] else [].
Definition ex_poly : poly := [(1, 1); (5, 1); (5, 4); (1, 4)]%Q.
Definition ex_tree : Q * Q -> list (Z * Z) := fun _ => [].
Lemma ex_incr : edges_ok ex_xs /\ increasing ex_xs /\ edges_ok ex_ys /\ increasing ex_ys.
Proof.
  assert (increasing ex_xs) by (intros i j H; unfold ex_xs, edge in *; cbn [map List.length] in *; do 4 (destruct i as [|i]; [do 4 (destruct j as [|j]; [try lia; reflexivity|]); lia|]); lia).
  assert (increasing ex_ys) by (intros i j K; unfold ex_ys, edge in *; cbn [map List.length] in *; do 3 (destruct i as [|i]; [do 3 (destruct j as [|j]; [try lia; reflexivity|]); lia|]); lia).
  repeat split; auto; cbn; lia.
Qed.
Example C30_hypotheses : mesh_ok ex_tree (regular_xy ex_xs ex_ys) 3 4 /\ proper ex_clip.
Proof.
  destruct ex_incr as (Ex & _ & Ey & _). split.
  - split; [lia|]. split; [lia|]. destruct (meshgrid_shape ex_xs ex_ys) as [S1 S2]. split; [exact S1|]. split; [exact S2|].
    cbn. exists ex_xs, ex_ys, (fun kx ky => (Z.of_nat ky, Z.of_nat kx)). split; [exact Ex|]. split; [exact Ey|]. constructor.
  - intros p q c. unfold ex_clip. destruct (nth 0 p _), (nth 2 p _), (nth 0 q _), (nth 2 q _).
    destruct (_ && _); [intros [<-|[]]; discriminate|intros []].
Qed.
Example C30_ex : exists chopped areas pc, slice ex_clip ex_tree (regular_xy ex_xs ex_ys) [ex_poly] NoBox = Ok (chopped, areas) /\
  nth_error chopped 0 = Some pc /\ pc_i pc = [0; 0; 0; 1; 1; 1] /\ pc_j pc = [0; 1; 2; 0; 1; 2] /\
  (total (pc_fracs pc) == 1)%Q.
Proof. do 3 eexists. split; [vm_compute; reflexivity|]. split; [reflexivity|]. split; [reflexivity|]. split; [reflexivity|]. vm_compute. reflexivity. Qed.
Example C31_hypotheses : ~ (size ex_poly == 0)%Q /\
  covered ex_poly (cut ex_clip (regular_xy ex_xs ex_ys) ex_poly [(0, 0); (0, 1); (0, 2); (1, 0); (1, 1); (1, 2)]%nat).
Proof. split; [vm_compute; discriminate|vm_compute; reflexivity]. Qed.
Example C32_ex : exists chopped areas rows W,
  slice ex_clip ex_tree (regular_xy ex_xs ex_ys) [ex_poly; ex_poly] NoBox = Ok (chopped, areas) /\
  split_event_data (regular_xy ex_xs ex_ys) chopped areas [7; 9] = Ok rows /\
  replicate_and_weight_new [mkLut 9 None None (Some 3%Q) 1 1 1 None None None; mkLut 7 None None (Some 12%Q) 1 1 1 None None None] rows = Ok W /\
  map sp_parent rows = [7; 7; 7; 7; 7; 7; 9; 9; 9; 9; 9; 9] /\ (total (energies_of 7 W) == 12)%Q.
Proof. do 4 eexists. split; [vm_compute; reflexivity|]. split; [vm_compute; reflexivity|]. split; [vm_compute; reflexivity|]. split; [reflexivity|]. vm_compute. reflexivity. Qed.
Example C30_single_hypotheses : holds (map inject_Z [0; 10]) 0 (fst (vertex_mean ex_poly)).
Proof. split; [cbn; lia|]. left. split; vm_compute; [reflexivity|discriminate]. Qed.

(** Without a box, a polygon over eight cells of a fine mesh keeps five eighths of its energy. *)
Example C49_energy_lost : exists chopped areas pc,
  slice ex_clip ex_tree (regular_xy (map inject_Z [0; 1; 2; 3; 4; 5; 6; 7; 8; 9; 10]) (map inject_Z [0; 2; 4])) [[(1, 1); (9, 1); (9, 3); (1, 3)]%Q] NoBox = Ok (chopped, areas) /\
  nth_error chopped 0 = Some pc /\ (total (pc_fracs pc) == 5 # 8)%Q.
Proof. do 3 eexists. split; [vm_compute; reflexivity|]. split; [reflexivity|]. vm_compute. reflexivity. Qed.
Example C49_hypotheses : uniform (map inject_Z [0; 2; 4; 6]) 2.
Proof. split; [reflexivity|]. intros k Hk. do 4 (destruct k as [|k]; [reflexivity|]). cbn in Hk. lia. Qed.
Example C49_boxes_hypotheses : (forall a, In a ex_poly -> inside ex_xs (fst a) (fst a) /\ inside ex_ys (snd a) (snd a)) /\
  exists cells, looked_up ex_tree (regular_xy ex_xs ex_ys) TrueBox ex_poly cells /\ In (1, 2)%nat cells.
Proof.
  destruct ex_incr as (_ & Ix & _ & Iy). split.
  - intros a Ha. split; left; (split; [assumption|]); cbn in Ha; repeat (destruct Ha as [<-|Ha]; [split; vm_compute; first [reflexivity|discriminate]|]); contradiction.
  - exists [(0, 0); (0, 1); (0, 2); (1, 0); (1, 1); (1, 2)]%nat. split; [vm_compute; reflexivity|cbn; tauto].
Qed.

Print Assumptions C49_lookup_covers_partial.
Print Assumptions C49_far_cells_refuted.
Print Assumptions C30_aligned.
Print Assumptions C30_succeeds_with_boxes.
Print Assumptions C30_succeeds_without_box.
Print Assumptions C30_explicit_box_refuted.
Print Assumptions C30_single_cell_refuted.
Print Assumptions C31_fractions.
Print Assumptions C31_mesh_fraction.
Print Assumptions C31_mesh_fraction_ij_refuted.
Print Assumptions C31_energy.
Print Assumptions C32_rows.
Print Assumptions C32_lookup_path.
Print Assumptions C32_lookup_path_exists.
Print Assumptions C32_plain_path.
