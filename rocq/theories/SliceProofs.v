(** Lemmas on slicing. *)
From Coq Require Import List ZArith QArith Qabs Bool Lia Lqa.
From Verif Require Import Base BaseProofs Glm Lut LutSpec LutProofs Accum AccumProofs Poly PolySpec PolyProofs PropPoly
  BBox BBoxSpec BBoxProofs PropBBox Slice SliceSpec.
Import ListNotations.
Open Scope Z_scope.

Lemma repeat_map_const : forall A B (c : B) (l : list A), repeat c (List.length l) = map (fun _ => c) l.
Proof. induction l as [|a l IH]; [reflexivity|]. simpl. rewrite IH. reflexivity. Qed.
Lemma repeat_cut : forall clip m p (g : nat * nat -> Z) cells,
  np_repeat (map g cells) (map (@List.length poly) (map (clip p) (map (cell_quad m) cells)))
  = Ok (map (fun e => g (snd e)) (cut clip m p cells)).
Proof.
  intros clip m p g cells. unfold np_repeat. rewrite !map_length, Nat.eqb_refl. f_equal.
  induction cells as [|c cells IH]; [reflexivity|]. cbn [map map2 List.concat cut flat_map].
  rewrite map_app, repeat_map_const. f_equal; [rewrite map_map; reflexivity|exact IH].
Qed.
Lemma concat_cut : forall clip m p cells,
  List.concat (map (clip p) (map (cell_quad m) cells)) = map fst (cut clip m p cells).
Proof.
  induction cells as [|c cells IH]; [reflexivity|]. cbn [map List.concat cut flat_map].
  rewrite map_app. f_equal; [rewrite map_map; symmetry; apply map_id|exact IH].
Qed.
Lemma area_size : forall p a, area_of p = Ok a -> (Qabs a == size p)%Q.
Proof.
  intros p a H. pose proof (C27_area_is_signed_area p) as K. destruct p as [|v p]; [rewrite K in H; discriminate|].
  destruct K as (q & E & Q). rewrite E in H. inversion H; subst q. unfold size. rewrite Q. reflexivity.
Qed.
Lemma area_total : forall p, p <> [] -> exists a, area_of p = Ok a.
Proof. intros [|v p] H; [congruence|]. destruct (C27_area_is_signed_area (v :: p)) as (q & E & _). eauto. Qed.
Lemma qdiv_share : forall a b s t, (Qabs a == s)%Q -> (b == t)%Q -> (0 <= t)%Q -> is_share (option_map Qabs (qdiv a b)) s t.
Proof.
  intros a b s t Ha Hb Ht. unfold qdiv. split; intros K.
  - assert (Qeq_bool b 0 = true) as -> by (apply Qeq_bool_iff; rewrite Hb; exact K). reflexivity.
  - destruct (Qeq_bool b 0) eqn:E; [apply Qeq_bool_iff in E; rewrite Hb in E; contradiction|].
    exists (Qabs (a / b)). split; [reflexivity|]. unfold Qdiv. rewrite Qabs_Qmult, Ha, Hb.
    rewrite (Qabs_pos (/ t)) by (apply Qinv_le_0_compat; exact Ht). reflexivity.
Qed.
Lemma size_nonneg : forall p, (0 <= size p)%Q.
Proof. intros. apply Qabs_nonneg. Qed.

Lemma make_ok : forall clip m p area cells, proper clip -> (area == size p)%Q ->
  exists pc, make_sub_polys clip (p, area, (map (cell_quad m) cells, map fst (map zpair cells), map snd (map zpair cells))) = Ok pc /\
  aligned pc p (cut clip m p cells).
Proof.
  intros clip m p area cells PR HA. unfold make_sub_polys, clip_polys_by_one_poly. rewrite !map_map.
  pose proof (repeat_cut clip m p (fun c => Z.of_nat (fst c)) cells) as R1. rewrite !map_map in R1. cbn [zpair fst snd]. rewrite R1. cbn [bind].
  pose proof (repeat_cut clip m p (fun c => Z.of_nat (snd c)) cells) as R2. rewrite !map_map in R2. rewrite R2. cbn [bind].
  pose proof (concat_cut clip m p cells) as R3. rewrite map_map in R3. rewrite R3.
  assert (F : exists fr, map_res (fun c => a <- area_of c ;; Ok (option_map Qabs (qdiv a area))) (map fst (cut clip m p cells)) = Ok fr /\
    Forall2 (fun f e => is_share f (size (fst e)) (size p)) fr (cut clip m p cells)).
  { assert (NE : forall e, In e (cut clip m p cells) -> fst e <> []).
    { intros e He. unfold cut in He. apply in_flat_map in He. destruct He as (c & _ & He). apply in_map_iff in He.
      destruct He as (q & <- & Hq). apply (PR _ _ _ Hq). }
    revert NE. generalize (cut clip m p cells). induction l as [|e l IH]; intros NE; [exists []; split; [reflexivity|constructor]|].
    destruct IH as (fr & E & F2); [intros x Hx; apply NE; right; auto|].
    destruct (area_total (fst e)) as (a & Ea); [apply NE; left; auto|].
    cbn [map map_res]. rewrite Ea. cbn [bind]. rewrite E. cbn [bind]. eexists. split; [reflexivity|]. constructor; [|exact F2].
    apply qdiv_share; [apply area_size; exact Ea|exact HA|apply size_nonneg]. }
  destruct F as (fr & E & F2). rewrite E. cbn [bind]. eexists. split; [reflexivity|].
  unfold aligned. cbn [pc_polys pc_i pc_j pc_fracs]. repeat split; auto.
Qed.

Lemma norm_index_ok : forall n i, 0 <= i < n -> norm_index n i = Ok i.
Proof.
  intros n i H. unfold norm_index. replace ((0 <=? i) && (i <? n)) with true; [reflexivity|].
  symmetry. apply andb_true_iff. split; [apply Z.leb_le|apply Z.ltb_lt]; lia.
Qed.
Lemma index2_ok : forall A (a : arr A) m n i j, shape m n a -> (i < m)%nat -> (j < n)%nat ->
  forall d, index2 a (Z.of_nat i) (Z.of_nat j) = Ok (entry d a i j).
Proof.
  intros A a m n i j S Hi Hj d. pose proof (at2_entry _ d m n a i j S Hi Hj) as E. apply shape_iff in S. destruct S as [S1 S2].
  unfold index2. rewrite norm_index_ok by lia. cbn [bind]. rewrite Nat2Z.id. unfold at2 in E.
  destruct (nth_error a i) as [r|] eqn:R; [|discriminate]. rewrite norm_index_ok by (rewrite (S2 _ _ R); lia). cbn [bind].
  rewrite Nat2Z.id, E. reflexivity.
Qed.
Lemma quad_cell : forall m M N i j, shape M N (me_x m) -> shape M N (me_y m) -> (S i < M)%nat -> (S j < N)%nat ->
  index2 (polys_from_quadmesh (me_x m) (me_y m)) (Z.of_nat i) (Z.of_nat j) = Ok (cell_quad m (i, j)).
Proof.
  intros m M N i j Sx Sy Hi Hj. destruct (C28_quads_are_cells M N _ _ Sx Sy) as [SQ Q].
  rewrite (index2_ok _ _ (M - 1) (N - 1) i j SQ ltac:(lia) ltac:(lia) []). rewrite (Q i j Hi Hj). reflexivity.
Qed.

Definition valid (M N : nat) (c : nat * nat) : Prop := (S (fst c) < M)%nat /\ (S (snd c) < N)%nat.
Lemma zpair_list : forall (P : nat * nat -> Prop) (l : list (Z * Z)), (forall c, In c l -> exists i j, c = zpair (i, j) /\ P (i, j)) ->
  exists cells, l = map zpair cells /\ Forall P cells.
Proof.
  intros P. induction l as [|c l IH]; intros H; [exists []; split; [reflexivity|constructor]|].
  destruct IH as (cells & -> & F); [intros; apply H; right; auto|].
  destruct (H c) as (i & j & -> & Hc); [left; auto|]. exists ((i, j) :: cells). split; [reflexivity|constructor; auto].
Qed.
Lemma made_shape : forall xs ys m at_, made_from xs ys m at_ -> forall M N, shape M N (me_x m) -> edges_ok xs -> edges_ok ys ->
  forall kx ky, (S kx < List.length xs)%nat -> (S ky < List.length ys)%nat -> exists i j, at_ kx ky = zpair (i, j) /\ valid M N (i, j).
Proof.
  intros xs ys m at_ [|Hs] M N S Hx Hy kx ky Kx Ky.
  - destruct (meshgrid_shape xs ys) as [S' _]. cbn [regular_xy me_x] in S.
    apply shape_iff in S. apply shape_iff in S'. destruct S as [A1 A2], S' as [B1 B2].
    assert (N = List.length xs).
    { destruct (meshgrid_x xs ys) as [|r t] eqn:E; [simpl in *; lia|]. rewrite <- (A2 0%nat r), <- (B2 0%nat r); auto. }
    exists ky, kx. split; [reflexivity|]. unfold valid. simpl. lia.
  - destruct (meshgrid_ij_shape xs ys) as [S' _]. cbn [regular_ij me_x] in S.
    apply shape_iff in S. apply shape_iff in S'. destruct S as [A1 A2], S' as [B1 B2].
    assert (N = List.length ys).
    { destruct (meshgrid_ij_x xs ys) as [|r t] eqn:E; [simpl in *; lia|]. rewrite <- (A2 0%nat r), <- (B2 0%nat r); auto. }
    exists kx, ky. split; [reflexivity|]. unfold valid. simpl. lia.
Qed.
Lemma bbox_cells : forall tree m M N bbox idx, mesh_ok tree m M N -> quads_in_bbox m bbox = Ok idx ->
  exists cells, idx = map zpair cells /\ Forall (valid M N) cells.
Proof.
  intros tree m M N bbox idx (HM & HN & Sx & Sy & R) E. destruct (me_regular m) eqn:RG.
  - destruct R as (xs & ys & at_ & Hx & Hy & MF). destruct (C29_valid_and_distinct xs ys m at_ bbox Hx Hy MF) as (l & E' & _ & V).
    rewrite E in E'. inversion E'; subst l. apply zpair_list. intros c Hc. destruct (V c Hc) as (kx & ky & -> & Kx & Ky).
    apply (made_shape xs ys m at_ MF M N Sx Hx Hy); auto.
  - destruct bbox as [[[x0 x1] y0] y1]. destruct (C29_search M N (me_x m) (me_y m) (x0, x1, y0, y1) Sx Sy) as (l & E' & _ & V).
    assert (Q : quads_in_bbox m (x0, x1, y0, y1) = quads_in_bbox {| me_x := me_x m; me_y := me_y m; me_regular := false |} (x0, x1, y0, y1)).
    { unfold quads_in_bbox. rewrite RG. reflexivity. }
    rewrite Q, E' in E. inversion E; subst l. apply zpair_list. intros c Hc. apply V in Hc. destruct Hc as (i & j & -> & Hi & Hj & _).
    exists i, j. split; [reflexivity|]. split; auto.
Qed.
Lemma nearest_cells : forall tree m M N p idx, mesh_ok tree m M N -> quads_nearest tree m p = Ok idx ->
  exists cells, idx = map zpair cells /\ Forall (valid M N) cells.
Proof.
  intros tree m M N p idx H E. pose proof H as (HM & HN & Sx & Sy & R). unfold quads_nearest in E. destruct (me_regular m) eqn:RG.
  - apply (bbox_cells tree m M N (fst p, fst p, snd p, snd p)); auto. unfold quads_in_bbox. rewrite RG. exact E.
  - inversion E; subst. apply zpair_list. intros c Hc. destruct (R p c Hc) as (i & j & -> & Hi & Hj). exists i, j. split; [reflexivity|]. split; auto.
Qed.
Lemma find_quads_inv : forall tree m M N b p r, mesh_ok tree m M N -> find_quads tree m b p = Ok r ->
  exists cells, looked_up tree m b p cells /\ Forall (valid M N) cells /\
    r = (map (cell_quad m) cells, map fst (map zpair cells), map snd (map zpair cells)).
Proof.
  intros tree m M N b p r H E. unfold find_quads in E. apply bind_ok_inv in E. destruct E as (idx & E & E2).
  assert (exists cells, looked_up tree m b p cells /\ Forall (valid M N) cells /\ idx = map zpair cells) as (cells & L & V & ->).
  { unfold find_cells in E. destruct b; try discriminate.
    - apply bind_ok_inv in E. destruct E as (idx' & E & E'). destruct (Nat.eqb _ 1); [discriminate|]. inversion E'; subst.
      destruct (nearest_cells _ _ _ _ _ _ H E) as (cells & -> & V). exists cells. repeat split; auto.
    - destruct (bbox_cells _ _ _ _ _ _ H E) as (cells & -> & V). exists cells. repeat split; auto. }
  exists cells. split; [exact L|]. split; [exact V|].
  destruct H as (HM & HN & Sx & Sy & _).
  assert (Q : map_res (fun c => index2 (polys_from_quadmesh (me_x m) (me_y m)) (fst c) (snd c)) (map zpair cells) = Ok (map (cell_quad m) cells)).
  { clear -V Sx Sy. induction V as [|[i j] l [V1 V2] V IH]; [reflexivity|]. cbn [map map_res zpair fst snd].
    rewrite (quad_cell m M N i j Sx Sy V1 V2). cbn [bind]. rewrite IH. reflexivity. }
  rewrite Q in E2. cbn [bind] in E2. inversion E2. reflexivity.
Qed.

(** * Slices *)
Lemma slice_spec : forall clip tree m M N b polys chopped areas, mesh_ok tree m M N -> proper clip ->
  slice clip tree m polys b = Ok (chopped, areas) ->
  Forall2 (fun p a => (a == size p)%Q) polys areas /\
  Forall2 (fun p pc => exists cells, looked_up tree m b p cells /\ Forall (valid M N) cells /\ aligned pc p (cut clip m p cells)) polys chopped.
Proof.
  intros clip tree m M N b polys chopped areas H PR E. unfold slice in E.
  apply bind_ok_inv in E. destruct E as (ar & E1 & E). apply bind_ok_inv in E. destruct E as (qs & E2 & E).
  apply bind_ok_inv in E. destruct E as (sp & E3 & E). inversion E; subst. clear E.
  apply map_res_inv in E1, E2, E3. revert qs chopped E2 E3. induction E1 as [|p a polys areas E1 F1 IH]; intros qs chopped E2 E3.
  - cbn in E3. inversion E3. split; constructor.
  - inversion E2 as [|? q ? qs' Q1 Q2]; subst. cbn [combine] in E3. inversion E3 as [|? pc ? ch' P1 P2]; subst.
    destruct (IH _ _ Q2 P2) as [A B].
    apply bind_ok_inv in E1. destruct E1 as (a0 & Ea & Ea'). inversion Ea'; subst a.
    assert (HA : (Qabs a0 == size p)%Q) by (apply area_size; exact Ea).
    split; constructor; auto.
    destruct (find_quads_inv _ _ _ _ _ _ _ H Q1) as (cells & L & V & ->).
    destruct (make_ok clip m p (Qabs a0) cells PR HA) as (pc' & M1 & M2). rewrite M1 in P1. inversion P1; subst pc'. eauto.
Qed.
Lemma slice_total : forall clip tree m M N b polys, mesh_ok tree m M N -> proper clip -> (forall p, In p polys -> p <> []) ->
  (forall p, In p polys -> exists cells, looked_up tree m b p cells /\ (b = NoBox -> List.length cells <> 1%nat)) ->
  exists r, slice clip tree m polys b = Ok r.
Proof.
  intros clip tree m M N b polys H PR NE HL. unfold slice.
  assert (A : exists ar, map_res (fun p => a <- area_of p ;; Ok (Qabs a)) polys = Ok ar /\ Forall2 (fun p a => (a == size p)%Q) polys ar).
  { clear HL. induction polys as [|p polys IH]; [exists []; split; [reflexivity|constructor]|].
    destruct IH as (ar & E & F); [intros; apply NE; right; auto|]. destruct (area_total p) as (a & Ea); [apply NE; left; auto|].
    cbn [map_res]. rewrite Ea. cbn [bind]. rewrite E. cbn [bind]. eexists. split; [reflexivity|]. constructor; [apply area_size; auto|exact F]. }
  destruct A as (ar & -> & FA). cbn [bind].
  assert (B : exists qs, map_res (find_quads tree m b) polys = Ok qs).
  { clear FA NE. induction polys as [|p polys IH]; [exists []; reflexivity|].
    destruct IH as (qs & E); [intros; apply HL; right; auto|]. destruct (HL p) as (cells & L & K); [left; auto|].
    assert (FC : find_cells tree m b p = Ok (map zpair cells)).
    { unfold find_cells. destruct b; cbn in L; try contradiction; [|exact L]. rewrite L. cbn [bind].
      rewrite map_length. destruct (Nat.eqb_spec (List.length cells) 1); [exfalso; apply K; auto|reflexivity]. }
    assert (exists r, find_quads tree m b p = Ok r) as (r & Er).
    { unfold find_quads. rewrite FC. cbn [bind].
      assert (V : Forall (valid M N) cells).
      { destruct b; cbn in L; try contradiction.
        - destruct (nearest_cells _ _ _ _ _ _ H L) as (c' & E' & V). replace cells with c'; [exact V|].
          clear -E'. revert c' E'. induction cells as [|[i j] l IH]; intros [|[i' j'] c'] E'; try discriminate; [reflexivity|].
          cbn in E'. inversion E'. f_equal; [f_equal; lia|]. apply IH. assumption.
        - destruct (bbox_cells _ _ _ _ _ _ H L) as (c' & E' & V). replace cells with c'; [exact V|].
          clear -E'. revert c' E'. induction cells as [|[i j] l IH]; intros [|[i' j'] c'] E'; try discriminate; [reflexivity|].
          cbn in E'. inversion E'. f_equal; [f_equal; lia|]. apply IH. assumption. }
      destruct H as (HM & HN & Sx & Sy & _).
      rewrite (map_res_ok _ _ _ (fun c => cell_quad m (Z.to_nat (fst c), Z.to_nat (snd c)))); [cbn [bind]; eauto|].
      intros c Hc. apply in_map_iff in Hc. destruct Hc as ([i j] & <- & Hc). rewrite Forall_forall in V. destruct (V _ Hc) as [V1 V2].
      cbn [zpair fst snd]. rewrite !Nat2Z.id. apply (quad_cell m M N); auto. }
    cbn [map_res]. rewrite Er. cbn [bind]. rewrite E. cbn [bind]. eauto. }
  destruct B as (qs & EB). rewrite EB. cbn [bind]. apply map_res_inv in EB.
  assert (C : exists sp, map_res (make_sub_polys clip) (combine (combine polys ar) qs) = Ok sp).
  { clear NE HL. revert qs EB. induction FA as [|p a polys ar Ha FA IH]; intros qs EB; [exists []; reflexivity|].
    inversion EB as [|? q ? qs' Q1 Q2]; subst. destruct (IH _ Q2) as (sp & E).
    destruct (find_quads_inv _ _ _ _ _ _ _ H Q1) as (cells & L & V & ->).
    destruct (make_ok clip m p a cells PR Ha) as (pc & M1 & _). cbn [combine map_res]. rewrite M1. cbn [bind]. rewrite E. cbn [bind]. eauto. }
  destruct C as (sp & ->). cbn [bind]. eauto.
Qed.

(** * Fractions *)
Lemma fractions_total : forall fr p l, ~ (size p == 0)%Q -> Forall2 (fun f (e : poly * (nat * nat)) => is_share f (size (fst e)) (size p)) fr l ->
  numbers fr /\ (forall f, In (Some f) fr -> (0 <= f)%Q) /\ (total fr == qsum (map (fun e => size (fst e)) l) / size p)%Q.
Proof.
  intros fr p l Hp F. induction F as [|f e fr l [_ Hf] F IH].
  - split; [intros v []|]. split; [intros f []|]. unfold total. cbn. field. exact Hp.
  - destruct IH as (N & P & T). destruct (Hf Hp) as (x & -> & Hx). split; [|split].
    + intros v [<-|Hv]; [discriminate|apply N; auto].
    + intros v [E|Hv]; [inversion E; subst|apply P; auto]. rewrite Hx. unfold Qdiv.
      apply Qmult_le_0_compat; [apply size_nonneg|apply Qinv_le_0_compat, size_nonneg].
    + unfold total in *. cbn [map qsum fold_right num] in *. unfold qsum in *. cbn [fold_right]. rewrite T, Hx. field. exact Hp.
Qed.

(** * Rows of the split table *)
Lemma share_mult : forall f a b t, ~ (t == 0)%Q -> is_share f a t -> (b == t)%Q -> forall q,
  is_share (match f with Some v => qdiv (v * b) q | None => None end) a q.
Proof.
  intros f a b t Ht [_ Hf] Hb q. destruct (Hf Ht) as (x & -> & Hx).
  assert (E : (x * b == a)%Q) by (rewrite Hx, Hb; field; exact Ht).
  unfold qdiv. split; intros K.
  - assert (Qeq_bool q 0 = true) as -> by (apply Qeq_bool_iff; exact K). reflexivity.
  - destruct (Qeq_bool q 0) eqn:EQ; [apply Qeq_bool_iff in EQ; contradiction|]. exists (x * b / q)%Q. split; [reflexivity|].
    rewrite E. reflexivity.
Qed.
Lemma share_ext : forall f a q q', is_share f a q -> (q == q')%Q -> is_share f a q'.
Proof.
  intros f a q q' [H1 H2] E. split; intros K.
  - apply H1. rewrite E. exact K.
  - destruct H2 as (x & -> & Hx); [intros Z; apply K; rewrite <- E; exact Z|]. exists x. split; [reflexivity|]. rewrite Hx, E. reflexivity.
Qed.
Lemma cut_valid : forall clip m p M N cells, Forall (valid M N) cells -> Forall (fun e => valid M N (snd e)) (cut clip m p cells).
Proof.
  intros clip m p M N cells H. rewrite Forall_forall in *. intros e He. unfold cut in He. apply in_flat_map in He.
  destruct He as (c & Hc & He). apply in_map_iff in He. destruct He as (q & <- & _). apply H. exact Hc.
Qed.
Lemma split_one_ok : forall m M N p id pc a l, (2 <= M)%nat -> (2 <= N)%nat -> shape M N (me_x m) -> shape M N (me_y m) ->
  aligned pc p l -> Forall (fun e => valid M N (snd e)) l -> (a == size p)%Q ->
  exists rows, split_one m (pc, a, id) = Ok rows /\ Forall2 (is_row m p id) rows l.
Proof.
  intros m M N p id pc a l HM HN Sx Sy (A1 & A2 & A3 & A4) V HA. unfold split_one, quad_frac_from_poly_frac_area.
  destruct (C28_areas_add_up M N _ _ ltac:(lia) ltac:(lia) Sx Sy) as (A & EA & SA & CA & _). rewrite EA. cbn [bind].
  rewrite A1, A2, A3. clear A1 A2 A3.
  assert (CB : combine (map (fun e : poly * (nat * nat) => Z.of_nat (fst (snd e))) l) (map (fun e => Z.of_nat (snd (snd e))) l)
    = map (fun e => zpair (snd e)) l).
  { clear. induction l as [|e l IH]; [reflexivity|]. cbn [map combine]. rewrite IH. reflexivity. }
  rewrite CB.
  assert (Q : map_res (fun c => index2 A (fst c) (snd c)) (map (fun e => zpair (snd e)) l) = Ok (map (fun e => entry 0%Q A (fst (snd e)) (snd (snd e))) l)).
  { clear -V SA. induction V as [|e l [V1 V2] V IH]; [reflexivity|]. cbn [map map_res zpair fst snd].
    rewrite (index2_ok _ A (M - 1) (N - 1) (fst (snd e)) (snd (snd e)) SA ltac:(lia) ltac:(lia) 0%Q). cbn [bind]. rewrite IH. reflexivity. }
  rewrite Q. cbn [bind]. eexists. split; [reflexivity|]. clear Q CB EA.
  revert A4 V. generalize (pc_fracs pc) as fr. intros fr A4 V. induction A4 as [|f e fr l Hf A4 IH]; [constructor|].
  inversion V as [|? ? [V1 V2] V']; subst. cbn [map map2 combine]. constructor; [|apply IH; exact V'].
  destruct e as [q [i j]]. cbn [fst snd] in *. constructor; cbn [sp_parent sp_i sp_j sp_x sp_y sp_frac sp_mesh_frac fst snd]; auto.
  - unfold vertex_mean, vertex_average, qmean. cbn [fst]. rewrite map_length. reflexivity.
  - unfold vertex_mean, vertex_average, qmean. cbn [snd]. rewrite map_length. reflexivity.
  - intros Hp. apply share_ext with (entry 0%Q A i j); [apply (share_mult f (size q) a (size p) Hp Hf HA)|].
    unfold cell_quad. apply CA; auto.
Qed.
Lemma split_data_ok : forall clip tree m M N b polys chopped areas ids, mesh_ok tree m M N -> proper clip ->
  slice clip tree m polys b = Ok (chopped, areas) -> List.length ids = List.length polys ->
  exists blocks, split_event_data m chopped areas ids = Ok (List.concat blocks) /\
    Forall2 (fun pi block => exists cells, looked_up tree m b (fst pi) cells /\ Forall (valid M N) cells /\
                              Forall2 (is_row m (fst pi) (snd pi)) block (cut clip m (fst pi) cells)) (combine polys ids) blocks.
Proof.
  intros clip tree m M N b polys chopped areas ids H PR E L. destruct (slice_spec _ _ _ _ _ _ _ _ _ H PR E) as [FA FC].
  destruct H as (HM & HN & Sx & Sy & _). unfold split_event_data.
  assert (K : exists blocks, map_res (split_one m) (combine (combine chopped areas) ids) = Ok blocks /\
    Forall2 (fun pi block => exists cells, looked_up tree m b (fst pi) cells /\ Forall (valid M N) cells /\
                              Forall2 (is_row m (fst pi) (snd pi)) block (cut clip m (fst pi) cells)) (combine polys ids) blocks).
  { clear E. revert chopped ids FC L. induction FA as [|p a polys areas Ha FA IH]; intros chopped ids FC L.
    - inversion FC. exists []. split; [reflexivity|constructor].
    - inversion FC as [|? pc ? ch' C1 C2]; subst. destruct ids as [|id ids]; [discriminate|]. cbn in L.
      destruct (IH _ ids C2 ltac:(lia)) as (blocks & E & F). destruct C1 as (cells & LU & V & AL).
      destruct (split_one_ok m M N p id pc a _ HM HN Sx Sy AL (cut_valid clip m p M N cells V) Ha) as (rows & E1 & F1).
      exists (rows :: blocks). cbn [combine map_res]. rewrite E1. cbn [bind]. rewrite E. cbn [bind]. split; [reflexivity|].
      constructor; [|exact F]. cbn [fst snd]. eauto. }
  destruct K as (blocks & -> & F). cbn [bind]. eauto.
Qed.

(** * Inheritance *)
Lemma is_product_fmul : forall a b, is_product (fmul a b) a b.
Proof. intros [x|] [y|]; cbn; auto. exists (x * y)%Q. split; reflexivity. Qed.
Lemma weight_inherits : forall s r, sp_parent s = lu_id r -> inherits (weight_row s r) s r.
Proof. intros s r H. constructor; try exact H; try reflexivity; apply is_product_fmul. Qed.
Lemma loc1_in : forall P k r, loc1 P k = Ok r -> In r P /\ lu_id r = k /\ forall r', In r' P -> lu_id r' = k -> r' = r.
Proof.
  intros P k r H. unfold loc1 in H. destruct (filter _ P) as [|r0 [|? ?]] eqn:E; try discriminate. inversion H; subst r0.
  assert (K : forall r', In r' P -> lu_id r' = k -> r' = r).
  { intros r' H1 H2. assert (In r' (filter (fun r => lu_id r =? k) P)) as F by (apply filter_In; split; auto; apply Z.eqb_eq; auto).
    rewrite E in F. destruct F as [F|[]]. auto. }
  assert (In r (filter (fun r => lu_id r =? k) P)) as F by (rewrite E; left; auto). apply filter_In in F. destruct F as [F1 F2].
  apply Z.eqb_eq in F2. auto.
Qed.
Lemma loc1_unique : forall P r, NoDup (map lu_id P) -> In r P -> loc1 P (lu_id r) = Ok r.
Proof. intros P r ND Hr. unfold loc1. rewrite (filter_key_unique _ lu_id P r ND Hr). reflexivity. Qed.
Lemma F2_map2 : forall A B C (R : A -> C -> Prop) (Q : A -> B -> Prop) (f : A -> B -> C) la lb, Forall2 Q la lb ->
  (forall a b, Q a b -> R a (f a b)) -> Forall2 R la (map2 f la lb).
Proof. intros A B C R Q f la lb H K. induction H; cbn [map2]; constructor; auto. Qed.
Lemma replicate_blocks : forall P parents blocks, NoDup (map lu_id P) -> (forall r, In r parents -> In r P) ->
  Forall2 (fun r block => Forall (fun s => sp_parent s = lu_id r) block) parents blocks ->
  replicate_and_weight_new P (List.concat blocks)
  = Ok (List.concat (map2 (fun r block => map (fun s => weight_row s r) block) parents blocks)).
Proof.
  intros P parents blocks ND HP F. unfold replicate_and_weight_new.
  assert (K : forall s r, In r P -> sp_parent s = lu_id r -> loc1 P (sp_parent s) = Ok r) by (intros s r H1 ->; apply loc1_unique; auto).
  assert (E : map_res (loc1 P) (map sp_parent (List.concat blocks)) = Ok (List.concat (map2 (fun r (block : list split) => map (fun _ => r) block) parents blocks)) /\
    map2 weight_row (List.concat blocks) (List.concat (map2 (fun r (block : list split) => map (fun _ => r) block) parents blocks))
    = List.concat (map2 (fun r block => map (fun s => weight_row s r) block) parents blocks)).
  { induction F as [|r block parents blocks HB F IH]; [split; reflexivity|].
    destruct IH as [E1 E2]; [intros; apply HP; right; auto|]. cbn [List.concat map2]. rewrite map_app.
    assert (Hr : In r P) by (apply HP; left; auto). split.
    - induction HB as [|s block Hs HB IHB]; [exact E1|]. cbn [map app map_res]. rewrite (K s r Hr Hs). cbn [bind].
      rewrite IHB. reflexivity.
    - induction HB as [|s block Hs HB IHB]; [exact E2|]. cbn [map app map2]. rewrite IHB. reflexivity. }
  destruct E as [-> E2]. cbn [bind]. rewrite E2. reflexivity.
Qed.
