(** C105: the order of the rows of a file. *)
From Coq Require Import String List ZArith QArith Qabs Qreduction Bool Lia Permutation Sorting.Sorted.
From Verif Require Import Base BaseProofs Traversal TraversalSpec TraversalProofs TraversalProofs2 TraversalProofs3 TraversalProofs4 Glm GlmSpec GlmProofs GlmProofs2 GlmProofs3
  Lut LutSpec LutProofs PropGlm PropLut Accum AccumSpec AccumProofs Poly PolySpec BBox BBoxSpec Slice SliceSpec Regroup Pipeline PipelineSpec PipelineProofs PropSlice PropPipeline ChunkSpec ChunkProofs PropChunks RowOrderSpec RowOrderProofs.
Import ListNotations.
Open Scope Z_scope.
Local Notation tbl := (table obs).

(** The flashes, groups and events selected from a file are the same whatever the order of
    its rows. *)
Theorem C105_selection : forall set_order, (forall l, Permutation (set_order l) l) ->
  forall (F G E : tbl) ds' q, same_rows [F; G; E] ds' -> derived_ok F G E -> F <> [] -> G <> [] -> E <> [] -> q_check q = true ->
  exists sel sel', subset_flashes set_order [F; G; E] q = Ok sel /\ subset_flashes set_order ds' q = Ok sel' /\ same_rows sel sel'.
Proof.
  intros so HP F G E ds' q SR D nF nG nE HQ. destruct (perm3 _ _ F G E SR eq_refl) as (F' & G' & E' & -> & PF & PG & PE).
  destruct (selection_perm so HP F G E F' G' E' (Some q) PF PG PE D nF nG nE) as (F2 & G2 & E2 & F2' & G2' & E2' & S & S' & P1 & P2 & P3); [intros q' K; inversion K; subst; auto|].
  exists [F2; G2; E2], [F2'; G2'; E2']. split; [exact S|]. split; [exact S'|]. repeat constructor; auto.
Qed.
Print Assumptions C105_selection.

(** So is the event lookup table: the same pixels in the same order, with the same means,
    sums, counts and minima. *)
Theorem C105_table : forall weird scale xr yr (F G E : tbl) ds', same_rows [F; G; E] ds' ->
  derived_ok F G E -> F <> [] -> G <> [] -> E <> [] -> numbers (areas F) -> numbers (areas G) ->
  exists L L', get_lutevents weird scale xr yr [F; G; E] = Ok L /\ get_lutevents weird scale xr yr ds' = Ok L' /\ Forall2 same_pixel L L'.
Proof.
  intros weird scale xr yr F G E ds' SR D nF nG nE NF NG. destruct (perm3 _ _ F G E SR eq_refl) as (F' & G' & E' & -> & PF & PG & PE).
  pose proof (derived_perm F G E F' G' E' PF PG PE D) as D'.
  assert (N : forall T T' : tbl, Permutation T T' -> T <> [] -> T' <> []) by (intros T T' P n K; subst T'; apply n; apply Permutation_nil; apply Permutation_sym; exact P).
  destruct (C24_table_exists weird scale xr yr F G E nF nG nE NF D) as (L & HL).
  destruct (C24_table_exists weird scale xr yr F' G' E' (N _ _ PF nF) (N _ _ PG nG) (N _ _ PE nE) (numbers_perm _ _ _ PF NF) D') as (L' & HL').
  exists L, L'. split; [exact HL|]. split; [exact HL'|]. destruct D as ((U & _) & _). apply unique3 in U. destruct U as (u1 & u2 & _).
  apply (table_perm weird scale xr yr F G E F' G' E' L L' PF PG PE NF NG u1 u2 HL HL').
Qed.
Print Assumptions C105_table.

(** * Grids *)
Section Grids.
Variable set_order : list Z -> list Z.
Hypothesis HP : forall l, Permutation (set_order l) l.
Variable weird : fval -> Z.
Variable clip : poly -> poly -> list poly.
Variable tree : Q * Q -> list (Z * Z).
Variable quad : fval -> fval -> poly.
Hypothesis BP : by_position quad.
Variables (cs : nat) (q : option query).
Hypothesis Hcs : (0 < cs)%nat.
Hypothesis HQ : forall q', q = Some q' -> q_check q' = true.
Let lut := get_lutevents weird lut_scale lut_range lut_range.

Lemma same_quads : forall L L', Forall2 same_pixel L L' -> map (fun r => quad (lu_x r) (lu_y r)) L = map (fun r => quad (lu_x r) (lu_y r)) L' /\ map lu_id L = map lu_id L'.
Proof.
  induction 1 as [|r r' L L' (i & x & y & _) H [IH1 IH2]]; [split; reflexivity|]. cbn [map]. rewrite IH1, IH2, i, (BP _ _ _ _ x y). split; reflexivity.
Qed.
Lemma loc1_same : forall L L' k r, Forall2 same_pixel L L' -> loc1 L k = Ok r -> exists r', loc1 L' k = Ok r'.
Proof.
  intros L L' k r H E. unfold loc1 in *.
  assert (K : List.length (filter (fun r => lu_id r =? k) L) = List.length (filter (fun r => lu_id r =? k) L')).
  { clear E. induction H as [|a b L L' (i & _) H IH]; [reflexivity|]. cbn [filter]. rewrite <- i. destruct (lu_id a =? k); cbn [List.length]; congruence. }
  destruct (filter (fun r => lu_id r =? k) L) as [|a [|? ?]]; try discriminate E. destruct (filter (fun r0 => lu_id r0 =? k) L') as [|b [|? ?]]; try discriminate K. eauto.
Qed.
Lemma map2_nil : forall A B C (f : A -> B -> C) l l', List.length l = List.length l' -> map2 f l l' = [] -> l = [].
Proof. intros A B C f [|a l] [|b l'] E H; try reflexivity; discriminate. Qed.
Lemma chunk_same : forall m c c' L L' R, lut c = Ok L -> lut c' = Ok L' -> Forall2 same_pixel L L' ->
  read_chunk weird clip tree quad m c = Ok R -> exists R', read_chunk weird clip tree quad m c' = Ok R'.
Proof.
  intros m c c' L L' R HL HL' SP H. unfold read_chunk, chunk_weighted in *. unfold lut in *. rewrite HL in H. rewrite HL'. cbn [bind] in *.
  destruct (same_quads L L' SP) as [EQ EI]. rewrite EQ, EI in H.
  destruct (slice clip tree m (map (fun r => quad (lu_x r) (lu_y r)) L') NoBox) as [[cp pa]|]; [|discriminate H]. cbn [bind] in *.
  destruct (split_event_data m cp pa (map lu_id L')) as [rows|]; [|discriminate H]. cbn [bind] in *.
  unfold replicate_and_weight_new in *. apply bind_ok_inv in H. destruct H as (W & H & HR). apply bind_ok_inv in H. destruct H as (rep & H & HW).
  assert (exists rep', map_res (loc1 L') (map sp_parent rows) = Ok rep' /\ List.length rep' = List.length rows) as (rep' & -> & LEN).
  { clear HW HR. revert rep H. induction rows as [|s rows IH]; intros rep H; [exists []; split; reflexivity|]. cbn [map map_res] in *.
    destruct (loc1 L (sp_parent s)) as [r|] eqn:E1; [|discriminate H]. cbn [bind] in H. destruct (loc1_same L L' _ r SP E1) as (r' & ->). cbn [bind].
    destruct (map_res (loc1 L) (map sp_parent rows)) as [x|]; [|discriminate H]. destruct (IH x eq_refl) as (x' & -> & Hx). cbn [bind]. exists (r' :: x'). split; [reflexivity|]. cbn. congruence. }
  cbn [bind]. inversion HW; subst W. clear HW.
  unfold regroup in *. destruct (map2 weight_row rows rep') as [|w W] eqn:EM; [|eauto].
  apply map2_nil in EM; [|congruence]. subst rows. cbn in HR. discriminate HR.
Qed.

Lemma file_cases : forall ds ds', usable ds -> one_chunk set_order q cs ds -> same_rows ds ds' ->
  (nth_error ds 2 = Some [] /\ nth_error ds' 2 = Some []) \/
  ((exists e E, nth_error ds 2 = Some (e :: E)) /\ (exists e E, nth_error ds' 2 = Some (e :: E)) /\
   ((flash_chunks set_order cs ds q = Ok [] /\ flash_chunks set_order cs ds' q = Ok []) \/
    exists c c', flash_chunks set_order cs ds q = Ok [c] /\ flash_chunks set_order cs ds' q = Ok [c'] /\
      (forall L, lut c = Ok L -> exists L', lut c' = Ok L' /\ Forall2 same_pixel L L'))).
Proof.
  intros ds ds' US OC SR. destruct US as [Z|(F & G & E & -> & nF & nG & nE & D & NF & NG & NE)].
  - left. split; [exact Z|]. inversion SR as [|? ? r0 r0' P0 SR0]; subst; [discriminate Z|]. inversion SR0 as [|? ? r1 r1' P1 SR1]; subst; [discriminate Z|]. inversion SR1 as [|? ? r2 r2' P2 SR2]; subst; [discriminate Z|].
    cbn in *. inversion Z; subst. apply Permutation_nil in P2. subst. reflexivity.
  - right. destruct (perm3 _ _ F G E SR eq_refl) as (F' & G' & E' & -> & PF & PG & PE).
    assert (N : forall T T' : tbl, Permutation T T' -> T <> [] -> T' <> []) by (intros T T' P n K; subst T'; apply n; apply Permutation_nil; apply Permutation_sym; exact P).
    pose proof (derived_perm F G E F' G' E' PF PG PE D) as D'. pose proof (N _ _ PF nF) as nF'. pose proof (N _ _ PG nG) as nG'. pose proof (N _ _ PE nE) as nE'.
    split; [destruct E as [|e E]; [congruence|cbn; eauto]|]. split; [destruct E' as [|e E']; [congruence|cbn; eauto]|].
    destruct (selection_perm set_order HP F G E F' G' E' q PF PG PE D nF nG nE HQ) as (F2 & G2 & E2 & F2' & G2' & E2' & S & S' & P1 & P2 & P3).
    pose proof (OC F2 G2 E2 S) as LEN. assert (LEN' : (List.length F2' < 2 * cs)%nat) by (rewrite <- (Permutation_length P1); exact LEN).
    destruct (one_chunk_of set_order HP cs F G E q Hcs D nF nG nE HQ F2 G2 E2 S LEN) as [[Z C]|(nz & G3 & E3 & C & Q1 & Q2 & D3)];
    destruct (one_chunk_of set_order HP cs F' G' E' q Hcs D' nF' nG' nE' HQ F2' G2' E2' S' LEN') as [[Z' C']|(nz' & G3' & E3' & C' & Q1' & Q2' & D3')].
    + left. auto.
    + exfalso. subst F2. apply Permutation_nil in P1. congruence.
    + exfalso. subst F2'. apply Permutation_sym, Permutation_nil in P1. congruence.
    + right. exists [F2; G3; E3], [F2'; G3'; E3']. split; [exact C|]. split; [exact C'|]. intros L HL.
      assert (P4 : Permutation G3 G3') by (eapply perm_trans; [apply Permutation_sym; exact Q1|]; eapply perm_trans; [exact P2|exact Q1']).
      assert (P5 : Permutation E3 E3') by (eapply perm_trans; [apply Permutation_sym; exact Q2|]; eapply perm_trans; [exact P3|exact Q2']).
      destruct (selection_exists set_order HP F G E q D nF nG nE HQ) as (Fs & Gs & Es & Ss & HF2 & HG2 & _).
      assert ([Fs; Gs; Es] = [F2; G2; E2]) as EQ by (unfold selection in *; destruct q; congruence). inversion EQ; subst Fs Gs Es. clear EQ.
      assert (NF2 : numbers (areas F2)) by (apply (sub_nums _ F); auto).
      assert (NG3 : numbers (areas G3)) by (apply (sub_nums _ G); auto; intros x Hx; apply (Permutation_in _ (Permutation_sym Q1)) in Hx; apply HG2 in Hx; tauto).
      destruct (lut_spec weird lut_scale lut_range lut_range F2 G3 E3 L NF2 NG3 HL) as (z1 & z2 & z3 & _).
      destruct (C24_table_exists weird lut_scale lut_range lut_range F2' G3' E3' nz' (N _ _ P4 z2) (N _ _ P5 z3) (numbers_perm _ _ _ P1 NF2) D3') as (L' & HL').
      exists L'. split; [exact HL'|]. destruct D3 as ((U & _) & _). apply unique3 in U. destruct U as (u1 & u2 & _).
      apply (table_perm weird lut_scale lut_range lut_range F2 G3 E3 F2' G3' E3' L L' P1 P4 P5 NF2 NG3 u1 u2 HL HL').
Qed.

Lemma tables_same : forall files files' t t', Forall usable files -> Forall (one_chunk set_order q cs) files -> Forall2 same_rows files files' ->
  tables_read set_order weird cs q files t -> tables_read set_order weird cs q files' t' -> Forall2 (Forall2 same_pixel) t t'.
Proof.
  intros files files' t t' US OC SR (x & T & ->) (x' & T' & ->). revert x x' T T'. induction SR as [|ds ds' files files' H SR IH]; intros x x' T T'.
  - inversion T; subst. inversion T'; subst. constructor.
  - inversion US as [|? ? U US']; subst. inversion OC as [|? ? O OC']; subst. inversion T as [|? a ? xs Ta Txs]; subst. inversion T' as [|? a' ? xs' Ta' Txs']; subst. cbn [List.concat].
    apply Forall2_app; [|apply IH; auto].
    destruct (file_cases ds ds' U O H) as [[Z Z']|((e & E & Z) & (e' & E' & Z') & K)].
    + destruct Ta as [[_ ->]|[(? & ? & ?) _]]; [|congruence]. destruct Ta' as [[_ ->]|[(? & ? & ?) _]]; [|congruence]. constructor.
    + destruct Ta as [[? _]|[_ (ch & C & L)]]; [congruence|]. destruct Ta' as [[? _]|[_ (ch' & C' & L')]]; [congruence|].
      destruct K as [[K K']|(c & c' & K & K' & TB)]; rewrite K in C; inversion C; subst ch; rewrite K' in C'; inversion C'; subst ch'.
      * inversion L; subst. inversion L'; subst. constructor.
      * inversion L as [|? l ? ? HL HN]; subst. inversion HN; subst. inversion L' as [|? l' ? ? HL' HN']; subst. inversion HN'; subst.
        destruct (TB l HL) as (l2 & E2 & SP). unfold lut in E2. rewrite HL' in E2. inversion E2; subst l2. repeat constructor. exact SP.
Qed.

Lemma run_same : forall m files files' bs, Forall usable files -> Forall (one_chunk set_order q cs) files -> Forall2 same_rows files files' ->
  read_files set_order weird clip tree quad m cs files q = Ok bs -> exists bs', read_files set_order weird clip tree quad m cs files' q = Ok bs'.
Proof.
  intros m files files' bs US OC SR H. unfold read_files in *. apply bind_ok_inv in H. destruct H as (bss & H & _).
  match type of H with map_res ?h _ = _ => set (hh := h) in * end.
  assert (exists b, map_res hh files' = Ok b) as (b & ->); [|cbn [bind]; eauto].
  revert bss H. induction SR as [|ds ds' files files' S SR IH]; intros bss H; [exists []; reflexivity|].
  inversion US as [|? ? U US']; subst. inversion OC as [|? ? O OC']; subst. cbn [map_res] in *.
  apply bind_ok_inv in H. destruct H as (b1 & H1 & H). apply bind_ok_inv in H. destruct H as (b2 & H2 & _).
  destruct (IH US' OC' b2 H2) as (b2' & E2).
  assert (exists b1', hh ds' = Ok b1') as (b1' & E1); [|rewrite E1, E2; cbn [bind]; eauto].
  unfold hh in *. destruct (file_cases ds ds' U O S) as [[Z Z']|((e & E & Z) & (e' & E' & Z') & K)]; rewrite Z'; [eauto|]. rewrite Z in H1.
  unfold read_flashes in *. destruct K as [[K K']|(c & c' & K & K' & TB)]; rewrite K'; rewrite K in H1; cbn [bind map_res] in *; [eauto|].
  apply bind_ok_inv in H1. destruct H1 as (R & HR & _).
  assert (exists L, lut c = Ok L) as (L & HL).
  { unfold read_chunk, chunk_weighted in HR. unfold lut. destruct (get_lutevents weird lut_scale lut_range lut_range c); [eauto|discriminate HR]. }
  destruct (TB L HL) as (L' & HL' & SP). destruct (chunk_same m c c' L L' R HL HL' SP HR) as (R' & ->). cbn [bind]. eauto.
Qed.

Lemma over_same : forall (f w : lutrow -> Q) t t', Forall2 (Forall2 same_pixel) t t' ->
  (forall r r', same_pixel r r' -> f r == f r')%Q -> (forall r r', same_pixel r r' -> w r == w r')%Q ->
  (over (fun r => f r * w r) t == over (fun r => f r * w r) t')%Q.
Proof.
  intros f w t t' H HF HW. unfold over. induction H as [|a b t t' H1 H IH]; [reflexivity|]. cbn [List.concat]. rewrite !map_app, !qsum_app. apply Qplus_comp; [|exact IH].
  clear IH H. induction H1 as [|r r' a b S H1 IH]; [reflexivity|]. cbn [map]. change (qsum (?x :: ?l)) with (x + qsum l)%Q. rewrite IH, (HF r r' S), (HW r r' S). reflexivity.
Qed.
Lemma row_same : forall t t' r', Forall2 (Forall2 same_pixel) t t' -> In r' (List.concat t') -> exists r, In r (List.concat t) /\ same_pixel r r'.
Proof.
  intros t t' r' H I. apply in_concat in I. destruct I as (l' & Hl' & Hr'). destruct (F2_in_r _ _ _ _ _ _ H Hl') as (l & Hl & S). destruct (F2_in_r _ _ _ _ _ _ S Hr') as (r & Hr & K).
  exists r. split; [apply in_concat; eauto|exact K].
Qed.
Lemma row_same' : forall t t' r, Forall2 (Forall2 same_pixel) t t' -> In r (List.concat t) -> exists r', In r' (List.concat t') /\ same_pixel r r'.
Proof.
  intros t t' r H I. apply in_concat in I. destruct I as (l & Hl & Hr). destruct (F2_in_l _ _ _ _ _ _ H Hl) as (l' & Hl' & S). destruct (F2_in_l _ _ _ _ _ _ S Hr) as (r' & Hr' & K).
  exists r'. split; [apply in_concat; eauto|exact K].
Qed.
End Grids.

(** Files with the same flashes, groups and events in another order give the same grids, if
    the flashes selected from a file are read in one chunk (fewer than twice the chunk
    size, 40000 with the default). *)
Theorem C105_grids : forall set_order, (forall l, Permutation (set_order l) l) ->
  forall weird clip tree quad xe ye chunk_size files files' q g,
  (1 < List.length xe)%nat -> (1 < List.length ye)%nat -> increasing xe -> increasing ye -> proper clip -> by_position quad ->
  (0 < chunk_size)%nat -> (forall q', q = Some q' -> q_check q' = true) ->
  Forall usable files -> Forall (one_chunk set_order q chunk_size) files -> Forall2 same_rows files files' ->
  grid_files set_order weird clip tree quad xe ye chunk_size files q = Ok g ->
  exists g' tables, grid_files set_order weird clip tree quad xe ye chunk_size files' q = Ok g' /\
    tables_read set_order weird chunk_size q files tables /\
    ((forall r, In r (List.concat tables) -> ~ (size (quad (lu_x r) (lu_y r)) == 0)%Q) ->
     forall kx ky, (S kx < List.length xe)%nat -> (S ky < List.length ye)%nat ->
     forall h, In h [gr_energy; gr_fcount; gr_gcount; gr_farea; gr_garea] ->
     feq (g_at (h g) (Z.of_nat kx) (Z.of_nat ky)) (g_at (h g') (Z.of_nat kx) (Z.of_nat ky))) /\
    ((forall r, In r (List.concat tables) -> positive (lu_minarea r)) ->
     forall kx ky, (S kx < List.length xe)%nat -> (S ky < List.length ye)%nat ->
     feq (g_at (gr_minarea g) (Z.of_nat kx) (Z.of_nat ky)) (g_at (gr_minarea g') (Z.of_nat kx) (Z.of_nat ky))).
Proof.
  intros so HP weird clip tree quad xe ye cs files files' q g HX HY IX IY PR BP Hcs HQ US OC SR H.
  assert (exists g', grid_files so weird clip tree quad xe ye cs files' q = Ok g') as (g' & H').
  { unfold grid_files in *. change (mkMesh (meshgrid_x xe ye) (meshgrid_y xe ye) true) with (regular_xy xe ye) in *. apply bind_ok_inv in H. destruct H as (bs & HR & _).
    destruct (run_same so HP weird clip tree quad BP cs q Hcs HQ (regular_xy xe ye) files files' bs US OC SR HR) as (bs' & HR'). rewrite HR'. cbn [bind].
    destruct (read_all so weird clip tree quad xe ye HX HY IX IY PR cs q files' bs' HR') as (ts & Ws & _ & FW & FR).
    pose proof (all_fit _ _ _ _ _ _ _ FW) as FIT. unfold make_grids. set (nx := Z.of_nat (List.length xe) - 1) in *. set (ny := Z.of_nat (List.length ye) - 1) in *.
    assert (A : forall col, exists g, accumulate (zeros nx ny) (map (items col) bs') = Ok g) by (intros; apply accumulate_total; apply (batches_in_grid nx ny Ws); auto).
    assert (B : exists g, accumulate_min (zeros nx ny) (map (items ce_minarea) bs') = Ok g) by (apply accumulate_min_total; apply (batches_in_grid nx ny Ws); auto).
    destruct (A ce_power) as (g1 & ->). cbn [bind]. destruct (A ce_fcount) as (g2 & ->). cbn [bind]. destruct (A ce_farea) as (g3 & ->). cbn [bind].
    destruct B as (g4 & ->). cbn [bind]. destruct (A ce_gcount) as (g5 & ->). cbn [bind]. destruct (A ce_garea) as (g6 & ->). cbn [bind]. eauto. }
  destruct (C36_cells so weird clip tree quad xe ye cs files q g HX HY IX IY PR H) as (t & TR & V).
  destruct (C36_cells so weird clip tree quad xe ye cs files' q g' HX HY IX IY PR H') as (t' & TR' & V').
  destruct (C36_minimum so weird clip tree quad xe ye cs files q g HX HY IX IY PR H) as (tm & TRm & M).
  destruct (C36_minimum so weird clip tree quad xe ye cs files' q g' HX HY IX IY PR H') as (tm' & TRm' & M').
  pose proof (tables_same so HP weird tree cs q Hcs HQ files files' t t' US OC SR TR TR') as SP.
  pose proof (tables_same so HP weird tree cs q Hcs HQ files files' tm tm' US OC SR TRm TRm') as SPm.
  exists g', t. split; [exact H'|]. split; [exact TR|].
  destruct (observed_tables so HP weird cs files q t Hcs HQ US TR) as (es & _ & _ & NN).
  split.
  - intros NZ kx ky Hx Hy h Hh.
    destruct V as (_ & W). { intros r Hr. destruct (NN r Hr) as (n1 & n2 & _). auto. }
    destruct V' as (_ & W').
    { intros r' Hr'. destruct (row_same t t' r' SP Hr') as (r & Hr & (_ & x & y & _ & _ & _ & _ & fa & ga & _)). rewrite <- (BP _ _ _ _ x y). destruct (NN r Hr) as (n1 & n2 & _). split; [auto|].
      split; intros K; rewrite K in *; [destruct (lu_farea r)|destruct (lu_garea r)]; cbn in *; try tauto; congruence. }
    specialize (W kx ky Hx Hy). specialize (W' kx ky Hx Hy). cbv zeta in W, W'.
    destruct W as (a1 & a2 & a3 & a4 & a5). destruct W' as (b1 & b2 & b3 & b4 & b5).
    assert (GO : forall u v f w, (forall r r', same_pixel r r' -> f r == f r')%Q -> (forall r r', quad (lu_x r) (lu_y r) = quad (lu_x r') (lu_y r') -> w r == w r')%Q ->
      sums_to u f w t -> sums_to v f w t' -> feq u v).
    { intros u v f w HF HW S1 S2. apply (is_num_feq _ _ _ _ S1 S2). apply over_same; auto. intros r r' (_ & x & y & _). apply HW. apply BP; auto. }
    destruct Hh as [<-|[<-|[<-|[<-|[<-|[]]]]]];
    [apply (GO _ _ (fun r => num (lu_energy r)) _) with (3 := a1) (4 := b1)
    |apply (GO _ _ (fun r => qnat (lu_fcount r)) _) with (3 := a2) (4 := b2)
    |apply (GO _ _ (fun r => qnat (lu_gcount r)) _) with (3 := a3) (4 := b3)
    |apply (GO _ _ (fun r => num (lu_farea r)) _) with (3 := a4) (4 := b4)
    |apply (GO _ _ (fun r => num (lu_garea r)) _) with (3 := a5) (4 := b5)];
    try (intros r r' E; cbv beta; rewrite E; reflexivity);
    intros r r' (_ & _ & _ & e & _ & fc & gc & fa & ga & _); cbv beta; first [apply feq_num; assumption|rewrite ?fc, ?gc; reflexivity].
  - intros POS kx ky Hx Hy.
    assert (EQT : tm = t).
    { destruct TR as (x & T & ->). destruct TRm as (xm & Tm & ->). f_equal. clear -T Tm. revert xm Tm. induction T as [|ds a files x H T IH]; intros xm Tm; inversion Tm as [|? b ? xm' Hb Tm']; subst; [reflexivity|]. f_equal; [|apply IH; auto].
      destruct H as [[Z ->]|[(e & E & Z) (c & C & L)]]; destruct Hb as [[Z' ->]|[(e' & E' & Z') (c' & C' & L')]]; try congruence. rewrite C in C'. inversion C'; subst c'. clear -L L'.
      revert b L'. induction L as [|c a cs ts H L IH]; intros b L'; inversion L' as [|? b0 ? b' Hb Lb]; subst; [reflexivity|]. f_equal; [congruence|apply IH; auto]. }
    subst tm. specialize (M POS kx ky Hx Hy).
    assert (POS' : forall r, In r (List.concat tm') -> positive (lu_minarea r)).
    { intros r' Hr'. destruct (row_same t tm' r' SPm Hr') as (r & Hr & (_ & _ & _ & _ & _ & _ & _ & _ & _ & mn)). destruct (POS r Hr) as (a & Ea & Pa). rewrite Ea in mn. destruct (lu_minarea r') as [b|]; cbn in mn; [|destruct mn].
      exists b. split; [reflexivity|]. rewrite <- mn. exact Pa. }
    specialize (M' POS' kx ky Hx Hy). cbv zeta in M, M'.
    destruct M as [[-> NO]|(r & Hr & HH & EV & LE)]; destruct M' as [[-> NO']|(r' & Hr' & HH' & EV' & LE')].
    + apply feq_refl.
    + exfalso. destruct (row_same t tm' r' SPm Hr') as (r & Hr & (_ & x & y & _)). apply (NO r Hr). rewrite (BP _ _ _ _ x y). exact HH'.
    + exfalso. destruct (row_same' t tm' r SPm Hr) as (r' & Hr' & (_ & x & y & _)). apply (NO' r' Hr'). rewrite <- (BP _ _ _ _ x y). exact HH.
    + destruct (POS r Hr) as (a & Ea & _). destruct (POS' r' Hr') as (b & Eb & _). rewrite <- EV, <- EV', Ea, Eb. cbn. rewrite <- EV, Ea in LE. rewrite <- EV', Eb in LE'.
      apply Qle_antisym.
      * destruct (row_same t tm' r' SPm Hr') as (r2 & Hr2 & (_ & x & y & _ & _ & _ & _ & _ & _ & mn)). rewrite Eb in mn. destruct (lu_minarea r2) as [c|] eqn:Ec; cbn in mn; [|destruct mn].
        rewrite <- mn. apply (LE r2 c a Hr2); auto. rewrite (BP _ _ _ _ x y). exact HH'.
      * destruct (row_same' t tm' r SPm Hr) as (r2 & Hr2 & (_ & x & y & _ & _ & _ & _ & _ & _ & mn)). rewrite Ea in mn. destruct (lu_minarea r2) as [c|] eqn:Ec; cbn in mn; [|destruct mn].
        rewrite mn. apply (LE' r2 c b Hr2); auto. rewrite <- (BP _ _ _ _ x y). exact HH.
Qed.
Print Assumptions C105_grids.

(** * Other chunk sizes *)
Lemma usable_same : forall ds ds', usable ds -> same_rows ds ds' -> usable ds'.
Proof.
  intros ds ds' [Z|(F & G & E & -> & nF & nG & nE & D & NF & NG & NE)] SR.
  - left. inversion SR as [|? ? r0 r0' P0 SR0]; subst; [discriminate Z|]. inversion SR0 as [|? ? r1 r1' P1 SR1]; subst; [discriminate Z|]. inversion SR1 as [|? ? r2 r2' P2 SR2]; subst; [discriminate Z|].
    cbn in *. inversion Z; subst. apply Permutation_nil in P2. subst. reflexivity.
  - right. destruct (perm3 _ _ F G E SR eq_refl) as (F' & G' & E' & -> & PF & PG & PE).
    assert (N : forall T T' : tbl, Permutation T T' -> T <> [] -> T' <> []) by (intros T T' P n K; subst T'; apply n; apply Permutation_nil; apply Permutation_sym; exact P).
    exists F', G', E'. split; [reflexivity|]. split; [eauto|]. split; [eauto|]. split; [eauto|]. split; [exact (derived_perm F G E F' G' E' PF PG PE D)|].
    split; [exact (numbers_perm _ _ _ PF NF)|]. split; [exact (numbers_perm _ _ _ PG NG)|exact (numbers_perm _ _ _ PE NE)].
Qed.
Lemma same_rows_sym : forall ds ds', same_rows ds ds' -> same_rows ds' ds.
Proof. induction 1; constructor; auto. apply Permutation_sym; auto. Qed.

Section AnyChunks.
Variable set_order : list Z -> list Z.
Hypothesis HP : forall l, Permutation (set_order l) l.
Variable weird : fval -> Z.
Variable q : option query.
Hypothesis HQ : forall q', q = Some q' -> q_check q' = true.

(** What the tables of a pixel add up to, and the least of their minima. *)
Definition same_sums (t1 t2 : list (list lutrow)) : Prop :=
  forall k, (forall f, column_ok f -> (pixel_sum f k t1 == pixel_sum f k t2)%Q) /\
    forall r, In r (rows_at k t1) -> exists r2 a b, In r2 (rows_at k t2) /\ lu_minarea r = Some a /\ lu_minarea r2 = Some b /\ (b <= a)%Q.
Lemma file_any : forall s1 s2 ds ds' t1 t2, (0 < s1)%nat -> (0 < s2)%nat -> usable ds -> same_rows ds ds' ->
  tables_of_file set_order weird s1 q ds t1 -> tables_of_file set_order weird s2 q ds' t2 -> same_sums t1 t2.
Proof.
  intros s1 s2 ds ds' t1 t2 P1 P2 US SR T1 T2. destruct US as [Z|(F & G & E & -> & nF & nG & nE & D & NF & NG & NE)].
  - assert (Z' : nth_error ds' 2 = Some []).
    { inversion SR as [|? ? r0 r0' Q0 SR0]; subst; [discriminate Z|]. inversion SR0 as [|? ? r1 r1' Q1 SR1]; subst; [discriminate Z|]. inversion SR1 as [|? ? r2 r2' Q2 SR2]; subst; [discriminate Z|].
      cbn in *. inversion Z; subst. apply Permutation_nil in Q2. subst. reflexivity. }
    destruct T1 as [[_ ->]|[(? & ? & ?) _]]; [|congruence]. destruct T2 as [[_ ->]|[(? & ? & ?) _]]; [|congruence]. intros k. split; [reflexivity|]. intros r [].
  - destruct (perm3 _ _ F G E SR eq_refl) as (F' & G' & E' & -> & PF & PG & PE).
    assert (N : forall T T' : tbl, Permutation T T' -> T <> [] -> T' <> []) by (intros T T' P n K; subst T'; apply n; apply Permutation_nil; apply Permutation_sym; exact P).
    pose proof (derived_perm F G E F' G' E' PF PG PE D) as D'. pose proof (N _ _ PF nF) as nF'. pose proof (N _ _ PG nG) as nG'. pose proof (N _ _ PE nE) as nE'.
    destruct T1 as [[K _]|[_ (ch1 & C1 & T1)]]; [cbn in K; inversion K; congruence|]. destruct T2 as [[K _]|[_ (ch2 & C2 & T2)]]; [cbn in K; inversion K; congruence|].
    destruct (selection_perm set_order HP F G E F' G' E' q PF PG PE D nF nG nE HQ) as (F2 & G2 & E2 & F2' & G2' & E2' & S & S' & Q1 & Q2 & Q3).
    destruct (C26_chunks_split_selection set_order HP s1 F G E q P1 D nF nG nE HQ) as (sel1 & c1 & S1 & R1 & SP1 & _ & N1).
    destruct (C26_chunks_split_selection set_order HP s2 F' G' E' q P2 D' nF' nG' nE' HQ) as (sel2 & c2 & S2 & R2 & SP2 & _ & N2).
    rewrite C1 in R1. inversion R1; subst c1. rewrite C2 in R2. inversion R2; subst c2.
    assert (sel1 = [F2; G2; E2]) by (unfold selection in *; destruct q; congruence). assert (sel2 = [F2'; G2'; E2']) by (unfold selection in *; destruct q; congruence). subst sel1 sel2.
    destruct (selection_exists set_order HP F G E q D nF nG nE HQ) as (Fs & Gs & Es & Ss & HF2 & HG2 & HE2 & D2).
    assert ([Fs; Gs; Es] = [F2; G2; E2]) as EQ by (unfold selection in *; destruct q; congruence). inversion EQ; subst Fs Gs Es. clear EQ.
    pose proof (derived_perm F2 G2 E2 F2' G2' E2' Q1 Q2 Q3 D2) as D2'.
    pose proof D2 as ((U & O) & DE & _). apply unique3 in U. destruct U as (UF & UG & UE). apply linked_no_orphans in O. destruct O as [L1 L2].
    pose proof D2' as ((U' & _) & _). apply unique3 in U'. destruct U' as (UF' & UG' & _).
    assert (NF2 : numbers (areas F2)) by (apply (sub_nums _ F); auto).
    assert (NG2 : numbers (areas G2)) by (apply (sub_nums _ G); auto; intros x Hx; apply HG2 in Hx; tauto).
    assert (NE2 : numbers (energies E2)) by (apply (sub_nums _ E); auto; intros x Hx; apply HE2 in Hx; tauto).
    destruct E2 as [|e0 E2r] eqn:EE2.
    + assert (EMP : forall (f0 g0 : tbl) ch t, splits ch [f0; g0; []] -> (forall c, In c ch -> exists Fi Gi Ei, c = [Fi; Gi; Ei]) -> Forall2 (fun c t => get_lutevents weird lut_scale lut_range lut_range c = Ok t) ch t -> t = []).
      { intros f0 g0 ch t SP NN T. destruct T as [|c l ch t Hc Hr]; [reflexivity|]. exfalso.
        destruct (NN c (or_introl eq_refl)) as (Fi & Gi & Ei & ->). destruct SP as (? & ? & ? & EQ & _ & _ & _ & PP). inversion EQ; subst. cbn [map nth List.concat] in PP. apply Permutation_sym, Permutation_nil in PP.
        apply app_eq_nil in PP. destruct PP as [-> _]. discriminate. }
      apply Permutation_nil in Q3. subst E2'.
      rewrite (EMP _ _ ch1 t1 SP1) by (auto; intros c Hc; destruct (N1 c Hc) as (a & b & d & Hq & _); exists a, b, d; auto).
      rewrite (EMP _ _ ch2 t2 SP2) by (auto; intros c Hc; destruct (N2 c Hc) as (a & b & d & Hq & _); exists a, b, d; auto).
      intros k. split; [reflexivity|]. intros r [].
    + rewrite <- EE2 in *. assert (nE2 : E2 <> []) by (rewrite EE2; discriminate). clear EE2.
      assert (nG2 : G2 <> []). { destruct E2 as [|e ?]; [congruence|]. intros ->. destruct (L2 e (or_introl eq_refl)) as (? & [] & _). }
      assert (nF2 : F2 <> []). { destruct G2 as [|e ?]; [congruence|]. intros ->. destruct (L1 e (or_introl eq_refl)) as (? & [] & _). }
      pose proof (numbers_perm _ _ _ Q1 NF2) as NF2'. pose proof (numbers_perm _ _ _ Q2 NG2) as NG2'. pose proof (numbers_perm _ _ _ Q3 NE2) as NE2'.
      destruct (C24_table_exists weird lut_scale lut_range lut_range F2 G2 E2 nF2 nG2 nE2 NF2 D2) as (L & HL).
      destruct (C24_table_exists weird lut_scale lut_range lut_range F2' G2' E2' (N _ _ Q1 nF2) (N _ _ Q2 nG2) (N _ _ Q3 nE2) NF2' D2') as (L' & HL').
      pose proof (table_perm weird lut_scale lut_range lut_range F2 G2 E2 F2' G2' E2' L L' Q1 Q2 Q3 NF2 NG2 UF UG HL HL') as SP.
      intros k.
      pose proof (C26_pixels_do_not_depend_on_chunks weird lut_scale lut_range lut_range F2 G2 E2 L ch1 t1 NF2 NG2 NE2 UF UG SP1 T1 HL k) as (a1 & a2 & a3 & a4 & a5 & a6 & a7 & a8).
      pose proof (C26_pixels_do_not_depend_on_chunks weird lut_scale lut_range lut_range F2' G2' E2' L' ch2 t2 NF2' NG2' NE2' UF' UG' SP2 T2 HL' k) as (b1 & b2 & b3 & b4 & b5 & b6 & b7 & b8).
      assert (RA : Forall2 same_pixel (rows_at k [L]) (rows_at k [L'])).
      { unfold rows_at. cbn [List.concat]. rewrite !app_nil_r. clear -SP. induction SP as [|r r' L L' S SP IH]; [constructor|]. cbn [filter]. destruct S as (i & S). rewrite <- i. destruct (lu_id r =? k); [constructor; [split; auto|]|]; exact IH. }
      assert (CF : forall f, (forall r r', same_pixel r r' -> f r == f r')%Q -> (pixel_sum f k [L] == pixel_sum f k [L'])%Q).
      { intros f HF. unfold pixel_sum. clear -RA HF. induction RA as [|r r' l l' S RA IH]; [reflexivity|]. cbn [map]. change (qsum (?x :: ?l)) with (x + qsum l)%Q. rewrite IH, (HF r r' S). reflexivity. }
      split.
      * intros f CO. assert (SAMEF : forall r r', same_pixel r r' -> (f r == f r')%Q).
        { intros r r' (_ & _ & _ & e & c & fc & gc & fa & ga & _). destruct CO as [<-|[<-|[<-|[<-|[<-|[<-|[]]]]]]]; cbv beta; first [apply feq_num; assumption|rewrite ?c, ?fc, ?gc; reflexivity]. }
        pose proof (CF f SAMEF) as EQ. destruct CO as [<-|[<-|[<-|[<-|[<-|[<-|[]]]]]]];
        [rewrite a1, b1|rewrite a2, b2|rewrite a3, b3|rewrite a4, b4|rewrite a5, b5|rewrite a6, b6]; exact EQ.
      * intros r Hr. destruct (rows_at k [L]) as [|rL l] eqn:ER; [rewrite (proj2 a7 eq_refl) in Hr; destruct Hr|]. inversion RA as [|? rL' ? l' SPr RA' E1 E3]; subst.
        destruct (a8 rL (or_introl eq_refl)) as (x & (x0 & Ex & Hx) & Lx). destruct (b8 rL') as (y & (y0 & Ey & Hy) & Ly); [rewrite <- E3; left; reflexivity|].
        destruct SPr as (_ & _ & _ & _ & _ & _ & _ & _ & _ & mn). rewrite Ex, Ey in mn. cbn in mn.
        destruct Lx as (x' & E4 & _ & LEx). inversion E4; subst x'. destruct Ly as (y' & E5 & Iy & _). inversion E5; subst y'. apply in_map_iff in Iy. destruct Iy as (r2 & E6 & Hr2).
        assert (NUM : exists a, lu_minarea r = Some a).
        { unfold rows_at in Hr. apply filter_In in Hr. destruct Hr as [Hr _]. apply in_concat in Hr. destruct Hr as (t & Ht & Hr). destruct (F2_in_r _ _ _ _ _ t T1 Ht) as (c & Hc & Et).
          destruct (N1 c Hc) as (Fi & Gi & Ei & -> & _). destruct SP1 as (F0 & G0 & E0 & EQ & _ & h0 & h1 & _). inversion EQ.
          assert (n0 : numbers (areas Fi)). { apply (sub_nums _ F2); [|exact NF2]. intros z Hz. replace F2 with F0 by congruence. rewrite <- h0. apply in_concat. exists Fi. split; auto. apply in_map_iff. exists [Fi; Gi; Ei]. auto. }
          assert (n1 : numbers (areas Gi)). { apply (sub_nums _ G2); [|exact NG2]. intros z Hz. replace G2 with G0 by congruence. apply (Permutation_in _ h1). apply in_concat. exists Gi. split; auto. apply in_map_iff. exists [Fi; Gi; Ei]. auto. }
          destruct (C25_counts_areas_minima weird _ _ _ Fi Gi Ei t r n0 n1 Et Hr) as (_ & _ & _ & _ & _ & (a & Ea & _)). eauto. }
        destruct NUM as (a & Ea). exists r2, a, y. split; [exact Hr2|]. split; [exact Ea|]. split; [exact E6|].
        rewrite <- Hy, <- mn, Hx. apply LEx. rewrite <- Ea. apply in_map. exact Hr.
Qed.
Lemma files_any : forall s1 s2, (0 < s1)%nat -> (0 < s2)%nat -> forall files files' t1 t2, Forall usable files -> Forall2 same_rows files files' ->
  tables_read set_order weird s1 q files t1 -> tables_read set_order weird s2 q files' t2 -> same_sums t1 t2.
Proof.
  intros s1 s2 P1 P2 files files' t1 t2 US SR (x1 & T1 & ->) (x2 & T2 & ->). revert x1 x2 T1 T2. induction SR as [|ds ds' files files' S SR IH]; intros x1 x2 T1 T2.
  - inversion T1; subst. inversion T2; subst. intros k. split; [reflexivity|]. intros r [].
  - inversion US as [|? ? U US']; subst. inversion T1 as [|? a ? xs Ta Txs]; subst. inversion T2 as [|? a' ? xs' Ta' Txs']; subst. cbn [List.concat].
    pose proof (file_any s1 s2 ds ds' a a' P1 P2 U S Ta Ta') as A. pose proof (IH US' xs xs' Txs Txs') as B.
    assert (RA : forall k u v, rows_at k (u ++ v) = rows_at k u ++ rows_at k v) by (intros; unfold rows_at; rewrite concat_app, filter_app; reflexivity).
    intros k. destruct (A k) as [A1 A2]. destruct (B k) as [B1 B2]. split.
    + intros f CO. unfold pixel_sum in *. rewrite !RA, !map_app, !qsum_app. apply Qplus_comp; auto.
    + intros r Hr. rewrite RA in *. apply in_app_iff in Hr. destruct Hr as [Hr|Hr]; [destruct (A2 r Hr) as (r2 & x & y & Hr2 & K)|destruct (B2 r Hr) as (r2 & x & y & Hr2 & K)];
      exists r2, x, y; (split; [apply in_or_app; auto|exact K]).
Qed.
End AnyChunks.

(** Full statement: the grids depend neither on the order of the rows nor on the chunk size.
    Proved here when the polygon of a pixel is the same in all chunks; what is missing is
    refuted below (and by [C51_chunk_size_refuted]). *)
Theorem C105_any_chunks_partial : forall set_order, (forall l, Permutation (set_order l) l) ->
  forall weird clip tree quad xe ye s1 s2 files files' q g1 g2,
  (1 < List.length xe)%nat -> (1 < List.length ye)%nat -> increasing xe -> increasing ye -> proper clip ->
  (0 < s1)%nat -> (0 < s2)%nat -> (forall q', q = Some q' -> q_check q' = true) -> Forall usable files -> Forall2 same_rows files files' ->
  grid_files set_order weird clip tree quad xe ye s1 files q = Ok g1 ->
  grid_files set_order weird clip tree quad xe ye s2 files' q = Ok g2 ->
  exists t1 t2, tables_read set_order weird s1 q files t1 /\ tables_read set_order weird s2 q files' t2 /\
  ((forall r r', In r (List.concat t1 ++ List.concat t2) -> In r' (List.concat t1 ++ List.concat t2) -> lu_id r = lu_id r' ->
      quad (lu_x r) (lu_y r) = quad (lu_x r') (lu_y r')) ->
   forall kx ky, (S kx < List.length xe)%nat -> (S ky < List.length ye)%nat ->
   ((forall r, In r (List.concat t1 ++ List.concat t2) -> ~ (size (quad (lu_x r) (lu_y r)) == 0)%Q) ->
    forall h, In h [gr_energy; gr_fcount; gr_gcount; gr_farea; gr_garea] ->
    feq (g_at (h g1) (Z.of_nat kx) (Z.of_nat ky)) (g_at (h g2) (Z.of_nat kx) (Z.of_nat ky))) /\
   ((forall r, In r (List.concat t1 ++ List.concat t2) -> positive (lu_minarea r)) ->
    feq (g_at (gr_minarea g1) (Z.of_nat kx) (Z.of_nat ky)) (g_at (gr_minarea g2) (Z.of_nat kx) (Z.of_nat ky)))).
Proof.
  intros so HP weird clip tree quad xe ye s1 s2 files files' q g1 g2 HX HY IX IY PR P1 P2 HQ US SR R1 R2.
  assert (US' : Forall usable files'). { clear -US SR. induction SR as [|ds ds' files files' S SR IH]; [constructor|]. inversion US; subst. constructor; [apply (usable_same ds); auto|apply IH; auto]. }
  assert (SR' : Forall2 same_rows files' files). { clear -SR. induction SR; constructor; auto. apply same_rows_sym; auto. }
  destruct (C36_cells so weird clip tree quad xe ye s1 files q g1 HX HY IX IY PR R1) as (t1 & TR1 & V1).
  destruct (C36_cells so weird clip tree quad xe ye s2 files' q g2 HX HY IX IY PR R2) as (t2 & TR2 & V2).
  destruct (C36_minimum so weird clip tree quad xe ye s1 files q g1 HX HY IX IY PR R1) as (m1 & TM1 & M1).
  destruct (C36_minimum so weird clip tree quad xe ye s2 files' q g2 HX HY IX IY PR R2) as (m2 & TM2 & M2).
  assert (DET : forall s fs u v, tables_read so weird s q fs u -> tables_read so weird s q fs v -> u = v).
  { intros s fs u v (x & T & ->) (y & T' & ->). f_equal. revert y T'. induction T as [|ds a fs x H T IH]; intros y T'; inversion T' as [|? b ? y' Hb Ty]; subst; [reflexivity|]. f_equal; [|apply IH; auto].
    destruct H as [[Z ->]|[(e & E & Z) (c & C & L)]]; destruct Hb as [[Z' ->]|[(e' & E' & Z') (c' & C' & L')]]; try congruence. rewrite C in C'. inversion C'; subst c'. clear -L L'.
    revert b L'. induction L as [|c a cs ts H L IH]; intros b L'; inversion L' as [|? b0 ? b' Hb Lb]; subst; [reflexivity|]. f_equal; [congruence|apply IH; auto]. }
  rewrite (DET _ _ _ _ TM1 TR1) in M1. rewrite (DET _ _ _ _ TM2 TR2) in M2.
  exists t1, t2. split; [exact TR1|]. split; [exact TR2|]. intros SAME kx ky Hx Hy.
  pose proof (files_any so HP weird q HQ s1 s2 P1 P2 files files' t1 t2 US SR TR1 TR2) as SS.
  pose proof (files_any so HP weird q HQ s2 s1 P2 P1 files' files t2 t1 US' SR' TR2 TR1) as SS'.
  destruct (observed_tables so HP weird s1 files q t1 P1 HQ US TR1) as (_ & _ & _ & NN1). destruct (observed_tables so HP weird s2 files' q t2 P2 HQ US' TR2) as (_ & _ & _ & NN2).
  split.
  - intros NZ h Hh.
    destruct (V1 ltac:(intros r Hr; destruct (NN1 r Hr) as (n1 & n2 & _); split; [apply NZ; apply in_or_app; auto|auto])) as (_ & W1).
    destruct (V2 ltac:(intros r Hr; destruct (NN2 r Hr) as (n1 & n2 & _); split; [apply NZ; apply in_or_app; auto|auto])) as (_ & W2).
    specialize (W1 kx ky Hx Hy). specialize (W2 kx ky Hx Hy). cbv zeta in W1, W2.
    destruct W1 as (a1 & a2 & a3 & a4 & a5). destruct W2 as (b1 & b2 & b3 & b4 & b5).
    assert (GO : forall u v f w, column_ok f -> (forall r r', quad (lu_x r) (lu_y r) = quad (lu_x r') (lu_y r') -> w r == w r')%Q ->
      sums_to u f w t1 -> sums_to v f w t2 -> feq u v).
    { intros u v f w CO HW (x & -> & Ex) (y & -> & Ey). cbn. rewrite Ex, Ey. apply same_pixels.
      - intros k. apply (SS k). exact CO.
      - intros r r' Hr Hr' E. apply HW. apply SAME; auto. }
    destruct Hh as [<-|[<-|[<-|[<-|[<-|[]]]]]]; eapply GO; eauto; try (intros r r' E; cbv beta; rewrite E; reflexivity); unfold column_ok; cbn; tauto.
  - intros POS.
    assert (A1 := M1 ltac:(intros r Hr; apply POS; apply in_or_app; auto) kx ky Hx Hy). assert (A2 := M2 ltac:(intros r Hr; apply POS; apply in_or_app; auto) kx ky Hx Hy). cbv zeta in A1, A2.
    assert (HERE : forall t t', same_sums t t' -> (forall r, In r (List.concat t) -> In r (List.concat t1 ++ List.concat t2)) -> (forall r, In r (List.concat t') -> In r (List.concat t1 ++ List.concat t2)) ->
      forall r, In r (List.concat t) -> exists r2 a b, In r2 (List.concat t') /\ lu_minarea r = Some a /\ lu_minarea r2 = Some b /\ (b <= a)%Q /\ quad (lu_x r) (lu_y r) = quad (lu_x r2) (lu_y r2)).
    { intros t t' S I I' r Hr. destruct (S (lu_id r)) as [_ K]. destruct (K r) as (r2 & a & b & Hr2 & Ea & Eb & LE); [apply filter_In; split; [exact Hr|apply Z.eqb_refl]|].
      apply filter_In in Hr2. destruct Hr2 as [Hr2 EI]. apply Z.eqb_eq in EI. exists r2, a, b. split; [exact Hr2|]. split; [exact Ea|]. split; [exact Eb|]. split; [exact LE|]. apply SAME; auto. }
    assert (H12 := HERE t1 t2 SS ltac:(intros; apply in_or_app; auto) ltac:(intros; apply in_or_app; auto)).
    assert (H21 := HERE t2 t1 SS' ltac:(intros; apply in_or_app; auto) ltac:(intros; apply in_or_app; auto)).
    destruct A1 as [[-> NO1]|(r1 & Hr1 & HH1 & EV1 & LE1)]; destruct A2 as [[-> NO2]|(r2 & Hr2 & HH2 & EV2 & LE2)].
    + apply feq_refl.
    + exfalso. destruct (H21 r2 Hr2) as (r & a & b & Hr & _ & _ & _ & EQ). apply (NO1 r Hr). rewrite <- EQ. exact HH2.
    + exfalso. destruct (H12 r1 Hr1) as (r & a & b & Hr & _ & _ & _ & EQ). apply (NO2 r Hr). rewrite <- EQ. exact HH1.
    + destruct (H12 r1 Hr1) as (r & a & b & Hr & Ea & Eb & LE & EQ). destruct (H21 r2 Hr2) as (r' & a' & b' & Hr' & Ea' & Eb' & LE' & EQ').
      rewrite <- EV1, <- EV2, Ea, Ea'. cbn. rewrite <- EV1, Ea in LE1. rewrite <- EV2, Ea' in LE2. apply Qle_antisym.
      * apply Qle_trans with b'; [|exact LE']. apply (LE1 r' b' a Hr'); auto. rewrite <- EQ'. exact HH2.
      * apply Qle_trans with b; [|exact LE]. apply (LE2 r b a' Hr); auto. rewrite <- EQ. exact HH1.
Qed.
Print Assumptions C105_any_chunks_partial.

(** C51 also for the minimum flash area, and without hypotheses on areas. *)
Theorem C51_all_grids_partial : forall set_order, (forall l, Permutation (set_order l) l) ->
  forall weird clip tree quad xe ye s1 s2 files q g1 g2,
  (1 < List.length xe)%nat -> (1 < List.length ye)%nat -> increasing xe -> increasing ye -> proper clip ->
  (0 < s1)%nat -> (0 < s2)%nat -> (forall q', q = Some q' -> q_check q' = true) -> Forall usable files ->
  grid_files set_order weird clip tree quad xe ye s1 files q = Ok g1 ->
  grid_files set_order weird clip tree quad xe ye s2 files q = Ok g2 ->
  exists t1 t2, tables_read set_order weird s1 q files t1 /\ tables_read set_order weird s2 q files t2 /\
  ((forall r r', In r (List.concat t1 ++ List.concat t2) -> In r' (List.concat t1 ++ List.concat t2) -> lu_id r = lu_id r' ->
      quad (lu_x r) (lu_y r) = quad (lu_x r') (lu_y r')) ->
   forall kx ky, (S kx < List.length xe)%nat -> (S ky < List.length ye)%nat ->
   ((forall r, In r (List.concat t1 ++ List.concat t2) -> ~ (size (quad (lu_x r) (lu_y r)) == 0)%Q) ->
    forall h, In h [gr_energy; gr_fcount; gr_gcount; gr_farea; gr_garea] ->
    feq (g_at (h g1) (Z.of_nat kx) (Z.of_nat ky)) (g_at (h g2) (Z.of_nat kx) (Z.of_nat ky))) /\
   ((forall r, In r (List.concat t1 ++ List.concat t2) -> positive (lu_minarea r)) ->
    feq (g_at (gr_minarea g1) (Z.of_nat kx) (Z.of_nat ky)) (g_at (gr_minarea g2) (Z.of_nat kx) (Z.of_nat ky)))).
Proof.
  intros so HP weird clip tree quad xe ye s1 s2 files q g1 g2 HX HY IX IY PR P1 P2 HQ US R1 R2.
  apply (C105_any_chunks_partial so HP weird clip tree quad xe ye s1 s2 files files q g1 g2); auto.
  clear. induction files as [|ds files IH]; constructor; auto. induction ds as [|T ds IH']; constructor; auto.
Qed.
Print Assumptions C51_all_grids_partial.

(** Four flashes in one pixel, two by two: the order of the rows decides which are put
    together, and so where in the pixel their light is put. *)
Definition four (F : tbl) : list tbl :=
  [F; [ar 5 1 (3 # 1); ar 6 2 (2 # 1); ar 7 3 (2 # 1); ar 8 4 (2 # 1)];
   [ev 100 5 1 (20000 # 1000000) 0 (8 # 1); ev 101 6 2 (20000 # 1000000) 0 (4 # 1); ev 102 7 3 (19990 # 1000000) 0 (1 # 1); ev 103 8 4 (19990 # 1000000) 0 (2 # 1)]].
Definition four1 : list tbl := four [ar 1 0 (10 # 1); ar 2 0 (4 # 1); ar 3 0 (4 # 1); ar 4 0 (4 # 1)].
Definition four2 : list tbl := four [ar 1 0 (10 # 1); ar 3 0 (4 # 1); ar 2 0 (4 # 1); ar 4 0 (4 # 1)].
Theorem C105_small_chunks_refuted : ~ (forall set_order weird clip tree quad xe ye chunk_size files files' q g1 g2, proper clip ->
  Forall2 same_rows files files' ->
  grid_files set_order weird clip tree quad xe ye chunk_size files q = Ok g1 ->
  grid_files set_order weird clip tree quad xe ye chunk_size files' q = Ok g2 ->
  forall a b, feq (g_at (gr_energy g1) a b) (g_at (gr_energy g2) a b)).
Proof.
  intros H.
  set (r1 := grid_files (fun l => l) (fun _ => 0) ex_clip ex_tree ex_quad ex_xe ex_ye 2 [four1] None).
  set (r2 := grid_files (fun l => l) (fun _ => 0) ex_clip ex_tree ex_quad ex_xe ex_ye 2 [four2] None).
  destruct r1 as [g1|] eqn:E1; [|vm_compute in E1; discriminate]. destruct r2 as [g2|] eqn:E2; [|vm_compute in E2; discriminate].
  assert (S : Forall2 same_rows [four1] [four2]).
  { constructor; [|constructor]. unfold four1, four2, four, same_rows. constructor; [|constructor; [|constructor; [|constructor]]]; [apply perm_skip, perm_swap|apply Permutation_refl|apply Permutation_refl]. }
  pose proof (H _ _ _ _ _ _ _ _ _ _ _ g1 g2 (proj2 (proj2 (proj2 (proj2 C36_hypotheses)))) S E1 E2 1 1) as K.
  vm_compute in E1, E2. inversion E1; subst g1. inversion E2; subst g2. vm_compute in K. discriminate K.
Qed.
Print Assumptions C105_small_chunks_refuted.

(** * The hypotheses are met *)
Definition rev_file : list tbl := map (@rev _) ok_file.
Lemma rev_same : same_rows ok_file rev_file.
Proof. unfold rev_file, ok_file, same_rows. cbn [map]. repeat (constructor; [apply Permutation_rev|]). constructor. Qed.
Definition two_events : query := mkQuery None None None None true (Some 2) None.
Example C105_selection_ex : exists sel sel', subset_flashes (fun l => l) ok_file two_events = Ok sel /\
  subset_flashes (fun l => l) rev_file two_events = Ok sel' /\
  map (map rid) sel = [[2]; [6]; [101; 102]] /\ map (map rid) sel' = [[2]; [6]; [102; 101]].
Proof. do 2 eexists. split; [vm_compute; reflexivity|]. split; [vm_compute; reflexivity|]. split; reflexivity. Qed.
Definition red_quad (x y : fval) : poly := ex_quad (option_map Qred x) (option_map Qred y).
Lemma red_by_position : by_position red_quad.
Proof.
  intros x y x' y' Hx Hy. unfold red_quad. f_equal.
  - destruct x, x'; cbn in *; try contradiction; [f_equal; apply Qred_complete; auto|reflexivity].
  - destruct y, y'; cbn in *; try contradiction; [f_equal; apply Qred_complete; auto|reflexivity].
Qed.
(** Both orders are gridded, and the hypotheses of [C105_grids] and of
    [C105_any_chunks_partial] hold of them. *)
Example C105_grids_ex : (exists g g', grid_files (fun l => l) (fun _ => 0) ex_clip ex_tree red_quad ex_xe ex_ye 2 [ok_file] None = Ok g /\
    grid_files (fun l => l) (fun _ => 0) ex_clip ex_tree red_quad ex_xe ex_ye 1 [rev_file] None = Ok g' /\
    (num (g_at (gr_energy g) 1 1) == 6)%Q /\ (num (g_at (gr_energy g') 1 1) == 6)%Q) /\
  by_position red_quad /\ Forall usable [ok_file] /\ Forall (one_chunk (fun l => l) None 2) [ok_file] /\ Forall2 same_rows [ok_file] [rev_file] /\
  exists t1 t2, tables_read (fun l => l) (fun _ => 0) 2 None [ok_file] t1 /\ tables_read (fun l => l) (fun _ => 0) 1 None [rev_file] t2 /\
  (forall r r', In r (List.concat t1 ++ List.concat t2) -> In r' (List.concat t1 ++ List.concat t2) -> lu_id r = lu_id r' ->
      red_quad (lu_x r) (lu_y r) = red_quad (lu_x r') (lu_y r')) /\
  (forall r, In r (List.concat t1 ++ List.concat t2) -> ~ (size (red_quad (lu_x r) (lu_y r)) == 0)%Q /\ positive (lu_minarea r)).
Proof.
  split; [do 2 eexists; split; [vm_compute; reflexivity|]; split; [vm_compute; reflexivity|]; split; vm_compute; reflexivity|].
  split; [exact red_by_position|]. split; [constructor; [exact (proj1 C26_usable)|constructor]|].
  split. { constructor; [|constructor]. intros F G E K. cbn in K. inversion K. cbn. lia. }
  split; [constructor; [exact rev_same|constructor]|].
  assert (TR : forall s ds chunks ts, (exists e E, nth_error ds 2 = Some (e :: E)) -> flash_chunks (fun l => l) s ds None = Ok chunks ->
    map_res (get_lutevents (fun _ => 0) lut_scale lut_range lut_range) chunks = Ok ts -> tables_read (fun l => l) (fun _ => 0) s None [ds] ts).
  { intros s ds chunks ts NE HC HM. exists [ts]. split; [|cbn [List.concat]; rewrite app_nil_r; reflexivity]. constructor; [|constructor]. right. split; [exact NE|]. exists chunks. split; [exact HC|]. apply map_res_inv. exact HM. }
  do 2 eexists. split; [eapply TR; [do 2 eexists; reflexivity|vm_compute; reflexivity|vm_compute; reflexivity]|].
  split; [eapply TR; [do 2 eexists; reflexivity|vm_compute; reflexivity|vm_compute; reflexivity]|].
  split.
  - intros r r' Hr Hr' E. cbn in Hr, Hr'. repeat (destruct Hr as [<-|Hr]; [repeat (destruct Hr' as [<-|Hr']; [first [discriminate E|vm_compute; reflexivity]|]); destruct Hr'|]). destruct Hr.
  - intros r Hr. cbn in Hr. repeat (destruct Hr as [<-|Hr]; [split; [vm_compute; discriminate|eexists; split; [reflexivity|reflexivity]]|]). destruct Hr.
Qed.
