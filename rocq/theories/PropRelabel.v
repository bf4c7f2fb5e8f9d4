(** C112: numbers given to flashes, groups and events, and the unit of energy. *)
From Coq Require Import String List ZArith QArith Qabs Qreduction Bool Lia Permutation Sorting.Sorted.
From Verif Require Import Base BaseProofs Traversal TraversalSpec TraversalProofs TraversalProofs2 TraversalProofs3 TraversalProofs4 Glm GlmSpec GlmProofs GlmProofs2 GlmProofs3
  Lut LutSpec LutProofs PropGlm PropLut Accum AccumSpec AccumProofs Poly PolySpec BBox BBoxSpec Slice SliceSpec Regroup Pipeline PipelineSpec PipelineProofs PropSlice PropPipeline ChunkSpec ChunkProofs PropChunks RowOrderSpec RowOrderProofs PropRowOrder RelabelSpec RelabelProofs.
Import ListNotations.
Open Scope Z_scope.
Local Notation tbl := (table obs).

(** * Grids *)
Section Grids.
Variable k : Q.
Variable set_order : list Z -> list Z.
Hypothesis HP : forall l, Permutation (set_order l) l.
Variable weird : fval -> Z.
Variable clip : poly -> poly -> list poly.
Variable tree : Q * Q -> list (Z * Z).
Variable quad : fval -> fval -> poly.
Hypothesis BP : by_position quad.
Variables (cs : nat) (q : option query).
Hypothesis Hcs : (0 < cs)%nat.
Hypothesis HQ : forall q', q = Some q' -> q_check q' = true.
Let lut := get_lutevents weird lut_scale lut_range lut_range.

Lemma same_quads : forall L L', Forall2 (same_but_energy k) L L' -> map (fun r => quad (lu_x r) (lu_y r)) L = map (fun r => quad (lu_x r) (lu_y r)) L' /\ map lu_id L = map lu_id L'.
Proof.
  induction 1 as [|r r' L L' (i & x & y & _) H [IH1 IH2]]; [split; reflexivity|]. cbn [map]. rewrite IH1, IH2, i, (BP _ _ _ _ x y). split; reflexivity.
Qed.
Lemma loc1_same : forall L L' n r, Forall2 (same_but_energy k) L L' -> loc1 L n = Ok r -> exists r', loc1 L' n = Ok r'.
Proof.
  intros L L' n r H E. unfold loc1 in *.
  assert (KK : List.length (filter (fun r => lu_id r =? n) L) = List.length (filter (fun r => lu_id r =? n) L')).
  { clear E. induction H as [|a b L L' (i & _) H IH]; [reflexivity|]. cbn [filter]. rewrite <- i. destruct (lu_id a =? n); cbn [List.length]; congruence. }
  destruct (filter (fun r => lu_id r =? n) L) as [|a [|? ?]]; try discriminate E. destruct (filter (fun r0 => lu_id r0 =? n) L') as [|b [|? ?]]; try discriminate KK. eauto.
Qed.
Lemma chunk_same : forall m c c' L L' R, lut c = Ok L -> lut c' = Ok L' -> Forall2 (same_but_energy k) L L' ->
  read_chunk weird clip tree quad m c = Ok R -> exists R', read_chunk weird clip tree quad m c' = Ok R'.
Proof.
  intros m c c' L L' R HL HL' SP H. unfold read_chunk, chunk_weighted in *. unfold lut in *. rewrite HL in H. rewrite HL'. cbn [bind] in *.
  destruct (same_quads L L' SP) as [EQ EI]. rewrite EQ, EI in H.
  destruct (slice clip tree m (map (fun r => quad (lu_x r) (lu_y r)) L') NoBox) as [[cp pa]|]; [|discriminate H]. cbn [bind] in *.
  destruct (split_event_data m cp pa (map lu_id L')) as [rows|]; [|discriminate H]. cbn [bind] in *.
  unfold replicate_and_weight_new in *. apply bind_ok_inv in H. destruct H as (W & H & HR). apply bind_ok_inv in H. destruct H as (rep & H & HW).
  assert (exists rep', map_res (loc1 L') (map sp_parent rows) = Ok rep' /\ List.length rep' = List.length rows) as (rep' & -> & LEN).
  { clear HW HR. revert rep H. induction rows as [|s rows IH]; intros rep H; [exists []; split; reflexivity|]. cbn [map map_res] in *.
    destruct (loc1 L (sp_parent s)) as [r|] eqn:E1; [|discriminate H]. cbn [bind] in H. destruct (loc1_same L L' _ r SP E1) as (r' & ->). cbn [bind].
    destruct (map_res (loc1 L) (map sp_parent rows)) as [x|]; [|discriminate H]. destruct (IH x eq_refl) as (x' & -> & Hx). cbn [bind]. exists (r' :: x'). split; [reflexivity|]. cbn. congruence. }
  cbn [bind]. inversion HW; subst W. clear HW.
  unfold regroup in *. destruct (map2 weight_row rows rep') as [|w W] eqn:EM; [|eauto].
  apply map2_nil in EM; [|congruence]. subst rows. cbn in HR. discriminate HR.
Qed.

Lemma file_cases : forall ds ds', usable ds -> one_chunk set_order q cs ds -> relabelled k ds ds' ->
  (nth_error ds 2 = Some [] /\ nth_error ds' 2 = Some []) \/
  ((exists e E, nth_error ds 2 = Some (e :: E)) /\ (exists e E, nth_error ds' 2 = Some (e :: E)) /\
   ((flash_chunks set_order cs ds q = Ok [] /\ flash_chunks set_order cs ds' q = Ok []) \/
    exists c c', flash_chunks set_order cs ds q = Ok [c] /\ flash_chunks set_order cs ds' q = Ok [c'] /\
      (forall L, lut c = Ok L -> exists L', lut c' = Ok L' /\ Forall2 (same_but_energy k) L L'))).
Proof.
  intros ds ds' US OC (F & G & E & F' & G' & E' & f0 & g0 & e0 & -> & -> & OF & OG & OE & PF & PG & PE). destruct US as [Z|(F1 & G1 & E1 & EQ & nF & nG & nE & D & NF & NG & NE)].
  - left. split; [exact Z|]. cbn in Z. inversion Z; subst. apply Permutation_sym, Permutation_nil in PE. subst. reflexivity.
  - right. inversion EQ; subst F1 G1 E1. clear EQ.
    destruct (everywhere k F G E F' G' E' f0 g0 e0 D OF OG OE PF PG PE) as (ff & fg & fe & IF & IG & IE & PF1 & PG1 & PE1). clear PF PG PE OF OG OE f0 g0 e0.
    assert (N : forall (T T' : tbl) h, Permutation T' (map h T) -> T <> [] -> T' <> []) by (intros T T' h P n K; subst T'; apply Permutation_nil in P; destruct T; [congruence|discriminate]).
    pose proof (derived_perm _ _ _ F' G' E' (Permutation_sym PF1) (Permutation_sym PG1) (Permutation_sym PE1) (derived_as ff fg fe k IF IG IE F G E D)) as D'.
    pose proof (N _ _ _ PF1 nF) as nF'. pose proof (N _ _ _ PG1 nG) as nG'. pose proof (N _ _ _ PE1 nE) as nE'.
    split; [destruct E as [|e E]; [congruence|cbn; eauto]|]. split; [destruct E' as [|e E']; [congruence|cbn; eauto]|].
    destruct (sel_as ff fg fe k IF IG IE set_order HP F G E F' G' E' q PF1 PG1 PE1 D nF nG nE HQ) as (F2 & G2 & E2 & F2' & G2' & E2' & S & S' & P1 & P2 & P3).
    pose proof (OC F2 G2 E2 S) as LEN. assert (LEN' : (List.length F2' < 2 * cs)%nat) by (rewrite (Permutation_length P1), map_length; exact LEN).
    destruct (one_chunk_of set_order HP cs F G E q Hcs D nF nG nE HQ F2 G2 E2 S LEN) as [[Z C]|(nz & G3 & E3 & C & Q1 & Q2 & D3)];
    destruct (one_chunk_of set_order HP cs F' G' E' q Hcs D' nF' nG' nE' HQ F2' G2' E2' S' LEN') as [[Z' C']|(nz' & G3' & E3' & C' & Q1' & Q2' & D3')].
    + left. auto.
    + exfalso. subst F2. apply Permutation_sym, Permutation_nil in P1. congruence.
    + exfalso. subst F2'. apply Permutation_nil in P1. destruct F2; [congruence|discriminate].
    + right. exists [F2; G3; E3], [F2'; G3'; E3']. split; [exact C|]. split; [exact C'|]. intros L HL.
      assert (P4 : Permutation G3' (map (group_as ff fg k) G3)) by (eapply perm_trans; [apply Permutation_sym; exact Q1'|]; eapply perm_trans; [exact P2|apply Permutation_map; exact Q1]).
      assert (P5 : Permutation E3' (map (event_as ff fg fe k) E3)) by (eapply perm_trans; [apply Permutation_sym; exact Q2'|]; eapply perm_trans; [exact P3|apply Permutation_map; exact Q2]).
      destruct (selection_exists set_order HP F G E q D nF nG nE HQ) as (Fs & Gs & Es & Ss & HF2 & HG2 & _).
      assert ([Fs; Gs; Es] = [F2; G2; E2]) as EQ by (unfold selection in *; destruct q; congruence). inversion EQ; subst Fs Gs Es. clear EQ.
      assert (NF2 : numbers (areas F2)) by (apply (sub_nums _ F); auto).
      assert (NG3 : numbers (areas G3)) by (apply (sub_nums _ G); auto; intros x Hx; apply (Permutation_in _ (Permutation_sym Q1)) in Hx; apply HG2 in Hx; tauto).
      destruct (lut_spec weird lut_scale lut_range lut_range F2 G3 E3 L NF2 NG3 HL) as (z1 & z2 & z3 & _).
      assert (NF2' : numbers (areas F2')) by (apply (numbers_perm _ _ _ (Permutation_sym P1)); fold (areas (map (flash_as ff k) F2)); rewrite (proj1 (areas_as ff fg k F2)); exact NF2).
      destruct (C24_table_exists weird lut_scale lut_range lut_range F2' G3' E3' nz' (N _ _ _ P4 z2) (N _ _ _ P5 z3) NF2' D3') as (L' & HL').
      exists L'. split; [exact HL'|]. destruct D3 as ((U & _) & _). apply unique3 in U. destruct U as (u1 & u2 & _).
      apply (table_as ff fg fe k IF IG weird lut_scale lut_range lut_range F2 G3 E3 F2' G3' E3' L L' P1 P4 P5 NF2 NG3 u1 u2 HL HL').
Qed.

Lemma tables_same : forall files files' t t', Forall usable files -> Forall (one_chunk set_order q cs) files -> Forall2 (relabelled k) files files' ->
  tables_read set_order weird cs q files t -> tables_read set_order weird cs q files' t' -> Forall2 (Forall2 (same_but_energy k)) t t'.
Proof.
  intros files files' t t' US OC SR (x & T & ->) (x' & T' & ->). revert x x' T T'. induction SR as [|ds ds' files files' H SR IH]; intros x x' T T'.
  - inversion T; subst. inversion T'; subst. constructor.
  - inversion US as [|? ? U US']; subst. inversion OC as [|? ? O OC']; subst. inversion T as [|? a ? xs Ta Txs]; subst. inversion T' as [|? a' ? xs' Ta' Txs']; subst. cbn [List.concat].
    apply Forall2_app; [|apply IH; auto].
    destruct (file_cases ds ds' U O H) as [[Z Z']|((e & E & Z) & (e' & E' & Z') & K)].
    + destruct Ta as [[_ ->]|[(? & ? & ?) _]]; [|congruence]. destruct Ta' as [[_ ->]|[(? & ? & ?) _]]; [|congruence]. constructor.
    + destruct Ta as [[? _]|[_ (ch & C & L)]]; [congruence|]. destruct Ta' as [[? _]|[_ (ch' & C' & L')]]; [congruence|].
      destruct K as [[K K']|(c & c' & K & K' & TB)]; rewrite K in C; inversion C; subst ch; rewrite K' in C'; inversion C'; subst ch'.
      * inversion L; subst. inversion L'; subst. constructor.
      * inversion L as [|? l ? ? HL HN]; subst. inversion HN; subst. inversion L' as [|? l' ? ? HL' HN']; subst. inversion HN'; subst.
        destruct (TB l HL) as (l2 & E2 & SP). unfold lut in E2. rewrite HL' in E2. inversion E2; subst l2. repeat constructor. exact SP.
Qed.

Lemma run_same : forall m files files' bs, Forall usable files -> Forall (one_chunk set_order q cs) files -> Forall2 (relabelled k) files files' ->
  read_files set_order weird clip tree quad m cs files q = Ok bs -> exists bs', read_files set_order weird clip tree quad m cs files' q = Ok bs'.
Proof.
  intros m files files' bs US OC SR H. unfold read_files in *. apply bind_ok_inv in H. destruct H as (bss & H & _).
  match type of H with map_res ?h _ = _ => set (hh := h) in * end.
  assert (exists b, map_res hh files' = Ok b) as (b & ->); [|cbn [bind]; eauto].
  revert bss H. induction SR as [|ds ds' files files' S SR IH]; intros bss H; [exists []; reflexivity|].
  inversion US as [|? ? U US']; subst. inversion OC as [|? ? O OC']; subst. cbn [map_res] in *.
  apply bind_ok_inv in H. destruct H as (b1 & H1 & H). apply bind_ok_inv in H. destruct H as (b2 & H2 & _).
  destruct (IH US' OC' b2 H2) as (b2' & E2).
  assert (exists b1', hh ds' = Ok b1') as (b1' & E1); [|rewrite E1, E2; cbn [bind]; eauto].
  unfold hh in *. destruct (file_cases ds ds' U O S) as [[Z Z']|((e & E & Z) & (e' & E' & Z') & K)]; rewrite Z'; [eauto|]. rewrite Z in H1.
  unfold read_flashes in *. destruct K as [[K K']|(c & c' & K & K' & TB)]; rewrite K'; rewrite K in H1; cbn [bind map_res] in *; [eauto|].
  apply bind_ok_inv in H1. destruct H1 as (R & HR & _).
  assert (exists L, lut c = Ok L) as (L & HL).
  { unfold read_chunk, chunk_weighted in HR. unfold lut. destruct (get_lutevents weird lut_scale lut_range lut_range c); [eauto|discriminate HR]. }
  destruct (TB L HL) as (L' & HL' & SP). destruct (chunk_same m c c' L L' R HL HL' SP HR) as (R' & ->). cbn [bind]. eauto.
Qed.

Lemma over_same : forall c (f w : lutrow -> Q) t t', Forall2 (Forall2 (same_but_energy k)) t t' ->
  (forall r r', same_but_energy k r r' -> c * f r == f r')%Q -> (forall r r', same_but_energy k r r' -> w r == w r')%Q ->
  (c * over (fun r => f r * w r) t == over (fun r => f r * w r) t')%Q.
Proof.
  intros c f w t t' H HF HW. unfold over. induction H as [|a b t t' H1 H IH]; [cbn; ring|]. cbn [List.concat]. rewrite !map_app, !qsum_app, Qmult_plus_distr_r. apply Qplus_comp; [|exact IH].
  clear IH H. induction H1 as [|r r' a b S H1 IH]; [cbn; ring|]. cbn [map]. change (qsum (?x :: ?l)) with (x + qsum l)%Q. rewrite Qmult_plus_distr_r, IH, <- (HF r r' S), <- (HW r r' S). ring.
Qed.
Lemma row_same : forall t t' r', Forall2 (Forall2 (same_but_energy k)) t t' -> In r' (List.concat t') -> exists r, In r (List.concat t) /\ (same_but_energy k) r r'.
Proof.
  intros t t' r' H I. apply in_concat in I. destruct I as (l' & Hl' & Hr'). destruct (F2_in_r _ _ _ _ _ _ H Hl') as (l & Hl & S). destruct (F2_in_r _ _ _ _ _ _ S Hr') as (r & Hr & K).
  exists r. split; [apply in_concat; eauto|exact K].
Qed.
Lemma row_same' : forall t t' r, Forall2 (Forall2 (same_but_energy k)) t t' -> In r (List.concat t) -> exists r', In r' (List.concat t') /\ (same_but_energy k) r r'.
Proof.
  intros t t' r H I. apply in_concat in I. destruct I as (l & Hl & Hr). destruct (F2_in_l _ _ _ _ _ _ H Hl) as (l' & Hl' & S). destruct (F2_in_l _ _ _ _ _ _ S Hr) as (r' & Hr' & K).
  exists r'. split; [apply in_concat; eauto|exact K].
Qed.
End Grids.

(** Files with the same lightning under other numbers, in another order and with all energies
    multiplied by [k] give the same grids, with the energies multiplied by [k], if the
    flashes selected from a file are read in one chunk (fewer than twice the chunk size,
    40000 with the default). *)
Theorem C112_grids : forall k set_order, (forall l, Permutation (set_order l) l) ->
  forall weird clip tree quad xe ye chunk_size files files' q g,
  (1 < List.length xe)%nat -> (1 < List.length ye)%nat -> increasing xe -> increasing ye -> proper clip -> by_position quad ->
  (0 < chunk_size)%nat -> (forall q', q = Some q' -> q_check q' = true) ->
  Forall usable files -> Forall (one_chunk set_order q chunk_size) files -> Forall2 (relabelled k) files files' ->
  grid_files set_order weird clip tree quad xe ye chunk_size files q = Ok g ->
  exists g' tables, grid_files set_order weird clip tree quad xe ye chunk_size files' q = Ok g' /\
    tables_read set_order weird chunk_size q files tables /\
    ((forall r, In r (List.concat tables) -> ~ (size (quad (lu_x r) (lu_y r)) == 0)%Q) ->
     forall kx ky, (S kx < List.length xe)%nat -> (S ky < List.length ye)%nat ->
     feq (times k (g_at (gr_energy g) (Z.of_nat kx) (Z.of_nat ky))) (g_at (gr_energy g') (Z.of_nat kx) (Z.of_nat ky)) /\
     forall h, In h [gr_fcount; gr_gcount; gr_farea; gr_garea] ->
     feq (g_at (h g) (Z.of_nat kx) (Z.of_nat ky)) (g_at (h g') (Z.of_nat kx) (Z.of_nat ky))) /\
    ((forall r, In r (List.concat tables) -> positive (lu_minarea r)) ->
     forall kx ky, (S kx < List.length xe)%nat -> (S ky < List.length ye)%nat ->
     feq (g_at (gr_minarea g) (Z.of_nat kx) (Z.of_nat ky)) (g_at (gr_minarea g') (Z.of_nat kx) (Z.of_nat ky))).
Proof.
  intros k so HP weird clip tree quad xe ye cs files files' q g HX HY IX IY PR BP Hcs HQ US OC SR H.
  assert (exists g', grid_files so weird clip tree quad xe ye cs files' q = Ok g') as (g' & H').
  { unfold grid_files in *. change (mkMesh (meshgrid_x xe ye) (meshgrid_y xe ye) true) with (regular_xy xe ye) in *. apply bind_ok_inv in H. destruct H as (bs & HR & _).
    destruct (run_same k so HP weird clip tree quad BP cs q Hcs HQ (regular_xy xe ye) files files' bs US OC SR HR) as (bs' & HR'). rewrite HR'. cbn [bind].
    destruct (read_all so weird clip tree quad xe ye HX HY IX IY PR cs q files' bs' HR') as (ts & Ws & _ & FW & FR).
    pose proof (all_fit _ _ _ _ _ _ _ FW) as FIT. unfold make_grids. set (nx := Z.of_nat (List.length xe) - 1) in *. set (ny := Z.of_nat (List.length ye) - 1) in *.
    assert (A : forall col, exists g, accumulate (zeros nx ny) (map (items col) bs') = Ok g) by (intros; apply accumulate_total; apply (batches_in_grid nx ny Ws); auto).
    assert (B : exists g, accumulate_min (zeros nx ny) (map (items ce_minarea) bs') = Ok g) by (apply accumulate_min_total; apply (batches_in_grid nx ny Ws); auto).
    destruct (A ce_power) as (g1 & ->). cbn [bind]. destruct (A ce_fcount) as (g2 & ->). cbn [bind]. destruct (A ce_farea) as (g3 & ->). cbn [bind].
    destruct B as (g4 & ->). cbn [bind]. destruct (A ce_gcount) as (g5 & ->). cbn [bind]. destruct (A ce_garea) as (g6 & ->). cbn [bind]. eauto. }
  destruct (C36_cells so weird clip tree quad xe ye cs files q g HX HY IX IY PR H) as (t & TR & V).
  destruct (C36_cells so weird clip tree quad xe ye cs files' q g' HX HY IX IY PR H') as (t' & TR' & V').
  destruct (C36_minimum so weird clip tree quad xe ye cs files q g HX HY IX IY PR H) as (tm & TRm & M).
  destruct (C36_minimum so weird clip tree quad xe ye cs files' q g' HX HY IX IY PR H') as (tm' & TRm' & M').
  pose proof (tables_same k so HP weird tree cs q Hcs HQ files files' t t' US OC SR TR TR') as SP.
  pose proof (tables_same k so HP weird tree cs q Hcs HQ files files' tm tm' US OC SR TRm TRm') as SPm.
  exists g', t. split; [exact H'|]. split; [exact TR|].
  destruct (observed_tables so HP weird cs files q t Hcs HQ US TR) as (es & _ & _ & NN).
  split.
  - intros NZ kx ky Hx Hy.
    destruct V as (_ & W). { intros r Hr. destruct (NN r Hr) as (n1 & n2 & _). auto. }
    destruct V' as (_ & W').
    { intros r' Hr'. destruct (row_same k t t' r' SP Hr') as (r & Hr & (_ & x & y & _ & _ & _ & _ & fa & ga & _)). rewrite <- (BP _ _ _ _ x y). destruct (NN r Hr) as (n1 & n2 & _). split; [auto|].
      split; intros K; rewrite K in *; [destruct (lu_farea r)|destruct (lu_garea r)]; cbn in *; try tauto; congruence. }
    specialize (W kx ky Hx Hy). specialize (W' kx ky Hx Hy). cbv zeta in W, W'.
    destruct W as (a1 & a2 & a3 & a4 & a5). destruct W' as (b1 & b2 & b3 & b4 & b5).
    assert (GO : forall c u v f w, (forall r r', same_but_energy k r r' -> c * f r == f r')%Q -> (forall r r', quad (lu_x r) (lu_y r) = quad (lu_x r') (lu_y r') -> w r == w r')%Q ->
      sums_to u f w t -> sums_to v f w t' -> feq (times c u) v).
    { intros c u v f w HF HW (a & Ea & A) (b & Eb & B). rewrite Ea, Eb. cbn. rewrite A, B. apply (over_same k); auto. intros r r' (_ & x & y & _). apply HW. apply BP; auto. }
    assert (ONE : forall u v, feq (times 1 u) v -> feq u v) by (intros [u|] [v|] E; cbn in *; auto; rewrite <- E; ring).
    split.
    { apply (GO _ _ _ (fun r => num (lu_energy r)) _) with (3 := a1) (4 := b1); [|intros r r' E; cbv beta; rewrite E; reflexivity].
      intros r r' (_ & _ & _ & e & _). cbv beta. rewrite <- (feq_num _ _ e). destruct (lu_energy r); cbn; ring. }
    intros h Hh. apply ONE. destruct Hh as [<-|[<-|[<-|[<-|[]]]]];
    [apply (GO _ _ _ (fun r => qnat (lu_fcount r)) _) with (3 := a2) (4 := b2)
    |apply (GO _ _ _ (fun r => qnat (lu_gcount r)) _) with (3 := a3) (4 := b3)
    |apply (GO _ _ _ (fun r => num (lu_farea r)) _) with (3 := a4) (4 := b4)
    |apply (GO _ _ _ (fun r => num (lu_garea r)) _) with (3 := a5) (4 := b5)];
    try (intros r r' E; cbv beta; rewrite E; reflexivity);
    intros r r' (_ & _ & _ & e & _ & fc & gc & fa & ga & _); cbv beta; rewrite Qmult_1_l; first [apply feq_num; assumption|rewrite ?fc, ?gc; reflexivity].
  - intros POS kx ky Hx Hy.
    assert (EQT : tm = t).
    { destruct TR as (x & T & ->). destruct TRm as (xm & Tm & ->). f_equal. clear -T Tm. revert xm Tm. induction T as [|ds a files x H T IH]; intros xm Tm; inversion Tm as [|? b ? xm' Hb Tm']; subst; [reflexivity|]. f_equal; [|apply IH; auto].
      destruct H as [[Z ->]|[(e & E & Z) (c & C & L)]]; destruct Hb as [[Z' ->]|[(e' & E' & Z') (c' & C' & L')]]; try congruence. rewrite C in C'. inversion C'; subst c'. clear -L L'.
      revert b L'. induction L as [|c a cs ts H L IH]; intros b L'; inversion L' as [|? b0 ? b' Hb Lb]; subst; [reflexivity|]. f_equal; [congruence|apply IH; auto]. }
    subst tm. specialize (M POS kx ky Hx Hy).
    assert (POS' : forall r, In r (List.concat tm') -> positive (lu_minarea r)).
    { intros r' Hr'. destruct (row_same k t tm' r' SPm Hr') as (r & Hr & (_ & _ & _ & _ & _ & _ & _ & _ & _ & mn)). destruct (POS r Hr) as (a & Ea & Pa). rewrite Ea in mn. destruct (lu_minarea r') as [b|]; cbn in mn; [|destruct mn].
      exists b. split; [reflexivity|]. rewrite <- mn. exact Pa. }
    specialize (M' POS' kx ky Hx Hy). cbv zeta in M, M'.
    destruct M as [[-> NO]|(r & Hr & HH & EV & LE)]; destruct M' as [[-> NO']|(r' & Hr' & HH' & EV' & LE')].
    + apply feq_refl.
    + exfalso. destruct (row_same k t tm' r' SPm Hr') as (r & Hr & (_ & x & y & _)). apply (NO r Hr). rewrite (BP _ _ _ _ x y). exact HH'.
    + exfalso. destruct (row_same' k t tm' r SPm Hr) as (r' & Hr' & (_ & x & y & _)). apply (NO' r' Hr'). rewrite <- (BP _ _ _ _ x y). exact HH.
    + destruct (POS r Hr) as (a & Ea & _). destruct (POS' r' Hr') as (b & Eb & _). rewrite <- EV, <- EV', Ea, Eb. cbn. rewrite <- EV, Ea in LE. rewrite <- EV', Eb in LE'.
      apply Qle_antisym.
      * destruct (row_same k t tm' r' SPm Hr') as (r2 & Hr2 & (_ & x & y & _ & _ & _ & _ & _ & _ & mn)). rewrite Eb in mn. destruct (lu_minarea r2) as [c|] eqn:Ec; cbn in mn; [|destruct mn].
        rewrite <- mn. apply (LE r2 c a Hr2); auto. rewrite (BP _ _ _ _ x y). exact HH'.
      * destruct (row_same' k t tm' r SPm Hr) as (r2 & Hr2 & (_ & x & y & _ & _ & _ & _ & _ & _ & mn)). rewrite Ea in mn. destruct (lu_minarea r2) as [c|] eqn:Ec; cbn in mn; [|destruct mn].
        rewrite mn. apply (LE' r2 c b Hr2); auto. rewrite <- (BP _ _ _ _ x y). exact HH.
Qed.
Print Assumptions C112_grids.


(** The flashes, groups and events selected are the same ones. *)
Theorem C112_selection : forall k set_order, (forall l, Permutation (set_order l) l) ->
  forall (F G E : tbl) ds' q, relabelled k [F; G; E] ds' -> derived_ok F G E -> F <> [] -> G <> [] -> E <> [] -> q_check q = true ->
  exists sel sel', subset_flashes set_order [F; G; E] q = Ok sel /\ subset_flashes set_order ds' q = Ok sel' /\ relabelled k sel sel'.
Proof.
  intros k so HP F G E ds' q (F0 & G0 & E0 & F' & G' & E' & f0 & g0 & e0 & EQ & -> & OF & OG & OE & PF & PG & PE) D nF nG nE HQ. inversion EQ; subst F0 G0 E0. clear EQ.
  destruct (everywhere k F G E F' G' E' f0 g0 e0 D OF OG OE PF PG PE) as (ff & fg & fe & IF & IG & IE & PF1 & PG1 & PE1).
  destruct (sel_as ff fg fe k IF IG IE so HP F G E F' G' E' (Some q) PF1 PG1 PE1 D nF nG nE) as (F2 & G2 & E2 & F2' & G2' & E2' & S & S' & P1 & P2 & P3); [intros q' K; inversion K; subst; exact HQ|].
  exists [F2; G2; E2], [F2'; G2'; E2']. split; [exact S|]. split; [exact S'|]. exists F2, G2, E2, F2', G2', E2', ff, fg, fe. unfold one_to_one. repeat split; auto.
Qed.
Print Assumptions C112_selection.

(** So are the pixels of the event lookup table and all that is counted in them. *)
Theorem C112_table : forall k weird scale xr yr (F G E : tbl) ds', relabelled k [F; G; E] ds' ->
  derived_ok F G E -> F <> [] -> G <> [] -> E <> [] -> numbers (areas F) -> numbers (areas G) ->
  exists L L', get_lutevents weird scale xr yr [F; G; E] = Ok L /\ get_lutevents weird scale xr yr ds' = Ok L' /\ Forall2 (same_but_energy k) L L'.
Proof.
  intros k weird scale xr yr F G E ds' (F0 & G0 & E0 & F' & G' & E' & f0 & g0 & e0 & EQ & -> & OF & OG & OE & PF & PG & PE) D nF nG nE NF NG. inversion EQ; subst F0 G0 E0. clear EQ.
  destruct (everywhere k F G E F' G' E' f0 g0 e0 D OF OG OE PF PG PE) as (ff & fg & fe & IF & IG & IE & PF1 & PG1 & PE1).
  assert (N : forall (T T' : tbl) h, Permutation T' (map h T) -> T <> [] -> T' <> []) by (intros T T' h P n K; subst T'; apply Permutation_nil in P; destruct T; [congruence|discriminate]).
  pose proof (derived_perm _ _ _ F' G' E' (Permutation_sym PF1) (Permutation_sym PG1) (Permutation_sym PE1) (derived_as ff fg fe k IF IG IE F G E D)) as D'.
  assert (NF' : numbers (areas F')) by (apply (numbers_perm _ _ _ (Permutation_sym PF1)); fold (areas (map (flash_as ff k) F)); rewrite (proj1 (areas_as ff fg k F)); exact NF).
  destruct (C24_table_exists weird scale xr yr F G E nF nG nE NF D) as (L & HL).
  destruct (C24_table_exists weird scale xr yr F' G' E' (N _ _ _ PF1 nF) (N _ _ _ PG1 nG) (N _ _ _ PE1 nE) NF' D') as (L' & HL').
  exists L, L'. split; [exact HL|]. split; [exact HL'|]. destruct D as ((U & _) & _). apply unique3 in U. destruct U as (u1 & u2 & _).
  apply (table_as ff fg fe k IF IG weird scale xr yr F G E F' G' E' L L' PF1 PG1 PE1 NF NG u1 u2 HL HL').
Qed.
Print Assumptions C112_table.

(** * The hypotheses are met *)
(** Flash numbers that run the other way after 65536, groups and events renumbered, rows
    reversed, energies in nJ. *)
Definition nano : Q := 1000000000 # 1.
Definition renumbered (ds : list tbl) : list tbl :=
  match ds with
  | [F; G; E] => [rev (map (flash_as (fun i => 65536 - i) nano) F); rev (map (group_as (fun i => 65536 - i) (fun i => 7 * i) nano) G);
                  rev (map (event_as (fun i => 65536 - i) (fun i => 7 * i) (fun i => i + 1) nano) E)]
  | _ => ds
  end.
Lemma renumbered_ok : relabelled nano ok_file (renumbered ok_file).
Proof.
  do 6 eexists. exists (fun i => 65536 - i), (fun i => 7 * i), (fun i => i + 1). split; [reflexivity|]. split; [reflexivity|]. unfold one_to_one.
  split; [intros; lia|]. split; [intros; lia|]. split; [intros; lia|]. split; [|split]; apply Permutation_sym, Permutation_rev.
Qed.
Example C112_selection_ex : exists sel sel', subset_flashes (fun l => l) ok_file two_events = Ok sel /\
  subset_flashes (fun l => l) (renumbered ok_file) two_events = Ok sel' /\
  map (map rid) sel = [[2]; [6]; [101; 102]] /\ map (map rid) sel' = [[65534]; [42]; [103; 102]].
Proof. do 2 eexists. split; [vm_compute; reflexivity|]. split; [vm_compute; reflexivity|]. split; reflexivity. Qed.
Example C112_grids_ex : (exists g g', grid_files (fun l => l) (fun _ => 0) ex_clip ex_tree red_quad ex_xe ex_ye 2 [ok_file] None = Ok g /\
    grid_files (fun l => l) (fun _ => 0) ex_clip ex_tree red_quad ex_xe ex_ye 2 [renumbered ok_file] None = Ok g' /\
    (num (g_at (gr_energy g) 1 1) == 6)%Q /\ (num (g_at (gr_energy g') 1 1) == 6 * nano)%Q /\ (num (g_at (gr_fcount g) 1 1) == num (g_at (gr_fcount g') 1 1))%Q /\ (0 < num (g_at (gr_fcount g) 1 1))%Q) /\
  by_position red_quad /\ Forall usable [ok_file] /\ Forall (one_chunk (fun l => l) None 2) [ok_file] /\ Forall2 (relabelled nano) [ok_file] [renumbered ok_file] /\
  exists t1, tables_read (fun l => l) (fun _ => 0) 2 None [ok_file] t1 /\
  forall r, In r (List.concat t1) -> ~ (size (red_quad (lu_x r) (lu_y r)) == 0)%Q /\ positive (lu_minarea r).
Proof.
  split; [do 2 eexists; split; [vm_compute; reflexivity|]; split; [vm_compute; reflexivity|]; repeat split; vm_compute; reflexivity|].
  destruct C105_grids_ex as (_ & A & B & C & _ & t1 & t2 & T & _ & _ & P). split; [exact A|]. split; [exact B|]. split; [exact C|].
  split; [constructor; [exact renumbered_ok|constructor]|]. exists t1. split; [exact T|]. intros r Hr. apply P. apply in_or_app. auto.
Qed.
