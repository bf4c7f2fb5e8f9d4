(** C117: gridding frame by frame gives what one run gives. *)
From Coq Require Import List ZArith QArith Qabs Bool String Lia Lqa Permutation.
From Verif Require Import Base BaseProofs Traversal TraversalSpec Glm GlmSpec GlmProofs2 GlmProofs3 PropGlm Lut LutSpec LutProofs Accum AccumSpec AccumProofs Poly PolySpec PropPoly BBox BBoxSpec
  Slice SliceSpec PropSlice Regroup RegroupSpec Pipeline PipelineSpec PipelineProofs PropPipeline ChunkSpec ChunkProofs PropChunks FileName Imagery ImagerySpec ImageryProofs PropImagery
  Gridder GridderSpec GridderProofs PropGridder PropRuns PropDurations.
Import ListNotations.
Open Scope Z_scope.

Local Notation tbl := (table obs).

(** The two edges of frame [t], as given to a run for this frame alone. *)
Definition alone (te : list Q) (t : nat) : list Q := [edge te t; edge te (S t)].
(** No file is left out whose product time is in frame [t]. *)
Definition enough (te : list Q) (t : nat) (keep : glmfile -> bool) (files : list glmfile) : Prop :=
  forall f, In f files -> during te t (f_time f) -> keep f = true.
(** The files left out have no flash and no group of which the own time is in frame [t]. *)
Definition nothing_lost (te : list Q) (t : nat) (keep : glmfile -> bool) (files : list glmfile) : Prop :=
  forall f rows r, In f files -> keep f = false ->
  (nth_error (f_ds f) 0 = Some rows -> In r rows -> ~ during te t (f_fstart f (rid r))) /\
  (nth_error (f_ds f) 1 = Some rows -> In r rows -> ~ during te t (f_gtime f (rid r))).
(** The products that go by the product time of the files. *)
Definition by_file : list string :=
  ["total_energy"; "flash_extent_density"; "average_flash_area"; "minimum_flash_area"; "group_extent_density"; "average_group_area"]%string.

(** *** Lemmas *)
Lemma alone_during : forall te t v, (S t < List.length te)%nat -> duringb (alone te t) 0 v = duringb te t v.
Proof.
  intros te t v H. apply eq_true_iff_eq. rewrite !duringb_iff, (during_edges te t v H), during_edges by (cbn; lia). reflexivity.
Qed.
Lemma keep_during : forall te t keep files, (S t < List.length te)%nat -> enough te t keep files ->
  files_during (alone te t) 0 (filter keep files) = files_during te t files.
Proof.
  intros te t keep files H EN. unfold files_during. f_equal. rewrite filter_filter. revert EN. induction files as [|f files IH]; intros EN; [reflexivity|]. cbn [filter].
  rewrite IH by (intros f' Hf'; apply EN; right; exact Hf'). rewrite alone_during by exact H. destruct (duringb te t (f_time f)) eqn:D; [|rewrite ?andb_false_r; reflexivity].
  rewrite (EN f (or_introl eq_refl)) by (apply duringb_iff; exact D). reflexivity.
Qed.
Lemma map_res_filter : forall A B (f : A -> res B) (k : A -> bool) l out, map_res f l = Ok out ->
  map_res f (filter k l) = Ok (map snd (filter (fun ab => k (fst ab)) (combine l out))).
Proof.
  intros A B f k l out H. apply map_res_inv in H. induction H as [|a b l out E _ IH]; [reflexivity|]. cbn [filter combine fst]. destruct (k a); [|exact IH]. cbn [map_res map snd]. rewrite E, IH. reflexivity.
Qed.
Lemma product_fun : forall arrays name x y t v v', product arrays name x y t v -> product arrays name x y t v' -> v = v'.
Proof.
  intros arrays name x y t v v' (k & a & Ek & Ea & <-) (k' & a' & Ek' & Ea' & <-). assert (k = k') as <-; [|congruence].
  assert (ND : NoDup lut_names) by (repeat constructor; cbn; intuition discriminate).
  apply (proj1 (NoDup_nth_error lut_names) ND); [apply nth_error_Some; congruence|congruence].
Qed.
Lemma chosen_incl : forall so, (forall l, Permutation (so l) l) -> forall q f FG, (forall q', q = Some q' -> q_check q' = true) -> usable (f_ds f) -> chosen so q f FG ->
  (forall r, In r (fst FG) -> exists F, nth_error (f_ds f) 0 = Some F /\ In r F) /\ (forall r, In r (snd FG) -> exists G, nth_error (f_ds f) 1 = Some G /\ In r G).
Proof.
  intros so PS q f FG HQ U [[_ ->]|((e0 & E0 & NE) & E & S)]; [split; intros r []|]. destruct U as [U|(F & G & E1 & DS & NF & NG & NEv & OK & _)]; [congruence|].
  rewrite DS in *. cbn [nth_error]. destruct q as [q|]; cbn [selection] in S.
  - destruct (C12_subset_exact so PS F G E1 q OK NF NG NEv (HQ q eq_refl)) as (F2 & G2 & E2 & SE & IF & IG & _). assert ([F2; G2; E2] = [fst FG; snd FG; E]) as K by congruence. inversion K; subst.
    split; intros r Hr; [exists F|exists G]; (split; [reflexivity|]); [apply IF, Hr|apply IG, Hr].
  - inversion S; subst. split; intros r Hr; eauto.
Qed.

Section Minutes.
Variable set_order : list Z -> list Z.
Variable weird : fval -> Z.
Variable clip : poly -> poly -> list poly.
Variable tree : Q * Q -> list (Z * Z).
Variable quad : fval -> fval -> poly.
Variables (xe ye te : list Q).
Variable chunk_size : nat.
Variable q : option query.
Local Notation run te files := (process_files set_order weird clip tree quad xe ye te true chunk_size q files).

(** With at least the files of the frame, the extent densities, areas and energy of the run
    of one frame alone are those of that frame in the run over all. *)
Theorem C117_extents : forall files arrays p t keep arrays' p',
  run te files = Ok (arrays, p) -> run (alone te t) (filter keep files) = Ok (arrays', p') ->
  (S t < List.length te)%nat -> enough te t keep files ->
  forall name x y v, In name by_file -> (product arrays' name x y 0 v <-> product arrays name x y t v).
Proof.
  intros files arrays p t keep arrays' p' H H' Ht EN name x y v Hn.
  destruct (C48_products _ _ _ _ _ _ _ _ _ _ _ _ _ H) as (_ & _ & PRD). destruct (PRD t ltac:(lia)) as (g & EG & PG). clear PRD.
  destruct (C48_products _ _ _ _ _ _ _ _ _ _ _ _ _ H') as (_ & _ & PRD). destruct (PRD 0%nat ltac:(cbn; lia)) as (g' & EG' & PG'). clear PRD.
  rewrite keep_during in EG' by auto. assert (g' = g) by congruence. subst g'. clear EG EG'.
  assert (K : exists w, product arrays' name x y 0 w /\ product arrays name x y t w).
  { destruct (PG x y) as (A1 & A2 & A3 & A4 & A5 & A6). destruct (PG' x y) as (B1 & B2 & B3 & B4 & B5 & B6). unfold by_file in Hn. cbn [In] in Hn.
    destruct Hn as [<-|[<-|[<-|[<-|[<-|[<-|[]]]]]]]; eauto. }
  destruct K as (w & K1 & K2). split; intros K; [rewrite (product_fun _ _ _ _ _ _ _ K K1)|rewrite (product_fun _ _ _ _ _ _ _ K K2)]; auto.
Qed.

Hypothesis PS : forall l, Permutation (set_order l) l.
Hypothesis HC : (0 < chunk_size)%nat.
Hypothesis HQ : forall q', q = Some q' -> q_check q' = true.

(** The centroid densities are too, if no file left out has a flash or group of which the own
    time is in the frame. *)
Theorem C117_centroids_partial : forall files arrays p t keep arrays' p', Forall (fun f => usable (f_ds f)) files ->
  run te files = Ok (arrays, p) -> run (alone te t) (filter keep files) = Ok (arrays', p') ->
  (S t < List.length te)%nat -> nothing_lost te t keep files ->
  forall name x y v, In name ["flash_centroid_density"; "group_centroid_density"]%string -> (product arrays' name x y 0 v <-> product arrays name x y t v).
Proof.
  intros files arrays p t keep arrays' p' US H H' Ht NL name x y v Hn.
  apply process_inv in H. destruct H as (bss & R & F1 & _). apply process_inv in H'. destruct H' as (bss' & R' & F1' & _).
  pose proof (map_res_filter _ _ _ keep _ _ R) as RF. rewrite RF in R'. inversion R'; subst bss'. clear R' RF. apply map_res_inv in R.
  assert (CASES : exists l k, nth_error lut_names k = Some name /\ nth_error lut_feeds k = Some (Points l)).
  { cbn [In] in Hn. destruct Hn as [<-|[<-|[]]]; [exists Flashes, 1%nat|exists Groups, 5%nat]; split; reflexivity. }
  destruct CASES as (l & k & EN & EF).
  assert (NTH : forall arr te0 bs, Forall2 (fun fd a => frames xe ye te0 bs fd = Ok a) lut_feeds arr -> exists a, nth_error arr k = Some a /\ frames xe ye te0 bs (Points l) = Ok a).
  { intros arr te0 bs F. clear -F EF. revert k EF. induction F as [|fd a fds arr E F IH]; intros k EF; [destruct k; discriminate|]. destruct k; cbn in *; [injection EF as ->; eauto|apply IH; auto]. }
  destruct (NTH _ _ _ F1) as (a & Ea & Fa). destruct (NTH _ _ _ F1') as (a' & Ea' & Fa'). clear NTH F1 F1'.
  apply frames_inv in Fa. destruct Fa as (_ & _ & _ & Fa). destruct (Fa t ltac:(lia)) as (gt & Egt & Vgt). apply frames_inv in Fa'. destruct Fa' as (_ & _ & _ & Fa'). destruct (Fa' 0%nat ltac:(cbn; lia)) as (gt' & Egt' & Vgt').
  assert (PTS : filter (fun p => in_frame (alone te t) 0 (p_t p)) (flat_map (points_at l) (List.concat (map snd (filter (fun ab => keep (fst ab)) (combine files bss))))) =
                filter (fun p => in_frame te t (p_t p)) (flat_map (points_at l) (List.concat bss))).
  { erewrite filter_ext; [|intros p0; rewrite in_frame_during, alone_during by exact Ht; rewrite <- in_frame_during; reflexivity].
    clear -R US NL PS HC HQ. induction R as [|f bs files bss E R IH]; [reflexivity|]. inversion US as [|? ? U US']; subst.
    specialize (IH US' ltac:(intros f' rows r Hf'; apply NL; right; exact Hf')). cbn [combine filter fst List.concat]. rewrite flat_map_app, filter_app, <- IH.
    destruct (keep f) eqn:KF; [cbn [map snd List.concat]; rewrite flat_map_app, filter_app; reflexivity|].
    enough (Z0 : filter (fun p => in_frame te t (p_t p)) (flat_map (points_at l) bs) = []) by (rewrite Z0; reflexivity). clear IH.
    destruct (batches_points set_order PS weird clip tree quad xe ye chunk_size q f bs HC HQ U E) as (FG & CH & PF & PG).
    destruct (chosen_incl set_order PS q f FG HQ U CH) as [CF CG].
    destruct (filter (fun p => in_frame te t (p_t p)) (flat_map (points_at l) bs)) as [|p0 rest] eqn:EE; [reflexivity|exfalso]. assert (Hp : In p0 (filter (fun p => in_frame te t (p_t p)) (flat_map (points_at l) bs))) by (rewrite EE; left; reflexivity).
    apply filter_In in Hp. destruct Hp as [Hp D]. rewrite in_frame_during in D. apply duringb_iff in D. destruct l.
    - change (flat_map (points_at Flashes) bs) with (flat_map b_flashes bs) in Hp. rewrite PF in Hp. cbn [points_of] in Hp. apply in_map_iff in Hp. destruct Hp as (r & <- & Hr). cbn [p_t] in D.
      destruct (CF r Hr) as (F & EF & HF). destruct (NL f F r (or_introl eq_refl) KF) as [N _]. exact (N EF HF D).
    - change (flat_map (points_at Groups) bs) with (flat_map b_groups bs) in Hp. apply (Permutation_in _ PG) in Hp. cbn [points_of] in Hp. apply in_map_iff in Hp. destruct Hp as (r & <- & Hr). cbn [p_t] in D.
      destruct (CG r Hr) as (G & EG & HG). destruct (NL f G r (or_introl eq_refl) KF) as [_ N]. exact (N EG HG D). }
  assert (EQ : gt' = gt).
  { cbn [frame_grid] in Egt, Egt'. rewrite PTS in Egt'. congruence. }
  subst gt'.
  assert (K : exists w, product arrays' name x y 0 w /\ product arrays name x y t w).
  { eexists. split; [exists k, a'|exists k, a]; (split; [exact EN|]; split; [eassumption|]); [apply Vgt'|apply Vgt]. }
  destruct K as (w & K1 & K2). split; intros K; [rewrite (product_fun _ _ _ _ _ _ _ K K1)|rewrite (product_fun _ _ _ _ _ _ _ K K2)]; auto.
Qed.
Hypothesis HX : (1 < List.length xe)%nat.
Hypothesis HY : (1 < List.length ye)%nat.
Hypothesis IX : increasing xe.
Hypothesis IY : increasing ye.
Hypothesis PR : proper clip.
(** Where one run over all frames succeeds, the run of one frame alone with any of the files
    does. *)
Theorem C117_succeeds : forall files arrays p, run te files = Ok (arrays, p) -> forall t keep, exists arrays' p', run (alone te t) (filter keep files) = Ok (arrays', p').
Proof.
  intros files arrays p H t keep. apply process_inv in H. destruct H as (bss & R & _ & _). apply (map_res_filter _ _ _ keep) in R.
  pose proof (read_files_filter set_order weird clip tree quad xe ye chunk_size q (fun _ => true) _ _ R) as RW.
  destruct (read_total set_order weird clip tree quad xe ye chunk_size q _ _ HX HY IX IY PR RW) as (whole & EW).
  replace (map f_ds (filter (fun f => (fun _ => true) (f_time f)) (filter keep files))) with (map f_ds (filter keep files)) in EW by (f_equal; clear; induction (filter keep files) as [|f l IH]; [reflexivity|cbn; f_equal; exact IH]).
  destruct (process_total set_order weird clip tree quad xe ye (alone te t) chunk_size q (filter keep files) whole HX HY IX IY PR EW) as (arrays' & E). eauto.
Qed.
End Minutes.
Print Assumptions C117_succeeds.
Print Assumptions C117_extents.
Print Assumptions C117_centroids_partial.

(** *** Written files *)
Lemma at_product : forall arrays i name x y t v, nth_error lut_names i = Some name -> product arrays name x y t v -> at_ arrays i x y t = v.
Proof. intros arrays i name x y t v E P. apply (product_cell _ _ _ _ _ _ _ E) in P. apply cell_at in P. apply P. Qed.
Lemma product_exists : forall arrays i name x y t, List.length arrays = List.length lut_names -> nth_error lut_names i = Some name -> exists v, product arrays name x y t v.
Proof.
  intros arrays i name x y t L E. assert (HI : (i < List.length arrays)%nat) by (rewrite L; apply nth_error_Some; congruence). apply nth_error_Some in HI.
  destruct (nth_error arrays i) as [a|] eqn:EA; [|congruence]. eexists. exists i, a. split; [exact E|]. split; [exact EA|reflexivity].
Qed.
(** Everything [proc_each_grid] needs of the arrays. *)
Lemma proc_writes : forall so weird clip tree quad xe ye te cs q pad scaled sc stamp nows files mx my outs,
  ascending xe -> ascending ye -> List.length xe = S (mx + 2 * pad) -> List.length ye = S (my + 2 * pad) -> (exists f, In f files /\ has_events f = true) ->
  proc_each_grid so weird clip tree quad xe ye te true true cs q (pad_slice (Z.of_nat pad)) (pad_slice (Z.of_nat pad)) scaled sc stamp nows files = Ok outs ->
  exists arrays p after, process_files so weird clip tree quad xe ye te true cs q files = Ok (arrays, Some p) /\ writes (mkGridder xe ye te lut_names lut_divide p) pad scaled mx my arrays after outs.
Proof.
  intros so weird clip tree quad xe ye te cs q pad scaled sc stamp nows files mx my outs AX AY LX LY (f0 & Hf0 & HE) H.
  unfold proc_each_grid in H. cbn [negb] in H. apply bind_ok_inv in H. destruct H as ([arrays p] & EP & H). cbn [fst snd] in H.
  destruct (C48_products _ _ _ _ _ _ _ _ _ _ _ _ _ EP) as (LA & SH & _). destruct (process_inv _ _ _ _ _ _ _ _ _ _ _ _ _ EP) as (_ & _ & _ & EPL).
  destruct (find has_events files) as [f1|] eqn:EF; [|rewrite (find_none _ _ EF f0 Hf0) in HE; discriminate]. cbn [option_map] in EPL. subst p.
  set (gd := mkGridder xe ye te lut_names lut_divide (f_platform f1)) in *.
  apply bind_ok_inv in H. destruct H as ([after files'] & EW & H). cbn [snd] in H. inversion H; subst files'. clear H.
  exists arrays, (f_platform f1), after. split; [exact EP|]. split; [exact AX|]. split; [exact AY|]. split; [exact LX|]. split; [exact LY|].
  split; [cbn [gd gd_tedges]; replace (mx + 2 * pad)%nat with (List.length xe - 1)%nat by lia; replace (my + 2 * pad)%nat with (List.length ye - 1)%nat by lia; exact SH|].
  split; [cbn [gd gd_names]; symmetry; exact LA|]. split; [exact lut_simple|]. exists sc, stamp, nows. exact EW.
Qed.
(** The file that the run of one frame alone writes has the pixels of the file of that frame
    from the run over all frames, at the same coordinates, in all products that go by the
    files, and in all products if nothing of the frame is left out. *)
Theorem C117_written_partial : forall set_order, (forall l, Permutation (set_order l) l) ->
  forall weird clip tree quad xe ye te chunk_size q pad scaled sc stamp nows nows' files mx my outs outs' t keep,
  ascending xe -> ascending ye -> List.length xe = S (mx + 2 * pad) -> List.length ye = S (my + 2 * pad) ->
  (exists f, In f files /\ keep f = true /\ has_events f = true) ->
  proc_each_grid set_order weird clip tree quad xe ye te true true chunk_size q (pad_slice (Z.of_nat pad)) (pad_slice (Z.of_nat pad)) scaled sc stamp nows files = Ok outs ->
  proc_each_grid set_order weird clip tree quad xe ye (alone te t) true true chunk_size q (pad_slice (Z.of_nat pad)) (pad_slice (Z.of_nat pad)) scaled sc stamp nows' (filter keep files) = Ok outs' ->
  (S t < List.length te)%nat -> enough te t keep files ->
  exists out out', nth_error outs t = Some out /\ outs' = [out'] /\ of_x out' = of_x out /\ of_y out' = of_y out /\ map fst (of_fields out') = map fst (of_fields out) /\
  forall name r c, In name lut_names -> (r < my)%nat -> (c < mx)%nat ->
  In name by_file \/ ((0 < chunk_size)%nat /\ (forall q', q = Some q' -> q_check q' = true) /\ Forall (fun f => usable (f_ds f)) files /\ nothing_lost te t keep files) ->
  exists w, pixel_named out name r c w /\ pixel_named out' name r c w.
Proof.
  intros so PS weird clip tree quad xe ye te cs q pad scaled sc stamp nows nows' files mx my outs outs' t keep AX AY LX LY (f0 & Hf0 & KF0 & HE) H H' Ht EN.
  destruct (proc_writes _ _ _ _ _ _ _ _ _ _ _ _ _ _ _ _ mx my _ AX AY LX LY (ex_intro _ f0 (conj Hf0 HE)) H) as (arrays & p & af & EP & W).
  assert (HF0 : exists f, In f (filter keep files) /\ has_events f = true) by (exists f0; split; [apply filter_In; auto|exact HE]).
  destruct (proc_writes _ _ _ _ _ _ _ _ _ _ _ _ _ _ _ _ mx my _ AX AY LX LY HF0 H') as (arrays' & p' & af' & EP' & W').
  destruct (writes_files _ _ _ _ _ _ _ _ W) as (LF & FF & _). destruct (writes_files _ _ _ _ _ _ _ _ W') as (LF' & FF' & _). cbn [gd_tedges] in LF, LF'. cbn [alone List.length Nat.sub] in LF'.
  destruct outs' as [|out' [|? ?]]; try discriminate LF'. destruct (nth_error outs t) as [out|] eqn:EO; [|apply nth_error_None in EO; lia].
  destruct (C48_products _ _ _ _ _ _ _ _ _ _ _ _ _ EP) as (LA & _). destruct (C48_products _ _ _ _ _ _ _ _ _ _ _ _ _ EP') as (LA' & _).
  destruct (FF t out EO) as (Ex & Ey & Nm & Rc & Px). destruct (FF' 0%nat out' eq_refl) as (Ex' & Ey' & Nm' & Rc' & Px'). rewrite !pad_lo, !pad_len in *.
  exists out, out'. split; [reflexivity|]. split; [reflexivity|]. split; [rewrite Ex, Ex'; reflexivity|]. split; [rewrite Ey, Ey'; reflexivity|]. split; [rewrite Nm, Nm'; reflexivity|].
  intros name r c Hn Hr Hc COND. apply In_nth_error in Hn. destruct Hn as (i & Ei).
  assert (Hi : (i < List.length lut_names)%nat) by (apply nth_error_Some; congruence).
  specialize (Px i r c ltac:(lia) Hr Hc). specialize (Px' i r c ltac:(lia) Hr Hc).
  eexists. split; [eapply named_pixel; [exact Nm|exact Ei|exact Px]|]. eapply named_pixel; [exact Nm'|exact Ei|].
  match type of Px with pixel_of _ _ _ _ ?w => match type of Px' with pixel_of _ _ _ _ ?w' => replace w with w'; [exact Px'|] end end.
  assert (HX : (1 < List.length xe)%nat /\ (1 < List.length ye)%nat) by lia.
  assert (AT : forall x y j nm, nth_error lut_names j = Some nm -> In nm by_file \/ nm = name -> at_ arrays' j x y 0 = at_ arrays j x y t).
  { intros x y j nm Ej C. destruct (product_exists arrays j nm x y t LA Ej) as (v & Pv). rewrite (at_product _ _ _ _ _ _ _ Ej Pv).
    assert (C' : In nm by_file \/ (In nm ["flash_centroid_density"; "group_centroid_density"]%string /\ nm = name)).
    { destruct C as [C|C]; [auto|]. subst nm. apply nth_error_In in Ei. cbn [lut_names In] in Ei. unfold by_file. cbn [In]. intuition. }
    destruct C' as [C'|[C' ->]].
    - apply (at_product _ _ _ _ _ _ _ Ej). apply (C117_extents so weird clip tree quad xe ye te cs q files arrays _ t keep arrays' _ EP EP' Ht EN nm x y v C'). exact Pv.
    - destruct COND as [COND|(HC & HQ & US & NL)].
      + exfalso. unfold by_file in COND. cbn [In] in C', COND. destruct C' as [<-|[<-|[]]]; intuition discriminate.
      + apply (at_product _ _ _ _ _ _ _ Ej). apply (C117_centroids_partial so weird clip tree quad xe ye te cs q PS HC HQ files arrays _ t keep arrays' _ US EP EP' Ht NL name x y v C'). exact Pv. }
  f_equal. unfold value. cbn [gd_divide]. destruct (lut_divide i) as [d|] eqn:ED.
  - assert (ND : exists nm, nth_error lut_names d = Some nm /\ In nm by_file).
    { do 7 (destruct i as [|i]; [cbn in ED; first [discriminate|injection ED as <-; eexists; split; [reflexivity|unfold by_file; cbn [In]; tauto]]|]). cbn in ED. discriminate. }
    destruct ND as (nm & En & Hb). rewrite (AT _ _ i name Ei (or_intror eq_refl)), (AT _ _ d nm En (or_introl Hb)). reflexivity.
  - apply (AT _ _ i name Ei (or_intror eq_refl)).
Qed.
Print Assumptions C117_written_partial.

(** The centroid densities need the condition: the run of a frame with the files of this frame
    leaves out the flashes that started in it and are in another file. *)
Definition n_file : glmfile := mkFile g_ds (23 # 1) (fun _ => 30 # 1)%Q (fun _ => 30 # 1)%Q (fun _ => 30 # 1)%Q (lit "G16").
Definition n_keep (f : glmfile) : bool := duringb g_te 1 (f_time f).
Local Notation n_run te files := (process_files (fun l => l) (fun _ => 0) ex_clip ex_tree ex_quad g_xe g_ye te true 7 None files).
Lemma n_enough : enough g_te 1 n_keep [g_file; n_file].
Proof. intros f _ D. apply duringb_iff, D. Qed.
Lemma usable_ds : forall ti s g e p, usable (f_ds (mkFile g_ds ti s g e p)).
Proof. intros. cbn [f_ds]. destruct C59_hypotheses as [_ H]. inversion H; subst. assumption. Qed.
Definition first_keep (f : glmfile) : bool := duringb g_te 0 (f_time f).
Theorem C117_centroids_refuted : ~ (forall set_order weird clip tree quad xe ye te chunk_size q files arrays p t keep arrays' p',
  (1 < List.length xe)%nat -> (1 < List.length ye)%nat -> (forall l, Permutation (set_order l) l) -> (0 < chunk_size)%nat -> Forall (fun f => usable (f_ds f)) files ->
  process_files set_order weird clip tree quad xe ye te true chunk_size q files = Ok (arrays, p) ->
  process_files set_order weird clip tree quad xe ye (alone te t) true chunk_size q (filter keep files) = Ok (arrays', p') ->
  (S t < List.length te)%nat -> enough te t keep files ->
  forall name x y v, In name ["flash_centroid_density"; "group_centroid_density"]%string -> product arrays name x y t v -> product arrays' name x y 0 v).
Proof.
  intros K.
  assert (A : match n_run g_te [g_file; n_file], n_run (alone g_te 1) (filter n_keep [g_file; n_file]) with
              | Ok (a, _), Ok (a', _) => Qeq_bool (num (at_ a 1 2 3 1)) (num (at_ a' 1 2 3 0)) = false | _, _ => False end) by (vm_compute; reflexivity).
  destruct (n_run g_te [g_file; n_file]) as [[arrays p]|] eqn:E; [|destruct A].
  destruct (n_run (alone g_te 1) (filter n_keep [g_file; n_file])) as [[arrays' p']|] eqn:E'; [|destruct A].
  assert (US : Forall (fun f => usable (f_ds f)) [g_file; n_file]) by (constructor; [apply usable_ds|constructor; [apply usable_ds|constructor]]).
  specialize (K (fun l => l) (fun _ => 0) ex_clip ex_tree ex_quad g_xe g_ye g_te 7%nat None [g_file; n_file] arrays p 1%nat n_keep arrays' p'
    ltac:(cbn; lia) ltac:(cbn; lia) ltac:(auto) ltac:(lia) US E E' ltac:(cbn; lia) n_enough "flash_centroid_density"%string 2%nat 3%nat).
  destruct (C48_products _ _ _ _ _ _ _ _ _ _ _ _ _ E) as (LA & _).
  destruct (product_exists arrays 1 "flash_centroid_density"%string 2 3 1 LA eq_refl) as (v & Pv). pose proof (K v (or_introl eq_refl) Pv) as Pv'.
  rewrite (at_product _ 1%nat _ _ _ _ _ eq_refl Pv), (at_product _ 1%nat _ _ _ _ _ eq_refl Pv') in A. rewrite (proj2 (Qeq_bool_iff _ _) (Qeq_refl _)) in A. discriminate A.
Qed.
Print Assumptions C117_centroids_refuted.

(** A frame without lightning in its files has its file from a run over all frames, if there
    is lightning in another; the run of that frame alone ends with an exception. *)
Theorem C117_quiet_refuted : forall set_order weird clip tree quad xe ye te chunk_size q pad scaled sc stamp nows nows' files mx my g t keep,
  ascending xe -> ascending ye -> (2 <= mx)%nat -> (1 <= my)%nat -> List.length xe = S (mx + 2 * pad) -> List.length ye = S (my + 2 * pad) -> proper clip ->
  (exists f, In f files /\ has_events f = true) ->
  grid_files set_order weird clip tree quad xe ye chunk_size (map f_ds files) q = Ok g ->
  (forall f, In f files -> keep f = true -> nth_error (f_ds f) 2 = Some []) -> (S t < List.length te)%nat ->
  (exists outs out, proc_each_grid set_order weird clip tree quad xe ye te true true chunk_size q (pad_slice (Z.of_nat pad)) (pad_slice (Z.of_nat pad)) scaled sc stamp nows files = Ok outs /\
     nth_error outs t = Some out) /\
  (forall outs', proc_each_grid set_order weird clip tree quad xe ye (alone te t) true true chunk_size q (pad_slice (Z.of_nat pad)) (pad_slice (Z.of_nat pad)) scaled sc stamp nows'
     (filter keep files) <> Ok outs').
Proof.
  intros so weird clip tree quad xe ye te cs q pad scaled sc stamp nows nows' files mx my g t keep AX AY MX MY LX LY PR HE HG QT Ht. split.
  - destruct (C61_calls_partial so weird clip tree quad xe ye te cs q pad scaled sc stamp nows files mx my g AX AY MX MY LX LY PR HE HG) as (outs & LO & E).
    destruct (nth_error outs t) as [out|] eqn:EO; [eauto|apply nth_error_None in EO; lia].
  - intros outs'. destruct (C61_calls_refuted so weird clip tree quad xe ye (alone te t) cs q (pad_slice (Z.of_nat pad)) (pad_slice (Z.of_nat pad)) scaled sc stamp nows') as (_ & _ & R).
    apply R; [cbn; lia|]. apply Forall_forall. intros f Hf. apply filter_In in Hf. apply QT; apply Hf.
Qed.
Print Assumptions C117_quiet_refuted.

(** Two files of the two frames; the second frame from both and alone. *)
Definition n_outs (te : list Q) (files : list glmfile) : res (list outfile) :=
  proc_each_grid (fun l => l) (fun _ => 0) ex_clip ex_tree ex_quad g_xe g_ye te true true 7 None (pad_slice (Z.of_nat 1)) (pad_slice (Z.of_nat 1)) true ex_scenes
    (fun _ => ex_time) (fun _ => ex_time) files.
Example C117_ex : exists f0 f1 f1', n_outs g_te [g_file; n_file] = Ok [f0; f1] /\ n_outs (alone g_te 1) (filter n_keep [g_file; n_file]) = Ok [f1'] /\
  map (fun name => field_of name f1') by_file = map (fun name => field_of name f1) by_file /\
  field_of "flash_centroid_density" f1' <> field_of "flash_centroid_density" f1.
Proof. do 3 eexists. split; [vm_compute; reflexivity|]. split; [vm_compute; reflexivity|]. split; [vm_compute; reflexivity|]. vm_compute; discriminate. Qed.
(** The first frame loses nothing when the file of the second is left out. *)
Example C117_hypotheses : enough g_te 0 first_keep [g_file; n_file] /\ nothing_lost g_te 0 first_keep [g_file; n_file] /\ Forall (fun f => usable (f_ds f)) [g_file; n_file] /\
  (exists f, In f [g_file; n_file] /\ first_keep f = true /\ has_events f = true) /\ map first_keep [g_file; n_file] = [true; false].
Proof.
  split; [intros f _ D; apply duringb_iff, D|]. split.
  - intros f rows r [<-|[<-|[]]] KF; [discriminate KF|]. cbn [n_file f_fstart f_gtime]. split; intros _ _ D; apply duringb_iff in D; discriminate D.
  - split; [constructor; [apply usable_ds|constructor; [apply usable_ds|constructor]]|]. split; [exists g_file; split; [left; reflexivity|split; reflexivity]|reflexivity].
Qed.
(** A quiet frame: the second file has no lightning. *)
Definition q_file : glmfile := mkFile [[]; []; []] (23 # 1) (fun _ => 30 # 1)%Q (fun _ => 30 # 1)%Q (fun _ => 30 # 1)%Q (lit "G16").
Example C117_quiet_ex : (forall f, In f [g_file; q_file] -> n_keep f = true -> nth_error (f_ds f) 2 = Some []) /\
  (exists f0 f1, n_outs g_te [g_file; q_file] = Ok [f0; f1]) /\ n_outs (alone g_te 1) (filter n_keep [g_file; q_file]) = Err AttributeError.
Proof.
  split; [intros f [<-|[<-|[]]] K; [discriminate K|reflexivity]|]. split; [do 2 eexists; vm_compute; reflexivity|vm_compute; reflexivity].
Qed.
