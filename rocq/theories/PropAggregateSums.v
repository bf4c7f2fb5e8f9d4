(** C120 for whole images: what the intervals of an aggregated series show all together. *)
From Coq Require Import List ZArith QArith Qabs Bool Ascii String Lia Lqa Permutation.
From Verif Require Import Base BaseProofs Traversal TraversalSpec Glm GlmSpec GlmProofs2 GlmProofs3 PropGlm Lut LutSpec LutProofs Accum AccumSpec AccumProofs Poly PolySpec PropPoly BBox BBoxSpec
  Slice SliceSpec PropSlice Regroup RegroupSpec Pipeline PipelineSpec PipelineProofs PropPipeline ChunkSpec ChunkProofs PropChunks FileName FileNameSpec Imagery ImagerySpec ImageryProofs PropImagery
  Gridder GridderSpec GridderProofs PropGridder PropImageSums GridSetup GridSetupSpec PropRunSums Aggregate AggregateSpec AggregateProofs PropAggregate Output OutputSpec OutputProofs OutputProofs2 PropOutput PropReadBack PropAggregateRange.
Import ListNotations.
Open Scope Q_scope.

(** The pixels of an image: row from the top, column from the left. *)
Definition pixels (mx my : nat) : list (nat * nat) := list_prod (seq 0 my) (seq 0 mx).
(** All pixels of all intervals of a field together, missing counting as zero. *)
Definition aggregated_sum (out : list (interval (nat * nat))) (name : string) (mx my : nat) : Q :=
  qsum (map (fun iv => qsum (map (fun p => or0 (iv_at iv name p)) (pixels mx my))) out).

Lemma rows_exact : forall rows h w (V : nat * nat -> Q), List.length rows = h -> Forall (fun row : list fval => List.length row = w) rows ->
  (forall r c row v, nth_error rows r = Some row -> nth_error row c = Some v -> num v = V (r, c)) ->
  qsum (map (fun row => qsum (map num row)) rows) == qsum (map V (pixels w h)).
Proof.
  intros rows h w V L F H. pose proof (rows_near rows h w (fun r c => V (r, c)) (fun _ _ => 0) L F) as N. unfold pixels. rewrite prod_sum.
  assert (Z : qsum (map (fun _ : nat => qsum (map (fun _ : nat => 0) (seq 0 w))) (seq 0 h)) == 0).
  { assert (Z0 : forall A (h : A -> Q) (l : list A), (forall a, h a == 0) -> qsum (map h l) == 0).
    { intros A h0 l H0. induction l as [|a l IH]; [reflexivity|]. cbn [map]. change (qsum (?x :: ?r)) with (x + qsum r). rewrite IH, H0. reflexivity. }
    apply Z0. intros _. apply Z0. reflexivity. }
  rewrite Z in N. clear Z. set (x := qsum (map (fun row => qsum (map num row)) rows)) in *. set (y := qsum (map (fun r => _) (seq 0 h))) in *. clearbody x y.
  assert (K : Qabs (x - y) <= 0). { apply N. intros r c row v E1 E2. rewrite (H r c row v E1 E2). setoid_replace (V (r, c) - V (r, c)) with 0 by ring. apply Qle_refl. }
  apply Qabs_Qle_condition in K. destruct K. lra.
Qed.
Lemma total_sum : forall P (h : frame P -> fval) fs, total h fs = qsum (map (fun f => or0 (h f)) fs).
Proof. intros P h fs. induction fs as [|f fs IH]; [reflexivity|]. cbn [total map]. change (qsum (?x :: ?r)) with (x + qsum r). rewrite IH. reflexivity. Qed.
Lemma f2_nth : forall A B (R : A -> B -> Prop) l m, List.length l = List.length m -> (forall k a b, nth_error l k = Some a -> nth_error m k = Some b -> R a b) -> Forall2 R l m.
Proof.
  intros A B R l. induction l as [|a l IH]; intros [|b m] L H; try discriminate; constructor; [apply (H 0%nat); reflexivity|]. apply IH; [injection L; auto|]. intros k x y. apply (H (S k)).
Qed.

(** Files written by one call, opened in their order and aggregated over a range that
    contains the starts of all frames, however they were rounded when written: the pixels
    of all intervals together hold what the images hold together. *)
Theorem C120_images : forall j outgrids fs after fs' paths g first last minutes s e out name,
  saves j outgrids fs after fs' paths -> dated 1678 2261 j -> NoDup (gd_names (j_gd j)) ->
  (forall k k' p p', k <> k' -> nth_error paths k = Some p -> nth_error paths k' = Some p' -> ~ same_path p p') ->
  open_glm_time_series fs' paths = Ok (g, first, last) -> aggregate g minutes (Some (s, e)) = Ok out -> whole minutes s e ->
  (forall k, (k < List.length paths)%nat -> (s < start_of j k <= e)%Z) -> In name (gd_names (j_gd j)) -> summable name ->
  exists files totals, writes (j_gd j) (j_pad j) (j_scaled j) (j_mx j) (j_my j) outgrids after (map nc_out files) /\
    Forall2 (fun f total => image_sum (nc_out f) name total) files totals /\ (forall iv, In iv out -> In name (iv_vars iv)) /\
    aggregated_sum out name (j_mx j) (j_my j) == qsum totals.
Proof.
  intros j og fs af fs' paths g first last minutes s e out name SV DT ND DP OP AG W IN NM SM.
  assert (F2 : Forall2 (fun p k => nth_error paths k = Some p) paths (seq 0 (List.length paths))).
  { apply f2_nth; [rewrite seq_length; reflexivity|]. intros k p k' Hp Hk. assert (L : (k < List.length paths)%nat) by (apply nth_error_Some; congruence). rewrite nth_error_seq in Hk by exact L. inversion Hk; subst. exact Hp. }
  assert (NE : paths <> []) by (intros ->; cbn in OP; discriminate OP).
  destruct (C66_reading_back j og fs af fs' paths paths _ SV DT ND DP F2 NE) as (files & g' & first' & last' & WR & OP' & VG & LG & FR & _).
  assert (g' = g) by congruence. subst g'. clear first' last' OP'. rewrite seq_length in LG.
  destruct (writes_files _ _ _ _ _ _ _ _ WR) as (LF & FF & _). rewrite map_length in LF.
  assert (LP : List.length files = List.length paths) by (destruct (saves_spec _ _ _ _ _ _ SV) as (_ & _ & _ & L & _); lia).
  assert (FK : forall k f fr, nth_error files k = Some f -> nth_error (s_frames g) k = Some fr -> fr_time fr = start_of j k /\
            forall i r c w, nth_error (gd_names (j_gd j)) i = Some name -> pixel_of (nc_out f) i r c w -> fr_at fr name (r, c) = w).
  { intros k f fr Hf Hfr. assert (L : (k < List.length paths)%nat) by (rewrite <- LP; apply nth_error_Some; congruence).
    destruct (FR k k (nth_error_seq _ _ L)) as (s0 & e0 & fr' & f' & (t0 & t1 & T0 & T1 & -> & _) & Hfr' & Tf & Hf' & PX). assert (fr' = fr) by congruence. assert (f' = f) by congruence. subst fr' f'.
    split; [rewrite Tf; unfold start_of; rewrite (nth_error_nth _ _ _ T0); reflexivity|]. intros i r c w Hi. apply PX. exact Hi. }
  destruct (C120_nothing_lost _ g minutes s e out AG W) as [_ T].
  { intros fr Hfr. apply In_nth_error in Hfr. destruct Hfr as (k & Hk). assert (L : (k < List.length files)%nat) by (rewrite LP, <- LG; apply nth_error_Some; congruence).
    destruct (nth_error files k) as [f|] eqn:Hf; [|apply nth_error_Some in Hf; auto; contradiction]. destruct (FK k f fr Hf Hk) as [-> _]. apply IN. lia. }
  exists files, (map (fun fr => qsum (map (fun p => or0 (fr_at fr name p)) (pixels (j_mx j) (j_my j)))) (s_frames g)). split; [exact WR|]. split.
  - apply f2_nth; [rewrite map_length; lia|]. intros k f t Hf Ht. rewrite nth_error_map in Ht. destruct (nth_error (s_frames g) k) as [fr|] eqn:Hfr; [|discriminate Ht]. inversion Ht; subst t. clear Ht.
    destruct (FK k f fr Hf Hfr) as [_ PX]. destruct (FF k (nc_out f)) as (_ & _ & NF & RC & _); [rewrite nth_error_map, Hf; reflexivity|]. rewrite !pad_len in RC.
    apply In_nth_error in NM. destruct NM as (i & Hi). assert (E : exists rows, nth_error (of_fields (nc_out f)) i = Some (name, rows)).
    { pose proof Hi as H. rewrite <- NF, nth_error_map in H. destruct (nth_error (of_fields (nc_out f)) i) as [[a rows]|]; [|discriminate H]. inversion H; subst. eauto. }
    destruct E as (rows & E). exists rows. split; [eapply nth_error_In; eauto|]. unfold rectangular in RC. rewrite Forall_forall in RC. destruct (RC _ (nth_error_In _ _ E)) as [L1 L2]. symmetry.
    apply (rows_exact rows (j_my j) (j_mx j) (fun p => or0 (fr_at fr name p)) L1 L2). intros r c row v E1 E2. rewrite (PX i r c v Hi); [reflexivity|]. exists name, rows, row. auto.
  - split.
    { intros iv Hiv. destruct (C40_fields _ g minutes _ out AG iv Hiv) as [K _]. apply K. left. split; [|rewrite VG; exact NM]. unfold kept_fields. unfold summable in SM. cbn [In] in *. tauto. }
    unfold aggregated_sum. rewrite (qsum_swap _ _ (fun iv p => or0 (iv_at iv name p))). rewrite (qsum_swap _ _ (fun fr p => or0 (fr_at fr name p))).
    induction (pixels (j_mx j) (j_my j)) as [|p l IH]; [reflexivity|]. cbn [map]. change (qsum (?x :: ?r)) with (x + qsum r). rewrite IH, (T name p SM), total_sum. reflexivity.
Qed.
Print Assumptions C120_images.

Lemma one_sum : forall (f : outfile) name a b, map fst (of_fields f) = lut_names -> image_sum f name a -> image_sum f name b -> a == b.
Proof. intros f name a b N (ra & Ia & ->) (rb & Ib & ->). rewrite (same_rows f name ra rb N Ia Ib). reflexivity. Qed.
Lemma same_sums : forall (R : outfile -> Q -> Prop) files a b, (forall f x y, In f files -> R f x -> R f y -> x == y) -> Forall2 R files a -> Forall2 R files b -> qsum a == qsum b.
Proof.
  intros R files a b H F. revert b H. induction F as [|f x files a Rx F IH]; intros b H G; inversion G; subst; [reflexivity|]. change (qsum (?x :: ?r)) with (x + qsum r).
  rewrite (IH l') by (auto; intros f0 u v I; apply H; right; exact I). rewrite (H f x y); auto; [reflexivity|left; reflexivity].
Qed.

(** From instrument files to the aggregated series.  The files are gridded without padding,
    written, opened and aggregated over a range that contains the starts of all frames: the
    energy of all pixels and intervals together is the energy of the events of the selected
    flashes in the files of the frames; in scaled output up to one step for every cell of
    a frame that has any. *)
Theorem C120_energy : forall set_order, (forall l, Permutation (set_order l) l) ->
  forall weird clip tree quad xe ye te chunk_size q files arrays platform j fs after fs' paths g first last minutes s e out,
  increasing te -> (0 < j_mx j)%nat -> (0 < j_my j)%nat -> SliceSpec.proper clip ->
  (0 < chunk_size)%nat -> (forall q', q = Some q' -> q_check q' = true) -> Forall (fun f => usable (f_ds f)) files ->
  process_files set_order weird clip tree quad xe ye te true chunk_size q files = Ok (arrays, Some platform) ->
  j_gd j = mkGridder xe ye te lut_names lut_divide platform -> j_pad j = 0%nat -> saves j arrays fs after fs' paths -> dated 1678 2261 j ->
  (forall k k' p p', k <> k' -> nth_error paths k = Some p -> nth_error paths k' = Some p' -> ~ same_path p p') ->
  open_glm_time_series fs' paths = Ok (g, first, last) -> aggregate g minutes (Some (s, e)) = Ok out -> whole minutes s e ->
  (forall k, (k < List.length paths)%nat -> (s < start_of j k <= e)%Z) ->
  let en := frame_energy set_order weird clip tree quad xe ye te chunk_size q files in
  (forall iv, In iv out -> In "total_energy"%string (iv_vars iv)) /\
  exists tables es, tables_read set_order weird chunk_size q (files_within te files) tables /\ Forall2 (observed set_order q) (files_within te files) es /\
  ((forall r, In r (List.concat tables) ->
      let p := quad (lu_x r) (lu_y r) in ~ size p == 0 /\ covered p (cut clip (regular_xy xe ye) p (nearby tree (regular_xy xe ye) p))) ->
   (forall t k, (t < List.length paths)%nat -> In k (image_cells (j_mx j) (j_my j)) -> 0 <= en t k /\ (j_scaled j = true -> en t k <= 65535 * (152597 # 100000000000))) ->
   if j_scaled j then Qabs (aggregated_sum out "total_energy" (j_mx j) (j_my j) - qsum es) <= (152597 # 100000000000) *
       qnat (List.length (filter (fun tk => Qlt_bool 0 (en (fst tk) (snd tk))) (list_prod (seq 0 (List.length paths)) (image_cells (j_mx j) (j_my j)))))
   else aggregated_sum out "total_energy" (j_mx j) (j_my j) == qsum es).
Proof.
  intros so PS weird clip tree quad xe ye te cs q files arrays pl j fs af fs' paths g first last minutes s e out IT MX MY PR HC HQ HU EP EG PD SV DT DP OP AG W IN en.
  assert (ND : NoDup (gd_names (j_gd j))) by (rewrite EG; cbn [gd_names]; unfold lut_names; repeat constructor; cbn; intuition discriminate).
  destruct (C120_images j arrays fs af fs' paths g first last minutes s e out "total_energy" SV DT ND DP OP AG W IN) as (nfs & totals & WR & F2 & VAR & ES).
  { rewrite EG. cbn. tauto. } { cbn. tauto. }
  split; [exact VAR|]. pose proof WR as (AX & AY & LX & LY & _ & _ & _ & sc & stamp & nows & EW). rewrite EG, PD in *. cbn [gd_xedge gd_yedge] in AX, AY, LX, LY.
  assert (H : proc_each_grid so weird clip tree quad xe ye te true true cs q (pad_slice 0) (pad_slice 0) (j_scaled j) sc stamp nows files = Ok (map nc_out nfs)).
  { unfold proc_each_grid. cbn [negb]. rewrite EP. cbn [bind fst snd]. change (pad_slice 0) with (pad_slice (Z.of_nat 0)). rewrite EW. reflexivity. }
  assert (HE : exists f, In f files /\ has_events f = true).
  { destruct (process_inv _ _ _ _ _ _ _ _ _ _ _ _ _ EP) as (_ & _ & _ & EPL). destruct (find has_events files) as [f|] eqn:EF; [|discriminate EPL]. exists f. apply find_some in EF. exact EF. }
  assert (LX' : List.length xe = S (j_mx j)) by lia. assert (LY' : List.length ye = S (j_my j)) by lia.
  destruct (C119_run_energy so PS weird clip tree quad xe ye te cs q (j_scaled j) sc stamp nows files (j_mx j) (j_my j) (map nc_out nfs) AX AY IT MX MY LX' LY' PR HE HC HQ HU H) as (tables & es & TR & OB & TOT).
  exists tables, es. split; [exact TR|]. split; [exact OB|]. intros COV RG.
  assert (LO : List.length (map nc_out nfs) = List.length paths).
  { destruct (saves_spec _ _ _ _ _ _ SV) as (_ & _ & _ & L & _). destruct (writes_files _ _ _ _ _ _ _ _ WR) as (LF & _). rewrite EG in L. cbn [gd_tedges] in *. lia. }
  rewrite LO in TOT. destruct (TOT COV RG) as (totals' & F2' & R).
  assert (EQ : qsum totals == qsum totals').
  { apply (same_sums (fun out total => image_sum out "total_energy" total) (map nc_out nfs)); [|clear - F2; induction F2; cbn [map]; constructor; auto|exact F2'].
    intros f x y If. apply one_sum. apply In_nth_error in If. destruct If as (t & Ht).
    assert (LX2 : List.length xe = S (j_mx j + 2 * 0)) by lia. assert (LY2 : List.length ye = S (j_my j + 2 * 0)) by lia.
    destruct (run_images so weird clip tree quad xe ye te cs q 0 (j_scaled j) sc stamp nows files (j_mx j) (j_my j) _ AX AY LX2 LY2 HE H t f Ht) as [NM _]. exact NM. }
  destruct (j_scaled j); [|rewrite ES, EQ; exact R].
  setoid_replace (aggregated_sum out "total_energy" (j_mx j) (j_my j)) with (qsum totals') by (rewrite ES; exact EQ). exact R.
Qed.
Print Assumptions C120_energy.

(** Two files with events of energy 18 each, a minute apart, gridded in frames of a minute
    without padding and scaling, written, opened and aggregated in intervals of two
    minutes from ten minutes before: the intervals show 36. *)
Definition as_te : list Q := [0; 60; 120].
Definition as_file (t : Q) : glmfile := Gridder.mkFile g_ds t (fun _ => t) (fun _ => t) (fun _ => t) (lit "G16").
Definition as_job : job :=
  mkJob (mkGridder ex_xe ex_ye as_te lut_names lut_divide (lit "G16")) 0 3 4 false (mkScenes (304 # 1000, 304 # 1000) (140 # 1000, 84 # 1000) (28 # 1000, 28 # 1000))
    ex_resolutions (lit "GOES-East") (lit "GLM-1") ex_default PropOutput.ex_stamp (fun _ => mkDT 2018 183 5 0 0 0).
Definition as_start : Z := (start_of as_job 0 - 600000000)%Z.
Definition as_shown : option (Q * nat) :=
  match process_files (fun l => l) (fun _ => 0%Z) ex_clip ex_tree ex_quad ex_xe ex_ye as_te true 7 None [as_file 10; as_file 70] with
  | Ok (arrays, Some _) =>
    match call as_job arrays ex_fs with
    | Ok (_, fs', paths) =>
      match open_glm_time_series fs' paths with
      | Ok (g, _, _) => match aggregate g 2 (Some (as_start, as_start + 720000000)%Z) with Ok out => Some (Qred (aggregated_sum out "total_energy" 3 4), List.length out) | Err _ => None end
      | Err _ => None
      end
    | Err _ => None
    end
  | _ => None
  end.
Example C120_energy_ex : as_shown = Some (36, 6%nat) /\ whole 2 as_start (as_start + 720000000) /\
  (forall k, (k < 2)%nat -> (as_start < start_of as_job k <= as_start + 720000000)%Z) /\ Forall (fun f => usable (f_ds f)) [as_file 10; as_file 70] /\ dated 1678 2261 as_job.
Proof.
  split; [vm_compute; reflexivity|]. split; [exists 6%Z; lia|]. split.
  { intros k Hk. assert (D : start_of as_job 1 = (start_of as_job 0 + 60000000)%Z) by (vm_compute; reflexivity). unfold as_start. destruct k as [|[|k]]; lia. }
  split; [destruct C59_hypotheses as [_ U]; inversion U; subst; constructor; [assumption|]; constructor; [assumption|constructor]|].
  split; [|intros k; constructor; cbn; try lia]. intros t Ht. cbn in Ht.
  destruct Ht as [<-|[<-|[<-|[]]]]; (split; [constructor; vm_compute; intuition discriminate|vm_compute; discriminate]).
Qed.
