(** Properties C38 and C60, averages at any extent density: what a written average area shows
    when the density is below one stored step as well. *)
From Coq Require Import List ZArith QArith Qabs Qround Bool String Lia Lqa Permutation.
From Verif Require Import Base BaseProofs Traversal TraversalSpec Glm GlmSpec GlmProofs2 GlmProofs3 PropGlm Lut LutSpec LutProofs Accum AccumSpec AccumProofs Poly PolySpec PropPoly BBox BBoxSpec
  Slice SliceSpec PropSlice Regroup RegroupSpec Pipeline PipelineSpec PipelineProofs PropPipeline ChunkSpec ChunkProofs PropChunks FileName Imagery ImagerySpec ImageryProofs PropImagery
  Gridder GridderSpec GridderProofs PropGridder.
Import ListNotations.
Open Scope Q_scope.

(** The number an average is taken over: the count, or the step it is stored with if that is
    larger.  Without scaling it is the count. *)
Definition taken_over (s : option Q) (count n : Q) : Prop :=
  match s with
  | None => n == count
  | Some s => (s <= count -> n == count) /\ (count <= s -> n == s)
  end.

(** Every pixel of a divided field, for any total and any count in it: nothing where either is
    zero, else the total over the larger of the count and its step. *)
Theorem C38_every_average : forall gd pad scaled mx my outgrids after files t f i d r c x y total count,
  writes gd pad scaled mx my outgrids after files -> nth_error files t = Some f -> gd_divide gd i = Some d ->
  (i < List.length outgrids)%nat -> (r < my)%nat -> (c < mx)%nat -> x = (pad + c)%nat -> y = (pad + (my - 1 - r))%nat ->
  cell outgrids i x y t (Some total) -> cell outgrids d x y t (Some count) -> 0 <= total -> 0 <= count ->
  exists w, pixel_of f i r c w /\ (total == 0 \/ count == 0 -> w = None) /\
    (0 < total -> 0 < count -> exists n, taken_over (steps gd scaled d) count n /\ 0 < n /\ shows (steps gd scaled i) (total / n) w).
Proof.
  intros gd pad scaled mx my og af files t f i d r c x y total count W Hf Hd Hi Hr Hc -> -> HT HC T0 C0.
  destruct (writes_files _ _ _ _ _ _ _ _ W) as (_ & FF & _). destruct W as (_ & _ & _ & _ & _ & LN & SD & _).
  destruct (FF t f Hf) as (_ & _ & _ & _ & Px). rewrite !pad_lo, !pad_len in Px. destruct (SD i d Hd) as [Ld _].
  eexists. split; [apply Px; auto|]. unfold value. rewrite Hd. apply cell_at in HT, HC. destruct HT as [_ ->]. destruct HC as [_ ->].
  assert (RT : exists u, raise_tiny (sc_of gd scaled d) (Some count) = Some u /\ (count == 0 -> u == 0) /\
                 (0 < count -> 0 < u /\ taken_over (steps gd scaled d) count u)).
  { rewrite sc_of_steps by lia. destruct (Qlt_le_dec 0 count) as [P|N].
    2:{ rewrite raise_tiny_zero by lra. exists count. split; [reflexivity|]. split; intros; lra. }
    destruct (steps gd scaled d) as [s|] eqn:ES; [|exists count; cbn; split; [reflexivity|]; split; intros; [lra|split; [lra|reflexivity]]]. cbn [option_map].
    destruct (sc_of_scaling gd scaled d ltac:(lia)) as [_ ES']. rewrite ES in ES'. destruct scaled; [|discriminate ES']. symmetry in ES'. apply step_pos in ES'.
    destruct (raise_tiny_cases s count ES' P) as (u & -> & u1 & u2 & u3). exists u. split; [reflexivity|]. split; [intros; lra|]. intros _. split; [lra|]. cbn. split; auto. }
  destruct RT as (u & -> & Eu0 & Eu). pose proof (final_shows scaled (nth i (gd_names gd) EmptyString)) as FS.
  destruct (sc_of_scaling gd scaled i ltac:(lia)) as [-> ->]. unfold divide, is_zero. split.
  - intros Z. replace (Qeq_bool u 0 || Qeq_bool total 0)%bool with true; [apply FS; reflexivity|]. symmetry. apply orb_true_iff. rewrite !Qeq_bool_iff. destruct Z as [Z|Z]; [right; auto|left; auto].
  - intros PT PC. destruct (Eu PC) as [U0 U]. exists u. split; [exact U|]. split; [exact U0|]. replace (Qeq_bool u 0 || Qeq_bool total 0)%bool with false.
    2:{ symmetry. apply orb_false_iff. split; apply not_true_iff_false; rewrite Qeq_bool_iff; lra. }
    unfold fdiv. apply FS.
Qed.
Print Assumptions C38_every_average.

(** The same after a whole run, for the averages that the files of the frame give the cell. *)
Theorem C60_every_average : forall set_order weird clip tree quad xe ye te chunk_size q pad scaled sc stamp nows files mx my outs,
  ascending xe -> ascending ye -> List.length xe = S (mx + 2 * pad) -> List.length ye = S (my + 2 * pad) -> (exists f, In f files /\ has_events f = true) ->
  proc_each_grid set_order weird clip tree quad xe ye te true true chunk_size q (pad_slice (Z.of_nat pad)) (pad_slice (Z.of_nat pad)) scaled sc stamp nows files = Ok outs ->
  forall t out, nth_error outs t = Some out ->
  exists g, grid_files set_order weird clip tree quad xe ye chunk_size (files_during te t files) q = Ok g /\
  forall r c, (r < my)%nat -> (c < mx)%nat ->
  let x := (pad + c)%nat in let y := (pad + (my - 1 - r))%nat in
  let at_ (h : grids -> grid) := g_at (h g) (Z.of_nat x) (Z.of_nat y) in
  let st name := if scaled then step name else None in
  forall name h name' h', In (name, h, (name', h')) [("average_flash_area", gr_farea, ("flash_extent_density", gr_fcount)); ("average_group_area", gr_garea, ("group_extent_density", gr_gcount))]%string ->
     forall total count, at_ h = Some total -> at_ h' = Some count -> 0 <= total -> 0 <= count ->
     exists w, pixel_named out name r c w /\ (total == 0 \/ count == 0 -> w = None) /\
       (0 < total -> 0 < count -> exists n, taken_over (st name') count n /\ 0 < n /\ shows (st name) (total / n) w).
Proof.
  intros so weird clip tree quad xe ye te cs q pad scaled sc stamp nows files mx my outs AX AY LX LY (f0 & Hf0 & HE) H.
  unfold proc_each_grid in H. cbn [negb] in H. apply bind_ok_inv in H. destruct H as ([arrays p] & EP & H). cbn [fst snd] in H.
  destruct (C48_products _ _ _ _ _ _ _ _ _ _ _ _ _ EP) as (LA & SH & PRD). destruct (process_inv _ _ _ _ _ _ _ _ _ _ _ _ _ EP) as (_ & _ & _ & EPL).
  destruct (find has_events files) as [f1|] eqn:EF; [|rewrite (find_none _ _ EF f0 Hf0) in HE; discriminate]. cbn [option_map] in EPL. subst p.
  set (gd := mkGridder xe ye te lut_names lut_divide (f_platform f1)) in *.
  apply bind_ok_inv in H. destruct H as ([after files'] & EW & H). cbn [snd] in H. inversion H; subst files'. clear H.
  assert (W : writes gd pad scaled mx my arrays after outs).
  { unfold writes. cbn [gd gd_xedge gd_yedge gd_tedges gd_names gd_divide]. repeat (split; [assumption|]).
    replace (mx + 2 * pad)%nat with (List.length xe - 1)%nat by lia. replace (my + 2 * pad)%nat with (List.length ye - 1)%nat by lia.
    split; [exact SH|]. split; [auto|]. split; [exact lut_simple|]. exists sc, stamp, nows. exact EW. }
  destruct (C37_pixels_at_their_coordinates _ _ _ _ _ _ _ _ W) as (LF & PX). cbn [gd gd_tedges] in LF.
  intros t out Hout. destruct (PX t out Hout) as (NM & _). cbn [gd gd_names] in NM.
  assert (Ht : (t < List.length te - 1)%nat) by (assert (t < List.length outs)%nat by (apply nth_error_Some; congruence); lia).
  destruct (PRD t Ht) as (g & EG & PP). exists g. split; [exact EG|]. intros r c Hr Hc x y at_ st.
  destruct (PP x y) as (p3 & p0 & p2 & p7 & p4 & p6).
  assert (TWO : forall i d name name' v v', nth_error lut_names i = Some name -> nth_error lut_names d = Some name' -> lut_divide i = Some d ->
       product arrays name x y t v -> product arrays name' x y t v' -> forall total count, v = Some total -> v' = Some count -> 0 <= total -> 0 <= count ->
     exists w, pixel_named out name r c w /\ (total == 0 \/ count == 0 -> w = None) /\
       (0 < total -> 0 < count -> exists n, taken_over (st name') count n /\ 0 < n /\ shows (st name) (total / n) w)).
  { intros i d name name' v v' Ei Ed Di Pv Pv' total count -> -> T0 C0. apply (product_cell _ _ _ _ _ _ _ Ei) in Pv. apply (product_cell _ _ _ _ _ _ _ Ed) in Pv'.
    assert (Li : (i < List.length arrays)%nat) by (rewrite LA; apply nth_error_Some; congruence).
    destruct (C38_every_average gd pad scaled mx my arrays after outs t out i d r c x y total count W Hout Di Li Hr Hc eq_refl eq_refl Pv Pv' T0 C0) as (w & P & Z & S).
    exists w. split; [apply (named_pixel _ i); auto|]. split; [exact Z|]. unfold steps in S. cbn [gd gd_names] in S. rewrite Ei, Ed in S. exact S. }
  intros name h name' h' Hh. cbn [In] in Hh. destruct Hh as [E|[E|[]]]; inversion E; subst name h name' h'.
  - apply (TWO 2%nat 0%nat); auto.
  - apply (TWO 6%nat 4%nat); auto.
Qed.
Print Assumptions C60_every_average.

(** A small count is never overstated: what is divided by is at least the count, so that the
    average shown never comes from more than the true average. *)
Lemma never_more : forall s total count n, taken_over s count n -> 0 < total -> 0 < count -> 0 < n -> total / n <= total / count.
Proof.
  intros s total count n H T C N. assert (L : count <= n). { destruct s as [s|]; cbn in H; [|lra]. destruct (Qlt_le_dec count s) as [A|A]; [rewrite (proj2 H); lra|rewrite (proj1 H); lra]. }
  apply Qle_shift_div_l; auto. unfold Qdiv. assert (E : total * / n * count == total * (count * / n)) by ring. rewrite E. rewrite <- (Qmult_1_r total) at 2.
  rewrite Qmult_comm, (Qmult_comm total 1). apply Qmult_le_compat_r; [|lra]. apply (Qle_shift_div_r _ _ 1 N). lra.
Qed.

(** The counterexample of C38 as what is written: an area of 100/32 on a count of 1/32 has
    the true average 100; over the step of 1/16 it is 50. *)
Example C38_small_ex : exists af files w, writes ex_gd 0 true 2 1 [ex_arr (1 # 32) 1; ex_arr 1 1; ex_arr (100 # 32) 1] af files /\
  (exists f, nth_error files 0 = Some f /\ pixel_of f 2 0 0 w) /\ taken_over (Some (1 # 16)) (1 # 32) (1 # 16) /\ exists u, w = Some u /\ u == 50.
Proof.
  set (arrays := [ex_arr (1 # 32) 1; ex_arr 1 1; ex_arr (100 # 32) 1]). destruct (ex_writes true arrays) as (af & files & E & W); [repeat constructor|reflexivity|].
  destruct files as [|f files]; [vm_compute in E; discriminate E|].
  destruct (C38_every_average ex_gd 0 true 2 1 arrays af (f :: files) 0 f 2 0 0 0 0 0 (100 # 32) (1 # 32) W) as (w & P & _ & S); try reflexivity; try (cbn; lia); try (eexists; split; reflexivity); try (intro K; discriminate K).
  destruct S as (n & N & N0 & S); [reflexivity|reflexivity|]. exists af, (f :: files), w. split; [exact W|]. split; [exists f; split; [reflexivity|exact P]|].
  split; [cbn; split; intros K; [exfalso; revert K; unfold Qle; cbn; lia|reflexivity]|].
  change (steps ex_gd true 0) with (Some (1 # 16)) in N. change (steps ex_gd true 2) with (Some 10) in S. cbn in N. destruct N as [_ N].
  assert (EN : n == 1 # 16) by (apply N; unfold Qle; cbn; lia). assert (EV : (100 # 32) / n == 50) by (rewrite EN; reflexivity).
  apply (shows_compat _ _ _ _ EV) in S. destruct S as [_ S]. destruct S as (u & -> & _ & _ & K); [reflexivity|unfold Qle; cbn; lia|]. exists u. split; [reflexivity|]. apply (K 5%Z). reflexivity.
Qed.
