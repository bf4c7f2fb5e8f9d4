(** C115: runs with frames of different duration agree. *)
From Coq Require Import List ZArith QArith Qabs Bool String Lia Lqa Permutation.
From Verif Require Import Base BaseProofs Traversal TraversalSpec Glm GlmSpec GlmProofs2 GlmProofs3 PropGlm Lut LutSpec LutProofs Accum AccumSpec AccumProofs Poly PolySpec PropPoly BBox BBoxSpec
  Slice SliceSpec PropSlice Regroup RegroupSpec Pipeline PipelineSpec PipelineProofs PropPipeline ChunkSpec ChunkProofs PropChunks FileName Imagery ImagerySpec ImageryProofs PropImagery
  Gridder GridderSpec GridderProofs PropGridder PropRuns.
Import ListNotations.
Open Scope Z_scope.

Local Notation tbl := (table obs).

(** Frame [t] of the edges [te] lasts as long as the frames [i], ..., [j - 1] of the edges
    [te'] together. *)
Definition made_up_of (te : list Q) (t : nat) (te' : list Q) (i j : nat) : Prop :=
  (S t < List.length te)%nat /\ (i <= j < List.length te')%nat /\ (edge te t == edge te' i)%Q /\ (edge te (S t) == edge te' j)%Q.

(** *** One instant *)
Lemma during_edges : forall te t v, (S t < List.length te)%nat -> (during te t v <-> (edge te t <= v < edge te (S t))%Q).
Proof.
  intros te t v H. unfold during, edge. assert (H' : (t < List.length te)%nat) by lia.
  rewrite (nth_error_nth' te 0%Q H'), (nth_error_nth' te 0%Q H). split; [intros (a & b & [= <-] & [= <-] & B); exact B|]. intros B. eauto.
Qed.
Lemma some_frame : forall te i j v, (i <= j < List.length te)%nat -> (edge te i <= v < edge te j)%Q -> exists s, (i <= s < j)%nat /\ during te s v.
Proof.
  intros te i j v. induction j as [|j IH]; intros H B; [assert (i = 0)%nat as -> by lia; lra|].
  destruct (Nat.eq_dec i (S j)) as [->|N]; [lra|]. destruct (Qlt_le_dec v (edge te j)) as [L|L].
  - destruct IH as (s & Hs & D); [lia|lra|]. exists s. split; [lia|exact D].
  - exists j. split; [lia|]. apply during_edges; [lia|]. lra.
Qed.
Lemma edge_le : forall te i j, increasing te -> (i <= j < List.length te)%nat -> (edge te i <= edge te j)%Q.
Proof. intros te i j INC H. destruct (Nat.eq_dec i j) as [->|N]; [lra|]. pose proof (INC i j ltac:(lia)). lra. Qed.
Lemma frame_split : forall te t te' i j v, increasing te' -> made_up_of te t te' i j ->
  (duringb te t v = true -> exists s, In s (seq i (j - i)) /\ duringb te' s v = true /\ forall s', duringb te' s' v = true -> s' = s) /\
  (duringb te t v = false -> forall s, In s (seq i (j - i)) -> duringb te' s v = false).
Proof.
  intros te t te' i j v INC (H1 & H2 & E1 & E2). split.
  - intros D. apply duringb_iff, during_edges in D; [|auto]. destruct (some_frame te' i j v H2 ltac:(lra)) as (s & Hs & Ds). exists s. split; [apply in_seq; lia|].
    split; [apply duringb_iff; auto|]. intros s' D'. apply duringb_iff in D'. destruct (C59_one_frame te' v INC) as [U _]. apply U; auto.
  - intros D s Hs. apply in_seq in Hs. destruct (duringb te' s v) eqn:K; [|reflexivity]. apply duringb_iff, during_edges in K; [|lia]. rewrite <- D. symmetry. apply duringb_iff, during_edges; [auto|].
    pose proof (edge_le te' i s INC ltac:(lia)). pose proof (edge_le te' (S s) j INC ltac:(lia)). lra.
Qed.

(** *** Lists cut by a number *)
Section Cut.
Variable A : Type.
Variables (b : A -> bool) (c : nat -> A -> bool) (l : list nat).
Hypothesis ND : NoDup l.
Hypothesis YES : forall x, b x = true -> exists s, In s l /\ c s x = true /\ forall s', c s' x = true -> s' = s.
Hypothesis NO : forall x, b x = false -> forall s, In s l -> c s x = false.
Lemma concat_two : forall (f g : nat -> list A) k, Permutation (List.concat (map (fun s => f s ++ g s) k)) (List.concat (map f k) ++ List.concat (map g k)).
Proof.
  intros f g k. induction k as [|s k IH]; [constructor|]. cbn [map List.concat]. rewrite IH, !app_assoc. apply Permutation_app_tail. rewrite <- !app_assoc. apply Permutation_app_head.
  apply Permutation_app_comm.
Qed.
Lemma concat_nil : forall (f : nat -> list A) k, (forall s, In s k -> f s = []) -> List.concat (map f k) = [].
Proof. intros f k. induction k as [|s k IH]; intros H; [reflexivity|]. cbn [map List.concat]. rewrite (H s (or_introl eq_refl)), IH; [reflexivity|]. intros; apply H; right; auto. Qed.
Lemma one_piece : forall x, List.concat (map (fun s => if c s x then [x] else []) l) = if b x then [x] else [].
Proof.
  intros x. destruct (b x) eqn:B.
  - destruct (YES x B) as (s & Hs & C & U). clear YES NO B. induction l as [|s0 k IH]; [destruct Hs|]. inversion ND; subst. cbn [map List.concat]. destruct Hs as [->|Hs].
    + rewrite C. rewrite concat_nil; [reflexivity|]. intros s' Hs'. destruct (c s' x) eqn:C'; [|reflexivity]. apply U in C'. subst. contradiction.
    + rewrite IH by auto. destruct (c s0 x) eqn:C0; [|reflexivity]. apply U in C0. subst. contradiction.
  - apply concat_nil. intros s Hs. rewrite (NO x B s Hs). reflexivity.
Qed.
Lemma cut_perm : forall xs, Permutation (List.concat (map (fun s => filter (c s) xs) l)) (filter b xs).
Proof.
  induction xs as [|x xs IH]; [cbn [filter]; rewrite concat_nil; auto|].
  replace (filter b (x :: xs)) with ((if b x then [x] else []) ++ filter b xs) by (cbn [filter]; destruct (b x); reflexivity).
  rewrite <- one_piece, <- IH. rewrite <- concat_two. erewrite map_ext; [apply Permutation_refl|]. intros s. cbn [filter]. destruct (c s x); reflexivity.
Qed.
End Cut.

(** *** Values *)
Lemma adds_feq : forall l u v, feq u v -> adds_to (Some 0%Q) l v -> adds_to (Some 0%Q) l u.
Proof.
  intros l u v E [H1 H2]. split; intros N.
  - destruct (H1 N) as (x & -> & Ex). destruct u as [y|]; [|destruct E]. cbn in E. exists y. split; [reflexivity|]. rewrite E. exact Ex.
  - rewrite (H2 N) in E. destruct u; [destruct E|reflexivity].
Qed.
Lemma least_feq : forall l u v, feq u v -> least_positive l v -> least_positive l u.
Proof.
  intros l u v E [[(x & -> & Ex) H]|(p & -> & P & (w & Hw & (y & -> & Ey)) & M)].
  - destruct u as [y|]; [|destruct E]. cbn in E. left. split; [exists y; split; [reflexivity|rewrite E; exact Ex]|exact H].
  - destruct u as [z|]; [|destruct E]. cbn in E. right. exists z. split; [reflexivity|]. split; [rewrite E; exact P|]. split; [exists (Some y); split; [exact Hw|exists y; split; [reflexivity|rewrite E; exact Ey]]|].
    intros u' p' Hu Eu. rewrite E. eapply M; eauto.
Qed.

Section Durations.
Variable set_order : list Z -> list Z.
Variable weird : fval -> Z.
Variable clip : poly -> poly -> list poly.
Variable tree : Q * Q -> list (Z * Z).
Variable quad : fval -> fval -> poly.
Variables (xe ye : list Q).
Variable chunk_size : nat.
Variable q : option query.
Hypothesis HX : (1 < List.length xe)%nat.
Hypothesis HY : (1 < List.length ye)%nat.
Hypothesis IX : increasing xe.
Hypothesis IY : increasing ye.
Hypothesis PR : proper clip.
Local Notation run te files := (process_files set_order weird clip tree quad xe ye te true chunk_size q files).

(** Whether a run succeeds does not depend on its frames. *)
Theorem C115_any_frames : forall te te' files arrays p, run te files = Ok (arrays, p) -> exists arrays', run te' files = Ok (arrays', p).
Proof.
  intros te te' files arrays p H. apply process_inv in H. destruct H as (bss & R & _ & ->).
  pose proof (read_files_filter set_order weird clip tree quad xe ye chunk_size q (fun _ => true) files bss R) as RW.
  destruct (read_total set_order weird clip tree quad xe ye chunk_size q _ _ HX HY IX IY PR RW) as (whole & EW).
  replace (map f_ds (filter (fun f => (fun _ => true) (f_time f)) files)) with (map f_ds files) in EW by (f_equal; clear; induction files as [|f l IH]; [reflexivity|cbn; f_equal; exact IH]).
  destruct (process_total set_order weird clip tree quad xe ye te' chunk_size q files whole HX HY IX IY PR EW) as (arrays' & E). exists arrays'. exact E.
Qed.

Lemma grids_of_frames : forall te' i j files arrays' p', run te' files = Ok (arrays', p') -> (i <= j < List.length te')%nat ->
  exists gs, Forall2 (fun fs g => grid_files set_order weird clip tree quad xe ye chunk_size fs q = Ok g) (map (fun s => files_during te' s files) (seq i (j - i))) gs /\
    Forall2 (fun s g => forall x y name h, In (name, h) [("total_energy", gr_energy); ("flash_extent_density", gr_fcount); ("average_flash_area", gr_farea);
        ("minimum_flash_area", gr_minarea); ("group_extent_density", gr_gcount); ("average_group_area", gr_garea)]%string ->
        product arrays' name x y s (g_at (h g) (Z.of_nat x) (Z.of_nat y))) (seq i (j - i)) gs.
Proof.
  intros te' i j files arrays' p' H B. destruct (C48_products _ _ _ _ _ _ _ _ _ _ _ _ _ H) as (_ & _ & PRD).
  assert (K : forall s, In s (seq i (j - i)) -> (s < List.length te' - 1)%nat) by (intros s Hs; apply in_seq in Hs; lia).
  induction (seq i (j - i)) as [|s l IH]; [exists []; split; constructor|]. destruct IH as (gs & G1 & G2); [intros; apply K; right; auto|].
  destruct (PRD s (K s (or_introl eq_refl))) as (g & EG & PG). exists (g :: gs). split; [cbn [map]; constructor; auto|]. constructor; [|exact G2].
  intros x y name h Hin. destruct (PG x y) as (P1 & P2 & P3 & P4 & P5 & P6). cbn [In] in Hin.
  destruct Hin as [E|[E|[E|[E|[E|[E|[]]]]]]]; inversion E; subst; auto.
Qed.

(** What a long frame shows is what the short frames that make it up show together: extent densities,
    areas and energy and centroid densities add up, the minimum flash area is the least. *)
Theorem C115_long_frames : forall te te' files arrays p arrays' p', increasing te' ->
  run te files = Ok (arrays, p) -> run te' files = Ok (arrays', p') ->
  forall t i j, made_up_of te t te' i j -> forall kx ky, (S kx < List.length xe)%nat -> (S ky < List.length ye)%nat ->
  (forall name, In name ["total_energy"; "flash_extent_density"; "group_extent_density"; "average_flash_area"; "average_group_area";
                         "flash_centroid_density"; "group_centroid_density"]%string ->
   exists v vs, product arrays name kx ky t v /\ Forall2 (fun s u => product arrays' name kx ky s u) (seq i (j - i)) vs /\ adds_to (Some 0%Q) vs v) /\
  ((forall f tables r, In f files -> tables_of_file set_order weird chunk_size q (f_ds f) tables -> In r (List.concat tables) -> positive (lu_minarea r)) ->
   exists v vs, product arrays "minimum_flash_area" kx ky t v /\ Forall2 (fun s u => product arrays' "minimum_flash_area" kx ky s u) (seq i (j - i)) vs /\ least_positive vs v).
Proof.
  intros te te' files arrays p arrays' p' INC H H' t i j MU kx ky Kx Ky.
  assert (Ht : (t < List.length te - 1)%nat) by (destruct MU; lia).
  destruct (C48_products _ _ _ _ _ _ _ _ _ _ _ _ _ H) as (_ & _ & PRD). destruct (PRD t Ht) as (g & EG & PG). clear PRD.
  destruct (grids_of_frames te' i j files arrays' p' H' ltac:(apply MU)) as (gs & G1 & G2).
  set (parts := map (fun s => files_during te' s files) (seq i (j - i))) in *.
  assert (PP : Permutation (files_during te t files) (List.concat parts)).
  { unfold parts, files_during. apply Permutation_sym.
    replace (List.concat (map (fun s => map f_ds (filter (fun f => duringb te' s (f_time f)) files)) (seq i (j - i))))
      with (map f_ds (List.concat (map (fun s => filter (fun f => duringb te' s (f_time f)) files) (seq i (j - i))))) by (rewrite concat_map, map_map; reflexivity).
    apply Permutation_map. apply (cut_perm glmfile (fun f => duringb te t (f_time f)) (fun s f => duringb te' s (f_time f)) (seq i (j - i)) (seq_NoDup _ _)).
    - intros f D. destruct (frame_split te t te' i j (f_time f) INC MU) as [Y _]. exact (Y D).
    - intros f D. destruct (frame_split te t te' i j (f_time f) INC MU) as [_ N]. exact (N D). }
  destruct (C36_file_order _ _ _ _ _ _ _ _ _ _ _ _ HX HY IX IY PR PP EG) as (g' & tables & EG' & TR & FE & FM).
  destruct (C102_runs_add_up set_order weird clip tree quad xe ye chunk_size q HX HY IX IY PR parts gs g' G1 EG' (Z.of_nat kx) (Z.of_nat ky)) as [SUM MIN].
  assert (SHOW : forall name h, In (name, h) [("total_energy", gr_energy); ("flash_extent_density", gr_fcount); ("average_flash_area", gr_farea);
        ("minimum_flash_area", gr_minarea); ("group_extent_density", gr_gcount); ("average_group_area", gr_garea)]%string ->
     product arrays name kx ky t (g_at (h g) (Z.of_nat kx) (Z.of_nat ky)) /\
     Forall2 (fun s u => product arrays' name kx ky s u) (seq i (j - i)) (map (fun g0 => g_at (h g0) (Z.of_nat kx) (Z.of_nat ky)) gs)).
  { intros name h Hin. split.
    - destruct (PG kx ky) as (P1 & P2 & P3 & P4 & P5 & P6). cbn [In] in Hin. destruct Hin as [E|[E|[E|[E|[E|[E|[]]]]]]]; inversion E; subst; auto.
    - clear -G2 Hin. induction G2 as [|s g0 l gs K _ IH]; [constructor|]. cbn [map]. constructor; [apply K, Hin|exact IH]. }
  split.
  - intros name Hn.
    assert (CASES : (exists h, In h [gr_energy; gr_fcount; gr_farea; gr_gcount; gr_garea] /\ In (name, h) [("total_energy", gr_energy); ("flash_extent_density", gr_fcount); ("average_flash_area", gr_farea);
        ("minimum_flash_area", gr_minarea); ("group_extent_density", gr_gcount); ("average_group_area", gr_garea)]%string) \/
        exists l k, nth_error lut_names k = Some name /\ nth_error lut_feeds k = Some (Points l)).
    { cbn [In] in Hn. destruct Hn as [<-|[<-|[<-|[<-|[<-|[<-|[<-|[]]]]]]]];
        [left; exists gr_energy|left; exists gr_fcount|left; exists gr_gcount|left; exists gr_farea|left; exists gr_garea|right; exists Flashes, 1%nat|right; exists Groups, 5%nat];
        try (split; reflexivity); (split; [cbn [In]; tauto|cbn [In]; tauto]). }
    destruct CASES as [(h & Hh & Hin)|(l & k & EN & EF)].
    + destruct (SHOW name h Hin) as [S1 S2]. eexists _, _. split; [exact S1|]. split; [exact S2|].
      assert (Hh' : In h [gr_energy; gr_fcount; gr_gcount; gr_farea; gr_garea]) by (cbn [In] in *; tauto).
      eapply adds_feq; [apply FE; exact Hh'|]. apply SUM. exact Hh.
    + apply process_inv in H. destruct H as (bss & R & F1 & _). apply process_inv in H'. destruct H' as (bss' & R' & F1' & _). assert (bss' = bss) by congruence. subst bss'.
      assert (NTH : forall arr te0, Forall2 (fun fd a => frames xe ye te0 (List.concat bss) fd = Ok a) lut_feeds arr -> exists a, nth_error arr k = Some a /\ frames xe ye te0 (List.concat bss) (Points l) = Ok a).
      { intros arr te0 F. clear -F EF. revert k EF. induction F as [|fd a fds arr E F IH]; intros k EF; [destruct k; discriminate|]. destruct k; cbn in *; [injection EF as ->; eauto|apply IH; auto]. }
      destruct (NTH _ _ F1) as (a & Ea & Fa). destruct (NTH _ _ F1') as (a' & Ea' & Fa'). clear NTH F1 F1'.
      apply frames_inv in Fa. destruct Fa as (_ & _ & _ & Fa). destruct (Fa t Ht) as (gt & Egt & Vgt). apply frames_inv in Fa'. destruct Fa' as (_ & _ & _ & Fa').
      set (inb := fun p => (in_bin xe (Z.of_nat kx) (p_x p) && in_bin ye (Z.of_nat ky) (p_y p))%bool).
      set (ps := flat_map (points_at l) (List.concat bss)) in *.
      assert (V : forall te0 g0 t0, frame_grid xe ye te0 (List.concat bss) (Points l) t0 = Ok g0 -> g_at g0 (Z.of_nat kx) (Z.of_nat ky) = Some (inject_Z (Z.of_nat (List.length (filter inb (filter (fun p => duringb te0 t0 (p_t p)) ps)))))).
      { intros te0 g0 t0 E. cbn [frame_grid] in E. injection E as <-. cbn [g_at]. fold ps. do 4 f_equal. change (filter inb (filter (fun p => in_frame te0 t0 (p_t p)) ps) = filter inb (filter (fun p => duringb te0 t0 (p_t p)) ps)). f_equal. apply filter_ext. intros p0. apply in_frame_during. }
      exists (Some (inject_Z (Z.of_nat (List.length (filter inb (filter (fun p => duringb te t (p_t p)) ps)))))),
        (map (fun s => Some (inject_Z (Z.of_nat (List.length (filter inb (filter (fun p => duringb te' s (p_t p)) ps)))))) (seq i (j - i))).
      split; [exists k, a; split; [exact EN|]; split; [exact Ea|]; rewrite Vgt; eapply V; eauto|]. split.
      * assert (K : forall s, In s (seq i (j - i)) -> (s < List.length te' - 1)%nat) by (intros s Hs; apply in_seq in Hs; destruct MU; lia).
        clear G1 G2 PP EG' SUM MIN SHOW parts. induction (seq i (j - i)) as [|s sq IH]; [constructor|]. cbn [map]. constructor; [|apply IH; intros; apply K; right; auto].
        destruct (Fa' s (K s (or_introl eq_refl))) as (gs0 & Eg & Vg). exists k, a'. split; [exact EN|]. split; [exact Ea'|]. rewrite Vg. eapply V; eauto.
      * split; [|intros N; exfalso; apply N; intros u Hu; apply in_map_iff in Hu; destruct Hu as (s & <- & _); discriminate].
        intros _. eexists. split; [reflexivity|].
        assert (CP : Permutation (List.concat (map (fun s => filter inb (filter (fun p => duringb te' s (p_t p)) ps)) (seq i (j - i)))) (filter inb (filter (fun p => duringb te t (p_t p)) ps))).
        { transitivity (filter inb (List.concat (map (fun s => filter (fun p => duringb te' s (p_t p)) ps) (seq i (j - i))))).
          - clear. induction (seq i (j - i)) as [|s sq IH]; [constructor|]. cbn [map List.concat]. rewrite filter_app. apply Permutation_app_head. exact IH.
          - apply filter_perm. apply (cut_perm point (fun p => duringb te t (p_t p)) (fun s p => duringb te' s (p_t p)) (seq i (j - i)) (seq_NoDup _ _)).
            + intros p0 D. destruct (frame_split te t te' i j (p_t p0) INC MU) as [Y _]. exact (Y D).
            + intros p0 D. destruct (frame_split te t te' i j (p_t p0) INC MU) as [_ N]. exact (N D). }
        rewrite <- (Permutation_length CP). clear. unfold total. induction (seq i (j - i)) as [|s sq IH]; [reflexivity|]. cbn [map List.concat qsum fold_right num]. rewrite app_length, Nat2Z.inj_add, inject_Z_plus, IH.
        unfold qsum. ring.
  - intros POS. destruct (SHOW "minimum_flash_area"%string gr_minarea ltac:(cbn [In]; tauto)) as [S1 S2]. eexists _, _. split; [exact S1|]. split; [exact S2|].
    assert (TP : forall fs tabs r, (forall ds, In ds fs -> exists f, In f files /\ f_ds f = ds) -> tables_read set_order weird chunk_size q fs tabs -> In r (List.concat tabs) -> positive (lu_minarea r)).
    { intros fs tabs r SUB (tss & F & ->) Hr. rewrite in_concat in Hr. destruct Hr as (tab & Ht0 & Hr). rewrite in_concat in Ht0. destruct Ht0 as (ts & Hts & Htab).
      assert (exists ds, In ds fs /\ tables_of_file set_order weird chunk_size q ds ts) as (ds & Hds & TD).
      { clear -F Hts. induction F as [|ds ts0 fs tss E _ IH]; [destruct Hts|]. destruct Hts as [->|Hts]; [exists ds; split; [left; auto|auto]|]. destruct (IH Hts) as (d & A & B). exists d. split; [right; auto|auto]. }
      destruct (SUB ds Hds) as (f & Hf & <-). apply (POS f ts r Hf TD). rewrite in_concat. eauto. }
    assert (SUBT : forall te0 s ds, In ds (files_during te0 s files) -> exists f, In f files /\ f_ds f = ds).
    { intros te0 s ds Hd. unfold files_during in Hd. apply in_map_iff in Hd. destruct Hd as (f & <- & Hf). apply filter_In in Hf. exists f. tauto. }
    eapply least_feq; [apply FM; intros r Hr; eapply TP; [|exact TR|exact Hr]; apply SUBT|]. apply MIN.
    intros fs tabs r Hfs. unfold parts in Hfs. apply in_map_iff in Hfs. destruct Hfs as (s & <- & _). apply TP. apply SUBT.
Qed.
End Durations.
Print Assumptions C115_any_frames.
Print Assumptions C115_long_frames.

(** Edges of [n] frames of [d] seconds from [start]. *)
Definition every (start d : Q) (n : nat) : list Q := map (fun k => start + inject_Z (Z.of_nat k) * d)%Q (seq 0 (S n)).
Lemma every_edge : forall start d n k, (k <= n)%nat -> edge (every start d n) k = (start + inject_Z (Z.of_nat k) * d)%Q.
Proof.
  intros start d n k H. unfold edge, every. apply nth_error_nth. rewrite nth_error_map.
  rewrite (nth_error_nth' (seq 0 (S n)) 0%nat) by (rewrite seq_length; lia). rewrite seq_nth by lia. reflexivity.
Qed.
(** Frames of [m] times [d] seconds are made up of [m] frames of [d] seconds. *)
Theorem C115_regular_frames : forall start d n m t, (0 < d)%Q -> (t < n)%nat ->
  increasing (every start d (n * m)) /\
  made_up_of (every start (inject_Z (Z.of_nat m) * d) n) t (every start d (n * m)) (t * m) (S t * m).
Proof.
  intros start d n m t D H. assert (LEN : forall e k, List.length (every start e k) = S k) by (intros; unfold every; rewrite map_length, seq_length; reflexivity).
  assert (B : (S t * m <= n * m)%nat) by (apply Nat.mul_le_mono_r; lia). split.
  - intros i j Hij. rewrite LEN in Hij. rewrite !every_edge by lia. apply Qplus_lt_r. apply Qmult_lt_r; [exact D|]. rewrite <- Zlt_Qlt. lia.
  - repeat split; rewrite ?LEN; try lia; rewrite !every_edge by lia; rewrite Nat2Z.inj_mul, inject_Z_mult; ring.
Qed.
Print Assumptions C115_regular_frames.

(** The runs of the file of C59 with frames of 20 and of 40 seconds; its flashes are of times 5 and 25. *)
Definition d_run (te : list Q) : res (list array3 * option pystr) :=
  process_files (fun l => l) (fun _ => 0) ex_clip ex_tree ex_quad ex_xe ex_ye te true 7 None [g_file].
Example C115_frames_ex : made_up_of [0; 40 # 1]%Q 0 g_te 0 2 /\ increasing g_te.
Proof. split; [|apply C59_hypotheses]. repeat split; cbn; lia. Qed.
Example C115_long_ex : match d_run [0; 40 # 1]%Q, d_run g_te with
  | Ok (a, _), Ok (a', _) => map (fun k => (g_total a k 0, [g_total a' k 0; g_total a' k 1]))%nat [1; 3; 5]%nat = [(2, [1; 1]); (18, [18; 0]); (2, [1; 1])]%Q
  | _, _ => False
  end.
Proof. vm_compute. reflexivity. Qed.
Example C115_positive : forall f tables r, In f [g_file] -> tables_of_file (fun l => l) (fun _ => 0) 7 None (f_ds f) tables -> In r (List.concat tables) -> positive (lu_minarea r).
Proof.
  intros f tables r [<-|[]] T Hr.
  destruct T as [[T _]|(_ & chunks & EC & F)]; [discriminate|]. vm_compute in EC. inversion EC; subst chunks. clear EC.
  inversion F as [|c t cs ts E F2]; subst. inversion F2; subst. clear F F2. cbn [List.concat] in Hr. rewrite app_nil_r in Hr.
  vm_compute in E. inversion E; subst t. clear E.
  repeat (destruct Hr as [<-|Hr]; [eexists; split; [reflexivity|reflexivity]|]). destruct Hr.
Qed.
