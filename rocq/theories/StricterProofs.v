(** Proofs about selections that want less. *)
From Coq Require Import String List ZArith QArith Qabs Bool Lia Lqa Permutation Sorting.Sorted.
From Verif Require Import Base BaseProofs Traversal TraversalSpec TraversalProofs TraversalProofs2 TraversalProofs3 TraversalProofs4 Glm GlmSpec GlmProofs GlmProofs2 GlmProofs3
  Lut LutSpec LutProofs PropGlm PropLut Accum AccumSpec AccumProofs Poly PolySpec BBox BBoxSpec Slice SliceSpec Regroup Pipeline PipelineSpec PipelineProofs PropSlice PropPipeline ChunkSpec ChunkProofs PropChunks StricterSpec.
Import ListNotations.
Open Scope Z_scope.
Local Notation tbl := (table obs).

Lemma strictly_inside : forall a b v, range_in a b -> (forall r, a = Some r -> strictly r v) -> forall r, b = Some r -> strictly r v.
Proof.
  intros a b v I H r ->. destruct r as [lo hi]. destruct I as (lo' & hi' & -> & L & U). destruct (H _ eq_refl) as (x & E & A & B). cbn [fst snd] in *.
  exists x. cbn [fst snd]. split; [exact E|]. split; lra.
Qed.
Lemma minimum_less : forall a b n, at_least a b -> (forall m, a = Some m -> m <= n) -> forall m, b = Some m -> m <= n.
Proof. intros a b n I H m ->. destruct I as (m' & -> & L). specialize (H m' eq_refl). lia. Qed.
Lemma wanted_less : forall q' q G E f, stricter q' q -> wanted q' G E f -> wanted q G E f.
Proof.
  intros q' q G E f (s1 & s2 & s3 & s4 & s5 & s6) (a & b & c & d & e & g & ev & Hev & V). cbv zeta in V. destruct V as (v1 & v2 & v3 & v4).
  split; [exact (strictly_inside _ _ _ s3 a)|]. split; [exact (strictly_inside _ _ _ s4 b)|]. split; [exact (strictly_inside _ _ _ s1 c)|]. split; [exact (strictly_inside _ _ _ s2 d)|].
  split; [exact (minimum_less _ _ _ s5 e)|]. split; [exact (minimum_less _ _ _ s6 g)|]. exists ev. split; [exact Hev|]. cbv zeta. split; [exact v1|]. split; [exact v2|].
  split; [exact (strictly_inside _ _ _ s3 v3)|exact (strictly_inside _ _ _ s4 v4)].
Qed.

(** * Parts of lists *)
Lemma part_length : forall A (l l' : list A), NoDup l -> incl l l' -> (List.length l <= List.length l')%nat.
Proof. intros. apply NoDup_incl_length; auto. Qed.
Lemma total_cons : forall v l, (total (v :: l) == num v + total l)%Q.
Proof. reflexivity. Qed.
Lemma part_total : forall (v : row obs -> fval) (l l' : list (row obs)), NoDup l -> incl l l' -> (forall r a, In r l' -> v r = Some a -> (0 <= a)%Q) ->
  (total (map v l) <= total (map v l'))%Q.
Proof.
  intros v l. induction l as [|a l IH]; intros l' N I P.
  - apply total_nonneg_of. intros w Hw. apply in_map_iff in Hw. destruct Hw as (r & E & Hr). eapply P; eauto.
  - inversion N as [|? ? na N']; subst. assert (Ha : In a l') by (apply I; left; auto). apply in_split in Ha. destruct Ha as (l1 & l2 & ->).
    assert (J : incl l (l1 ++ l2)). { intros x Hx. specialize (I x (or_intror Hx)). apply in_app_iff in I. apply in_or_app. destruct I as [I|[I|I]]; [auto| |auto]. subst. contradiction. }
    specialize (IH (l1 ++ l2) N' J). assert (P' : forall r b, In r (l1 ++ l2) -> v r = Some b -> (0 <= b)%Q). { intros r b Hr. apply P. apply in_app_iff in Hr. apply in_or_app. destruct Hr; [auto|right; right; auto]. }
    specialize (IH P'). rewrite (total_map_perm v (l1 ++ a :: l2) (a :: l1 ++ l2)) by (apply Permutation_sym, Permutation_middle).
    cbn [map]. rewrite !total_cons. lra.
Qed.
Lemma part_filter : forall A (p p' : A -> bool) l l', incl l l' -> (forall x, p x = true -> p' x = true) -> incl (filter p l) (filter p' l').
Proof. intros A p p' l l' I H x Hx. apply filter_In in Hx. apply filter_In. destruct Hx. auto. Qed.
Lemma part_existsb : forall A (p : A -> bool) l l', incl l l' -> existsb p l = true -> existsb p l' = true.
Proof. intros A p l l' I H. apply existsb_exists in H. apply existsb_exists. destruct H as (x & Hx & K). exists x. auto. Qed.

(** * Selections *)
Lemma less_selected : forall set_order, (forall l, Permutation (set_order l) l) ->
  forall (F G E : tbl) q' q, derived_ok F G E -> F <> [] -> G <> [] -> E <> [] ->
  (forall a, q = Some a -> q_check a = true) -> (forall a, q' = Some a -> q_check a = true) -> selects_less q' q ->
  exists F1 G1 E1 F2 G2 E2, selection set_order [F; G; E] q [F1; G1; E1] /\ selection set_order [F; G; E] q' [F2; G2; E2] /\
    derived_ok F1 G1 E1 /\ derived_ok F2 G2 E2 /\ incl F1 F /\ incl G1 G /\ incl E1 E /\ incl F2 F1 /\ incl G2 G1 /\ incl E2 E1.
Proof.
  intros so HP F G E q' q D nF nG nE HQ HQ' S.
  destruct (selection_exists so HP F G E q D nF nG nE HQ) as (F1 & G1 & E1 & S1 & A1 & B1 & C1 & D1).
  destruct (selection_exists so HP F G E q' D nF nG nE HQ') as (F2 & G2 & E2 & S2 & A2 & B2 & C2 & D2).
  exists F1, G1, E1, F2, G2, E2. split; [exact S1|]. split; [exact S2|]. split; [exact D1|]. split; [exact D2|].
  split; [exact A1|]. split; [intros g Hg; apply B1 in Hg; tauto|]. split; [intros e He; apply C1 in He; tauto|].
  assert (IF : incl F2 F1).
  { destruct q as [a|].
    - destruct S as (b & -> & S).
      destruct (C12_subset_exact so HP F G E a D nF nG nE (HQ a eq_refl)) as (x1 & x2 & x3 & Sx & Hx & _). destruct (C12_subset_exact so HP F G E b D nF nG nE (HQ' b eq_refl)) as (y1 & y2 & y3 & Sy & Hy & _).
      unfold selection in S1, S2. rewrite Sx in S1. rewrite Sy in S2. inversion S1; subst. inversion S2; subst.
      intros f Hf. apply Hy in Hf. apply Hx. destruct Hf as [Hf W]. split; [exact Hf|]. exact (wanted_less b a _ _ _ S W).
    - unfold selection in S1. inversion S1; subst. exact A2. }
  assert (IG : incl G2 G1) by (intros g Hg; apply B2 in Hg; apply B1; destruct Hg as [Hg (f & Hf & K)]; split; [exact Hg|]; exists f; auto).
  split; [exact IF|]. split; [exact IG|]. intros e He. apply C2 in He. apply C1. destruct He as [He (g & Hg & K)]. split; [exact He|]. exists g. auto.
Qed.

(** * What the tables of a file say about a pixel *)
Section File.
Variable set_order : list Z -> list Z.
Hypothesis HP : forall l, Permutation (set_order l) l.
Variable weird : fval -> Z.
Let pixel (e : row obs) : Z := discretize weird lut_scale lut_range lut_range (o_x (rdat e)) (o_y (rdat e)).

Lemma file_values : forall cs (F G E : tbl) q F2 G2 E2 t, (0 < cs)%nat -> derived_ok F G E -> F <> [] -> G <> [] -> E <> [] ->
  (forall a, q = Some a -> q_check a = true) -> numbers (areas F) -> numbers (areas G) -> numbers (energies E) ->
  selection set_order [F; G; E] q [F2; G2; E2] -> tables_of_file set_order weird cs q [F; G; E] t ->
  forall k, let C := cell_events pixel E2 k in
  (pixel_sum (fun r => qnat (lu_count r)) k t == qnat (List.length C))%Q /\
  (pixel_sum (fun r => num (lu_energy r)) k t == total (energies C))%Q /\
  (pixel_sum (fun r => qnat (lu_fcount r)) k t == qnat (List.length (flashes_of F2 C)))%Q /\
  (pixel_sum (fun r => qnat (lu_gcount r)) k t == qnat (List.length (groups_of G2 C)))%Q /\
  (pixel_sum (fun r => num (lu_farea r)) k t == total (areas (flashes_of F2 C)))%Q /\
  (pixel_sum (fun r => num (lu_garea r)) k t == total (areas (groups_of G2 C)))%Q /\
  (rows_at k t = [] <-> C = []) /\
  (C <> [] -> exists a b, (a == b)%Q /\ least_of (areas (flashes_of F2 C)) (Some a) /\ least_of (map lu_minarea (rows_at k t)) (Some b)).
Proof.
  intros cs F G E q F2 G2 E2 t P D nF nG nE HQ NF NG NE S T k. cbv zeta.
  destruct T as [[K _]|[_ (ch & R & T)]]; [cbn in K; inversion K; congruence|].
  destruct (C26_chunks_split_selection set_order HP cs F G E q P D nF nG nE HQ) as (sel & c1 & S1 & R1 & SP & _ & N1). rewrite R in R1. inversion R1; subst c1. clear R1.
  assert (sel = [F2; G2; E2]) by (unfold selection in *; destruct q; congruence). subst sel.
  destruct (selection_exists set_order HP F G E q D nF nG nE HQ) as (Fs & Gs & Es & Ss & HF2 & HG2 & HE2 & D2).
  assert ([Fs; Gs; Es] = [F2; G2; E2]) as EQ by (unfold selection in *; destruct q; congruence). inversion EQ; subst Fs Gs Es. clear EQ Ss.
  pose proof D2 as ((U & O) & _). apply unique3 in U. destruct U as (UF & UG & UE). apply linked_no_orphans in O. destruct O as [L1 L2].
  assert (NF2 : numbers (areas F2)) by (apply (sub_nums _ F); auto).
  assert (NG2 : numbers (areas G2)) by (apply (sub_nums _ G); auto; intros x Hx; apply HG2 in Hx; tauto).
  assert (NE2 : numbers (energies E2)) by (apply (sub_nums _ E); auto; intros x Hx; apply HE2 in Hx; tauto).
  destruct E2 as [|e0 E2r] eqn:EE2.
  - assert (t = []).
    { destruct T as [|c l ch t Hc Hr]; [reflexivity|]. exfalso.
      destruct (N1 c (or_introl eq_refl)) as (Fi & Gi & Ei & -> & _). destruct SP as (? & ? & ? & EQ & _ & _ & _ & PP). inversion EQ; subst. cbn [map nth List.concat] in PP. apply Permutation_sym, Permutation_nil in PP.
      apply app_eq_nil in PP. destruct PP as [-> _]. discriminate. }
    subst t. cbn [cell_events filter]. unfold flashes_of, groups_of. cbn [existsb energies map].
    rewrite (filter_none _ (fun _ : row obs => false) F2) by auto. rewrite (filter_none _ (fun _ : row obs => false) G2) by auto. unfold pixel_sum, rows_at. cbn.
    repeat (split; [reflexivity|]). split; [split; auto|]. intros K; congruence.
  - rewrite <- EE2 in *. assert (nE2 : E2 <> []) by (rewrite EE2; discriminate). clear EE2.
    assert (nG2 : G2 <> []). { destruct E2 as [|e ?]; [congruence|]. intros ->. destruct (L2 e (or_introl eq_refl)) as (? & [] & _). }
    assert (nF2 : F2 <> []). { destruct G2 as [|e ?]; [congruence|]. intros ->. destruct (L1 e (or_introl eq_refl)) as (? & [] & _). }
    destruct (C24_table_exists weird lut_scale lut_range lut_range F2 G2 E2 nF2 nG2 nE2 NF2 D2) as (L & HL).
    pose proof (C26_pixels_do_not_depend_on_chunks weird lut_scale lut_range lut_range F2 G2 E2 L ch t NF2 NG2 NE2 UF UG SP T HL k) as (a1 & a2 & a3 & a4 & a5 & a6 & a7 & a8).
    destruct (one_table weird lut_scale lut_range lut_range F2 G2 E2 L k NF2 NG2 NE2 UF UG HL) as (b1 & b2 & b3 & b4 & b5 & b6 & b7 & b8).
    rewrite a1, a2, a3, a4, a5, a6, a7. fold pixel in b1, b2, b3, b4, b5, b6, b7, b8. set (C := cell_events pixel E2 k) in *.
    split; [exact b1|]. split; [exact b2|]. split; [exact b3|]. split; [exact b4|]. split; [exact b5|]. split; [exact b6|]. split; [exact b7|].
    intros nC. destruct (rows_at k [L]) as [|r l] eqn:ER; [exfalso; apply nC, b7; reflexivity|].
    destruct (a8 r (or_introl eq_refl)) as (x & (x0 & Ex & Hx) & Lx). pose proof (b8 r (or_introl eq_refl)) as LB. rewrite Ex in LB. exists x0, x. auto.
Qed.

(** Less of a pixel in the first tables than in the second ones. *)
Definition less_tables (t2 t1 : list (list lutrow)) : Prop :=
  forall k, (forall f, column_ok f -> (pixel_sum f k t2 <= pixel_sum f k t1)%Q) /\
    forall r b, In r (rows_at k t2) -> lu_minarea r = Some b -> exists r1 a, In r1 (rows_at k t1) /\ lu_minarea r1 = Some a /\ (a <= b)%Q.

Lemma qnat_le : forall a b, (a <= b)%nat -> (qnat a <= qnat b)%Q.
Proof. intros a b H. unfold qnat. rewrite <- Zle_Qle. lia. Qed.
Lemma less_file : forall s1 s2 ds q' q t1 t2, (0 < s1)%nat -> (0 < s2)%nat -> usable ds -> not_negative ds ->
  (forall a, q = Some a -> q_check a = true) -> (forall a, q' = Some a -> q_check a = true) -> selects_less q' q ->
  tables_of_file set_order weird s1 q ds t1 -> tables_of_file set_order weird s2 q' ds t2 -> less_tables t2 t1.
Proof.
  intros s1 s2 ds q' q t1 t2 P1 P2 US NN HQ HQ' S T1 T2. destruct US as [Z|(F & G & E & -> & nF & nG & nE & D & NF & NG & NE)].
  - destruct T1 as [[_ ->]|[(? & ? & ?) _]]; [|congruence]. destruct T2 as [[_ ->]|[(? & ? & ?) _]]; [|congruence]. intros k. split; [intros; apply Qle_refl|]. intros r b [].
  - destruct (less_selected set_order HP F G E q' q D nF nG nE HQ HQ' S) as (F1 & G1 & E1 & F2 & G2 & E2 & S1 & S2 & D1 & D2 & i1 & i2 & i3 & j1 & j2 & j3).
    pose proof D1 as ((U1 & _) & _). apply unique3 in U1. destruct U1 as (u1 & u2 & u3). pose proof D2 as ((U2 & _) & _). apply unique3 in U2. destruct U2 as (v1 & v2 & v3). apply NoDup_map_inv in u1, u2, u3, v1, v2, v3.
    intros k. destruct (file_values s1 F G E q F1 G1 E1 t1 P1 D nF nG nE HQ NF NG NE S1 T1 k) as (a1 & a2 & a3 & a4 & a5 & a6 & a7 & a8).
    destruct (file_values s2 F G E q' F2 G2 E2 t2 P2 D nF nG nE HQ' NF NG NE S2 T2 k) as (b1 & b2 & b3 & b4 & b5 & b6 & b7 & b8).
    set (C1 := cell_events pixel E1 k) in *. set (C2 := cell_events pixel E2 k) in *.
    assert (IC : incl C2 C1) by (apply part_filter; auto).
    assert (IF : incl (flashes_of F2 C2) (flashes_of F1 C1)) by (apply part_filter; [exact j1|intros x; apply part_existsb; exact IC]).
    assert (IG : incl (groups_of G2 C2) (groups_of G1 C1)) by (apply part_filter; [exact j2|intros x; apply part_existsb; exact IC]).
    assert (NC : NoDup C2) by (apply NoDup_filter; auto). assert (NFl : NoDup (flashes_of F2 C2)) by (apply NoDup_filter; auto). assert (NGr : NoDup (groups_of G2 C2)) by (apply NoDup_filter; auto).
    split.
    + intros f [<-|[<-|[<-|[<-|[<-|[<-|[]]]]]]]; [rewrite a1, b1|rewrite a2, b2|rewrite a3, b3|rewrite a4, b4|rewrite a5, b5|rewrite a6, b6];
      try (apply qnat_le; apply part_length; assumption); unfold energies, areas; apply part_total; auto; intros r a Hr Ea; apply filter_In in Hr; destruct Hr as [Hr _].
      * apply (NN E r a); [right; right; left; reflexivity|apply i3; exact Hr|auto].
      * apply (NN F r a); [left; reflexivity|apply i1; exact Hr|auto].
      * apply (NN G r a); [right; left; reflexivity|apply i2; exact Hr|auto].
    + intros r b Hr Eb. assert (n2 : C2 <> []) by (intros K; rewrite (proj2 b7 K) in Hr; destruct Hr).
      assert (n1 : C1 <> []). { destruct C2 as [|e C]; [congruence|]. intros K. specialize (IC e (or_introl eq_refl)). rewrite K in IC. destruct IC. }
      destruct (a8 n1) as (x & x' & Ex & (x0 & X1 & X2 & X3) & (x1 & X4 & X5 & X6)). destruct (b8 n2) as (y & y' & Ey & (y0 & Y1 & Y2 & Y3) & (y1 & Y4 & Y5 & Y6)).
      inversion X1; subst x0. inversion X4; subst x1. inversion Y1; subst y0. inversion Y4; subst y1.
      apply in_map_iff in X5. destruct X5 as (r1 & E1' & Hr1). exists r1, x'. split; [exact Hr1|]. split; [exact E1'|].
      rewrite <- Ex. apply Qle_trans with y; [|rewrite Ey; apply Y6; rewrite <- Eb; apply in_map; exact Hr].
      apply X3. unfold areas in *. apply in_map_iff in Y2. destruct Y2 as (fl & Ef & Hf). apply in_map_iff. exists fl. auto.
Qed.
Lemma less_files : forall s1 s2 q' q, (0 < s1)%nat -> (0 < s2)%nat ->
  (forall a, q = Some a -> q_check a = true) -> (forall a, q' = Some a -> q_check a = true) -> selects_less q' q ->
  forall files t1 t2, Forall usable files -> Forall not_negative files ->
  tables_read set_order weird s1 q files t1 -> tables_read set_order weird s2 q' files t2 -> less_tables t2 t1.
Proof.
  intros s1 s2 q' q P1 P2 HQ HQ' S files t1 t2 US NN (x1 & T1 & ->) (x2 & T2 & ->). revert x1 x2 T1 T2. induction files as [|ds files IH]; intros x1 x2 T1 T2.
  - inversion T1; subst. inversion T2; subst. intros k. split; [intros; apply Qle_refl|]. intros r b [].
  - inversion US as [|? ? U US']; subst. inversion NN as [|? ? N NN']; subst. inversion T1 as [|? a ? xs Ta Txs]; subst. inversion T2 as [|? a' ? xs' Ta' Txs']; subst. cbn [List.concat].
    pose proof (less_file s1 s2 ds q' q a a' P1 P2 U N HQ HQ' S Ta Ta') as A. pose proof (IH US' NN' xs xs' Txs Txs') as B.
    assert (RA : forall k u v, rows_at k (u ++ v) = rows_at k u ++ rows_at k v) by (intros; unfold rows_at; rewrite concat_app, filter_app; reflexivity).
    intros k. destruct (A k) as [A1 A2]. destruct (B k) as [B1 B2]. split.
    + intros f CO. unfold pixel_sum in *. rewrite !RA, !map_app, !qsum_app. apply Qplus_le_compat; auto.
    + intros r b Hr Eb. rewrite RA in *. apply in_app_iff in Hr. destruct Hr as [Hr|Hr]; [destruct (A2 r b Hr Eb) as (r1 & x & Hr1 & K)|destruct (B2 r b Hr Eb) as (r1 & x & Hr1 & K)];
      exists r1, x; (split; [apply in_or_app; auto|exact K]).
Qed.
End File.

(** * Sums over tables, weighted by pixel *)
Lemma qsum_le : forall A (f g : A -> Q) l, (forall a, In a l -> f a <= g a)%Q -> (qsum (map f l) <= qsum (map g l))%Q.
Proof.
  induction l as [|a l IH]; intros H; [apply Qle_refl|]. cbn [map]. change (qsum (?x :: ?m)) with (x + qsum m)%Q. apply Qplus_le_compat; [apply H; left; auto|apply IH; intros; apply H; right; auto].
Qed.
Lemma less_over : forall (f w : lutrow -> Q) t2 t1, (forall k, pixel_sum f k t2 <= pixel_sum f k t1)%Q -> (forall r, 0 <= w r)%Q ->
  (forall r r', In r (List.concat t1 ++ List.concat t2) -> In r' (List.concat t1 ++ List.concat t2) -> lu_id r = lu_id r' -> w r == w r')%Q ->
  (over (fun r => f r * w r) t2 <= over (fun r => f r * w r) t1)%Q.
Proof.
  intros f w t2 t1 L P HW. unfold over. set (ids := zunique (map lu_id (List.concat t1 ++ List.concat t2))).
  rewrite (sum_by_id _ ids (List.concat t1)); [|apply zunique_nodup|intros r Hr; apply zunique_in; apply in_map; apply in_or_app; auto].
  rewrite (sum_by_id _ ids (List.concat t2)); [|apply zunique_nodup|intros r Hr; apply zunique_in; apply in_map; apply in_or_app; auto].
  apply qsum_le. intros k Hk. apply -> zunique_in in Hk. apply in_map_iff in Hk. destruct Hk as (r0 & E0 & H0).
  rewrite (sum_one_id f w (List.concat t1) k (w r0)); [rewrite (sum_one_id f w (List.concat t2) k (w r0))|].
  - specialize (L k). unfold pixel_sum, rows_at in L. rewrite !(Qmult_comm (w r0)). apply Qmult_le_compat_r; auto.
  - intros r Hr Er. apply HW; auto; [apply in_or_app; auto|congruence].
  - intros r Hr Er. apply HW; auto; [apply in_or_app; auto|congruence].
Qed.
