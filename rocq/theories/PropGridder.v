(** Properties C48, C59, C60, C61: gridder classes, time frames and whole runs. *)
From Coq Require Import List ZArith QArith Qabs Bool String Lia Lqa Permutation.
From Verif Require Import Base BaseProofs Traversal TraversalSpec Glm GlmSpec GlmProofs2 GlmProofs3 PropGlm Lut LutSpec LutProofs Accum AccumSpec AccumProofs Poly PolySpec PropPoly BBox BBoxSpec
  Slice SliceSpec PropSlice Regroup RegroupSpec Pipeline PipelineSpec PipelineProofs PropPipeline ChunkSpec ChunkProofs PropChunks FileName Imagery ImagerySpec ImageryProofs PropImagery
  Gridder GridderSpec GridderProofs.
Import ListNotations.
Open Scope Z_scope.

Local Notation tbl := (table obs).

(** * C48 *)
Definition lut_feeds : list feed :=
  [Sum "lutevent_flash_count"; Points Flashes; Sum "lutevent_total_flash_area"; Sum "power"; Sum "lutevent_group_count";
   Points Groups; Sum "lutevent_total_group_area"; Min "lutevent_min_flash_area"]%string.
Lemma process_inv : forall so weird clip tree quad xe ye te cs q files arrays p,
  process_files so weird clip tree quad xe ye te true cs q files = Ok (arrays, p) ->
  exists bss, map_res (read_batches so weird clip tree quad xe ye cs q) files = Ok bss /\
    Forall2 (fun fd a => frames xe ye te (List.concat bss) fd = Ok a) lut_feeds arrays /\ p = option_map f_platform (find has_events files).
Proof.
  intros so weird clip tree quad xe ye te cs q files arrays p H. unfold process_files in H. change (pipeline_setup GLMlutGridder) with (Ok lut_feeds) in H. cbn [bind] in H.
  apply bind_ok_inv in H. destruct H as (bss & E & H). apply bind_ok_inv in H. destruct H as (ogs & E2 & H). inversion H; subst. exists bss. split; [exact E|]. split; [|reflexivity]. apply map_res_inv, E2.
Qed.

Lemma F2_len : forall A B (P : A -> B -> Prop) l l', Forall2 P l l' -> List.length l = List.length l'.
Proof. induction 1; cbn; auto. Qed.
Lemma F2_cons : forall A B (P : A -> B -> Prop) a l b l', Forall2 P (a :: l) (b :: l') -> P a b /\ Forall2 P l l'.
Proof. intros A B P a l b l' H. inversion H; auto. Qed.

(** With the keyword clip_events, every array has the shape of the grid, there is one for
    each name, and in every frame the arrays written under the names of the extent, area
    and energy products are those that gridding only the files of this frame gives. *)
Theorem C48_products : forall set_order weird clip tree quad xe ye te chunk_size q files arrays p,
  process_files set_order weird clip tree quad xe ye te true chunk_size q files = Ok (arrays, p) ->
  List.length arrays = List.length lut_names /\
  shaped arrays (List.length xe - 1) (List.length ye - 1) (List.length te - 1) /\
  forall t, (t < List.length te - 1)%nat ->
  exists g, grid_files set_order weird clip tree quad xe ye chunk_size (files_during te t files) q = Ok g /\
  forall x y, let at_ (h : grids -> grid) := g_at (h g) (Z.of_nat x) (Z.of_nat y) in
    product arrays "total_energy" x y t (at_ gr_energy) /\
    product arrays "flash_extent_density" x y t (at_ gr_fcount) /\
    product arrays "average_flash_area" x y t (at_ gr_farea) /\
    product arrays "minimum_flash_area" x y t (at_ gr_minarea) /\
    product arrays "group_extent_density" x y t (at_ gr_gcount) /\
    product arrays "average_group_area" x y t (at_ gr_garea).
Proof.
  intros so weird clip tree quad xe ye te cs q files arrays p H. apply process_inv in H. destruct H as (bss & R & F2 & _).
  unfold lut_feeds in F2.
  destruct arrays as [|a0 [|a1 [|a2 [|a3 [|a4 [|a5 [|a6 [|a7 [|a8 r]]]]]]]]]; try (exfalso; apply F2_len in F2; cbn in F2; lia).
  repeat (apply F2_cons in F2; destruct F2 as [? F2]). clear F2.
  split; [reflexivity|]. split.
  { repeat match goal with H : frames _ _ _ _ _ = Ok _ |- _ => apply frames_inv in H; destruct H as (? & ? & ? & _) end.
    unfold shaped. replace (List.length xe - 1)%nat with (Z.to_nat (Z.of_nat (List.length xe) - 1)) by lia. replace (List.length ye - 1)%nat with (Z.to_nat (Z.of_nat (List.length ye) - 1)) by lia.
    repeat constructor; assumption. }
  intros t Ht.
  repeat match goal with H : frames _ _ _ _ _ = Ok _ |- _ => apply frames_inv in H; destruct H as (_ & _ & _ & H); let g := fresh "g" in let e := fresh "e" in let v := fresh "V" in destruct (H t Ht) as (g & e & v); clear H end.
  unfold files_during. unfold grid_files. rewrite (read_files_filter so weird clip tree quad xe ye cs q (duringb te t) files bss R). cbn [bind].
  repeat match goal with
         | H : frame_grid _ _ _ _ (Sum ?n) _ = Ok _ |- _ => rewrite (frame_sum xe ye te n _ t _ eq_refl) in H
         | H : frame_grid _ _ _ _ (Min ?n) _ = Ok _ |- _ => rewrite (frame_min xe ye te n _ t _ eq_refl) in H
         end.
  unfold make_grids.
  repeat match goal with H : ?A = Ok _ |- context [?A] => rewrite H; cbn [bind] end.
  eexists. split; [reflexivity|]. intros x y. cbn [gr_energy gr_fcount gr_farea gr_minarea gr_gcount gr_garea].
  repeat split; unfold product.
  - exists 3%nat, a3. repeat split; auto.
  - exists 0%nat, a0. repeat split; auto.
  - exists 2%nat, a2. repeat split; auto.
  - exists 7%nat, a7. repeat split; auto.
  - exists 4%nat, a4. repeat split; auto.
  - exists 6%nat, a6. repeat split; auto.
Qed.
Print Assumptions C48_products.

(** The class used without that keyword cannot be set up. *)
Theorem C48_plain_class_refuted : forall set_order weird clip tree quad xe ye te chunk_size q files,
  pipeline_setup GLMGridder = Err ValueError /\
  process_files set_order weird clip tree quad xe ye te false chunk_size q files = Err ValueError.
Proof. intros. split; reflexivity. Qed.
Print Assumptions C48_plain_class_refuted.

(** Positions of flashes and groups. *)
Lemma in_bin_cell : forall e k v, (S k < List.length e)%nat -> in_bin e (Z.of_nat k) v = inside_cell e k v.
Proof.
  intros e k v H. unfold in_bin, inside_cell. destruct v as [v|]; [|reflexivity]. rewrite Nat2Z.id.
  assert (H' : (k < List.length e)%nat) by lia. rewrite (nth_error_nth' e 0%Q H'), (nth_error_nth' e 0%Q H).
  destruct (Qle_bool (nth k e 0%Q) v); [|reflexivity]. cbn [andb]. unfold Qlt_bool.
  assert (K : Nat.eqb (S (S k)) (List.length e) = Nat.eqb k (List.length e - 2)) by (destruct (Nat.eqb_spec (S (S k)) (List.length e)), (Nat.eqb_spec k (List.length e - 2)); auto; lia).
  rewrite K. set (b := nth (S k) e 0%Q). destruct (Qle_bool b v) eqn:L; [|reflexivity]. cbn [negb orb]. f_equal.
  apply Qle_bool_iff in L. destruct (Qle_bool v b) eqn:M, (Qeq_bool v b) eqn:E; auto.
  - apply Qle_bool_iff in M. exfalso. apply Qeq_bool_neq in E. apply E. lra.
  - apply Qeq_bool_iff in E. exfalso. assert (M' : (v <= b)%Q) by lra. apply Qle_bool_iff in M'. congruence.
Qed.
Lemma batches_points : forall so, (forall l, Permutation (so l) l) -> forall weird clip tree quad xe ye cs q f bs,
  (0 < cs)%nat -> (forall q', q = Some q' -> q_check q' = true) -> usable (f_ds f) ->
  read_batches so weird clip tree quad xe ye cs q f = Ok bs ->
  exists FG, chosen so q f FG /\ flat_map b_flashes bs = points_of (f_fstart f) (Some (fst FG)) /\
    Permutation (flat_map b_groups bs) (points_of (f_gtime f) (Some (snd FG))).
Proof.
  intros so PS weird clip tree quad xe ye cs q f bs HC HQ U H. unfold read_batches in H. destruct U as [U|U].
  - rewrite U in H. inversion H; subst. exists ([], []). split; [left; auto|]. split; [reflexivity|constructor].
  - destruct U as (F & G & E & ED & NF & NG & NE & DO & _). rewrite ED in H. destruct E as [|e E]; [congruence|]. cbn [nth_error] in H.
    apply bind_ok_inv in H. destruct H as (chunks & EC & H).
    destruct (C26_chunks_split_selection so PS cs F G (e :: E) q HC DO NF NG NE HQ) as (sel & chunks' & SEL & EC' & (F' & G' & E' & -> & L3 & S0 & S1 & S2) & _).
    rewrite EC in EC'. inversion EC'; subst chunks'. exists (F', G'). split; [right; split; [rewrite ED; cbn; eauto|exists E'; rewrite ED; exact SEL]|].
    assert (K : Forall2 (fun c b => b_flashes b = points_of (f_fstart f) (Some (nth 0 c [])) /\ b_groups b = points_of (f_gtime f) (Some (nth 1 c []))) chunks bs).
    { apply map_res_inv in H. clear -H L3. induction H as [|c b chunks bs E F IH]; [constructor|]. inversion L3; subst. constructor; [|auto].
      apply bind_ok_inv in E. destruct E as (rows & _ & E). inversion E; subst b. cbn [b_flashes b_groups]. destruct c as [|c0 [|c1 cr]]; try discriminate. split; reflexivity. }
    assert (P : forall h (pf : batch -> list point) n, (forall c b, b_flashes b = points_of (f_fstart f) (Some (nth 0 c [])) /\ b_groups b = points_of (f_gtime f) (Some (nth 1 c [])) -> pf b = points_of h (Some (nth n c []))) ->
       flat_map pf bs = points_of h (Some (List.concat (map (fun p => nth n p []) chunks)))).
    { intros h pf n Hpf. clear -K Hpf. induction K as [|c b chunks bs E F IH]; [reflexivity|]. cbn [flat_map map List.concat]. rewrite IH, (Hpf _ _ E).
      unfold points_of. rewrite map_app. reflexivity. }
    split.
    + rewrite (P (f_fstart f) b_flashes 0%nat) by tauto. rewrite S0. reflexivity.
    + rewrite (P (f_gtime f) b_groups 1%nat) by tauto. cbn [points_of snd]. apply Permutation_map, S1.
Qed.
Lemma filter_filter : forall A (f g : A -> bool) l, filter f (filter g l) = filter (fun x => g x && f x)%bool l.
Proof. induction l as [|x l IH]; [reflexivity|]. cbn. destruct (g x); cbn; rewrite IH; reflexivity. Qed.
Lemma filter_points : forall c times rows, List.length (filter c (points_of times (Some rows))) =
  List.length (filter (fun r => c (mkPoint (o_x (rdat r)) (o_y (rdat r)) (times (rid r)))) rows).
Proof. intros c times rows. cbn [points_of]. induction rows as [|r rows IH]; [reflexivity|]. cbn [map filter]. destruct (c _); cbn [List.length]; rewrite IH; reflexivity. Qed.
Lemma count_located : forall xe ye te kx ky t (pts : batch -> list point) (times : glmfile -> Z -> Q) (lev : tbl * tbl -> tbl) files bss sel,
  (S kx < List.length xe)%nat -> (S ky < List.length ye)%nat ->
  Forall2 (fun fb FG => Permutation (flat_map pts (snd fb)) (points_of (times (fst fb)) (Some (lev FG)))) (combine files bss) sel -> List.length files = List.length bss ->
  List.length (filter (fun p => in_bin xe (Z.of_nat kx) (p_x p) && in_bin ye (Z.of_nat ky) (p_y p))%bool (filter (fun p => in_frame te t (p_t p)) (flat_map pts (List.concat bss)))) =
  list_sum (map (fun fs => located xe ye te kx ky t (times (fst fs)) (lev (snd fs))) (combine files sel)).
Proof.
  intros xe ye te kx ky t pts times lev files bss sel Hx Hy F2 HL. rewrite filter_filter. revert bss sel F2 HL.
  induction files as [|f files IH]; intros bss sel F2 HL; destruct bss as [|bs bss]; try discriminate HL; [reflexivity|].
  cbn [combine] in F2. inversion F2 as [|? FG ? sel' P F2' E1 E2]; subst. cbn [List.concat combine map fst snd] in *. rewrite flat_map_app, filter_app, app_length.
  change (list_sum (?a :: ?l)) with (a + list_sum l)%nat. rewrite (IH bss sel' F2') by (cbn in HL; lia). f_equal.
  rewrite (Permutation_length (filter_perm _ _ _ _ P)). rewrite filter_points. unfold located. f_equal. apply filter_ext. intros r. cbn [p_x p_y p_t].
  rewrite !in_bin_cell, in_frame_during by auto. destruct (inside_cell xe kx _), (inside_cell ye ky _), (duringb te t _); reflexivity.
Qed.

(** In every frame the centroid products count, in each cell, the selected flashes (or
    groups) of all files whose centroid is in the cell and whose own time is in the
    frame. *)
Theorem C48_centroids : forall set_order, (forall l, Permutation (set_order l) l) ->
  forall weird clip tree quad xe ye te chunk_size q files arrays p,
  (0 < chunk_size)%nat -> (forall q', q = Some q' -> q_check q' = true) -> Forall (fun f => usable (f_ds f)) files ->
  process_files set_order weird clip tree quad xe ye te true chunk_size q files = Ok (arrays, p) ->
  exists sel, Forall2 (chosen set_order q) files sel /\
  forall t kx ky, (t < List.length te - 1)%nat -> (S kx < List.length xe)%nat -> (S ky < List.length ye)%nat ->
    let flashes := list_sum (map (fun fs => located xe ye te kx ky t (f_fstart (fst fs)) (fst (snd fs))) (combine files sel)) in
    let groups := list_sum (map (fun fs => located xe ye te kx ky t (f_gtime (fst fs)) (snd (snd fs))) (combine files sel)) in
    product arrays "flash_centroid_density" kx ky t (Some (qnat flashes)) /\
    product arrays "group_centroid_density" kx ky t (Some (qnat groups)).
Proof.
  intros so PS weird clip tree quad xe ye te cs q files arrays p HC HQ HU H. apply process_inv in H. destruct H as (bss & R & F2 & _). apply map_res_inv in R.
  assert (K : exists sel, Forall2 (chosen so q) files sel /\
     Forall2 (fun fb FG => Permutation (flat_map b_flashes (snd fb)) (points_of (f_fstart (fst fb)) (Some (fst FG))) /\
                           Permutation (flat_map b_groups (snd fb)) (points_of (f_gtime (fst fb)) (Some (snd FG)))) (combine files bss) sel).
  { clear -PS HC HQ HU R. induction R as [|f bs files bss E R IH]; [exists []; split; constructor|]. inversion HU; subst. destruct IH as (sel & C1 & C2); auto.
    destruct (batches_points so PS weird clip tree quad xe ye cs q f bs HC HQ ltac:(assumption) E) as (FG & D1 & D2 & D3).
    exists (FG :: sel). split; [constructor; auto|]. cbn [combine]. constructor; auto. cbn [fst snd]. split; [rewrite D2; apply Permutation_refl|exact D3]. }
  destruct K as (sel & C1 & C2). exists sel. split; [exact C1|]. intros t kx ky Ht Hx Hy fl gr.
  assert (LB : List.length files = List.length bss) by (apply (F2_len _ _ _ _ _ R)).
  unfold lut_feeds in F2.
  destruct arrays as [|a0 [|a1 [|a2 [|a3 [|a4 [|a5 [|a6 [|a7 [|a8 r]]]]]]]]]; try (exfalso; apply F2_len in F2; cbn in F2; lia).
  apply F2_cons in F2; destruct F2 as [_ F2]. apply F2_cons in F2; destruct F2 as [A1 F2]. do 3 (apply F2_cons in F2; destruct F2 as [_ F2]). apply F2_cons in F2; destruct F2 as [A5 _].
  apply frames_inv in A1. destruct A1 as (_ & _ & _ & A1). destruct (A1 t Ht) as (g1 & E1 & V1). apply frames_inv in A5. destruct A5 as (_ & _ & _ & A5). destruct (A5 t Ht) as (g5 & E5 & V5).
  cbn [frame_grid points_at] in E1, E5. inversion E1; subst g1. inversion E5; subst g5. clear E1 E5. unfold qnat. split.
  - exists 1%nat, a1. repeat split. rewrite V1. cbn [g_at]. do 3 f_equal. apply (count_located xe ye te kx ky t b_flashes f_fstart fst); auto.
    clear -C2. induction C2 as [|? ? ? ? [? ?] ? ?]; constructor; auto.
  - exists 5%nat, a5. repeat split. rewrite V5. cbn [g_at]. do 3 f_equal. apply (count_located xe ye te kx ky t b_groups f_gtime snd); auto.
    clear -C2. induction C2 as [|? ? ? ? [? ?] ? ?]; constructor; auto.
Qed.
Print Assumptions C48_centroids.

(** * C59 *)
Lemma last_nth : forall (l : list Q) d d', l <> [] -> last l d = nth (List.length l - 1) l d'.
Proof.
  induction l as [|x l IH]; intros d d' H; [congruence|]. destruct l as [|y l]; [reflexivity|].
  change (last (x :: y :: l) d) with (last (y :: l) d). rewrite (IH d d') by discriminate. cbn [List.length nth Nat.sub]. rewrite Nat.sub_0_r. reflexivity.
Qed.
(** With increasing edges, a time from the first edge to just before the last one is in
    exactly one frame, any other time in none. *)
Theorem C59_one_frame : forall te v, increasing te ->
  (forall t t', during te t v -> during te t' v -> t = t') /\
  ((exists t, (t < List.length te - 1)%nat /\ during te t v) <-> exists a, nth_error te 0 = Some a /\ (a <= v < last te a)%Q).
Proof.
  intros te v INC.
  assert (NE : forall k a, nth_error te k = Some a -> a = edge te k) by (intros k a H; unfold edge; symmetry; apply nth_error_nth; exact H).
  split.
  - assert (W : forall t t', (t < t')%nat -> during te t v -> during te t' v -> False).
    { intros t t' L (a & b & E1 & E2 & B1 & B2) (c & d & E3 & E4 & B3 & B4). assert (L3 : (t' < List.length te)%nat) by (apply nth_error_Some; congruence).
      apply NE in E2, E3. destruct (Nat.eq_dec (S t) t') as [<-|N]; [rewrite E2, E3 in *; lra|].
      pose proof (INC (S t) t' ltac:(lia)). rewrite E2, E3 in *. lra. }
    intros t t' D D'. destruct (Nat.lt_trichotomy t t') as [L|[E|L]]; auto; exfalso; eauto.
  - split.
    + intros (t & Ht & a & b & E1 & E2 & B1 & B2). destruct te as [|e0 te']; [cbn in Ht; lia|]. exists e0. split; [reflexivity|]. split.
      * apply NE in E1. destruct t as [|t]; [cbn in E1; subst; exact B1|]. assert (edge (e0 :: te') 0 < edge (e0 :: te') (S t))%Q by (apply INC; cbn in *; lia). change (edge (e0 :: te') 0) with e0 in H. rewrite <- E1 in H. lra.
      * set (l := e0 :: te') in *. assert (EL : last l e0 = edge l (List.length l - 1)).
        { unfold edge. apply last_nth. discriminate. }
        rewrite EL. apply NE in E2. assert (S t < List.length l)%nat by lia. destruct (Nat.eq_dec (S t) (List.length l - 1)) as [E|N].
        -- rewrite <- E, <- E2. exact B2.
        -- pose proof (INC (S t) (List.length l - 1)%nat ltac:(lia)). rewrite <- E2 in *. lra.
    + intros (a & E & B1 & B2). clear INC NE. destruct te as [|x te]; [discriminate E|]. cbn in E. inversion E; subst x. clear E.
      revert a B1 B2. induction te as [|b te IH]; intros a B1 B2; [cbn in B2; lra|].
      destruct (Qlt_le_dec v b) as [L|L].
      * exists 0%nat. split; [cbn; lia|]. exists a, b. repeat split; auto.
      * destruct (IH b L) as (t & Ht & c & d & E1 & E2 & B).
        { replace (last (b :: te) b) with (last (a :: b :: te) a); [exact B2|]. cbn [last]. clear. destruct te; [reflexivity|]. revert q. induction te as [|y te IH]; intros q; [reflexivity|]. apply (IH y). }
        exists (S t). split; [cbn in *; lia|]. exists c, d. repeat split; auto; apply B.
Qed.
Print Assumptions C59_one_frame.

Lemma read_total : forall so weird clip tree quad xe ye cs q files bs,
  (1 < List.length xe)%nat -> (1 < List.length ye)%nat -> increasing xe -> increasing ye -> proper clip ->
  read_files so weird clip tree quad (regular_xy xe ye) cs files q = Ok bs ->
  exists g, grid_files so weird clip tree quad xe ye cs files q = Ok g.
Proof.
  intros so weird clip tree quad xe ye cs q files bs HX HY IX IY PR ER. unfold grid_files. change (mkMesh (meshgrid_x xe ye) (meshgrid_y xe ye) true) with (regular_xy xe ye). rewrite ER. cbn [bind].
  destruct (read_all so weird clip tree quad xe ye HX HY IX IY PR cs q files bs ER) as (ts & Ws & TR & FW & FR).
  pose proof (all_fit _ _ _ _ _ _ _ FW) as FIT. set (nx := Z.of_nat (List.length xe) - 1) in *. set (ny := Z.of_nat (List.length ye) - 1) in *.
  unfold make_grids.
  assert (A : forall col, exists g, accumulate (zeros nx ny) (map (items col) bs) = Ok g) by (intros; apply accumulate_total; apply (batches_in_grid nx ny Ws); auto).
  assert (B : exists g, accumulate_min (zeros nx ny) (map (items ce_minarea) bs) = Ok g) by (apply accumulate_min_total; apply (batches_in_grid nx ny Ws); auto).
  destruct (A ce_power) as (g1 & ->). cbn [bind]. destruct (A ce_fcount) as (g2 & ->). cbn [bind]. destruct (A ce_farea) as (g3 & ->). cbn [bind].
  destruct B as (g4 & ->). cbn [bind]. destruct (A ce_gcount) as (g5 & ->). cbn [bind]. destruct (A ce_garea) as (g6 & ->). cbn [bind]. eauto.
Qed.
Lemma F2_det : forall A B (f : A -> res B) l r r', Forall2 (fun a b => f a = Ok b) l r -> Forall2 (fun a b => f a = Ok b) l r' -> r = r'.
Proof. intros A B f l r r' H. revert r'. induction H as [|a b l r E F IH]; intros r' H'; inversion H'; subst; [reflexivity|]. f_equal; [congruence|auto]. Qed.
Lemma tables_of_file_det : forall so weird cs q ds t t', tables_of_file so weird cs q ds t -> tables_of_file so weird cs q ds t' -> t = t'.
Proof.
  intros so weird cs q ds t t' [[E ->]|((e & E & EE) & ch & EC & F)] [[E' ->]|((e' & E' & EE') & ch' & EC' & F')]; try congruence.
  rewrite EC in EC'. inversion EC'; subst ch'. eapply F2_det; eauto.
Qed.
(** Tables of a subset of the files. *)
Lemma tables_filter : forall so weird cs q (P : glmfile -> bool) files tss ts,
  Forall2 (fun f t => tables_of_file so weird cs q (f_ds f) t) files tss ->
  tables_read so weird cs q (map f_ds (filter P files)) ts ->
  ts = List.concat (map snd (filter (fun ft => P (fst ft)) (combine files tss))).
Proof.
  intros so weird cs q P files tss ts H (tss' & F2 & ->). f_equal. revert tss' F2.
  induction H as [|f t files tss E H IH]; intros tss' F2; cbn [filter combine map fst] in *.
  - inversion F2; reflexivity.
  - destruct (P f); cbn [map] in *.
    + inversion F2; subst. f_equal; [eapply tables_of_file_det; eauto|auto].
    + auto.
Qed.
Lemma over_concat : forall f tss, (over f (List.concat tss) == qsum (map (over f) tss))%Q.
Proof.
  intros f tss. induction tss as [|t tss IH]; [reflexivity|]. cbn [map List.concat]. change (qsum (?x :: ?l)) with (x + qsum l)%Q. rewrite <- IH.
  unfold over. rewrite concat_app, map_app, qsum_app. reflexivity.
Qed.
Lemma hit_one : forall s i (v : Q), NoDup s -> In i s -> (qsum (map (fun k => if Nat.eqb i k then v else 0%Q) s) == v)%Q.
Proof.
  induction s as [|k s IH]; intros i v ND Hi; [contradiction|]. inversion ND; subst. cbn [map]. change (qsum (?x :: ?l)) with (x + qsum l)%Q. destruct (Nat.eqb_spec i k) as [->|N].
  - assert (Z : (qsum (map (fun j => if Nat.eqb k j then v else 0%Q) s) == 0)%Q).
    { clear -H1. induction s as [|j s IH]; [reflexivity|]. cbn [map]. change (qsum (?x :: ?l)) with (x + qsum l)%Q. rewrite IH by (intros C; apply H1; right; auto).
      destruct (Nat.eqb_spec k j) as [->|N]; [exfalso; apply H1; left; auto|]. reflexivity. }
    rewrite Z. ring.
  - destruct Hi as [E|Hi]; [congruence|]. rewrite IH by auto. ring.
Qed.
Lemma qsum_plus' : forall A (f g : A -> Q) l, (qsum (map (fun x => f x + g x) l) == qsum (map f l) + qsum (map g l))%Q.
Proof. induction l as [|x l IH]; [reflexivity|]. cbn [map]. change (qsum (?x :: ?l)) with (x + qsum l)%Q. rewrite IH. ring. Qed.
Lemma qsum_parts : forall A (P : nat -> A -> bool) (x : A -> Q) n l,
  (forall a, In a l -> exists t, (t < n)%nat /\ P t a = true /\ forall t', P t' a = true -> t' = t) ->
  (qsum (map (fun t => qsum (map x (filter (P t) l))) (seq 0 n)) == qsum (map x l))%Q.
Proof.
  intros A P x n l H. induction l as [|a l IH].
  - cbn [filter map]. induction (seq 0 n) as [|t s IHs]; [reflexivity|]. cbn [map]. change (qsum (?x :: ?l)) with (x + qsum l)%Q. rewrite IHs. reflexivity.
  - cbn [map]. change (qsum (x a :: ?l)) with (x a + qsum l)%Q. rewrite <- IH by (intros; apply H; right; auto).
    destruct (H a (or_introl eq_refl)) as (t0 & Ht0 & P0 & U). rewrite <- (hit_one (seq 0 n) t0 (x a) (seq_NoDup _ _)) by (apply in_seq; lia). rewrite <- qsum_plus'. apply qsum_ext. intros t _. cbn [filter].
    destruct (Nat.eqb_spec t0 t) as [->|N].
    + rewrite P0. reflexivity.
    + destruct (P t a) eqn:E; [apply U in E; congruence|]. ring.
Qed.
Lemma F2_choice : forall A B (P : A -> B -> Prop) l, (forall a, In a l -> exists b, P a b) -> exists bs, Forall2 P l bs.
Proof.
  induction l as [|a l IH]; intros H; [exists []; constructor|]. destruct (H a (or_introl eq_refl)) as (b & Hb). destruct IH as (bs & Hbs); [intros; apply H; right; auto|]. exists (b :: bs). constructor; auto.
Qed.
Lemma during_within : forall te t v, increasing te -> duringb te t v = true ->
  match te with a :: _ => (Qle_bool a v && negb (Qle_bool (last te a) v))%bool | [] => false end = true.
Proof.
  intros te t v INC D. apply duringb_iff in D. destruct (C59_one_frame te v INC) as [_ [K _]].
  assert (Ht : (t < List.length te - 1)%nat) by (destruct D as (a & b & _ & E & _); assert (S t < List.length te)%nat by (apply nth_error_Some; congruence); lia).
  destruct (K (ex_intro _ t (conj Ht D))) as (a & E & B1 & B2). destruct te as [|x te]; [discriminate E|]. cbn in E. inversion E; subst x.
  apply andb_true_iff. split; [apply Qle_bool_iff; auto|]. destruct (Qle_bool (last (a :: te) a) v) eqn:L; [|reflexivity]. apply Qle_bool_iff in L. lra.
Qed.
Lemma within_during : forall te v, increasing te ->
  match te with a :: _ => (Qle_bool a v && negb (Qle_bool (last te a) v))%bool | [] => false end = true ->
  exists t, (t < List.length te - 1)%nat /\ duringb te t v = true /\ forall t', duringb te t' v = true -> t' = t.
Proof.
  intros te v INC H. destruct (C59_one_frame te v INC) as [U [_ K]]. destruct te as [|a te]; [discriminate H|]. apply andb_true_iff in H. destruct H as [H1 H2].
  destruct K as (t & Ht & D).
  { exists a. split; [reflexivity|]. apply Qle_bool_iff in H1. split; [exact H1|]. destruct (Qlt_le_dec v (last (a :: te) a)) as [|L]; auto. apply Qle_bool_iff in L. rewrite L in H2. discriminate. }
  exists t. split; [exact Ht|]. split; [apply duringb_iff; exact D|]. intros t' D'. apply duringb_iff in D'. apply (U t' t); auto.
Qed.

(** The summed products of all frames add up, cell by cell, to those of a single run over
    the files within the frames: nothing is lost at the edges or counted twice. *)
Theorem C59_frames_add_up : forall set_order weird clip tree quad xe ye te chunk_size q files arrays p,
  (1 < List.length xe)%nat -> (1 < List.length ye)%nat -> increasing xe -> increasing ye -> proper clip -> increasing te ->
  process_files set_order weird clip tree quad xe ye te true chunk_size q files = Ok (arrays, p) ->
  exists whole tables, grid_files set_order weird clip tree quad xe ye chunk_size (files_within te files) q = Ok whole /\
  tables_read set_order weird chunk_size q (files_within te files) tables /\
  ((forall r, In r (List.concat tables) -> ~ (size (quad (lu_x r) (lu_y r)) == 0)%Q /\ lu_farea r <> None /\ lu_garea r <> None) ->
   forall kx ky, (S kx < List.length xe)%nat -> (S ky < List.length ye)%nat ->
   forall name h, In (name, h) [("total_energy", gr_energy); ("flash_extent_density", gr_fcount); ("group_extent_density", gr_gcount);
                                ("average_flash_area", gr_farea); ("average_group_area", gr_garea)]%string ->
   exists vs, Forall2 (fun t v => product arrays name kx ky t (Some v)) (seq 0 (List.length te - 1)) vs /\
     is_num (g_at (h whole) (Z.of_nat kx) (Z.of_nat ky)) (qsum vs)).
Proof.
  intros so weird clip tree quad xe ye te cs q files arrays p HX HY IX IY PR IT H.
  pose proof (C48_products _ _ _ _ _ _ _ _ _ _ _ _ _ H) as (_ & _ & PRD). apply process_inv in H. destruct H as (bss & R & _ & _).
  set (W := fun f => match te with a :: _ => (Qle_bool a (f_time f) && negb (Qle_bool (last te a) (f_time f)))%bool | [] => false end).
  pose proof (read_files_filter so weird clip tree quad xe ye cs q (fun v => match te with a :: _ => (Qle_bool a v && negb (Qle_bool (last te a) v))%bool | [] => false end) files bss R) as RW.
  destruct (read_total so weird clip tree quad xe ye cs q _ _ HX HY IX IY PR RW) as (whole & EW). fold (files_within te files) in EW.
  destruct (C36_cells _ _ _ _ _ _ _ _ _ _ _ HX HY IX IY PR EW) as (tw & TW & KW). exists whole, tw. split; [exact EW|]. split; [exact TW|].
  intros GOOD kx ky Hx Hy name h Hh. destruct (KW GOOD) as [_ KW']. specialize (KW' kx ky Hx Hy). cbv zeta in KW'.
  destruct TW as (tss & TF & ->). assert (TF' : Forall2 (fun f t => tables_of_file so weird cs q (f_ds f) t) (filter W files) tss).
  { unfold files_within in TF. fold W in TF. clear -TF. revert tss TF. induction (filter W files) as [|f l IH]; intros tss TF; inversion TF; subst; constructor; auto. }
  set (pairs := combine (filter W files) tss).
  assert (PAIRS : map snd pairs = tss).
  { subst pairs. clear -TF'. induction TF' as [|f t l ts E F IH]; [reflexivity|]. cbn [combine map snd]. rewrite IH. reflexivity. }
  assert (PF : forall ft, In ft pairs -> exists t, (t < List.length te - 1)%nat /\ duringb te t (f_time (fst ft)) = true /\ forall t', duringb te t' (f_time (fst ft)) = true -> t' = t).
  { intros [f ts] Hft. apply within_during; auto. subst pairs. apply in_combine_l in Hft. apply filter_In in Hft. apply Hft. }
  assert (FD : forall t, files_during te t files = map f_ds (filter (fun f => duringb te t (f_time f)) (filter W files))).
  { intros t. unfold files_during. f_equal. rewrite filter_filter. apply filter_ext. intros f. destruct (duringb te t (f_time f)) eqn:E; [|rewrite andb_false_r; reflexivity].
    rewrite andb_true_r. symmetry. apply (during_within te t); auto. }
  (* one frame *)
  assert (MAIN : exists k w, is_num (g_at (h whole) (Z.of_nat kx) (Z.of_nat ky)) (over (fun r => k r * w r)%Q (List.concat tss)) /\
     forall t, (t < List.length te - 1)%nat -> exists v, product arrays name kx ky t (Some v) /\
       (v == over (fun r => k r * w r) (List.concat (map snd (filter (fun ft => duringb te t (f_time (fst ft))) pairs))))%Q).
  { assert (FR : forall t, (t < List.length te - 1)%nat -> exists g tt, grid_files so weird clip tree quad xe ye cs (files_during te t files) q = Ok g /\
        tt = List.concat (map snd (filter (fun ft => duringb te t (f_time (fst ft))) pairs)) /\
        (let at_ (h : grids -> grid) := g_at (h g) (Z.of_nat kx) (Z.of_nat ky) in
         product arrays "total_energy" kx ky t (at_ gr_energy) /\ product arrays "flash_extent_density" kx ky t (at_ gr_fcount) /\
         product arrays "average_flash_area" kx ky t (at_ gr_farea) /\ product arrays "minimum_flash_area" kx ky t (at_ gr_minarea) /\
         product arrays "group_extent_density" kx ky t (at_ gr_gcount) /\ product arrays "average_group_area" kx ky t (at_ gr_garea)) /\
        let m := regular_xy xe ye in
        let part r := let p := quad (lu_x r) (lu_y r) in size_in clip m p (nearby tree m p) (ky, kx) in
        let of_pixel r := (part r / size (quad (lu_x r) (lu_y r)))%Q in
        let of_cell r := (part r / cell_size xe ye kx ky)%Q in
        let at_ (h : grids -> grid) := g_at (h g) (Z.of_nat kx) (Z.of_nat ky) in
        sums_to (at_ gr_energy) (fun r => num (lu_energy r)) of_pixel tt /\
        sums_to (at_ gr_fcount) (fun r => qnat (lu_fcount r)) of_cell tt /\
        sums_to (at_ gr_gcount) (fun r => qnat (lu_gcount r)) of_cell tt /\
        sums_to (at_ gr_farea) (fun r => num (lu_farea r)) of_cell tt /\
        sums_to (at_ gr_garea) (fun r => num (lu_garea r)) of_cell tt).
    { intros t Ht. destruct (PRD t Ht) as (g & EG & PP). destruct (C36_cells _ _ _ _ _ _ _ _ _ _ _ HX HY IX IY PR EG) as (tt & TT & KT).
      rewrite FD in TT. pose proof (tables_filter so weird cs q (fun f => duringb te t (f_time f)) _ _ _ TF' TT) as ET. fold pairs in ET.
      exists g, tt. split; [exact EG|]. split; [exact ET|]. split; [apply PP|]. apply KT; auto.
      intros r Hr. apply GOOD. rewrite ET in Hr. apply in_concat in Hr. destruct Hr as (tb & Htb & Hr). apply in_concat in Htb. destruct Htb as (ts & Hts & Htb).
      apply in_map_iff in Hts. destruct Hts as (ft & <- & Hft). apply filter_In in Hft. destruct Hft as [Hft _].
      apply in_concat. exists tb. split; [|exact Hr]. apply in_concat. exists (snd ft). split; [|exact Htb]. rewrite <- PAIRS. apply in_map, Hft. }
    destruct KW' as (w1 & w2 & w3 & w4 & w5).
    assert (FIN : forall nm (h0 : grids -> grid) k w, is_num (g_at (h0 whole) (Z.of_nat kx) (Z.of_nat ky)) (over (fun r => k r * w r)%Q (List.concat tss)) ->
       (forall t, (t < List.length te - 1)%nat -> exists g, product arrays nm kx ky t (g_at (h0 g) (Z.of_nat kx) (Z.of_nat ky)) /\
           sums_to (g_at (h0 g) (Z.of_nat kx) (Z.of_nat ky)) k w (List.concat (map snd (filter (fun ft => duringb te t (f_time (fst ft))) pairs)))) ->
       exists k w, is_num (g_at (h0 whole) (Z.of_nat kx) (Z.of_nat ky)) (over (fun r => k r * w r)%Q (List.concat tss)) /\
     forall t, (t < List.length te - 1)%nat -> exists v, product arrays nm kx ky t (Some v) /\
       (v == over (fun r => k r * w r) (List.concat (map snd (filter (fun ft => duringb te t (f_time (fst ft))) pairs))))%Q).
    { intros nm h0 k w S0 ST. exists k, w. split; [exact S0|]. intros t Ht. destruct (ST t Ht) as (g & P0 & v & Ev & Hv). rewrite Ev in P0. exists v. auto. }
    cbn [In] in Hh. destruct Hh as [E|[E|[E|[E|[E|[]]]]]]; inversion E; subst name h; (eapply FIN; [eassumption|]);
      intros t Ht; destruct (FR t Ht) as (g & tt & _ & -> & (p1 & p2 & p3 & p4 & p5 & p6) & (s1 & s2 & s3 & s4 & s5)); exists g; split; assumption. }
  destruct MAIN as (k & w & NW & MAIN).
  destruct (F2_choice _ _ (fun t v => product arrays name kx ky t (Some v) /\ (v == over (fun r => k r * w r) (List.concat (map snd (filter (fun ft => duringb te t (f_time (fst ft))) pairs))))%Q) (seq 0 (List.length te - 1))) as (vs & FV).
  { intros t Ht. apply in_seq in Ht. apply MAIN. lia. }
  exists vs. split; [clear -FV; induction FV as [|? ? ? ? [? ?] ? ?]; constructor; auto|].
  destruct NW as (v & Ev & Hv). exists v. split; [exact Ev|]. rewrite Hv.
  assert (SUM : (qsum vs == qsum (map (fun t => qsum (map (fun ft => over (fun r => k r * w r)%Q (snd ft)) (filter (fun ft => duringb te t (f_time (fst ft))) pairs))) (seq 0 (List.length te - 1))))%Q).
  { clear -FV. induction FV as [|t v l vs [_ E] F IH]; [reflexivity|]. cbn [map]. change (qsum (?x :: ?l)) with (x + qsum l)%Q. rewrite IH, E, over_concat, map_map. reflexivity. }
  rewrite SUM, over_concat. rewrite <- PAIRS, map_map. symmetry. apply (qsum_parts _ (fun t ft => duringb te t (f_time (fst ft)))). exact PF.
Qed.
Print Assumptions C59_frames_add_up.

(** Do the grids of a frame hold the energy of the events of that time?  Only if the events
    of each file all occur in the frame of its product time. *)
Lemma total_num : forall E : tbl, total (energies E) = qsum (map (fun e => match o_energy (rdat e) with Some v => v | None => 0%Q end) E).
Proof. intros E. unfold total, energies. rewrite map_map. reflexivity. Qed.
Theorem C59_event_times_partial : forall set_order, (forall l, Permutation (set_order l) l) ->
  forall weird clip tree quad xe ye te chunk_size q files arrays p,
  (1 < List.length xe)%nat -> (1 < List.length ye)%nat -> increasing xe -> increasing ye -> proper clip ->
  (0 < chunk_size)%nat -> (forall q', q = Some q' -> q_check q' = true) -> Forall (fun f => usable (f_ds f)) files ->
  process_files set_order weird clip tree quad xe ye te true chunk_size q files = Ok (arrays, p) ->
  (forall f E e t, In f files -> nth_error (f_ds f) 2 = Some E -> In e E -> during te t (f_etime f (rid e)) <-> during te t (f_time f)) ->
  forall t, (t < List.length te - 1)%nat ->
  exists g tables sel, (forall x y, product arrays "total_energy" x y t (g_at g (Z.of_nat x) (Z.of_nat y))) /\
    tables_read set_order weird chunk_size q (files_during te t files) tables /\ Forall2 (chosen_events set_order q) files sel /\
    ((forall r, In r (List.concat tables) ->
       let p := quad (lu_x r) (lu_y r) in
       ~ (size p == 0)%Q /\ covered p (cut clip (regular_xy xe ye) p (nearby tree (regular_xy xe ye) p))) ->
     (grid_total g == qsum (map (fun fE => energy_during te t (f_etime (fst fE)) (snd fE)) (combine files sel)))%Q).
Proof.
  intros so HP weird clip tree quad xe ye te cs q files arrays p HX HY IX IY PR Hcs HQ US H HT t Ht.
  destruct (C48_products _ _ _ _ _ _ _ _ _ _ _ _ _ H) as (_ & _ & PRD). destruct (PRD t Ht) as (g & EG & PG).
  assert (USD : Forall usable (files_during te t files)).
  { unfold files_during. apply Forall_forall. intros ds Hd. apply in_map_iff in Hd. destruct Hd as (f & <- & Hf). apply filter_In in Hf. rewrite Forall_forall in US. apply US, Hf. }
  destruct (C36_observed_energy so HP weird clip tree quad xe ye cs _ q g HX HY IX IY PR Hcs HQ USD EG) as (tables & es & TR & OB & TOT).
  assert (SEL : exists sel, Forall2 (chosen_events so q) files sel /\
     (qsum es == qsum (map (fun fE => energy_during te t (f_etime (fst fE)) (snd fE)) (combine files sel)))%Q).
  { unfold files_during in OB. clear -OB US HT HP HQ. revert es OB. induction files as [|f files IH]; intros es OB.
    - cbn in OB. inversion OB; subst. exists []. split; [constructor|reflexivity].
    - inversion US as [|? ? U1 U2]; subst.
      assert (IH' := fun es => IH U2 (fun f0 E e t0 Hf => HT f0 E e t0 (or_intror Hf)) es). clear IH. cbn [filter] in OB.
      assert (EV : exists E, chosen_events so q f E /\ forall e, In e E -> exists E0, nth_error (f_ds f) 2 = Some E0 /\ In e E0).
      { destruct U1 as [Z|(F & G & E & ED & nF & nG & nE & D & _)]; [exists []; split; [left; auto|intros e []]|].
        destruct (selection_exists so HP F G E q D nF nG nE HQ) as (F2 & G2 & E2 & S & HF2 & HG2 & HE2 & D2). exists E2. rewrite ED. split; [right; rewrite ED; split; [destruct E as [|ev0 E]; [congruence|cbn; eauto]|exists F2, G2; exact S]|].
        intros e He. exists E. split; [reflexivity|]. apply HE2; exact He. }
      destruct EV as (E & CE & SUB).
      assert (DUR : forall e, In e E -> duringb te t (f_etime f (rid e)) = duringb te t (f_time f)).
      { intros e He. destruct (SUB e He) as (E0 & N0 & H0). pose proof (HT f E0 e t (or_introl eq_refl) N0 H0) as K. rewrite <- !duringb_iff in K.
        destruct (duringb te t (f_etime f (rid e))), (duringb te t (f_time f)); auto; destruct K as [K1 K2]; [discriminate (K1 eq_refl)|discriminate (K2 eq_refl)]. }
      destruct (duringb te t (f_time f)) eqn:D.
      + cbn [map] in OB. inversion OB as [|? e0 ? es' O1 O2]; subst. destruct (IH' es' O2) as (sel & S1 & S2). exists (E :: sel). split; [constructor; auto|].
        cbn [combine map fst snd]. change (qsum (?x :: ?l)) with (x + qsum l)%Q. rewrite S2. apply Qplus_comp; [|reflexivity]. unfold energy_during.
        assert (FE : filter (fun e => duringb te t (f_etime f (rid e))) E = E).
        { clear -DUR. induction E as [|e E IH]; [reflexivity|]. cbn [filter]. rewrite DUR by (left; auto). rewrite IH by (intros; apply DUR; right; auto). reflexivity. }
        rewrite FE. rewrite <- total_num. destruct O1 as [[Z ->]|[NZ (F & G & E' & S & ->)]].
        * destruct CE as [[_ ->]|[(v & E1 & NE) _]]; [reflexivity|congruence].
        * destruct CE as [[Z ->]|[_ (F' & G' & S')]]; [destruct NZ as (v & E1 & NE); congruence|].
          assert (E' = E) as -> by (unfold selection in *; destruct q; congruence). reflexivity.
      + destruct (IH' es OB) as (sel & S1 & S2). exists (E :: sel). split; [constructor; auto|].
        cbn [combine map fst snd]. change (qsum (?x :: ?l)) with (x + qsum l)%Q. rewrite S2. unfold energy_during at 2.
        assert (FE : filter (fun e => duringb te t (f_etime f (rid e))) E = []).
        { clear -DUR. induction E as [|e E IH]; [reflexivity|]. cbn [filter]. rewrite DUR by (left; auto). rewrite IH by (intros; apply DUR; right; auto). reflexivity. }
        rewrite FE. cbn [map]. change (qsum []) with 0%Q. ring. }
  destruct SEL as (sel & S1 & S2). exists (gr_energy g), tables, sel. split; [intros x y; apply (PG x y)|]. split; [exact TR|]. split; [exact S1|]. intros COV. rewrite (TOT COV). exact S2.
Qed.
Print Assumptions C59_event_times_partial.

(** Two flashes of a file of the first frame, which lasts from 0 to 20; the second flash
    and its events are of time 25, in the second frame. *)
Definition g_row (i : Z) (x y : Q) (n : nat) : row obs := mkRow i 0 (dob (Some x) (Some y) None (q1 10) 0 1 n).
Definition g_ds : list tbl :=
  [[g_row 1 (2 # 100) 0 1; g_row 2 (1 # 100) (1 # 100) 2];
   [mkRow 5 1 (dob (Some (2 # 100)) (Some 0) None (q1 3) 0 1 0); mkRow 6 2 (dob (Some (1 # 100)) (Some (1 # 100)) None (q1 2) 0 2 0)];
   [mkRow 100 5 (dob (Some (2 # 100)) (Some 0) (q1 8) None 1 0 0); mkRow 101 6 (dob (Some (2 # 100)) (Some 0) (q1 4) None 2 0 0);
    mkRow 102 6 (dob (Some 0) (Some (2 # 100)) (q1 6) None 2 0 0)]]%Q.
Definition g_late (i : Z) : Q := (if (i =? 2) || (i =? 6) || (i =? 101) || (i =? 102) then 25 # 1 else 5 # 1)%Q.
Definition g_file : glmfile := mkFile g_ds (3 # 1) g_late g_late g_late (lit "G16").
Definition g_te : list Q := [0; 20 # 1; 40 # 1]%Q.
Definition g_run : res (list array3 * option pystr) :=
  process_files (fun l => l) (fun _ => 0) ex_clip ex_tree ex_quad ex_xe ex_ye g_te true 7 None [g_file].
Definition g_total (arrays : list array3) (k t : nat) : Q :=
  match nth_error arrays k with
  | Some a => Qred (qsum (flat_map (fun x => map (fun y => num (a_at a x y t)) (seq 0 (a_ny a))) (seq 0 (a_nx a))))
  | None => 0%Q
  end.
(** Sums over the cells in the two frames: flash extents, flash centroids, energy. *)
Example C59_ex : exists arrays p, g_run = Ok (arrays, p) /\ p = Some (lit "G16") /\
  map (fun k => map (g_total arrays k) [0; 1]%nat) [1; 3; 5]%nat = [[1; 1]; [18; 0]; [1; 1]]%Q.
Proof. do 2 eexists. split; [vm_compute; reflexivity|]. split; vm_compute; reflexivity. Qed.
Example C59_hypotheses : increasing g_te /\ Forall (fun f => usable (f_ds f)) [g_file].
Proof.
  split; [intros i j H; destruct i as [|[|i]], j as [|[|[|j]]]; cbn in H |- *; try lia; reflexivity|].
  constructor; [|constructor]. right. do 3 eexists. split; [reflexivity|]. split; [discriminate|]. split; [discriminate|]. split; [discriminate|]. split; [|split; [|split]].
  - split; [split|split; [|split]].
    + apply unique3. cbn. split; [|split]; repeat constructor; cbn; intuition discriminate.
    + apply linked_no_orphans. split; intros s Hs; cbn [In] in Hs.
      * destruct Hs as [<-|[<-|[]]]; [exists (g_row 1 (2 # 100) 0 1)|exists (g_row 2 (1 # 100) (1 # 100) 2)]; (split; [cbn; auto|reflexivity]).
      * destruct Hs as [<-|Hs]; [eexists; split; [left; reflexivity|reflexivity]|]. destruct Hs as [<-|[<-|[]]]; (eexists; split; [right; left; reflexivity|reflexivity]).
    + intros e He. cbn [In] in He. destruct He as [<-|He]; [eexists; split; [left; reflexivity|split; reflexivity]|].
      destruct He as [<-|[<-|[]]]; (eexists; split; [right; left; reflexivity|split; reflexivity]).
    + intros g Hg. cbn in Hg. destruct Hg as [<-|[<-|[]]]; reflexivity.
    + intros f Hf. cbn in Hf. destruct Hf as [<-|[<-|[]]]; split; reflexivity.
  - intros v [<-|[<-|[]]]; discriminate.
  - intros v [<-|[<-|[]]]; discriminate.
  - intros v [<-|[<-|[<-|[]]]]; discriminate.
Qed.

(** The pixels of all events are not empty and lie within the grid. *)
Definition within_grid clip tree (quad : fval -> fval -> poly) (xe ye : list Q) (files : list glmfile) : Prop :=
  forall f E e, In f files -> nth_error (f_ds f) 2 = Some E -> In e E ->
  let p := quad (o_x (rdat e)) (o_y (rdat e)) in ~ (size p == 0)%Q /\ covered p (cut clip (regular_xy xe ye) p (nearby tree (regular_xy xe ye) p)).
Example C59_within : within_grid ex_clip ex_tree ex_quad ex_xe ex_ye [g_file].
Proof.
  intros f E e [<-|[]] HE He. cbn in HE. inversion HE; subst E. cbn [In] in He.
  destruct He as [<-|[<-|[<-|[]]]]; (split; [intros K; vm_compute in K; discriminate K|vm_compute; reflexivity]).
Qed.

(** The energy of an event is not accumulated in the frame of the event. *)
Theorem C59_event_times_refuted : ~ (forall set_order weird clip tree quad xe ye te chunk_size files arrays p,
  proper clip -> increasing te -> Forall (fun f => usable (f_ds f)) files -> within_grid clip tree quad xe ye files ->
  process_files set_order weird clip tree quad xe ye te true chunk_size None files = Ok (arrays, p) ->
  forall t sel, (t < List.length te - 1)%nat -> Forall2 (chosen_events set_order None) files sel ->
  (0 < qsum (map (fun fE => energy_during te t (f_etime (fst fE)) (snd fE)) (combine files sel)))%Q ->
  exists x y v, product arrays "total_energy" x y t (Some v) /\ (x < List.length xe - 1)%nat /\ (y < List.length ye - 1)%nat /\ (0 < v)%Q).
Proof.
  intros H. destruct g_run as [[arrays p]|] eqn:E; [|vm_compute in E; discriminate].
  destruct (H _ _ _ _ _ _ _ _ _ _ _ _ (proj2 (proj2 (proj2 (proj2 C36_hypotheses)))) (proj1 C59_hypotheses) (proj2 C59_hypotheses) C59_within E 1%nat [nth 2 g_ds []]) as (x & y & v & (k & a & Ek & Ea & Ev) & Hx & Hy & P).
  - cbn. lia.
  - constructor; [|constructor]. right. split; [cbn; eauto|]. do 2 eexists. reflexivity.
  - vm_compute. reflexivity.
  - vm_compute in E. inversion E; subst arrays. clear E. assert (k = 3%nat) as ->.
    { destruct k as [|[|[|[|[|[|[|[|[|k]]]]]]]]]; try discriminate Ek; reflexivity. }
    cbn [nth_error] in Ea. inversion Ea; subst a. cbn in Hx, Hy.
    destruct x as [|[|[|x]]]; try lia; destruct y as [|[|[|[|y]]]]; try lia; vm_compute in Ev; inversion Ev; subst v; vm_compute in P; discriminate P.
Qed.
Print Assumptions C59_event_times_refuted.

(** Flash centroids and flash extents of the same flash may be in different frames. *)
Theorem C59_same_frame_refuted : ~ (forall set_order weird clip tree quad xe ye te chunk_size files arrays p,
  proper clip -> increasing te -> Forall (fun f => usable (f_ds f)) files -> within_grid clip tree quad xe ye files ->
  process_files set_order weird clip tree quad xe ye te true chunk_size None files = Ok (arrays, p) ->
  forall x y t v, (t < List.length te - 1)%nat -> product arrays "flash_centroid_density" x y t (Some v) -> (0 < v)%Q ->
  exists x' y' v', (x' < List.length xe - 1)%nat /\ (y' < List.length ye - 1)%nat /\ product arrays "flash_extent_density" x' y' t (Some v') /\ (0 < v')%Q).
Proof.
  intros H. destruct g_run as [[arrays p]|] eqn:E; [|vm_compute in E; discriminate].
  assert (P1 : product arrays "flash_centroid_density" 1 2 1 (Some 1%Q)).
  { vm_compute in E. inversion E; subst arrays. exists 1%nat. eexists. split; [reflexivity|]. split; [reflexivity|]. vm_compute. reflexivity. }
  destruct (H _ _ _ _ _ _ _ _ _ _ _ _ (proj2 (proj2 (proj2 (proj2 C36_hypotheses)))) (proj1 C59_hypotheses) (proj2 C59_hypotheses) C59_within E 1%nat 2%nat 1%nat 1%Q) as (x & y & v & Hx & Hy & (k & a & Ek & Ea & Ev) & P).
  - cbn. lia.
  - exact P1.
  - reflexivity.
  - vm_compute in E. inversion E; subst arrays. clear E. assert (k = 0%nat) as ->.
    { destruct k as [|[|[|[|[|[|[|[|[|k]]]]]]]]]; try discriminate Ek; reflexivity. }
    cbn [nth_error] in Ea. inversion Ea; subst a. cbn in Hx, Hy.
    destruct x as [|[|[|x]]]; try lia; destruct y as [|[|[|[|y]]]]; try lia; vm_compute in Ev; inversion Ev; subst v; vm_compute in P; discriminate P.
Qed.
Print Assumptions C59_same_frame_refuted.

(** * C60 *)
Lemma named_pixel : forall f i name r c w, map fst (of_fields f) = lut_names -> nth_error lut_names i = Some name -> pixel_of f i r c w -> pixel_named f name r c w.
Proof.
  intros f i name r c w N E (nm & rows & row & F & R & C). exists rows, row. split; [|auto]. assert (nm = name) as ->.
  { pose proof (map_nth_error fst i (of_fields f) F) as K. rewrite N, E in K. cbn in K. congruence. }
  eapply nth_error_In; eauto.
Qed.
Lemma product_cell : forall arrays i name x y t v, nth_error lut_names i = Some name -> product arrays name x y t v -> cell arrays i x y t v.
Proof.
  intros arrays i name x y t v E (k & a & Ek & Ea & Ev). assert (k = i) as ->; [|exists a; auto].
  assert (ND : NoDup lut_names) by (repeat constructor; cbn; intuition discriminate).
  apply (proj1 (NoDup_nth_error lut_names) ND); [apply nth_error_Some; congruence|congruence].
Qed.
Definition same_value (v : fval) (s : option Q) (w : fval) : Prop := match v with Some v => shows s v w | None => w = None end.

(** A run in the fixed grid mode from files to files.  There is a file for each frame, with
    all fields; its pixels are at the centres of the cells inside the padding and show
    what gridding the files of that frame gives.  Averages are shown for cells with at
    least one step of extent density. *)
Theorem C60_written_products_partial : forall set_order weird clip tree quad xe ye te chunk_size q pad scaled sc stamp nows files mx my outs,
  ascending xe -> ascending ye -> List.length xe = S (mx + 2 * pad) -> List.length ye = S (my + 2 * pad) -> (exists f, In f files /\ has_events f = true) ->
  proc_each_grid set_order weird clip tree quad xe ye te true true chunk_size q (pad_slice (Z.of_nat pad)) (pad_slice (Z.of_nat pad)) scaled sc stamp nows files = Ok outs ->
  List.length outs = (List.length te - 1)%nat /\
  forall t out, nth_error outs t = Some out ->
  map fst (of_fields out) = lut_names /\ List.length (of_x out) = mx /\ List.length (of_y out) = my /\
  exists g, grid_files set_order weird clip tree quad xe ye chunk_size (files_during te t files) q = Ok g /\
  forall r c, (r < my)%nat -> (c < mx)%nat ->
  let x := (pad + c)%nat in let y := (pad + (my - 1 - r))%nat in
  let at_ (h : grids -> grid) := g_at (h g) (Z.of_nat x) (Z.of_nat y) in
  let st name := if scaled then step name else None in
  nth_error (of_x out) c = Some (center xe x) /\ nth_error (of_y out) r = Some (center ye y) /\
  (forall name h, In (name, h) [("total_energy", gr_energy); ("flash_extent_density", gr_fcount); ("group_extent_density", gr_gcount); ("minimum_flash_area", gr_minarea)]%string ->
     exists w, pixel_named out name r c w /\ same_value (at_ h) (st name) w) /\
  (forall name h name' h', In (name, h, (name', h')) [("average_flash_area", gr_farea, ("flash_extent_density", gr_fcount)); ("average_group_area", gr_garea, ("group_extent_density", gr_gcount))]%string ->
     forall total count, at_ h = Some total -> at_ h' = Some count -> (0 <= total)%Q ->
     (count == 0 \/ 0 < count /\ match st name' with None => True | Some s => s <= count end)%Q ->
     exists w, pixel_named out name r c w /\ (total == 0 \/ count == 0 -> w = None)%Q /\ (0 < total -> 0 < count -> shows (st name) (total / count) w)%Q).
Proof.
  intros so weird clip tree quad xe ye te cs q pad scaled sc stamp nows files mx my outs AX AY LX LY (f0 & Hf0 & HE) H.
  unfold proc_each_grid in H. cbn [negb] in H. apply bind_ok_inv in H. destruct H as ([arrays p] & EP & H). cbn [fst snd] in H.
  destruct (C48_products _ _ _ _ _ _ _ _ _ _ _ _ _ EP) as (LA & SH & PRD). destruct (process_inv _ _ _ _ _ _ _ _ _ _ _ _ _ EP) as (_ & _ & _ & EPL).
  destruct (find has_events files) as [f1|] eqn:EF; [|rewrite (find_none _ _ EF f0 Hf0) in HE; discriminate]. cbn [option_map] in EPL. subst p.
  set (gd := mkGridder xe ye te lut_names lut_divide (f_platform f1)) in *.
  apply bind_ok_inv in H. destruct H as ([after files'] & EW & H). cbn [snd] in H. inversion H; subst files'. clear H.
  assert (W : writes gd pad scaled mx my arrays after outs).
  { unfold writes. cbn [gd gd_xedge gd_yedge gd_tedges gd_names gd_divide]. repeat (split; [assumption|]).
    replace (mx + 2 * pad)%nat with (List.length xe - 1)%nat by lia. replace (my + 2 * pad)%nat with (List.length ye - 1)%nat by lia.
    split; [exact SH|]. split; [auto|]. split; [exact lut_simple|]. exists sc, stamp, nows. exact EW. }
  destruct (C37_pixels_at_their_coordinates _ _ _ _ _ _ _ _ W) as (LF & PX). cbn [gd gd_tedges] in LF. split; [lia|].
  intros t out Hout. destruct (PX t out Hout) as (NM & RC & LXo & LYo & _ & _ & PIX). cbn [gd gd_names] in NM. split; [exact NM|]. split; [exact LXo|]. split; [exact LYo|].
  assert (Ht : (t < List.length te - 1)%nat) by (assert (t < List.length outs)%nat by (apply nth_error_Some; congruence); lia).
  destruct (PRD t Ht) as (g & EG & PP). exists g. split; [exact EG|]. intros r c Hr Hc x y at_ st.
  destruct (PP x y) as (p3 & p0 & p2 & p7 & p4 & p6).
  destruct (writes_files _ _ _ _ _ _ _ _ W) as (_ & FF & _). destruct (FF t out Hout) as (Ex & Ey & _ & _ & Px). rewrite !pad_lo, !pad_len in Px.
  destruct (coords _ _ _ (LX : List.length (gd_xedge gd) = S (mx + 2 * pad))) as [cx1 cx2]. destruct (coords _ _ _ (LY : List.length (gd_yedge gd) = S (my + 2 * pad))) as [cy1 cy2].
  split; [|split; [|split]].
  - rewrite Ex. apply cx2. exact Hc.
  - rewrite Ey. rewrite nth_error_rev by (rewrite cy1; exact Hr). rewrite cy1. apply cy2. lia.
  - assert (ONE : forall i name v, nth_error lut_names i = Some name -> lut_divide i = None -> product arrays name x y t v -> exists w, pixel_named out name r c w /\ same_value v (st name) w).
    { intros i name v Ei Di Pv. apply (product_cell _ _ _ _ _ _ _ Ei) in Pv.
      assert (Li : (i < List.length arrays)%nat) by (rewrite LA; apply nth_error_Some; congruence).
      destruct v as [v|].
      - destruct (C39_lightning_is_not_lost gd pad scaled mx my arrays after outs t out i r c v W Hout Di Li Hr Hc Pv) as (w & P & S). exists w. split; [apply (named_pixel _ i); auto|].
        unfold same_value, st. unfold steps in S. cbn [gd gd_names] in S. rewrite Ei in S. exact S.
      - eexists. split; [apply (named_pixel _ i); auto; apply Px; auto|]. cbn [same_value]. unfold value. cbn [gd gd_divide]. rewrite Di. unfold x, y in Pv. apply cell_at in Pv. destruct Pv as [_ ->]. apply final_none. }
    intros name h Hh. cbn [In] in Hh. destruct Hh as [E|[E|[E|[E|[]]]]]; inversion E; subst name h.
    + apply (ONE 3%nat); auto. + apply (ONE 0%nat); auto. + apply (ONE 4%nat); auto. + apply (ONE 7%nat); auto.
  - assert (TWO : forall i d name name' v v', nth_error lut_names i = Some name -> nth_error lut_names d = Some name' -> lut_divide i = Some d ->
       product arrays name x y t v -> product arrays name' x y t v' -> forall total count, v = Some total -> v' = Some count -> (0 <= total)%Q ->
     (count == 0 \/ 0 < count /\ match st name' with None => True | Some s => s <= count end)%Q ->
     exists w, pixel_named out name r c w /\ (total == 0 \/ count == 0 -> w = None)%Q /\ (0 < total -> 0 < count -> shows (st name) (total / count) w)%Q).
    { intros i d name name' v v' Ei Ed Di Pv Pv' total count -> -> T0 C0. apply (product_cell _ _ _ _ _ _ _ Ei) in Pv. apply (product_cell _ _ _ _ _ _ _ Ed) in Pv'.
      assert (Li : (i < List.length arrays)%nat) by (rewrite LA; apply nth_error_Some; congruence).
      destruct (C38_averages_partial gd pad scaled mx my arrays after outs t out i d r c x y total count W Hout Di Li Hr Hc eq_refl eq_refl Pv Pv' T0) as (w & P & Z & S).
      - unfold steps. cbn [gd gd_names]. rewrite Ed. exact C0.
      - exists w. split; [apply (named_pixel _ i); auto|]. split; [exact Z|]. unfold steps in S. cbn [gd gd_names] in S. rewrite Ei in S. exact S. }
    intros name h name' h' Hh. cbn [In] in Hh. destruct Hh as [E|[E|[]]]; inversion E; subst name h name' h'.
    + apply (TWO 2%nat 0%nat); auto.
    + apply (TWO 6%nat 4%nat); auto.
Qed.
Print Assumptions C60_written_products_partial.

(** What a reader finds for a count of up to 65535: the count itself, or missing for none. *)
Definition counted (n : nat) (w : fval) : Prop :=
  (n = 0%nat -> w = None) /\ (0 < Z.of_nat n <= 65535 -> exists u, w = Some u /\ (u == qnat n)%Q).
Lemma final_counted : forall (scaled : bool) name n, step name = Some 1%Q -> counted n (final (scaling_of scaled name) (Some (qnat n))).
Proof.
  intros scaled name n S. destruct (final_shows scaled name (qnat n)) as [Z P]. split; [intros ->; apply Z; reflexivity|].
  intros [N0 N]. assert (N1 : (inject_Z 1 <= qnat n)%Q) by (unfold qnat; rewrite <- Zle_Qle; lia). change (inject_Z 1) with 1%Q in N1.
  destruct scaled; [|apply P; lra]. clear Z P. unfold final. rewrite step_of_scaling, S. cbn [option_map].
  destruct (raise_tiny_cases 1 (qnat n)) as (u & -> & u1 & u2 & u3); [lra|lra|]. cbn [stored]. specialize (u2 N1).
  assert (U : (u / 1 == inject_Z (Z.of_nat n))%Q) by (rewrite u2; unfold qnat; field).
  destruct (unpack_pack 1 u) as (_ & _ & ->); [lra|lra|rewrite U; change 65535%Q with (inject_Z 65535); rewrite <- Zle_Qle; lia|].
  rewrite (round_compat _ _ U), round_int. destruct (Z.eqb_spec (Z.of_nat n) 0); [lia|]. eexists. split; [reflexivity|]. unfold qnat. ring.
Qed.
(** The counts of flashes and groups by position in the same files are exact. *)
Theorem C60_written_counts : forall set_order, (forall l, Permutation (set_order l) l) ->
  forall weird clip tree quad xe ye te chunk_size q pad scaled sc stamp nows files mx my outs,
  ascending xe -> ascending ye -> List.length xe = S (mx + 2 * pad) -> List.length ye = S (my + 2 * pad) -> (exists f, In f files /\ has_events f = true) ->
  (0 < chunk_size)%nat -> (forall q', q = Some q' -> q_check q' = true) -> Forall (fun f => usable (f_ds f)) files ->
  proc_each_grid set_order weird clip tree quad xe ye te true true chunk_size q (pad_slice (Z.of_nat pad)) (pad_slice (Z.of_nat pad)) scaled sc stamp nows files = Ok outs ->
  exists sel, Forall2 (chosen set_order q) files sel /\
  forall t out r c, nth_error outs t = Some out -> (r < my)%nat -> (c < mx)%nat ->
  let x := (pad + c)%nat in let y := (pad + (my - 1 - r))%nat in
  let flashes := list_sum (map (fun fs => located xe ye te x y t (f_fstart (fst fs)) (fst (snd fs))) (combine files sel)) in
  let groups := list_sum (map (fun fs => located xe ye te x y t (f_gtime (fst fs)) (snd (snd fs))) (combine files sel)) in
  nth_error (of_x out) c = Some (center xe x) /\ nth_error (of_y out) r = Some (center ye y) /\
  (exists w, pixel_named out "flash_centroid_density" r c w /\ counted flashes w) /\
  (exists w, pixel_named out "group_centroid_density" r c w /\ counted groups w).
Proof.
  intros so PS weird clip tree quad xe ye te cs q pad scaled sc stamp nows files mx my outs AX AY LX LY (f0 & Hf0 & HE) HC HQ HU H.
  unfold proc_each_grid in H. cbn [negb] in H. apply bind_ok_inv in H. destruct H as ([arrays p] & EP & H). cbn [fst snd] in H.
  destruct (C48_products _ _ _ _ _ _ _ _ _ _ _ _ _ EP) as (LA & SH & _). destruct (process_inv _ _ _ _ _ _ _ _ _ _ _ _ _ EP) as (_ & _ & _ & EPL).
  destruct (C48_centroids so PS _ _ _ _ _ _ _ _ _ _ _ _ HC HQ HU EP) as (sel & FS & CT). exists sel. split; [exact FS|].
  destruct (find has_events files) as [f1|] eqn:EF; [|rewrite (find_none _ _ EF f0 Hf0) in HE; discriminate]. cbn [option_map] in EPL. subst p.
  set (gd := mkGridder xe ye te lut_names lut_divide (f_platform f1)) in *.
  apply bind_ok_inv in H. destruct H as ([after files'] & EW & H). cbn [snd] in H. inversion H; subst files'. clear H.
  assert (W : writes gd pad scaled mx my arrays after outs).
  { unfold writes. cbn [gd gd_xedge gd_yedge gd_tedges gd_names gd_divide]. repeat (split; [assumption|]).
    replace (mx + 2 * pad)%nat with (List.length xe - 1)%nat by lia. replace (my + 2 * pad)%nat with (List.length ye - 1)%nat by lia.
    split; [exact SH|]. split; [auto|]. split; [exact lut_simple|]. exists sc, stamp, nows. exact EW. }
  destruct (writes_files _ _ _ _ _ _ _ _ W) as (LF & FF & _). cbn [gd gd_tedges] in LF. intros t out r c Hout Hr Hc x y flashes groups.
  assert (Ht : (t < List.length te - 1)%nat) by (assert (t < List.length outs)%nat by (apply nth_error_Some; congruence); lia).
  destruct (FF t out Hout) as (Ex & Ey & NM & _ & Px). rewrite !pad_lo, !pad_len in Px.
  destruct (coords _ _ _ (LX : List.length (gd_xedge gd) = S (mx + 2 * pad))) as [cx1 cx2]. destruct (coords _ _ _ (LY : List.length (gd_yedge gd) = S (my + 2 * pad))) as [cy1 cy2].
  destruct (CT t x y Ht) as [C1 C2]; [unfold x; lia|unfold y; lia|].
  split; [rewrite Ex; apply cx2; exact Hc|]. split; [rewrite Ey; rewrite nth_error_rev by (rewrite cy1; exact Hr); rewrite cy1; apply cy2; lia|].
  assert (ONE : forall i name n, nth_error lut_names i = Some name -> lut_divide i = None -> step name = Some 1%Q -> product arrays name x y t (Some (qnat n)) -> exists w, pixel_named out name r c w /\ counted n w).
  { intros i name n Ei Di Si Pv. apply (product_cell _ _ _ _ _ _ _ Ei) in Pv.
    assert (Li : (i < List.length arrays)%nat) by (rewrite LA; apply nth_error_Some; congruence).
    eexists. split; [apply (named_pixel _ i); auto; apply Px; auto|]. unfold value. cbn [gd gd_divide]. rewrite Di. unfold x, y in Pv. apply cell_at in Pv. destruct Pv as [_ ->].
    destruct (sc_of_scaling gd scaled i) as [-> _]; [cbn [gd gd_names]; lia|]. cbn [gd gd_names]. rewrite (nth_error_nth _ _ _ Ei). apply final_counted. exact Si. }
  split; [apply (ONE 1%nat); auto|apply (ONE 5%nat); auto].
Qed.
Print Assumptions C60_written_counts.

(** * C61 *)
Lemma process_total : forall so weird clip tree quad xe ye te cs q files g,
  (1 < List.length xe)%nat -> (1 < List.length ye)%nat -> increasing xe -> increasing ye -> proper clip ->
  grid_files so weird clip tree quad xe ye cs (map f_ds files) q = Ok g ->
  exists arrays, process_files so weird clip tree quad xe ye te true cs q files = Ok (arrays, option_map f_platform (find has_events files)).
Proof.
  intros so weird clip tree quad xe ye te cs q files g HX HY IX IY PR H. unfold grid_files in H. apply bind_ok_inv in H. destruct H as (bs & ER & _).
  assert (R : exists bss, map_res (read_batches so weird clip tree quad xe ye cs q) files = Ok bss).
  { unfold read_files in ER. apply bind_ok_inv in ER. destruct ER as (rs & E & _). clear bs. revert rs E. induction files as [|f files IH]; intros rs E; cbn [map map_res] in *; [eexists; reflexivity|].
    apply bind_ok_inv in E. destruct E as (r & E & E2). apply bind_ok_inv in E2. destruct E2 as (rs' & E2 & _). destruct (IH _ E2) as (bss & ->). clear IH E2.
    assert (K : exists b, read_batches so weird clip tree quad xe ye cs q f = Ok b).
    { unfold read_batches. destruct (nth_error (f_ds f) 2) as [[|e E']|]; [eexists; reflexivity| |discriminate].
      unfold read_flashes in E. apply bind_ok_inv in E. destruct E as (chunks & -> & E). cbn [bind]. revert r E.
      induction chunks as [|c chunks IH]; intros r E; cbn [map_res] in *; [eexists; reflexivity|]. apply bind_ok_inv in E. destruct E as (rows & -> & E). cbn [bind].
      apply bind_ok_inv in E. destruct E as (r' & E & _). destruct (IH _ E) as (b & ->). eexists; reflexivity. }
    destruct K as (b & ->). eexists; reflexivity. }
  destruct R as (bss & R). unfold process_files. change (pipeline_setup GLMlutGridder) with (Ok lut_feeds). cbn [bind]. rewrite R. cbn [bind].
  assert (T : forall t, exists g, grid_files so weird clip tree quad xe ye cs (files_during te t files) q = Ok g).
  { intros t. eapply read_total; auto. unfold files_during. unfold regular_xy. apply (read_files_filter so weird clip tree quad xe ye cs q (duringb te t) files bss R). }
  assert (K : forall fd, In fd lut_feeds -> exists a, frames xe ye te (List.concat bss) fd = Ok a).
  { intros fd HF. apply frames_total. intros t _. destruct (T t) as (gt & E). unfold grid_files in E.
    pose proof (read_files_filter so weird clip tree quad xe ye cs q (duringb te t) files bss R) as RF. fold (files_during te t files) in RF. rewrite RF in E. cbn [bind] in E.
    unfold make_grids in E. repeat (apply bind_ok_inv in E; let v := fresh "v" in let K := fresh "K" in destruct E as (v & K & E)). clear E.
    cbn [lut_feeds In] in HF. destruct HF as [<-|[<-|[<-|[<-|[<-|[<-|[<-|[<-|[]]]]]]]]];
      first [eexists; reflexivity | erewrite frame_sum by reflexivity; eauto | erewrite frame_min by reflexivity; eauto]. }
  assert (M : exists ogs, map_res (frames xe ye te (List.concat bss)) lut_feeds = Ok ogs).
  { revert K. generalize lut_feeds. induction l as [|fd l IH]; intros K; cbn [map_res]; [eexists; reflexivity|]. destruct (K fd (or_introl eq_refl)) as (a & ->). cbn [bind].
    destruct IH as (ogs & ->); [intros; apply K; right; auto|]. eexists; reflexivity. }
  destruct M as (ogs & ->). eexists; reflexivity.
Qed.
(** Calls that leave out one of two keywords, or with no lightning in any file, do not
    produce the files: they end with an exception. *)
Theorem C61_calls_refuted : forall set_order weird clip tree quad xe ye te chunk_size q xs ys scaled sc stamp nows,
  (forall files clip_events, proc_each_grid set_order weird clip tree quad xe ye te false clip_events chunk_size q xs ys scaled sc stamp nows files = Err KeyError) /\
  (forall files, proc_each_grid set_order weird clip tree quad xe ye te true false chunk_size q xs ys scaled sc stamp nows files = Err ValueError) /\
  (forall files rev clip_events outs, (2 <= List.length te)%nat -> Forall (fun f => nth_error (f_ds f) 2 = Some []) files ->
     proc_each_grid set_order weird clip tree quad xe ye te rev clip_events chunk_size q xs ys scaled sc stamp nows files <> Ok outs).
Proof.
  intros so weird clip tree quad xe ye te cs q xs ys scaled sc stamp nows. split; [reflexivity|]. split; [reflexivity|].
  intros files [|] [|] outs HT HF H; try discriminate H. unfold proc_each_grid in H. cbn [negb] in H. apply bind_ok_inv in H. destruct H as ([arrays p] & EP & H). cbn [fst snd] in H.
  destruct (process_inv _ _ _ _ _ _ _ _ _ _ _ _ _ EP) as (_ & _ & _ & ->).
  assert (N : find has_events files = None).
  { clear -HF. induction HF as [|f files E HF IH]; [reflexivity|]. cbn [find]. unfold has_events at 1. rewrite E. exact IH. }
  rewrite N in H. cbn [option_map] in H. destruct (Nat.leb_spec (List.length te) 1); [lia|]. apply bind_ok_inv in H. destruct H as (s & _ & H). discriminate H.
Qed.
Print Assumptions C61_calls_refuted.
(** With both keywords, some lightning, files that can be gridded and at least two columns
    and one row inside the padding, there is a file for every frame. *)
Theorem C61_calls_partial : forall set_order weird clip tree quad xe ye te chunk_size q pad scaled sc stamp nows files mx my g,
  ascending xe -> ascending ye -> (2 <= mx)%nat -> (1 <= my)%nat -> List.length xe = S (mx + 2 * pad) -> List.length ye = S (my + 2 * pad) -> proper clip ->
  (exists f, In f files /\ has_events f = true) ->
  grid_files set_order weird clip tree quad xe ye chunk_size (map f_ds files) q = Ok g ->
  exists outs, List.length outs = (List.length te - 1)%nat /\
  proc_each_grid set_order weird clip tree quad xe ye te true true chunk_size q (pad_slice (Z.of_nat pad)) (pad_slice (Z.of_nat pad)) scaled sc stamp nows files = Ok outs.
Proof.
  intros so weird clip tree quad xe ye te cs q pad scaled sc stamp nows files mx my g AX AY MX MY LX LY PR (f0 & Hf0 & HE) HG.
  destruct (process_total so weird clip tree quad xe ye te cs q files g) as (arrays & EP); auto; try lia.
  destruct (find has_events files) as [f1|] eqn:EF; [|rewrite (find_none _ _ EF f0 Hf0) in HE; discriminate]. cbn [option_map] in EP.
  destruct (C48_products _ _ _ _ _ _ _ _ _ _ _ _ _ EP) as (LA & SH & _). set (gd := mkGridder xe ye te lut_names lut_divide (f_platform f1)).
  destruct (C37_writing_succeeds gd pad scaled mx my arrays sc stamp nows) as (after & outs & EW & W); auto.
  { cbn [gd gd_tedges]. replace (mx + 2 * pad)%nat with (List.length xe - 1)%nat by lia. replace (my + 2 * pad)%nat with (List.length ye - 1)%nat by lia. exact SH. }
  { exact lut_simple. }
  exists outs. split; [destruct (writes_files _ _ _ _ _ _ _ _ W) as (LF & _); exact LF|].
  unfold proc_each_grid. cbn [negb]. rewrite EP. cbn [bind fst snd]. fold gd. rewrite EW. reflexivity.
Qed.
Print Assumptions C61_calls_partial.

(** A whole run with the file above, one cell of padding, three columns and four rows. *)
Definition g_xe : list Q := [-(10 # 100); -(6 # 100); -(2 # 100); 2 # 100; 6 # 100; 10 # 100]%Q.
Definition g_ye : list Q := [-(5 # 100); -(3 # 100); -(1 # 100); 1 # 100; 3 # 100; 5 # 100; 7 # 100]%Q.
Definition g_outs : res (list outfile) :=
  proc_each_grid (fun l => l) (fun _ => 0) ex_clip ex_tree ex_quad g_xe g_ye g_te true true 7 None (pad_slice 1) (pad_slice 1) true ex_scenes
    (fun _ => ex_time) (fun _ => ex_time) [g_file].
Definition field_of (name : string) (f : outfile) : list (list fval) :=
  match find (fun nr => String.eqb (fst nr) name) (of_fields f) with Some nr => map (map (option_map Qred)) (snd nr) | None => [] end.
Example C60_ex : exists f0 f1, g_outs = Ok [f0; f1] /\ let N := @None Q in
  field_of "flash_extent_density" f0 = [[N; N; N]; [N; Some (1 # 2); N]; [N; Some (1 # 2); Some (1 # 2)]; [N; N; N]] /\
  field_of "average_group_area" f0 = [[N; N; N]; [N; Some (2 # 1); N]; [N; Some (2 # 1); Some (2 # 1)]; [N; N; N]] /\
  field_of "flash_centroid_density" f0 = [[N; N; N]; [N; N; N]; [N; N; Some (1 # 1)]; [N; N; N]] /\
  field_of "flash_centroid_density" f1 = [[N; N; N]; [N; Some (1 # 1); N]; [N; N; N]; [N; N; N]] /\
  field_of "total_energy" f1 = [[N; N; N]; [N; N; N]; [N; N; N]; [N; N; N]].
Proof. do 2 eexists. split; [vm_compute; reflexivity|]. vm_compute. repeat split. Qed.
Example C60_hypotheses : ascending g_xe /\ ascending g_ye /\ List.length g_xe = S (3 + 2 * 1) /\ List.length g_ye = S (4 + 2 * 1) /\
  (exists f, In f [g_file] /\ has_events f = true) /\
  exists g, grid_files (fun l => l) (fun _ => 0) ex_clip ex_tree ex_quad g_xe g_ye 7 (map f_ds [g_file]) None = Ok g.
Proof.
  assert (A : forall l, forallb (fun i => forallb (fun j => if Nat.ltb i j then Qlt_bool (nth i l 0%Q) (nth j l 0%Q) else true) (seq 0 (List.length l))) (seq 0 (List.length l)) = true -> ascending l).
  { intros l H i j Hij. rewrite forallb_forall in H. specialize (H i ltac:(apply in_seq; lia)). rewrite forallb_forall in H. specialize (H j ltac:(apply in_seq; lia)).
    destruct (Nat.ltb_spec i j); [|lia]. unfold Qlt_bool in H. destruct (Qlt_le_dec (nth i l 0%Q) (nth j l 0%Q)) as [|K]; auto. apply Qle_bool_iff in K. rewrite K in H. discriminate. }
  split; [apply A; reflexivity|]. split; [apply A; reflexivity|]. split; [reflexivity|]. split; [reflexivity|]. split; [exists g_file; split; [left; reflexivity|reflexivity]|].
  eexists. vm_compute. reflexivity.
Qed.
