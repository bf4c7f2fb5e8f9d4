(** Property C119: what a written image adds up to. *)
From Coq Require Import List ZArith QArith Qabs Bool String Lia Lqa Permutation.
From Verif Require Import Base BaseProofs Traversal TraversalSpec Glm GlmSpec GlmProofs2 GlmProofs3 PropGlm Lut LutSpec LutProofs Accum AccumSpec AccumProofs Poly PolySpec PropPoly BBox BBoxSpec
  Slice SliceSpec PropSlice Regroup RegroupSpec Pipeline PipelineSpec PipelineProofs PropPipeline ChunkSpec ChunkProofs PropChunks FileName Imagery ImagerySpec ImageryProofs PropImagery
  Gridder GridderSpec GridderProofs PropGridder.
Import ListNotations.
Open Scope Q_scope.
Local Notation tbl := (table obs).

(** [total] is the sum of all pixels of the named field, a missing pixel counting as zero. *)
Definition image_sum (f : outfile) (name : string) (total : Q) : Prop :=
  exists rows, In (name, rows) (of_fields f) /\ total == qsum (map (fun row => qsum (map num row)) rows).
(** The cells inside the padding, counted from the first of them. *)
Definition image_cells (mx my : nat) : list (nat * nat) := list_prod (seq 0 mx) (seq 0 my).
(** Coordinate [v] lies inside the padding; without padding the end of the axis belongs to
    the image. *)
Definition in_image (edges : list Q) (pad n : nat) (v : fval) : bool :=
  match v with
  | Some v => (Qle_bool (nth pad edges 0) v &&
      (negb (Qle_bool (nth (pad + n) edges 0) v) || (Nat.eqb pad 0 && Qeq_bool v (nth n edges 0))))%bool
  | None => false
  end.
(** The rows of a table located inside the padding at times in frame [t]. *)
Definition in_view (xe ye te : list Q) (pad mx my t : nat) (times : Z -> Q) (rows : tbl) : tbl :=
  filter (fun r => (in_image xe pad mx (o_x (rdat r)) && in_image ye pad my (o_y (rdat r)) && duringb te t (times (rid r)))%bool) rows.

(** * Sums *)
Lemma sum_shift : forall (f : nat -> Q) n k, qsum (map f (seq (S k) n)) = qsum (map (fun i => f (S i)) (seq k n)).
Proof. intros f n. induction n as [|n IH]; intros k; [reflexivity|]. cbn [seq map]. unfold qsum in *. cbn [fold_right]. rewrite IH. reflexivity. Qed.
Lemma list_near : forall A (f : A -> Q) l (V B : nat -> Q), (forall i a, nth_error l i = Some a -> Qabs (f a - V i) <= B i) ->
  Qabs (qsum (map f l) - qsum (map V (seq 0 (List.length l)))) <= qsum (map B (seq 0 (List.length l))).
Proof.
  induction l as [|a l IH]; intros V B H; [unfold Qle; cbn; lia|]. cbn [List.length seq map].
  change (qsum (f a :: map f l)) with (f a + qsum (map f l)). change (qsum (V 0%nat :: ?l)) with (V 0%nat + qsum l). change (qsum (B 0%nat :: ?l)) with (B 0%nat + qsum l). rewrite !sum_shift.
  specialize (IH (fun i => V (S i)) (fun i => B (S i)) (fun i b E => H (S i) b E)). pose proof (H 0%nat a eq_refl) as H0. cbv beta in IH.
  set (x := qsum (map f l)) in *. set (y := qsum (map (fun i => V (S i)) _)) in *. set (z := qsum (map (fun i => B (S i)) _)) in *. clearbody x y z.
  apply Qabs_Qle_condition in IH, H0. apply Qabs_Qle_condition. destruct IH, H0. split; lra.
Qed.
Lemma rows_near : forall rows h w (V B : nat -> nat -> Q), List.length rows = h -> Forall (fun row : list fval => List.length row = w) rows ->
  (forall r c row v, nth_error rows r = Some row -> nth_error row c = Some v -> Qabs (num v - V r c) <= B r c) ->
  Qabs (qsum (map (fun row => qsum (map num row)) rows) - qsum (map (fun r => qsum (map (V r) (seq 0 w))) (seq 0 h)))
    <= qsum (map (fun r => qsum (map (B r) (seq 0 w))) (seq 0 h)).
Proof.
  intros rows h w V B <- F H. apply (list_near _ (fun row => qsum (map num row)) rows (fun r => qsum (map (V r) (seq 0 w))) (fun r => qsum (map (B r) (seq 0 w)))).
  intros r row E. rewrite Forall_forall in F. rewrite <- (F row (nth_error_In _ _ E)). apply (list_near _ num row (V r) (B r)). intros c v Ev. eapply H; eauto.
Qed.
Lemma prod_sum : forall A B (f : A * B -> Q) la lb, qsum (map f (list_prod la lb)) == qsum (map (fun a => qsum (map (fun b => f (a, b)) lb)) la).
Proof.
  intros A B f la lb. induction la as [|a la IH]; [reflexivity|]. cbn [list_prod map]. rewrite map_app, qsum_app, map_map, IH. reflexivity.
Qed.
Lemma upside_down : forall n, map (fun r => n - 1 - r)%nat (seq 0 n) = rev (seq 0 n).
Proof.
  intros n. apply (nth_ext _ _ 0%nat 0%nat); [rewrite map_length, rev_length; reflexivity|]. intros k Hk. rewrite map_length, seq_length in Hk.
  rewrite rev_nth by (rewrite seq_length; exact Hk). rewrite seq_length, seq_nth by lia.
  rewrite (nth_indep _ 0%nat ((fun r => n - 1 - r) 0)%nat) by (rewrite map_length, seq_length; exact Hk). rewrite (map_nth (fun r => n - 1 - r)%nat), seq_nth by lia. lia.
Qed.
(** Rows from the top and columns from the left, or cells. *)
Lemma image_order : forall (f : nat * nat -> Q) mx my,
  qsum (map (fun r => qsum (map (fun c => f (c, (my - 1 - r)%nat)) (seq 0 mx))) (seq 0 my)) == qsum (map f (image_cells mx my)).
Proof.
  intros f mx my. unfold image_cells. rewrite prod_sum, (qsum_swap _ _ (fun a b => f (a, b))).
  rewrite <- (map_map (fun r => my - 1 - r)%nat (fun b => qsum (map (fun c => f (c, b)) (seq 0 mx)))). rewrite upside_down.
  apply qsum_perm, Permutation_map, Permutation_sym, Permutation_rev.
Qed.
Lemma lit_sum : forall A (b : A -> bool) s l, qsum (map (fun k => if b k then s else 0) l) == s * qnat (List.length (filter b l)).
Proof.
  intros A b s. induction l as [|k l IH]; [cbn; unfold qnat; cbn; ring|]. cbn [map filter]. change (qsum (?x :: ?r)) with (x + qsum r). rewrite IH.
  destruct (b k); cbn [List.length]; [|ring]. unfold qnat. rewrite Nat2Z.inj_succ. unfold Z.succ. rewrite inject_Z_plus. change (inject_Z 1) with 1. ring.
Qed.

(** * Images *)
Lemma same_rows : forall (f : outfile) name (rows rows' : list (list fval)), map fst (of_fields f) = lut_names -> In (name, rows) (of_fields f) -> In (name, rows') (of_fields f) -> rows = rows'.
Proof.
  intros f name rows rows' N A B. assert (ND : NoDup (map fst (of_fields f))). { rewrite N. unfold lut_names. repeat constructor; cbn; intuition discriminate. }
  revert ND A B. clear N. generalize (of_fields f). intros l. induction l as [|[a b] l IH]; cbn [map In fst]; intros ND A B; [tauto|]. inversion ND; subst.
  destruct A as [A|A], B as [B|B]; try congruence; [inversion A; subst; exfalso; apply H1; change name with (fst (name, rows')); apply in_map, B|inversion B; subst; exfalso; apply H1; change name with (fst (name, rows)); apply in_map, A|auto].
Qed.
(** Pixels near given values make a sum near the sum of the values. *)
Lemma image_near : forall f name mx my (V B : nat * nat -> Q), map fst (of_fields f) = lut_names -> In name lut_names -> rectangular f my mx ->
  (forall r c, (r < my)%nat -> (c < mx)%nat -> exists w, pixel_named f name r c w /\ Qabs (num w - V (c, (my - 1 - r)%nat)) <= B (c, (my - 1 - r)%nat)) ->
  exists total, image_sum f name total /\ Qabs (total - qsum (map V (image_cells mx my))) <= qsum (map B (image_cells mx my)).
Proof.
  intros f name mx my V B N I R H. assert (E : exists rows, In (name, rows) (of_fields f)).
  { rewrite <- N in I. apply in_map_iff in I. destruct I as ([a rows] & E & I). cbn in E. subst a. exists rows. exact I. }
  destruct E as (rows & E). unfold rectangular in R. rewrite Forall_forall in R. destruct (R _ E) as [L1 L2]. cbn [snd] in L1, L2.
  eexists. split; [exists rows; split; [exact E|reflexivity]|]. rewrite <- (image_order V), <- (image_order B).
  apply (rows_near rows my mx (fun r c => V (c, (my - 1 - r)%nat)) (fun r c => B (c, (my - 1 - r)%nat)) L1 L2).
  intros r c row v E1 E2. assert (Hr : (r < my)%nat) by (rewrite <- L1; apply nth_error_Some; congruence).
  assert (Hc : (c < mx)%nat). { rewrite Forall_forall in L2. rewrite <- (L2 row (nth_error_In _ _ E1)). apply nth_error_Some. congruence. }
  destruct (H r c Hr Hc) as (w & (rows' & row' & I' & R' & C') & P). pose proof (same_rows _ _ _ _ N E I'). subst rows'. rewrite R' in E1. inversion E1; subst. rewrite C' in E2. inversion E2; subst. exact P.
Qed.
Lemma run_images : forall set_order weird clip tree quad xe ye te chunk_size q pad scaled sc stamp nows files mx my outs,
  ascending xe -> ascending ye -> List.length xe = S (mx + 2 * pad) -> List.length ye = S (my + 2 * pad) -> (exists f, In f files /\ has_events f = true) ->
  proc_each_grid set_order weird clip tree quad xe ye te true true chunk_size q (pad_slice (Z.of_nat pad)) (pad_slice (Z.of_nat pad)) scaled sc stamp nows files = Ok outs ->
  forall t out, nth_error outs t = Some out -> map fst (of_fields out) = lut_names /\ rectangular out my mx.
Proof.
  intros so weird clip tree quad xe ye te cs q pad scaled sc stamp nows files mx my outs AX AY LX LY (f0 & Hf0 & HE) H.
  unfold proc_each_grid in H. cbn [negb] in H. apply bind_ok_inv in H. destruct H as ([arrays p] & EP & H). cbn [fst snd] in H.
  destruct (C48_products _ _ _ _ _ _ _ _ _ _ _ _ _ EP) as (LA & SH & PRD). destruct (process_inv _ _ _ _ _ _ _ _ _ _ _ _ _ EP) as (_ & _ & _ & EPL).
  destruct (find has_events files) as [f1|] eqn:EF; [|rewrite (find_none _ _ EF f0 Hf0) in HE; discriminate]. cbn [option_map] in EPL. subst p.
  set (gd := mkGridder xe ye te lut_names lut_divide (f_platform f1)) in *.
  apply bind_ok_inv in H. destruct H as ([after files'] & EW & H). cbn [snd] in H. inversion H; subst files'. clear H.
  assert (W : writes gd pad scaled mx my arrays after outs).
  { unfold writes. cbn [gd gd_xedge gd_yedge gd_tedges gd_names gd_divide]. repeat (split; [assumption|]).
    replace (mx + 2 * pad)%nat with (List.length xe - 1)%nat by lia. replace (my + 2 * pad)%nat with (List.length ye - 1)%nat by lia.
    split; [exact SH|]. split; [auto|]. split; [exact lut_simple|]. exists sc, stamp, nows. exact EW. }
  destruct (C37_pixels_at_their_coordinates _ _ _ _ _ _ _ _ W) as (_ & PX). intros t out Hout. destruct (PX t out Hout) as (NM & RC & _). auto.
Qed.

(** The image of the energy or of an extent density: without scaling it adds up to what the
    cells add up to; with scaling it does so up to one stored step for every cell that has
    any.  Values are at most the largest that can be stored (see C39). *)
Theorem C119_sums : forall set_order weird clip tree quad xe ye te chunk_size q pad (scaled : bool) sc stamp nows files mx my outs,
  ascending xe -> ascending ye -> List.length xe = S (mx + 2 * pad) -> List.length ye = S (my + 2 * pad) -> (exists f, In f files /\ has_events f = true) ->
  proc_each_grid set_order weird clip tree quad xe ye te true true chunk_size q (pad_slice (Z.of_nat pad)) (pad_slice (Z.of_nat pad)) scaled sc stamp nows files = Ok outs ->
  forall t out, nth_error outs t = Some out ->
  exists g, grid_files set_order weird clip tree quad xe ye chunk_size (files_during te t files) q = Ok g /\
  forall name h s, In (name, h, s) [("total_energy", gr_energy, 152597 # 100000000000); ("flash_extent_density", gr_fcount, 1 # 16); ("group_extent_density", gr_gcount, 1 # 4)]%string ->
  let value k := num (g_at (h g) (Z.of_nat (pad + fst k)) (Z.of_nat (pad + snd k))) in
  (forall k, In k (image_cells mx my) -> 0 <= value k /\ (scaled = true -> value k <= 65535 * s)) ->
  exists total, image_sum out name total /\
    if scaled then Qabs (total - qsum (map value (image_cells mx my))) <= s * qnat (List.length (filter (fun k => Qlt_bool 0 (value k)) (image_cells mx my)))
    else total == qsum (map value (image_cells mx my)).
Proof.
  intros so weird clip tree quad xe ye te cs q pad scaled sc stamp nows files mx my outs AX AY LX LY HE H t out Hout.
  destruct (run_images so weird clip tree quad xe ye te cs q pad scaled sc stamp nows files mx my outs AX AY LX LY HE H t out Hout) as [NM RC].
  destruct (C60_written_products_partial so weird clip tree quad xe ye te cs q pad scaled sc stamp nows files mx my outs AX AY LX LY HE H) as [_ PR].
  destruct (PR t out Hout) as (_ & _ & _ & g & EG & PP). exists g. split; [exact EG|]. intros name h s I value RG.
  assert (IN : In name lut_names /\ step name = Some s /\ 0 < s /\ In (name, h) [("total_energy", gr_energy); ("flash_extent_density", gr_fcount); ("group_extent_density", gr_gcount); ("minimum_flash_area", gr_minarea)]%string).
  { cbn [In] in I. destruct I as [E|[E|[E|[]]]]; inversion E; subst; cbn; intuition. }
  destruct IN as (I1 & ST & SP & I2). destruct (image_near out name mx my value (fun k => if Qlt_bool 0 (value k) then (if scaled then s else 0) else 0) NM I1 RC) as (total & IS & D).
  { intros r c Hr Hc. destruct (PP r c Hr Hc) as (_ & _ & ON & _). destruct (ON name h I2) as (w & P & S). exists w. split; [exact P|].
    destruct (RG (c, (my - 1 - r)%nat)) as [R0 R1]; [apply in_prod; apply in_seq; lia|]. cbn [fst snd] in R0, R1. unfold value in *. cbn [fst snd] in *. clear ON PP.
    set (v := g_at (h g) (Z.of_nat (pad + c)) (Z.of_nat (pad + (my - 1 - r)))) in *. clearbody v.
    destruct v as [v|]; cbn [num same_value] in *; [|subst w; cbn [num]; unfold Qle; cbn; lia].
    destruct S as [S0 S]. destruct (Qlt_bool 0 v) eqn:LV.
    2:{ assert (V0 : v == 0). { destruct (Qlt_le_dec 0 v) as [L|L]; [apply Qlt_bool_iff in L; congruence|lra]. } rewrite (S0 V0), V0. cbn [num]. unfold Qle; cbn; lia. }
    apply Qlt_bool_iff in LV. specialize (S LV). destruct scaled.
    - rewrite ST in S. destruct (S (R1 eq_refl)) as (u & -> & u1 & u2 & _). cbn [num]. apply Qabs_Qle_condition. destruct (Qlt_le_dec v s) as [L|L].
      + rewrite u1 by lra. split; lra.
      + specialize (u2 L). apply Qabs_Qle_condition in u2. assert (s / 2 <= s) by (apply Qle_shift_div_r; lra). destruct u2. split; lra.
    - destruct S as (u & -> & E). cbn [num]. rewrite E. apply Qabs_Qle_condition. split; lra. }
  exists total. split; [exact IS|]. rewrite lit_sum in D. destruct scaled; [exact D|].
  apply Qabs_Qle_condition in D. destruct D. rewrite Qmult_0_l in *. lra.
Qed.
Print Assumptions C119_sums.

(** * Energy *)
Lemma accumulate_dims : forall batches g g', accumulate g batches = Ok g' -> g_n0 g' = g_n0 g /\ g_n1 g' = g_n1 g.
Proof.
  induction batches as [|b batches IH]; intros g g' H; cbn in H; [inversion H; auto|]. apply bind_ok_inv in H. destruct H as (g1 & E & H).
  destruct (add_batch_cell _ _ _ E) as (A & B & _). destruct (IH _ _ H) as [C D]. split; congruence.
Qed.
Lemma energy_dims : forall so weird clip tree quad xe ye cs files q g, grid_files so weird clip tree quad xe ye cs files q = Ok g ->
  g_n0 (gr_energy g) = (Z.of_nat (List.length xe) - 1)%Z /\ g_n1 (gr_energy g) = (Z.of_nat (List.length ye) - 1)%Z.
Proof.
  intros so weird clip tree quad xe ye cs files q g H. unfold grid_files in H. apply bind_ok_inv in H. destruct H as (bs & _ & H). unfold make_grids in H.
  apply bind_ok_inv in H. destruct H as (e & E & H). do 5 (apply bind_ok_inv in H; destruct H as (? & _ & H)). inversion H; subst. cbn [gr_energy]. exact (accumulate_dims _ _ _ E).
Qed.
Lemma grid_cells : forall g mx my, g_n0 g = Z.of_nat mx -> g_n1 g = Z.of_nat my ->
  grid_total g == qsum (map (fun k => num (g_at g (Z.of_nat (fst k)) (Z.of_nat (snd k)))) (image_cells mx my)).
Proof. intros g mx my A B. unfold grid_total, image_cells. rewrite A, B, !Nat2Z.id, prod_sum. reflexivity. Qed.

(** Without padding and with every pixel polygon covered by cells, the image of the energy
    shows the energy of the events of the selected flashes in the files of the frame. *)
Theorem C119_energy : forall set_order, (forall l, Permutation (set_order l) l) ->
  forall weird clip tree quad xe ye te chunk_size q (scaled : bool) sc stamp nows files mx my outs,
  ascending xe -> ascending ye -> (0 < mx)%nat -> (0 < my)%nat -> List.length xe = S mx -> List.length ye = S my -> proper clip -> (exists f, In f files /\ has_events f = true) ->
  (0 < chunk_size)%nat -> (forall q', q = Some q' -> q_check q' = true) -> Forall (fun f => usable (f_ds f)) files ->
  proc_each_grid set_order weird clip tree quad xe ye te true true chunk_size q (pad_slice 0) (pad_slice 0) scaled sc stamp nows files = Ok outs ->
  forall t out, nth_error outs t = Some out ->
  exists g tables es, grid_files set_order weird clip tree quad xe ye chunk_size (files_during te t files) q = Ok g /\
  tables_read set_order weird chunk_size q (files_during te t files) tables /\ Forall2 (observed set_order q) (files_during te t files) es /\
  let value k := num (g_at (gr_energy g) (Z.of_nat (fst k)) (Z.of_nat (snd k))) in
  ((forall r, In r (List.concat tables) ->
      let p := quad (lu_x r) (lu_y r) in ~ size p == 0 /\ covered p (cut clip (regular_xy xe ye) p (nearby tree (regular_xy xe ye) p))) ->
   (forall k, In k (image_cells mx my) -> 0 <= value k /\ (scaled = true -> value k <= 65535 * (152597 # 100000000000))) ->
   exists total, image_sum out "total_energy" total /\
     if scaled then Qabs (total - qsum es) <= (152597 # 100000000000) * qnat (List.length (filter (fun k => Qlt_bool 0 (value k)) (image_cells mx my)))
     else total == qsum es).
Proof.
  intros so PS weird clip tree quad xe ye te cs q scaled sc stamp nows files mx my outs AX AY MX MY LX LY PR HE HC HQ HU H t out Hout.
  destruct (C119_sums so weird clip tree quad xe ye te cs q 0 scaled sc stamp nows files mx my outs AX AY ltac:(lia) ltac:(lia) HE H t out Hout) as (g & EG & SM).
  assert (US : Forall usable (files_during te t files)).
  { unfold files_during. rewrite Forall_forall in *. intros ds I. apply in_map_iff in I. destruct I as (f & <- & I). apply filter_In in I. apply HU, I. }
  assert (IX : increasing xe) by (intros i j Hij; apply AX; exact Hij). assert (IY : increasing ye) by (intros i j Hij; apply AY; exact Hij).
  destruct (C36_observed_energy so PS weird clip tree quad xe ye cs (files_during te t files) q g) as (tables & es & TR & OB & TOT); auto; try lia.
  exists g, tables, es. split; [exact EG|]. split; [exact TR|]. split; [exact OB|]. intros value COV RG.
  destruct (SM "total_energy"%string gr_energy (152597 # 100000000000) ltac:(left; reflexivity) RG) as (total & IS & D). exists total. split; [exact IS|].
  cbn [plus] in D. fold value in D.
  assert (GT : grid_total (gr_energy g) == qsum (map value (image_cells mx my))).
  { destruct (energy_dims _ _ _ _ _ _ _ _ _ _ _ EG) as [D0 D1]. apply grid_cells; [rewrite D0|rewrite D1]; lia. }
  assert (ES : qsum (map value (image_cells mx my)) == qsum es) by (rewrite <- GT; apply TOT, COV).
  destruct scaled; [rewrite <- ES|rewrite D, ES; reflexivity]. exact D.
Qed.
Print Assumptions C119_energy.

(** * Counts *)
Definition b2n (b : bool) : nat := if b then 1%nat else 0%nat.
Lemma nsum_plus : forall A (f g : A -> nat) l, list_sum (map (fun a => f a + g a)%nat l) = (list_sum (map f l) + list_sum (map g l))%nat.
Proof. induction l as [|a l IH]; [reflexivity|]. cbn [map]. change (list_sum (?x :: ?r)) with (x + list_sum r)%nat. lia. Qed.
Lemma nsum_zero : forall A (l : list A), list_sum (map (fun _ => 0%nat) l) = 0%nat.
Proof. induction l; auto. Qed.
Lemma nsum_swap : forall A B (f : A -> B -> nat) la lb, list_sum (map (fun a => list_sum (map (f a) lb)) la) = list_sum (map (fun b => list_sum (map (fun a => f a b) la)) lb).
Proof.
  intros A B f la lb. induction la as [|a la IH]; [symmetry; apply nsum_zero|]. cbn [map]. change (list_sum (?x :: ?r)) with (x + list_sum r)%nat. rewrite IH, <- nsum_plus. reflexivity.
Qed.
Lemma nsum_scale : forall A (f : A -> nat) k l, list_sum (map (fun a => k * f a)%nat l) = (k * list_sum (map f l))%nat.
Proof. intros A f k. induction l as [|a l IH]; [cbn; lia|]. cbn [map]. change (list_sum (?x :: ?r)) with (x + list_sum r)%nat. rewrite IH. lia. Qed.
Lemma nsum_prod : forall A B (f : A * B -> nat) la lb, list_sum (map f (list_prod la lb)) = list_sum (map (fun a => list_sum (map (fun b => f (a, b)) lb)) la).
Proof. intros A B f la lb. induction la as [|a la IH]; [reflexivity|]. cbn [list_prod map]. rewrite map_app, list_sum_app, map_map, IH. reflexivity. Qed.
Lemma filter_sum : forall A (b : A -> bool) l, List.length (filter b l) = list_sum (map (fun a => b2n (b a)) l).
Proof. intros A b. induction l as [|a l IH]; [reflexivity|]. cbn [filter map]. change (list_sum (?x :: ?r)) with (x + list_sum r)%nat. destruct (b a); cbn [List.length b2n]; lia. Qed.
Lemma nsum_ext : forall A (f g : A -> nat) l, (forall a, In a l -> f a = g a) -> list_sum (map f l) = list_sum (map g l).
Proof. intros A f g l H. f_equal. apply map_ext_in, H. Qed.
(** A position is in at most one cell of an axis, and in one exactly if it is in the image. *)
Lemma one_cell : forall e pad n v, ascending e -> (0 < n)%nat -> List.length e = S (n + 2 * pad) ->
  list_sum (map (fun k => b2n (inside_cell e (pad + k) v)) (seq 0 n)) = b2n (in_image e pad n v).
Proof.
  intros e pad n [v|] A N L; [|apply nsum_zero]. unfold in_image. set (ge := fun k => Qle_bool (nth k e 0) v).
  assert (ANTI : forall i j, (i < j < List.length e)%nat -> ge j = true -> ge i = true).
  { intros i j Hij G. unfold ge in *. apply Qle_bool_iff in G. apply Qle_bool_iff. pose proof (A i j Hij). lra. }
  assert (P : forall m, (pad + m < List.length e - 1)%nat -> list_sum (map (fun k => b2n (inside_cell e (pad + k) (Some v))) (seq 0 m)) = b2n (ge pad && negb (ge (pad + m)%nat))).
  { induction m as [|m IH]; intros M; [cbn; rewrite Nat.add_0_r; destruct (ge pad); reflexivity|]. rewrite seq_S, map_app, list_sum_app, IH by lia. cbn [plus map]. cbn [list_sum fold_right].
    unfold inside_cell. destruct (Nat.eqb_spec (pad + m) (List.length e - 2)) as [K|K]; [lia|]. cbn [andb]. rewrite orb_false_r. fold (ge (pad + m)%nat). replace (S (pad + m)) with (pad + S m)%nat by lia. fold (ge (pad + S m)%nat).
    pose proof (ANTI (pad + m)%nat (pad + S m)%nat ltac:(lia)) as A1. destruct (Nat.eq_dec m 0) as [->|M0].
    - rewrite Nat.add_0_r in *. destruct (ge pad), (ge (pad + 1)%nat); cbn in *; auto.
    - pose proof (ANTI pad (pad + m)%nat ltac:(lia)) as A2. destruct (ge pad), (ge (pad + m)%nat), (ge (pad + S m)%nat); cbn in *; auto; try (specialize (A1 eq_refl); discriminate); specialize (A2 eq_refl); discriminate. }
  fold (ge pad). fold (ge (pad + n)%nat). destruct (Nat.eqb_spec pad 0) as [->|NZ].
  - cbn [plus andb]. destruct n as [|n]; [lia|]. rewrite seq_S, map_app, list_sum_app. cbn [map plus list_sum fold_right]. specialize (P n ltac:(lia)). cbn [plus] in P. rewrite P.
    unfold inside_cell. destruct (Nat.eqb_spec n (List.length e - 2)) as [K|K]; [|lia]. cbn [andb]. fold (ge n). fold (ge (S n)).
    assert (EQ : Qeq_bool v (nth (S n) e 0) = true -> ge (S n) = true). { intros Q. apply Qeq_bool_iff in Q. apply Qle_bool_iff. lra. }
    pose proof (ANTI n (S n) ltac:(lia)) as A1. destruct (Nat.eq_dec n 0) as [->|M0].
    + destruct (ge 0%nat), (ge 1%nat), (Qeq_bool v (nth 1 e 0)); cbn in *; auto; try (specialize (A1 eq_refl); discriminate).
    + pose proof (ANTI 0%nat n ltac:(lia)) as A2. destruct (ge 0%nat), (ge n), (ge (S n)), (Qeq_bool v (nth (S n) e 0)); cbn in *; auto; try (specialize (A1 eq_refl); discriminate); try (specialize (A2 eq_refl); discriminate).
  - cbn [andb]. rewrite orb_false_r. apply P. lia.
Qed.
Lemma view_sum : forall xe ye te pad mx my t times rows, ascending xe -> ascending ye -> (0 < mx)%nat -> (0 < my)%nat ->
  List.length xe = S (mx + 2 * pad) -> List.length ye = S (my + 2 * pad) ->
  list_sum (map (fun k => located xe ye te (pad + fst k) (pad + snd k) t times rows) (image_cells mx my)) = List.length (in_view xe ye te pad mx my t times rows).
Proof.
  intros xe ye te pad mx my t times rows AX AY MX MY LX LY. unfold located, in_view. rewrite filter_sum.
  rewrite (nsum_ext _ _ (fun k => list_sum (map (fun r => b2n (inside_cell xe (pad + fst k) (o_x (rdat r)) && inside_cell ye (pad + snd k) (o_y (rdat r)) && duringb te t (times (rid r)))) rows))) by (intros; apply filter_sum).
  rewrite nsum_swap. apply nsum_ext. intros r _. unfold image_cells. rewrite nsum_prod. cbn [fst snd].
  assert (E : forall a b c, b2n (a && b && c) = (b2n c * b2n a * b2n b)%nat) by (intros [] [] []; reflexivity).
  rewrite (nsum_ext _ _ (fun kx => b2n (in_image ye pad my (o_y (rdat r))) * (b2n (duringb te t (times (rid r))) * b2n (inside_cell xe (pad + kx) (o_x (rdat r)))))%nat).
  2:{ intros kx _. rewrite (nsum_ext _ _ (fun ky => (b2n (duringb te t (times (rid r))) * b2n (inside_cell xe (pad + kx) (o_x (rdat r)))) * b2n (inside_cell ye (pad + ky) (o_y (rdat r))))%nat) by (intros; apply E).
      rewrite nsum_scale, (one_cell ye pad my _ AY MY LY). lia. }
  rewrite !nsum_scale, (one_cell xe pad mx _ AX MX LX), E. lia.
Qed.
Lemma qnat_sum : forall A (f : A -> nat) l, qsum (map (fun a => qnat (f a)) l) == qnat (list_sum (map f l)).
Proof.
  intros A f. induction l as [|a l IH]; [reflexivity|]. cbn [map]. change (qsum (?x :: ?r)) with (x + qsum r). change (list_sum (?x :: ?r)) with (x + list_sum r)%nat. rewrite IH. unfold qnat. rewrite Nat2Z.inj_add, inject_Z_plus. reflexivity.
Qed.

(** The images of the flash and group positions add up to the number of selected flashes and
    groups that are located in the image and occurred in the frame, with and without scaling,
    if no cell has more than 65535 (see C39). *)
Theorem C119_counts : forall set_order, (forall l, Permutation (set_order l) l) ->
  forall weird clip tree quad xe ye te chunk_size q pad scaled sc stamp nows files mx my outs,
  ascending xe -> ascending ye -> (0 < mx)%nat -> (0 < my)%nat -> List.length xe = S (mx + 2 * pad) -> List.length ye = S (my + 2 * pad) -> (exists f, In f files /\ has_events f = true) ->
  (0 < chunk_size)%nat -> (forall q', q = Some q' -> q_check q' = true) -> Forall (fun f => usable (f_ds f)) files ->
  proc_each_grid set_order weird clip tree quad xe ye te true true chunk_size q (pad_slice (Z.of_nat pad)) (pad_slice (Z.of_nat pad)) scaled sc stamp nows files = Ok outs ->
  exists sel, Forall2 (chosen set_order q) files sel /\
  forall t out, nth_error outs t = Some out ->
  let flashes := flat_map (fun fs => in_view xe ye te pad mx my t (f_fstart (fst fs)) (fst (snd fs))) (combine files sel) in
  let groups := flat_map (fun fs => in_view xe ye te pad mx my t (f_gtime (fst fs)) (snd (snd fs))) (combine files sel) in
  let in_cell (times : glmfile -> Z -> Q) (table_of : tbl * tbl -> tbl) k :=
    Z.of_nat (list_sum (map (fun fs => located xe ye te (pad + fst k) (pad + snd k) t (times (fst fs)) (table_of (snd fs))) (combine files sel))) in
  ((forall k, In k (image_cells mx my) -> in_cell f_fstart fst k <= 65535)%Z -> image_sum out "flash_centroid_density" (qnat (List.length flashes))) /\
  ((forall k, In k (image_cells mx my) -> in_cell f_gtime snd k <= 65535)%Z -> image_sum out "group_centroid_density" (qnat (List.length groups))).
Proof.
  intros so PS weird clip tree quad xe ye te cs q pad scaled sc stamp nows files mx my outs AX AY MX MY LX LY HE HC HQ HU H.
  destruct (C60_written_counts so PS weird clip tree quad xe ye te cs q pad scaled sc stamp nows files mx my outs AX AY LX LY HE HC HQ HU H) as (sel & FS & CT).
  exists sel. split; [exact FS|]. intros t out Hout.
  destruct (run_images so weird clip tree quad xe ye te cs q pad scaled sc stamp nows files mx my outs AX AY LX LY HE H t out Hout) as [NM RC].
  assert (LEN : forall A B (f : A -> list B) l, List.length (flat_map f l) = list_sum (map (fun a => List.length (f a)) l)).
  { intros A B f l. induction l as [|a l IH]; [reflexivity|]. cbn [flat_map map]. rewrite app_length, IH. reflexivity. }
  assert (ALL : forall name (tm : glmfile -> Z -> Q) (tb : tbl * tbl -> tbl), In name lut_names ->
     (forall r c, (r < my)%nat -> (c < mx)%nat -> exists w, pixel_named out name r c w /\
        counted (list_sum (map (fun fs => located xe ye te (pad + c) (pad + (my - 1 - r)) t (tm (fst fs)) (tb (snd fs))) (combine files sel))) w) ->
     let rows := flat_map (fun fs => in_view xe ye te pad mx my t (tm (fst fs)) (tb (snd fs))) (combine files sel) in
     (forall k, In k (image_cells mx my) -> Z.of_nat (list_sum (map (fun fs => located xe ye te (pad + fst k) (pad + snd k) t (tm (fst fs)) (tb (snd fs))) (combine files sel))) <= 65535)%Z ->
     image_sum out name (qnat (List.length rows))).
  { intros name tm tb IN PX rows SMALL. set (N := fun k : nat * nat => list_sum (map (fun fs => located xe ye te (pad + fst k) (pad + snd k) t (tm (fst fs)) (tb (snd fs))) (combine files sel))).
    assert (TOT : list_sum (map N (image_cells mx my)) = List.length rows).
    { unfold N, rows. rewrite nsum_swap, LEN. apply nsum_ext. intros fs _. apply view_sum; auto. }
    destruct (image_near out name mx my (fun k => qnat (N k)) (fun _ => 0) NM IN RC) as (total & (rw & I & ER) & D).
    { intros r c Hr Hc. destruct (PX r c Hr Hc) as (w & P & C0 & C1). exists w. split; [exact P|]. assert (IK : In (c, (my - 1 - r)%nat) (image_cells mx my)) by (apply in_prod; apply in_seq; lia).
      specialize (SMALL _ IK). clear TOT. unfold N in *. cbn [fst snd] in *.
      set (n := list_sum (map (fun fs => located xe ye te (pad + c) (pad + (my - 1 - r)) t (tm (fst fs)) (tb (snd fs))) (combine files sel))) in *. clearbody n. destruct (Nat.eq_dec n 0) as [Z|Z].
      - rewrite (C0 Z), Z. unfold Qle; cbn; lia.
      - destruct (C1 ltac:(lia)) as (u & -> & E). cbn [num]. rewrite E. apply Qabs_Qle_condition. split; lra. }
    rewrite qnat_sum, TOT in D. exists rw. split; [exact I|]. rewrite <- ER.
    assert (Z : qsum (map (fun _ : nat * nat => 0) (image_cells mx my)) == 0) by (clear; induction (image_cells mx my) as [|a l IH]; [reflexivity|cbn [map]; change (qsum (?x :: ?r)) with (x + qsum r); rewrite IH; ring]).
    rewrite Z in D. apply Qabs_Qle_condition in D. destruct D. lra. }
  cbv zeta. split.
  - apply (ALL "flash_centroid_density"%string f_fstart fst); [cbn; tauto|]. intros r c Hr Hc. destruct (CT t out r c Hout Hr Hc) as (_ & _ & A & _). exact A.
  - apply (ALL "group_centroid_density"%string f_gtime snd); [cbn; tauto|]. intros r c Hr Hc. destruct (CT t out r c Hout Hr Hc) as (_ & _ & _ & A). exact A.
Qed.
Print Assumptions C119_counts.

(** The run of C60_ex: one cell of padding, three columns and four rows, scaled output. *)
Example C119_ex : exists f0 f1, g_outs = Ok [f0; f1] /\
  image_sum f0 "flash_centroid_density" 1 /\ image_sum f1 "flash_centroid_density" 1 /\ image_sum f0 "flash_extent_density" (3 # 2).
Proof. do 2 eexists. split; [vm_compute; reflexivity|]. repeat split; eexists; (split; [cbn; tauto|vm_compute; reflexivity]). Qed.
Definition s_ok : bool :=
  match grid_files (fun l => l) (fun _ => 0%Z) ex_clip ex_tree ex_quad g_xe g_ye 7 (files_during g_te 0 [g_file]) None with
  | Ok g => forallb (fun k => let v := num (g_at (gr_fcount g) (Z.of_nat (1 + fst k)) (Z.of_nat (1 + snd k))) in
                (Qle_bool 0 v && Qle_bool v (65535 * (1 # 16)))%bool) (image_cells 3 4)
            && Nat.eqb (List.length (filter (fun k => Qlt_bool 0 (num (g_at (gr_fcount g) (Z.of_nat (1 + fst k)) (Z.of_nat (1 + snd k))))) (image_cells 3 4))) 3
  | Err _ => false
  end.
(** What C119_sums asks of the values holds for the flash extent density of the first frame,
    where three cells have some. *)
Example C119_hypotheses : s_ok = true.
Proof. vm_compute. reflexivity. Qed.
