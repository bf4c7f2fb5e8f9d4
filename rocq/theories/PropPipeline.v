(** Property C36: what the gridded fields of one time frame contain, from opened files
    to grids, in the fixed grid, lookup table mode. *)
From Coq Require Import List ZArith QArith Qabs Bool Lia Lqa Permutation.
From Verif Require Import Base BaseProofs Traversal Glm GlmProofs3 Lut LutSpec LutProofs Accum AccumSpec AccumProofs PropAccum
  Poly PolySpec PolyProofs PropPoly BBox BBoxSpec BBoxProofs PropBBox Slice SliceSpec SliceProofs PropSlice
  Regroup RegroupSpec RegroupProofs PropRegroup Pipeline PipelineSpec PipelineProofs.
Import ListNotations.
Open Scope Z_scope.

Lemma batches_in_grid : forall nx ny Ws Rs col, Forall2 (fun W R => regroup W = Ok R) Ws Rs -> Forall (Forall (fits nx ny)) Ws ->
  Forall (Forall (in_grid nx ny)) (map (items col) Rs).
Proof.
  intros nx ny Ws Rs col F2 FIT. induction F2 as [|W R Ws Rs E F2 IH]; [constructor|]. inversion FIT; subst. cbn [map]. constructor; auto.
  apply (batch_in_grid nx ny W R); auto.
Qed.
Lemma batches_no_repeat : forall nx ny Ws Rs col, Forall2 (fun W R => regroup W = Ok R) Ws Rs -> Forall (Forall (fits nx ny)) Ws ->
  Forall (no_repeat nx ny) (map (items col) Rs).
Proof.
  intros nx ny Ws Rs col F2 FIT. induction F2 as [|W R Ws Rs E F2 IH]; [constructor|]. inversion FIT; subst. cbn [map]. constructor; auto.
  apply (batch_no_repeat nx ny W R); auto.
Qed.
Lemma all_fit : forall clip tree quad xe ye ts Ws, Forall2 (weighted_of clip tree quad xe ye) ts Ws ->
  Forall (Forall (fits (Z.of_nat (List.length xe) - 1) (Z.of_nat (List.length ye) - 1))) Ws.
Proof. intros clip tree quad xe ye ts Ws FW. induction FW as [|t W ts Ws HW FW IH]; constructor; auto. apply (weighted_fits clip tree quad xe ye t W HW). Qed.

(** Every cell of every summed grid holds the sum, over all rows of all lookup tables made,
    of the quantity times the share of the pixel (energy) or of the cell (counts and areas)
    which the pieces of that pixel in that cell take. *)
Theorem C36_cells : forall set_order weird clip tree quad xe ye chunk_size files q g,
  (1 < List.length xe)%nat -> (1 < List.length ye)%nat -> increasing xe -> increasing ye -> proper clip ->
  grid_files set_order weird clip tree quad xe ye chunk_size files q = Ok g ->
  exists tables, tables_read set_order weird chunk_size q files tables /\
  ((forall r, In r (List.concat tables) -> ~ (size (quad (lu_x r) (lu_y r)) == 0)%Q /\ lu_farea r <> None /\ lu_garea r <> None) ->
   Forall (fun h => g_n0 (h g) = Z.of_nat (List.length xe) - 1 /\ g_n1 (h g) = Z.of_nat (List.length ye) - 1)
     [gr_energy; gr_fcount; gr_gcount; gr_farea; gr_garea; gr_minarea] /\
   forall kx ky, (S kx < List.length xe)%nat -> (S ky < List.length ye)%nat ->
   let m := regular_xy xe ye in
   let part r := let p := quad (lu_x r) (lu_y r) in size_in clip m p (nearby tree m p) (ky, kx) in
   let of_pixel r := (part r / size (quad (lu_x r) (lu_y r)))%Q in
   let of_cell r := (part r / cell_size xe ye kx ky)%Q in
   let at_ (h : grids -> grid) := g_at (h g) (Z.of_nat kx) (Z.of_nat ky) in
   sums_to (at_ gr_energy) (fun r => num (lu_energy r)) of_pixel tables /\
   sums_to (at_ gr_fcount) (fun r => qnat (lu_fcount r)) of_cell tables /\
   sums_to (at_ gr_gcount) (fun r => qnat (lu_gcount r)) of_cell tables /\
   sums_to (at_ gr_farea) (fun r => num (lu_farea r)) of_cell tables /\
   sums_to (at_ gr_garea) (fun r => num (lu_garea r)) of_cell tables).
Proof.
  intros so weird clip tree quad xe ye cs files q g HX HY IX IY PR H. unfold grid_files in H.
  apply bind_ok_inv in H. destruct H as (bs & HR & H). change (mkMesh (meshgrid_x xe ye) (meshgrid_y xe ye) true) with (regular_xy xe ye) in HR.
  destruct (read_all so weird clip tree quad xe ye HX HY IX IY PR cs q files bs HR) as (ts & Ws & TR & FW & FR).
  exists ts. split; [exact TR|]. intros NZ.
  set (nx := Z.of_nat (List.length xe) - 1) in *. set (ny := Z.of_nat (List.length ye) - 1) in *.
  assert (FIT : Forall (Forall (fits nx ny)) Ws).
  { clear -FW. induction FW as [|t W ts Ws HW FW IH]; constructor; auto. apply (weighted_fits clip tree quad xe ye t W HW). }
  unfold make_grids in H.
  apply bind_ok_inv in H. destruct H as (e & HE & H). apply bind_ok_inv in H. destruct H as (fc & HFC & H).
  apply bind_ok_inv in H. destruct H as (fa & HFA & H). apply bind_ok_inv in H. destruct H as (mn & HMN & H).
  apply bind_ok_inv in H. destruct H as (gc & HGC & H). apply bind_ok_inv in H. destruct H as (ga & HGA & H). inversion H; subst g. clear H.
  split.
  { assert (D : forall col gr, accumulate (zeros nx ny) (map (items col) bs) = Ok gr -> g_n0 gr = nx /\ g_n1 gr = ny).
    { intros col gr EG. destruct (accumulate_cells _ _ _ EG) as (D1 & D2 & _); [|auto]. apply batches_no_repeat with Ws; auto. }
    repeat apply Forall_cons; try apply Forall_nil; cbn [gr_energy gr_fcount gr_gcount gr_farea gr_garea gr_minarea]; eauto.
    destruct (accumulate_min_cells _ _ _ HMN) as (D1 & D2 & _); [|auto]. apply batches_no_repeat with Ws; auto. }
  intros kx ky Kx Ky m part of_pixel of_cell at_.
  assert (GEN : forall (gr : grid) col f (k : lutrow -> Q) (d : lutrow -> poly -> Q), accumulate (zeros nx ny) (map (items col) bs) = Ok gr ->
     (forall W r, merged W r -> is_num (col r) (total (map f (in_cell W (row_cell r))))) ->
     (forall r s x, In r (List.concat ts) -> is_row m (rpoly quad r) (lu_id r) s x -> valid (List.length ye) (List.length xe) (snd x) -> snd x = (ky, kx) ->
       (num (f (weight_row s r)) == k r * (size (fst x) * / d r (rpoly quad r)))%Q) ->
     sums_to (g_at gr (Z.of_nat kx) (Z.of_nat ky)) k (fun r => part r / d r (rpoly quad r))%Q ts).
  { intros gr col f k d EA MG K. destruct (grid_column nx ny Ws bs col f FR FIT MG) as (g' & E' & _ & _ & C). rewrite EA in E'. inversion E'; subst g'.
    destruct (C (Z.of_nat kx) (Z.of_nat ky)) as (v & -> & Hv); [unfold nx; lia|unfold ny; lia|]. exists v. split; [reflexivity|]. rewrite Hv.
    rewrite (column_total clip tree quad xe ye ts Ws f k (fun r p => / d r p)%Q kx ky FW K). reflexivity. }
  assert (CELL : forall r s x v, In r (List.concat ts) -> is_row m (rpoly quad r) (lu_id r) s x -> valid (List.length ye) (List.length xe) (snd x) -> snd x = (ky, kx) ->
     (num (fmul (Some v) (sp_mesh_frac s)) == v * (size (fst x) * / cell_size xe ye kx ky))%Q).
  { intros r s x v Hr R V E. destruct (share_cell quad xe ye IX IY r s x kx ky (proj1 (NZ r Hr)) R V E) as (y & -> & Hy). cbn [fmul num]. rewrite Hy. reflexivity. }
  split; [|split; [|split; [|split]]].
  - apply (GEN e ce_power w_energy (fun r => num (lu_energy r)) (fun _ p => size p) HE); [intros W r MG; apply MG|].
    intros r s x Hr R V E. apply (share_energy quad xe ye r s x (proj1 (NZ r Hr)) R).
  - apply (GEN fc ce_fcount w_fcount (fun r => qnat (lu_fcount r)) (fun _ _ => cell_size xe ye kx ky) HFC); [intros W r MG; apply MG|].
    intros r s x Hr R V E. apply (CELL r s x _ Hr R V E).
  - apply (GEN gc ce_gcount w_gcount (fun r => qnat (lu_gcount r)) (fun _ _ => cell_size xe ye kx ky) HGC); [intros W r MG; apply MG|].
    intros r s x Hr R V E. apply (CELL r s x _ Hr R V E).
  - apply (GEN fa ce_farea w_farea (fun r => num (lu_farea r)) (fun _ _ => cell_size xe ye kx ky) HFA); [intros W r MG; apply MG|].
    intros r s x Hr R V E. cbn [weight_row w_farea]. destruct (lu_farea r) as [v|] eqn:EV; [|destruct (NZ r Hr) as (_ & K & _); congruence].
    apply (CELL r s x _ Hr R V E).
  - apply (GEN ga ce_garea w_garea (fun r => num (lu_garea r)) (fun _ _ => cell_size xe ye kx ky) HGA); [intros W r MG; apply MG|].
    intros r s x Hr R V E. cbn [weight_row w_garea]. destruct (lu_garea r) as [v|] eqn:EV; [|destruct (NZ r Hr) as (_ & _ & K); congruence].
    apply (CELL r s x _ Hr R V E).
Qed.
Print Assumptions C36_cells.

(** The energy on the whole grid is what the pieces cut from each pixel make of the energy of
    its row. *)
Theorem C36_total_share : forall set_order weird clip tree quad xe ye chunk_size files q g,
  (1 < List.length xe)%nat -> (1 < List.length ye)%nat -> increasing xe -> increasing ye -> proper clip ->
  grid_files set_order weird clip tree quad xe ye chunk_size files q = Ok g ->
  exists tables, tables_read set_order weird chunk_size q files tables /\
  ((forall r, In r (List.concat tables) -> ~ (size (quad (lu_x r) (lu_y r)) == 0)%Q /\ lu_farea r <> None /\ lu_garea r <> None) ->
   let m := regular_xy xe ye in
   let share r := let p := quad (lu_x r) (lu_y r) in (qsum (map (fun e => size (fst e)) (cut clip m p (nearby tree m p))) / size p)%Q in
   (grid_total (gr_energy g) == over (fun r => num (lu_energy r) * share r)%Q tables)%Q).
Proof.
  intros so weird clip tree quad xe ye cs files q g HX HY IX IY PR H.
  destruct (C36_cells so weird clip tree quad xe ye cs files q g HX HY IX IY PR H) as (ts & TR & K). exists ts. split; [exact TR|].
  intros C m share. destruct (K C) as [D K']. clear K.
  apply Forall_inv in D. destruct D as [D0 D1]. unfold grid_total. rewrite D0, D1.
  replace (Z.to_nat (Z.of_nat (List.length xe) - 1)) with (List.length xe - 1)%nat by lia.
  replace (Z.to_nat (Z.of_nat (List.length ye) - 1)) with (List.length ye - 1)%nat by lia.
  fold m in K'. set (P := fun r => quad (lu_x r) (lu_y r)).
  set (part := fun (kx ky : nat) r => size_in clip m (P r) (nearby tree m (P r)) (ky, kx)).
  rewrite (qsum_ext _ _ (fun kx => qsum (map (fun ky => over (fun r => num (lu_energy r) * (part kx ky r / size (P r)))%Q ts) (seq 0 (List.length ye - 1))))).
  2:{ intros kx Hx. apply qsum_ext. intros ky Hy. apply in_seq in Hx, Hy. destruct (K' kx ky ltac:(lia) ltac:(lia)) as ((v & -> & Hv) & _). exact Hv. }
  unfold over. rewrite (qsum_ext _ _ (fun kx => qsum (map (fun r => qsum (map (fun ky => num (lu_energy r) * (part kx ky r / size (P r)))%Q (seq 0 (List.length ye - 1)))) (List.concat ts)))) by (intros; apply qsum_swap).
  rewrite qsum_swap. apply qsum_ext. intros r Hr. destruct (C r Hr) as (NZ & _ & _). fold (P r) in NZ.
  rewrite (qsum_ext _ _ (fun kx => (num (lu_energy r) / size (P r)) * qsum (map (fun ky => part kx ky r) (seq 0 (List.length ye - 1))))%Q).
  2:{ intros kx _. rewrite <- qsum_scale. apply qsum_ext. intros ky _. unfold Qdiv. ring. }
  rewrite qsum_scale. unfold part. pose proof (size_in_all clip tree xe ye HX HY IX IY (P r)) as SI. fold m in SI. rewrite SI. unfold share. fold (P r). field. exact NZ.
Qed.
Print Assumptions C36_total_share.

(** The energy on the whole grid is the energy in the tables, if every pixel is covered by
    the pieces cut from it (all of it lies on the grid and within reach of the lookup). *)
Theorem C36_total_energy : forall set_order weird clip tree quad xe ye chunk_size files q g,
  (1 < List.length xe)%nat -> (1 < List.length ye)%nat -> increasing xe -> increasing ye -> proper clip ->
  grid_files set_order weird clip tree quad xe ye chunk_size files q = Ok g ->
  exists tables, tables_read set_order weird chunk_size q files tables /\
  ((forall r, In r (List.concat tables) ->
      let p := quad (lu_x r) (lu_y r) in
      ~ (size p == 0)%Q /\ lu_farea r <> None /\ lu_garea r <> None /\
      covered p (cut clip (regular_xy xe ye) p (nearby tree (regular_xy xe ye) p))) ->
   (grid_total (gr_energy g) == over (fun r => num (lu_energy r)) tables)%Q).
Proof.
  intros so weird clip tree quad xe ye cs files q g HX HY IX IY PR H.
  destruct (C36_total_share so weird clip tree quad xe ye cs files q g HX HY IX IY PR H) as (ts & TR & K). exists ts. split; [exact TR|].
  intros C. rewrite K by (intros r Hr; destruct (C r Hr) as (c1 & c2 & c3 & _); auto). apply qsum_ext. intros r Hr. destruct (C r Hr) as (NZ & _ & _ & CV). cbv zeta in NZ, CV |- *. unfold covered in CV. rewrite CV. field. exact NZ.
Qed.
Print Assumptions C36_total_energy.

(** A cell filled by pixels that all carry the same count shows that count. *)
Theorem C36_full_coverage : forall set_order weird clip tree quad xe ye chunk_size files q g,
  (1 < List.length xe)%nat -> (1 < List.length ye)%nat -> increasing xe -> increasing ye -> proper clip ->
  grid_files set_order weird clip tree quad xe ye chunk_size files q = Ok g ->
  exists tables, tables_read set_order weird chunk_size q files tables /\
  ((forall r, In r (List.concat tables) -> ~ (size (quad (lu_x r) (lu_y r)) == 0)%Q /\ lu_farea r <> None /\ lu_garea r <> None) ->
   forall kx ky n, (S kx < List.length xe)%nat -> (S ky < List.length ye)%nat ->
   let m := regular_xy xe ye in
   let part r := let p := quad (lu_x r) (lu_y r) in size_in clip m p (nearby tree m p) (ky, kx) in
   (over part tables == cell_size xe ye kx ky)%Q ->
   (forall r, In r (List.concat tables) -> ~ (part r == 0)%Q -> lu_fcount r = n) ->
   is_num (g_at (gr_fcount g) (Z.of_nat kx) (Z.of_nat ky)) (qnat n)).
Proof.
  intros so weird clip tree quad xe ye cs files q g HX HY IX IY PR H.
  destruct (C36_cells so weird clip tree quad xe ye cs files q g HX HY IX IY PR H) as (ts & TR & K). exists ts. split; [exact TR|].
  intros C kx ky n Kx Ky m part FULL SAME. destruct (K C) as [_ K']. destruct (K' kx ky Kx Ky) as (_ & (v & -> & Hv) & _). exists v. split; [reflexivity|].
  rewrite Hv. unfold over in *. fold m. fold part.
  pose proof (cell_pos xe ye HX HY IX IY kx ky Kx Ky) as CP.
  rewrite (qsum_ext _ _ (fun r => (qnat n / cell_size xe ye kx ky) * part r)%Q).
  - rewrite qsum_scale, FULL. field. lra.
  - intros r Hr. fold (part r). destruct (Qeq_dec (part r) 0) as [E|NE].
    + setoid_rewrite E. unfold Qdiv. ring.
    + rewrite (SAME r Hr NE). unfold Qdiv. ring.
Qed.
Print Assumptions C36_full_coverage.

Lemma batches_positive : forall clip tree quad xe ye ts Ws bs, (1 < List.length xe)%nat -> (1 < List.length ye)%nat ->
  Forall2 (weighted_of clip tree quad xe ye) ts Ws -> Forall2 (fun W R => regroup W = Ok R) Ws bs ->
  (forall r, In r (List.concat ts) -> positive (lu_minarea r)) ->
  Forall positive (map it_v (List.concat (map (items ce_minarea) bs))).
Proof.
  intros clip tree quad xe ye ts Ws bs HX HY FW FR POS.
  pose proof (all_fit _ _ _ _ _ _ _ FW) as FIT. set (nx := Z.of_nat (List.length xe) - 1) in *. set (ny := Z.of_nat (List.length ye) - 1) in *.
  assert (PW : forall L W w, In L ts -> weighted_of clip tree quad xe ye L W -> In w W -> positive (w_minarea w)).
  { intros L W w HL HW Hw. edestruct cell_nat as (x & y & Hc); [exact HX|exact HY|exact HW|exact Hw|].
    destruct (cell_min_fwd clip tree quad xe ye HX HY L W w x y HW Hc) as (r & Hr & _ & ->). apply POS. apply in_concat. eauto. }
  apply Forall_forall. intros u Hu. apply in_map_iff in Hu. destruct Hu as (it & <- & Hit). apply in_concat in Hit. destruct Hit as (its & Hi & Hit).
    apply in_map_iff in Hi. destruct Hi as (R & <- & HRb). apply in_map_iff in Hit. destruct Hit as (r & <- & Hr). cbn [it_v].
    destruct (F2_in_r _ _ _ _ _ _ FR HRb) as (W & HW & ER). destruct (F2_in_r _ _ _ _ _ _ FW HW) as (L & HL & WO).
    rewrite Forall_forall in FIT. destruct (batch_spec nx ny W R (FIT W HW) ER) as (_ & _ & MG & _). rewrite Forall_forall in MG.
    pose proof (mg_some _ _ (MG r Hr)) as NE. pose proof (mg_min _ _ (MG r Hr)) as LN.
    destruct LN as [[_ (a & -> & Ha & _)]|[NO _]].
    - apply in_map_iff in Ha. destruct Ha as (w & Ew & Hw). apply filter_In in Hw. rewrite <- Ew. apply (PW L W w HL WO). tauto.
    - exfalso. destruct (in_cell W (row_cell r)) as [|w l] eqn:EC; [congruence|].
      assert (In w W) by (assert (In w (in_cell W (row_cell r))) as K by (rewrite EC; left; auto); apply filter_In in K; tauto).
      destruct (PW L W w HL WO) as (x & Ex & _); auto. apply (NO x). left. auto.
Qed.
(** The minimum grid: the least flash area of the table rows with a piece in the cell. *)
Theorem C36_minimum : forall set_order weird clip tree quad xe ye chunk_size files q g,
  (1 < List.length xe)%nat -> (1 < List.length ye)%nat -> increasing xe -> increasing ye -> proper clip ->
  grid_files set_order weird clip tree quad xe ye chunk_size files q = Ok g ->
  exists tables, tables_read set_order weird chunk_size q files tables /\
  ((forall r, In r (List.concat tables) -> positive (lu_minarea r)) ->
   forall kx ky, (S kx < List.length xe)%nat -> (S ky < List.length ye)%nat ->
   let m := regular_xy xe ye in
   let here r := let p := quad (lu_x r) (lu_y r) in exists c, In (c, (ky, kx)) (cut clip m p (nearby tree m p)) in
   let v := g_at (gr_minarea g) (Z.of_nat kx) (Z.of_nat ky) in
   (v = Some 0%Q /\ forall r, In r (List.concat tables) -> ~ here r) \/
   (exists r, In r (List.concat tables) /\ here r /\ lu_minarea r = v /\
      forall r' a b, In r' (List.concat tables) -> here r' -> lu_minarea r' = Some a -> v = Some b -> (b <= a)%Q)).
Proof.
  intros so weird clip tree quad xe ye cs files q g HX HY IX IY PR H. unfold grid_files in H.
  apply bind_ok_inv in H. destruct H as (bs & HR & H). change (mkMesh (meshgrid_x xe ye) (meshgrid_y xe ye) true) with (regular_xy xe ye) in HR.
  destruct (read_all so weird clip tree quad xe ye HX HY IX IY PR cs q files bs HR) as (ts & Ws & TR & FW & FR).
  exists ts. split; [exact TR|]. intros POS kx ky Kx Ky m.
  intros here_ v.
  set (nx := Z.of_nat (List.length xe) - 1) in *. set (ny := Z.of_nat (List.length ye) - 1) in *.
  pose proof (all_fit _ _ _ _ _ _ _ FW) as FIT. fold nx ny in FIT.
  unfold make_grids in H.
  apply bind_ok_inv in H. destruct H as (e & HE & H). apply bind_ok_inv in H. destruct H as (fc & HFC & H).
  apply bind_ok_inv in H. destruct H as (fa & HFA & H). apply bind_ok_inv in H. destruct H as (mn & HMN & H).
  apply bind_ok_inv in H. destruct H as (gc & HGC & H). apply bind_ok_inv in H. destruct H as (ga & HGA & H). inversion H; subst g. clear H.
  pose proof (batches_positive clip tree quad xe ye ts Ws bs HX HY FW FR POS) as PB.
  destruct (C35_least_positive_value nx ny _ (batches_in_grid nx ny Ws bs ce_minarea FR FIT) (batches_no_repeat nx ny Ws bs ce_minarea FR FIT) PB)
    as (g' & E' & _ & _ & C). rewrite HMN in E'. inversion E'; subst g'. clear E'.
  specialize (C (Z.of_nat kx) (Z.of_nat ky)). cbn [gr_minarea] in v. fold v in C. rewrite sent_concat, map_map in C.
  set (S := List.concat (map (fun R => sent_to nx ny (Z.of_nat kx) (Z.of_nat ky) (items ce_minarea R)) bs)) in *.
  assert (FWD : forall a, In (Some a) S -> exists r, In r (List.concat ts) /\ here_ r /\ lu_minarea r = Some a).
  { intros a Ha. apply in_concat in Ha. destruct Ha as (l & Hl & Ha). apply in_map_iff in Hl. destruct Hl as (R & <- & HRb).
    destruct (F2_in_r _ _ _ _ _ _ FR HRb) as (W & HW & ER). destruct (F2_in_r _ _ _ _ _ _ FW HW) as (L & HL & WO). rewrite Forall_forall in FIT.
    destruct (batch_min nx ny W R (FIT W HW) ER (Z.of_nat kx) (Z.of_nat ky) ltac:(unfold nx; lia) ltac:(unfold ny; lia)) as [[_ K]|(u & _ & K & LN)].
    - rewrite K in Ha. destruct Ha.
    - rewrite K in Ha. destruct Ha as [->|[]]. destruct LN as [[_ (b & Eb & Hb & _)]|[_ K']]; [|discriminate]. inversion Eb; subst b.
      apply in_map_iff in Hb. destruct Hb as (w & Ew & Hw). destruct (cell_min_fwd clip tree quad xe ye HX HY L W w kx ky WO Hw) as (r & Hr & HH & Em).
      exists r. split; [apply in_concat; eauto|]. split; [exact HH|]. congruence. }
  assert (BWD : forall r a, In r (List.concat ts) -> here_ r -> lu_minarea r = Some a -> exists b, In (Some b) S /\ (b <= a)%Q).
  { intros r a Hr HH Ea. apply in_concat in Hr. destruct Hr as (L & HL & Hr). destruct (F2_in_l _ _ _ _ _ _ FW HL) as (W & HW & WO).
    destruct (F2_in_l _ _ _ _ _ _ FR HW) as (R & HRb & ER). rewrite Forall_forall in FIT.
    destruct (cell_min_bwd clip tree quad xe ye L W r kx ky WO Hr HH) as (w & Hw & Ew).
    destruct (batch_min nx ny W R (FIT W HW) ER (Z.of_nat kx) (Z.of_nat ky) ltac:(unfold nx; lia) ltac:(unfold ny; lia)) as [[K _]|(u & _ & K & LN)].
    - rewrite K in Hw. destruct Hw.
    - assert (Hm : In (Some a) (map w_minarea (in_cell W (Z.of_nat ky, Z.of_nat kx)))) by (rewrite <- Ea, <- Ew; apply in_map; auto).
      destruct LN as [[_ (b & -> & Hb & LE)]|[NO _]]; [|exfalso; apply (NO a Hm)].
      exists b. split; [|apply LE; auto]. apply in_concat. eexists. split; [apply in_map_iff; exists R; split; [reflexivity|exact HRb]|]. rewrite K. left. auto. }
  destruct S as [|s0 S'].
  - left. split; [exact C|]. intros r Hr HH. destruct (POS r Hr) as (a & Ea & _). destruct (BWD r a Hr HH Ea) as (b & [] & _).
  - right. destruct C as (a & Ev & Ha & LE). destruct (FWD a Ha) as (r & Hr & HH & Em). exists r. split; [exact Hr|]. split; [exact HH|].
    split; [congruence|]. intros r' a' b' Hr' HH' Ea' Eb'. destruct (BWD r' a' Hr' HH' Ea') as (b & Hb & Lb).
    rewrite Ev in Eb'. inversion Eb'; subst b'. eapply Qle_trans; [apply LE; exact Hb|exact Lb].
Qed.
Print Assumptions C36_minimum.

(** Gridding succeeds if every pixel is a polygon whose lookup gives none or several cells
    and each table leaves at least one piece on the grid. *)
Theorem C36_succeeds : forall set_order weird clip tree quad xe ye chunk_size files q tables,
  (1 < List.length xe)%nat -> (1 < List.length ye)%nat -> increasing xe -> increasing ye -> proper clip ->
  tables_read set_order weird chunk_size q files tables ->
  let m := regular_xy xe ye in
  (forall r, In r (List.concat tables) -> let p := quad (lu_x r) (lu_y r) in
     p <> [] /\ exists cells, looked_up tree m NoBox p cells /\ List.length cells <> 1%nat) ->
  (forall t, In t tables -> exists r, In r t /\ let p := quad (lu_x r) (lu_y r) in cut clip m p (nearby tree m p) <> []) ->
  exists g, grid_files set_order weird clip tree quad xe ye chunk_size files q = Ok g.
Proof.
  intros so weird clip tree quad xe ye cs files q tables HX HY IX IY PR (tss & TF & ->) m HP HC.
  assert (CH : forall c t, get_lutevents weird lut_scale lut_range lut_range c = Ok t -> In t (List.concat tss) ->
     exists R, read_chunk weird clip tree quad m c = Ok R).
  { intros c t ET Ht. destruct (chunk_total weird clip tree quad xe ye HX HY IX IY PR c t ET) as (W & EW).
    - intros r Hr. apply HP. apply in_concat. eauto.
    - unfold read_chunk. fold m in EW. rewrite EW. cbn [bind].
      destruct (chunk_rows weird clip tree quad xe ye HX HY IX IY PR c W EW) as (L & EL & WO). rewrite ET in EL. inversion EL; subst L.
      destruct (C33_one_row_per_cell W) as (R & ER & _); [| |eauto].
      + destruct (HC t Ht) as (r & Hr & NE). intros ->. destruct (cut clip m (quad (lu_x r) (lu_y r)) (nearby tree m (quad (lu_x r) (lu_y r)))) as [|[p [ky kx]] l] eqn:EC; [apply NE; exact EC|].
        destruct (cell_min_bwd clip tree quad xe ye t [] r kx ky WO Hr) as (w & [] & _). exists p. fold m. unfold rpoly. rewrite EC. left; reflexivity.
      + intros w Hw. pose proof (weighted_fits clip tree quad xe ye t W WO) as F. rewrite Forall_forall in F. destruct (F w Hw). lia. }
  assert (RF : exists bs, read_files so weird clip tree quad m cs files q = Ok bs).
  { unfold read_files.
    match goal with |- exists bs, bind (map_res ?h files) _ = _ => assert (exists x, map_res h files = Ok x) as (x & ->); [|cbn [bind]; eauto]; set (hh := h) end.
    clear HP HC. assert (CH' : forall c t, get_lutevents weird lut_scale lut_range lut_range c = Ok t -> In t (List.concat tss) -> exists R, read_chunk weird clip tree quad m c = Ok R) by exact CH.
    clear CH. induction TF as [|ds ts files tss TF1 TF IH]; [exists []; reflexivity|].
    destruct IH as (x & E); [intros c t K1 K2; apply (CH' c t K1); cbn [List.concat]; apply in_or_app; right; auto|].
    cbn [map_res]. destruct TF1 as [[E2 ->]|((e & E' & E2) & chunks & EC & F2)].
    - assert (hh ds = Ok []) as -> by (unfold hh; rewrite E2; reflexivity). cbn [bind]. rewrite E. cbn [bind]. eauto.
    - assert (hh ds = map_res (read_chunk weird clip tree quad m) chunks) as -> by (unfold hh; rewrite E2; unfold read_flashes; rewrite EC; reflexivity).
      assert (exists b, map_res (read_chunk weird clip tree quad m) chunks = Ok b) as (b & ->).
      { assert (CH2 : forall c t, get_lutevents weird lut_scale lut_range lut_range c = Ok t -> In t ts -> exists R, read_chunk weird clip tree quad m c = Ok R)
          by (intros c t K1 K2; apply (CH' c t K1); cbn [List.concat]; apply in_or_app; left; auto).
        clear -F2 CH2. induction F2 as [|c t cs ts E F2 IH]; [exists []; reflexivity|]. destruct (CH2 c t E (or_introl eq_refl)) as (R & ER).
        destruct IH as (b & Eb); [intros; eapply CH2; eauto; right; auto|]. cbn [map_res]. rewrite ER. cbn [bind]. rewrite Eb. cbn [bind]. eauto. }
      cbn [bind]. rewrite E. cbn [bind]. eauto. }
  destruct RF as (bs & ER). unfold grid_files. change (mkMesh (meshgrid_x xe ye) (meshgrid_y xe ye) true) with m. rewrite ER. cbn [bind].
  destruct (read_all so weird clip tree quad xe ye HX HY IX IY PR cs q files bs ER) as (ts & Ws & TR & FW & FR).
  pose proof (all_fit _ _ _ _ _ _ _ FW) as FIT. set (nx := Z.of_nat (List.length xe) - 1) in *. set (ny := Z.of_nat (List.length ye) - 1) in *.
  unfold make_grids.
  assert (A : forall col, exists g, accumulate (zeros nx ny) (map (items col) bs) = Ok g) by (intros; apply accumulate_total; apply (batches_in_grid nx ny Ws); auto).
  assert (B : exists g, accumulate_min (zeros nx ny) (map (items ce_minarea) bs) = Ok g) by (apply accumulate_min_total; apply (batches_in_grid nx ny Ws); auto).
  destruct (A ce_power) as (g1 & ->). cbn [bind]. destruct (A ce_fcount) as (g2 & ->). cbn [bind]. destruct (A ce_farea) as (g3 & ->). cbn [bind].
  destruct B as (g4 & ->). cbn [bind]. destruct (A ce_gcount) as (g5 & ->). cbn [bind]. destruct (A ce_garea) as (g6 & ->). cbn [bind]. eauto.
Qed.
Print Assumptions C36_succeeds.

(** The order of the files has no influence on the summed grids, and none on the minimum
    when all areas are positive. *)
Lemma map_res_perm : forall A B (f : A -> res B) l l' r, Permutation l l' -> map_res f l = Ok r -> exists r', map_res f l' = Ok r' /\ Permutation r r'.
Proof.
  intros A B f l l' r P. revert r. induction P as [|x l l' P IH|x y l|l l' l'' P1 IH1 P2 IH2]; intros r E.
  - eauto.
  - cbn [map_res] in *. apply bind_ok_inv in E. destruct E as (b & Eb & E). apply bind_ok_inv in E. destruct E as (bs & Ebs & E). inversion E; subst.
    destruct (IH bs Ebs) as (r' & -> & P'). rewrite Eb. cbn [bind]. eauto.
  - cbn [map_res] in *. apply bind_ok_inv in E. destruct E as (b & Eb & E). apply bind_ok_inv in E. destruct E as (bs & Ebs & E). inversion E; subst.
    apply bind_ok_inv in Ebs. destruct Ebs as (b' & Eb' & Ebs). apply bind_ok_inv in Ebs. destruct Ebs as (bs' & Ebs & E'). inversion E'; subst.
    rewrite Eb', Eb, Ebs. cbn [bind]. eexists. split; [reflexivity|]. constructor.
  - destruct (IH1 r E) as (r' & E' & P'). destruct (IH2 r' E') as (r'' & E'' & P''). exists r''. split; auto. eapply Permutation_trans; eauto.
Qed.
Lemma concat_perm : forall A (l l' : list (list A)), Permutation l l' -> Permutation (List.concat l) (List.concat l').
Proof.
  intros A l l' P. induction P; cbn [List.concat]; auto.
  - apply Permutation_app_head. auto.
  - rewrite !app_assoc. apply Permutation_app_tail. apply Permutation_app_comm.
  - eapply Permutation_trans; eauto.
Qed.
Theorem C36_file_order : forall set_order weird clip tree quad xe ye chunk_size files files' q g,
  (1 < List.length xe)%nat -> (1 < List.length ye)%nat -> increasing xe -> increasing ye -> proper clip ->
  Permutation files files' ->
  grid_files set_order weird clip tree quad xe ye chunk_size files q = Ok g ->
  exists g' tables, grid_files set_order weird clip tree quad xe ye chunk_size files' q = Ok g' /\
    tables_read set_order weird chunk_size q files tables /\
    (forall a b h, In h [gr_energy; gr_fcount; gr_gcount; gr_farea; gr_garea] -> feq (g_at (h g) a b) (g_at (h g') a b)) /\
    ((forall r, In r (List.concat tables) -> positive (lu_minarea r)) -> forall a b, feq (g_at (gr_minarea g) a b) (g_at (gr_minarea g') a b)).
Proof.
  intros so weird clip tree quad xe ye cs files files' q g HX HY IX IY PR PF H. unfold grid_files in *.
  change (mkMesh (meshgrid_x xe ye) (meshgrid_y xe ye) true) with (regular_xy xe ye) in *.
  apply bind_ok_inv in H. destruct H as (bs & HR & H).
  destruct (read_all so weird clip tree quad xe ye HX HY IX IY PR cs q files bs HR) as (ts & Ws & TR & FW & FR).
  assert (exists bs', read_files so weird clip tree quad (regular_xy xe ye) cs files' q = Ok bs' /\ Permutation bs bs') as (bs' & HR' & PB).
  { unfold read_files in *. apply bind_ok_inv in HR. destruct HR as (bss & E1 & E2). inversion E2; subst bs.
    destruct (map_res_perm _ _ _ _ _ _ PF E1) as (bss' & -> & P'). cbn [bind]. eexists. split; [reflexivity|]. apply concat_perm. auto. }
  destruct (read_all so weird clip tree quad xe ye HX HY IX IY PR cs q files' bs' HR') as (ts' & Ws' & TR' & FW' & FR').
  rewrite HR'. cbn [bind].
  pose proof (all_fit _ _ _ _ _ _ _ FW) as FIT. pose proof (all_fit _ _ _ _ _ _ _ FW') as FIT'.
  set (nx := Z.of_nat (List.length xe) - 1) in *. set (ny := Z.of_nat (List.length ye) - 1) in *.
  unfold make_grids in *.
  apply bind_ok_inv in H. destruct H as (e & HE & H). apply bind_ok_inv in H. destruct H as (fc & HFC & H).
  apply bind_ok_inv in H. destruct H as (fa & HFA & H). apply bind_ok_inv in H. destruct H as (mn & HMN & H).
  apply bind_ok_inv in H. destruct H as (gc & HGC & H). apply bind_ok_inv in H. destruct H as (ga & HGA & H). inversion H; subst g. clear H.
  assert (A : forall col, exists g, accumulate (zeros nx ny) (map (items col) bs') = Ok g) by (intros; apply accumulate_total; apply (batches_in_grid nx ny Ws'); auto).
  assert (B : exists g, accumulate_min (zeros nx ny) (map (items ce_minarea) bs') = Ok g) by (apply accumulate_min_total; apply (batches_in_grid nx ny Ws'); auto).
  destruct (A ce_power) as (g1 & E1). destruct (A ce_fcount) as (g2 & E2). destruct (A ce_farea) as (g3 & E3).
  destruct B as (g4 & E4). destruct (A ce_gcount) as (g5 & E5). destruct (A ce_garea) as (g6 & E6).
  rewrite E1, E2, E3, E4, E5, E6. cbn [bind]. do 2 eexists. split; [reflexivity|]. split; [exact TR|].
  assert (PI : forall col, Permutation (List.concat (map (items col) bs)) (List.concat (map (items col) bs'))) by (intros; apply concat_perm, Permutation_map; auto).
  assert (F : forall col ga gb, accumulate (zeros nx ny) (map (items col) bs) = Ok ga -> accumulate (zeros nx ny) (map (items col) bs') = Ok gb ->
     forall a b, feq (g_at ga a b) (g_at gb a b)).
  { intros col ga0 gb0 K1 K2. apply (C34_order_and_batching_free (zeros nx ny) _ _ _ _ K1 K2); [apply (batches_no_repeat nx ny Ws); auto|apply (batches_no_repeat nx ny Ws'); auto|apply PI]. }
  split.
  - intros a b h Hh. cbn [In] in Hh. destruct Hh as [<-|[<-|[<-|[<-|[<-|[]]]]]]; cbn [gr_energy gr_fcount gr_gcount gr_farea gr_garea]; eapply F; eauto.
  - intros POS. cbn [gr_minarea]. apply (C35_order_and_batching_free nx ny _ _ _ _ HMN E4); [apply (batches_no_repeat nx ny Ws); auto|apply (batches_no_repeat nx ny Ws'); auto| |apply PI].
    apply (batches_positive clip tree quad xe ye ts Ws bs HX HY FW FR POS).
Qed.
Print Assumptions C36_file_order.

(** A chunk of flashes none of whose pixels meets the grid stops the whole run. *)
Theorem C50_chunk_off_grid_refuted : forall set_order weird clip tree quad xe ye chunk_size files1 ds files2 q c chunks L,
  (1 < List.length xe)%nat -> (1 < List.length ye)%nat -> increasing xe -> increasing ye -> proper clip ->
  (exists e E, nth_error ds 2 = Some (e :: E)) -> flash_chunks set_order chunk_size ds q = Ok chunks -> In c chunks ->
  get_lutevents weird lut_scale lut_range lut_range c = Ok L ->
  let m := regular_xy xe ye in
  (forall r, In r L -> let p := quad (lu_x r) (lu_y r) in cut clip m p (nearby tree m p) = []) ->
  forall g, grid_files set_order weird clip tree quad xe ye chunk_size (files1 ++ ds :: files2) q <> Ok g.
Proof.
  intros so weird clip tree quad xe ye cs f1 ds f2 q c chunks L HX HY IX IY PR (e & E & EE) EC Hc EL m NOP g H.
  unfold grid_files in H. apply bind_ok_inv in H. destruct H as (bs & HR & _). change (mkMesh (meshgrid_x xe ye) (meshgrid_y xe ye) true) with m in HR.
  unfold read_files in HR. apply bind_ok_inv in HR. destruct HR as (bss & HR & _). apply map_res_inv in HR.
  assert (Hd : In ds (f1 ++ ds :: f2)) by (apply in_or_app; right; left; reflexivity).
  destruct (F2_in_l _ _ _ _ _ _ HR Hd) as (b & _ & EB). rewrite EE in EB. unfold read_flashes in EB. rewrite EC in EB. cbn [bind] in EB.
  apply map_res_inv in EB. destruct (F2_in_l _ _ _ _ _ _ EB Hc) as (R & _ & ER). unfold read_chunk in ER. apply bind_ok_inv in ER. destruct ER as (W & EW & ER).
  destruct (chunk_rows weird clip tree quad xe ye HX HY IX IY PR c W EW) as (L' & EL' & (blocks & -> & F2)). rewrite EL in EL'. inversion EL'; subst L'.
  assert (EN : List.concat blocks = []).
  { fold m in F2. clear -F2 NOP. clearbody m. assert (K : forall rp, In rp (combine L (map (rpoly quad) L)) -> cut clip m (snd rp) (nearby tree m (snd rp)) = []).
    { intros [r p] Hr. apply in_combine_map in Hr. destruct Hr as [Hr ->]. apply (NOP r Hr). }
    clear NOP. induction F2 as [|rp b rps bs B F2 IH]; [reflexivity|]. cbn [List.concat]. rewrite IH by (intros; apply K; right; auto).
    rewrite (K rp (or_introl eq_refl)) in B. inversion B. reflexivity. }
  rewrite EN in ER. discriminate.
Qed.
Print Assumptions C50_chunk_off_grid_refuted.

(** * A run on concrete data *)
Definition ex_quad (x y : fval) : poly :=
  let x := num x in let y := num y in let h := (1 # 100)%Q in
  [(x - h, y - h); (x + h, y - h); (x + h, y + h); (x - h, y + h)]%Q.
Definition ex_xe : list Q := [-(6 # 100); -(2 # 100); 2 # 100; 6 # 100]%Q.
Definition ex_ye : list Q := [-(3 # 100); -(1 # 100); 1 # 100; 3 # 100; 5 # 100]%Q.
Definition ev (i g fl : Z) (x y e : Q) : row obs := mkRow i g (mkObs None None (Some e) None (Some x) (Some y) fl 0 0).
Definition ar (i p : Z) (a : Q) : row obs := mkRow i p (mkObs None None None (Some a) None None 0 0 0).
Definition ex_file : list (table obs) :=
  [[ar 1 0 (10 # 1); ar 2 0 (4 # 1)]; [ar 5 1 (3 # 1); ar 6 2 (2 # 1)];
   [ev 100 5 1 (2 # 100) 0 (8 # 1); ev 101 6 2 (2 # 100) 0 (4 # 1); ev 102 6 2 0 (2 # 100) (6 # 1)]].
Example C36_ex : exists g, grid_files (fun l => l) (fun _ => 0) ex_clip ex_tree ex_quad ex_xe ex_ye 1 [ex_file; ex_file] None = Ok g /\
  map (fun a => map (fun b => option_map Qred (g_at (gr_energy g) a b)) [0; 1; 2; 3]) [0; 1; 2]
  = [[Some 0; Some 0; Some 0; Some 0]; [Some 0; Some 12; Some 12; Some 0]; [Some 0; Some 12; Some 0; Some 0]]%Q /\
  map (fun b => option_map Qred (g_at (gr_minarea g) 1 b)) [0; 1; 2; 3] = [Some 0; Some 4; Some 4; Some 0]%Q /\
  (grid_total (gr_energy g) == 36)%Q.
Proof. eexists. split; [vm_compute; reflexivity|]. split; [vm_compute; reflexivity|]. split; [vm_compute; reflexivity|]. vm_compute. reflexivity. Qed.
(** A second flash far from the grid: its chunk has no piece. *)
Definition ex_off : list (table obs) :=
  [[ar 1 0 (10 # 1); ar 2 0 (4 # 1)]; [ar 5 1 (3 # 1); ar 6 2 (2 # 1)];
   [ev 100 5 1 (2 # 100) 0 (8 # 1); ev 101 6 2 (15 # 100) (15 # 100) (4 # 1)]].
Example C50_off_grid_hypotheses : exists chunks c L, flash_chunks (fun l => l) 1 ex_off None = Ok chunks /\ In c chunks /\
  get_lutevents (fun _ => 0) lut_scale lut_range lut_range c = Ok L /\ List.length L = 1%nat /\
  (forall r, In r L -> let p := ex_quad (lu_x r) (lu_y r) in
     cut ex_clip (regular_xy ex_xe ex_ye) p (nearby ex_tree (regular_xy ex_xe ex_ye) p) = []) /\
  (exists g, grid_files (fun l => l) (fun _ => 0) ex_clip ex_tree ex_quad ex_xe ex_ye 1 [ex_file] None = Ok g) /\
  grid_files (fun l => l) (fun _ => 0) ex_clip ex_tree ex_quad ex_xe ex_ye 1 [ex_file; ex_off] None = Err ValueError.
Proof.
  do 3 eexists. split; [vm_compute; reflexivity|]. split; [right; left; reflexivity|]. split; [vm_compute; reflexivity|]. split; [reflexivity|].
  split; [|split; [eexists; vm_compute; reflexivity|vm_compute; reflexivity]].
  intros r [<-|[]]. vm_compute. reflexivity.
Qed.
Example C36_hypotheses : (1 < List.length ex_xe)%nat /\ (1 < List.length ex_ye)%nat /\ increasing ex_xe /\ increasing ex_ye /\ proper ex_clip.
Proof.
  assert (I : forall l, (forallb (fun p => Qlt_bool (fst p) (snd p)) (combine l (tl l)) = true) -> increasing l).
  { intros l H i j [Hi Hj]. revert i j Hi Hj. induction l as [|a l IH]; intros i j Hi Hj; [cbn in Hj; lia|].
    destruct j as [|j]; [lia|]. destruct l as [|b l]; [cbn in Hj; lia|]. cbn [tl combine forallb fst snd] in H. apply andb_true_iff in H. destruct H as [H1 H2].
    assert (AB : (a < b)%Q) by (unfold Qlt_bool in H1; destruct (Qlt_le_dec a b); [auto|]; apply negb_true_iff in H1; apply Qle_bool_iff in q; congruence).
    destruct i as [|i].
    - destruct j as [|j]; [exact AB|]. eapply Qlt_trans; [exact AB|]. apply (IH H2 0%nat (S j)); cbn in *; lia.
    - apply (IH H2 i j); cbn in *; lia. }
  split; [cbn; lia|]. split; [cbn; lia|]. split; [apply I; reflexivity|]. split; [apply I; reflexivity|]. apply C30_hypotheses.
Qed.
Example C36_covered : forall L, get_lutevents (fun _ => 0) lut_scale lut_range lut_range ex_file = Ok L -> forall r, In r L ->
  let p := ex_quad (lu_x r) (lu_y r) in covered p (cut ex_clip (regular_xy ex_xe ex_ye) p (nearby ex_tree (regular_xy ex_xe ex_ye) p)).
Proof.
  intros L H. vm_compute in H. inversion H; subst L. intros r [<-|[<-|[]]]; vm_compute; reflexivity.
Qed.
