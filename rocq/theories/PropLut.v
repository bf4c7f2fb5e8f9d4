(** Properties C23-C25: the event lookup table (get_lutevents and
    discretize_2d_location of glmtools/io/glm.py).  [weird] is what a C cast gives
    for NaN and out-of-range numbers; it is arbitrary. *)
From Coq Require Import List ZArith QArith Qround Bool Lia Sorting.Sorted Permutation Lqa.
From Verif Require Import Base BaseProofs Traversal TraversalSpec TraversalProofs4 Glm GlmSpec GlmProofs GlmProofs2 GlmProofs3
  Lut LutSpec LutProofs PropGlm.
Import ListNotations.
Open Scope Z_scope.

Local Notation tbl := (table obs).

(** * C23: pixel identifiers *)
Lemma cast_floor : forall weird q, (0 <= q)%Q -> Qfloor q < two64 -> cast_u64 weird (Some q) = Qfloor q.
Proof.
  intros weird [n d] H0 H1. unfold cast_u64. cbn [Qnum Qden].
  assert (Hn : 0 <= n) by (unfold Qle in H0; simpl in H0; lia).
  assert (E : Z.quot n (Zpos d) = Qfloor (n # d)) by (simpl; apply Z.quot_div_nonneg; lia).
  rewrite E. assert (0 <= Qfloor (n # d)) by (simpl; apply Z.div_pos; lia).
  replace (0 <=? Qfloor (n # d)) with true by (symmetry; apply Z.leb_le; lia).
  replace (Qfloor (n # d) <? two64) with true by (symmetry; apply Z.ltb_lt; lia). reflexivity.
Qed.

Lemma index_mono : forall scale off a b, (0 < scale)%Q -> (a <= b)%Q ->
  cell_index scale off a <= cell_index scale off b.
Proof.
  intros scale off a b Hs H. unfold cell_index. apply Qfloor_resp_le.
  apply Qle_shift_div_l; auto. setoid_replace ((a - off) / scale * scale)%Q with (a - off)%Q; [lra|].
  field. intros K. lra.
Qed.
Lemma index_nonneg : forall scale off a, (0 < scale)%Q -> (off <= a)%Q -> 0 <= cell_index scale off a.
Proof.
  intros scale off a Hs H. unfold cell_index. change 0 with (Qfloor 0). apply Qfloor_resp_le.
  apply Qle_shift_div_l; auto. lra.
Qed.
Lemma index_below : forall scale off a n, (0 < scale)%Q -> (a < off + inject_Z n * scale)%Q ->
  cell_index scale off a < n.
Proof.
  intros scale off a n Hs H. unfold cell_index. rewrite Zlt_Qlt. eapply Qle_lt_trans; [apply Qfloor_le|].
  apply Qlt_shift_div_r; auto. lra.
Qed.

(** Points west of the last incomplete column get the identifier column + row * N,
    where N is the number of complete columns: different cells, different
    identifiers, all below 2^64.  [_partial]: points in [x0 + N*scale, x1] are not
    covered, see the refutation. *)
Theorem C23_id_is_row_major_partial : forall weird scale x0 x1 y0 y1, (0 < scale)%Q ->
  let N := cell_index scale x0 x1 in let M := cell_index scale y0 y1 in
  N * (M + 1) < 2 ^ 64 ->
  forall x y, (x0 <= x < x0 + inject_Z N * scale)%Q -> (y0 <= y <= y1)%Q ->
  discretize weird scale (x0, x1) (y0, y1) (Some x) (Some y)
  = cell_index scale x0 x + N * cell_index scale y0 y /\
  0 <= discretize weird scale (x0, x1) (y0, y1) (Some x) (Some y) < N * (M + 1).
Proof.
  intros weird scale x0 x1 y0 y1 Hs N M HNM x y [Hx0 Hx1] [Hy0 Hy1].
  pose proof (index_nonneg scale x0 x Hs Hx0) as A1.
  pose proof (index_below scale x0 x N Hs Hx1) as A2.
  pose proof (index_nonneg scale y0 y Hs Hy0) as B1.
  pose proof (index_mono scale y0 y y1 Hs Hy1) as B2. fold M in B2.
  assert (HN : 1 <= N) by lia.
  assert (HM : M + 1 < 2 ^ 64) by nia.
  assert (HN2 : N < 2 ^ 64) by nia.
  change (2 ^ 64) with two64 in *.
  assert (Q0 : forall off a, (off <= a)%Q -> (0 <= (a - off) / scale)%Q)
    by (intros; apply Qle_shift_div_l; auto; lra).
  assert (Xr : (x0 <= x1)%Q).
  { apply Qnot_lt_le. intros K. assert (N < 0 + 1); [|lia]. unfold N.
    assert (cell_index scale x0 x1 <= 0); [|lia]. unfold cell_index.
    change 0 with (Qfloor 0). apply Qfloor_resp_le. apply Qle_shift_div_r; auto. lra. }
  assert (E : discretize weird scale (x0, x1) (y0, y1) (Some x) (Some y)
    = cell_index scale x0 x + N * cell_index scale y0 y).
  { unfold discretize. cbn [fst snd fsubdiv option_map].
    rewrite (cast_floor weird ((x1 - x0) / scale)); [|auto|exact HN2].
    rewrite (cast_floor weird ((x - x0) / scale)); [|auto|]. 2:{ fold (cell_index scale x0 x). lia. }
    rewrite (cast_floor weird ((y - y0) / scale)); [|auto|]. 2:{ fold (cell_index scale y0 y). lia. }
    fold (cell_index scale x0 x1). fold (cell_index scale x0 x). fold (cell_index scale y0 y). fold N.
    rewrite (Z.mod_small (cell_index scale y0 y * N)) by nia. rewrite Z.mod_small by nia. lia. }
  split; [exact E|]. rewrite E. nia.
Qed.
Print Assumptions C23_id_is_row_major_partial.

Theorem C23_same_id_iff_same_cell_partial : forall weird scale x0 x1 y0 y1, (0 < scale)%Q ->
  let N := cell_index scale x0 x1 in let M := cell_index scale y0 y1 in
  N * (M + 1) < 2 ^ 64 ->
  forall x y x' y', (x0 <= x < x0 + inject_Z N * scale)%Q -> (y0 <= y <= y1)%Q ->
  (x0 <= x' < x0 + inject_Z N * scale)%Q -> (y0 <= y' <= y1)%Q ->
  (discretize weird scale (x0, x1) (y0, y1) (Some x) (Some y)
   = discretize weird scale (x0, x1) (y0, y1) (Some x') (Some y') <->
   cell_index scale x0 x = cell_index scale x0 x' /\ cell_index scale y0 y = cell_index scale y0 y').
Proof.
  intros weird scale x0 x1 y0 y1 Hs N M HNM x y x' y' Hx Hy Hx' Hy'.
  destruct (C23_id_is_row_major_partial weird scale x0 x1 y0 y1 Hs HNM x y Hx Hy) as [E _].
  destruct (C23_id_is_row_major_partial weird scale x0 x1 y0 y1 Hs HNM x' y' Hx' Hy') as [E' _].
  rewrite E, E'. fold N.
  destruct Hx as [Hx0 Hx1]. destruct Hx' as [Hx0' Hx1'].
  pose proof (index_nonneg scale x0 x Hs Hx0) as A1. pose proof (index_below scale x0 x N Hs Hx1) as A2.
  pose proof (index_nonneg scale x0 x' Hs Hx0') as A1'. pose proof (index_below scale x0 x' N Hs Hx1') as A2'.
  split; [|intros [-> ->]; reflexivity].
  intros K. assert (cell_index scale y0 y = cell_index scale y0 y') by nia. split; [nia|auto].
Qed.
Print Assumptions C23_same_id_iff_same_cell_partial.

(** Two numbers in the same cell are less than one interval apart, and numbers at
    least one interval apart are in different cells: pixels, which are at least 224
    microradians apart, are never merged for the default interval of 28. *)
Theorem C23_cells_are_intervals : forall scale off a b, (0 < scale)%Q ->
  cell_index scale off a = cell_index scale off b -> (a - b < scale)%Q /\ (b - a < scale)%Q.
Proof.
  intros scale off a b Hs H. unfold cell_index in H.
  pose proof (Qfloor_le ((a - off) / scale)) as A1. pose proof (Qlt_floor ((a - off) / scale)) as A2.
  pose proof (Qfloor_le ((b - off) / scale)) as B1. pose proof (Qlt_floor ((b - off) / scale)) as B2.
  rewrite H in A1, A2. rewrite inject_Z_plus in A2, B2. change (inject_Z 1) with 1%Q in *.
  set (f := inject_Z (Qfloor ((b - off) / scale))) in *.
  assert (Ea : ((a - off) / scale * scale == a - off)%Q) by (field; intros K; lra).
  assert (Eb : ((b - off) / scale * scale == b - off)%Q) by (field; intros K; lra).
  set (u := ((a - off) / scale)%Q) in *. set (v := ((b - off) / scale)%Q) in *. split; nra.
Qed.
Print Assumptions C23_cells_are_intervals.

(** Default arguments: identifiers are below 2^32, so they fit the declared type
    (and a 32 bit one) and no sum wraps. *)
Theorem C23_default_fits_partial : forall weird x y,
  (-(31 # 100) <= x < 30997 # 100000)%Q -> (-(31 # 100) <= y <= 31 # 100)%Q ->
  0 <= discretize weird lut_scale lut_range lut_range (Some x) (Some y) < 2 ^ 32.
Proof.
  intros weird x y [Hx Hx'] Hy. unfold lut_range.
  assert (H1 : (0 < lut_scale)%Q) by reflexivity.
  assert (H2 : cell_index lut_scale (-(31 # 100)) (31 # 100)
    * (cell_index lut_scale (-(31 # 100)) (31 # 100) + 1) < 2 ^ 32) by (vm_compute; reflexivity).
  assert (H3 : 2 ^ 32 < 2 ^ 64) by reflexivity.
  pose proof (C23_id_is_row_major_partial weird lut_scale (-(31 # 100)) (31 # 100) (-(31 # 100)) (31 # 100)
    H1 (Z.lt_trans _ _ _ H2 H3) x y) as K. cbv zeta in K.
  destruct K as [_ [K1 K2]]; auto.
  - split; auto. eapply Qlt_le_trans; [exact Hx'|]. vm_compute. discriminate.
  - split; [exact K1|exact (Z.lt_trans _ _ _ K2 H2)].
Qed.
Print Assumptions C23_default_fits_partial.

(** The east edge: column 22142 of one row and column 0 of the next row get the
    same identifier. *)
Theorem C23_ids_unique_refuted :
  ~ (forall weird x y x' y',
      (-(31 # 100) <= x <= 31 # 100)%Q -> (-(31 # 100) <= y <= 31 # 100)%Q ->
      (-(31 # 100) <= x' <= 31 # 100)%Q -> (-(31 # 100) <= y' <= 31 # 100)%Q ->
      discretize weird lut_scale lut_range lut_range (Some x) (Some y)
      = discretize weird lut_scale lut_range lut_range (Some x') (Some y') ->
      cell_index lut_scale (-(31 # 100)) x = cell_index lut_scale (-(31 # 100)) x').
Proof.
  intros H.
  specialize (H (fun _ => 0) (30999 # 100000)%Q 0%Q (-(31 # 100))%Q (28 # 1000000)%Q).
  assert (K : cell_index lut_scale (-(31 # 100)) (30999 # 100000)
    = cell_index lut_scale (-(31 # 100)) (-(31 # 100))).
  { apply H; [| | | |vm_compute; reflexivity]; split; vm_compute; discriminate. }
  vm_compute in K. discriminate.
Qed.
Print Assumptions C23_ids_unique_refuted.

Example C23_example :
  discretize (fun _ => 0) lut_scale lut_range lut_range (Some (1 # 10)%Q) (Some 0%Q)
  = 14642 + 22142 * 11071.
Proof. vm_compute. reflexivity. Qed.

(** * C24: energy and event counts *)
Section LutProps.
Variable weird : fval -> Z.
Variables (scale : Q) (xr yr : Q * Q).
Let pixel (e : row obs) : Z := discretize weird scale xr yr (o_x (rdat e)) (o_y (rdat e)).

(** One row per occupied cell, in increasing order of the identifiers; each row
    holds exactly the events of its cell; totals are conserved. *)
Theorem C24_table_conserves : forall (F G E : tbl) L,
  numbers (areas F) -> numbers (areas G) -> numbers (energies E) ->
  get_lutevents weird scale xr yr [F; G; E] = Ok L ->
  StronglySorted Z.lt (map lu_id L) /\
  (forall k, In k (map lu_id L) <-> exists e, In e E /\ pixel e = k) /\
  (forall r, In r L -> let C := cell_events pixel E (lu_id r) in
     C <> [] /\ lu_count r = List.length C /\ is_num (lu_energy r) (total (energies C))) /\
  list_sum (map lu_count L) = List.length E /\
  numbers (map lu_energy L) /\ (total (map lu_energy L) == total (energies E))%Q.
Proof.
  intros F G E L NF NG NE H. destruct (lut_spec weird scale xr yr F G E L NF NG H) as (_ & _ & _ & Hid & HR).
  split; [rewrite Hid; apply zunique_sorted|].
  split; [intros k; rewrite Hid, zunique_in, in_map_iff;
    split; intros (e & K1 & K2); exists e; split; assumption|].
  split; [|split].
  - intros r Hr. rewrite Forall_forall in HR. destruct (HR r Hr) as (h1 & h2 & h3 & _). cbv zeta.
    split; [exact h1|]. split; [exact h2|].
    rewrite h3. apply fsum_num. apply (sub_numbers _ E); auto. intros x Hx. apply filter_In in Hx. tauto.
  - erewrite count_total; [|exact HR]. rewrite Hid. apply Permutation_length. apply cells_perm.
  - destruct (energy_total weird scale xr yr F G E L NE HR) as [K1 K2]. split; [exact K2|].
    rewrite K1, Hid. apply total_perm. unfold energies. apply Permutation_map. apply cells_perm.
Qed.

(** The position of a row is the mean of the positions of its events, so it lies in
    any box that contains them. *)
Theorem C24_position_is_mean : forall (F G E : tbl) L r,
  numbers (areas F) -> numbers (areas G) -> numbers (xs E) -> numbers (ys E) ->
  get_lutevents weird scale xr yr [F; G; E] = Ok L -> In r L ->
  let C := cell_events pixel E (lu_id r) in
  mean_of (xs C) (lu_x r) /\ mean_of (ys C) (lu_y r) /\
  (forall lo hi, (forall q, In (Some q) (xs C) -> lo <= q <= hi)%Q ->
     exists m, lu_x r = Some m /\ (lo <= m <= hi)%Q) /\
  (forall lo hi, (forall q, In (Some q) (ys C) -> lo <= q <= hi)%Q ->
     exists m, lu_y r = Some m /\ (lo <= m <= hi)%Q).
Proof.
  intros F G E L r NF NG NX NY H Hr C.
  destruct (lut_spec weird scale xr yr F G E L NF NG H) as (_ & _ & _ & _ & HR).
  rewrite Forall_forall in HR. destruct (HR r Hr) as (h1 & _ & _ & hx & hy & _). fold C in h1, hx, hy.
  assert (nx : numbers (xs C)) by (apply (sub_numbers _ E); auto; intros x Hx; apply filter_In in Hx; tauto).
  assert (ny : numbers (ys C)) by (apply (sub_numbers _ E); auto; intros x Hx; apply filter_In in Hx; tauto).
  assert (ex : xs C <> []) by (intros K; apply h1; apply map_eq_nil in K; auto).
  assert (ey : ys C <> []) by (intros K; apply h1; apply map_eq_nil in K; auto).
  assert (Mx : mean_of (xs C) (lu_x r)) by (rewrite hx; apply fmean_num; auto).
  assert (My : mean_of (ys C) (lu_y r)) by (rewrite hy; apply fmean_num; auto).
  split; [exact Mx|]. split; [exact My|]. split; intros lo hi HB.
  - exact (mean_bounds _ _ lo hi ex nx HB Mx).
  - exact (mean_bounds _ _ lo hi ey ny HB My).
Qed.

(** The call succeeds for every nonempty dataset whose events name existing flashes
    and groups, in particular for an opened consistent file. *)
Theorem C24_table_exists : forall (F G E : tbl), F <> [] -> G <> [] -> E <> [] ->
  numbers (areas F) -> derived_ok F G E ->
  exists L, get_lutevents weird scale xr yr [F; G; E] = Ok L.
Proof.
  intros F G E n1 n2 n3 NF ((U & NO) & D1 & _). apply lut_total; auto.
  apply linked_no_orphans in NO. destruct NO as [LF LE].
  intros e He. destruct (D1 e He) as (g & Hg & Eg & Ef). split.
  - rewrite Ef. destruct (LF g Hg) as (f & Hf & Efg). apply in_map_iff. eauto.
  - rewrite <- Eg. apply in_map; auto.
Qed.

(** * C25: flashes and groups per cell *)
Theorem C25_counts_areas_minima : forall (F G E : tbl) L r,
  numbers (areas F) -> numbers (areas G) ->
  get_lutevents weird scale xr yr [F; G; E] = Ok L -> In r L ->
  let C := cell_events pixel E (lu_id r) in
  distinct_count (lu_fcount r) (map (fun e => o_flash (rdat e)) C) /\
  distinct_count (lu_gcount r) (map rpid C) /\
  (forall e, In e C -> In (o_flash (rdat e)) (map rid F) /\ In (rpid e) (map rid G)) /\
  is_num (lu_farea r) (total (areas (flashes_of F C))) /\
  is_num (lu_garea r) (total (areas (groups_of G C))) /\
  least_of (areas (flashes_of F C)) (lu_minarea r).
Proof.
  intros F G E L r NF NG H Hr C.
  destruct (lut_spec weird scale xr yr F G E L NF NG H) as (_ & _ & _ & _ & HR).
  rewrite Forall_forall in HR. destruct (HR r Hr) as (_ & _ & _ & _ & _ & K). exact K.
Qed.

(** With unique ids the counts are the numbers of flashes and groups whose areas
    are added, so each is counted once. *)
Theorem C25_each_flash_once : forall (F G E : tbl) L r,
  numbers (areas F) -> numbers (areas G) -> NoDup (map rid F) -> NoDup (map rid G) ->
  get_lutevents weird scale xr yr [F; G; E] = Ok L -> In r L ->
  let C := cell_events pixel E (lu_id r) in
  lu_fcount r = List.length (flashes_of F C) /\ lu_gcount r = List.length (groups_of G C).
Proof.
  intros F G E L r NF NG UF UG H Hr C.
  destruct (C25_counts_areas_minima F G E L r NF NG H Hr) as (D1 & D2 & P & _). fold C in D1, D2, P.
  assert (Gen : forall (T : tbl) (key : row obs -> Z) n, NoDup (map rid T) ->
    (forall e, In e C -> In (key e) (map rid T)) -> distinct_count n (map key C) ->
    n = List.length (filter (fun f => existsb (fun e => key e =? rid f) C) T)).
  { intros T key n UT HT (d & ND & Hd & ->).
    rewrite <- (map_length rid (filter _ T)). apply Permutation_length.
    apply NoDup_Permutation; auto.
    - apply nodup_map_filter; auto.
    - intros i. rewrite Hd, !in_map_iff. split.
      + intros (e & <- & He). specialize (HT e He). apply in_map_iff in HT. destruct HT as (f & Ef & Hf).
        exists f. split; auto. apply filter_In. split; auto. apply existsb_exists. exists e.
        split; auto. apply Z.eqb_eq; auto.
      + intros (f & <- & Hf). apply filter_In in Hf. destruct Hf as [_ Hb]. apply existsb_exists in Hb.
        destruct Hb as (e & He & Ee). apply Z.eqb_eq in Ee. eauto. }
  split; [apply (Gen F (fun e => o_flash (rdat e)))|apply (Gen G rpid)]; auto; intros e He; apply P; auto.
Qed.

(** An event that names a missing flash or group makes the call raise KeyError. *)
Theorem C25_missing_parent_raises : forall (F G E : tbl), F <> [] -> G <> [] -> numbers (areas F) ->
  (exists e, In e E /\ (~ In (o_flash (rdat e)) (map rid F) \/ ~ In (rpid e) (map rid G))) ->
  get_lutevents weird scale xr yr [F; G; E] = Err KeyError.
Proof. apply lut_key_error. Qed.
End LutProps.
Print Assumptions C24_table_conserves.
Print Assumptions C24_position_is_mean.
Print Assumptions C24_table_exists.
Print Assumptions C25_counts_areas_minima.
Print Assumptions C25_each_flash_once.
Print Assumptions C25_missing_parent_raises.

(** Two flashes share a cell: flash 1 has two groups there. *)
Definition lob x y e a fl : obs := mkObs None None e a x y fl 0 0.
Definition lF : tbl := [mkRow 1 0 (lob None None None (q1 10) 0); mkRow 2 0 (lob None None None (q1 4) 0)].
Definition lG : tbl := [mkRow 5 1 (lob None None None (q1 3) 0); mkRow 6 1 (lob None None None (q1 2) 0);
                        mkRow 7 2 (lob None None None (q1 1) 0)].
Definition lE : tbl := [mkRow 100 5 (lob (Some 0%Q) (Some 0%Q) (q1 1) None 1);
                        mkRow 101 6 (lob (Some (1 # 1000000)%Q) (Some 0%Q) (q1 2) None 1);
                        mkRow 102 7 (lob (Some 0%Q) (Some 0%Q) (q1 4) None 2);
                        mkRow 103 7 (lob (Some (1 # 100)%Q) (Some 0%Q) (q1 8) None 2)].
Example C24_C25_example : exists a b,
  get_lutevents (fun _ => 0) lut_scale lut_range lut_range [lF; lG; lE] = Ok [a; b] /\
  (lu_count a, lu_fcount a, lu_gcount a, lu_count b, lu_fcount b, lu_gcount b) = (3, 2, 3, 1, 1, 1)%nat /\
  map (option_map Qred) [lu_energy a; lu_farea a; lu_garea a; lu_minarea a; lu_energy b; lu_farea b]
  = [q1 7; q1 14; q1 6; q1 4; q1 8; q1 4].
Proof. do 2 eexists. split; [vm_compute; reflexivity|]. vm_compute. auto. Qed.
Example C25_example_missing :
  get_lutevents (fun _ => 0) lut_scale lut_range lut_range
    [lF; lG; lE ++ [mkRow 104 7 (lob (Some 0%Q) (Some 0%Q) (q1 8) None 9)]] = Err KeyError.
Proof. vm_compute. reflexivity. Qed.
