(** C40, C54: aggregation of frames. *)
From Coq Require Import List ZArith QArith Bool String Lia Lqa Setoid.
From Verif Require Import Base BaseProofs Glm GlmProofs3 Lut Aggregate AggregateSpec AggregateProofs.
Import ListNotations.
Open Scope Z_scope.

Lemma filter_same : forall P l r (fs : list (frame P)), filter (in_bin l r) fs = filter (coverb l r) fs.
Proof. reflexivity. Qed.

(** The result consists of consecutive intervals of the given length.  Every frame after
    the first edge and up to the last is in exactly one of them.  Missing: the frames at
    the first edge; without start_end these are the first frames of the series. *)
Theorem C40_each_frame_once_partial : forall P (g : series P) minutes start_end out, aggregate g minutes start_end = Ok out ->
  exists lo hi, consecutive minutes lo out hi /\ 0 < minutes /\
    match start_end with
    | Some (s, e) => lo = s /\ hi <= e < hi + 60 * 1000000 * minutes
    | None => (exists f, In f (s_frames g) /\ fr_time f = lo) /\ forall f, In f (s_frames g) -> lo <= fr_time f < hi
    end /\
    forall f, In f (s_frames g) -> lo < fr_time f <= hi ->
      exists before iv after, out = before ++ iv :: after /\ covers iv f /\ forall iv', In iv' (before ++ after) -> ~ covers iv' f.
Proof.
  intros P g minutes se out H. destruct (aggregate_inv P g minutes se out H) as (Hm & _ & _ & _ & s & e & HSE & HO & (iv & f & Hiv & Hf & C)).
  set (n := Z.to_nat (Z.quot (e - s) (60000000 * minutes))) in *.
  match type of HO with _ = map ?m _ => set (mk := m) in HO end.
  pose proof (bins_consecutive P minutes s mk n 0 Hm (fun b => conj eq_refl eq_refl)) as K. rewrite <- HO in K. change (Z.of_nat 0) with 0 in K. rewrite Z.mul_0_r, Z.add_0_r, Nat.add_0_l in K.
  exists s, (s + 60000000 * minutes * Z.of_nat n). split; [exact K|]. split; [exact Hm|].
  assert (N0 : 0 < Z.quot (e - s) (60000000 * minutes)).
  { destruct (Z_lt_le_dec 0 (Z.quot (e - s) (60000000 * minutes))) as [L|L]; [exact L|exfalso].
    assert (n = 0%nat) by (subst n; lia). rewrite HO, H0 in Hiv. destruct Hiv. }
  assert (D0 : 0 <= e - s).
  { destruct (Z_le_gt_dec 0 (e - s)) as [L|G]; [exact L|exfalso]. pose proof (Z.quot_opp_l (e - s) (60000000 * minutes) ltac:(lia)) as Q.
    assert (0 <= Z.quot (- (e - s)) (60000000 * minutes)) by (apply Z.quot_pos; lia). lia. }
  assert (EN : Z.of_nat n = (e - s) / (60000000 * minutes)) by (subst n; rewrite Z2Nat.id by lia; apply Z.quot_div_nonneg; lia).
  assert (B : s + 60000000 * minutes * Z.of_nat n <= e < s + 60000000 * minutes * Z.of_nat n + 60000000 * minutes).
  { rewrite EN. pose proof (Z.mul_div_le (e - s) (60000000 * minutes) ltac:(lia)). pose proof (Z.mul_succ_div_gt (e - s) (60000000 * minutes) ltac:(lia)). lia. }
  split.
  - destruct se as [p|].
    + rewrite HSE. split; [reflexivity|]. lia.
    + destruct HSE as (NE & Es & Ee). rewrite Es in *. rewrite Ee in *. clear Es Ee. assert (NE' : map fr_time (s_frames g) <> []) by (destruct (s_frames g); [congruence|discriminate]).
      destruct (zmin_spec _ NE') as [M1 M2]. destruct (zmax_spec _ NE') as [X1 X2]. split; [apply in_map_iff in M1; destruct M1 as (f' & E & Hf'); exists f'; split; [exact Hf'|exact E]|].
      intros f' Hf'. specialize (M2 _ (in_map fr_time _ _ Hf')). specialize (X2 _ (in_map fr_time _ _ Hf')). lia.
  - intros f' Hf' T. exact (consecutive_unique P _ _ _ _ f' Hm K T).
Qed.
Print Assumptions C40_each_frame_once_partial.

(** What each interval holds, for all series. *)
Theorem C40_interval_values : forall P (g : series P) minutes start_end out, aggregate g minutes start_end = Ok out ->
  forall iv p, In iv out -> let inside := filter (coverb (iv_left iv) (iv_right iv)) (s_frames g) in
  (inside = [] -> forall v, iv_at iv v p = None) /\
  (inside <> [] ->
    (forall v, summable v -> exists q, iv_at iv v p = Some q /\ (q == total (fun f => fr_at f v p) inside)%Q) /\
    least (map (fun f => fr_at f "minimum_flash_area"%string p) inside) (iv_at iv "minimum_flash_area"%string p) /\
    let density := total (fun f => fr_at f "flash_extent_density"%string p) inside in
    (0 < density -> exists q, iv_at iv "average_flash_area"%string p = Some q /\
       q * density == total (fun f => fmul (fr_at f "average_flash_area"%string p) (fr_at f "flash_extent_density"%string p)) inside)%Q /\
    (density == 0 -> iv_at iv "average_flash_area"%string p = None)%Q).
Proof.
  intros P g minutes se out H iv p Hiv inside. destruct (aggregate_inv P g minutes se out H) as (Hm & _ & _ & _ & s & e & HSE & HO & _).
  assert (V : forall v, iv_at iv v p = bin_value inside v p).
  { intros v. rewrite HO in Hiv. apply in_map_iff in Hiv. destruct Hiv as (b & <- & _). reflexivity. }
  assert (NE : inside <> [] -> exists f fs, inside = f :: fs) by (intros K; destruct inside as [|f fs]; [congruence|eauto]).
  clearbody inside. clear - V NE. split.
  - intros E v. rewrite V, E. reflexivity.
  - intros K. destruct (NE K) as (f0 & fs0 & E0). clear NE K. split; [|split; [|split]].
    + intros v Hv. rewrite V. destruct (nansum_total P (fun f => fr_at f v p) inside) as (q & Eq & Et). exists q. split; [|exact Et]. rewrite <- Eq. rewrite E0.
      destruct Hv as [<-|[<-|[<-|[<-|[<-|[]]]]]]; reflexivity.
    + rewrite V. replace (bin_value inside "minimum_flash_area" p) with (nanmin (map (fun f => fr_at f "minimum_flash_area"%string p) inside)) by (rewrite E0; reflexivity). apply nanmin_least.
    + intros D. rewrite V. replace (bin_value inside "average_flash_area" p) with (fquot (nansum (map (fun f => summed f "total_flash_area" p) inside)) (nansum (map (fun f => summed f "flash_extent_density" p) inside))) by (rewrite E0; reflexivity).
      destruct (nansum_total P (fun f => summed f "total_flash_area" p) inside) as (a & -> & Ea). destruct (nansum_total P (fun f => summed f "flash_extent_density" p) inside) as (b & -> & Eb).
      unfold fquot. destruct (Qeq_bool b 0) eqn:Z; [apply Qeq_bool_iff in Z; exfalso; rewrite Eb in Z; change (total (fun f => summed f "flash_extent_density" p) inside) with (total (fun f => fr_at f "flash_extent_density"%string p) inside) in Z; lra|].
      eexists. split; [reflexivity|]. change (total (fun f => fr_at f "flash_extent_density"%string p) inside) with (total (fun f => summed f "flash_extent_density" p) inside) in D |- *.
      rewrite <- Eb, Ea. change (total (fun f => summed f "total_flash_area" p) inside) with (total (fun f => fmul (fr_at f "average_flash_area"%string p) (fr_at f "flash_extent_density"%string p)) inside).
      field. rewrite Eb. lra.
    + intros D. rewrite V. replace (bin_value inside "average_flash_area" p) with (fquot (nansum (map (fun f => summed f "total_flash_area" p) inside)) (nansum (map (fun f => summed f "flash_extent_density" p) inside))) by (rewrite E0; reflexivity).
      destruct (nansum_total P (fun f => summed f "flash_extent_density" p) inside) as (b & -> & Eb). unfold nansum, fquot.
      replace (Qeq_bool b 0) with true; [reflexivity|]. symmetry. apply Qeq_bool_iff. rewrite Eb. exact D.
Qed.
Print Assumptions C40_interval_values.

(** Which fields the result has, and the fields that are constant or of which the least is kept. *)
Definition kept_fields : list string :=
  ["flash_extent_density"; "flash_centroid_density"; "total_energy"; "group_extent_density"; "group_centroid_density";
   "minimum_flash_area"; "goes_imager_projection"; "nominal_satellite_subpoint_lat"; "nominal_satellite_subpoint_lon"]%string.
Theorem C40_fields : forall P (g : series P) minutes start_end out, aggregate g minutes start_end = Ok out ->
  forall iv, In iv out ->
  (forall v, In v (iv_vars iv) <-> (In v kept_fields /\ In v (s_vars g)) \/
     In v ["average_flash_area"; "average_group_area"; "total_flash_area"; "total_group_area"]%string) /\
  (forall v p, In v ["minimum_flash_area"; "goes_imager_projection"; "nominal_satellite_subpoint_lat"; "nominal_satellite_subpoint_lon"]%string ->
     least (map (fun f => fr_at f v p) (filter (coverb (iv_left iv) (iv_right iv)) (s_frames g))) (iv_at iv v p)).
Proof.
  intros P g minutes se out H iv Hiv. destruct (aggregate_inv P g minutes se out H) as (_ & _ & _ & _ & s & e & _ & HO & _).
  assert (HH : forall v, has g v = true <-> In v (s_vars g)).
  { intros v. unfold has. rewrite existsb_exists. split; [intros (w & W & X); apply String.eqb_eq in X; subst; auto|intros W; exists v; split; auto; apply String.eqb_refl]. }
  rewrite HO in Hiv. apply in_map_iff in Hiv. destruct Hiv as (b & <- & _). cbn [iv_vars iv_left iv_right iv_at]. split.
  - intros v. rewrite !in_app_iff, !filter_In, !HH. unfold sum_vars, min_vars, kept_fields. cbn [In]. tauto.
  - intros v p Hv. change (coverb (fst b) (snd b)) with (@in_bin P (fst b) (snd b)). destruct (filter (in_bin (fst b) (snd b)) (s_frames g)) as [|f fs] eqn:E; [cbn; intros w []|].
    replace (bin_value (f :: fs) v p) with (nanmin (map (fun f => fr_at f v p) (f :: fs))); [apply nanmin_least|].
    destruct Hv as [<-|[<-|[<-|[<-|[]]]]]; reflexivity.
Qed.
Print Assumptions C40_fields.
(** Not all other fields are summed, as the documentation has it: fields by other names are dropped. *)
Theorem C40_other_fields_refuted : forall P (g : series P) minutes start_end out iv v, aggregate g minutes start_end = Ok out -> In iv out ->
  In v ["event_density"; "DQF"; "average_event_area"]%string -> ~ In v (iv_vars iv).
Proof.
  intros P g minutes se out iv v H Hiv Hv K. destruct (C40_fields P g minutes se out H iv Hiv) as [F _]. apply F in K. unfold kept_fields in K. cbn [In] in K, Hv.
  repeat (destruct Hv as [<-|Hv]; [intuition discriminate|]). contradiction.
Qed.
Print Assumptions C40_other_fields_refuted.

(** The sums over all intervals are the sums over the frames in the range. *)
Theorem C40_totals_partial : forall P (g : series P) minutes start_end out, aggregate g minutes start_end = Ok out ->
  exists lo hi, consecutive minutes lo out hi /\
    forall v p, summable v -> (qsum (map (fun iv => or0 (iv_at iv v p)) out) == total (fun f => fr_at f v p) (filter (coverb lo hi) (s_frames g)))%Q.
Proof.
  intros P g minutes se out H. destruct (C40_each_frame_once_partial P g minutes se out H) as (lo & hi & C & Hm & _). exists lo, hi. split; [exact C|].
  intros v p Hv. apply consecutive_total with (minutes := minutes) (k := fun iv => iv_at iv v p); auto. intros iv Hiv.
  destruct (C40_interval_values P g minutes se out H iv p Hiv) as [E N]. set (inside := filter _ _) in *. clearbody inside. destruct inside as [|f fs].
  - rewrite E by reflexivity. reflexivity.
  - destruct (N ltac:(discriminate)) as (S & _). destruct (S v Hv) as (q & -> & Eq). exact Eq.
Qed.
Print Assumptions C40_totals_partial.

(** It succeeds whenever the fields are there and the times span something. *)
Theorem C40_succeeds : forall P (g : series P) minutes, 0 < minutes ->
  In "average_flash_area"%string (s_vars g) -> In "flash_extent_density"%string (s_vars g) -> In "group_extent_density"%string (s_vars g) ->
  (exists f f', In f (s_frames g) /\ In f' (s_frames g) /\ fr_time f < fr_time f') ->
  exists out, aggregate g minutes None = Ok out.
Proof.
  intros P g minutes Hm V1 V2 V3 (f & f' & Hf & Hf' & T).
  assert (HH : forall v, In v (s_vars g) -> has g v = true) by (intros v Hv; apply existsb_exists; exists v; split; [exact Hv|apply String.eqb_refl]).
  unfold aggregate. destruct (s_frames g) as [|f0 fs] eqn:EF; [destruct Hf|]. rewrite <- EF in *. cbn [bind fst snd].
  rewrite (HH _ V1), (HH _ V2), (HH _ V3). cbn [andb negb].
  destruct (Z.eqb_spec (60000000 * minutes) 0); [lia|]. destruct (Z.ltb_spec (60000000 * minutes) 0); [lia|].
  assert (NE : map fr_time (s_frames g) <> []) by (rewrite EF; discriminate).
  destruct (zmin_spec _ NE) as [_ M2]. destruct (zmax_spec _ NE) as [_ X2].
  set (mn := zmin_list (map fr_time (s_frames g))) in *. set (mx := zmax_list (map fr_time (s_frames g))) in *. set (dt := 60000000 * minutes) in *.
  pose proof (M2 _ (in_map fr_time _ _ Hf)) as A1. pose proof (X2 _ (in_map fr_time _ _ Hf')) as A2. clear M2 X2.
  set (k := (fr_time f' - 1 - mn) / dt). assert (DT : 0 < dt) by lia.
  assert (K : existsb (fun b => existsb (in_bin (fst b) (snd b)) (s_frames g)) (map (fun i => (mn + dt * Z.of_nat i, mn + dt * Z.of_nat (S i))) (seq 0 (Z.to_nat (Z.quot (mx + dt - mn) dt)))) = true).
  { apply existsb_exists. exists (mn + dt * Z.of_nat (Z.to_nat k), mn + dt * Z.of_nat (S (Z.to_nat k))).
    assert (K0 : 0 <= k) by (apply Z.div_pos; lia). split.
    - apply in_map_iff. exists (Z.to_nat k). split; [reflexivity|]. apply in_seq. split; [lia|]. rewrite Nat.add_0_l. apply Z2Nat.inj_lt; auto; [apply Z.quot_pos; lia|].
      rewrite Z.quot_div_nonneg by lia. replace (mx + dt - mn) with ((mx - mn) + 1 * dt) by lia. rewrite Z.div_add by lia.
      assert (k <= (mx - mn) / dt) by (apply Z.div_le_mono; lia). lia.
    - apply existsb_exists. exists f'. split; [exact Hf'|]. unfold in_bin. cbn [fst snd]. rewrite Nat2Z.inj_succ, !Z2Nat.id by auto.
      pose proof (Z.mul_div_le (fr_time f' - 1 - mn) dt DT). pose proof (Z.mul_succ_div_gt (fr_time f' - 1 - mn) dt DT). fold k in H, H0.
      apply andb_true_iff. rewrite Z.ltb_lt, Z.leb_le. lia. }
  rewrite K. cbn [negb]. eexists. reflexivity.
Qed.
Print Assumptions C40_succeeds.

(** Two frames, one minute apart: the first one is lost. *)
Definition all_vars : list string := ["flash_extent_density"; "flash_centroid_density"; "average_flash_area"; "total_energy"; "group_extent_density"; "group_centroid_density"; "average_group_area"; "minimum_flash_area"]%string.
Definition ex_frame (t : Z) (fed afa ged aga : Q) : frame unit :=
  mkFrame t (fun v _ => if String.eqb v "flash_extent_density" then Some fed else if String.eqb v "average_flash_area" then Some afa
    else if String.eqb v "group_extent_density" then Some ged else if String.eqb v "average_group_area" then Some aga else Some (1 # 1)).
Definition ex_series : series unit := mkSeries all_vars [ex_frame 0 3 100 6 50; ex_frame 60000000 4 200 8 50; ex_frame 120000000 4 100 8 50].
Theorem C40_first_frame_refuted : ~ (forall P (g : series P) minutes out, aggregate g minutes None = Ok out ->
  forall v p, summable v -> (qsum (map (fun iv => or0 (iv_at iv v p)) out) == total (fun f => fr_at f v p) (s_frames g))%Q).
Proof.
  intros H. destruct (aggregate ex_series 5 None) as [out|] eqn:E; [|vm_compute in E; discriminate E].
  pose proof (H unit ex_series 5 out E "flash_extent_density"%string tt (or_introl eq_refl)) as K. vm_compute in E. inversion E; subst out. vm_compute in K. discriminate K.
Qed.
Print Assumptions C40_first_frame_refuted.
(** In fact it is lost always, for every series, with the default arguments. *)
Theorem C40_first_frame_lost_refuted : forall P (g : series P) minutes out f, aggregate g minutes None = Ok out ->
  In f (s_frames g) -> (forall f', In f' (s_frames g) -> fr_time f <= fr_time f') -> forall iv, In iv out -> ~ covers iv f.
Proof.
  intros P g minutes out f H Hf Hmin iv Hiv. destruct (C40_each_frame_once_partial P g minutes None out H) as (lo & hi & C & Hm & ((f0 & Hf0 & E0) & _) & _).
  destruct (consecutive_in P _ _ _ _ Hm C iv Hiv) as (A & _). specialize (Hmin f0 Hf0). unfold covers. lia.
Qed.
Print Assumptions C40_first_frame_lost_refuted.
(** The average group area is made from the flash fields. *)
Theorem C40_group_area_refuted : ~ (forall P (g : series P) minutes start_end out iv p, aggregate g minutes start_end = Ok out -> In iv out ->
  let inside := filter (coverb (iv_left iv) (iv_right iv)) (s_frames g) in
  let density := total (fun f => fr_at f "group_extent_density"%string p) inside in
  (0 < density -> exists q, iv_at iv "average_group_area"%string p = Some q /\
     q * density == total (fun f => fmul (fr_at f "average_group_area"%string p) (fr_at f "group_extent_density"%string p)) inside)%Q).
Proof.
  intros H. destruct (aggregate ex_series 5 None) as [[|iv out]|] eqn:E; try (vm_compute in E; discriminate E).
  specialize (H unit ex_series 5 None (iv :: out) iv tt E (or_introl eq_refl)). vm_compute in E. inversion E; subst iv out. vm_compute in H.
  destruct H as (q & Eq & K); [reflexivity|]. inversion Eq; subst q. vm_compute in K. discriminate K.
Qed.
Print Assumptions C40_group_area_refuted.

(** What it is instead: the flash areas of the frames, weighted by the number of flashes,
    over the number of groups. *)
Theorem C40_group_area_partial : forall P (g : series P) minutes start_end out iv p, aggregate g minutes start_end = Ok out -> In iv out ->
  let inside := filter (coverb (iv_left iv) (iv_right iv)) (s_frames g) in
  let density := total (fun f => fr_at f "group_extent_density"%string p) inside in
  (inside <> [] -> 0 < density -> exists q, iv_at iv "average_group_area"%string p = Some q /\
     q * density == total (fun f => fmul (fr_at f "average_flash_area"%string p) (fr_at f "flash_extent_density"%string p)) inside)%Q.
Proof.
  intros P g minutes se out iv p H Hiv inside density K D. destruct (aggregate_inv P g minutes se out H) as (_ & _ & _ & _ & s & e & _ & HO & _).
  assert (V : iv_at iv "average_group_area"%string p = bin_value inside "average_group_area" p).
  { rewrite HO in Hiv. apply in_map_iff in Hiv. destruct Hiv as (b & <- & _). reflexivity. }
  rewrite V. replace (bin_value inside "average_group_area" p) with (fquot (nansum (map (fun f => summed f "total_group_area" p) inside)) (nansum (map (fun f => summed f "group_extent_density" p) inside)))
    by (destruct inside; [congruence|reflexivity]).
  destruct (nansum_total P (fun f => summed f "total_group_area" p) inside) as (a & -> & Ea). destruct (nansum_total P (fun f => summed f "group_extent_density" p) inside) as (b & -> & Eb).
  unfold fquot. assert (EB : (b == density)%Q) by exact Eb.
  destruct (Qeq_bool b 0) eqn:Z; [apply Qeq_bool_iff in Z; exfalso; lra|].
  eexists. split; [reflexivity|]. rewrite <- EB.
  change (total (fun f => fmul (fr_at f "average_flash_area"%string p) (fr_at f "flash_extent_density"%string p)) inside) with (total (fun f => summed f "total_group_area" p) inside).
  rewrite <- Ea. field. lra.
Qed.
Print Assumptions C40_group_area_partial.

Example C40_ex : exists iv, aggregate ex_series 5 None = Ok [iv] /\ iv_left iv = 0 /\ iv_right iv = 300000000 /\
  (exists q, iv_at iv "average_flash_area"%string tt = Some q /\ q == 150)%Q /\ (exists q, iv_at iv "flash_extent_density"%string tt = Some q /\ q == 8)%Q.
Proof. eexists. split; [reflexivity|]. split; [reflexivity|]. split; [reflexivity|]. split; eexists; split; reflexivity. Qed.
Example C40_ex_start_end : exists a b, aggregate ex_series 1 (Some (-60000000, 60000000)) = Ok [a; b] /\ iv_at a "flash_extent_density"%string tt = Some (3 + 0)%Q /\ iv_at b "flash_extent_density"%string tt = Some (4 + 0)%Q.
Proof. do 2 eexists. split; [reflexivity|]. split; reflexivity. Qed.

(** * C54: a series of files *)
(** Frames are the files in the order given, timed by their starts, and the recorded
    coverage runs from the earliest start to the latest end. *)
Theorem C54_series_of_files : forall P (files : list (imfile P)) g first last, open_series files = Ok (g, first, last) ->
  List.length (s_frames g) = List.length files /\
  (forall k fl, nth_error files k = Some fl -> exists f, nth_error (s_frames g) k = Some f /\ fr_time f = if_start fl /\ forall v p, fr_at f v p = if_at fl v p) /\
  (exists fl, In fl files /\ if_start fl = first) /\ (exists fl, In fl files /\ if_end fl = last) /\
  forall fl, In fl files -> first <= if_start fl /\ if_end fl <= last.
Proof.
  intros P files g first last H. unfold open_series in H. destruct files as [|f0 fs]; [discriminate H|]. set (files := f0 :: fs) in *.
  assert (NE : forall h : imfile P -> Z, map h files <> []) by discriminate. 
  assert (G : g = mkSeries (if_vars f0) (map (fun f => mkFrame (if_start f) (if_at f)) files) /\ first = zmin_list (map if_start files) /\ last = zmax_list (map if_end files)) by (inversion H; repeat split).
  destruct G as (-> & -> & ->). clear H. cbn [s_frames].
  destruct (zmin_spec _ (NE if_start)) as [M1 M2]. destruct (zmax_spec _ (NE if_end)) as [X1 X2]. clear NE.
  split; [apply map_length|]. split; [|split; [|split]].
  - intros k fl E. rewrite nth_error_map, E. eexists. split; [reflexivity|]. split; reflexivity.
  - apply in_map_iff in M1. destruct M1 as (fl & E & Hfl). exists fl. auto.
  - apply in_map_iff in X1. destruct X1 as (fl & E & Hfl). exists fl. auto.
  - intros fl Hfl. split; [apply M2|apply X2]; apply in_map; exact Hfl.
Qed.
Print Assumptions C54_series_of_files.
(** Files opened in any order and then aggregated: the totals are those of the files that
    start after the first one does. *)
Theorem C40_files_to_totals_partial : forall P (files : list (imfile P)) g first last minutes out, open_series files = Ok (g, first, last) ->
  aggregate g minutes None = Ok out -> forall v p, summable v ->
  (qsum (map (fun iv => or0 (iv_at iv v p)) out) == qsum (map (fun fl => or0 (if_at fl v p)) (filter (fun fl => first <? if_start fl) files)))%Q.
Proof.
  intros P files g first last minutes out HO HA v p Hv. destruct (C54_series_of_files P files g first last HO) as (_ & _ & (fl0 & H0 & E0) & _ & B).
  assert (EF : s_frames g = map (fun f => mkFrame (if_start f) (if_at f)) files) by (unfold open_series in HO; destruct files; [discriminate HO|inversion HO; reflexivity]).
  destruct (C40_each_frame_once_partial P g minutes None out HA) as (lo & hi & C & Hm & ((f1 & Hf1 & E1) & R) & _).
  destruct (C40_totals_partial P g minutes None out HA) as (lo' & hi' & C' & T).
  assert (L : lo = first).
  { rewrite EF in Hf1. apply in_map_iff in Hf1. destruct Hf1 as (fl & <- & Hfl). cbn in E1. destruct (B fl Hfl) as [B1 _].
    assert (IN : In (mkFrame (if_start fl0) (if_at fl0)) (s_frames g)) by (rewrite EF; apply in_map_iff; exists fl0; auto). specialize (R _ IN). cbn in R. lia. }
  assert (SAME : forall lo1 ivs1 hi1, consecutive minutes lo1 ivs1 hi1 -> forall lo2 hi2, consecutive (P:=P) minutes lo2 ivs1 hi2 -> ivs1 <> [] -> lo1 = lo2 /\ hi1 = hi2).
  { intros lo1 ivs1 hi1 K1. induction K1 as [|iv ivs1 hi1 EE K1 IH]; intros lo2 hi2 K2 NE; [congruence|]. inversion K2 as [|iv2 ivs2 hi2' EE2 K2' Hlo Hiv Hhi]; subst. split; [reflexivity|].
    destruct ivs1 as [|iv' ivs1]; [inversion K1; inversion K2'; congruence|]. apply (IH _ _ K2'). discriminate. }
  assert (NE : out <> []) by (destruct (aggregate_inv P g minutes None out HA) as (_ & _ & _ & _ & _ & _ & _ & _ & (iv & _ & Hiv & _)); intros ->; destruct Hiv).
  destruct (SAME _ _ _ C _ _ C' NE) as [<- <-]. rewrite (T v p Hv). rewrite L in *. clear - R EF. rewrite EF in R |- *. clear EF.
  induction files as [|fl files IH]; [reflexivity|]. cbn [map filter].
  assert (R' : forall f, In f (map (fun f => mkFrame (if_start f) (if_at f)) files) -> first <= fr_time f < hi) by (intros f Hf; apply R; right; exact Hf).
  pose proof (R _ (or_introl eq_refl)) as R0. cbn in R0. unfold coverb at 1. cbn [fr_time]. replace (if_start fl <=? hi) with true by (symmetry; apply Z.leb_le; lia). rewrite andb_true_r.
  destruct (first <? if_start fl).
  - cbn [map total fr_at]. change (qsum (?x :: ?l)) with (x + qsum l)%Q. apply Qplus_comp; [reflexivity|]. apply IH; auto.
  - apply IH; auto.
Qed.
Print Assumptions C40_files_to_totals_partial.
