(** C120: aggregating an interval of interest (the argument start_end of aggregate). *)
From Coq Require Import List ZArith QArith Bool Ascii String Lia Lqa.
From Verif Require Import Base BaseProofs Glm GlmProofs3 Lut LutProofs FileName FileNameSpec FileNameProofs FileNameProofs2 GridSetup GridSetupSpec Imagery ImagerySpec ImageryProofs PropImagery Aggregate AggregateSpec AggregateProofs PropAggregate Output OutputSpec OutputProofs OutputProofs2 OutputProofs3 OutputProofs4 PropOutput PropReadBack.
Import ListNotations.
Open Scope Z_scope.

(** The instants from [s] up to but without [e]: what an hour of interest is, each frame
    being dated by its start. *)
Definition during {P} (s e : Z) (f : frame P) : bool := ((s <=? fr_time f) && (fr_time f <? e))%bool.
(** Frames at one instant. *)
Definition exactly {P} (t : Z) (f : frame P) : bool := fr_time f =? t.
(** The interval is a whole number of pieces of [minutes] minutes. *)
Definition whole (minutes s e : Z) : Prop := exists k, e - s = k * (60 * 1000000 * minutes).
(** The end of the last whole piece. *)
Definition last_whole (minutes s e last : Z) : Prop := whole minutes s last /\ last <= e < last + 60 * 1000000 * minutes.

Lemma consecutive_whole : forall P minutes lo (ivs : list (interval P)) hi, consecutive minutes lo ivs hi -> whole minutes lo hi.
Proof.
  intros P minutes lo ivs hi H. induction H as [lo|iv ivs hi E C (k & IH)]; [exists 0; lia|]. exists (k + 1). lia.
Qed.
Lemma whole_unique : forall minutes s e a b, 0 < minutes -> last_whole minutes s e a -> last_whole minutes s e b -> a = b.
Proof.
  intros minutes s e a b Hm ((k & Ka) & A) ((l & Kb) & B). assert (EQ : a - b = (k - l) * (60 * 1000000 * minutes)) by lia.
  assert (k - l = 0) by (destruct (Z.lt_trichotomy (k - l) 0) as [L|[Z0|G]]; auto; exfalso; nia). nia.
Qed.
Lemma range : forall P (g : series P) minutes s e out, aggregate g minutes (Some (s, e)) = Ok out ->
  exists last, last_whole minutes s e last /\ 0 < minutes /\ consecutive minutes s out last /\ out <> [] /\
    forall v p, summable v -> (qsum (map (fun iv => or0 (iv_at iv v p)) out) == total (fun f => fr_at f v p) (filter (coverb s last) (s_frames g)))%Q.
Proof.
  intros P g minutes s e out AG.
  destruct (C40_totals_partial _ g minutes _ out AG) as (lo & hi & CO & TT). destruct (C40_each_frame_once_partial _ g minutes _ out AG) as (lo' & hi' & CO' & Hm & (-> & RG) & _).
  assert (NO : out <> []) by (destruct (aggregate_inv _ g minutes _ out AG) as (_ & _ & _ & _ & _ & _ & _ & _ & (iv & _ & Hiv & _)); intros ->; destruct Hiv).
  destruct (consecutive_fun _ _ _ _ _ _ _ CO CO' NO) as [-> ->]. exists hi'. split; [split; [eapply consecutive_whole; eauto|exact RG]|]. auto.
Qed.
Lemma filter_all : forall A (h : A -> bool) l, (forall x, In x l -> h x = true) -> filter h l = l.
Proof. intros A h l. induction l as [|x l IH]; intros H; [reflexivity|]. cbn. rewrite (H x (or_introl eq_refl)), IH; auto. intros y Hy. apply H. right. exact Hy. Qed.

Lemma total_cons : forall P (h : frame P -> fval) b f fs, (total h (filter b (f :: fs)) == (if b f then or0 (h f) else 0) + total h (filter b fs))%Q.
Proof. intros P h b f fs. cbn [filter]. destruct (b f); cbn [total]; lra. Qed.

(** The output intervals fill [start_end] from its start, and the summed fields hold what
    the frames in it hold.  Missing: the frame that starts at the start itself, see below. *)
Theorem C120_range_partial : forall P (g : series P) minutes s e out, aggregate g minutes (Some (s, e)) = Ok out -> whole minutes s e ->
  consecutive minutes s out e /\
  (forall f, In f (s_frames g) -> s < fr_time f <= e ->
     exists before iv after, out = before ++ iv :: after /\ covers iv f /\ forall iv', In iv' (before ++ after) -> ~ covers iv' f) /\
  forall v p, summable v -> (qsum (map (fun iv => or0 (iv_at iv v p)) out) == total (fun f => fr_at f v p) (filter (coverb s e) (s_frames g)))%Q.
Proof.
  intros P g minutes s e out AG W. destruct (range P g minutes s e out AG) as (last & LW & Hm & CO & _ & TT).
  assert (last = e) by (apply (whole_unique minutes s e); auto; split; [exact W|lia]). subst last. split; [exact CO|]. split; [|exact TT].
  intros f Hf T. eapply consecutive_unique; eauto.
Qed.
Print Assumptions C120_range_partial.

(** An interval that starts before the first frame and contains the others: no frame is lost. *)
Theorem C120_nothing_lost : forall P (g : series P) minutes s e out, aggregate g minutes (Some (s, e)) = Ok out -> whole minutes s e ->
  (forall f, In f (s_frames g) -> s < fr_time f <= e) ->
  (forall f, In f (s_frames g) -> exists before iv after, out = before ++ iv :: after /\ covers iv f /\ forall iv', In iv' (before ++ after) -> ~ covers iv' f) /\
  forall v p, summable v -> (qsum (map (fun iv => or0 (iv_at iv v p)) out) == total (fun f => fr_at f v p) (s_frames g))%Q.
Proof.
  intros P g minutes s e out AG W IN. destruct (C120_range_partial P g minutes s e out AG W) as (_ & U & T). split; [intros f Hf; apply U; auto|].
  intros v p Hv. rewrite (T v p Hv), filter_all; [reflexivity|]. intros f Hf. specialize (IN f Hf). unfold coverb. rewrite andb_true_iff, Z.ltb_lt, Z.leb_le. exact IN.
Qed.
Print Assumptions C120_nothing_lost.

(** It succeeds as soon as one frame is in a whole piece. *)
Theorem C120_succeeds : forall P (g : series P) minutes s e last f, 0 < minutes ->
  In "average_flash_area"%string (s_vars g) -> In "flash_extent_density"%string (s_vars g) -> In "group_extent_density"%string (s_vars g) ->
  s <= e -> last_whole minutes s e last -> In f (s_frames g) -> s < fr_time f <= last -> exists out, aggregate g minutes (Some (s, e)) = Ok out.
Proof.
  intros P g minutes s e last f Hm V1 V2 V3 SE ((n & En) & LE) Hf T.
  assert (HH : forall v, In v (s_vars g) -> has g v = true) by (intros v Hv; apply existsb_exists; exists v; split; [exact Hv|apply String.eqb_refl]).
  unfold aggregate. cbn [bind fst snd]. rewrite (HH _ V1), (HH _ V2), (HH _ V3). cbn [andb negb].
  destruct (Z.eqb_spec (60000000 * minutes) 0); [lia|]. destruct (Z.ltb_spec (60000000 * minutes) 0); [lia|].
  set (dt := 60000000 * minutes) in *. change (60 * 1000000 * minutes) with dt in *. assert (DT : 0 < dt) by lia.
  set (k := (fr_time f - 1 - s) / dt). assert (K0 : 0 <= k) by (apply Z.div_pos; lia).
  assert (Q : Z.quot (e - s) dt = n).
  { rewrite Z.quot_div_nonneg by lia. symmetry. apply (Z.div_unique _ _ _ (e - last)); lia. }
  rewrite Q. assert (KN : k < n) by (apply Z.div_lt_upper_bound; lia).
  assert (K : existsb (fun b => existsb (in_bin (fst b) (snd b)) (s_frames g)) (map (fun i => (s + dt * Z.of_nat i, s + dt * Z.of_nat (S i))) (seq 0 (Z.to_nat n))) = true); [|rewrite K; eexists; reflexivity].
  apply existsb_exists. exists (s + dt * Z.of_nat (Z.to_nat k), s + dt * Z.of_nat (S (Z.to_nat k))). split.
  - apply in_map_iff. exists (Z.to_nat k). split; [reflexivity|]. apply in_seq. lia.
  - apply existsb_exists. exists f. split; [exact Hf|]. unfold in_bin. cbn [fst snd]. rewrite Nat2Z.inj_succ, !Z2Nat.id by auto.
    pose proof (Z.mul_div_le (fr_time f - 1 - s) dt DT). pose proof (Z.mul_succ_div_gt (fr_time f - 1 - s) dt DT). fold k in H, H0.
    apply andb_true_iff. rewrite Z.ltb_lt, Z.leb_le. lia.
Qed.
Print Assumptions C120_succeeds.

(** The intervals are open on the left.  So an hour of interest does not have the frame
    that starts with it, and has the one that starts when it is over - whatever the series. *)
Theorem C120_first_minute_refuted : forall P (g : series P) minutes s e out f, aggregate g minutes (Some (s, e)) = Ok out -> In f (s_frames g) ->
  (fr_time f = s -> forall iv, In iv out -> ~ covers iv f) /\ (whole minutes s e -> fr_time f = e -> exists iv, In iv out /\ covers iv f).
Proof.
  intros P g minutes s e out f AG Hf. destruct (range P g minutes s e out AG) as (last & LW & Hm & CO & NO & _). split.
  - intros E iv Hiv. destruct (consecutive_in P _ _ _ _ Hm CO iv Hiv) as (A & _). unfold covers. lia.
  - intros W E. destruct (C120_range_partial P g minutes s e out AG W) as (CO' & U & _). destruct (U f Hf) as (b & iv & a & -> & C & _).
    { rewrite E. split; [|lia]. destruct out as [|iv0 out0]; [congruence|]. destruct (consecutive_in P _ _ _ _ Hm CO' iv0 (or_introl eq_refl)) as (X & Y & Z). lia. }
    exists iv. split; [apply in_app_iff; right; left; reflexivity|exact C].
Qed.
Print Assumptions C120_first_minute_refuted.
(** What that does to the sums: they are those of the interval, without the frame at its
    start and with the one at its end. *)
Theorem C120_shifted : forall P (g : series P) minutes s e out, aggregate g minutes (Some (s, e)) = Ok out -> whole minutes s e ->
  forall v p, summable v ->
  (qsum (map (fun iv => or0 (iv_at iv v p)) out) + total (fun f => fr_at f v p) (filter (exactly s) (s_frames g))
   == total (fun f => fr_at f v p) (filter (during s e) (s_frames g)) + total (fun f => fr_at f v p) (filter (exactly e) (s_frames g)))%Q.
Proof.
  intros P g minutes s e out AG W v p Hv. destruct (range P g minutes s e out AG) as (last & LW & Hm & CO & NO & _).
  assert (SE : s < e).
  { destruct (C120_range_partial P g minutes s e out AG W) as (CO' & _). destruct out as [|iv0 out0]; [congruence|]. destruct (consecutive_in P _ _ _ _ Hm CO' iv0 (or_introl eq_refl)) as (X & Y & Z). lia. }
  destruct (C120_range_partial P g minutes s e out AG W) as (_ & _ & T). rewrite (T v p Hv). clear - SE.
  induction (s_frames g) as [|f fs IH]; [reflexivity|]. rewrite !total_cons. set (x := or0 (fr_at f v p)).
  assert (B : ((if coverb s e f then x else 0) + (if exactly s f then x else 0) == (if during s e f then x else 0) + (if exactly e f then x else 0))%Q); [|lra].
  unfold coverb, exactly, during.
  destruct (Z.ltb_spec s (fr_time f)), (Z.leb_spec (fr_time f) e), (Z.eqb_spec (fr_time f) s), (Z.leb_spec s (fr_time f)), (Z.ltb_spec (fr_time f) e), (Z.eqb_spec (fr_time f) e); try lia; cbn [andb]; lra.
Qed.
Print Assumptions C120_shifted.
(** And a range that is not a whole number of pieces loses the frames after the last one. *)
Theorem C120_tail_refuted : forall P (g : series P) minutes s e out last f, aggregate g minutes (Some (s, e)) = Ok out -> last_whole minutes s e last ->
  last < fr_time f -> forall iv, In iv out -> ~ covers iv f.
Proof.
  intros P g minutes s e out last f AG LW T iv Hiv. destruct (range P g minutes s e out AG) as (last' & LW' & Hm & CO & _).
  assert (last' = last) by (eapply whole_unique; eauto). subst last'. destruct (consecutive_in P _ _ _ _ Hm CO iv Hiv) as (_ & A & _). unfold covers. lia.
Qed.
Print Assumptions C120_tail_refuted.

(** Three frames, 0, 1 and 2 minutes after the origin, with 3, 4 and 4 flashes. *)
Example C120_ex : exists out, aggregate ex_series 2 (Some (-60000000, 180000000)) = Ok out /\ whole 2 (-60000000) 180000000 /\
  (forall f, In f (s_frames ex_series) -> -60000000 < fr_time f <= 180000000) /\
  (qsum (map (fun iv => or0 (iv_at iv "flash_extent_density"%string tt)) out) == 11)%Q.
Proof.
  destruct (C120_succeeds unit ex_series 2 (-60000000) 180000000 180000000 (ex_frame 0 3 100 6 50)) as (out & AG); [lia|do 2 right; left; reflexivity|left; reflexivity|do 4 right; left; reflexivity|lia|split; [exists 2; reflexivity|lia]|left; reflexivity|unfold ex_frame, fr_time; lia|].
  exists out. assert (W : whole 2 (-60000000) 180000000) by (exists 2; reflexivity).
  assert (IN : forall f, In f (s_frames ex_series) -> -60000000 < fr_time f <= 180000000) by (intros f [<-|[<-|[<-|[]]]]; cbn; lia).
  split; [exact AG|]. split; [exact W|]. split; [exact IN|]. destruct (C120_nothing_lost unit ex_series 2 _ _ out AG W IN) as [_ T].
  rewrite (T "flash_extent_density"%string tt (or_introl eq_refl)). vm_compute. reflexivity.
Qed.
(** The first two minutes of the same: 8 flashes are counted instead of 7. *)
Example C120_shift_ex : exists out, aggregate ex_series 2 (Some (0, 120000000)) = Ok out /\
  (qsum (map (fun iv => or0 (iv_at iv "flash_extent_density"%string tt)) out) == 8)%Q /\
  (total (fun f => fr_at f "flash_extent_density"%string tt) (filter (during 0 120000000) (s_frames ex_series)) == 7)%Q.
Proof.
  destruct (C120_succeeds unit ex_series 2 0 120000000 120000000 (ex_frame 60000000 4 200 8 50)) as (out & AG); [lia|do 2 right; left; reflexivity|left; reflexivity|do 4 right; left; reflexivity|lia|split; [exists 1; reflexivity|lia]|right; left; reflexivity|unfold ex_frame, fr_time; lia|].
  exists out. assert (W : whole 2 0 120000000) by (exists 1; reflexivity). split; [exact AG|].
  pose proof (C120_shifted unit ex_series 2 _ _ out AG W "flash_extent_density"%string tt (or_introl eq_refl)) as T.
  assert (D : (total (fun f => fr_at f "flash_extent_density"%string tt) (filter (during 0 120000000) (s_frames ex_series)) == 7)%Q) by (vm_compute; reflexivity).
  assert (A : (total (fun f => fr_at f "flash_extent_density"%string tt) (filter (exactly 0) (s_frames ex_series)) == 3)%Q) by (vm_compute; reflexivity).
  assert (B : (total (fun f => fr_at f "flash_extent_density"%string tt) (filter (exactly 120000000) (s_frames ex_series)) == 4)%Q) by (vm_compute; reflexivity).
  split; [|exact D]. lra.
Qed.
(** A range of three minutes in pieces of two: the frame at the end is in no piece. *)
Example C120_tail_ex : last_whole 2 (-60000000) 120000000 60000000 /\ exists out, aggregate ex_series 2 (Some (-60000000, 120000000)) = Ok out /\
  forall iv, In iv out -> ~ covers iv (ex_frame 120000000 4 100 8 50).
Proof.
  assert (LW : last_whole 2 (-60000000) 120000000 60000000) by (split; [exists 1; reflexivity|lia]). split; [exact LW|].
  destruct (C120_succeeds unit ex_series 2 (-60000000) 120000000 60000000 (ex_frame 0 3 100 6 50)) as (out & AG); [lia|do 2 right; left; reflexivity|left; reflexivity|do 4 right; left; reflexivity|lia|exact LW|left; reflexivity|unfold ex_frame, fr_time; lia|].
  exists out. split; [exact AG|]. apply (C120_tail_refuted unit ex_series 2 _ _ out 60000000 _ AG LW). cbn. lia.
Qed.

(** Files written, opened and aggregated over a range that starts before the first frame:
    a summed field that holds whole numbers of its storage steps has in the intervals
    together what the gridded arrays hold in all the frames. *)
Theorem C66_nothing_lost : forall j outgrids fs after fs' paths g first last minutes s e out i name r c v,
  saves j outgrids fs after fs' paths -> dated 1678 2261 j -> NoDup (gd_names (j_gd j)) ->
  (forall k k' p p', k <> k' -> nth_error paths k = Some p -> nth_error paths k' = Some p' -> ~ same_path p p') ->
  open_glm_time_series fs' paths = Ok (g, first, last) -> aggregate g minutes (Some (s, e)) = Ok out -> whole minutes s e ->
  (forall k, (k < List.length paths)%nat -> s < start_of j k <= e) ->
  nth_error (gd_names (j_gd j)) i = Some name -> summable name -> gd_divide (j_gd j) i = None -> (r < j_my j)%nat -> (c < j_mx j)%nat ->
  (forall k, (k < List.length paths)%nat -> cell outgrids i (j_pad j + c) (j_pad j + (j_my j - 1 - r)) k (Some (v k)) /\ storable (steps (j_gd j) (j_scaled j) i) (v k)) ->
  (qsum (map (fun iv => or0 (iv_at iv name (r, c))) out) == qsum (map v (seq 0 (List.length paths))))%Q.
Proof.
  intros j og fs af fs' paths g first last minutes s e out i name r c v SV DT ND DP OP AG W IN Hi SM GD Hr Hc HV.
  destruct (read_frames j og fs af fs' paths g first last i name r c v SV DT ND DP OP Hi GD Hr Hc HV) as (LG & FK & _ & _).
  destruct (C120_nothing_lost _ g minutes s e out AG W) as [_ T].
  { intros f Hf. apply In_nth_error in Hf. destruct Hf as (k & Hk). assert (L : (k < List.length paths)%nat) by (rewrite <- LG; apply nth_error_Some; congruence).
    destruct (FK k L) as (fr & Hfr & Tf & _). assert (fr = f) by congruence. subst fr. rewrite Tf. apply IN. exact L. }
  rewrite (T name (r, c) SM). clear - FK LG.
  assert (G : forall frs n, (forall k, (k < List.length frs)%nat -> exists fr, nth_error frs k = Some fr /\ fr_time fr = start_of j (n + k) /\ (or0 (fr_at fr name (r, c)) == v (n + k)%nat)%Q) ->
    (total (fun f => fr_at f name (r, c)) frs == qsum (map v (seq n (List.length frs))))%Q).
  { clear. induction frs as [|fr frs IH]; intros n FK; [reflexivity|]. cbn [List.length seq map total]. change (qsum (?x :: ?l)) with (x + qsum l)%Q.
    destruct (FK 0%nat ltac:(cbn; lia)) as (fr' & E & _ & Vf). cbn in E. assert (fr' = fr) by congruence. subst fr'. rewrite Nat.add_0_r in Vf. rewrite Vf, (IH (S n)); [reflexivity|].
    intros k Hk. destruct (FK (S k) ltac:(cbn; lia)) as (f & A & B & C). exists f. replace (S n + k)%nat with (n + S k)%nat by lia. auto. }
  specialize (G (s_frames g) 0%nat). rewrite LG in G. apply G. intros k Hk. apply FK. exact Hk.
Qed.
Print Assumptions C66_nothing_lost.
(** The three frames of C66_ex, aggregated from ten minutes before: all are counted. *)
Example C66_range_ex : exists af fs' paths g first last s e out, saves back_job back_grids ex_fs af fs' paths /\ open_glm_time_series fs' paths = Ok (g, first, last) /\
  aggregate g 5 (Some (s, e)) = Ok out /\ (qsum (map (fun iv => or0 (iv_at iv "flash_extent_density"%string (2, 1)%nat)) out) == 6 # 16)%Q.
Proof.
  destruct back_saves as (af & fs' & paths & SV & LP).
  assert (F2 : Forall2 (fun p k => nth_error paths k = Some p) paths [0; 1; 2]%nat) by (destruct paths as [|p [|p' [|p'' [|q ps]]]]; try discriminate LP; repeat constructor).
  assert (NE : paths <> []) by (intros ->; discriminate LP).
  assert (ND : NoDup back_names) by (repeat constructor; cbn; intuition discriminate).
  destruct (C66_reading_back back_job back_grids ex_fs af fs' paths paths [0; 1; 2]%nat SV back_dated ND (back_kept _ _ _ SV) F2 NE) as (files & g & first & last & _ & OP & VG & LG & FR & _).
  set (s := start_of back_job 0 - 600000000). set (e := s + 900000000).
  assert (W : whole 5 s e) by (exists 3; unfold e; lia).
  assert (IN : forall k, (k < List.length paths)%nat -> s < start_of back_job k <= e).
  { intros k Hk. rewrite LP in Hk. assert (D : start_of back_job 1 = start_of back_job 0 + 60000000 /\ start_of back_job 2 = start_of back_job 0 + 120000000) by (vm_compute; auto).
    unfold e, s. destruct k as [|[|[|k]]]; lia. }
  destruct (FR 0%nat 0%nat eq_refl) as (s0 & e0 & fr & _ & (t0 & t1 & T0 & T1 & -> & ->) & H0 & E0 & _).
  destruct (C120_succeeds _ g 5 s e e fr ltac:(lia)) as (out & AG); try (rewrite VG; cbn; auto; fail).
  { unfold e. lia. } { split; [exact W|lia]. } { eapply nth_error_In; eauto. }
  { replace (fr_time fr) with (start_of back_job 0); [apply IN; rewrite LP; lia|]. rewrite E0. cbn in T0. inversion T0. reflexivity. }
  exists af, fs', paths, g, first, last, s, e, out. split; [exact SV|]. split; [exact OP|]. split; [exact AG|].
  assert (HV : forall k, (k < List.length paths)%nat -> cell back_grids 0 (j_pad back_job + 1) (j_pad back_job + (j_my back_job - 1 - 2)) k (Some (back_value k)) /\ storable (steps (j_gd back_job) (j_scaled back_job) 0) (back_value k)).
  { intros k Hk. split; [eexists; split; reflexivity|]. exists (Z.of_nat (k + 1)). rewrite LP in Hk. split; [lia|reflexivity]. }
  pose proof (C66_nothing_lost back_job back_grids ex_fs af fs' paths g first last 5 s e out 0 "flash_extent_density" 2 1 back_value SV back_dated ND (back_kept _ _ _ SV) OP AG W IN eq_refl (or_introl eq_refl) eq_refl ltac:(cbn; lia) ltac:(cbn; lia) HV) as T.
  rewrite LP in T. assert (TR : forall a b : Q, (a == b -> b == 6 # 16 -> a == 6 # 16)%Q) by (intros a b E1 E2; rewrite E1; exact E2). refine (TR _ _ T _). vm_compute. reflexivity.
Qed.
