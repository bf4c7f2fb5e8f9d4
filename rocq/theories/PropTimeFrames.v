(** C118: a run has the frames that its files need, and every file is in one of them. *)
From Coq Require Import List ZArith QArith Qround Qabs Bool String Lia Lqa Permutation.
From Verif Require Import Base BaseProofs Traversal TraversalSpec Glm GlmSpec Lut LutSpec Accum AccumSpec Poly PolySpec PropPoly BBox BBoxSpec Slice SliceSpec Pipeline PipelineSpec PropPipeline ChunkSpec
  FileName FileNameSpec Imagery ImagerySpec ImageryProofs Gridder GridderSpec GridderProofs PropGridder GridSetup GridSetupSpec GridSetupProofs GridSetupProofs2 PropGridSetup TimeFrames PropDurations PropSlice.
Import ListNotations.
Open Scope Z_scope.

(** The instant [v] (in seconds) is in the twenty seconds from the start in the name of the file. *)
Definition in_file (f : named) (v : Q) : Prop := (inject_Z (instant (n_start f)) <= v * 1000000 < inject_Z (instant (n_start f) + seconds 20))%Q.
(** [v] is in exactly one of the frames. *)
Definition in_one_frame (te : list Q) (v : Q) : Prop :=
  exists t, (t < List.length te - 1)%nat /\ during te t v /\ forall t', during te t' v -> t' = t.
(** The frames last [frame] microseconds each, the first starts at [start] and the last is the first to reach [end_]. *)
Definition frames_from_to (te : list Q) (start end_ frame : Z) : Prop :=
  (forall i, (i < List.length te)%nat -> (edge te i * 1000000 == inject_Z (start + Z.of_nat i * frame))%Q) /\
  (start < end_ -> exists n, List.length te = S (S n) /\ start + Z.of_nat n * frame < end_ <= start + Z.of_nat (S n) * frame) /\
  (end_ <= start -> (List.length te <= 1)%nat).

(** [us] is the duration of [dt] seconds in whole microseconds: off by half of one at most, and
    exact if the duration is a whole number of them. *)
Definition lasts (dt : Q) (us : Z) : Prop :=
  (Qabs (inject_Z us - dt * 1000000) <= 1 # 2)%Q /\ forall k, (dt * 1000000 == inject_Z k)%Q -> us = k.

(** *** Lemmas *)
Lemma frame_lasts : forall dt, lasts dt (frame_length dt).
Proof.
  intros dt. unfold frame_length. split; [destruct (round_near (dt * 1000000)); apply Qabs_Qle_condition; split; lra|].
  intros k E. rewrite (round_compat _ _ E). apply round_int.
Qed.
Lemma frame_positive : forall dt, (1 # 2000000 < dt)%Q -> 0 < frame_length dt.
Proof. intros dt H. destruct (frame_lasts dt) as [L _]. apply Qabs_Qle_condition in L. rewrite Zlt_Qlt. change (inject_Z 0) with 0%Q. lra. Qed.
Lemma frame_at_least : forall dt k, (inject_Z k <= dt * 1000000)%Q -> k <= frame_length dt.
Proof. intros dt k H. apply round_mono in H. rewrite round_int in H. exact H. Qed.
Lemma microseconds_instant : forall d, microseconds d = instant d.
Proof. intros d. unfold microseconds, instant, days_before_year. lia. Qed.
Lemma in_seconds_lt : forall a b, a < b -> (in_seconds a < in_seconds b)%Q.
Proof. intros a b H. unfold in_seconds, Qdiv. apply Qmult_lt_compat_r; [reflexivity|]. rewrite <- Zlt_Qlt. exact H. Qed.
Lemma in_seconds_us : forall a, (in_seconds a * 1000000 == inject_Z a)%Q.
Proof. intros a. unfold in_seconds. field. Qed.
Lemma edges_facts : forall start end_ frame, 0 < frame -> exists l, time_edges start end_ frame = Ok l /\ increasing (map in_seconds l) /\ frames_from_to (map in_seconds l) start end_ frame.
Proof.
  intros start end_ frame P. unfold time_edges. destruct (Z.eqb_spec frame 0) as [Z0|_]; [lia|]. eexists. split; [reflexivity|].
  set (n := - ((start - end_) / frame)). set (k := Z.to_nat (n + 1)).
  assert (EI : forall i, (i < k)%nat -> edge (map in_seconds (map (fun i => start + Z.of_nat i * frame) (seq 0 k))) i = in_seconds (start + Z.of_nat i * frame)).
  { intros i Hi. unfold edge. apply nth_error_nth. rewrite map_map, nth_error_map. rewrite (nth_error_nth' (seq 0 k) 0%nat) by (rewrite seq_length; lia). rewrite seq_nth by lia. reflexivity. }
  assert (LEN : List.length (map in_seconds (map (fun i => start + Z.of_nat i * frame) (seq 0 k))) = k) by (rewrite !map_length, seq_length; reflexivity).
  pose proof (Z.div_mod (start - end_) frame ltac:(lia)) as DM. pose proof (Z.mod_pos_bound (start - end_) frame P) as MB.
  assert (NB : end_ - start <= n * frame < end_ - start + frame) by (unfold n; nia).
  split; [|split; [|split]].
  - intros i j H. rewrite LEN in H. rewrite !EI by lia. apply in_seconds_lt. nia.
  - intros i H. rewrite LEN in H. rewrite EI by lia. apply in_seconds_us.
  - intros H. exists (Z.to_nat (n - 1)). rewrite LEN. unfold k. assert (0 < n) by nia. split; [lia|].
    rewrite Nat2Z.inj_succ, Z2Nat.id by lia. nia.
  - intros H. rewrite LEN. unfold k. assert (n <= 0) by nia. lia.
Qed.
Lemma covers : forall te start end_ frame v, increasing te -> frames_from_to te start end_ frame -> start < end_ ->
  (inject_Z start <= v * 1000000 < inject_Z end_)%Q -> in_one_frame te v.
Proof.
  intros te start end_ frame v INC (E & N & _) H B. destruct (N H) as (n & LEN & _ & Hn).
  destruct (C59_one_frame te v INC) as [U _]. destruct (some_frame te 0 (S n) v ltac:(lia)) as (s & Hs & D).
  - pose proof (E 0%nat ltac:(lia)) as E0. pose proof (E (S n) ltac:(lia)) as E1. replace (start + Z.of_nat 0 * frame) with start in E0 by lia. rewrite Zle_Qle in Hn. lra.
  - exists s. split; [lia|]. split; [exact D|]. intros t' D'. apply U; auto.
Qed.

(** ** Theorems *)
(** Whatever times a run has: frames of the given duration from its start, up to the first
    that reaches its end; an instant from start to end is in exactly one of them. *)
Lemma frames_cover : forall paths start end_ dt s e, 0 < frame_length dt -> time_window paths start end_ = Ok (s, e) ->
  exists te, run_edges paths start end_ dt = Ok te /\ increasing te /\ frames_from_to te (instant s) (instant e) (frame_length dt) /\
  forall v, (inject_Z (instant s) <= v * 1000000 < inject_Z (instant e))%Q -> in_one_frame te v.
Proof.
  intros paths start end_ dt s e P W. unfold run_edges. rewrite W. cbn [bind fst snd]. rewrite !microseconds_instant.
  destruct (edges_facts (instant s) (instant e) (frame_length dt) P) as (l & -> & INC & FR). cbn [bind]. eexists. split; [reflexivity|]. split; [exact INC|]. split; [exact FR|].
  intros v B. apply (covers _ (instant s) (instant e) (frame_length dt)); auto. rewrite Zlt_Qlt. lra.
Qed.

(** Without times on the command line, every instant of every file is in exactly one frame,
    and each end of the frames is there because of a file: the first frame starts with the
    earliest file and the last one starts within the twenty seconds of a file or before. *)
Lemma every_file : forall fs dt, fs <> [] -> (forall f, In f fs -> named_ok f) -> 0 < frame_length dt ->
  exists te n first latest, run_edges (map path_of fs) None None dt = Ok te /\ increasing te /\ List.length te = S (S n) /\
  (forall f v, In f fs -> in_file f v -> in_one_frame te v) /\
  In first fs /\ (edge te 0 * 1000000 == inject_Z (instant (n_start first)))%Q /\
  In latest fs /\ (edge te n * 1000000 < inject_Z (instant (n_start latest) + seconds 20))%Q /\
  (forall t, (t <= n)%nat -> ((edge te (S t) - edge te t) * 1000000 == inject_Z (frame_length dt))%Q).
Proof.
  intros fs dt NE OK P. destruct (C58_window_from_names fs NE OK) as (s & e & first & latest & W & I1 & -> & B1 & I2 & EE & B2).
  destruct (frames_cover _ _ _ dt _ _ P W) as (te & R & INC & (E & N & _) & COV).
  assert (LT : instant (n_start first) < instant e) by (pose proof (B2 first I1); unfold seconds in *; lia). destruct (N LT) as (n & LEN & H1 & H2).
  exists te, n, first, latest. split; [exact R|]. split; [exact INC|]. split; [exact LEN|]. split; [|split; [exact I1|split; [|split; [exact I2|split]]]].
  - intros f v Hf [L U]. apply COV. pose proof (B1 f Hf) as X1. pose proof (B2 f Hf) as X2. rewrite Zle_Qle in X1, X2. split; lra.
  - rewrite (E 0%nat) by lia. replace (instant (n_start first) + Z.of_nat 0 * frame_length dt) with (instant (n_start first)) by lia. reflexivity.
  - rewrite (E n) by lia. rewrite <- Zlt_Qlt. lia.
  - intros t Ht. pose proof (E t ltac:(lia)) as X1. pose proof (E (S t) ltac:(lia)) as X2. rewrite Nat2Z.inj_succ in X2.
    replace (instant (n_start first) + Z.succ (Z.of_nat t) * frame_length dt) with (instant (n_start first) + Z.of_nat t * frame_length dt + frame_length dt) in X2 by lia.
    rewrite inject_Z_plus in X2. lra.
Qed.

(** Only the starts in the names matter, so events after the nominal end of a file, which
    have been in the names since 2020, add no frame. *)
Theorem C118_ends_do_not_matter : forall fs fs' start end_ dt, (forall f, In f fs -> named_ok f) -> (forall f, In f fs' -> named_ok f) ->
  map n_start fs = map n_start fs' -> run_edges (map path_of fs) start end_ dt = run_edges (map path_of fs') start end_ dt.
Proof. intros fs fs' start end_ dt H H' E. unfold run_edges, time_window. rewrite !starts_of by assumption. rewrite E. reflexivity. Qed.
Print Assumptions C118_ends_do_not_matter.

(** Files that start within one frame less twenty seconds of each other make one frame. *)
Lemma one_frame : forall fs dt, fs <> [] -> (forall f, In f fs -> named_ok f) ->
  (forall f f', In f fs -> In f' fs -> instant (n_start f) + seconds 20 <= instant (n_start f') + frame_length dt) ->
  exists te, run_edges (map path_of fs) None None dt = Ok te /\ List.length te = 2%nat.
Proof.
  intros fs dt NE OK C. destruct (C58_window_from_names fs NE OK) as (s & e & first & latest & W & I1 & -> & B1 & I2 & EE & B2).
  assert (P : 0 < frame_length dt) by (pose proof (C first first I1 I1); unfold seconds in *; lia).
  destruct (frames_cover _ _ _ dt _ _ P W) as (te & R & INC & (E & N & _) & _). exists te. split; [exact R|].
  assert (LT : instant (n_start first) < instant e) by (pose proof (B2 first I1); unfold seconds in *; lia). destruct (N LT) as (n & LEN & H1 & H2).
  pose proof (C latest first I2 I1). rewrite LEN. assert (n = 0)%nat; [|lia]. destruct n as [|n]; [reflexivity|]. rewrite Nat2Z.inj_succ in H1. nia.
Qed.

(** Files one after the other, twenty seconds each, with [m] files in a frame: the [m * r] files
    make [r] frames, and the file number [i] is in frame [i / m]. *)
Lemma consecutive : forall fs dt m r start, (forall f, In f fs -> named_ok f) -> (0 < m)%nat -> (0 < r)%nat -> List.length fs = (m * r)%nat ->
  (forall i f, nth_error fs i = Some f -> instant (n_start f) = start + seconds 20 * Z.of_nat i) -> frame_length dt = seconds 20 * Z.of_nat m ->
  forall fs', Permutation fs fs' ->
  exists te, run_edges (map path_of fs') None None dt = Ok te /\ increasing te /\ List.length te = S r /\
  forall i f v, nth_error fs i = Some f -> in_file f v -> during te (i / m) v.
Proof.
  intros fs dt m r start OK Hm Hr LEN ST FL fs' PM.
  assert (NE : fs' <> []) by (intros ->; apply Permutation_sym, Permutation_nil in PM; subst; cbn in LEN; lia).
  assert (OK' : forall f, In f fs' -> named_ok f) by (intros f Hf; apply OK; apply (Permutation_in _ (Permutation_sym PM)); exact Hf).
  assert (S20 : seconds 20 = 20000000) by reflexivity. assert (P : 0 < frame_length dt) by (rewrite FL; lia).
  destruct (C58_window_from_names fs' NE OK') as (s & e & first & latest & W & I1 & -> & B1 & I2 & EE & B2).
  destruct (frames_cover _ _ _ dt _ _ P W) as (te & R & INC & (E & N & _) & _). exists te. split; [exact R|]. split; [exact INC|].
  assert (A1 : instant (n_start first) = start).
  { destruct (nth_error fs 0) as [f0|] eqn:E0; [|apply nth_error_None in E0; lia]. pose proof (ST 0%nat f0 E0) as K. pose proof (B1 f0 (Permutation_in _ PM (nth_error_In _ _ E0))) as K2.
    apply (Permutation_in _ (Permutation_sym PM)), In_nth_error in I1. destruct I1 as (i & Ei). pose proof (ST i first Ei). lia. }
  assert (A2 : instant e = start + seconds 20 * Z.of_nat (m * r)).
  { destruct (nth_error fs (m * r - 1)) as [f0|] eqn:E0; [|apply nth_error_None in E0; lia]. pose proof (ST _ f0 E0) as K. pose proof (B2 f0 (Permutation_in _ PM (nth_error_In _ _ E0))) as K2.
    apply (Permutation_in _ (Permutation_sym PM)), In_nth_error in I2. destruct I2 as (i & Ei). pose proof (ST i latest Ei). assert (i < m * r)%nat by (rewrite <- LEN; apply nth_error_Some; congruence). lia. }
  rewrite A1 in *. rewrite A2, FL in *. assert (LT : start < start + seconds 20 * Z.of_nat (m * r)) by lia. destruct (N LT) as (n & LT2 & H1 & H2).
  assert (NR : S n = r) by (rewrite Nat2Z.inj_mul in *; rewrite Nat2Z.inj_succ in *; nia). split; [lia|].
  intros i f v Ei [L U]. assert (Hi : (i < m * r)%nat) by (rewrite <- LEN; apply nth_error_Some; congruence).
  assert (Q1 : (i / m < r)%nat) by (apply Nat.div_lt_upper_bound; lia). pose proof (Nat.div_mod i m ltac:(lia)) as DM. pose proof (Nat.mod_upper_bound i m ltac:(lia)) as MB.
  apply during_edges; [lia|]. pose proof (E (i / m)%nat ltac:(lia)) as X1. pose proof (E (S (i / m))%nat ltac:(lia)) as X2. pose proof (ST i f Ei) as K.
  assert (Y1 : start + Z.of_nat (i / m) * (seconds 20 * Z.of_nat m) <= instant (n_start f)) by nia.
  assert (Y2 : instant (n_start f) + seconds 20 <= start + Z.of_nat (S (i / m)) * (seconds 20 * Z.of_nat m)) by (rewrite Nat2Z.inj_succ; nia).
  rewrite Zle_Qle in Y1, Y2. lra.
Qed.

(** Nothing is lost: files whose product times are in the twenty seconds from the start in
    their names, gridded without times on the command line; the frames together show what
    all files show. *)
Lemma nothing_lost : forall set_order weird clip tree quad xe ye chunk_size q fs files dt te arrays p,
  fs <> [] -> (forall f, In f fs -> named_ok f) -> 0 < frame_length dt ->
  Forall2 (fun f gf => in_file f (f_time gf)) fs files ->
  run_edges (map path_of fs) None None dt = Ok te ->
  (1 < List.length xe)%nat -> (1 < List.length ye)%nat -> increasing xe -> increasing ye -> proper clip ->
  process_files set_order weird clip tree quad xe ye te true chunk_size q files = Ok (arrays, p) ->
  exists whole tables, grid_files set_order weird clip tree quad xe ye chunk_size (map f_ds files) q = Ok whole /\
  tables_read set_order weird chunk_size q (map f_ds files) tables /\
  ((forall r, In r (List.concat tables) -> ~ (size (quad (lu_x r) (lu_y r)) == 0)%Q /\ lu_farea r <> None /\ lu_garea r <> None) ->
   forall kx ky, (S kx < List.length xe)%nat -> (S ky < List.length ye)%nat ->
   forall name h, In (name, h) [("total_energy", gr_energy); ("flash_extent_density", gr_fcount); ("group_extent_density", gr_gcount);
                                ("average_flash_area", gr_farea); ("average_group_area", gr_garea)]%string ->
   exists vs, Forall2 (fun t v => product arrays name kx ky t (Some v)) (seq 0 (List.length te - 1)) vs /\
     is_num (g_at (h whole) (Z.of_nat kx) (Z.of_nat ky)) (qsum vs)).
Proof.
  intros so weird clip tree quad xe ye cs q fs files dt te arrays p NE OK P F2 R HX HY IX IY PR H.
  destruct (every_file fs dt NE OK P) as (te' & n & first & latest & R' & INC & LEN & COV & _). assert (te' = te) by congruence. subst te'.
  assert (FW : files_within te files = map f_ds files).
  { unfold files_within. f_equal. clear H R R'. assert (CV : forall gf, In gf files -> in_one_frame te (f_time gf)).
    { intros gf Hg. clear - F2 Hg COV. induction F2 as [|f g0 fs files B F2 IH]; [destruct Hg|]. destruct Hg as [->|Hg]; [apply (COV f); [left; reflexivity|exact B]|apply IH; auto].
      intros f' v Hf'. apply COV. right. exact Hf'. }
    clear F2. induction files as [|gf files IH]; [reflexivity|]. cbn [filter]. rewrite IH by (intros g Hg; apply CV; right; exact Hg).
    destruct (CV gf (or_introl eq_refl)) as (t & Ht & D & _). destruct (C59_one_frame te (f_time gf) INC) as [_ [K _]]. destruct K as (a & Ea & A1 & A2); [exists t; auto|].
    destruct te as [|a0 te]; [discriminate Ea|]. cbn [nth_error] in Ea. injection Ea as ->.
    apply Qle_bool_iff in A1. rewrite A1. destruct (Qle_bool (last (a :: te) a) (f_time gf)) eqn:QB; [apply Qle_bool_iff in QB; lra|]. reflexivity. }
  rewrite <- FW. apply (C59_frames_add_up so weird clip tree quad xe ye te cs q files arrays p HX HY IX IY PR INC H).
Qed.

(** *** In seconds *)
(** Whatever times a run has and whatever --dt of more than half a microsecond: frames of that
    duration from its start, up to the first that reaches its end; an instant from start to
    end is in exactly one of them. *)
Theorem C118_frames_cover : forall paths start end_ dt s e, (1 # 2000000 < dt)%Q -> time_window paths start end_ = Ok (s, e) ->
  exists te frame, run_edges paths start end_ dt = Ok te /\ lasts dt frame /\ increasing te /\ frames_from_to te (instant s) (instant e) frame /\
  forall v, (inject_Z (instant s) <= v * 1000000 < inject_Z (instant e))%Q -> in_one_frame te v.
Proof.
  intros paths start end_ dt s e P W. destruct (frames_cover paths start end_ dt s e (frame_positive _ P) W) as (te & A & B & C & D).
  exists te, (frame_length dt). split; [exact A|]. split; [apply frame_lasts|]. auto.
Qed.
Print Assumptions C118_frames_cover.
(** Without times on the command line, every instant of every file is in exactly one frame,
    and each end of the frames is there because of a file: the first frame starts with the
    earliest file and the last one starts within the twenty seconds of a file or before.
    All frames last --dt. *)
Theorem C118_every_file : forall fs dt, fs <> [] -> (forall f, In f fs -> named_ok f) -> (1 # 2000000 < dt)%Q ->
  exists te n first latest frame, run_edges (map path_of fs) None None dt = Ok te /\ increasing te /\ List.length te = S (S n) /\
  (forall f v, In f fs -> in_file f v -> in_one_frame te v) /\
  In first fs /\ (edge te 0 * 1000000 == inject_Z (instant (n_start first)))%Q /\
  In latest fs /\ (edge te n * 1000000 < inject_Z (instant (n_start latest) + seconds 20))%Q /\
  lasts dt frame /\ (forall t, (t <= n)%nat -> ((edge te (S t) - edge te t) * 1000000 == inject_Z frame)%Q).
Proof.
  intros fs dt NE OK P. destruct (every_file fs dt NE OK (frame_positive _ P)) as (te & n & first & latest & A & B & C & D & E & F & G & H & I).
  exists te, n, first, latest, (frame_length dt). repeat (split; [assumption|]). split; [apply frame_lasts|exact I].
Qed.
Print Assumptions C118_every_file.
(** Files that start within --dt less twenty seconds of each other make one frame. *)
Theorem C118_one_frame : forall fs dt, fs <> [] -> (forall f, In f fs -> named_ok f) ->
  (forall f f', In f fs -> In f' fs -> (inject_Z (instant (n_start f) + seconds 20 - instant (n_start f')) <= dt * 1000000)%Q) ->
  exists te, run_edges (map path_of fs) None None dt = Ok te /\ List.length te = 2%nat.
Proof. intros fs dt NE OK C. apply one_frame; auto. intros f f' Hf Hf'. pose proof (frame_at_least _ _ (C f f' Hf Hf')). lia. Qed.
Print Assumptions C118_one_frame.
(** Files one after the other, twenty seconds each, with --dt for [m] files: the [m * r] files
    make [r] frames, and the file number [i] is in frame [i / m]. *)
Theorem C118_consecutive : forall fs dt m r start, (forall f, In f fs -> named_ok f) -> (0 < m)%nat -> (0 < r)%nat -> List.length fs = (m * r)%nat ->
  (forall i f, nth_error fs i = Some f -> instant (n_start f) = start + seconds 20 * Z.of_nat i) -> (dt == 20 * inject_Z (Z.of_nat m))%Q ->
  forall fs', Permutation fs fs' ->
  exists te, run_edges (map path_of fs') None None dt = Ok te /\ increasing te /\ List.length te = S r /\
  forall i f v, nth_error fs i = Some f -> in_file f v -> during te (i / m) v.
Proof.
  intros fs dt m r start OK Hm Hr LEN ST FL. apply (consecutive fs dt m r start OK Hm Hr LEN ST). destruct (frame_lasts dt) as [_ K]. apply K.
  rewrite FL, inject_Z_mult. change (inject_Z (seconds 20)) with 20000000%Q. ring.
Qed.
Print Assumptions C118_consecutive.
(** Nothing is lost: files whose product times are in the twenty seconds from the start in
    their names, gridded without times on the command line; the frames together show what
    all files show. *)
Theorem C118_nothing_lost : forall set_order weird clip tree quad xe ye chunk_size q fs files dt te arrays p,
  fs <> [] -> (forall f, In f fs -> named_ok f) -> (1 # 2000000 < dt)%Q ->
  Forall2 (fun f gf => in_file f (f_time gf)) fs files ->
  run_edges (map path_of fs) None None dt = Ok te ->
  (1 < List.length xe)%nat -> (1 < List.length ye)%nat -> increasing xe -> increasing ye -> proper clip ->
  process_files set_order weird clip tree quad xe ye te true chunk_size q files = Ok (arrays, p) ->
  exists whole tables, grid_files set_order weird clip tree quad xe ye chunk_size (map f_ds files) q = Ok whole /\
  tables_read set_order weird chunk_size q (map f_ds files) tables /\
  ((forall r, In r (List.concat tables) -> ~ (size (quad (lu_x r) (lu_y r)) == 0)%Q /\ lu_farea r <> None /\ lu_garea r <> None) ->
   forall kx ky, (S kx < List.length xe)%nat -> (S ky < List.length ye)%nat ->
   forall name h, In (name, h) [("total_energy", gr_energy); ("flash_extent_density", gr_fcount); ("group_extent_density", gr_gcount);
                                ("average_flash_area", gr_farea); ("average_group_area", gr_garea)]%string ->
   exists vs, Forall2 (fun t v => product arrays name kx ky t (Some v)) (seq 0 (List.length te - 1)) vs /\
     is_num (g_at (h whole) (Z.of_nat kx) (Z.of_nat ky)) (qsum vs)).
Proof.
  intros so weird clip tree quad xe ye cs q fs files dt te arrays p NE OK P. apply (nothing_lost so weird clip tree quad xe ye cs q fs files dt te arrays p NE OK (frame_positive _ P)).
Qed.
Print Assumptions C118_nothing_lost.

(** Three files of one minute, in any order, give one frame of a minute; four give two. *)
Example C118_minute : run_edges (map path_of [nm 30 20; nm 30 0; nm 30 40]) None None 60 = Ok [in_seconds (instant (mkDT 2018 183 4 30 0 0)); in_seconds (instant (mkDT 2018 183 4 31 0 0))] /\
  frame_length 60 = seconds 20 * Z.of_nat 3 /\ frame_length (1 # 2) = 500000 /\
  (forall i f, nth_error [nm 30 0; nm 30 20; nm 30 40] i = Some f -> instant (n_start f) = instant (n_start (nm 30 0)) + seconds 20 * Z.of_nat i).
Proof.
  split; [vm_compute; reflexivity|]. split; [reflexivity|]. split; [reflexivity|].
  intros [|[|[|i]]] f E; cbn [nth_error] in E; try (injection E as <-; vm_compute; reflexivity). destruct i; discriminate E.
Qed.
Example C118_four : exists te, run_edges (map path_of [nm 30 20; nm 30 0; nm 30 40; nm 31 0]) None None 60 = Ok te /\ List.length te = 3%nat.
Proof. eexists. split; [vm_compute; reflexivity|reflexivity]. Qed.
(** A file of product time three seconds after the start in its name, gridded in that frame. *)
Definition tf_time : Q := in_seconds (instant (n_start (nm 30 0)) + seconds 3).
Definition tf_file : glmfile := mkFile g_ds tf_time (fun _ => tf_time) (fun _ => tf_time) (fun _ => tf_time) (lit "G16").
Example C118_hypotheses : Forall2 (fun f gf => in_file f (f_time gf)) [nm 30 0] [tf_file] /\
  match run_edges (map path_of [nm 30 0]) None None 60 with
  | Ok te => match process_files (fun l => l) (fun _ => 0) ex_clip ex_tree ex_quad ex_xe ex_ye te true 7 None [tf_file] with
             | Ok (arrays, _) => map (fun k => g_total arrays k 0) [1; 3; 5]%nat = [2; 18; 2]%Q /\ List.length te = 2%nat
             | Err _ => False
             end
  | Err _ => False
  end.
Proof. split; [constructor; [split; vm_compute; congruence|constructor]|]. vm_compute. split; reflexivity. Qed.
