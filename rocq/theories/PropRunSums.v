(** Property C119 for a whole run: the images of all frames together. *)
From Coq Require Import List ZArith QArith Qabs Bool String Lia Lqa Permutation.
From Verif Require Import Base BaseProofs Traversal TraversalSpec Glm GlmSpec GlmProofs2 GlmProofs3 PropGlm Lut LutSpec LutProofs Accum AccumSpec AccumProofs Poly PolySpec PropPoly BBox BBoxSpec
  Slice SliceSpec PropSlice Regroup RegroupSpec Pipeline PipelineSpec PipelineProofs PropPipeline ChunkSpec ChunkProofs PropChunks FileName FileNameSpec Imagery ImagerySpec ImageryProofs PropImagery
  Gridder GridderSpec GridderProofs PropGridder PropImageSums GridSetup GridSetupSpec GridSetupProofs PropGridSetup TimeFrames PropTimeFrames.
Import ListNotations.
Open Scope Q_scope.

(** The tables read from files are determined by them. *)
Lemma f2_fun : forall A B (P : A -> B -> Prop) l a b, (forall x y z, In x l -> P x y -> P x z -> y = z) -> Forall2 P l a -> Forall2 P l b -> a = b.
Proof.
  intros A B P l a b H F. revert b H. induction F as [|x y l a Hx F IH]; intros b H G; inversion G; subst; [reflexivity|]. f_equal; [eapply H; eauto; left; reflexivity|].
  apply IH; [|assumption]. intros u v w I. apply H. right. exact I.
Qed.
Lemma tables_fun : forall so weird cs q files a b, tables_read so weird cs q files a -> tables_read so weird cs q files b -> a = b.
Proof.
  intros so weird cs q files a b (ta & Fa & ->) (tb & Fb & ->). f_equal. apply (f2_fun _ _ (tables_of_file so weird cs q) files ta tb); [|exact Fa|exact Fb].
  intros ds x y _ [[E ->]|((e & E & N) & c & C & X)] [[E' ->]|((e' & E' & N') & c' & C' & Y)]; try congruence.
  rewrite C in C'. inversion C'; subst c'. apply (f2_fun _ _ (fun c t => get_lutevents weird lut_scale lut_range lut_range c = Ok t) c x y); [|exact X|exact Y]. intros; congruence.
Qed.
Lemma sums_near : forall A (l : list A) (R : A -> Q -> Prop) (V B : A -> Q), (forall a, In a l -> exists t, R a t /\ Qabs (t - V a) <= B a) ->
  exists ts, Forall2 R l ts /\ Qabs (qsum ts - qsum (map V l)) <= qsum (map B l).
Proof.
  induction l as [|a l IH]; intros R V B H; [exists []; split; [constructor|unfold Qle; cbn; lia]|].
  destruct (H a (or_introl eq_refl)) as (t & Rt & Dt). destruct (IH R V B (fun x I => H x (or_intror I))) as (ts & F & D). exists (t :: ts). split; [constructor; auto|].
  cbn [map]. change (qsum (?x :: ?r)) with (x + qsum r). apply Qabs_Qle_condition in Dt, D. destruct Dt, D. apply Qabs_Qle_condition. split; lra.
Qed.
Lemma f2_seq : forall A (R : A -> Q -> Prop) (l : list A) ts d, Forall2 (fun t v => R (nth t l d) v) (seq 0 (List.length l)) ts -> Forall2 R l ts.
Proof.
  intros A R l ts d H. remember (seq 0 (List.length l)) as s eqn:ES. assert (G : forall k l ts, Forall2 (fun t v => R (nth (t - k) l d) v) (seq k (List.length l)) ts -> Forall2 R l ts).
  { clear. intros k l. revert k. induction l as [|a l IH]; intros k ts H; cbn [List.length seq] in H; inversion H; subst; [constructor|]. rewrite Nat.sub_diag in *. constructor; [assumption|].
    apply (IH (S k)). match goal with F : Forall2 _ (seq (S k) _) _ |- _ => revert F end. generalize (List.length l). intros n.
    assert (K : forall s ts, (forall t, In t s -> (S k <= t)%nat) -> Forall2 (fun t v => R (nth (t - k) (a :: l) d) v) s ts -> Forall2 (fun t v => R (nth (t - S k) l d) v) s ts).
    { induction 2 as [|t v s ts P F IHF]; constructor; [|apply IHF; intros u U; apply H0; right; exact U]. assert (S k <= t)%nat by (apply H0; left; reflexivity). replace (t - k)%nat with (S (t - S k)) in P by lia. exact P. }
    apply K. intros t I. apply in_seq in I. lia. }
  apply (G 0%nat). subst s. clear -H. induction H as [|t v s ts P F IH]; constructor; [rewrite Nat.sub_0_r; exact P|exact IH].
Qed.

(** Energy of cell [k] in frame [t]. *)
Definition frame_energy set_order weird clip tree quad xe ye te chunk_size q files (t : nat) (k : nat * nat) : Q :=
  match grid_files set_order weird clip tree quad xe ye chunk_size (files_during te t files) q with
  | Ok g => num (g_at (gr_energy g) (Z.of_nat (fst k)) (Z.of_nat (snd k)))
  | Err _ => 0
  end.

(** Without padding, with frames in order and pixel polygons covered by cells: the energy
    images of all frames add up to the energy of the events of the selected flashes in all
    files with a product time in any frame, exactly or up to one step for every cell of a
    frame that has any. *)
Theorem C119_run_energy : forall set_order, (forall l, Permutation (set_order l) l) ->
  forall weird clip tree quad xe ye te chunk_size q (scaled : bool) sc stamp nows files mx my outs,
  ascending xe -> ascending ye -> increasing te -> (0 < mx)%nat -> (0 < my)%nat -> List.length xe = S mx -> List.length ye = S my -> proper clip -> (exists f, In f files /\ has_events f = true) ->
  (0 < chunk_size)%nat -> (forall q', q = Some q' -> q_check q' = true) -> Forall (fun f => usable (f_ds f)) files ->
  proc_each_grid set_order weird clip tree quad xe ye te true true chunk_size q (pad_slice 0) (pad_slice 0) scaled sc stamp nows files = Ok outs ->
  let e := frame_energy set_order weird clip tree quad xe ye te chunk_size q files in
  exists tables es, tables_read set_order weird chunk_size q (files_within te files) tables /\ Forall2 (observed set_order q) (files_within te files) es /\
  ((forall r, In r (List.concat tables) ->
      let p := quad (lu_x r) (lu_y r) in ~ size p == 0 /\ covered p (cut clip (regular_xy xe ye) p (nearby tree (regular_xy xe ye) p))) ->
   (forall t k, (t < List.length outs)%nat -> In k (image_cells mx my) -> 0 <= e t k /\ (scaled = true -> e t k <= 65535 * (152597 # 100000000000))) ->
   exists totals, Forall2 (fun out total => image_sum out "total_energy" total) outs totals /\
     if scaled then Qabs (qsum totals - qsum es) <= (152597 # 100000000000) *
         qnat (List.length (filter (fun tk => Qlt_bool 0 (e (fst tk) (snd tk))) (list_prod (seq 0 (List.length outs)) (image_cells mx my))))
     else qsum totals == qsum es).
Proof.
  intros so PS weird clip tree quad xe ye te cs q scaled sc stamp nows files mx my outs AX AY IT MX MY LX LY PR HE HC HQ HU H e.
  assert (IX : increasing xe) by (intros i j Hij; apply AX; exact Hij). assert (IY : increasing ye) by (intros i j Hij; apply AY; exact Hij).
  assert (US : Forall usable (files_within te files)).
  { unfold files_within. rewrite Forall_forall in *. intros ds I. apply in_map_iff in I. destruct I as (f & <- & I). apply filter_In in I. apply HU, I. }
  pose proof H as HP. unfold proc_each_grid in HP. cbn [negb] in HP. apply bind_ok_inv in HP. destruct HP as ([arrays p] & EP & _).
  destruct (C59_frames_add_up so weird clip tree quad xe ye te cs q files arrays p ltac:(lia) ltac:(lia) IX IY PR IT EP) as (whole & tables & EW & TR & ADD).
  destruct (C36_observed_energy so PS weird clip tree quad xe ye cs (files_within te files) q whole ltac:(lia) ltac:(lia) IX IY PR HC HQ US EW) as (tables' & es & TR' & OB & TOT).
  rewrite (tables_fun _ _ _ _ _ _ _ TR' TR) in TOT. clear tables' TR'. exists tables, es. split; [exact TR|]. split; [exact OB|]. intros COV RG.
  destruct (observed_tables so PS weird cs (files_within te files) q tables HC HQ US TR) as (_ & _ & _ & NN).
  assert (OKR : forall r, In r (List.concat tables) -> ~ size (quad (lu_x r) (lu_y r)) == 0 /\ lu_farea r <> None /\ lu_garea r <> None).
  { intros r Hr. destruct (COV r Hr) as [Z _]. destruct (NN r Hr) as (A & B & _). auto. }
  specialize (ADD OKR). specialize (TOT COV).
  destruct (C48_products _ _ _ _ _ _ _ _ _ _ _ _ _ EP) as (_ & _ & PRD).
  destruct (C60_written_products_partial so weird clip tree quad xe ye te cs q 0 scaled sc stamp nows files mx my outs AX AY ltac:(lia) ltac:(lia) HE H) as [LO _].
  assert (CELL : forall k, In k (image_cells mx my) -> num (g_at (gr_energy whole) (Z.of_nat (fst k)) (Z.of_nat (snd k))) == qsum (map (fun t => e t k) (seq 0 (List.length outs)))).
  { intros [kx ky] I. apply in_prod_iff in I. rewrite !in_seq in I. cbn [fst snd].
    destruct (ADD kx ky ltac:(lia) ltac:(lia) "total_energy"%string gr_energy (or_introl eq_refl)) as (vs & F & x & -> & Ex). cbn [num]. rewrite Ex. rewrite LO.
    assert (ST : forall t, In t (seq 0 (List.length te - 1)) -> (t < List.length te - 1)%nat) by (intros t I2; apply in_seq in I2; lia).
    revert F ST. generalize (seq 0 (List.length te - 1)). intros s F ST. clear Ex. revert ST. induction F as [|t v s vs P F IH]; intros ST; [reflexivity|].
    cbn [map]. change (qsum (?x :: ?r)) with (x + qsum r). rewrite IH by (intros u U; apply ST; right; exact U).
    destruct (PRD t (ST t (or_introl eq_refl))) as (g & EG & PP). destruct (PP kx ky) as (P3 & _). unfold e, frame_energy. rewrite EG. cbn [fst snd].
    apply (product_cell _ 3%nat _ _ _ _ _ eq_refl) in P, P3. apply cell_at in P, P3. destruct P as [_ P], P3 as [_ P3]. rewrite <- P3, P. reflexivity. }
  assert (ES : qsum (map (fun t => qsum (map (e t) (image_cells mx my))) (seq 0 (List.length outs))) == qsum es).
  { rewrite <- TOT. destruct (energy_dims _ _ _ _ _ _ _ _ _ _ _ EW) as [D0 D1]. rewrite (grid_cells (gr_energy whole) mx my) by (rewrite ?D0, ?D1; lia).
    rewrite (qsum_swap _ _ (fun t k => e t k)). apply qsum_ext. intros k I. symmetry. apply CELL, I. }
  set (s := 152597 # 100000000000) in *. destruct outs as [|o0 outs0] eqn:EO.
  { exists []. split; [constructor|]. cbn [List.length seq map] in ES. cbn [List.length seq list_prod filter]. destruct scaled; rewrite <- ES; [vm_compute; congruence|reflexivity]. }
  rewrite <- EO in *. clear EO.
  destruct (sums_near _ (seq 0 (List.length outs)) (fun t v => image_sum (nth t outs o0) "total_energy" v) (fun t => qsum (map (e t) (image_cells mx my)))
     (fun t => (if scaled then s else 0) * qnat (List.length (filter (fun k => Qlt_bool 0 (e t k)) (image_cells mx my))))) as (totals & F & D).
  { intros t I. apply in_seq in I. assert (Ho : nth_error outs t = Some (nth t outs o0)) by (apply nth_error_nth'; lia).
    destruct (C119_sums so weird clip tree quad xe ye te cs q 0 scaled sc stamp nows files mx my outs AX AY ltac:(lia) ltac:(lia) HE H t _ Ho) as (g & EG & SM).
    assert (EE : forall k, num (g_at (gr_energy g) (Z.of_nat (0 + fst k)) (Z.of_nat (0 + snd k))) = e t k) by (intros k; unfold e, frame_energy; rewrite EG; reflexivity).
    destruct (SM "total_energy"%string gr_energy s (or_introl eq_refl)) as (total & IS & DD); [intros k Hk; rewrite EE; apply RG; [lia|exact Hk]|]. exists total. split; [exact IS|].
    rewrite (map_ext _ _ EE) in DD. rewrite (filter_ext _ (fun k => Qlt_bool 0 (e t k))) in DD by (intros k; rewrite EE; reflexivity).
    destruct scaled; [exact DD|]. rewrite DD. rewrite Qmult_0_l. apply Qabs_Qle_condition. split; lra. }
  exists totals. split; [apply (f2_seq _ (fun out total => image_sum out "total_energy" total) outs totals o0); exact F|].
  rewrite ES in D. rewrite (qsum_scale _ (fun t => qnat (List.length (filter (fun k => Qlt_bool 0 (e t k)) (image_cells mx my))))) in D.
  destruct scaled; [|rewrite Qmult_0_l in D; apply Qabs_Qle_condition in D; destruct D; lra].
  rewrite qnat_sum in D. rewrite filter_sum, nsum_prod. rewrite (nsum_ext _ _ (fun t => List.length (filter (fun k => Qlt_bool 0 (e t k)) (image_cells mx my)))); [exact D|].
  intros t _. rewrite filter_sum. reflexivity.
Qed.
Print Assumptions C119_run_energy.

Lemma all_within : forall fs files dt te, fs <> [] -> (forall f, In f fs -> named_ok f) -> 1 # 2000000 < dt ->
  Forall2 (fun f gf => in_file f (f_time gf)) fs files -> run_edges (map path_of fs) None None dt = Ok te ->
  increasing te /\ files_within te files = map f_ds files.
Proof.
  intros fs files dt te NE OK P F2 R. destruct (C118_every_file fs dt NE OK P) as (te' & n & first & latest & fr & R' & INC & LEN & COV & _). assert (te' = te) by congruence. subst te'.
  split; [exact INC|]. unfold files_within. f_equal. clear R R'. assert (CV : forall gf, In gf files -> in_one_frame te (f_time gf)).
  { intros gf Hg. clear - F2 Hg COV. induction F2 as [|f g0 fs files B F2 IH]; [destruct Hg|]. destruct Hg as [->|Hg]; [apply (COV f); [left; reflexivity|exact B]|apply IH; auto].
    intros f' v Hf'. apply COV. right. exact Hf'. }
  clear F2. induction files as [|gf files IH]; [reflexivity|]. cbn [filter]. rewrite IH by (intros g Hg; apply CV; right; exact Hg).
  destruct (CV gf (or_introl eq_refl)) as (t & Ht & D & _). destruct (C59_one_frame te (f_time gf) INC) as [_ [K _]]. destruct K as (a & Ea & A1 & A2); [exists t; auto|].
  destruct te as [|a0 te]; [discriminate Ea|]. cbn [nth_error] in Ea. injection Ea as ->.
  apply Qle_bool_iff in A1. rewrite A1. destruct (Qle_bool (last (a :: te) a) (f_time gf)) eqn:QB; [apply Qle_bool_iff in QB; lra|]. reflexivity.
Qed.

(** A run of the script without times on the command line, over files whose product times are
    in the twenty seconds from the starts in their names: the energy images together show the
    energy of the events of the selected flashes in all the files, whatever --dt. *)
Theorem C119_all_files : forall set_order, (forall l, Permutation (set_order l) l) ->
  forall weird clip tree quad xe ye te chunk_size q (scaled : bool) sc stamp nows fs files dt mx my outs,
  fs <> [] -> (forall f, In f fs -> named_ok f) -> 1 # 2000000 < dt ->
  Forall2 (fun f gf => in_file f (f_time gf)) fs files -> run_edges (map path_of fs) None None dt = Ok te ->
  ascending xe -> ascending ye -> (0 < mx)%nat -> (0 < my)%nat -> List.length xe = S mx -> List.length ye = S my -> proper clip -> (exists f, In f files /\ has_events f = true) ->
  (0 < chunk_size)%nat -> (forall q', q = Some q' -> q_check q' = true) -> Forall (fun f => usable (f_ds f)) files ->
  proc_each_grid set_order weird clip tree quad xe ye te true true chunk_size q (pad_slice 0) (pad_slice 0) scaled sc stamp nows files = Ok outs ->
  let e := frame_energy set_order weird clip tree quad xe ye te chunk_size q files in
  exists tables es, tables_read set_order weird chunk_size q (map f_ds files) tables /\ Forall2 (observed set_order q) (map f_ds files) es /\
  ((forall r, In r (List.concat tables) ->
      let p := quad (lu_x r) (lu_y r) in ~ size p == 0 /\ covered p (cut clip (regular_xy xe ye) p (nearby tree (regular_xy xe ye) p))) ->
   (forall t k, (t < List.length outs)%nat -> In k (image_cells mx my) -> 0 <= e t k /\ (scaled = true -> e t k <= 65535 * (152597 # 100000000000))) ->
   exists totals, Forall2 (fun out total => image_sum out "total_energy" total) outs totals /\
     if scaled then Qabs (qsum totals - qsum es) <= (152597 # 100000000000) *
         qnat (List.length (filter (fun tk => Qlt_bool 0 (e (fst tk) (snd tk))) (list_prod (seq 0 (List.length outs)) (image_cells mx my))))
     else qsum totals == qsum es).
Proof.
  intros so PS weird clip tree quad xe ye te cs q scaled sc stamp nows fs files dt mx my outs NE OK P F2 R AX AY MX MY LX LY PR HE HC HQ HU H e.
  destruct (all_within fs files dt te NE OK P F2 R) as [INC FW]. rewrite <- FW.
  exact (C119_run_energy so PS weird clip tree quad xe ye te cs q scaled sc stamp nows files mx my outs AX AY INC MX MY LX LY PR HE HC HQ HU H).
Qed.
Print Assumptions C119_all_files.

(** Two files with events of 18 each, twenty seconds apart, gridded without padding and scaling
    in frames of twenty seconds: each image shows 18. *)
Definition rs_time (s : Z) : Q := in_seconds (instant (n_start (nm 30 s)) + 3000000).
Definition rs_file (s : Z) : glmfile := mkFile g_ds (rs_time s) (fun _ => rs_time s) (fun _ => rs_time s) (fun _ => rs_time s) (lit "G16").
Definition rs_sum (f : outfile) : Q :=
  match find (fun nr => String.eqb (fst nr) "total_energy") (of_fields f) with Some nr => Qred (qsum (map (fun row => qsum (map num row)) (snd nr))) | None => 0 end.
Definition rs_outs : list Q :=
  match run_edges (map path_of [nm 30 0; nm 30 20]) None None 20 with
  | Ok te => match proc_each_grid (fun l => l) (fun _ => 0%Z) ex_clip ex_tree ex_quad ex_xe ex_ye te true true 7 None (pad_slice 0) (pad_slice 0) false ex_scenes
                     (fun _ => ex_time) (fun _ => ex_time) [rs_file 0; rs_file 20] with Ok outs => map rs_sum outs | Err _ => [] end
  | Err _ => []
  end.
Example C119_run_ex : rs_outs = [18; 18] /\ Forall2 (fun f gf => in_file f (f_time gf)) [nm 30 0; nm 30 20] [rs_file 0; rs_file 20] /\
  Forall (fun f => usable (f_ds f)) [rs_file 0; rs_file 20].
Proof.
  split; [vm_compute; reflexivity|]. split; [constructor; [split; vm_compute; congruence|constructor; [split; vm_compute; congruence|constructor]]|].
  destruct C59_hypotheses as [_ U]. inversion U; subst. constructor; [assumption|]. constructor; [assumption|constructor].
Qed.
