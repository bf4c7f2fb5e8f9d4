(** C102: runs on parts of the data add up to a run on all of it, also after the files of
    the runs are opened and aggregated. *)
From Coq Require Import List ZArith QArith Qabs Bool Lia Lqa Permutation String.
From Verif Require Import Base BaseProofs Traversal Glm GlmSpec GlmProofs3 Lut LutSpec LutProofs PropLut Accum AccumSpec AccumProofs PropAccum
  Poly PolySpec PolyProofs PropPoly BBox BBoxSpec BBoxProofs PropBBox Slice SliceSpec SliceProofs PropSlice
  Regroup RegroupSpec RegroupProofs PropRegroup Pipeline PipelineSpec PipelineProofs PropPipeline ChunkSpec ChunkProofs PropChunks Imagery Aggregate AggregateSpec AggregateProofs PropAggregate Runs.
Import ListNotations.
Open Scope Z_scope.

Local Notation tbl := (table obs).
Local Notation file := (list tbl).

(** The least positive number of a list of numbers in which zero stands for none. *)
Definition least_positive (l : list fval) (v : fval) : Prop :=
  (is_num v 0 /\ forall u, In u l -> is_num u 0) \/
  (exists q, v = Some q /\ (0 < q)%Q /\ (exists u, In u l /\ is_num u q) /\ forall u p, In u l -> u = Some p -> (p == 0 \/ q <= p)%Q).

Section Runs.
Variable set_order : list Z -> list Z.
Variable weird : fval -> Z.
Variable clip : poly -> poly -> list poly.
Variable tree : Q * Q -> list (Z * Z).
Variable quad : fval -> fval -> poly.
Variables xe ye : list Q.
Variable chunk_size : nat.
Variable q : option query.
Hypothesis HX : (1 < List.length xe)%nat.
Hypothesis HY : (1 < List.length ye)%nat.
Hypothesis IX : increasing xe.
Hypothesis IY : increasing ye.
Hypothesis PR : proper clip.
Notation grid_run files g := (grid_files set_order weird clip tree quad xe ye chunk_size files q = Ok g).
Let nx := Z.of_nat (List.length xe) - 1.
Let ny := Z.of_nat (List.length ye) - 1.

(** What a run is, with the batches that were accumulated. *)
Definition made_of (g : grids) (bs : list (list cellrow)) : Prop :=
  (forall col, Forall (Forall (in_grid nx ny)) (map (items col) bs)) /\ (forall col, Forall (no_repeat nx ny) (map (items col) bs)) /\
  (forall col h, In (col, h) [(ce_power, gr_energy); (ce_fcount, gr_fcount); (ce_farea, gr_farea); (ce_gcount, gr_gcount); (ce_garea, gr_garea)] ->
     accumulate (zeros nx ny) (map (items col) bs) = Ok (h g)) /\
  accumulate_min (zeros nx ny) (map (items ce_minarea) bs) = Ok (gr_minarea g).
Lemma run_inv : forall files g, grid_run files g ->
  exists bs, read_files set_order weird clip tree quad (regular_xy xe ye) chunk_size files q = Ok bs /\ made_of g bs.
Proof.
  intros files g H. unfold grid_files in H. change (mkMesh (meshgrid_x xe ye) (meshgrid_y xe ye) true) with (regular_xy xe ye) in H.
  apply bind_ok_inv in H. destruct H as (bs & HR & H). exists bs. split; [exact HR|].
  destruct (read_all set_order weird clip tree quad xe ye HX HY IX IY PR chunk_size q files bs HR) as (ts & Ws & _ & FW & FR).
  pose proof (all_fit _ _ _ _ _ _ _ FW) as FIT. fold nx ny in FIT, H. unfold make_grids in H.
  apply bind_ok_inv in H. destruct H as (e & HE & H). apply bind_ok_inv in H. destruct H as (fc & HFC & H).
  apply bind_ok_inv in H. destruct H as (fa & HFA & H). apply bind_ok_inv in H. destruct H as (mn & HMN & H).
  apply bind_ok_inv in H. destruct H as (gc & HGC & H). apply bind_ok_inv in H. destruct H as (ga & HGA & H). inversion H; subst g. clear H.
  split; [intros col; apply (batches_in_grid nx ny Ws bs col FR FIT)|]. split; [intros col; apply (batches_no_repeat nx ny Ws bs col FR FIT)|].
  split; [|exact HMN]. intros col h [E|[E|[E|[E|[E|[]]]]]]; inversion E; subst; assumption.
Qed.
Lemma run_of_batches : forall files bs, read_files set_order weird clip tree quad (regular_xy xe ye) chunk_size files q = Ok bs -> exists g, grid_run files g.
Proof.
  intros files bs HR. destruct (read_all set_order weird clip tree quad xe ye HX HY IX IY PR chunk_size q files bs HR) as (ts & Ws & _ & FW & FR).
  pose proof (all_fit _ _ _ _ _ _ _ FW) as FIT. fold nx ny in FIT.
  assert (A : forall col, exists g, accumulate (zeros nx ny) (map (items col) bs) = Ok g) by (intros; apply accumulate_total; apply (batches_in_grid nx ny Ws); auto).
  assert (B : exists g, accumulate_min (zeros nx ny) (map (items ce_minarea) bs) = Ok g) by (apply accumulate_min_total; apply (batches_in_grid nx ny Ws); auto).
  unfold grid_files. change (mkMesh (meshgrid_x xe ye) (meshgrid_y xe ye) true) with (regular_xy xe ye). rewrite HR. cbn [bind]. fold nx ny. unfold make_grids.
  destruct (A ce_power) as (g1 & ->). cbn [bind]. destruct (A ce_fcount) as (g2 & ->). cbn [bind]. destruct (A ce_farea) as (g3 & ->). cbn [bind].
  destruct B as (g4 & ->). cbn [bind]. destruct (A ce_gcount) as (g5 & ->). cbn [bind]. destruct (A ce_garea) as (g6 & ->). cbn [bind]. eauto.
Qed.
Lemma map_res_app : forall A B (f : A -> res B) l1 l2, map_res f (l1 ++ l2) = (a <- map_res f l1 ;; b <- map_res f l2 ;; Ok (a ++ b)).
Proof.
  intros A B f l1 l2. induction l1 as [|x l1 IH]; cbn [app map_res bind]; [destruct (map_res f l2); reflexivity|].
  destruct (f x); cbn [bind]; [|reflexivity]. rewrite IH. destruct (map_res f l1); cbn [bind]; [|reflexivity]. destruct (map_res f l2); reflexivity.
Qed.
Lemma read_app : forall f1 f2 bs, read_files set_order weird clip tree quad (regular_xy xe ye) chunk_size (f1 ++ f2) q = Ok bs <->
  exists b1 b2, read_files set_order weird clip tree quad (regular_xy xe ye) chunk_size f1 q = Ok b1 /\
    read_files set_order weird clip tree quad (regular_xy xe ye) chunk_size f2 q = Ok b2 /\ bs = b1 ++ b2.
Proof.
  intros f1 f2 bs. unfold read_files. set (h := fun ds => _). rewrite map_res_app. destruct (map_res h f1) as [x|e]; cbn [bind].
  - destruct (map_res h f2) as [y|e]; cbn [bind].
    + rewrite concat_app. split; [intros E; inversion E; subst; eexists _, _; split; [reflexivity|]; split; reflexivity|].
      intros (b1 & b2 & E1 & E2 & ->). inversion E1. inversion E2. reflexivity.
    + split; [discriminate|]. intros (b1 & b2 & _ & E2 & _). discriminate E2.
  - split; [discriminate|]. intros (b1 & b2 & E1 & _). discriminate E1.
Qed.
Lemma read_parts : forall parts bs, read_files set_order weird clip tree quad (regular_xy xe ye) chunk_size (List.concat parts) q = Ok bs <->
  exists bss, Forall2 (fun fs b => read_files set_order weird clip tree quad (regular_xy xe ye) chunk_size fs q = Ok b) parts bss /\ bs = List.concat bss.
Proof.
  induction parts as [|fs parts IH]; intros bs.
  - cbn. split; [intros E; inversion E; exists []; split; [constructor|reflexivity]|]. intros (bss & F & ->). inversion F. reflexivity.
  - cbn [List.concat]. rewrite read_app. split.
    + intros (b1 & b2 & E1 & E2 & ->). apply IH in E2. destruct E2 as (bss & F & ->). exists (b1 :: bss). split; [constructor; auto|reflexivity].
    + intros (bss & F & ->). inversion F as [|? b ? bss' E F']; subst. exists b, (List.concat bss'). split; [exact E|]. split; [apply IH; eauto|reflexivity].
Qed.
Lemma read_det : forall files a b, read_files set_order weird clip tree quad (regular_xy xe ye) chunk_size files q = Ok a ->
  read_files set_order weird clip tree quad (regular_xy xe ye) chunk_size files q = Ok b -> a = b.
Proof. intros. congruence. Qed.

(** A run on all files succeeds if and only if the runs on the parts do. *)
Theorem C102_succeeds_with_its_parts : forall parts,
  (exists g, grid_run (List.concat parts) g) <-> Forall (fun fs => exists g, grid_run fs g) parts.
Proof.
  intros parts. split.
  - intros (g & H). apply run_inv in H. destruct H as (bs & HR & _). apply read_parts in HR. destruct HR as (bss & F & _).
    induction F as [|fs b parts bss E F IH]; constructor; auto. apply (run_of_batches fs b E).
  - intros F. assert (exists bss, Forall2 (fun fs b => read_files set_order weird clip tree quad (regular_xy xe ye) chunk_size fs q = Ok b) parts bss) as (bss & F2).
    { induction F as [|fs parts (g & H) F IH]; [exists []; constructor|]. destruct IH as (bss & IH). apply run_inv in H. destruct H as (bs & HR & _). exists (bs :: bss). constructor; auto. }
    apply (run_of_batches (List.concat parts) (List.concat bss)). apply read_parts. eauto.
Qed.

Lemma runs_batches : forall parts gs g, Forall2 (fun fs g => grid_run fs g) parts gs -> grid_run (List.concat parts) g ->
  exists bss, Forall2 made_of gs bss /\ made_of g (List.concat bss) /\
    Forall2 (fun fs b => read_files set_order weird clip tree quad (regular_xy xe ye) chunk_size fs q = Ok b) parts bss.
Proof.
  intros parts gs g F H. apply run_inv in H. destruct H as (bs & HR & M). apply read_parts in HR. destruct HR as (bss & F2 & ->). exists bss. split; [|split; [exact M|exact F2]].
  clear M. revert gs F. induction F2 as [|fs b parts bss E F2 IH]; intros gs F; inversion F as [|? g' ? gs' E' F']; subst; constructor.
  - apply run_inv in E'. destruct E' as (b' & HR' & M). assert (b' = b) by congruence. subst b'. exact M.
  - apply IH. exact F'.
Qed.
Lemma concat_map_concat : forall A B (f : A -> B) (l : list (list A)), map f (List.concat l) = List.concat (map (map f) l).
Proof. intros A B f l. induction l as [|x l IH]; [reflexivity|]. cbn [List.concat map]. rewrite map_app, IH. reflexivity. Qed.
Lemma concat_concat : forall A (l : list (list (list A))), List.concat (List.concat l) = List.concat (map (@List.concat A) l).
Proof. intros A l. induction l as [|x l IH]; [reflexivity|]. cbn [List.concat map]. rewrite concat_app, IH. reflexivity. Qed.
Lemma flat_items : forall col (bss : list (list (list cellrow))),
  List.concat (map (items col) (List.concat bss)) = List.concat (map (fun bs => List.concat (map (items col) bs)) bss).
Proof. intros. rewrite concat_map_concat, concat_concat, map_map. reflexivity. Qed.
Lemma numbers_app : forall l m, numbers (l ++ m) <-> numbers l /\ numbers m.
Proof.
  intros l m. unfold numbers. split; [intros H; split; intros v Hv; apply H; apply in_or_app; auto|].
  intros [H1 H2] v Hv. apply in_app_iff in Hv. destruct Hv; auto.
Qed.
Lemma numbers_dec : forall l, numbers l \/ ~ numbers l.
Proof.
  induction l as [|[v|] l [IH|IH]].
  - left. intros v [].
  - left. intros u [<-|Hu]; [discriminate|auto].
  - right. intros K. apply IH. intros u Hu. apply K. right. auto.
  - right. intros K. apply (K None); [left; reflexivity|reflexivity].
  - right. intros K. apply (K None); [left; reflexivity|reflexivity].
Qed.
Lemma total_app : forall l m, (LutSpec.total (l ++ m) == LutSpec.total l + LutSpec.total m)%Q.
Proof. intros. unfold LutSpec.total. rewrite map_app, qsum_app. reflexivity. Qed.
(** Sums of parts. *)
Lemma adds_parts : forall (ls : list (list fval)) vs v, Forall2 (fun l v => adds_to (Some 0%Q) l v) ls vs ->
  adds_to (Some 0%Q) (List.concat ls) v -> adds_to (Some 0%Q) vs v.
Proof.
  intros ls vs v F H.
  assert (K : (numbers (List.concat ls) <-> numbers vs) /\ (numbers vs -> LutSpec.total vs == LutSpec.total (List.concat ls))%Q).
  { clear H. induction F as [|l u ls vs E F IH]; [split; [split; intros; intros x []|reflexivity]|]. cbn [List.concat]. destruct IH as [I1 I2]. destruct E as [E1 E2]. split.
    - rewrite numbers_app, I1. split.
      + intros [N1 N2] x [<-|Hx]; [|apply N2; auto]. destruct (E1 N1) as (y & -> & _). discriminate.
      + intros N. split; [|intros x Hx; apply N; right; auto]. destruct (numbers_dec l) as [D|D]; [exact D|]. exfalso. apply (N u); [left; reflexivity|auto].
    - intros N. assert (Nv : numbers vs) by (intros x Hx; apply N; right; auto). rewrite total_app. change (LutSpec.total (u :: vs)) with (num u + LutSpec.total vs)%Q. rewrite (I2 Nv). apply Qplus_comp; [|reflexivity].
      destruct (numbers_dec l) as [D|D]; [|exfalso; apply (N u); [left; reflexivity|auto]]. destruct (E1 D) as (y & -> & Ey). cbn [num]. rewrite Ey. ring. }
  destruct K as [K1 K2]. destruct H as [H1 H2]. split.
  - intros N. destruct (H1 (proj2 K1 N)) as (y & -> & Ey). exists y. split; [reflexivity|]. rewrite Ey, (K2 N). reflexivity.
  - intros N. apply H2. rewrite K1. exact N.
Qed.

(** Each summed field of the whole run is the sum of the fields of the runs on the parts,
    cell by cell; the minimum field is the least of theirs (zero stands for no flash). *)
Theorem C102_runs_add_up : forall parts gs g, Forall2 (fun fs g => grid_run fs g) parts gs -> grid_run (List.concat parts) g -> forall a b,
  (forall h, In h [gr_energy; gr_fcount; gr_farea; gr_gcount; gr_garea] -> adds_to (Some 0%Q) (map (fun g' => g_at (h g') a b) gs) (g_at (h g) a b)) /\
  ((forall fs tables r, In fs parts -> tables_read set_order weird chunk_size q fs tables -> In r (List.concat tables) -> positive (lu_minarea r)) ->
   least_positive (map (fun g' => g_at (gr_minarea g') a b) gs) (g_at (gr_minarea g) a b)).
Proof.
  intros parts gs g F H a b. destruct (runs_batches parts gs g F H) as (bss & MS & M & RD). split.
  - intros h Hh.
    assert (exists col, In (col, h) [(ce_power, gr_energy); (ce_fcount, gr_fcount); (ce_farea, gr_farea); (ce_gcount, gr_gcount); (ce_garea, gr_garea)]) as (col & HC).
    { destruct Hh as [<-|[<-|[<-|[<-|[<-|[]]]]]]; eexists; cbn [In]; eauto 8. }
    assert (CE : forall g' bs, made_of g' bs -> adds_to (Some 0%Q) (sent_to nx ny a b (List.concat (map (items col) bs))) (g_at (h g') a b)).
    { intros g' bs (m1 & m2 & m3 & _). destruct (C34_adds_every_value_once (zeros nx ny) (map (items col) bs) (m1 col) (m2 col)) as (g2 & E & _ & _ & C).
      rewrite (m3 col h HC) in E. inversion E; subst g2. apply C. }
    apply (adds_parts (map (fun bs => sent_to nx ny a b (List.concat (map (items col) bs))) bss)).
    + clear -MS CE. induction MS as [|g' bs gs bss E MS IH]; cbn [map]; constructor; auto.
    + specialize (CE g _ M). rewrite flat_items in CE. rewrite sent_concat, map_map in CE. exact CE.
  - intros POS.
    assert (PB : Forall (fun bs => Forall positive (map it_v (List.concat (map (items ce_minarea) bs)))) bss).
    { clear -RD POS HX HY IX IY PR. induction RD as [|fs bs parts bss E RD IH]; constructor; [|apply IH; intros; eapply POS; eauto; right; auto].
      destruct (read_all set_order weird clip tree quad xe ye HX HY IX IY PR chunk_size q fs bs E) as (ts & Ws & TR & FW & FR).
      apply (batches_positive clip tree quad xe ye ts Ws bs HX HY FW FR). intros r Hr. eapply POS; eauto. left. reflexivity. }
    assert (CE : forall g' bs, made_of g' bs -> Forall positive (map it_v (List.concat (map (items ce_minarea) bs))) ->
       let l := sent_to nx ny a b (List.concat (map (items ce_minarea) bs)) in let v := g_at (gr_minarea g') a b in
       (l = [] /\ v = Some 0%Q) \/ (Forall positive l /\ least_of l v)).
    { intros g' bs (m1 & m2 & _ & m4) P l v. destruct (C35_least_positive_value nx ny (map (items ce_minarea) bs) (m1 _) (m2 _) P) as (g2 & E & _ & _ & C).
      rewrite m4 in E. inversion E; subst g2. specialize (C a b). fold l v in C. 
      assert (PL : Forall positive l). { apply Forall_forall. intros u Hu. unfold l, sent_to in Hu. apply in_map_iff in Hu. destruct Hu as (it & <- & Hi). apply filter_In in Hi. rewrite Forall_forall in P. apply P. apply in_map. apply Hi. }
      destruct l as [|u l']; [left; auto|right; auto]. }
    assert (PA : Forall positive (map it_v (List.concat (map (items ce_minarea) (List.concat bss))))).
    { rewrite flat_items. rewrite Forall_forall in PB |- *. intros u Hu. apply in_map_iff in Hu. destruct Hu as (it & <- & Hi). apply in_concat in Hi. destruct Hi as (l & Hl & Hi).
      apply in_map_iff in Hl. destruct Hl as (bs & <- & Hb). specialize (PB bs Hb). rewrite Forall_forall in PB. apply PB. apply in_map. exact Hi. }
    pose proof (CE g _ M PA) as W. cbv zeta in W. rewrite flat_items in W. rewrite sent_concat, map_map in W.
    set (S := fun bs => sent_to nx ny a b (List.concat (map (items ce_minarea) bs))) in *.
    assert (EACH : Forall2 (fun g' bs => (S bs = [] /\ g_at (gr_minarea g') a b = Some 0%Q) \/ (Forall positive (S bs) /\ least_of (S bs) (g_at (gr_minarea g') a b))) gs bss).
    { clear -MS PB CE. induction MS as [|g' bs gs bss E MS IH]; constructor; inversion PB; subst; auto. apply (CE g' bs); auto. }
    change (List.concat (map (fun x => sent_to nx ny a b (List.concat (map (items ce_minarea) x))) bss)) with (List.concat (map S bss)) in W.
    destruct W as [[W1 W2]|[W1 (m & Em & Hm & LE)]].
    + left. split; [exists 0%Q; split; [exact W2|reflexivity]|]. intros u Hu. apply in_map_iff in Hu. destruct Hu as (g' & <- & Hg). destruct (F2_in_l _ _ _ _ _ g' EACH Hg) as (bs & Hb & [[_ E]|[_ (x & _ & Hx & _)]]).
      * exists 0%Q. split; [exact E|reflexivity].
      * exfalso. assert (Z : In (Some x) (List.concat (map S bss))) by (apply in_concat; exists (S bs); split; [apply in_map; auto|exact Hx]). rewrite W1 in Z. destruct Z.
    + right. exists m. rewrite Forall_forall in W1. split; [exact Em|]. split; [destruct (W1 _ Hm) as (y & Ey & Py); inversion Ey; subst; exact Py|]. split.
      * apply in_concat in Hm. destruct Hm as (l & Hl & Hm). apply in_map_iff in Hl. destruct Hl as (bs & <- & Hb). destruct (F2_in_r _ _ _ _ _ bs EACH Hb) as (g' & Hg & K).
        exists (g_at (gr_minarea g') a b). split; [apply in_map_iff; exists g'; auto|]. destruct K as [[K _]|[_ (x & Ex & Hx & LX)]]; [rewrite K in Hm; destruct Hm|].
        exists x. split; [exact Ex|]. apply Qle_antisym; [apply LX; exact Hm|]. apply LE. apply in_concat. exists (S bs). split; [apply in_map; auto|exact Hx].
      * intros u p Hu Ep. apply in_map_iff in Hu. destruct Hu as (g' & <- & Hg). destruct (F2_in_l _ _ _ _ _ g' EACH Hg) as (bs & Hb & [[_ E]|[_ (x & Ex & Hx & LX)]]).
        -- left. rewrite E in Ep. inversion Ep. reflexivity.
        -- right. rewrite Ex in Ep. inversion Ep; subst x. apply LE. apply in_concat. exists (S bs). split; [apply in_map; auto|exact Hx].
Qed.
(** Every flash of the file has a positive area (C15 makes no area missing). *)
Definition bright (ds : file) : Prop := forall f a, In f (nth 0 ds []) -> o_area (rdat f) = Some a -> (0 < a)%Q.

Lemma sum_pos : forall (rows : list lutrow) (f1 f2 w : lutrow -> Q), (forall r, In r rows -> 0 < f1 r /\ 0 < f2 r /\ 0 <= w r)%Q ->
  (0 <= qsum (map (fun r => f1 r * w r) rows) /\ (qsum (map (fun r => f1 r * w r) rows) == 0 -> qsum (map (fun r => f2 r * w r) rows) == 0) /\
   (0 < qsum (map (fun r => f1 r * w r) rows) -> 0 < qsum (map (fun r => f2 r * w r) rows)))%Q.
Proof.
  intros rows f1 f2 w H.
  assert (NN : forall f rs, (forall r, In r rs -> 0 < f r /\ 0 <= w r)%Q -> (0 <= qsum (map (fun r => f r * w r) rs))%Q).
  { intros f rs. induction rs as [|r rs IH]; intros K; [cbn; lra|]. cbn [map]. change (qsum (?x :: ?l)) with (x + qsum l)%Q.
    destruct (K r (or_introl eq_refl)) as [k1 k2]. specialize (IH (fun x Hx => K x (or_intror Hx))). assert (0 <= f r * w r)%Q by (apply Qmult_le_0_compat; lra). lra. }
  split; [apply NN; intros r Hr; destruct (H r Hr) as (a & _ & b); auto|].
  induction rows as [|r rows IH]; [split; cbn; intros; lra|]. cbn [map]. change (qsum (?x :: ?l)) with (x + qsum l)%Q.
  destruct (H r (or_introl eq_refl)) as (k1 & k2 & k3). destruct (IH (fun x Hx => H x (or_intror Hx))) as [I1 I2].
  assert (N1 : (0 <= qsum (map (fun r => f1 r * w r) rows))%Q) by (apply NN; intros x Hx; destruct (H x (or_intror Hx)) as (a & _ & b); auto).
  assert (N2 : (0 <= qsum (map (fun r => f2 r * w r) rows))%Q) by (apply NN; intros x Hx; destruct (H x (or_intror Hx)) as (_ & a & b); auto).
  destruct (Qlt_le_dec 0 (w r)) as [P|N].
  - assert (0 < f1 r * w r)%Q by (apply Qmult_lt_0_compat; auto). assert (0 < f2 r * w r)%Q by (apply Qmult_lt_0_compat; auto). split; intros; lra.
  - assert (W : (w r == 0)%Q) by lra. assert (E1 : (f1 r * w r == 0)%Q) by (rewrite W; ring). assert (E2 : (f2 r * w r == 0)%Q) by (rewrite W; ring).
    split; intros K; [assert (qsum (map (fun r => f2 r * w r) rows) == 0)%Q by (apply I1; lra); lra|assert (0 < qsum (map (fun r => f2 r * w r) rows))%Q by (apply I2; lra); lra].
Qed.
Lemma total_pos : forall l, (forall u, In u l -> positive u) -> l <> [] -> (0 < LutSpec.total l)%Q.
Proof.
  intros l P NE. assert (N : forall m, (forall u, In u m -> positive u) -> (0 <= LutSpec.total m)%Q).
  { induction m as [|u m IH]; intros K; [cbn; lra|]. change (LutSpec.total (u :: m)) with (num u + LutSpec.total m)%Q. destruct (K u (or_introl eq_refl)) as (x & -> & Hx). cbn [num]. specialize (IH (fun y Hy => K y (or_intror Hy))). lra. }
  destruct l as [|u l]; [congruence|]. change (LutSpec.total (u :: l)) with (num u + LutSpec.total l)%Q. destruct (P u (or_introl eq_refl)) as (x & -> & Hx). cbn [num]. specialize (N l (fun y Hy => P y (or_intror Hy))). lra.
Qed.

(** The rows of the tables of such files. *)
Lemma rows_fine : (forall l, Permutation (set_order l) l) -> (0 < chunk_size)%nat -> (forall q', q = Some q' -> q_check q' = true) ->
  forall files tables, Forall usable files -> Forall bright files -> tables_read set_order weird chunk_size q files tables ->
  forall r, In r (List.concat tables) -> (0 < lu_fcount r)%nat /\ positive (lu_farea r) /\ lu_garea r <> None /\ positive (lu_minarea r).
Proof.
  intros HP Hcs HQ files tables US BR (tss & F2 & ->). induction F2 as [|ds ts files tss T F2 IH]; intros r Hr; [destruct Hr|].
  inversion US as [|? ? U US']; subst. inversion BR as [|? ? B BR']; subst. cbn [List.concat] in Hr. rewrite concat_app in Hr. apply in_app_iff in Hr. destruct Hr as [Hr|Hr]; [|apply (IH US' BR' r Hr)]. clear IH F2.
  destruct U as [Z|(F & G & E & -> & nF & nG & nE & D & NF & NG & NE)].
  - destruct T as [[_ ->]|[(e & E & K) _]]; [destruct Hr|congruence].
  - destruct T as [[K _]|[_ (chunks & C1 & T1)]]; [cbn in K; inversion K; congruence|].
    destruct (selection_exists set_order HP F G E q D nF nG nE HQ) as (F2' & G2 & E2 & S & HF2 & HG2 & HE2 & D2).
    destruct (C26_chunks_split_selection set_order HP chunk_size F G E q Hcs D nF nG nE HQ) as (sel1 & c1 & S1 & R1 & SP1 & _ & N1).
    rewrite C1 in R1. inversion R1; subst c1. assert (sel1 = [F2'; G2; E2]) by (unfold selection in *; destruct q; congruence). subst sel1.
    destruct SP1 as (F0 & G0 & E0 & EQ & _ & h0 & h1 & h2). replace F0 with F2' in h0 by congruence. replace G0 with G2 in h1 by congruence.
    apply in_concat in Hr. destruct Hr as (t & Ht & Hr). destruct (F2_in_r _ _ _ _ _ t T1 Ht) as (c & Hc & Et). destruct (N1 c Hc) as (Fi & Gi & Ei & -> & _).
    assert (IF : incl Fi F) by (intros x Hx; apply HF2; rewrite <- h0; apply in_concat; exists Fi; split; auto; apply in_map_iff; exists [Fi; Gi; Ei]; auto).
    assert (IG : incl Gi G) by (intros x Hx; apply HG2; apply (Permutation_in _ h1); apply in_concat; exists Gi; split; auto; apply in_map_iff; exists [Fi; Gi; Ei]; auto).
    assert (n0 : numbers (areas Fi)) by (apply (sub_nums _ F); auto). assert (n1 : numbers (areas Gi)) by (apply (sub_nums _ G); auto).
    destruct (C25_counts_areas_minima weird _ _ _ Fi Gi Ei t r n0 n1 Et Hr) as (DC & _ & IN & (x & Ex & Hx) & (y & Ey & _) & (m & Em & Hm & _)).
    cbv zeta in *. set (C := cell_events _ Ei (lu_id r)) in *.
    assert (PA : forall u, In u (areas (flashes_of Fi C)) -> positive u).
    { intros u Hu. assert (NU : u <> None) by (apply n0; apply in_map_iff in Hu; destruct Hu as (f & <- & Hf); apply filter_In in Hf; apply in_map_iff; exists f; split; [reflexivity|apply Hf]).
      apply in_map_iff in Hu. destruct Hu as (f & Ef & Hf). apply filter_In in Hf. destruct u as [a|]; [|congruence]. exists a. split; [reflexivity|]. apply (B f a); [apply IF, Hf|exact Ef]. }
    assert (NN : areas (flashes_of Fi C) <> []) by (intros K; rewrite K in Hm; destruct Hm).
    split; [|split; [|split]].
    + assert (CN : C <> []). { intros K. rewrite K in NN. apply NN. unfold flashes_of. clear. induction Fi; [reflexivity|]. cbn. exact IHFi. }
      destruct DC as (l & _ & E3 & E1). destruct C as [|e0 C']; [congruence|]. assert (Il : In (o_flash (rdat e0)) l) by (apply E3; left; reflexivity). destruct l; [destruct Il|]. rewrite E1. cbn. lia.
    + exists x. split; [exact Ex|]. rewrite Hx. apply total_pos; assumption.
    + rewrite Ey. discriminate.
    + rewrite Em. apply PA. exact Hm.
Qed.

Lemma cell_facts : (forall l, Permutation (set_order l) l) -> (0 < chunk_size)%nat -> (forall q', q = Some q' -> q_check q' = true) ->
  forall files g, Forall usable files -> Forall bright files -> grid_run files g ->
  (forall tables r, tables_read set_order weird chunk_size q files tables -> In r (List.concat tables) -> ~ (size (quad (lu_x r) (lu_y r)) == 0)%Q) ->
  forall kx ky, (S kx < List.length xe)%nat -> (S ky < List.length ye)%nat ->
  let at_ (h : grids -> grid) := g_at (h g) (Z.of_nat kx) (Z.of_nat ky) in
  (forall h, In h [gr_energy; gr_fcount; gr_farea; gr_gcount; gr_garea] -> at_ h <> None) /\
  exists fc fa, at_ gr_fcount = Some fc /\ at_ gr_farea = Some fa /\ (0 <= fc /\ (fc == 0 -> fa == 0) /\ (0 < fc -> 0 < fa))%Q.
Proof.
  intros HP Hcs HQ files g US BR H NZ kx ky Kx Ky at_.
  destruct (C36_cells set_order weird clip tree quad xe ye chunk_size files q g HX HY IX IY PR H) as (ts & TR & K).
  pose proof (rows_fine HP Hcs HQ files ts US BR TR) as RF.
  destruct K as [_ K]. { intros r Hr. destruct (RF r Hr) as (_ & (x & -> & _) & n & _). split; [apply (NZ ts r TR Hr)|]. split; [discriminate|exact n]. }
  destruct (K kx ky Kx Ky) as ((e & Ee & _) & (fc & Efc & Hfc) & (gc & Egc & _) & (fa & Efa & Hfa) & (ga & Ega & _)). clear K. split.
  - unfold at_. intros h [<-|[<-|[<-|[<-|[<-|[]]]]]]; congruence.
  - exists fc, fa. split; [exact Efc|]. split; [exact Efa|]. rewrite Hfc, Hfa. unfold over. cbv zeta.
    apply (sum_pos (List.concat ts) (fun r => qnat (lu_fcount r)) (fun r => num (lu_farea r))). intros r Hr. destruct (RF r Hr) as (n & (x & -> & Px) & _ & _). split; [|split; [exact Px|]].
    + unfold qnat. change 0%Q with (inject_Z 0). rewrite <- Zlt_Qlt. lia.
    + apply Qle_shift_div_l; [apply (cell_pos xe ye HX HY IX IY kx ky Kx Ky)|]. rewrite Qmult_0_l. unfold size_in. generalize (filter (fun e0 => same_cell (snd e0) (ky, kx)) (cut clip (regular_xy xe ye) (quad (lu_x r) (lu_y r)) (nearby tree (regular_xy xe ye) (quad (lu_x r) (lu_y r))))).
      intros l. induction l as [|c l IH]; [cbn; lra|]. cbn [map]. change (qsum (?x :: ?l)) with (x + qsum l)%Q. pose proof (Qabs_nonneg (signed_area (fst c))) as N. unfold size at 1. lra.
Qed.

Lemma stored_or0 : forall v, (or0 (stored None v) == num v)%Q.
Proof. intros [x|]; cbn [stored]; [|reflexivity]. destruct (Qeq_bool x 0) eqn:E; [apply Qeq_bool_iff in E; cbn; rewrite E; reflexivity|reflexivity]. Qed.
Lemma numbers_sum : forall l v, numbers l -> adds_to (Some 0%Q) l v -> exists y, v = Some y /\ (y == LutSpec.total l)%Q.
Proof. intros l v N [H _]. destruct (H N) as (y & -> & Ey). exists y. split; [reflexivity|]. rewrite Ey. ring. Qed.

(** The average of a frame times its count is its total. *)
Lemma avg_times_count : forall fa fc, (0 <= fc /\ (fc == 0 -> fa == 0) /\ (0 < fc -> 0 < fa))%Q ->
  (or0 (fmul (stored None (divide (Some fa) (Some fc))) (stored None (Some fc))) == fa)%Q.
Proof.
  intros fa fc (F0 & F1 & F2). unfold divide. cbn [is_zero]. destruct (Qeq_bool fc 0) eqn:E.
  - apply Qeq_bool_iff in E. cbn. rewrite (F1 E). reflexivity.
  - apply Qeq_bool_neq in E. assert (0 < fc)%Q by (destruct (Qlt_le_dec 0 fc); [auto|exfalso; apply E; lra]). specialize (F2 H). cbn [orb].
    destruct (Qeq_bool fa 0) eqn:E2; [apply Qeq_bool_iff in E2; exfalso; lra|]. cbn [fdiv stored].
    assert (Q1 : (0 < fa / fc)%Q) by (apply Qlt_shift_div_l; lra). destruct (Qeq_bool (fa / fc) 0) eqn:E3; [apply Qeq_bool_iff in E3; exfalso; lra|].
    destruct (Qeq_bool fc 0) eqn:E4; [apply Qeq_bool_iff in E4; exfalso; lra|]. cbn [fmul or0]. field. lra.
Qed.

(** The files of runs on consecutive parts, opened as a series and aggregated: each interval
    shows what one run on all the files of the parts that begin in the interval shows. *)
Theorem C102_aggregated_runs_partial : (forall l, Permutation (set_order l) l) -> (0 < chunk_size)%nat -> (forall q', q = Some q' -> q_check q' = true) ->
  forall (runs : list (Z * list file)) gs minutes start_end out iv,
  Forall2 (fun r g => grid_run (snd r) g) runs gs ->
  (forall r, In r runs -> Forall usable (snd r) /\ Forall bright (snd r)) ->
  (forall r tables row, In r runs -> tables_read set_order weird chunk_size q (snd r) tables -> In row (List.concat tables) -> ~ (size (quad (lu_x row) (lu_y row)) == 0)%Q) ->
  aggregate (run_series (combine (map fst runs) gs)) minutes start_end = Ok out -> In iv out ->
  let now := filter (fun r => (iv_left iv <? fst r) && (fst r <=? iv_right iv))%bool runs in
  now <> [] -> exists g, grid_run (List.concat (map snd now)) g /\
  forall kx ky, (S kx < List.length xe)%nat -> (S ky < List.length ye)%nat -> let p := (Z.of_nat kx, Z.of_nat ky) in
  (forall v, In v ["flash_extent_density"; "total_energy"; "group_extent_density"]%string -> (or0 (iv_at iv v p) == or0 (pixel_value g v p))%Q) /\
  feq (iv_at iv "average_flash_area"%string p) (pixel_value g "average_flash_area"%string p) /\
  feq (iv_at iv "minimum_flash_area"%string p) (pixel_value g "minimum_flash_area"%string p).
Proof.
  intros HP Hcs HQ runs gs minutes se out iv F US NZ AG Hiv now NE.
  set (pairs := combine (map fst runs) gs) in *. set (cov := fun p : Z * grids => ((iv_left iv <? fst p) && (fst p <=? iv_right iv))%bool).
  set (nowp := filter cov pairs).
  assert (F2 : Forall2 (fun r g => In r runs /\ grid_run (snd r) g) now (map snd nowp)).
  { assert (G : Forall2 (fun r g => In r runs /\ grid_run (snd r) g) runs gs).
    { assert (A : forall rs hs, Forall2 (fun r g => grid_run (snd r) g) rs hs -> incl rs runs -> Forall2 (fun r g => In r runs /\ grid_run (snd r) g) rs hs).
      { intros rs hs K. induction K; intros I; constructor; [split; [apply I; left; reflexivity|assumption]|apply IHK; intros z Hz; apply I; right; exact Hz]. }
      apply A; [exact F|apply incl_refl]. }
    unfold now, nowp, pairs. revert G. generalize (fun (r : Z * list file) g => In r runs /\ grid_run (snd r) g). intros P G. clear -G. revert gs G. induction runs as [|r R IH]; intros gs G; inversion G as [|? g ? gs' E G']; subst; [constructor|].
    cbn [map combine filter]. unfold cov at 1. cbn [fst]. destruct ((iv_left iv <? fst r) && (fst r <=? iv_right iv))%bool; [cbn [map snd]; constructor; auto|apply IH; exact G']. }
  assert (GR : Forall2 (fun fs g => grid_run fs g) (map snd now) (map snd nowp)) by (clear -F2; induction F2 as [|r g ? ? [_ E] ? IH]; cbn [map]; constructor; auto).
  destruct (proj2 (C102_succeeds_with_its_parts (map snd now))) as (g & HG).
  { clear -GR. induction GR as [|fs g ? ? E ? IH]; constructor; eauto. }
  exists g. split; [exact HG|]. intros kx ky Kx Ky p.
  assert (FS : forall g', In g' (map snd nowp) -> exists r, In r runs /\ grid_run (snd r) g') by (intros g' Hg; destruct (F2_in_r _ _ _ _ _ g' F2 Hg) as (r & _ & K); exists r; exact K).
  assert (CF : forall g', In g' (map snd nowp) -> let at_ (h : grids -> grid) := g_at (h g') (Z.of_nat kx) (Z.of_nat ky) in
    (forall h, In h [gr_energy; gr_fcount; gr_farea; gr_gcount; gr_garea] -> at_ h <> None) /\
    exists fc fa, at_ gr_fcount = Some fc /\ at_ gr_farea = Some fa /\ (0 <= fc /\ (fc == 0 -> fa == 0) /\ (0 < fc -> 0 < fa))%Q).
  { intros g' Hg. destruct (FS g' Hg) as (r & Hr & E). destruct (US r Hr) as [u1 u2]. apply (cell_facts HP Hcs HQ (snd r) g' u1 u2 E); auto. intros tables row. apply (NZ r); exact Hr. }
  destruct (C102_runs_add_up (map snd now) (map snd nowp) g GR HG (Z.of_nat kx) (Z.of_nat ky)) as [SUM MIN].
  assert (NUM : forall h, In h [gr_energy; gr_fcount; gr_farea; gr_gcount; gr_garea] -> numbers (map (fun g' => g_at (h g') (Z.of_nat kx) (Z.of_nat ky)) (map snd nowp))).
  { intros h Hh u Hu. apply in_map_iff in Hu. destruct Hu as (g' & <- & Hg). apply (CF g' Hg). exact Hh. }
  assert (INS : filter (coverb (iv_left iv) (iv_right iv)) (s_frames (run_series pairs)) = map (fun r => mkFrame (fst r) (pixel_value (snd r))) nowp).
  { unfold run_series, nowp. cbn [s_frames]. clear. induction pairs as [|x l IH]; [reflexivity|]. cbn [map filter]. unfold coverb at 1, cov at 1. cbn [fr_time]. destruct ((iv_left iv <? fst x) && (fst x <=? iv_right iv))%bool; cbn [map]; rewrite IH; reflexivity. }
  destruct (C40_interval_values _ _ _ _ _ AG iv p Hiv) as [_ V]. rewrite INS in V.
  assert (NN : map (fun r : Z * grids => mkFrame (P := Z * Z) (fst r) (pixel_value (snd r))) nowp <> []).
  { intros K. apply map_eq_nil in K. rewrite K in F2. inversion F2 as [E|]. congruence. }
  destruct (V NN) as (VS & VM & VA & VZ). clear V NN.
  assert (TOT : forall name h, (forall g', pixel_value g' name p = stored None (g_at (h g') (Z.of_nat kx) (Z.of_nat ky))) ->
     (total (fun f => fr_at f name p) (map (fun r : Z * grids => mkFrame (fst r) (pixel_value (snd r))) nowp) == LutSpec.total (map (fun g' => g_at (h g') (Z.of_nat kx) (Z.of_nat ky)) (map snd nowp)))%Q).
  { intros name h E. clear -E. induction nowp as [|x l IH]; [reflexivity|]. cbn [map total]. change (LutSpec.total (?u :: ?v)) with (num u + LutSpec.total v)%Q. rewrite IH. cbn [fr_at]. rewrite E. rewrite stored_or0. reflexivity. }
  assert (ONE : forall name h, In h [gr_energy; gr_fcount; gr_farea; gr_gcount; gr_garea] -> (forall g', pixel_value g' name p = stored None (g_at (h g') (Z.of_nat kx) (Z.of_nat ky))) ->
     exists y, g_at (h g) (Z.of_nat kx) (Z.of_nat ky) = Some y /\ (total (fun f => fr_at f name p) (map (fun r : Z * grids => mkFrame (fst r) (pixel_value (snd r))) nowp) == y)%Q).
  { intros name h Hh E. destruct (numbers_sum _ _ (NUM h Hh) (SUM h Hh)) as (y & Ey & K). exists y. split; [exact Ey|]. rewrite K. apply (TOT name h E). }
  assert (FIELD : forall name h, In h [gr_energy; gr_fcount; gr_farea; gr_gcount; gr_garea] -> summable name -> (forall g', pixel_value g' name p = stored None (g_at (h g') (Z.of_nat kx) (Z.of_nat ky))) ->
     (or0 (iv_at iv name p) == or0 (pixel_value g name p))%Q).
  { intros name h Hh SM E. destruct (VS name SM) as (x & -> & Ex). destruct (ONE name h Hh E) as (y & Ey & K). rewrite E, Ey, stored_or0. cbn [or0 num]. rewrite Ex, K. reflexivity. }
  split; [|split].
  - intros v [<-|[<-|[<-|[]]]]; [apply (FIELD _ gr_fcount)|apply (FIELD _ gr_energy)|apply (FIELD _ gr_gcount)]; try (cbn [In]; tauto); try (unfold summable; cbn [In]; tauto); reflexivity.
  - destruct (ONE "flash_extent_density"%string gr_fcount ltac:(cbn [In]; tauto) (fun _ => eq_refl)) as (fc & Efc & Kfc).
    destruct (numbers_sum _ _ (NUM gr_farea ltac:(cbn [In]; tauto)) (SUM gr_farea ltac:(cbn [In]; tauto))) as (fa & Efa & Kfa).
    assert (AV : (total (fun f => fmul (fr_at f "average_flash_area"%string p) (fr_at f "flash_extent_density"%string p)) (map (fun r : Z * grids => mkFrame (fst r) (pixel_value (snd r))) nowp) == fa)%Q).
    { rewrite Kfa. clear -CF. induction nowp as [|x l IH]; [reflexivity|]. cbn [map total]. change (LutSpec.total (?u :: ?v)) with (num u + LutSpec.total v)%Q. rewrite IH by (intros g' Hg; apply CF; right; exact Hg). clear IH. cbn [fr_at].
      destruct (CF (snd x) (or_introl eq_refl)) as (_ & c & a & Ec & Ea & K). unfold pixel_value. cbn [String.eqb Ascii.eqb Bool.eqb fst snd p]. rewrite Ec, Ea. rewrite (avg_times_count a c K). reflexivity. }
    assert (REL : (0 <= fc /\ (0 < fc -> 0 < fa))%Q).
    { pose proof (TOT "flash_extent_density"%string gr_fcount (fun _ => eq_refl)) as T. rewrite Kfc in T. rewrite T, Kfa. clear -CF. induction nowp as [|x l IH]; [cbn; split; intros; lra|].
      cbn [map]. change (LutSpec.total (?u :: ?v)) with (num u + LutSpec.total v)%Q. destruct IH as [I1 I2]; [intros g' Hg; apply CF; right; exact Hg|].
      assert (N : (0 <= LutSpec.total (map (fun g' => g_at (gr_farea g') (Z.of_nat kx) (Z.of_nat ky)) (map snd l)))%Q).
      { clear I1 I2. induction l as [|y l IH]; [cbn; lra|]. cbn [map]. change (LutSpec.total (?u :: ?v)) with (num u + LutSpec.total v)%Q. assert (I := IH (fun g' Hg => CF g' (match Hg with or_introl e => or_introl e | or_intror h => or_intror (or_intror h) end))).
        destruct (CF (snd y) (or_intror (or_introl eq_refl))) as (_ & c & a & _ & -> & K0 & K1 & K2). cbn [num]. assert (0 <= a)%Q by (destruct (Qlt_le_dec 0 c) as [P|P]; [specialize (K2 P); lra|assert (c == 0)%Q by lra; rewrite K1 by assumption; lra]). lra. }
      destruct (CF (snd x) (or_introl eq_refl)) as (_ & c & a & -> & -> & K0 & K1 & K2). cbn [num].
      assert (0 <= a)%Q by (destruct (Qlt_le_dec 0 c) as [P|P]; [specialize (K2 P); lra|assert (c == 0)%Q by lra; rewrite K1 by assumption; lra]).
      split; [lra|]. intros P. destruct (Qlt_le_dec 0 c) as [P1|P1]; [specialize (K2 P1); lra|]. assert (0 < LutSpec.total (map (fun g' => g_at (gr_farea g') (Z.of_nat kx) (Z.of_nat ky)) (map snd l)))%Q by (apply I2; lra). lra. }
    destruct REL as [R0 R1].
    assert (PV : pixel_value g "average_flash_area"%string p = stored None (divide (Some fa) (Some fc))) by (unfold pixel_value; cbn [String.eqb Ascii.eqb Bool.eqb fst snd p]; rewrite Efa, Efc; reflexivity). rewrite PV.
    unfold divide. cbn [is_zero]. destruct (Qlt_le_dec 0 fc) as [P|P].
    + assert (P' := P). rewrite <- Kfc in P'. destruct (VA P') as (x & -> & Ex). rewrite AV, Kfc in Ex. specialize (R1 P). destruct (Qeq_bool fc 0) eqn:E1; [apply Qeq_bool_iff in E1; exfalso; lra|]. destruct (Qeq_bool fa 0) eqn:E2; [apply Qeq_bool_iff in E2; exfalso; lra|]. cbn [orb fdiv stored].
      assert (Q1 : (0 < fa / fc)%Q) by (apply Qlt_shift_div_l; lra). destruct (Qeq_bool (fa / fc) 0) eqn:E3; [apply Qeq_bool_iff in E3; exfalso; lra|]. cbn [feq]. rewrite <- Ex. field. lra.
    + assert (Z : (fc == 0)%Q) by lra. rewrite VZ by (rewrite Kfc; exact Z). destruct (Qeq_bool fc 0) eqn:E1; [reflexivity|]. apply Qeq_bool_neq in E1. contradiction.
  - assert (PM : forall fs tables r, In fs (map snd now) -> tables_read set_order weird chunk_size q fs tables -> In r (List.concat tables) -> positive (lu_minarea r)).
    { intros fs tables r Hf T Hr. apply in_map_iff in Hf. destruct Hf as (x & <- & Hx). apply filter_In in Hx. destruct Hx as [Hx _]. destruct (US x Hx) as [u1 u2]. apply (rows_fine HP Hcs HQ (snd x) tables u1 u2 T r Hr). }
    specialize (MIN PM). clear PM. rewrite map_map in VM. cbn [fr_at] in VM.
    set (L := map (fun g' => g_at (gr_minarea g') (Z.of_nat kx) (Z.of_nat ky)) (map snd nowp)) in *.
    assert (EQL : map (fun x : Z * grids => pixel_value (snd x) "minimum_flash_area"%string p) nowp = map (stored None) L) by (unfold L; rewrite !map_map; reflexivity).
    rewrite EQL in VM. clear EQL. change (pixel_value g "minimum_flash_area"%string p) with (stored None (g_at (gr_minarea g) (Z.of_nat kx) (Z.of_nat ky))).
    destruct MIN as [[(z & -> & Ez) ALL]|(x & -> & Px & (u & Hu & (y & Ey & Exy)) & LE)].
    + cbn [stored]. destruct (Qeq_bool z 0) eqn:E; [|apply Qeq_bool_neq in E; contradiction]. destruct (iv_at iv "minimum_flash_area"%string p) as [w|]; [|reflexivity].
      destruct VM as [(w' & Hw & _) _]. apply in_map_iff in Hw. destruct Hw as (u & Eu & Hu). destruct (ALL u Hu) as (t & -> & Et). cbn [stored] in Eu. destruct (Qeq_bool t 0) eqn:E2; [discriminate Eu|apply Qeq_bool_neq in E2; contradiction].
    + cbn [stored]. destruct (Qeq_bool x 0) eqn:E; [apply Qeq_bool_iff in E; exfalso; lra|].
      assert (Iy : In (Some y) (map (stored None) L)). { apply in_map_iff. exists u. split; [|exact Hu]. rewrite Ey. cbn [stored]. destruct (Qeq_bool y 0) eqn:E2; [apply Qeq_bool_iff in E2; exfalso; lra|reflexivity]. }
      destruct (iv_at iv "minimum_flash_area"%string p) as [w|]; [|exfalso; specialize (VM _ Iy); discriminate VM]. cbn [feq]. destruct VM as [(w' & Hw & Ew) LW].
      apply Qle_antisym; [rewrite <- Exy; apply LW; exact Iy|]. rewrite <- Ew. apply in_map_iff in Hw. destruct Hw as (t & Et & Ht). destruct t as [t|]; [|discriminate Et]. cbn [stored] in Et. destruct (Qeq_bool t 0) eqn:E2; [discriminate Et|]. inversion Et; subst w'.
      destruct (LE (Some t) t Ht eq_refl) as [K|K]; [|exact K]. apply Qeq_bool_neq in E2. contradiction.
Qed.
End Runs.
Print Assumptions C102_succeeds_with_its_parts.
Print Assumptions C102_runs_add_up.
Print Assumptions C102_aggregated_runs_partial.

(** * What does not hold *)
Definition run_g : grids := match grid_files (fun l => l) (fun _ => 0) ex_clip ex_tree ex_quad ex_xe ex_ye 7 [ok_file] None with Ok g => g | Err _ => mkGrids (zeros 0 0) (zeros 0 0) (zeros 0 0) (zeros 0 0) (zeros 0 0) (zeros 0 0) end.
Definition two_runs : list (Z * list file) := [(0, [ok_file]); (60000000, [ok_file])].
Definition one_run : list (Z * list file) := [(0, [ok_file])].
Definition no_g : grids := match grid_files (fun l => l) (fun _ => 0) ex_clip ex_tree ex_quad ex_xe ex_ye 7 [] None with Ok g => g | Err _ => run_g end.
Definition late_run : list (Z * list file) := [(0, [ok_file]); (60000000, [])].
Lemma no_g_run : grid_files (fun l => l) (fun _ => 0) ex_clip ex_tree ex_quad ex_xe ex_ye 7 [] None = Ok no_g.
Proof. unfold no_g. destruct (grid_files (fun l => l) (fun _ => 0) ex_clip ex_tree ex_quad ex_xe ex_ye 7 [] None) eqn:E; [reflexivity|]. vm_compute in E. discriminate E. Qed.
Lemma run_g_run : grid_files (fun l => l) (fun _ => 0) ex_clip ex_tree ex_quad ex_xe ex_ye 7 [ok_file] None = Ok run_g.
Proof. unfold run_g. destruct (grid_files (fun l => l) (fun _ => 0) ex_clip ex_tree ex_quad ex_xe ex_ye 7 [ok_file] None) eqn:E; [reflexivity|]. vm_compute in E. discriminate E. Qed.

(** Aggregated from the start of the first run to the end of the last one, the runs do not
    show what one run on all files shows: the first one is in no interval. *)
Theorem C102_whole_period_refuted : ~ (forall set_order weird clip tree quad xe ye chunk_size q (runs : list (Z * list file)) gs minutes s e out g a b,
  proper clip -> Forall2 (fun r g => grid_files set_order weird clip tree quad xe ye chunk_size (snd r) q = Ok g) runs gs ->
  (forall r, In r runs -> s <= fst r < e) ->
  aggregate (run_series (combine (map fst runs) gs)) minutes (Some (s, e)) = Ok out ->
  grid_files set_order weird clip tree quad xe ye chunk_size (List.concat (map snd runs)) q = Ok g ->
  (qsum (map (fun iv => or0 (iv_at iv "total_energy"%string (a, b))) out) == or0 (pixel_value g "total_energy" (a, b)))%Q).
Proof.
  intros H. assert (C : match aggregate (run_series (combine (map fst late_run) [run_g; no_g])) 2 (Some (0, 120000000)),
      grid_files (fun l => l) (fun _ => 0) ex_clip ex_tree ex_quad ex_xe ex_ye 7 (List.concat (map snd late_run)) None with
    | Ok out, Ok g => Qeq_bool (qsum (map (fun iv => or0 (iv_at iv "total_energy"%string (1, 1))) out)) (or0 (pixel_value g "total_energy" (1, 1)))
    | _, _ => true end = false) by (vm_compute; reflexivity).
  destruct (aggregate (run_series (combine (map fst late_run) [run_g; no_g])) 2 (Some (0, 120000000))) as [out|] eqn:E; [|discriminate C].
  destruct (grid_files (fun l => l) (fun _ => 0) ex_clip ex_tree ex_quad ex_xe ex_ye 7 (List.concat (map snd late_run)) None) as [g|] eqn:EG; [|discriminate C].
  pose proof (H (fun l => l) (fun _ => 0) ex_clip ex_tree ex_quad ex_xe ex_ye 7%nat None late_run [run_g; no_g] 2 0 120000000 out g 1 1 (proj2 (proj2 (proj2 (proj2 C36_hypotheses))))) as K.
  specialize (K ltac:(constructor; [apply run_g_run|constructor; [apply no_g_run|constructor]])).
  specialize (K ltac:(intros r [<-|[<-|[]]]; cbn; lia) E EG). apply Qeq_bool_iff in K. congruence.
Qed.
Print Assumptions C102_whole_period_refuted.
(** The average group area of an interval is not that of one run. *)
Theorem C102_group_area_refuted : ~ (forall set_order weird clip tree quad xe ye chunk_size q (runs : list (Z * list file)) gs minutes s e out iv g p,
  proper clip -> Forall2 (fun r g => grid_files set_order weird clip tree quad xe ye chunk_size (snd r) q = Ok g) runs gs ->
  aggregate (run_series (combine (map fst runs) gs)) minutes (Some (s, e)) = Ok out -> In iv out ->
  (forall r, In r runs -> iv_left iv < fst r <= iv_right iv) ->
  grid_files set_order weird clip tree quad xe ye chunk_size (List.concat (map snd runs)) q = Ok g ->
  feq (iv_at iv "average_group_area"%string p) (pixel_value g "average_group_area" p)).
Proof.
  intros H. assert (C : match aggregate (run_series (combine (map fst one_run) [run_g])) 1 (Some (-60000000, 0)),
      grid_files (fun l => l) (fun _ => 0) ex_clip ex_tree ex_quad ex_xe ex_ye 7 (List.concat (map snd one_run)) None with
    | Ok (iv :: _), Ok g => match iv_at iv "average_group_area"%string (1, 1), pixel_value g "average_group_area" (1, 1) with Some u, Some v => Qeq_bool u v | _, _ => true end || negb ((iv_left iv =? -60000000) && (iv_right iv =? 0))
    | _, _ => true end = false) by (vm_compute; reflexivity).
  destruct (aggregate (run_series (combine (map fst one_run) [run_g])) 1 (Some (-60000000, 0))) as [[|iv out]|] eqn:E; [discriminate C| |discriminate C].
  destruct (grid_files (fun l => l) (fun _ => 0) ex_clip ex_tree ex_quad ex_xe ex_ye 7 (List.concat (map snd one_run)) None) as [g|] eqn:EG; [|discriminate C].
  pose proof (H (fun l => l) (fun _ => 0) ex_clip ex_tree ex_quad ex_xe ex_ye 7%nat None one_run [run_g] 1 (-60000000) 0 (iv :: out) iv g (1, 1) (proj2 (proj2 (proj2 (proj2 C36_hypotheses))))) as K.
  specialize (K ltac:(constructor; [apply run_g_run|constructor]) E (or_introl eq_refl)).
  apply orb_false_iff in C. destruct C as [C CI]. apply negb_false_iff, andb_true_iff in CI. destruct CI as [I1 I2]. apply Z.eqb_eq in I1, I2.
  specialize (K ltac:(rewrite I1, I2; intros r [<-|[]]; cbn; lia) EG). destruct (iv_at iv _ (1, 1)) as [u|]; [|discriminate C]. destruct (pixel_value g _ (1, 1)) as [v|]; [|discriminate C].
  apply Qeq_bool_iff in K. congruence.
Qed.
Print Assumptions C102_group_area_refuted.

(** Two runs of one file each meet the hypotheses of the theorems. *)
Example C102_hypotheses : Forall2 (fun r g => grid_files (fun l => l) (fun _ => 0) ex_clip ex_tree ex_quad ex_xe ex_ye 7 (snd r) None = Ok g) two_runs [run_g; run_g] /\
  (forall r, In r two_runs -> Forall usable (snd r) /\ Forall bright (snd r)) /\
  (forall r tables row, In r two_runs -> tables_read (fun l => l) (fun _ => 0) 7 None (snd r) tables -> In row (List.concat tables) -> ~ (size (ex_quad (lu_x row) (lu_y row)) == 0)%Q) /\
  exists iv rest, aggregate (run_series (combine (map fst two_runs) [run_g; run_g])) 2 (Some (-60000000, 60000000)) = Ok (iv :: rest) /\
    filter (fun r => (iv_left iv <? fst r) && (fst r <=? iv_right iv))%bool two_runs = two_runs /\ (or0 (iv_at iv "total_energy"%string (1%Z, 1%Z)) == 12)%Q.
Proof.
  split; [constructor; [apply run_g_run|constructor; [apply run_g_run|constructor]]|]. split; [|split].
  - assert (A : Forall usable [ok_file] /\ Forall bright [ok_file]).
    { split; constructor; try apply Forall_nil; [apply C26_usable|]. intros f a [<-|[<-|[]]] E; cbn in E; inversion E; subst a; reflexivity. }
    intros r [<-|[<-|[]]]; exact A.
  - assert (A : forall tables row, tables_read (fun l => l) (fun _ => 0) 7 None [ok_file] tables -> In row (List.concat tables) -> ~ (size (ex_quad (lu_x row) (lu_y row)) == 0)%Q).
    { intros tables row (tss & F2 & ->) Hr. inversion F2 as [|? ts ? ? T F]; subst. inversion F; subst. cbn [List.concat] in Hr. rewrite app_nil_r in Hr.
      destruct T as [[K _]|[_ (chunks & C & T)]]; [discriminate K|]. vm_compute in C. inversion C; subst chunks. inversion T as [|? t ? ? E T']; subst. inversion T'; subst. vm_compute in E. inversion E; subst t.
      cbn [List.concat] in Hr. rewrite app_nil_r in Hr. destruct Hr as [<-|[<-|[]]]; vm_compute; intros K; discriminate K. }
    intros r tables row [<-|[<-|[]]]; apply A.
  - assert (C : match aggregate (run_series (combine (map fst two_runs) [run_g; run_g])) 2 (Some (-60000000, 60000000)) with
      | Ok (iv :: _) => (iv_left iv =? -60000000) && (iv_right iv =? 60000000) && Qeq_bool (or0 (iv_at iv "total_energy"%string (1, 1))) 12
      | _ => false end = true) by (vm_compute; reflexivity).
    destruct (aggregate (run_series (combine (map fst two_runs) [run_g; run_g])) 2 (Some (-60000000, 60000000))) as [[|iv rest]|]; [discriminate C| |discriminate C].
    apply andb_true_iff in C. destruct C as [C C3]. apply andb_true_iff in C. destruct C as [C1 C2]. apply Z.eqb_eq in C1, C2. apply Qeq_bool_iff in C3.
    exists iv, rest. split; [reflexivity|]. split; [rewrite C1, C2; reflexivity|exact C3].
Qed.
