(** C113: a stricter selection takes lightning away and adds none. *)
From Coq Require Import String List ZArith QArith Qabs Qreduction Bool Lia Lqa Permutation Sorting.Sorted.
From Verif Require Import Base BaseProofs Traversal TraversalSpec TraversalProofs TraversalProofs2 TraversalProofs3 TraversalProofs4 Glm GlmSpec GlmProofs GlmProofs2 GlmProofs3
  Lut LutSpec LutProofs PropGlm PropLut Accum AccumSpec AccumProofs Poly PolySpec BBox BBoxSpec Slice SliceSpec Regroup Pipeline PipelineSpec PipelineProofs PropSlice PropPipeline ChunkSpec ChunkProofs PropChunks StricterSpec StricterProofs.
Import ListNotations.
Open Scope Z_scope.
Local Notation tbl := (table obs).

(** The flashes, groups and events of the stricter selection are among those of the other. *)
Theorem C113_selection : forall set_order, (forall l, Permutation (set_order l) l) ->
  forall (F G E : tbl) q' q, derived_ok F G E -> F <> [] -> G <> [] -> E <> [] -> q_check q = true -> q_check q' = true -> stricter q' q ->
  exists sel' sel, subset_flashes set_order [F; G; E] q' = Ok sel' /\ subset_flashes set_order [F; G; E] q = Ok sel /\
    Forall2 (@incl (row obs)) sel' sel.
Proof.
  intros so HP F G E q' q D nF nG nE HQ HQ' S.
  destruct (less_selected so HP F G E (Some q') (Some q) D nF nG nE) as (F1 & G1 & E1 & F2 & G2 & E2 & S1 & S2 & _ & _ & _ & _ & _ & j1 & j2 & j3).
  - intros a K. inversion K; subst; auto.
  - intros a K. inversion K; subst; auto.
  - exists q'. auto.
  - exists [F2; G2; E2], [F1; G1; E1]. split; [exact S2|]. split; [exact S1|]. repeat constructor; auto.
Qed.
Print Assumptions C113_selection.

(** In the event lookup table of a part of the flashes, no pixel has more events, flashes,
    groups, energy or area than in the table of all of them, and its smallest flash is not
    smaller. *)
Theorem C113_table : forall weird scale xr yr (F G E F' G' E' : tbl) L L',
  derived_ok F G E -> derived_ok F' G' E' -> incl F' F -> incl G' G -> incl E' E ->
  numbers (areas F) -> numbers (areas G) -> numbers (energies E) -> not_negative [F; G; E] ->
  get_lutevents weird scale xr yr [F; G; E] = Ok L -> get_lutevents weird scale xr yr [F'; G'; E'] = Ok L' ->
  forall r', In r' L' -> exists r, In r L /\ no_more r' r.
Proof.
  intros weird scale xr yr F G E F' G' E' L L' D D' iF iG iE NF NG NE NN H H' r' Hr'.
  pose proof D as ((U & _) & _). apply unique3 in U. destruct U as (u1 & u2 & u3). pose proof D' as ((U' & _) & _). apply unique3 in U'. destruct U' as (v1 & v2 & v3).
  assert (NF' : numbers (areas F')) by (apply (sub_nums _ F); auto). assert (NG' : numbers (areas G')) by (apply (sub_nums _ G); auto). assert (NE' : numbers (energies E')) by (apply (sub_nums _ E); auto).
  set (pixel := fun e : row obs => discretize weird scale xr yr (o_x (rdat e)) (o_y (rdat e))).
  destruct (C24_table_conserves weird scale xr yr F G E L NF NG NE H) as (_ & IDS & ROWS & _). destruct (C24_table_conserves weird scale xr yr F' G' E' L' NF' NG' NE' H') as (_ & IDS' & ROWS' & _).
  fold pixel in IDS, IDS', ROWS, ROWS'.
  assert (K : In (lu_id r') (map lu_id L)). { assert (K : In (lu_id r') (map lu_id L')) by (apply in_map; auto). apply IDS' in K. destruct K as (e & He & Ke). apply IDS. exists e. auto. }
  apply in_map_iff in K. destruct K as (r & Er & Hr). exists r. split; [exact Hr|].
  destruct (ROWS r Hr) as (n & c1 & c2). destruct (ROWS' r' Hr') as (n' & c1' & c2').
  destruct (C25_counts_areas_minima weird scale xr yr F G E L r NF NG H Hr) as (_ & _ & _ & c4 & c5 & c6). destruct (C25_counts_areas_minima weird scale xr yr F' G' E' L' r' NF' NG' H' Hr') as (_ & _ & _ & c4' & c5' & c6').
  destruct (C25_each_flash_once weird scale xr yr F G E L r NF NG u1 u2 H Hr) as (c7 & c8). destruct (C25_each_flash_once weird scale xr yr F' G' E' L' r' NF' NG' v1 v2 H' Hr') as (c7' & c8').
  fold pixel in c4, c5, c6, c7, c8, c4', c5', c6', c7', c8'. rewrite Er in *. set (C := cell_events pixel E (lu_id r')) in *. set (C' := cell_events pixel E' (lu_id r')) in *.
  apply NoDup_map_inv in v1, v2, v3.
  assert (IC : incl C' C) by (apply part_filter; auto).
  assert (IF : incl (flashes_of F' C') (flashes_of F C)) by (apply part_filter; [exact iF|intros x; apply part_existsb; exact IC]).
  assert (IG : incl (groups_of G' C') (groups_of G C)) by (apply part_filter; [exact iG|intros x; apply part_existsb; exact IC]).
  assert (NC : NoDup C') by (apply NoDup_filter; auto). assert (NFl : NoDup (flashes_of F' C')) by (apply NoDup_filter; auto). assert (NGr : NoDup (groups_of G' C')) by (apply NoDup_filter; auto).
  assert (LE : forall u v a b, is_num u a -> is_num v b -> (a <= b)%Q -> fle u v) by (intros u v a b (x & -> & Ex) (y & -> & Ey) Lab; exists x, y; split; [reflexivity|]; split; [reflexivity|]; lra).
  split; [congruence|]. split; [rewrite c1, c1'; apply part_length; auto|]. split; [rewrite c7, c7'; apply part_length; auto|]. split; [rewrite c8, c8'; apply part_length; auto|].
  split; [apply (LE _ _ _ _ c2' c2)|split; [apply (LE _ _ _ _ c4' c4)|split; [apply (LE _ _ _ _ c5' c5)|]]]; unfold energies, areas; try (apply part_total; auto; intros x a Hx Ea; apply filter_In in Hx; destruct Hx as [Hx _]).
  - apply (NN E x a); [right; right; left; reflexivity|exact Hx|auto].
  - apply (NN F x a); [left; reflexivity|exact Hx|auto].
  - apply (NN G x a); [right; left; reflexivity|exact Hx|auto].
  - destruct c6 as (a & Ea & _ & LA). destruct c6' as (b & Eb & IB & _). exists a, b. split; [exact Ea|]. split; [exact Eb|]. apply LA.
    unfold areas in *. apply in_map_iff in IB. destruct IB as (fl & Ef & Hf). apply in_map_iff. exists fl. auto.
Qed.
Print Assumptions C113_table.

(** Full statement: in the grids of a stricter selection no cell has more, whatever the
    chunk sizes.  Proved here when the polygon of a pixel is the same in both runs; what
    is missing is refuted below. *)
Theorem C113_grids_partial : forall set_order, (forall l, Permutation (set_order l) l) ->
  forall weird clip tree quad xe ye s s' files q' q g' g,
  (1 < List.length xe)%nat -> (1 < List.length ye)%nat -> increasing xe -> increasing ye -> proper clip ->
  (0 < s)%nat -> (0 < s')%nat -> (forall a, q = Some a -> q_check a = true) -> (forall a, q' = Some a -> q_check a = true) ->
  Forall usable files -> Forall not_negative files -> selects_less q' q ->
  grid_files set_order weird clip tree quad xe ye s' files q' = Ok g' ->
  grid_files set_order weird clip tree quad xe ye s files q = Ok g ->
  exists t' t, tables_read set_order weird s' q' files t' /\ tables_read set_order weird s q files t /\
  ((forall r r', In r (List.concat t ++ List.concat t') -> In r' (List.concat t ++ List.concat t') -> lu_id r = lu_id r' ->
      quad (lu_x r) (lu_y r) = quad (lu_x r') (lu_y r')) ->
   forall kx ky, (S kx < List.length xe)%nat -> (S ky < List.length ye)%nat ->
   let at_ (g : grids) (h : grids -> grid) := g_at (h g) (Z.of_nat kx) (Z.of_nat ky) in
   ((forall r, In r (List.concat t ++ List.concat t') -> ~ (size (quad (lu_x r) (lu_y r)) == 0)%Q) ->
    forall h, In h [gr_energy; gr_fcount; gr_gcount; gr_farea; gr_garea] -> fle (at_ g' h) (at_ g h)) /\
   ((forall r, In r (List.concat t ++ List.concat t') -> positive (lu_minarea r)) ->
    at_ g' gr_minarea = Some 0%Q \/ fle (at_ g gr_minarea) (at_ g' gr_minarea) /\ positive (at_ g gr_minarea))).
Proof.
  intros so HP weird clip tree quad xe ye s s' files q' q g' g HX HY IX IY PR P P' HQ HQ' US NN SL R' R.
  destruct (C36_cells so weird clip tree quad xe ye s files q g HX HY IX IY PR R) as (t & TR & V).
  destruct (C36_cells so weird clip tree quad xe ye s' files q' g' HX HY IX IY PR R') as (t' & TR' & V').
  destruct (C36_minimum so weird clip tree quad xe ye s files q g HX HY IX IY PR R) as (m & TM & M).
  destruct (C36_minimum so weird clip tree quad xe ye s' files q' g' HX HY IX IY PR R') as (m' & TM' & M').
  assert (DET : forall s q fs u v, tables_read so weird s q fs u -> tables_read so weird s q fs v -> u = v).
  { clear. intros s q fs u v (x & T & ->) (y & T' & ->). f_equal. revert y T'. induction T as [|ds a fs x H T IH]; intros y T'; inversion T' as [|? b ? y' Hb Ty]; subst; [reflexivity|]. f_equal; [|apply IH; auto].
    destruct H as [[Z ->]|[(e & E & Z) (c & C & L)]]; destruct Hb as [[Z' ->]|[(e' & E' & Z') (c' & C' & L')]]; try congruence. rewrite C in C'. inversion C'; subst c'. clear -L L'.
    revert b L'. induction L as [|c a cs ts H L IH]; intros b L'; inversion L' as [|? b0 ? b' Hb Lb]; subst; [reflexivity|]. f_equal; [congruence|apply IH; auto]. }
  rewrite (DET _ _ _ _ _ TM TR) in M. rewrite (DET _ _ _ _ _ TM' TR') in M'.
  exists t', t. split; [exact TR'|]. split; [exact TR|]. intros SAME kx ky Hx Hy at_.
  pose proof (less_files so HP weird s s' q' q P P' HQ HQ' SL files t t' US NN TR TR') as LT.
  destruct (observed_tables so HP weird s files q t P HQ US TR) as (_ & _ & _ & N1). destruct (observed_tables so HP weird s' files q' t' P' HQ' US TR') as (_ & _ & _ & N2).
  split.
  - intros NZ h Hh.
    destruct (V ltac:(intros r Hr; destruct (N1 r Hr) as (n1 & n2 & _); split; [apply NZ; apply in_or_app; auto|auto])) as (_ & W).
    destruct (V' ltac:(intros r Hr; destruct (N2 r Hr) as (n1 & n2 & _); split; [apply NZ; apply in_or_app; auto|auto])) as (_ & W').
    specialize (W kx ky Hx Hy). specialize (W' kx ky Hx Hy). cbv zeta in W, W'.
    destruct W as (a1 & a2 & a3 & a4 & a5). destruct W' as (b1 & b2 & b3 & b4 & b5).
    assert (CP : (0 < cell_size xe ye kx ky)%Q).
    { unfold cell_size. assert (X := IX kx (S kx) ltac:(lia)). assert (Y := IY ky (S ky) ltac:(lia)). apply Qmult_lt_0_compat; lra. }
    assert (GO : forall u v f w, column_ok f -> (forall r, 0 <= w r)%Q -> (forall r r', quad (lu_x r) (lu_y r) = quad (lu_x r') (lu_y r') -> w r == w r')%Q ->
      sums_to u f w t' -> sums_to v f w t -> fle u v).
    { intros u v f w CO PW HW (x & -> & Ex) (y & -> & Ey). exists x, y. split; [reflexivity|]. split; [reflexivity|]. rewrite Ex, Ey. apply less_over; auto.
      intros k. apply (proj1 (LT k)). exact CO. }
    assert (SN : forall p, (0 <= size p)%Q) by (intros p; apply Qabs_nonneg).
    assert (PN : forall p cells c, (0 <= size_in clip (regular_xy xe ye) p cells c)%Q).
    { intros p cells c. unfold size_in. induction (filter _ _) as [|e l IH]; [apply Qle_refl|]. cbn [map]. change (qsum (?y :: ?n)) with (y + qsum n)%Q. pose proof (SN (fst e)). lra. }
    assert (DV : forall a b, (0 <= a)%Q -> (0 <= b)%Q -> (0 <= a / b)%Q) by (intros a b Ha Hb; unfold Qdiv; apply Qmult_le_0_compat; [exact Ha|apply Qinv_le_0_compat; exact Hb]).
    destruct Hh as [<-|[<-|[<-|[<-|[<-|[]]]]]]; eapply GO; eauto; try (intros r r' E; cbv beta; rewrite E; reflexivity); try (intros r; cbv beta; apply DV; auto; lra); unfold column_ok; cbn; tauto.
  - intros POS.
    assert (A := M ltac:(intros r Hr; apply POS; apply in_or_app; auto) kx ky Hx Hy). assert (A' := M' ltac:(intros r Hr; apply POS; apply in_or_app; auto) kx ky Hx Hy). cbv zeta in A, A'.
    destruct A' as [[E0 _]|(r2 & Hr2 & HH2 & EV2 & _)]; [left; exact E0|]. right.
    destruct (POS r2) as (b & Eb & _); [apply in_or_app; auto|].
    destruct (proj2 (LT (lu_id r2)) r2 b) as (r1 & a & Hr1 & Ea & Lab); [apply filter_In; split; [exact Hr2|apply Z.eqb_refl]|exact Eb|].
    apply filter_In in Hr1. destruct Hr1 as [Hr1 Ei]. apply Z.eqb_eq in Ei.
    assert (HH1 : quad (lu_x r1) (lu_y r1) = quad (lu_x r2) (lu_y r2)) by (apply SAME; auto; apply in_or_app; auto).
    destruct A as [[_ NO]|(r & Hr & HH & EV & LE)]; [exfalso; apply (NO r1 Hr1); rewrite HH1; exact HH2|].
    destruct (POS r) as (c & Ec & Pc); [apply in_or_app; auto|]. unfold at_. rewrite <- EV, <- EV2, Ec, Eb. split; [|exists c; auto]. exists c, b. split; [reflexivity|]. split; [reflexivity|].
    apply Qle_trans with a; [|exact Lab]. apply (LE r1 a c Hr1); [rewrite HH1; exact HH2|exact Ea|congruence].
Qed.
Print Assumptions C113_grids_partial.

(** * The polygon of a pixel may move *)
(** Three events in one pixel, two of flash 1 and one of flash 2: together they are at
    their mean position, those of flash 1 alone a little to the east of it. *)
Definition near_file : list (table obs) :=
  [[mkRow 1 0 (dob None None None (Some (10 # 1)) 0 1 2); mkRow 2 0 (dob None None None (Some (4 # 1)) 0 1 1)];
   [mkRow 5 1 (dob None None None (Some (3 # 1)) 0 2 0); mkRow 6 2 (dob None None None (Some (2 # 1)) 0 1 0)];
   [mkRow 100 5 (dob (Some (10004 # 1000000)) (Some 0) (Some (3 # 1)) None 1 0 0); mkRow 101 5 (dob (Some (10004 # 1000000)) (Some 0) (Some (5 # 1)) None 1 0 0);
    mkRow 102 6 (dob (Some (9985 # 1000000)) (Some 0) (Some (4 # 1)) None 2 0 0)]]%Q.
Lemma near_usable : usable near_file.
Proof.
  right. do 3 eexists. split; [reflexivity|]. split; [discriminate|]. split; [discriminate|]. split; [discriminate|]. split; [|split; [|split]].
  - split; [split|split; [|split]].
    + apply unique3. cbn. split; [|split]; repeat constructor; cbn; intuition discriminate.
    + apply linked_no_orphans. split.
      * intros s [<-|[<-|[]]]; [eexists; split; [left; reflexivity|reflexivity]|eexists; split; [right; left; reflexivity|reflexivity]].
      * intros s [<-|[<-|[<-|[]]]]; [eexists; split; [left; reflexivity|reflexivity]|eexists; split; [left; reflexivity|reflexivity]|eexists; split; [right; left; reflexivity|reflexivity]].
    + intros e [<-|[<-|[<-|[]]]]; [eexists; split; [left; reflexivity|split; reflexivity]|eexists; split; [left; reflexivity|split; reflexivity]|eexists; split; [right; left; reflexivity|split; reflexivity]].
    + intros g [<-|[<-|[]]]; reflexivity.
    + intros f [<-|[<-|[]]]; split; reflexivity.
  - intros v [<-|[<-|[]]]; discriminate.
  - intros v [<-|[<-|[]]]; discriminate.
  - intros v [<-|[<-|[<-|[]]]]; discriminate.
Qed.
Lemma not_negative_check : forall ds, forallb (forallb (fun r => match o_energy (rdat r) with Some v => Qle_bool 0 v | None => true end && match o_area (rdat r) with Some v => Qle_bool 0 v | None => true end)) ds = true -> not_negative ds.
Proof.
  intros ds H T r v HT Hr K. rewrite forallb_forall in H. specialize (H T HT). rewrite forallb_forall in H. specialize (H r Hr). apply andb_true_iff in H. destruct H as [H1 H2].
  destruct K as [K|K]; [rewrite K in H1|rewrite K in H2]; apply Qle_bool_iff; assumption.
Qed.
Definition two_or_more : query := mkQuery None None None None true (Some 2) None.
Definition near_check : bool :=
  match grid_files (fun l => l) (fun _ => 0) ex_clip ex_tree ex_quad ex_xe ex_ye 2 [near_file] (Some two_or_more),
        grid_files (fun l => l) (fun _ => 0) ex_clip ex_tree ex_quad ex_xe ex_ye 2 [near_file] None with
  | Ok g', Ok g => match g_at (gr_energy g') 2 1, g_at (gr_energy g) 2 1 with Some a, Some b => negb (Qle_bool a b) | _, _ => false end
  | _, _ => false
  end.
Theorem C113_grids_refuted : ~ (forall set_order weird clip tree quad xe ye s files q' q g' g,
  (forall l, Permutation (set_order l) l) ->
  (1 < List.length xe)%nat -> (1 < List.length ye)%nat -> increasing xe -> increasing ye -> proper clip -> (0 < s)%nat ->
  (forall a, q = Some a -> q_check a = true) -> (forall a, q' = Some a -> q_check a = true) ->
  Forall usable files -> Forall not_negative files -> selects_less q' q ->
  grid_files set_order weird clip tree quad xe ye s files q' = Ok g' ->
  grid_files set_order weird clip tree quad xe ye s files q = Ok g ->
  forall kx ky, (S kx < List.length xe)%nat -> (S ky < List.length ye)%nat ->
  fle (g_at (gr_energy g') (Z.of_nat kx) (Z.of_nat ky)) (g_at (gr_energy g) (Z.of_nat kx) (Z.of_nat ky))).
Proof.
  intros H. destruct C36_hypotheses as (h1 & h2 & h3 & h4 & h5).
  assert (CH : near_check = true) by (vm_compute; reflexivity). unfold near_check in CH.
  destruct (grid_files (fun l => l) (fun _ => 0) ex_clip ex_tree ex_quad ex_xe ex_ye 2 [near_file] (Some two_or_more)) as [g1|] eqn:E1; [|discriminate CH].
  destruct (grid_files (fun l => l) (fun _ => 0) ex_clip ex_tree ex_quad ex_xe ex_ye 2 [near_file] None) as [g2|] eqn:E2; [|discriminate CH].
  assert (K : fle (g_at (gr_energy g1) (Z.of_nat 2) (Z.of_nat 1)) (g_at (gr_energy g2) (Z.of_nat 2) (Z.of_nat 1))).
  { apply (H (fun l => l) (fun _ => 0) ex_clip ex_tree ex_quad ex_xe ex_ye 2%nat [near_file] (Some two_or_more) None g1 g2); auto; try (intros a Ha; inversion Ha; reflexivity); try (cbn; lia).
    - constructor; [exact near_usable|constructor].
    - constructor; [apply not_negative_check; vm_compute; reflexivity|constructor]. }
  destruct K as (a & b & Ka & Kb & K). change (Z.of_nat 2) with 2 in *. change (Z.of_nat 1) with 1 in *. rewrite Ka, Kb in CH. apply negb_true_iff in CH. apply Qle_bool_iff in K. congruence.
Qed.
Print Assumptions C113_grids_refuted.

(** * The hypotheses are met *)
Example C113_stricter_ex : stricter (mkQuery None (Some (1, 2)%Q) None None true (Some 5) (Some 2)) (mkQuery None (Some (0, 2)%Q) None None true (Some 3) None).
Proof.
  unfold stricter, range_in, at_least. cbn [q_lon q_lat q_x q_y q_min_events q_min_groups]. split; [exact I|]. split; [do 2 eexists; split; [reflexivity|]; split; lra|]. split; [exact I|]. split; [exact I|].
  split; [eexists; split; [reflexivity|lia]|exact I].
Qed.
Example C113_selection_ex : exists sel' sel, subset_flashes (fun l => l) near_file two_or_more = Ok sel' /\
  subset_flashes (fun l => l) near_file (mkQuery None None None None true (Some 1) None) = Ok sel /\
  map (map rid) sel' = [[1]; [5]; [100; 101]] /\ map (map rid) sel = [[1; 2]; [5; 6]; [100; 101; 102]].
Proof. do 2 eexists. split; [vm_compute; reflexivity|]. split; [vm_compute; reflexivity|]. split; reflexivity. Qed.
(** The square around a place, whose fractions are reduced first. *)
Definition place_quad (x y : fval) : poly := ex_quad (option_map Qred x) (option_map Qred y).
(** [ok_file] of [PropChunks]: flash 2 alone, and both; in the pixel that both share, the
    events are at the same place. *)
Definition ok_check : bool :=
  match grid_files (fun l => l) (fun _ => 0) ex_clip ex_tree place_quad ex_xe ex_ye 2 [ok_file] (Some two_or_more),
        grid_files (fun l => l) (fun _ => 0) ex_clip ex_tree place_quad ex_xe ex_ye 2 [ok_file] None with
  | Ok g', Ok g => Qeq_bool (num (g_at (gr_energy g') 2 1)) 2 && Qeq_bool (num (g_at (gr_energy g) 2 1)) 6 && Qeq_bool (num (g_at (gr_minarea g') 2 1)) 4 && Qeq_bool (num (g_at (gr_minarea g) 2 1)) 4
  | _, _ => false
  end.
Example C113_grids_ex : usable ok_file /\ not_negative ok_file /\ selects_less (Some two_or_more) None /\ exists g' g,
  grid_files (fun l => l) (fun _ => 0) ex_clip ex_tree place_quad ex_xe ex_ye 2 [ok_file] (Some two_or_more) = Ok g' /\
  grid_files (fun l => l) (fun _ => 0) ex_clip ex_tree place_quad ex_xe ex_ye 2 [ok_file] None = Ok g /\
  (num (g_at (gr_energy g') 2 1) == 2)%Q /\ (num (g_at (gr_energy g) 2 1) == 6)%Q /\
  (num (g_at (gr_minarea g') 2 1) == 4)%Q /\ (num (g_at (gr_minarea g) 2 1) == 4)%Q.
Proof.
  split; [exact (proj1 C26_usable)|]. split; [apply not_negative_check; vm_compute; reflexivity|]. split; [exact I|].
  assert (CH : ok_check = true) by (vm_compute; reflexivity). unfold ok_check in CH.
  destruct (grid_files (fun l => l) (fun _ => 0) ex_clip ex_tree place_quad ex_xe ex_ye 2 [ok_file] (Some two_or_more)) as [g'|]; [|discriminate CH].
  destruct (grid_files (fun l => l) (fun _ => 0) ex_clip ex_tree place_quad ex_xe ex_ye 2 [ok_file] None) as [g|]; [|discriminate CH].
  repeat (apply andb_true_iff in CH; let x := fresh in destruct CH as [CH x]; apply Qeq_bool_iff in x). apply Qeq_bool_iff in CH. exists g', g. auto 8.
Qed.
(** In the tables of these two runs a pixel has the same polygon. *)
Example C113_tables_ex : exists t' t, tables_read (fun l => l) (fun _ => 0) 2 (Some two_or_more) [ok_file] t' /\ tables_read (fun l => l) (fun _ => 0) 2 None [ok_file] t /\
  (forall r r', In r (List.concat t ++ List.concat t') -> In r' (List.concat t ++ List.concat t') -> lu_id r = lu_id r' -> place_quad (lu_x r) (lu_y r) = place_quad (lu_x r') (lu_y r')) /\
  (forall r, In r (List.concat t ++ List.concat t') -> ~ (size (place_quad (lu_x r) (lu_y r)) == 0)%Q /\ positive (lu_minarea r)).
Proof.
  assert (TR : forall s q ds chunks ts, (exists e E, nth_error ds 2 = Some (e :: E)) -> flash_chunks (fun l => l) s ds q = Ok chunks ->
    map_res (get_lutevents (fun _ => 0) lut_scale lut_range lut_range) chunks = Ok ts -> tables_read (fun l => l) (fun _ => 0) s q [ds] ts).
  { intros s q ds chunks ts NE HC HM. exists [ts]. split; [|cbn [List.concat]; rewrite app_nil_r; reflexivity]. constructor; [|constructor]. right. split; [exact NE|]. exists chunks. split; [exact HC|]. apply map_res_inv. exact HM. }
  do 2 eexists. split; [eapply TR; [do 2 eexists; reflexivity|vm_compute; reflexivity|vm_compute; reflexivity]|].
  split; [eapply TR; [do 2 eexists; reflexivity|vm_compute; reflexivity|vm_compute; reflexivity]|].
  split.
  - intros r r' Hr Hr' E. cbn in Hr, Hr'. repeat (destruct Hr as [<-|Hr]; [repeat (destruct Hr' as [<-|Hr']; [first [discriminate E|vm_compute; reflexivity]|]); destruct Hr'|]). destruct Hr.
  - intros r Hr. cbn in Hr. repeat (destruct Hr as [<-|Hr]; [split; [vm_compute; discriminate|eexists; split; [reflexivity|reflexivity]]|]). destruct Hr.
Qed.
