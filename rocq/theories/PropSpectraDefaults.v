(** C123 for the energy spectra: what the options do to them. *)
From Coq Require Import String Ascii List ZArith QArith Bool Lia Permutation.
From Verif Require Import Base BaseProofs FileName Traversal TraversalSpec TraversalProofs Glm GlmSpec GlmProofs GlmProofs2 GlmProofs3 PropGlm
  Pipeline ChunkSpec PropChunks Points PointsSpec PointsProofs PropPoints Output LassoTable LassoTableSpec PropLassoTable Spectra LassoDefaults PropLassoDefaults.
Import ListNotations.
Open Scope string_scope.
Open Scope list_scope.
Open Scope Z_scope.

Section Spectra.
Variables (set_order : list Z -> list Z) (junk : nat -> child).
Hypothesis HP : forall l, Permutation (set_order l) l.
Variables (disk : string -> res glmfile) (parent_base : Z -> option Z -> Z) (outdir : pystr) (bins : list Q).
Local Notation spectra names t_start edges lonr latr lasso o := (flash_spectra set_order junk disk parent_base names t_start edges lonr latr lasso o outdir bins).

Lemma S_ext : forall (f g : datetime * datetime -> list child * list parent) wins, (forall e, snd (f e) = snd (g e)) ->
  match map f wins with [] => Err ValueError | _ => map_res (spectrum outdir bins) (combine (map f wins) wins) end =
  match map g wins with [] => Err ValueError | _ => map_res (spectrum outdir bins) (combine (map g wins) wins) end.
Proof.
  intros f g wins Q. rewrite !combine_map, !map_res_map.
  replace (map_res (fun a => spectrum outdir bins (f a, a)) wins) with (map_res (fun a => spectrum outdir bins (g a, a)) wins)
    by (apply map_res_ext; intros e _; unfold spectrum; cbn [fst snd]; rewrite Q; reflexivity).
  destruct wins; reflexivity.
Qed.
(** Two runs whose rows pass alike draw the same spectra. *)
Lemma spectra_ext : forall names t_start edges lonr latr lasso lasso' o o', readable disk names ->
  from_two (so_events o) = from_two (so_events o') -> from_two (so_groups o) = from_two (so_groups o') ->
  (forall x p, flash_in disk names x -> p_area p = o_area (rdat x) -> p_energy p = o_energy (rdat x) -> p_ctr_alt p = 0%Q ->
     (lasso (p_init_lon p) (p_init_lat p) (p_start p) && passes o p = lasso' (p_init_lon p) (p_init_lat p) (p_start p) && passes o' p)%bool) ->
  spectra names t_start edges lonr latr lasso o = spectra names t_start edges lonr latr lasso' o'.
Proof.
  intros names t_start edges lonr latr lasso lasso' o o' R E1 E2 K. unfold flash_spectra. rewrite <- E1, <- E2.
  destruct (subset_series set_order junk disk parent_base names (nanos t_start) None (collection_query (Some lonr) (Some latr) (from_two (so_events o)) (from_two (so_groups o)))) as [files|x] eqn:S; [|reflexivity].
  cbn [bind]. set (base := parent_base (nanos t_start) None). unfold event_flash_series. rewrite !map_map.
  apply (S_ext _ _ (windows_of edges)).
  intros e. rewrite !window_flashes. f_equal. apply map_ext_in. intros w Hw. apply filter_same. intros p Hp.
  destruct (rows_from set_order junk HP disk parent_base _ _ _ _ _ _ _ _ R S Hw Hp) as (x & Hx & A & B & C). specialize (K x p Hx A B C). unfold passes in K. unfold keep. rewrite <- !andb_assoc. f_equal. rewrite !andb_assoc in *. exact K.
Qed.
(** Without options, flashes of usual area and energy are all in the spectra. *)
Theorem C123_spectra_partial : forall names t_start edges lonr latr lasso o, readable disk names ->
  (forall x, flash_in disk names x -> ranged (0, inject_Z (10 ^ 10))%Q (o_area (rdat x)) /\ ranged (0, inject_Z (10 ^ 38))%Q (o_energy (rdat x))) ->
  (fst (so_area o) <= 0 /\ inject_Z (10 ^ 10) <= snd (so_area o))%Q -> (fst (so_energy o) <= 0 /\ inject_Z (10 ^ 38) <= snd (so_energy o))%Q ->
  (fst (so_alt o) <= 0 <= snd (so_alt o))%Q -> so_events o < 2 -> so_groups o < 2 ->
  spectra names t_start edges lonr latr lasso default_options = spectra names t_start edges lonr latr lasso o.
Proof.
  intros names t_start edges lonr latr lasso o R U [A1 A2] [B1 B2] Z H1 H2.
  assert (F2 : forall m, m < 2 -> from_two 1 = from_two m) by (intros m Hm; unfold from_two; destruct (Z.ltb_spec m 2); [reflexivity|lia]).
  apply spectra_ext; [exact R|apply F2; exact H1|apply F2; exact H2|]. intros x p Hx E1 E2 Z0. f_equal. destruct (U x Hx) as [(a & Ea & La & Ha) (b & Eb & Lb & Hb)].
  assert (P : forall o0 : stat_options, ranged (so_area o0) (o_area (rdat x)) -> (fst (so_alt o0) <= 0 <= snd (so_alt o0))%Q -> ranged (so_energy o0) (o_energy (rdat x)) -> passes o0 p = true).
  { intros o0 R1 R2 R3. unfold passes. rewrite Z0, E1, E2, (proj2 (zero_metres (so_alt o0)) R2), (proj2 (within_between (so_area o0) _) R1), (proj2 (within_between (so_energy o0) _) R3). reflexivity. }
  rewrite (P default_options), (P o); [reflexivity|exists a|exact Z|exists b|exists a|split; discriminate|exists b]; (split; [assumption|]); cbn [fst snd] in *; split; try assumption; eapply Qle_trans; eassumption.
Qed.
(** Bounds on altitude that exclude 0 empty them, as polygons which hold nothing do. *)
Theorem C123_spectra_altitude_refuted : forall names t_start edges lonr latr lasso o, readable disk names ->
  ~ (fst (so_alt o) <= 0 <= snd (so_alt o))%Q ->
  spectra names t_start edges lonr latr lasso o = spectra names t_start edges lonr latr nowhere o.
Proof.
  intros names t_start edges lonr latr lasso o R A. apply spectra_ext; auto. intros x p _ _ _ Z0. unfold passes, nowhere. rewrite Z0.
  destruct (within (metres (so_alt o)) (Some 0%Q)) eqn:W; [apply zero_metres in W; contradiction|]. rewrite !andb_false_r. reflexivity.
Qed.
(** And polygons which hold nothing have only zeros in their spectra. *)
Theorem C123_nowhere : forall names t_start edges lonr latr o ds, spectra names t_start edges lonr latr nowhere o = Ok ds ->
  Forall (fun d => Forall (eq 0) (d_counts d)) ds.
Proof.
  intros names t_start edges lonr latr o ds H. unfold flash_spectra in H. apply bind_ok_inv in H. destruct H as (files & _ & H). cbv zeta in H. set (base := parent_base (nanos t_start) None) in H.
  unfold event_flash_series in H. rewrite map_map in H. destruct (windows_of edges) as [|e0 es] eqn:EW; [discriminate|]. rewrite <- EW in H.
  match type of H with match map ?f _ with _ => _ end = _ => set (win := f) in H end.
  assert (H' : map_res (spectrum outdir bins) (combine (map win (windows_of edges)) (windows_of edges)) = Ok ds) by (rewrite EW in H |- *; exact H). clear H.
  rewrite combine_map, map_res_map in H'. apply Forall_forall. intros d Hd. destruct (map_res_back _ _ _ _ _ _ H' Hd) as (e & _ & E). unfold spectrum in E. cbn [fst snd] in E.
  assert (N : snd (win e) = []).
  { unfold win. rewrite window_flashes. clear. induction files as [|w files IH]; [reflexivity|]. cbn [map List.concat]. rewrite IH, app_nil_r. apply filter_none. intros p _. unfold keep, nowhere. rewrite andb_false_r. reflexivity. }
  rewrite N in E. cbn [map] in E. apply bind_ok_inv in E. destruct E as (h & Hh & E). apply bind_ok_inv in E. destruct E as (fl & _ & E). inversion E; subst. cbn [d_counts].
  unfold histogram in Hh. destruct (monotone bins); [|discriminate]. inversion Hh; subst. clear. 
  assert (C : Forall (eq 0) (cumulated [] bins)) by (induction bins as [|b [|c r] IH]; [constructor|repeat constructor|constructor; [reflexivity|exact IH]]).
  induction C as [|a l Ha C IH]; [constructor|]. destruct l as [|b l]; [constructor|]. cbn [diffs]. inversion C; subst. constructor; [reflexivity|exact IH].
Qed.
End Spectra.
Print Assumptions C123_spectra_partial.
Print Assumptions C123_spectra_altitude_refuted.
Print Assumptions C123_nowhere.

Example C123_spectra_ex :
  let s o := match flash_spectra (fun l => l) (fun _ => mkChild 0 0 None None None None) lt_disk lt_base ["b"; "a"] (mkDT 1 1 0 0 0 0) lt_edges (0, 5 # 2)%Q (0, 2)%Q west o (lit "out") [0; 5; 20; 100]%Q with
             | Ok ds => map d_counts ds | Err _ => [] end in
  s default_options = [[0; 1; 0]; [0; 1; 0]; [0; 0; 0]] /\ s (mkOpts (0, 100) (1, 100) (0, 1000) 1 1)%Q = [[0; 0; 0]; [0; 0; 0]; [0; 0; 0]].
Proof. split; vm_compute; reflexivity. Qed.
