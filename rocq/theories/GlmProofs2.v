(** Opening a consistent GLM file, and selecting flashes from it. *)
From Coq Require Import List ZArith QArith Bool String Lia Sorting.Sorted Permutation.
From Verif Require Import Base BaseProofs Traversal TraversalSpec TraversalProofs TraversalProofs2
  TraversalProofs3 TraversalProofs4 Glm GlmSpec GlmProofs.
Import ListNotations.
Open Scope Z_scope.

Local Notation tbl := (table obs).

Section Open.
Variable set_order : list Z -> list Z.
Hypothesis set_perm : forall l, Permutation (set_order l) l.
Variable nav : fval -> fval -> fval * fval.

Lemma linked_no_orphans : forall F G E : tbl, no_orphans [F; G; E] <-> linked F G /\ linked G E.
Proof.
  intros F G E. split.
  - intros H. split; [exact (H 0%nat F G eq_refl eq_refl)|exact (H 1%nat G E eq_refl eq_refl)].
  - intros [H1 H2] j A B HA HB. destruct j as [|[|j]]; simpl in HA, HB.
    + inversion HA; inversion HB; subst. exact H1.
    + inversion HA; inversion HB; subst. exact H2.
    + destruct j; discriminate.
Qed.

Lemma unique3 : forall F G E : tbl, unique_ids [F; G; E] <->
  NoDup (map rid F) /\ NoDup (map rid G) /\ NoDup (map rid E).
Proof.
  intros F G E. split.
  - intros H. repeat split; [exact (H 0%nat F eq_refl)|exact (H 1%nat G eq_refl)|exact (H 2%nat E eq_refl)].
  - intros (H1 & H2 & H3) j T H. destruct j as [|[|[|j]]]; simpl in H; inversion H; subst; auto.
    destruct j; discriminate.
Qed.

Definition derF (G E : tbl) (f : row obs) : row obs :=
  mkRow (rid f) (rpid f) (set_nevent (List.length (flash_events G E (rid f)))
    (set_nchild (List.length (with_parent G (rid f))) (rdat f))).
Definition derG (E : tbl) (g : row obs) : row obs :=
  mkRow (rid g) (rpid g) (set_nchild (List.length (with_parent E (rid g))) (rdat g)).
Definition derE (G : tbl) (e : row obs) : row obs :=
  mkRow (rid e) (rpid e) (set_flash (flash_of G e) (rdat e)).

Lemma filter_map : forall A B (f : A -> B) p (l : list A),
  filter p (map f l) = map f (filter (fun x => p (f x)) l).
Proof. induction l as [|x l IH]; simpl; auto. destruct (p (f x)); simpl; congruence. Qed.

Lemma flash_events_eq : forall G E i, NoDup (map rid G) -> linked G E ->
  flash_events G E i = filter (fun e => flash_of G e =? i) E.
Proof.
  intros G E i ND HL. unfold flash_events. apply filter_ext_in. intros e He.
  destruct (HL e He) as [g [Hg Eg]]. rewrite (flash_of_unique G e g ND Hg Eg).
  destruct (rpid g =? i) eqn:E1.
  - apply existsb_exists. exists g. split; auto. rewrite E1. apply andb_true_iff. split; auto.
    apply Z.eqb_eq; auto.
  - destruct (existsb _ G) eqn:E2; auto. apply existsb_exists in E2. destruct E2 as [g' [Hg' H']].
    apply andb_true_iff in H'. destruct H' as [H1 H2]. apply Z.eqb_eq in H1.
    rewrite (nodup_map_inj_in _ _ _ _ g' g ND Hg' Hg) in H2; congruence.
Qed.

Lemma init_pc_ok : forall F G E : tbl, F <> [] -> G <> [] -> E <> [] ->
  NoDup (map rid F) -> NoDup (map rid G) -> NoDup (map rid E) -> linked G E ->
  init_parent_child [F; G; E] = Ok [map (derF G E) F; map (derG E) G; map (derE G) E].
Proof.
  intros F G E HF HG HE NF NG NE HL. unfold init_parent_child. rewrite init3. cbn [bind].
  replace (Nat.eqb (List.length F) 0) with false by (destruct F; [congruence|reflexivity]).
  replace (Nat.eqb (List.length G) 0) with false by (destruct G; [congruence|reflexivity]).
  replace (Nat.eqb (List.length E) 0) with false by (destruct E; [congruence|reflexivity]).
  cbn [orb]. rewrite replicate3 by auto. cbn [bind].
  rewrite assign_map. cbn [bind].
  destruct (count_children_spec [F; G; E] entity_ids parent_ids (tv3 F G E) 0 2 "flash_id" "event_id"
    (init3 F G E) nodup_eids eq_refl eq_refl ltac:(lia)) as [out [Eo [Lo Ho]]].
  { intros j Hj. destruct j as [|[|[|j]]]; try lia; simpl; congruence. }
  rewrite Eo. cbn [bind].
  assert (H0 := Ho 0%nat F G ltac:(lia) eq_refl eq_refl).
  assert (H1 := Ho 1%nat G E ltac:(lia) eq_refl eq_refl).
  destruct out as [|c0 [|c1 [|c2 out]]]; try discriminate.
  simpl in H0, H1. inversion H0; inversion H1; subst c0 c1. cbn [bind].
  rewrite !assign_map. cbn [bind].
  rewrite (assign_map2 _ _ set_nevent). cbn [bind].
  f_equal. f_equal. apply map_ext. intros f. unfold derF. f_equal. f_equal.
  rewrite groups_get_length. rewrite flash_events_eq by auto. rewrite filter_map, map_length. reflexivity.
Qed.

(** The part of the constructor after the tree check. *)
Definition glm_rest (op : options) (h : header) (ds : list tbl) : res (header * list tbl) :=
  ds1 <- (if calculate_parent_child op
          then d <- init_parent_child ds ;; Ok (init_fixed_grid nav d)
          else Ok ds) ;;
  let '(h2, ds2) := if opt_area op then check_area_units h (check_area_overflow h ds1) else (h, ds1) in
  if opt_energy op then change_energy_units h2 (eliminate_zero_energy h2 ds2) else Ok (h2, ds2).

Lemma open_rest : forall op h raw, glm_open set_order nav op h raw
  = (ds <- repair set_order (check_tree op) raw ;; glm_rest op h ds).
Proof. reflexivity. Qed.

Lemma fix_zero_out : forall op h v, opt_energy op = true ->
  fscale (1000000000 # 1) (fix_zero h v) = event_energy_out op h v.
Proof.
  intros op h [q|] Ho; unfold fix_zero, event_energy_out, energy_out, flt, Qlt_bool; simpl; rewrite ?Ho; auto.
  destruct (Qlt_le_dec q (ev_offset h + ev_scale h)) as [l|l].
  - destruct (Qle_bool (ev_offset h + ev_scale h) q) eqn:E; simpl; auto.
    apply Qle_bool_iff in E. exfalso. eapply Qlt_not_le; eauto.
  - apply Qle_bool_iff in l. rewrite l. reflexivity.
Qed.

Lemma Forall2_map_r : forall A B (R : A -> B -> Prop) f l,
  (forall a, In a l -> R a (f a)) -> Forall2 R l (map f l).
Proof. induction l as [|a l IH]; simpl; intros H; constructor; auto. Qed.

Lemma rest_ok : forall op h (F G E : tbl), F <> [] -> G <> [] -> E <> [] ->
  NoDup (map rid F) -> NoDup (map rid G) -> NoDup (map rid E) -> linked G E ->
  calculate_parent_child op = true ->
  (opt_energy op = true ->
     u_flash_energy h = "J" /\ u_group_energy h = "J" /\ u_event_energy h = "J")%string ->
  exists F' G' E', glm_rest op h [F; G; E] = Ok (header_out op h, [F'; G'; E']) /\
    Forall2 (flash_row nav op h G E) F F' /\ Forall2 (group_row nav op h E) G G' /\
    Forall2 (event_row nav op h G) E E'.
Proof.
  intros op h F G E HF HG HE NF NG NE HL Hc Hu. unfold glm_rest. rewrite Hc.
  rewrite init_pc_ok by auto. cbn [bind].
  set (F1 := map (derF G E) F). set (G1 := map (derG E) G). set (E1 := map (derE G) E).
  unfold init_fixed_grid. cbn [map].
  destruct op as [oc oa oe ot]. cbn [opt_area opt_energy calculate_parent_child] in *.
  destruct oe.
  - destruct (Hu eq_refl) as (U1 & U2 & U3). destruct h as [ufe uge uee ufa uga eo es fo fs ff go gs gf].
    cbn in U1, U2, U3. subst ufe uge uee.
    destruct oa; cbn -[String.eqb map fscale fix_zero fix_nan set_xy set_area set_energy F1 G1 E1];
      try destruct (String.eqb ufa "m2") eqn:Efa; try destruct (String.eqb uga "m2") eqn:Ega;
      cbn -[String.eqb map fscale fix_zero fix_nan set_xy set_area set_energy F1 G1 E1];
      (do 3 eexists; split;
       [unfold header_out; cbn [opt_area opt_energy u_flash_energy u_group_energy u_event_energy u_flash_area u_group_area]; rewrite ?Efa, ?Ega; reflexivity|]);
      rewrite ?map_map; subst F1 G1 E1; rewrite !map_map;
      (split; [|split]; apply Forall2_map_r; intros r Hr;
       [unfold flash_row|unfold group_row|unfold event_row]; unfold same_place;
       cbn -[fscale fix_zero flash_of fix_nan event_energy_out energy_out area_out];
       (split; [repeat (split; [reflexivity|]); destruct (nav _ _); reflexivity|]);
       (split; [first [reflexivity|match goal with |- _ = event_energy_out ?op ?h ?v => exact (fix_zero_out op h v eq_refl) end]|]);
       [ split; [unfold area_out; cbn; rewrite ?Efa; destruct (o_area (rdat r)); reflexivity|split; reflexivity]
       | split; [unfold area_out; cbn; rewrite ?Ega; destruct (o_area (rdat r)); reflexivity|reflexivity]
       | destruct (flash_of_spec G r (HL r Hr)) as [g [X1 [X2 X3]]]; eauto ]).
  - destruct h as [ufe uge uee ufa uga eo es fo fs ff go gs gf].
    destruct oa; cbn -[String.eqb map fscale fix_zero fix_nan set_xy set_area set_energy F1 G1 E1];
      try destruct (String.eqb ufa "m2") eqn:Efa; try destruct (String.eqb uga "m2") eqn:Ega;
      cbn -[String.eqb map fscale fix_zero fix_nan set_xy set_area set_energy F1 G1 E1];
      (do 3 eexists; split;
       [unfold header_out; cbn [opt_area opt_energy u_flash_energy u_group_energy u_event_energy u_flash_area u_group_area]; rewrite ?Efa, ?Ega; reflexivity|]);
      rewrite ?map_map; subst F1 G1 E1; rewrite !map_map;
      (split; [|split]; apply Forall2_map_r; intros r Hr;
       [unfold flash_row|unfold group_row|unfold event_row]; unfold same_place;
       cbn -[fscale fix_zero flash_of fix_nan event_energy_out energy_out area_out];
       (split; [repeat (split; [reflexivity|]); destruct (nav _ _); reflexivity|]);
       (split; [first [reflexivity|unfold event_energy_out, energy_out; cbn; destruct (o_energy (rdat r)); reflexivity]|]);
       [ split; [unfold area_out; cbn; rewrite ?Efa; destruct (o_area (rdat r)); reflexivity|split; reflexivity]
       | split; [unfold area_out; cbn; rewrite ?Ega; destruct (o_area (rdat r)); reflexivity|reflexivity]
       | destruct (flash_of_spec G r (HL r Hr)) as [g [X1 [X2 X3]]]; eauto ]).
Qed.
End Open.
