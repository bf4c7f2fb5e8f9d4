(** Energies, areas and empty files. *)
From Coq Require Import List ZArith QArith Bool String Lia Sorting.Sorted Permutation.
From Verif Require Import Base BaseProofs Traversal TraversalSpec TraversalProofs TraversalProofs2
  TraversalProofs3 TraversalProofs4 Glm GlmSpec GlmProofs GlmProofs2 GlmProofs3.
Import ListNotations.
Open Scope Z_scope.

Local Notation tbl := (table obs).

Section Phys.
Variable set_order : list Z -> list Z.
Variable nav : fval -> fval -> fval * fval.

Definition same_phys (r r' : row obs) : Prop := converted (fun e => e) (fun a => a) r r'.

Lemma F2_refl : forall (T : tbl), Forall2 same_phys T T.
Proof. induction T; constructor; auto. unfold same_phys, converted. auto 10. Qed.

Lemma assign_phys : forall A (f : A -> obs -> obs) vals (T T' : tbl),
  (forall v o, o_lon (f v o) = o_lon o /\ o_lat (f v o) = o_lat o /\
               o_energy (f v o) = o_energy o /\ o_area (f v o) = o_area o) ->
  assign f vals T = Ok T' -> Forall2 same_phys T T'.
Proof.
  intros A f vals T T' Hf H. unfold assign in H.
  destruct (Nat.eqb (List.length vals) (List.length T)) eqn:E; [|discriminate].
  apply Nat.eqb_eq in E. inversion H; subst. clear H.
  revert T E. induction vals as [|v vals IH]; intros [|r T] E; simpl in *; try discriminate; constructor.
  - destruct (Hf v (rdat r)) as (H1 & H2 & H3 & H4). unfold same_phys, converted. simpl. auto 10.
  - apply IH. lia.
Qed.

Lemma F2_trans : forall A (R S U : A -> A -> Prop) l1 l2 l3,
  (forall a b c, R a b -> S b c -> U a c) -> Forall2 R l1 l2 -> Forall2 S l2 l3 -> Forall2 U l1 l3.
Proof.
  intros A R S U l1 l2 l3 H H1. revert l3.
  induction H1; intros l3 H2; inversion H2; subst; constructor; eauto.
Qed.

Lemma phys_trans : forall a b c, same_phys a b -> same_phys b c -> same_phys a c.
Proof. unfold same_phys, converted. intros a b c (?&?&?&?&?&?) (?&?&?&?&?&?). repeat split; congruence. Qed.

Lemma init_pc_inv : forall ds d, init_parent_child ds = Ok d ->
  exists F G E F' G' E', ds = [F; G; E] /\ d = [F'; G'; E'] /\
    Forall2 same_phys F F' /\ Forall2 same_phys G G' /\ Forall2 same_phys E E'.
Proof.
  intros ds d H. unfold init_parent_child in H.
  apply bind_ok_inv in H. destruct H as [tv [_ H]].
  destruct ds as [|F [|G [|E [|X ds]]]]; try discriminate.
  apply bind_ok_inv in H. destruct H as [fl [_ H]].
  apply bind_ok_inv in H. destruct H as [E' [HE H]].
  apply bind_ok_inv in H. destruct H as [[[c0 c1] c2] [_ H]].
  apply bind_ok_inv in H. destruct H as [F1 [HF1 H]].
  apply bind_ok_inv in H. destruct H as [G' [HG H]].
  apply bind_ok_inv in H. destruct H as [F' [HF H]]. inversion H; subst.
  exists F, G, E, F', G', E'. split; auto. split; auto. split; [|split].
  - eapply F2_trans; [exact phys_trans| |].
    + eapply assign_phys; [|exact HF1]. intros; repeat split.
    + eapply assign_phys; [|exact HF]. intros; repeat split.
  - eapply assign_phys; [|exact HG]. intros; repeat split.
  - eapply assign_phys; [|exact HE]. intros; repeat split.
Qed.

Lemma F2_converted : forall en ar (f : row obs -> row obs) (T T' : tbl),
  (forall r, converted en ar r (f r)) -> Forall2 same_phys T T' ->
  Forall2 (converted en ar) T (map f T').
Proof.
  intros en ar f T T' Hf H. induction H as [|a b l l' H H' IH]; simpl; constructor; auto.
  specialize (Hf b). unfold same_phys, converted in *.
  destruct H as (A1&A2&A3&A4&A5&A6), Hf as (B1&B2&B3&B4&B5&B6). repeat split; congruence.
Qed.

Lemma change_units_spec : forall h ds,
  match change_energy_units h ds with
  | Ok (h', _) => u_flash_energy h = "J"%string /\ u_group_energy h = "J"%string /\
      u_event_energy h = "J"%string /\ forall ds', change_energy_units h' ds' = Err ValueError
  | Err e => e = ValueError /\
      ~ (u_flash_energy h = "J" /\ u_group_energy h = "J" /\ u_event_energy h = "J")%string
  end.
Proof.
  intros h ds. unfold change_energy_units.
  destruct (String.eqb (u_flash_energy h) "J") eqn:E1; simpl.
  2:{ split; auto. apply String.eqb_neq in E1. tauto. }
  destruct (String.eqb (u_group_energy h) "J") eqn:E2; simpl.
  2:{ split; auto. apply String.eqb_neq in E2. tauto. }
  destruct (String.eqb (u_event_energy h) "J") eqn:E3; simpl.
  2:{ split; auto. apply String.eqb_neq in E3. tauto. }
  apply String.eqb_eq in E1. apply String.eqb_eq in E2. apply String.eqb_eq in E3. auto.
Qed.

Lemma open_converted : forall op h F G E h' ds', 
  glm_open set_order nav op h [F; G; E] = Ok (h', ds') ->
  h' = header_out op h /\
  (opt_energy op = true ->
     u_flash_energy h = "J" /\ u_group_energy h = "J" /\ u_event_energy h = "J")%string /\
  exists F0 G0 E0 F' G' E', repair set_order (check_tree op) [F; G; E] = Ok [F0; G0; E0] /\
    ds' = [F'; G'; E'] /\
    Forall2 (converted (energy_out op)
      (area_out op (u_flash_area h) (fa_offset h + fa_scale h * fa_fill h)%Q)) F0 F' /\
    Forall2 (converted (energy_out op)
      (area_out op (u_group_area h) (ga_offset h + ga_scale h * ga_fill h)%Q)) G0 G' /\
    Forall2 (converted (event_energy_out op h) (fun a => a)) E0 E'.
Proof.
  intros op h F G E h' ds' H. rewrite open_rest in H.
  apply bind_ok_inv in H. destruct H as [ds0 [Hr H]].
  assert (H3 : exists F0 G0 E0, ds0 = [F0; G0; E0]).
  { unfold repair in Hr. destruct (check_tree op); [|inversion Hr; eauto].
    rewrite init3 in Hr. cbn [bind] in Hr. apply bind_ok_inv in Hr. destruct Hr as [[es ps] [Hc Hr]].
    match type of Hr with (if ?b then _ else _) = _ => destruct b end; [|inversion Hr; eauto].
    apply bind_ok_inv in Hr. destruct Hr as [fs [_ Hr]]. cbn [nth_error] in Hr.
    destruct F as [|f F]; [rewrite reduce3_empty in Hr by (simpl; auto); discriminate|].
    destruct G as [|g G]; [rewrite reduce3_empty in Hr by (simpl; auto); discriminate|].
    destruct E as [|e E]; [rewrite reduce3_empty in Hr by (simpl; auto); discriminate|].
    rewrite reduce3 in Hr by congruence. inversion Hr; eauto. }
  destruct H3 as (F0 & G0 & E0 & ->). unfold glm_rest in H.
  apply bind_ok_inv in H. destruct H as [ds1 [H1 H]].
  assert (H1' : exists F1 G1 E1, ds1 = [F1; G1; E1] /\ Forall2 same_phys F0 F1 /\ Forall2 same_phys G0 G1 /\ Forall2 same_phys E0 E1).
  { destruct (calculate_parent_child op).
    - apply bind_ok_inv in H1. destruct H1 as [d [Hd H1]]. inversion H1; subst ds1.
      apply init_pc_inv in Hd. destruct Hd as (A & B & C & A' & B' & C' & E1 & -> & R1 & R2 & R3).
      inversion E1; subst A B C. unfold init_fixed_grid. cbn [map].
      do 3 eexists. split; [reflexivity|].
      split; [|split]; apply F2_converted; auto; intros r; unfold converted; simpl; auto 10.
    - inversion H1; subst. exists F0, G0, E0. split; auto. split; [|split]; apply F2_refl. }
  destruct H1' as (F1 & G1 & E1 & -> & RF & RG & RE). clear H1.
  destruct op as [oc oa oe ot]. cbn [opt_area opt_energy calculate_parent_child] in *.
  destruct h as [ufe uge uee ufa uga eo es fo fs ff go gs gf].
  destruct oe.
  - assert (HU : (ufe = "J" /\ uge = "J" /\ uee = "J")%string).
    { destruct oa.
      - cbn [check_area_units] in H. unfold check_area_units in H. cbv zeta iota in H.
        match type of H with change_energy_units ?a ?b = _ => pose proof (change_units_spec a b) as HU end.
        rewrite H in HU. cbn in HU. tauto.
      - match type of H with change_energy_units ?a ?b = _ => pose proof (change_units_spec a b) as HU end.
        rewrite H in HU. cbn in HU. tauto. }
    destruct HU as (-> & -> & ->).
    destruct oa;
      try destruct (String.eqb ufa "m2"%string) eqn:Efa; try destruct (String.eqb uga "m2"%string) eqn:Ega;
      cbn -[String.eqb map fscale fix_zero fix_nan set_xy set_area set_energy] in H;
      rewrite ?Efa, ?Ega in H;
      cbn -[String.eqb map fscale fix_zero fix_nan set_xy set_area set_energy] in H;
      inversion H; subst; clear H;
      (split; [unfold header_out; cbn -[String.eqb]; rewrite ?Efa, ?Ega; reflexivity|]);
      (split; [auto|]);
      exists F0, G0, E0; do 3 eexists; (split; [exact Hr|]); (split; [reflexivity|]);
      rewrite ?map_map;
      (split; [|split]; apply F2_converted; auto; intros r; unfold converted;
       cbn -[fscale fix_zero fix_nan event_energy_out energy_out area_out];
       repeat (split; [reflexivity|]); try (split; [reflexivity|]);
       try (unfold area_out; cbn; rewrite ?Efa, ?Ega; destruct (o_area (rdat r)); reflexivity);
       try (split; [|reflexivity]; match goal with |- _ = event_energy_out ?op ?h ?v => exact (fix_zero_out op h v eq_refl) end)).
  - destruct oa;
      try destruct (String.eqb ufa "m2"%string) eqn:Efa; try destruct (String.eqb uga "m2"%string) eqn:Ega;
      cbn -[String.eqb map fscale fix_zero fix_nan set_xy set_area set_energy] in H;
      rewrite ?Efa, ?Ega in H;
      cbn -[String.eqb map fscale fix_zero fix_nan set_xy set_area set_energy] in H;
      inversion H; subst; clear H;
      (split; [unfold header_out; cbn -[String.eqb]; rewrite ?Efa, ?Ega; reflexivity|]);
      (split; [intros; discriminate|]);
      exists F0, G0, E0; do 3 eexists; (split; [exact Hr|]); (split; [reflexivity|]);
      rewrite ?map_map;
      (split; [|split]; first [apply F2_converted; [|assumption] | rewrite <- (map_id F1); apply F2_converted; [|assumption]
        | rewrite <- (map_id G1); apply F2_converted; [|assumption] | rewrite <- (map_id E1); apply F2_converted; [|assumption]];
       intros r; unfold converted;
       cbn -[fscale fix_zero fix_nan event_energy_out energy_out area_out];
       repeat (split; [reflexivity|]); try (split; [reflexivity|]);
       try (unfold area_out; cbn; rewrite ?Efa, ?Ega; destruct (o_area (rdat r)); reflexivity);
       try (split; [unfold event_energy_out; cbn; destruct (o_energy (rdat r)); reflexivity|reflexivity])).
Qed.

(** Half of the smallest representable energy, in nJ. *)
Lemma event_floor : forall op h v w, opt_energy op = true -> (0 < ev_offset h + ev_scale h)%Q ->
  event_energy_out op h v = Some w ->
  ((1 # 2) * (ev_offset h + ev_scale h) * (1000000000 # 1) <= w)%Q /\ (0 < w)%Q.
Proof.
  intros op h v w Ho Hpos H. unfold event_energy_out, energy_out in H. rewrite Ho in H.
  destruct v as [q|]; [|discriminate]. simpl in H.
  assert (Hb : ((1 # 2) * (ev_offset h + ev_scale h) * (1000000000 # 1) <= w)%Q).
  { destruct (Qlt_le_dec q (ev_offset h + ev_scale h)) as [l|l]; inversion H; subst; [apply Qle_refl|].
    apply Qmult_le_compat_r; [|discriminate].
    eapply Qle_trans; [|exact l].
    setoid_replace (ev_offset h + ev_scale h)%Q with (1 * (ev_offset h + ev_scale h))%Q at 2 by ring.
    apply Qmult_le_compat_r; [discriminate|apply Qlt_le_weak; auto]. }
  split; auto. eapply Qlt_le_trans; [|exact Hb].
  apply Qmult_lt_0_compat; [|reflexivity]. apply Qmult_lt_0_compat; [reflexivity|auto].
Qed.

Lemma open_again_fails : forall op h ds, opt_energy op = true -> u_flash_energy h <> "J"%string ->
  forall r, glm_open set_order nav op h ds <> Ok r.
Proof.
  intros op h ds Ho Hu r H. rewrite open_rest in H.
  apply bind_ok_inv in H. destruct H as [d [_ H]]. unfold glm_rest in H.
  apply bind_ok_inv in H. destruct H as [d1 [_ H]].
  destruct (opt_area op).
  - destruct (check_area_units h (check_area_overflow h d1)) as [h2 d2] eqn:E. rewrite Ho in H.
    assert (u_flash_energy h2 = u_flash_energy h) by (unfold check_area_units in E; inversion E; reflexivity).
    unfold change_energy_units in H. rewrite H0 in H. apply String.eqb_neq in Hu. rewrite Hu in H. discriminate.
  - rewrite Ho in H. unfold change_energy_units in H. apply String.eqb_neq in Hu. rewrite Hu in H. discriminate.
Qed.

(** Area checks are idempotent. *)
Definition area_checks (h : header) (ds : list tbl) : header * list tbl :=
  check_area_units h (check_area_overflow h ds).

Lemma area_checks_twice : forall h F G E h1 ds1,
  area_checks h [F; G; E] = (h1, ds1) -> area_checks h1 ds1 = (h1, ds1).
Proof.
  intros h F G E h1 ds1 H. destruct h as [ufe uge uee ufa uga eo es fo fs ff go gs gf].
  unfold area_checks, check_area_units, check_area_overflow, on_level in *.
  cbn -[String.eqb map fscale fix_nan] in *.
  assert (Hid : forall (T : tbl) m, (forall r, In r T -> exists a, o_area (rdat r) = Some a) ->
    map (fun r => mkRow (rid r) (rpid r) (set_area (fix_nan m (o_area (rdat r))) (rdat r))) T = T).
  { intros T m HT. rewrite <- (map_id T) at 2. apply map_ext_in. intros [i p o] Hr.
    destruct (HT _ Hr) as [a Ha]. simpl in *. rewrite Ha. simpl. destruct o; simpl in *. subst. reflexivity. }
  assert (K : String.eqb "km2" "m2" = false) by reflexivity.
  destruct (String.eqb ufa "m2"%string) eqn:Efa; destruct (String.eqb uga "m2"%string) eqn:Ega;
    cbn -[String.eqb map fscale fix_nan] in *; inversion H; subst; clear H;
    cbn -[String.eqb map fscale fix_nan]; rewrite ?K, ?Efa, ?Ega;
    cbn -[String.eqb map fscale fix_nan]; rewrite ?K, ?Efa, ?Ega;
    (f_equal; f_equal; [|f_equal]); apply Hid; intros r Hr;
    repeat (apply in_map_iff in Hr; destruct Hr as [?r [<- Hr]]; cbn [rdat set_area o_area]);
    try match goal with |- context [fix_nan _ ?a] => destruct a; simpl; eauto end.
Qed.
End Phys.

(** * Files without data *)
Section Empty.
Variable set_order : list Z -> list Z.
Variable nav : fval -> fval -> fval * fval.

Lemma open_empty_checked : forall op h (F G E : tbl), check_tree op = true -> In [] [F; G; E] ->
  glm_open set_order nav op h [F; G; E] = Err AttributeError.
Proof. intros op h F G E Hc Hin. rewrite open_rest, Hc, repair_empty; auto. Qed.

Lemma open_empty_all : forall op h, check_tree op = false ->
  (opt_energy op = true ->
     u_flash_energy h = "J" /\ u_group_energy h = "J" /\ u_event_energy h = "J")%string ->
  glm_open set_order nav op h [[]; []; []] = Ok (header_out op h, [[]; []; []]).
Proof.
  intros op h Hc Hu. rewrite open_rest, Hc. cbn [repair bind].
  destruct op as [oc oa oe ot]. destruct h as [ufe uge uee ufa uga eo es fo fs ff go gs gf].
  cbn [opt_energy check_tree] in *. subst ot.
  destruct oe; [destruct (Hu eq_refl) as (U1 & U2 & U3); cbn in U1, U2, U3; subst|];
    destruct oc, oa; cbn -[String.eqb]; unfold header_out; cbn -[String.eqb];
    try destruct (String.eqb ufa "m2"%string) eqn:Efa; try destruct (String.eqb uga "m2"%string) eqn:Ega;
    cbn -[String.eqb]; rewrite ?String.eqb_refl; cbn -[String.eqb]; try reflexivity.
Qed.

Lemma open_empty_some : forall op h (F G E : tbl), check_tree op = false ->
  calculate_parent_child op = true -> In [] [F; G; E] -> [F; G; E] <> [[]; []; []] ->
  glm_open set_order nav op h [F; G; E] = Err ValueError.
Proof.
  intros op h F G E Hc Hp Hin Hne. rewrite open_rest, Hc. cbn [repair bind]. unfold glm_rest. rewrite Hp.
  unfold init_parent_child. rewrite init3. cbn [bind].
  destruct F as [|f F], G as [|g G], E as [|e E]; try congruence; try reflexivity.
  simpl in Hin. intuition discriminate.
Qed.
End Empty.

(** * Rows kept on opening *)
Lemma repair_kept : forall set_order, (forall l, Permutation (set_order l) l) ->
  forall {P} check (F G E F0 G0 E0 : table P),
  repair set_order check [F; G; E] = Ok [F0; G0; E0] -> kept check F G E F0 G0 E0.
Proof.
  intros so sp P [|] F G E F0 G0 E0 Hr; [|inversion Hr; subst; simpl; auto].
  destruct F as [|f F]; [rewrite repair_empty in Hr by (simpl; auto); discriminate|].
  destruct G as [|g G]; [rewrite repair_empty in Hr by (simpl; auto); discriminate|].
  destruct E as [|e E]; [rewrite repair_empty in Hr by (simpl; auto); discriminate|].
  destruct (repair_exact so sp (f :: F) (g :: G) (e :: E)) as (A & B & C & R & PG & HF & HE & _);
    try discriminate.
  rewrite R in Hr. inversion Hr; subst. split; [exact PG|]. split; [exact HF|exact HE].
Qed.
