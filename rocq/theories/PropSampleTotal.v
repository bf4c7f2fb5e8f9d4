(** C106: the energy in the L2 files. *)
From Coq Require Import String List ZArith QArith Bool Lia Lqa Permutation.
From Verif Require Import Base BaseProofs Traversal TraversalSpec TraversalProofs Glm GlmSpec GlmProofs GlmProofs2 GlmProofs3 Lut LutSpec LutProofs
  PropGlm PropLut Accum AccumSpec Poly PolySpec BBox BBoxSpec Slice SliceSpec Pipeline PipelineSpec PropSlice PropPipeline ChunkSpec PropChunks SampleTotal SampleTotalSpec.
Import ListNotations.
Open Scope Z_scope.
Local Notation tbl := (table obs).
Local Notation defaults := (mkOptions true true true true).

Lemma qcons : forall x l, (qsum (x :: l) == x + qsum l)%Q.
Proof. reflexivity. Qed.
Definition part (v : fval) : Q := match v with Some x => x | None => 0%Q end.
Lemma nansum_gen : forall l s, (fold_left (fun s v => match v with Some x => s + x | None => s end) l s == s + qsum (map part l))%Q.
Proof.
  induction l as [|v l IH]; intros s; [cbn; ring|]. cbn [fold_left map]. change (qsum (?x :: ?l)) with (x + qsum l)%Q. rewrite IH. destruct v; cbn [part]; ring.
Qed.
Lemma nansum_sum : forall l, (nansum l == qsum (map part l))%Q.
Proof. intros l. unfold nansum. rewrite nansum_gen. ring. Qed.

Lemma same_row : forall (T : tbl) r r', NoDup (map rid T) -> In r T -> In r' T -> rid r = rid r' -> r = r'.
Proof.
  induction T as [|a T IH]; intros r r' N Hr Hr' E; [destruct Hr|]. cbn in N. inversion N; subst. destruct Hr as [<-|Hr]; destruct Hr' as [<-|Hr']; auto.
  - exfalso. apply H1. rewrite E. apply in_map; auto.
  - exfalso. apply H1. rewrite <- E. apply in_map; auto.
Qed.

Section One.
Variable set_order : list Z -> list Z.
Hypothesis HP : forall l, Permutation (set_order l) l.
Variable nav : fval -> fval -> fval * fval.
Variables lon lat : Q * Q.
Definition box : query := mkQuery (Some lon) (Some lat) None None true None None.

(** Opening a file and taking the flashes of a region. *)
Lemma file_selected : forall f, good_file f -> exists h F G E F1 G1 E1 F2 G2 E2 sel, snd f = [F; G; E] /\
  glm_open set_order nav defaults (fst f) (snd f) = Ok (h, [F1; G1; E1]) /\ subset_flashes set_order [F1; G1; E1] box = Ok [F2; G2; E2] /\
  NoDup (map rid sel) /\ (forall e, In e sel <-> counted nav lon lat F G E e) /\
  (qsum (map part (energies E2)) == qsum (map (nanojoules (fst f)) sel))%Q /\ derived_ok F1 G1 E1 /\ E1 <> [].
Proof.
  intros [h raw] (F & G & E & -> & nF & nG & nE & C & U). cbn [fst snd] in *.
  destruct (open_consistent set_order HP nav defaults h F G E nF nG nE C eq_refl (fun _ => U)) as (F0 & G0 & E0 & F1 & G1 & E1 & HO & PG & PE & PF & RF & RG & RE & D & m1 & m2 & m3).
  destruct (subset_exact set_order HP F1 G1 E1 box D m1 m2 m3 eq_refl) as (F2 & G2 & E2 & HS & IF & IG & IE & D2).
  set (sel := filter (fun e => existsb (Z.eqb (rid e)) (map rid E2)) E0).
  destruct C as [UC OC]. apply unique3 in UC. destruct UC as (UF & UG & UE). apply linked_no_orphans in OC. destruct OC as [L1 L2].
  pose proof D as ((U1 & O1) & _). apply unique3 in U1. destruct U1 as (UF1 & UG1 & UE1).
  pose proof D2 as ((U2 & _) & _). apply unique3 in U2. destruct U2 as (_ & _ & UE2).
  assert (NS : NoDup (map rid sel)).
  { assert (N0 : NoDup (map rid E0)) by (apply (Permutation_NoDup (l := map rid E)); [apply Permutation_map; apply Permutation_sym; exact PE|exact UE]).
    unfold sel. clear -N0. induction E0 as [|e E0 IH]; [constructor|]. cbn in N0. inversion N0; subst. cbn [filter]. destruct (existsb _ _); [|apply IH; auto].
    cbn [map]. constructor; [|apply IH; auto]. intros K. apply in_map_iff in K. destruct K as (e' & Ee & K). apply filter_In in K. apply H1. rewrite <- Ee. apply in_map. tauto. }
  exists (header_out defaults h), F, G, E, F1, G1, E1, F2, G2, E2, sel. split; [reflexivity|]. split; [exact HO|]. split; [exact HS|]. split; [exact NS|].
  (* rows of the file and rows in memory *)
  assert (TOG : forall g, In g G -> exists g', In g' G1 /\ rid g' = rid g /\ rpid g' = rpid g).
  { intros g Hg. apply (Permutation_in _ (Permutation_sym PG)) in Hg. destruct (F2_in_l _ _ _ _ _ _ RG Hg) as (g' & Hg' & (a & b & _) & _). eauto. }
  assert (FRG : forall g', In g' G1 -> exists g, In g G /\ rid g' = rid g /\ rpid g' = rpid g).
  { intros g' Hg'. destruct (F2_in_r _ _ _ _ _ _ RG Hg') as (g & Hg & (a & b & _) & _). apply (Permutation_in _ PG) in Hg. eauto. }
  assert (TOE : forall e, In e E -> exists e', In e' E1 /\ same_place nav e e').
  { intros e He. apply (Permutation_in _ (Permutation_sym PE)) in He. destruct (F2_in_l _ _ _ _ _ _ RE He) as (e' & He' & P & _). eauto. }
  assert (FRE : forall e', In e' E1 -> exists e, In e E /\ same_place nav e e').
  { intros e' He'. destruct (F2_in_r _ _ _ _ _ _ RE He') as (e & He & P & _). apply (Permutation_in _ PE) in He. eauto. }
  assert (TOF : forall f, In f F -> (exists g, In g G /\ rpid g = rid f) -> exists f', In f' F1 /\ same_place nav f f').
  { intros f Hf (g & Hg & Eg). assert (In f F0) as Hf0 by (apply (Permutation_in _ (Permutation_sym PF)); apply filter_In; split; [exact Hf|apply existsb_exists; exists g; split; [exact Hg|apply Z.eqb_eq; exact Eg]]).
    destruct (F2_in_l _ _ _ _ _ _ RF Hf0) as (f' & Hf' & P & _). eauto. }
  assert (FRF : forall f', In f' F1 -> exists f, In f F /\ same_place nav f f').
  { intros f' Hf'. destruct (F2_in_r _ _ _ _ _ _ RF Hf') as (f & Hf & P & _). apply (Permutation_in _ PF) in Hf. apply filter_In in Hf. destruct Hf. eauto. }
  split; [|split; [|split; [exact D|exact m3]]].
  - intros e. split.
    + intros He. apply filter_In in He. destruct He as [He0 K]. apply (Permutation_in _ PE) in He0. rename He0 into He.
      apply existsb_exists in K. destruct K as (i & Hi & K). apply Z.eqb_eq in K. subst i. apply in_map_iff in Hi. destruct Hi as (e2 & E12 & He2).
      apply IE in He2. destruct He2 as [He2 (g2 & Hg2 & Eg2)]. apply IG in Hg2. destruct Hg2 as [Hg2 (f2 & Hf2 & Ef2)]. apply IF in Hf2. destruct Hf2 as [Hf2 W].
      destruct (FRE e2 He2) as (e0 & He0 & (i0 & p0 & _)). assert (e0 = e) by (apply (same_row E); auto; congruence). subst e0.
      destruct (FRG g2 Hg2) as (g & Hg & i1 & p1). destruct (FRF f2 Hf2) as (f & Hf & (i2 & p2 & lo & la & xy)).
      destruct W as (_ & _ & W1 & W2 & _ & _ & (ev & Hev & V1 & V2 & _)).
      split; [exact He|]. exists f. split; [exact Hf|]. split; [exists g; split; [exact Hg|split; congruence]|].
      split; [rewrite <- lo; apply W1; reflexivity|]. split; [rewrite <- la; apply W2; reflexivity|].
      apply filter_In in Hev. destruct Hev as [Hev K]. apply existsb_exists in K. destruct K as (gv & Hgv & K). apply andb_true_iff in K. destruct K as [K1 K2]. apply Z.eqb_eq in K1, K2.
      destruct (FRE ev Hev) as (e3 & He3 & (i3 & p3 & lo3 & la3 & xy3)). destruct (FRG gv Hgv) as (g3 & Hg3 & i4 & p4).
      exists e3. split; [exact He3|]. split; [exists g3; split; [exact Hg3|split; congruence]|]. rewrite <- xy3. cbn [fst snd]. split; [exact V1|exact V2].
    + intros (He & f & Hf & (g & Hg & Eg & Ef) & Hlo & Hla & (e3 & He3 & (g3 & Hg3 & Eg3 & Ef3) & V)).
      apply filter_In. split; [apply (Permutation_in _ (Permutation_sym PE)); exact He|].
      destruct (TOE e He) as (e1 & He1 & (i1 & p1 & _)). destruct (TOG g Hg) as (g1 & Hg1 & i2 & p2).
      destruct (TOF f Hf ltac:(exists g; split; [exact Hg|congruence])) as (f1 & Hf1 & (i3 & p3 & lo & la & xy)).
      destruct (TOE e3 He3) as (e4 & He4 & (i4 & p4 & lo4 & la4 & xy4)). destruct (TOG g3 Hg3) as (g4 & Hg4 & i5 & p5).
      apply existsb_exists. exists (rid e1). split; [|apply Z.eqb_eq; congruence]. apply in_map. apply IE. split; [exact He1|]. exists g1. split; [|congruence]. apply IG. split; [exact Hg1|].
      exists f1. split; [|congruence]. apply IF. split; [exact Hf1|]. unfold wanted, box. cbn [q_x q_y q_lon q_lat q_min_events q_min_groups].
      split; [discriminate|]. split; [discriminate|]. split; [intros r K; inversion K; subst r; rewrite lo; exact Hlo|]. split; [intros r K; inversion K; subst r; rewrite la; exact Hla|].
      split; [discriminate|]. split; [discriminate|]. exists e4. split.
      * apply filter_In. split; [exact He4|]. apply existsb_exists. exists g4. split; [exact Hg4|]. apply andb_true_iff. split; apply Z.eqb_eq; congruence.
      * rewrite <- xy4 in V. cbn [fst snd] in V. destruct V as [V1 V2]. split; [exact V1|]. split; [exact V2|]. split; discriminate.
  - assert (PM : Permutation E2 (filter (fun e => existsb (Z.eqb (rid e)) (map rid E2)) E1)).
    { apply NoDup_Permutation.
      - apply NoDup_map_inv in UE2. exact UE2.
      - apply NoDup_filter. apply NoDup_map_inv in UE1. exact UE1.
      - intros e. rewrite filter_In. split.
        + intros He. split; [apply IE in He; tauto|]. apply existsb_exists. exists (rid e). split; [apply in_map; exact He|apply Z.eqb_refl].
        + intros [He K]. apply existsb_exists in K. destruct K as (i & Hi & K). apply Z.eqb_eq in K. subst i. apply in_map_iff in Hi. destruct Hi as (e' & Ee & He').
          assert (e = e') by (apply (same_row E1); auto; apply IE in He'; tauto). subst e'. exact He'. }
    unfold energies. rewrite map_map. rewrite (qsum_perm _ _ (Permutation_map _ PM)). unfold sel. clear -RE. set (ids := map rid E2). clearbody ids.
    induction RE as [|e e' E0 E1 R RE IH]; [reflexivity|]. cbn [filter]. destruct R as ((i & p & _) & en & _). rewrite i. destruct (existsb (Z.eqb (rid e)) ids); [|exact IH].
    cbn [map]. change (qsum (?x :: ?l)) with (x + qsum l)%Q. rewrite IH. apply Qplus_comp; [|reflexivity]. unfold nanojoules. rewrite en. unfold event_energy_out, energy_out. cbn [opt_energy].
    destruct (o_energy (rdat e)) as [v|]; cbn [part option_map]; [ring|reflexivity].
Qed.
Lemma one_ok : forall f, good_file f -> exists v, one_file set_order nav lon lat f = Ok v /\ energy_in nav lon lat f v.
Proof.
  intros f GF. destruct (file_selected f GF) as (h & F & G & E & F1 & G1 & E1 & F2 & G2 & E2 & sel & S & HO & HS & NS & IS & SUM & _).
  unfold one_file. rewrite HO. cbn [bind snd]. fold box. rewrite HS. cbn [bind]. eexists. split; [reflexivity|].
  exists F, G, E, sel. split; [exact S|]. split; [exact NS|]. split; [exact IS|]. rewrite nansum_sum. exact SUM.
Qed.
Lemma fold_ok : forall files s, Forall good_file files -> exists v vs,
  fold_res (fun energy f => e <- one_file set_order nav lon lat f ;; Ok (energy + e)%Q) files s = Ok v /\
  Forall2 (energy_in nav lon lat) files vs /\ Forall2 (fun f v => one_file set_order nav lon lat f = Ok v) files vs /\ (v == s + qsum vs)%Q.
Proof.
  induction files as [|f files IH]; intros s GF.
  - exists s, []. split; [reflexivity|]. split; [constructor|]. split; [constructor|]. change (qsum []) with 0%Q. ring.
  - inversion GF as [|? ? G1 G2]; subst. destruct (one_ok f G1) as (x & Ex & Vx). destruct (IH (s + x)%Q G2) as (v & vs & Ev & Vs & Os & SUM).
    exists v, (x :: vs). cbn [fold_res]. rewrite Ex. cbn [bind]. split; [exact Ev|]. split; [constructor; auto|]. split; [constructor; auto|]. change (qsum (?x :: ?l)) with (x + qsum l)%Q. rewrite SUM. ring.
Qed.
End One.

(** The energy in the files is the energy of all events of the flashes whose centroid is in
    the region and that were seen, each event counted once. *)
Theorem C106_total : forall set_order, (forall l, Permutation (set_order l) l) ->
  forall nav lon lat files, Forall good_file files ->
  exists v vs, total_energy_in_L2 set_order nav lon lat files = Ok v /\ Forall2 (energy_in nav lon lat) files vs /\ (v == qsum vs)%Q.
Proof.
  intros so HP nav lon lat files GF. destruct (fold_ok so HP nav lon lat files 0%Q GF) as (v & vs & Ev & Vs & _ & SUM). exists v, vs. split; [exact Ev|]. split; [exact Vs|]. rewrite SUM. ring.
Qed.
Print Assumptions C106_total.

(** * The order of the files, and regions put together *)
Lemma good_unique : forall f F G E, good_file f -> snd f = [F; G; E] -> NoDup (map rid F) /\ NoDup (map rid G) /\ NoDup (map rid E).
Proof. intros f F G E (F' & G' & E' & EQ & _ & _ & _ & (U & _) & _) H. rewrite H in EQ. inversion EQ; subst. apply unique3. exact U. Qed.
Lemma energy_det : forall nav lon lat f v w, energy_in nav lon lat f v -> energy_in nav lon lat f w -> (v == w)%Q.
Proof.
  intros nav lon lat f v w (F & G & E & s & EQ & N & I & ->) (F' & G' & E' & s' & EQ' & N' & I' & ->). rewrite EQ in EQ'. inversion EQ'; subst.
  apply qsum_perm. apply Permutation_map. apply NoDup_Permutation; [apply NoDup_map_inv in N; exact N|apply NoDup_map_inv in N'; exact N'|]. intros e. rewrite I, I'. tauto.
Qed.
Lemma energies_perm : forall nav lon lat files files', Permutation files files' -> forall vs vs',
  Forall2 (energy_in nav lon lat) files vs -> Forall2 (energy_in nav lon lat) files' vs' -> (qsum vs == qsum vs')%Q.
Proof.
  intros nav lon lat files files' P. induction P as [|f l l' P IH|a b l|l1 l2 l3 P1 IH1 P2 IH2]; intros vs vs' H H'.
  - inversion H; subst. inversion H'; subst. reflexivity.
  - inversion H as [|? v ? vs1 V1 H1]; subst. inversion H' as [|? v' ? vs1' V1' H1']; subst. rewrite !qcons. rewrite (energy_det _ _ _ _ _ _ V1 V1'), (IH _ _ H1 H1'). reflexivity.
  - inversion H as [|? v ? vs1 V1 H1]; subst. inversion H1 as [|? v2 ? vs2 V2 H2]; subst. inversion H' as [|? w ? ws1 W1 K1]; subst. inversion K1 as [|? w2 ? ws2 W2 K2]; subst.
    rewrite !qcons. rewrite (energy_det _ _ _ _ _ _ V1 W2), (energy_det _ _ _ _ _ _ V2 W1).
    assert (S : (qsum vs2 == qsum ws2)%Q). { clear -H2 K2. revert ws2 K2. induction H2 as [|f v l vs V H IH]; intros ws K; inversion K as [|? w ? ws' W K']; subst; [reflexivity|]. rewrite !qcons. rewrite (energy_det _ _ _ _ _ _ V W), (IH _ K'). reflexivity. }
    rewrite S. ring.
  - assert (exists ws, Forall2 (energy_in nav lon lat) l2 ws) as (ws & W). { clear -H P1. revert vs H. induction P1 as [|f l l' P IH|a b l|l1 l2 l3 P1 IH1 P2 IH2]; intros vs H.
      - exists []. constructor.
      - inversion H; subst. destruct (IH _ H4) as (ws & W). eexists (_ :: ws). constructor; eauto.
      - inversion H; subst. inversion H4; subst. eexists (_ :: _ :: _). repeat constructor; eauto.
      - destruct (IH1 _ H) as (ws & W). eauto. }
    rewrite (IH1 _ _ H W). apply IH2; auto.
Qed.
Theorem C106_files_in_any_order : forall set_order, (forall l, Permutation (set_order l) l) ->
  forall nav lon lat files files' v, Forall good_file files -> Permutation files files' ->
  total_energy_in_L2 set_order nav lon lat files = Ok v ->
  exists v', total_energy_in_L2 set_order nav lon lat files' = Ok v' /\ (v == v')%Q.
Proof.
  intros so HP nav lon lat files files' v GF P H.
  assert (GF' : Forall good_file files') by (rewrite Forall_forall in *; intros f Hf; apply GF; apply (Permutation_in _ (Permutation_sym P)); exact Hf).
  destruct (C106_total so HP nav lon lat files GF) as (u & us & Eu & Us & Su). destruct (C106_total so HP nav lon lat files' GF') as (w & ws & Ew & Ws & Sw).
  rewrite H in Eu. inversion Eu; subst u. exists w. split; [exact Ew|]. rewrite Su, Sw. apply (energies_perm nav lon lat files files'); auto.
Qed.
Print Assumptions C106_files_in_any_order.

Lemma between_split : forall a m b v, (a <= m)%Q -> (m <= b)%Q -> (forall x, v = Some x -> ~ (x == m)%Q) -> (strictly (a, b) v <-> strictly (a, m) v \/ strictly (m, b) v).
Proof.
  intros a m b v AM MB NM. unfold strictly. cbn [fst snd]. split.
  - intros (x & -> & L & R). destruct (Qlt_le_dec x m) as [K|K]; [left; exists x; auto|]. right. exists x. split; [reflexivity|]. split; [|exact R]. destruct (Qle_lt_or_eq _ _ K) as [|K']; [auto|]. exfalso. apply (NM x eq_refl). rewrite K'. reflexivity.
  - intros [(x & -> & L & R)|(x & -> & L & R)]; exists x; (split; [reflexivity|]); split; auto; [apply Qlt_le_trans with m; auto|apply Qle_lt_trans with m; auto].
Qed.
Lemma region_split : forall nav lon lat lon1 lat1 lon2 lat2 f v v1 v2, good_file f ->
  (forall r, In r (nth 0 (snd f) []) -> (strictly lon (o_lon (rdat r)) /\ strictly lat (o_lat (rdat r)) <-> (strictly lon1 (o_lon (rdat r)) /\ strictly lat1 (o_lat (rdat r))) \/ (strictly lon2 (o_lon (rdat r)) /\ strictly lat2 (o_lat (rdat r))))) ->
  (forall r, ~ (strictly lon1 (o_lon (rdat r)) /\ strictly lat1 (o_lat (rdat r)) /\ strictly lon2 (o_lon (rdat r)) /\ strictly lat2 (o_lat (rdat r)))) ->
  energy_in nav lon lat f v -> energy_in nav lon1 lat1 f v1 -> energy_in nav lon2 lat2 f v2 -> (v == v1 + v2)%Q.
Proof.
  intros nav lon lat lon1 lat1 lon2 lat2 f v v1 v2 GF OR NO (F & G & E & s & EQ & N & I & ->) (F' & G' & E' & s1 & EQ1 & N1 & I1 & ->) (F'' & G'' & E'' & s2 & EQ2 & N2 & I2 & ->).
  destruct (good_unique f F G E GF EQ) as (UF & UG & UE). rewrite EQ in *. cbn [nth] in OR. inversion EQ1; subst F' G' E'. inversion EQ2; subst F'' G'' E''. rewrite <- qsum_app, <- map_app.
  assert (ONE : forall f1 f2 e, In f1 F -> In f2 F -> of_flash G f1 e -> of_flash G f2 e -> f1 = f2).
  { intros f1 f2 e H1 H2 (g1 & Hg1 & Eg1 & Ef1) (g2 & Hg2 & Eg2 & Ef2). assert (g1 = g2) by (apply (same_row G); auto; congruence). subst g2. apply (same_row F); auto; congruence. }
  apply qsum_perm. apply Permutation_map. apply NoDup_Permutation.
  - apply NoDup_map_inv in N. exact N.
  - apply NoDup_map_inv in N1. apply NoDup_map_inv in N2. clear I. 
    assert (DJ : forall e, In e s1 -> ~ In e s2).
    { intros e H1 H2. apply I1 in H1. apply I2 in H2. destruct H1 as (_ & f1 & Hf1 & O1 & A1 & B1 & _). destruct H2 as (_ & f2 & Hf2 & O2 & A2 & B2 & _). rewrite (ONE f2 f1 e Hf2 Hf1 O2 O1) in *. apply (NO f1). auto. }
    clear I1 I2. induction s1 as [|e s1 IH]; [exact N2|]. inversion N1; subst. cbn [app]. constructor; [|apply IH; auto; intros; apply DJ; right; auto].
    rewrite in_app_iff. intros [K|K]; [auto|]. apply (DJ e (or_introl eq_refl) K).
  - intros e. rewrite in_app_iff, I, I1, I2. unfold counted. split.
    + intros (He & r & Hr & O & A & B & S). destruct (proj1 (OR r Hr) (conj A B)) as [[A' B']|[A' B']]; [left|right]; (split; [exact He|]); exists r; auto 10.
    + intros [(He & r & Hr & O & A & B & S)|(He & r & Hr & O & A & B & S)]; (split; [exact He|]); exists r; (split; [exact Hr|]); (split; [exact O|]);
      destruct (proj2 (OR r Hr)) as [A' B']; auto 10.
Qed.
Lemma regions_sum : forall nav lon lat lon1 lat1 lon2 lat2 files,
  (forall f v v1 v2, In f files -> energy_in nav lon lat f v -> energy_in nav lon1 lat1 f v1 -> energy_in nav lon2 lat2 f v2 -> (v == v1 + v2)%Q) ->
  forall vs vs1 vs2, Forall2 (energy_in nav lon lat) files vs -> Forall2 (energy_in nav lon1 lat1) files vs1 -> Forall2 (energy_in nav lon2 lat2) files vs2 -> (qsum vs == qsum vs1 + qsum vs2)%Q.
Proof.
  intros nav lon lat lon1 lat1 lon2 lat2 files. induction files as [|f files IH]; intros H vs vs1 vs2 V V1 V2; inversion V as [|? v ? vs' Hv V']; inversion V1 as [|? v1 ? vs1' Hv1 V1']; inversion V2 as [|? v2 ? vs2' Hv2 V2']; subst; [reflexivity|].
  change (qsum (?x :: ?l)) with (x + qsum l)%Q. rewrite (H f v v1 v2 (or_introl eq_refl) Hv Hv1 Hv2), (IH ltac:(intros; eapply H; eauto; right; auto) vs' vs1' vs2' V' V1' V2'). ring.
Qed.
(** A region cut in two along a meridian or a parallel on which no flash has its centroid:
    the energies of the parts add up. *)
Theorem C106_regions_add : forall set_order, (forall l, Permutation (set_order l) l) ->
  forall nav a m b c d files v v1 v2, Forall good_file files -> (a <= m)%Q -> (m <= b)%Q ->
  (Forall (off_meridian m) files ->
   total_energy_in_L2 set_order nav (a, b) (c, d) files = Ok v ->
   total_energy_in_L2 set_order nav (a, m) (c, d) files = Ok v1 ->
   total_energy_in_L2 set_order nav (m, b) (c, d) files = Ok v2 -> (v == v1 + v2)%Q) /\
  (Forall (off_parallel m) files ->
   total_energy_in_L2 set_order nav (c, d) (a, b) files = Ok v ->
   total_energy_in_L2 set_order nav (c, d) (a, m) files = Ok v1 ->
   total_energy_in_L2 set_order nav (c, d) (m, b) files = Ok v2 -> (v == v1 + v2)%Q).
Proof.
  intros so HP nav a m b c d files v v1 v2 GF AM MB.
  assert (TOT : forall lon lat w, total_energy_in_L2 so nav lon lat files = Ok w -> exists ws, Forall2 (energy_in nav lon lat) files ws /\ (w == qsum ws)%Q).
  { intros lon lat w H. destruct (C106_total so HP nav lon lat files GF) as (u & us & Eu & Us & Su). rewrite H in Eu. inversion Eu; subst u. eauto. }
  assert (DJ : forall u, ~ (strictly (a, m) u /\ strictly (m, b) u)). { intros u ((x & -> & L & R) & (y & EQ & L' & R')). inversion EQ; subst y. cbn in *. apply (Qlt_irrefl x). apply Qlt_trans with m; auto. }
  split; intros OFF H H1 H2; destruct (TOT _ _ _ H) as (vs & V & ->); destruct (TOT _ _ _ H1) as (vs1 & V1 & ->); destruct (TOT _ _ _ H2) as (vs2 & V2 & ->).
  - apply (regions_sum nav (a, b) (c, d) (a, m) (c, d) (m, b) (c, d) files); auto. intros f w w1 w2 Hf. rewrite Forall_forall in GF, OFF. apply region_split; [apply GF; auto| |].
    + intros r Hr. rewrite (between_split a m b) by (auto; intros x Ex; apply (OFF f Hf r x Hr Ex)). tauto.
    + intros r K. apply (DJ (o_lon (rdat r))). tauto.
  - apply (regions_sum nav (c, d) (a, b) (c, d) (a, m) (c, d) (m, b) files); auto. intros f w w1 w2 Hf. rewrite Forall_forall in GF, OFF. apply region_split; [apply GF; auto| |].
    + intros r Hr. rewrite (between_split a m b (o_lat (rdat r))) by (auto; intros x Ex; apply (OFF f Hf r x Hr Ex)). tauto.
    + intros r K. apply (DJ (o_lat (rdat r))). tauto.
Qed.
Print Assumptions C106_regions_add.

(** A larger region has at least as much energy. *)
Theorem C106_larger_region : forall set_order, (forall l, Permutation (set_order l) l) ->
  forall nav lon lat lon' lat' files v v', Forall good_file files -> Forall no_negative files ->
  (fst lon' <= fst lon)%Q -> (snd lon <= snd lon')%Q -> (fst lat' <= fst lat)%Q -> (snd lat <= snd lat')%Q ->
  total_energy_in_L2 set_order nav lon lat files = Ok v -> total_energy_in_L2 set_order nav lon' lat' files = Ok v' -> (v <= v')%Q.
Proof.
  intros so HP nav lon lat lon' lat' files v v' GF NN A B C D H H'.
  destruct (C106_total so HP nav lon lat files GF) as (u & us & Eu & Us & Su). destruct (C106_total so HP nav lon' lat' files GF) as (w & ws & Ew & Ws & Sw).
  rewrite H in Eu. inversion Eu; subst u. rewrite H' in Ew. inversion Ew; subst w. rewrite Su, Sw. clear -GF NN A B C D Us Ws. revert ws Ws. induction Us as [|f u files us U Us IH]; intros ws Ws; inversion Ws as [|? w ? ws' W Ws']; subst; [apply Qle_refl|].
  inversion GF as [|? ? GF1 GF2]; subst. inversion NN as [|? ? NN1 NN2]; subst. change (qsum (?x :: ?l)) with (x + qsum l)%Q. apply Qplus_le_compat; [|apply IH; auto].
  destruct U as (F & G & E & s & EQ & N & I & ->). destruct W as (F' & G' & E' & s' & EQ' & N' & I' & ->). rewrite EQ in EQ'. inversion EQ'; subst F' G' E'. destruct NN1 as [P0 P1]. rewrite EQ in P1. cbn [nth] in P1.
  assert (WD : forall (r r' : Q * Q) x, (fst r' <= fst r)%Q -> (snd r <= snd r')%Q -> strictly r x -> strictly r' x). { intros r r' x L R (y & -> & K1 & K2). exists y. split; [reflexivity|]. split; [apply Qle_lt_trans with (fst r); auto|apply Qlt_le_trans with (snd r); auto]. }
  assert (SUB : forall e, In e s -> In e s'). { intros e He. apply I'. apply I in He. destruct He as (He & r & Hr & O & K1 & K2 & S). split; [exact He|]. exists r. split; [exact Hr|]. split; [exact O|]. split; [apply (WD lon); auto|]. split; [apply (WD lat); auto|exact S]. }
  assert (POS : forall e, In e s' -> (0 <= nanojoules (fst f) e)%Q).
  { intros e He. apply I' in He. destruct He as (He & _). unfold nanojoules. destruct (o_energy (rdat e)) as [x|] eqn:Ex; [|apply Qle_refl]. specialize (P1 e x He Ex). destruct (Qlt_le_dec x (ev_offset (fst f) + ev_scale (fst f))); lra. }
  apply NoDup_map_inv in N. apply NoDup_map_inv in N'. clear -N N' SUB POS. revert s' N' SUB POS. induction s as [|e s IH]; intros s' N' SUB POS.
  - change (qsum (map (nanojoules (fst f)) [])) with 0%Q. clear -POS. induction s' as [|e s' IH]; [apply Qle_refl|]. cbn [map]. change (qsum (?x :: ?l)) with (x + qsum l)%Q. assert (K := POS e (or_introl eq_refl)). assert (L := IH ltac:(intros; apply POS; right; auto)). lra.
  - inversion N; subst. destruct (in_split e s' (SUB e (or_introl eq_refl))) as (l1 & l2 & ->). pose proof (Permutation_sym (Permutation_middle l1 l2 e)) as P.
    rewrite (qsum_perm _ _ (Permutation_map (nanojoules (fst f)) P)). cbn [map]. change (qsum (?x :: ?l)) with (x + qsum l)%Q. apply Qplus_le_compat; [apply Qle_refl|]. apply IH; auto.
    + apply (NoDup_remove_1 _ _ _ N').
    + intros x Hx. pose proof (Permutation_in _ P (SUB x (or_intror Hx))) as K. cbn [In] in K. destruct K as [K|K]; [subst x; contradiction|exact K].
    + intros x Hx. apply POS. apply (Permutation_in _ (Permutation_sym P)). right. exact Hx.
Qed.
Print Assumptions C106_larger_region.

(** * The gridded energy *)
Lemma opened_usable : forall set_order, (forall l, Permutation (set_order l) l) ->
  forall nav f h ds, good_file f -> with_energies f -> glm_open set_order nav defaults (fst f) (snd f) = Ok (h, ds) ->
  exists F1 G1 E1, ds = [F1; G1; E1] /\ F1 <> [] /\ G1 <> [] /\ E1 <> [] /\ derived_ok F1 G1 E1 /\ numbers (areas F1) /\ numbers (areas G1) /\ numbers (energies E1).
Proof.
  intros so HP nav [h raw] h' ds (F & G & E & EQ & nF & nG & nE & C & U) WE H. cbn [fst snd] in *. subst raw. cbn in WE.
  destruct (open_consistent so HP nav defaults h F G E nF nG nE C eq_refl (fun _ => U)) as (F0 & G0 & E0 & F1 & G1 & E1 & HO & PG & PE & PF & RF & RG & RE & D & m1 & m2 & m3).
  rewrite H in HO. inversion HO; subst. exists F1, G1, E1. split; [reflexivity|]. split; [exact m1|]. split; [exact m2|]. split; [exact m3|]. split; [exact D|].
  split; [|split].
  - intros v Hv. apply in_map_iff in Hv. destruct Hv as (r & <- & Hr). destruct (F2_in_r _ _ _ _ _ _ RF Hr) as (r0 & _ & (_ & _ & A & _)). rewrite A. unfold area_out. cbn. discriminate.
  - intros v Hv. apply in_map_iff in Hv. destruct Hv as (r & <- & Hr). destruct (F2_in_r _ _ _ _ _ _ RG Hr) as (r0 & _ & (_ & _ & A & _)). rewrite A. unfold area_out. cbn. discriminate.
  - intros v Hv. apply in_map_iff in Hv. destruct Hv as (r & <- & Hr). destruct (F2_in_r _ _ _ _ _ _ RE Hr) as (r0 & Hr0 & (_ & A & _)). apply (Permutation_in _ PE) in Hr0. specialize (WE r0 Hr0). rewrite A. unfold event_energy_out. destruct (o_energy (rdat r0)); [discriminate|congruence].
Qed.
(** What the sample run compares: when the region holds the same flashes as the selection
    of the gridding run and every pixel is covered by the grid, the total of the gridded
    energy is the energy in the files. *)
Theorem C106_gridded_total : forall set_order, (forall l, Permutation (set_order l) l) ->
  forall nav lon lat weird clip tree quad xe ye chunk_size files dss q g,
  (1 < List.length xe)%nat -> (1 < List.length ye)%nat -> increasing xe -> increasing ye -> proper clip -> (0 < chunk_size)%nat ->
  Forall good_file files -> Forall with_energies files ->
  Forall2 (fun f ds => exists h, glm_open set_order nav defaults (fst f) (snd f) = Ok (h, ds)) files dss ->
  q_check q = true -> Forall (same_flashes q (box lon lat)) dss ->
  grid_files set_order weird clip tree quad xe ye chunk_size dss (Some q) = Ok g ->
  exists tables v, tables_read set_order weird chunk_size (Some q) dss tables /\ total_energy_in_L2 set_order nav lon lat files = Ok v /\
  ((forall r, In r (List.concat tables) -> let p := quad (lu_x r) (lu_y r) in
      ~ (size p == 0)%Q /\ covered p (cut clip (regular_xy xe ye) p (nearby tree (regular_xy xe ye) p))) ->
   (grid_total (gr_energy g) == v)%Q).
Proof.
  intros so HP nav lon lat weird clip tree quad xe ye cs files dss q g HX HY IX IY PR Hcs GF WE OP HQ SF H.
  assert (US : Forall usable dss).
  { clear -GF WE OP HP. induction OP as [|f ds files dss (h & O) OP IH]; [constructor|]. inversion GF as [|? ? GF1 GF2]; subst. inversion WE as [|? ? WE1 WE2]; subst. constructor; [|auto]. right. exact (opened_usable so HP nav f h ds GF1 WE1 O). }
  destruct (C36_observed_energy so HP weird clip tree quad xe ye cs dss (Some q) g HX HY IX IY PR Hcs ltac:(intros q' K; inversion K; subst; exact HQ) US H) as (tables & es & TR & OB & TOT).
  destruct (fold_ok so HP nav lon lat files 0%Q GF) as (v & vs & Ev & _ & Os & SUM).
  exists tables, v. split; [exact TR|]. split; [exact Ev|]. intros COV. rewrite (TOT COV), SUM. rewrite Qplus_0_l.
  clear -OB Os OP GF WE SF HP HQ. revert es vs OB Os. induction OP as [|f ds files dss (h & O) OP IH]; intros es vs OB Os; inversion OB as [|? e ? es' B1 OB']; inversion Os as [|? xv ? vs' X1 Os']; subst; [reflexivity|].
  inversion GF as [|? ? GF1 GF2]; subst. inversion WE as [|? ? WE1 WE2]; subst. inversion SF as [|? ? SF1 SF2]; subst. change (qsum (?x :: ?l)) with (x + qsum l)%Q. apply Qplus_comp; [|apply IH; auto].
  destruct (opened_usable so HP nav f h ds GF1 WE1 O) as (F1 & G1 & E1 & -> & m1 & m2 & m3 & D & _ & _ & NE).
  destruct B1 as [[Z _]|(_ & F2 & G2 & E2 & S & ->)]; [cbn in Z; congruence|]. unfold selection in S.
  unfold one_file in X1. rewrite O in X1. cbn [bind snd] in X1. fold (box lon lat) in X1.
  destruct (subset_exact so HP F1 G1 E1 q D m1 m2 m3 HQ) as (F3 & G3 & E3 & S3 & IF & IG & IE & D3). rewrite S in S3. inversion S3; subst F3 G3 E3.
  destruct (subset_exact so HP F1 G1 E1 (box lon lat) D m1 m2 m3 eq_refl) as (F4 & G4 & E4 & S4 & IF4 & IG4 & IE4 & D4). rewrite S4 in X1. cbn [bind] in X1. inversion X1; subst xv.
  rewrite nansum_sum. unfold same_flashes in SF1. cbn [nth] in SF1.
  assert (P : Permutation E2 E4).
  { destruct D3 as ((U3 & _) & _). apply unique3 in U3. destruct U3 as (_ & _ & U3). destruct D4 as ((U4 & _) & _). apply unique3 in U4. destruct U4 as (_ & _ & U4). apply NoDup_map_inv in U3, U4.
    assert (KF : forall r, In r F2 <-> In r F4) by (intros r; rewrite IF, IF4; split; intros [Hr W]; (split; [exact Hr|]); apply (SF1 r Hr); exact W).
    assert (KG : forall r, In r G2 <-> In r G4) by (intros r; rewrite IG, IG4; split; intros (Hr & s & Hs & W); (split; [exact Hr|]); exists s; (split; [apply KF; exact Hs|exact W])).
    apply NoDup_Permutation; auto. intros r. rewrite IE, IE4. split; intros (Hr & s & Hs & W); (split; [exact Hr|]); exists s; (split; [apply KG; exact Hs|exact W]). }
  assert (N4 : forall r, In r E4 -> o_energy (rdat r) <> None) by (intros r Hr; apply NE; unfold energies; apply (in_map (fun r => o_energy (rdat r))); apply IE4 in Hr; tauto).
  rewrite (qsum_perm _ _ (Permutation_sym (Permutation_map part (Permutation_map (fun r => o_energy (rdat r)) P)))).
  assert (N2 : forall r, In r E2 -> o_energy (rdat r) <> None) by (intros r Hr; apply N4; apply (Permutation_in _ P); exact Hr).
  unfold total. clear -N2. unfold energies. rewrite !map_map. induction E2 as [|r E2 IH]; [reflexivity|]. cbn [map]. change (qsum (?x :: ?l)) with (x + qsum l)%Q. rewrite IH by (intros; apply N2; right; auto). apply Qplus_comp; [|reflexivity].
  specialize (N2 r (or_introl eq_refl)). destruct (o_energy (rdat r)); [reflexivity|congruence].
Qed.
Print Assumptions C106_gridded_total.

(** * The hypotheses are met *)
(** Flash 7 at (0.01, 0) with events of 1 and 2 J, flash 8 at (0.05, 0) with one event of
    zero energy, counted as half a millijoule, and one of 4 J. *)
Definition sample : header * list tbl := (hd_J, [sF; sG; sE]).
Lemma sample_good : good_file sample.
Proof. exists sF, sG, sE. split; [reflexivity|]. split; [discriminate|]. split; [discriminate|]. split; [discriminate|]. split; [exact s_consistent|]. auto. Qed.
Definition total_of (lon lat : Q * Q) (files : list (header * list tbl)) : option Q :=
  match total_energy_in_L2 (@rev Z) flat_nav lon lat files with Ok v => Some (Qred v) | Err _ => None end.
Example C106_ex : total_of (0, 3 # 100)%Q (-(1), 1)%Q [sample; sample] = Some 6000000000%Q /\
  total_of (0, 1)%Q (-(1), 1)%Q [sample; sample] = Some 14001000000%Q /\ total_of (2, 3)%Q (-(1), 1)%Q [sample] = Some 0%Q /\
  with_energies sample /\ no_negative sample /\ off_meridian (3 # 100) sample /\ off_parallel (1 # 2) sample.
Proof.
  split; [vm_compute; reflexivity|]. split; [vm_compute; reflexivity|]. split; [vm_compute; reflexivity|]. split; [|split; [split|split]].
  - intros e H. repeat (destruct H as [<-|H]; [discriminate|]). destruct H.
  - discriminate.
  - intros e v H Hv. repeat (destruct H as [<-|H]; [inversion Hv; discriminate|]). destruct H.
  - intros r v H Hv. repeat (destruct H as [<-|H]; [inversion Hv; discriminate|]). destruct H.
  - intros r v H Hv. repeat (destruct H as [<-|H]; [inversion Hv; discriminate|]). destruct H.
Qed.
(** A flash on the border is in neither part. *)
Example C106_border : total_of (0, 1 # 100)%Q (-(1), 1)%Q [sample] = Some 0%Q /\ total_of (1 # 100, 1)%Q (-(1), 1)%Q [sample] = Some 4000500000%Q /\
  total_of (0, 1)%Q (-(1), 1)%Q [sample] = Some 7000500000%Q.
Proof. split; [vm_compute; reflexivity|]. split; vm_compute; reflexivity. Qed.

(** Two flashes on the grid of the other examples; the grid has their energy. *)
Definition near_file : header * list tbl := (hd_J,
  [[mkRow 7 0 (ob (Some (2 # 100)) (Some 0%Q) None (q1 1000000)); mkRow 8 0 (ob (Some 0%Q) (Some 0%Q) None None)];
   [mkRow 20 7 (ob None None None (q1 2000000)); mkRow 22 8 (ob None None None (q1 5))];
   [mkRow 1 20 (ob (Some (2 # 100)) (Some 0%Q) (q1 1) None); mkRow 3 22 (ob (Some 0%Q) (Some (2 # 100)) (q1 0) None); mkRow 4 22 (ob (Some (2 # 100)) (Some 0%Q) (q1 4) None)]]).
Definition world : Q * Q := (-(1), 1)%Q.
Definition near_ds : list tbl := match glm_open (@rev Z) flat_nav (mkOptions true true true true) (fst near_file) (snd near_file) with Ok (_, ds) => ds | Err _ => [] end.
Example C106_gridded_ex : good_file near_file /\ with_energies near_file /\
  (exists h, glm_open (@rev Z) flat_nav (mkOptions true true true true) (fst near_file) (snd near_file) = Ok (h, near_ds)) /\
  same_flashes (box world world) (box world world) near_ds /\
  (exists g, grid_files (@rev Z) (fun _ => 0) ex_clip ex_tree ex_quad ex_xe ex_ye 7 [near_ds] (Some (box world world)) = Ok g /\ (grid_total (gr_energy g) == 5000500000)%Q) /\
  total_of world world [near_file] = Some 5000500000%Q /\
  exists tables, tables_read (@rev Z) (fun _ => 0) 7 (Some (box world world)) [near_ds] tables /\
  (forall r, In r (List.concat tables) -> let p := ex_quad (lu_x r) (lu_y r) in
      ~ (size p == 0)%Q /\ covered p (cut ex_clip (regular_xy ex_xe ex_ye) p (nearby ex_tree (regular_xy ex_xe ex_ye) p))).
Proof.
  split.
  { do 3 eexists. split; [reflexivity|]. split; [discriminate|]. split; [discriminate|]. split; [discriminate|]. split; [|auto]. split.
    - apply unique3. repeat split; repeat constructor; simpl; intuition discriminate.
    - apply linked_no_orphans. split; intros s Hs; simpl in Hs.
      + destruct Hs as [<-|[<-|[]]]; [eexists; split; [left; reflexivity|reflexivity]|eexists; split; [right; left; reflexivity|reflexivity]].
      + destruct Hs as [<-|[<-|[<-|[]]]]; [eexists; split; [left; reflexivity|reflexivity]|eexists; split; [right; left; reflexivity|reflexivity]|eexists; split; [right; left; reflexivity|reflexivity]]. }
  split. { intros e H. repeat (destruct H as [<-|H]; [discriminate|]). destruct H. }
  split. { eexists. vm_compute. reflexivity. }
  split. { intros r _. tauto. }
  split. { eexists. split; [vm_compute; reflexivity|]. vm_compute. reflexivity. }
  split; [vm_compute; reflexivity|].
  eexists. split.
  - eexists [_]. split; [|cbn [List.concat]; rewrite app_nil_r; reflexivity]. constructor; [|constructor]. right. split; [do 2 eexists; vm_compute; reflexivity|]. eexists. split; [vm_compute; reflexivity|]. constructor; [vm_compute; reflexivity|constructor].
  - intros r Hr. cbn in Hr. repeat (destruct Hr as [<-|Hr]; [split; [vm_compute; discriminate|vm_compute; reflexivity]|]). destruct Hr.
Qed.
