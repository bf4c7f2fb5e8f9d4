(** C107: selections one after the other. *)
From Coq Require Import String List ZArith QArith Bool Lia Permutation.
From Verif Require Import Base BaseProofs Traversal TraversalSpec TraversalProofs Glm GlmSpec GlmProofs GlmProofs2 GlmProofs3 PropGlm Chain ChainSpec.
Import ListNotations.
Open Scope Z_scope.
Local Notation tbl := (table obs).

Lemma step_ok : forall set_order nav h ds q, (glm <- reopen set_order nav h ds ;; subset_flashes set_order (snd glm) q) = subset_flashes set_order ds q.
Proof. reflexivity. Qed.

Lemma nodup_len : forall A (l l' : list A), NoDup l -> NoDup l' -> (forall x, In x l <-> In x l') -> List.length l = List.length l'.
Proof. intros A l l' N N' H. apply Permutation_length. apply NoDup_Permutation; auto. Qed.

Section One.
Variables F G E : tbl.
Hypothesis D : derived_ok F G E.
Variables F2 G2 E2 : tbl.
Variable keep : row obs -> Prop.
Hypothesis D2 : derived_ok F2 G2 E2.
Hypothesis IF : forall f, In f F2 <-> In f F /\ keep f.
Hypothesis IG : forall g, In g G2 <-> In g G /\ exists f, In f F2 /\ rid f = rpid g.
Hypothesis IE : forall e, In e E2 <-> In e E /\ exists g, In g G2 /\ rid g = rpid e.

Lemma groups_same : forall f g, In f F2 -> (In g (with_parent G2 (rid f)) <-> In g (with_parent G (rid f))).
Proof.
  intros f g Hf. unfold with_parent. rewrite !filter_In. rewrite IG. split; [tauto|]. intros [Hg K]. split; [|exact K]. split; [exact Hg|]. exists f. split; [exact Hf|]. apply Z.eqb_eq in K. congruence.
Qed.
Lemma events_same : forall f e, In f F2 -> (In e (flash_events G2 E2 (rid f)) <-> In e (flash_events G E (rid f))).
Proof.
  intros f e Hf. unfold flash_events. rewrite !filter_In, !existsb_exists. split.
  - intros (He & g & Hg & K). split; [apply IE; exact He|]. exists g. split; [apply IG; exact Hg|exact K].
  - intros (He & g & Hg & K). assert (K' := K). apply andb_true_iff in K'. destruct K' as [K1 K2]. apply Z.eqb_eq in K1, K2.
    assert (Hg2 : In g G2) by (apply IG; split; [exact Hg|]; exists f; split; [exact Hf|congruence]).
    split; [apply IE; split; [exact He|]; exists g; split; [exact Hg2|exact K1]|]. exists g. split; [exact Hg2|exact K].
Qed.
(** Selecting whole flashes does not change which flashes a query wants. *)
Lemma wanted_same : forall q f, In f F2 -> (wanted q G2 E2 f <-> wanted q G E f).
Proof.
  intros q f Hf. destruct D as ((U & _) & _). apply unique3 in U. destruct U as (_ & UG & UE). destruct D2 as ((U' & _) & _). apply unique3 in U'. destruct U' as (_ & UG' & UE'). apply NoDup_map_inv in UG, UE, UG', UE'.
  assert (L1 : List.length (flash_events G2 E2 (rid f)) = List.length (flash_events G E (rid f))) by (apply nodup_len; [apply NoDup_filter; auto|apply NoDup_filter; auto|intros e; apply events_same; auto]).
  assert (L2 : List.length (with_parent G2 (rid f)) = List.length (with_parent G (rid f))) by (apply nodup_len; [apply NoDup_filter; auto|apply NoDup_filter; auto|intros e; apply groups_same; auto]).
  unfold wanted. rewrite L1, L2. split; intros (a & b & c & d & e & g & ev & Hev & V); repeat (split; [assumption|]); exists ev; (split; [apply (events_same f ev Hf); exact Hev|exact V]).
Qed.
End One.

Definition wants_all (qs : list query) (G E : tbl) (f : row obs) : Prop := Forall (fun q => wanted q G E f) qs.

Lemma left_spec : forall (keep : row obs -> Prop) F G E F' G' E', derived_ok F' G' E' ->
  (forall f, In f F' <-> In f F /\ keep f) -> (forall g, In g G' <-> In g G /\ exists f, In f F' /\ rid f = rpid g) -> (forall e, In e E' <-> In e E /\ exists g, In g G' /\ rid g = rpid e) ->
  left_of keep F G E [F'; G'; E'].
Proof.
  intros keep F G E F' G' E' ((U & _) & _) IF IG IE. apply unique3 in U. destruct U as (UF & UG & UE). apply NoDup_map_inv in UF, UG, UE.
  exists F', G', E'. split; [reflexivity|]. split; [exact UF|]. split; [exact UG|]. split; [exact UE|]. split; [exact IF|]. split.
  - intros g. rewrite IG. split; intros [Hg (f & K)]; (split; [exact Hg|]); exists f; rewrite IF in *; tauto.
  - intros e. rewrite IE. split.
    + intros [He (g & Hg & K)]. apply IG in Hg. destruct Hg as (Hg & f & Hf & Kf). apply IF in Hf. split; [exact He|]. exists g, f. tauto.
    + intros (He & g & f & Hg & Hf & Kf & E1 & E2). split; [exact He|]. exists g. split; [|exact E2]. apply IG. split; [exact Hg|]. exists f. split; [apply IF; tauto|exact E1].
Qed.
Lemma wanted_nonempty : forall q (G E : tbl) f, wanted q G E f -> exists g e, In g G /\ In e E /\ rid g = rpid e /\ rpid g = rid f.
Proof.
  intros q G E f (_ & _ & _ & _ & _ & _ & e & He & _). apply filter_In in He. destruct He as [He K]. apply existsb_exists in K. destruct K as (g & Hg & K). apply andb_true_iff in K. destruct K as [K1 K2]. apply Z.eqb_eq in K1, K2. exists g, e. auto.
Qed.

(** If some flash is wanted by all of the queries, they can be applied one after the other,
    and what is left are the flashes wanted by all of them, judged on the whole dataset,
    with all their groups and events. *)
Theorem C107_chain : forall set_order, (forall l, Permutation (set_order l) l) ->
  forall nav h (F G E : tbl) qs, derived_ok F G E -> Forall (fun q => q_check q = true) qs -> qs <> [] ->
  (exists f, In f F /\ wants_all qs G E f) ->
  exists sel, select_all set_order nav h [F; G; E] qs = Ok sel /\ left_of (wants_all qs G E) F G E sel.
Proof.
  intros so HP nav h F G E qs D QC NE (f0 & Hf0 & W0).
  assert (GEN : forall qs, Forall (fun q => q_check q = true) qs -> forall F2 G2 E2 keep, derived_ok F2 G2 E2 ->
    (forall f, In f F2 <-> In f F /\ keep f) -> (forall g, In g G2 <-> In g G /\ exists f, In f F2 /\ rid f = rpid g) -> (forall e, In e E2 <-> In e E /\ exists g, In g G2 /\ rid g = rpid e) ->
    keep f0 -> wants_all qs G E f0 ->
    exists F3 G3 E3, select_all so nav h [F2; G2; E2] qs = Ok [F3; G3; E3] /\ derived_ok F3 G3 E3 /\
      (forall f, In f F3 <-> In f F /\ keep f /\ wants_all qs G E f) /\ (forall g, In g G3 <-> In g G /\ exists f, In f F3 /\ rid f = rpid g) /\ (forall e, In e E3 <-> In e E /\ exists g, In g G3 /\ rid g = rpid e)).
  { clear qs QC NE W0. induction qs as [|q qs IH]; intros QC F2 G2 E2 keep D2 IF IG IE K0 W0.
    - exists F2, G2, E2. split; [reflexivity|]. split; [exact D2|]. split; [|split; assumption]. intros f. rewrite IF. split; [intros [a b]; split; [exact a|]; split; [exact b|constructor]|tauto].
    - inversion QC as [|? ? Q1 Q2]; subst. inversion W0 as [|? ? V1 V2]; subst.
      assert (Hf2 : In f0 F2) by (apply IF; auto).
      assert (V1' : wanted q G2 E2 f0) by (apply (wanted_same F G E D F2 G2 E2 D2 IG IE); auto).
      destruct (wanted_nonempty _ _ _ _ V1') as (g0 & e0 & Hg0 & He0 & _).
      destruct (subset_exact so HP F2 G2 E2 q D2) as (F3 & G3 & E3 & HS & JF & JG & JE & D3); [destruct F2; [destruct Hf2|discriminate]|destruct G2; [destruct Hg0|discriminate]|destruct E2; [destruct He0|discriminate]|exact Q1|].
      destruct (IH Q2 F3 G3 E3 (fun f => keep f /\ wanted q G E f)) as (F4 & G4 & E4 & HR & D4 & KF & KG & KE); auto.
      + intros f. rewrite JF, IF. split; [intros [[a b] c]|intros (a & b & c)].
        * split; [exact a|]. split; [exact b|]. apply (wanted_same F G E D F2 G2 E2 D2 IG IE); [apply IF; auto|exact c].
        * split; [auto|]. apply (wanted_same F G E D F2 G2 E2 D2 IG IE); [apply IF; auto|exact c].
      + intros g. rewrite JG, IG. split; [intros [[a _] c]; auto|]. intros [a (f & Hf & c)]. split; [|eauto]. split; [exact a|]. exists f. split; [apply JF in Hf; tauto|exact c].
      + intros e. rewrite JE, IE. split; [intros [[a _] c]; auto|]. intros [a (g & Hg & c)]. split; [|eauto]. split; [exact a|]. exists g. split; [apply JG in Hg; tauto|exact c].
      + exists F4, G4, E4. split; [|split; [exact D4|split; [|split; assumption]]].
        * unfold select_all. cbn [fold_res]. rewrite step_ok, HS. cbn [bind]. exact HR.
        * intros f. rewrite KF. split; [intros (a & (b & c) & d); split; [exact a|]; split; [exact b|constructor; auto]|intros (a & b & c); inversion c; subst; auto]. }
  destruct D as ((U & O) & D'). assert (D : derived_ok F G E) by (split; [split; assumption|exact D']).
  apply linked_no_orphans in O. destruct O as [L1 L2].
  destruct (GEN qs QC F G E (fun _ => True) D) as (F3 & G3 & E3 & HS & D3 & IF & IG & IE); auto.
  - tauto.
  - intros g. split; [intros Hg; split; [exact Hg|]; apply L1; exact Hg|tauto].
  - intros e. split; [intros He; split; [exact He|]; apply L2; exact He|tauto].
  - exists [F3; G3; E3]. split; [exact HS|]. apply left_spec; auto. intros f. rewrite IF. tauto.
Qed.
Print Assumptions C107_chain.

Lemma left_same : forall (keep keep' : row obs -> Prop) F G E a b, (forall f, In f F -> (keep f <-> keep' f)) -> left_of keep F G E a -> left_of keep' F G E b -> same_selection a b.
Proof.
  intros keep keep' F G E a b K (F1 & G1 & E1 & -> & NF & NG & NE & IF & IG & IE) (F2 & G2 & E2 & -> & NF' & NG' & NE' & IF' & IG' & IE').
  constructor; [|constructor; [|constructor; [|constructor]]].
  - apply NoDup_Permutation; auto. intros f. rewrite IF, IF'. split; intros [a b]; (split; [exact a|]); apply (K f a); exact b.
  - apply NoDup_Permutation; auto. intros g. rewrite IG, IG'. split; intros (a & f & b & c & d); (split; [exact a|]); exists f; (split; [exact b|]); (split; [apply (K f b); exact c|exact d]).
  - apply NoDup_Permutation; auto. intros e. rewrite IE, IE'. split; intros (a & g & f & b & c & d & r); (split; [exact a|]); exists g, f; (split; [exact b|]); (split; [exact c|]); (split; [apply (K f c); exact d|exact r]).
Qed.

(** The order of the selections does not matter, nor does repeating one. *)
Theorem C107_any_order : forall set_order, (forall l, Permutation (set_order l) l) ->
  forall nav h (F G E : tbl) qs qs', derived_ok F G E -> Forall (fun q => q_check q = true) qs -> qs <> [] ->
  (forall q, In q qs <-> In q qs') -> (exists f, In f F /\ wants_all qs G E f) ->
  exists sel sel', select_all set_order nav h [F; G; E] qs = Ok sel /\ select_all set_order nav h [F; G; E] qs' = Ok sel' /\ same_selection sel sel'.
Proof.
  intros so HP nav h F G E qs qs' D QC NE EQ (f0 & Hf0 & W0).
  assert (NE' : qs' <> []) by (intros ->; destruct qs as [|q qs]; [congruence|]; destruct (proj1 (EQ q) (or_introl eq_refl))).
  assert (WW : forall f, wants_all qs G E f <-> wants_all qs' G E f) by (intros f; unfold wants_all; rewrite !Forall_forall; split; intros H q Hq; apply H; apply EQ; exact Hq).
  assert (QC' : Forall (fun q => q_check q = true) qs') by (rewrite Forall_forall in *; intros q Hq; apply QC; apply EQ; exact Hq).
  destruct (C107_chain so HP nav h F G E qs D QC NE) as (sel & HS & L); [eauto|]. destruct (C107_chain so HP nav h F G E qs' D QC' NE') as (sel' & HS' & L'); [exists f0; split; [exact Hf0|apply WW; exact W0]|].
  exists sel, sel'. split; [exact HS|]. split; [exact HS'|]. apply (left_same (wants_all qs G E) (wants_all qs' G E) F G E); auto.
Qed.
Print Assumptions C107_any_order.

Lemma both_strictly : forall a b v, (forall r, both_ranges a b = Some r -> strictly r v) <-> (forall r, a = Some r -> strictly r v) /\ (forall r, b = Some r -> strictly r v).
Proof.
  intros a b v. destruct a as [[x y]|]; destruct b as [[x' y']|]; cbn [both_ranges].
  - split.
    + intros H. destruct (H _ eq_refl) as (w & -> & L & R). cbn [fst snd] in *. split; intros r K; inversion K; subst r; exists w; (split; [reflexivity|]); cbn [fst snd]; destruct (Qlt_le_dec x x'), (Qlt_le_dec y y'); split; auto;
      first [apply Qlt_trans with x'; assumption|apply Qle_lt_trans with x; assumption|apply Qlt_trans with y; assumption|apply Qlt_le_trans with y'; assumption].
    + intros [H1 H2] r K. inversion K; subst r. destruct (H1 _ eq_refl) as (w & -> & L & R). destruct (H2 _ eq_refl) as (w' & EQ & L' & R'). inversion EQ; subst w'. exists w. cbn [fst snd] in *. split; [reflexivity|].
      destruct (Qlt_le_dec x x'), (Qlt_le_dec y y'); auto.
  - split; [intros H; split; [exact H|discriminate]|tauto].
  - split; [intros H; split; [discriminate|exact H]|tauto].
  - split; [intros _; split; discriminate|discriminate].
Qed.
Lemma both_atleast : forall a b n, (forall m, both_minima a b = Some m -> m <= n) <-> (forall m, a = Some m -> m <= n) /\ (forall m, b = Some m -> m <= n).
Proof.
  intros [a|] [b|] n; cbn [both_minima].
  - split; [intros H; specialize (H _ eq_refl); split; intros m K; inversion K; subst; lia|intros [H1 H2] m K; inversion K; subst; specialize (H1 _ eq_refl); specialize (H2 _ eq_refl); lia].
  - split; [intros H; split; [exact H|discriminate]|tauto].
  - split; [intros H; split; [discriminate|exact H]|tauto].
  - split; [intros _; split; discriminate|discriminate].
Qed.
(** Two selections are one with the ranges intersected, when at most one of them has a
    range on the fixed grid. *)
Theorem C107_combined_partial : forall set_order, (forall l, Permutation (set_order l) l) ->
  forall nav h (F G E : tbl) q q', derived_ok F G E -> q_check q = true -> q_check q' = true -> q_x q' = None -> q_y q' = None ->
  (exists f, In f F /\ wanted q G E f /\ wanted q' G E f) ->
  exists sel sel', select_all set_order nav h [F; G; E] [q; q'] = Ok sel /\ subset_flashes set_order [F; G; E] (both q q') = Ok sel' /\ same_selection sel sel'.
Proof.
  intros so HP nav h F G E q q' D Q1 Q2 X Y (f0 & Hf0 & W & W').
  assert (EQ : forall f, wanted (both q q') G E f <-> wanted q G E f /\ wanted q' G E f).
  { intros f. unfold wanted, both. cbn [q_x q_y q_lon q_lat q_min_events q_min_groups]. rewrite !both_strictly, !both_atleast.
    assert (VE : forall e, (forall r, both_ranges (q_x q) (q_x q') = Some r -> strictly r (o_x (rdat e))) <-> (forall r, q_x q = Some r -> strictly r (o_x (rdat e)))) by (intros e; rewrite both_strictly, X; split; [tauto|intros; split; [assumption|discriminate]]).
    assert (VY : forall e, (forall r, both_ranges (q_y q) (q_y q') = Some r -> strictly r (o_y (rdat e))) <-> (forall r, q_y q = Some r -> strictly r (o_y (rdat e)))) by (intros e; rewrite both_strictly, Y; split; [tauto|intros; split; [assumption|discriminate]]).
    split.
    - intros (a & b & c & d & m & n & e & He & f1 & f2 & vx & vy). pose proof (proj1 (VE e) vx) as vx'. pose proof (proj1 (VY e) vy) as vy'. split; repeat (split; [tauto|]).
      + exists e. auto.
      + exists e. split; [exact He|]. split; [exact f1|]. split; [exact f2|]. rewrite X, Y. split; discriminate.
    - intros ((a & b & c & d & m & n & e & He & f1 & f2 & vx & vy) & (a' & b' & c' & d' & m' & n' & _)). repeat (split; [tauto|]). exists e. split; [exact He|]. split; [exact f1|]. split; [exact f2|]. split; [exact (proj2 (VE e) vx)|exact (proj2 (VY e) vy)]. }
  destruct (C107_chain so HP nav h F G E [q; q'] D) as (sel & HS & L); [auto|discriminate|exists f0; split; [exact Hf0|constructor; [exact W|constructor; [exact W'|constructor]]]|].
  assert (QB : q_check (both q q') = true) by (unfold both; cbn; rewrite Q1, Q2; reflexivity).
  destruct (C107_chain so HP nav h F G E [both q q'] D) as (sel' & HS' & L'); [auto|discriminate|exists f0; split; [exact Hf0|constructor; [apply EQ; auto|constructor]]|].
  exists sel, sel'. split; [exact HS|]. split; [|apply (left_same (wants_all [q; q'] G E) (wants_all [both q q'] G E) F G E); auto].
  - unfold select_all in HS'. cbn [fold_res] in HS'. rewrite step_ok in HS'. destruct (subset_flashes so [F; G; E] (both q q')); [exact HS'|discriminate HS'].
  - intros f _. unfold wants_all. split.
    + intros K. inversion K as [|? ? K1 K2]; subst. inversion K2; subst. constructor; [apply EQ; auto|constructor].
    + intros K. inversion K as [|? ? K1 K2]; subst. apply EQ in K1. destruct K1. constructor; [assumption|constructor; [assumption|constructor]].
Qed.
Print Assumptions C107_combined_partial.

(** With fixed grid ranges in both, one selection asks for an event in both ranges at once,
    two selections for one event in each. *)
Definition strip (a b : Q) : query := mkQuery None None (Some (a, b)) None true None None.
Definition oxy (x y : Q) (fl : Z) (nc ne : nat) : obs := mkObs None None None None (Some x) (Some y) fl nc ne.
Definition wide : list tbl :=
  [[mkRow 1 0 (oxy (1 # 100) 0 0 1 2)]; [mkRow 5 1 (oxy (1 # 100) 0 0 2 0)]; [mkRow 8 5 (oxy (-(1 # 200)) 0 1 0 0); mkRow 9 5 (oxy (5 # 200) 0 1 0 0)]]%Q.
Lemma wide_ok : derived_ok (nth 0 wide []) (nth 1 wide []) (nth 2 wide []).
Proof.
  split; [split|split; [|split]].
  - apply unique3. repeat split; repeat constructor; simpl; intuition discriminate.
  - apply linked_no_orphans. split; intros s Hs; simpl in Hs; [destruct Hs as [<-|[]]|destruct Hs as [<-|[<-|[]]]]; eexists; (split; [left; reflexivity|reflexivity]).
  - intros e [<-|[<-|[]]]; eexists; (split; [left; reflexivity|split; reflexivity]).
  - intros g [<-|[]]; reflexivity.
  - intros f [<-|[]]; split; reflexivity.
Qed.
Theorem C107_combined_refuted : ~ (forall set_order, (forall l, Permutation (set_order l) l) ->
  forall nav h (F G E : tbl) q q' sel sel', derived_ok F G E -> q_check q = true -> q_check q' = true ->
  (exists f, In f F /\ wanted q G E f /\ wanted q' G E f) ->
  select_all set_order nav h [F; G; E] [q; q'] = Ok sel -> subset_flashes set_order [F; G; E] (both q q') = Ok sel' -> same_selection sel sel').
Proof.
  intros H.
  assert (K : same_selection wide [[]; []; []]).
  { apply (H (fun l => l) (fun l => Permutation_refl l) flat_nav hd_J (nth 0 wide []) (nth 1 wide []) (nth 2 wide []) (strip (-(1 # 100)) (2 # 100)) (strip 0 (3 # 100))); [exact wide_ok|reflexivity|reflexivity| |vm_compute; reflexivity|vm_compute; reflexivity].
    exists (mkRow 1 0 (oxy (1 # 100) 0 0 1 2)). split; [left; reflexivity|].
    split; unfold wanted, strip; cbn [q_x q_y q_lon q_lat q_min_events q_min_groups].
    - split; [intros r K; inversion K; subst; eexists; split; [reflexivity|split; reflexivity]|]. do 5 (split; [discriminate|]). exists (mkRow 8 5 (oxy (-(1 # 200)) 0 1 0 0)). split; [left; reflexivity|].
      split; [eexists; split; [reflexivity|split; reflexivity]|]. split; [eexists; split; [reflexivity|split; reflexivity]|]. split; [intros r K; inversion K; subst; eexists; split; [reflexivity|split; reflexivity]|discriminate].
    - split; [intros r K; inversion K; subst; eexists; split; [reflexivity|split; reflexivity]|]. do 5 (split; [discriminate|]). exists (mkRow 9 5 (oxy (5 # 200) 0 1 0 0)). split; [right; left; reflexivity|].
      split; [eexists; split; [reflexivity|split; reflexivity]|]. split; [eexists; split; [reflexivity|split; reflexivity]|]. split; [intros r K; inversion K; subst; eexists; split; [reflexivity|split; reflexivity]|discriminate]. }
  inversion K as [|? ? ? ? P _]; subst. apply Permutation_sym, Permutation_nil in P. discriminate.
Qed.
Print Assumptions C107_combined_refuted.

(** When a selection leaves nothing, the next one raises, although asking for both at once
    gives an empty dataset. *)
Theorem C107_nothing_left_refuted : forall set_order, (forall l, Permutation (set_order l) l) ->
  forall nav h (F G E : tbl) q q', derived_ok F G E -> F <> [] -> G <> [] -> E <> [] -> q_check q = true -> q_check q' = true ->
  q_x q' = None -> q_y q' = None -> (forall f, In f F -> ~ wanted q G E f) ->
  select_all set_order nav h [F; G; E] [q; q'] = Err AttributeError /\ subset_flashes set_order [F; G; E] (both q q') = Ok [[]; []; []].
Proof.
  intros so HP nav h F G E q q' D nF nG nE Q1 Q2 X Y NO.
  assert (EMP : forall q0, q_check q0 = true -> (forall f, In f F -> ~ wanted q0 G E f) -> subset_flashes so [F; G; E] q0 = Ok [[]; []; []]).
  { intros q0 HQ N0. destruct (subset_exact so HP F G E q0 D nF nG nE HQ) as (F2 & G2 & E2 & HS & IF & IG & IE & _). rewrite HS.
    assert (F2 = []) as -> by (destruct F2 as [|f F2]; [reflexivity|]; destruct (proj1 (IF f) (or_introl eq_refl)) as [a b]; destruct (N0 f a b)).
    assert (G2 = []) as -> by (destruct G2 as [|g G2]; [reflexivity|]; destruct (proj1 (IG g) (or_introl eq_refl)) as [_ (f & [] & _)]).
    assert (E2 = []) as -> by (destruct E2 as [|e E2]; [reflexivity|]; destruct (proj1 (IE e) (or_introl eq_refl)) as [_ (f & [] & _)]). reflexivity. }
  split.
  - unfold select_all. cbn [fold_res]. rewrite !step_ok, (EMP q Q1 NO). cbn [bind]. rewrite step_ok. rewrite (C12_subset_of_empty_raises so [] [] [] q' (or_introl eq_refl) Q2). reflexivity.
  - apply EMP; [unfold both; cbn; rewrite Q1, Q2; reflexivity|]. intros f Hf W. apply (NO f Hf). unfold wanted, both in *. cbn [q_x q_y q_lon q_lat q_min_events q_min_groups] in W. rewrite !both_strictly, !both_atleast in W.
    destruct W as (a & b & c & d & m & n & e & He & f1 & f2 & vx & vy). repeat (split; [tauto|]). exists e. split; [exact He|]. split; [exact f1|]. split; [exact f2|].
    split; [exact (proj1 (proj1 (both_strictly _ _ _) vx))|exact (proj1 (proj1 (both_strictly _ _ _) vy))].
Qed.
Print Assumptions C107_nothing_left_refuted.

(** * The hypotheses are met *)
Definition two : query := mkQuery None None None None true (Some 2) None.
Definition three : query := mkQuery None None None None true (Some 3) None.
Lemma wide_wanted : wants_all [strip (-(1 # 100)) (2 # 100); strip 0 (3 # 100); two] (nth 1 wide []) (nth 2 wide []) (mkRow 1 0 (oxy (1 # 100) 0 0 1 2)).
Proof.
  constructor; [|constructor; [|constructor; [|constructor]]]; unfold wanted, strip; cbn [q_x q_y q_lon q_lat q_min_events q_min_groups two].
  - split; [intros r K; inversion K; subst; eexists; split; [reflexivity|split; reflexivity]|]. do 5 (split; [discriminate|]). exists (mkRow 8 5 (oxy (-(1 # 200)) 0 1 0 0)). split; [left; reflexivity|].
    split; [eexists; split; [reflexivity|split; reflexivity]|]. split; [eexists; split; [reflexivity|split; reflexivity]|]. split; [intros r K; inversion K; subst; eexists; split; [reflexivity|split; reflexivity]|discriminate].
  - split; [intros r K; inversion K; subst; eexists; split; [reflexivity|split; reflexivity]|]. do 5 (split; [discriminate|]). exists (mkRow 9 5 (oxy (5 # 200) 0 1 0 0)). split; [right; left; reflexivity|].
    split; [eexists; split; [reflexivity|split; reflexivity]|]. split; [eexists; split; [reflexivity|split; reflexivity]|]. split; [intros r K; inversion K; subst; eexists; split; [reflexivity|split; reflexivity]|discriminate].
  - do 4 (split; [discriminate|]). split; [intros m K; inversion K; subst; vm_compute; discriminate|]. split; [discriminate|]. exists (mkRow 9 5 (oxy (5 # 200) 0 1 0 0)). split; [right; left; reflexivity|].
    split; [eexists; split; [reflexivity|split; reflexivity]|]. split; [eexists; split; [reflexivity|split; reflexivity]|]. split; discriminate.
Qed.
Example C107_ex : derived_ok (nth 0 wide []) (nth 1 wide []) (nth 2 wide []) /\
  select_all (@rev Z) flat_nav hd_J wide [strip (-(1 # 100)) (2 # 100); strip 0 (3 # 100); two] = Ok wide /\
  select_all (@rev Z) flat_nav hd_J wide [two; strip 0 (3 # 100); strip (-(1 # 100)) (2 # 100); two] = Ok wide /\
  subset_flashes (@rev Z) wide (both (strip 0 (3 # 100)) two) = Ok wide /\
  select_all (@rev Z) flat_nav hd_J wide [three] = Ok [[]; []; []] /\ select_all (@rev Z) flat_nav hd_J wide [three; two] = Err AttributeError.
Proof. split; [exact wide_ok|]. split; [vm_compute; reflexivity|]. split; [vm_compute; reflexivity|]. split; [vm_compute; reflexivity|]. split; vm_compute; reflexivity. Qed.
Example C107_nothing_wanted : forall f, In f (nth 0 wide []) -> ~ wanted three (nth 1 wide []) (nth 2 wide []) f.
Proof. intros f [<-|[]] (_ & _ & _ & _ & H & _). specialize (H 3 eq_refl). vm_compute in H. apply H. reflexivity. Qed.
