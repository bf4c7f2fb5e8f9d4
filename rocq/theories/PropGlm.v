(** Properties C09-C15: opening GLM level 2 files and selecting flashes
    (class GLMDataset of glmtools/io/glm.py).  A dataset is the list of its flash,
    group and event tables.  [set_order] is the iteration order of Python sets and
    [nav] the fixed grid navigation of the file; both are arbitrary. *)
From Coq Require Import List ZArith QArith Bool String Lia Sorting.Sorted Permutation.
From Verif Require Import Base BaseProofs Traversal TraversalSpec TraversalProofs TraversalProofs2
  TraversalProofs3 TraversalProofs4 Glm GlmSpec GlmProofs GlmProofs2 GlmProofs3 GlmProofs4.
Import ListNotations.
Open Scope Z_scope.

Local Notation tbl := (table obs).

(** * Sample data *)
Definition ob (lon lat e a : fval) : obs := mkObs lon lat e a None None 0 0 0.
Definition q1 (n : Z) : fval := Some (inject_Z n).
Definition hd_J : header :=
  mkHeader "J" "J" "J" "m2" "m2" 0 (1 # 1000) 0 1 (65535 # 1) 0 1 (65535 # 1).
Definition all_on : options := mkOptions true true true true.
Definition flat_nav : fval -> fval -> fval * fval := fun a b => (a, b).
(** Two flashes, three groups, four events; flash 8 has a missing area, event 3
    has zero energy. *)
Definition sF : tbl := [mkRow 7 0 (ob (Some (1 # 100)) (Some 0%Q) (q1 3) (q1 1000000));
                        mkRow 8 0 (ob (Some (5 # 100)) (Some 0%Q) (q1 4) None)].
Definition sG : tbl := [mkRow 20 7 (ob None None (q1 1) (q1 2000000)); mkRow 21 7 (ob None None (q1 2) None);
                        mkRow 22 8 (ob None None (q1 4) (q1 5))].
Definition sE : tbl := [mkRow 1 20 (ob (Some (1 # 100)) (Some 0%Q) (q1 1) None);
                        mkRow 2 21 (ob (Some (2 # 10)) (Some 0%Q) (q1 2) None);
                        mkRow 3 22 (ob (Some (5 # 100)) (Some 0%Q) (q1 0) None);
                        mkRow 4 22 (ob (Some (6 # 100)) (Some (1 # 100)) (q1 4) None)].

Lemma s_consistent : consistent [sF; sG; sE].
Proof.
  split.
  - apply unique3. repeat split; repeat constructor; simpl; intuition discriminate.
  - apply linked_no_orphans. split; intros s Hs; simpl in Hs.
    + destruct Hs as [<-|[<-|[<-|[]]]];
      [exists (nth 0 sF (mkRow 0 0 (ob None None None None)))|exists (nth 0 sF (mkRow 0 0 (ob None None None None)))
      |exists (nth 1 sF (mkRow 0 0 (ob None None None None)))]; simpl; auto.
    + destruct Hs as [<-|[<-|[<-|[<-|[]]]]];
      [exists (nth 0 sG (mkRow 0 0 (ob None None None None)))|exists (nth 1 sG (mkRow 0 0 (ob None None None None)))
      |exists (nth 2 sG (mkRow 0 0 (ob None None None None)))|exists (nth 2 sG (mkRow 0 0 (ob None None None None)))];
      simpl; auto 6.
Qed.

(** * C09: repairing the tree *)
Definition links (T : tbl) : list (Z * Z) := map (fun r => (rid r, rpid r)) T.

Lemma conv_links : forall en ar T T', Forall2 (converted en ar) T T' -> links T' = links T.
Proof.
  intros en ar T T' H. symmetry. unfold links. eapply F2_map; [exact H|].
  intros a b Hab. destruct Hab as (-> & -> & _). reflexivity.
Qed.

Lemma F2_impl : forall A B (R S : A -> B -> Prop) l l',
  (forall a b, R a b -> S a b) -> Forall2 R l l' -> Forall2 S l l'.
Proof. intros A B R S l l' H; induction 1 as [|a b l l' Hab _ IH]; constructor; auto. Qed.

Lemma in_links : forall T i p, In (i, p) (links T) <-> exists r, In r T /\ rid r = i /\ rpid r = p.
Proof.
  intros. unfold links. rewrite in_map_iff. split.
  - intros [r [E Hr]]. inversion E. eauto.
  - intros (r & Hr & <- & <-). eauto.
Qed.

(** Opening with check_tree keeps all groups, the flashes some group names and
    the events whose group exists, and nothing else; so no flash lacks groups and no
    event lacks its group.  [_partial]: groups without flash and groups without
    events are kept (see the refutation below), so the tree as a whole need not be
    consistent. *)
Theorem C09_open_prunes_exactly_partial :
  forall set_order, (forall l, Permutation (set_order l) l) ->
  forall nav op h (F G E : tbl) h' ds', check_tree op = true ->
  glm_open set_order nav op h [F; G; E] = Ok (h', ds') ->
  exists F' G' E', ds' = [F'; G'; E'] /\
    Permutation (links G') (links G) /\
    (forall i p, In (i, p) (links F') <-> In (i, p) (links F) /\ In i (map rpid G)) /\
    (forall i p, In (i, p) (links E') <-> In (i, p) (links E) /\ In p (map rid G)) /\
    fertile F' G' /\ linked G' E'.
Proof.
  intros so sp nav op h F G E h' ds' Hc H.
  pose proof (open_converted so nav op h F G E h' ds' H) as
    (_ & _ & F0 & G0 & E0 & F' & G' & E' & Hr & -> & CF & CG & CE).
  rewrite Hc in Hr.
  destruct F as [|f F]; [rewrite repair_empty in Hr by (simpl; auto); discriminate|].
  destruct G as [|g G]; [rewrite repair_empty in Hr by (simpl; auto); discriminate|].
  destruct E as [|e E]; [rewrite repair_empty in Hr by (simpl; auto); discriminate|].
  destruct (repair_exact so sp (f :: F) (g :: G) (e :: E)) as (F1 & G1 & E1 & R & PG & HF & HE & _);
    try discriminate.
  rewrite R in Hr. inversion Hr; subst F1 G1 E1; clear Hr R.
  remember (f :: F) as FF. remember (g :: G) as GG. remember (e :: E) as EE.
  apply conv_links in CF. apply conv_links in CG. apply conv_links in CE.
  assert (PG' : Permutation (links G') (links GG)).
  { rewrite CG. unfold links. apply Permutation_map. exact PG. }
  assert (KF : forall i p, In (i, p) (links F') <-> In (i, p) (links FF) /\ In i (map rpid GG)).
  { intros i p. rewrite CF, !in_links. split.
    - intros (r & Hr & Hi & Hp). apply HF in Hr. destruct Hr as [Hr (g1 & Hg & Eg)].
      split; [eauto|]. apply in_map_iff. exists g1. split; [congruence|auto].
    - intros [(r & Hr & Hi & Hp) Hin]. apply in_map_iff in Hin. destruct Hin as (g1 & Eg & Hg).
      exists r. split; auto. apply HF. split; auto. exists g1. split; [auto|congruence]. }
  assert (KE : forall i p, In (i, p) (links E') <-> In (i, p) (links EE) /\ In p (map rid GG)).
  { intros i p. rewrite CE, !in_links. split.
    - intros (r & Hr & Hi & Hp). apply HE in Hr. destruct Hr as [Hr (g1 & Hg & Eg)].
      split; [eauto|]. apply in_map_iff. exists g1. split; [congruence|auto].
    - intros [(r & Hr & Hi & Hp) Hin]. apply in_map_iff in Hin. destruct Hin as (g1 & Eg & Hg).
      exists r. split; auto. apply HE. split; auto. exists g1. split; [auto|congruence]. }
  exists F', G', E'. split; [reflexivity|]. split; [exact PG'|]. split; [exact KF|]. split; [exact KE|].
  split.
  - intros r Hr.
    assert (K : In (rid r, rpid r) (links F')) by (apply in_links; eauto).
    apply KF in K. destruct K as [_ K]. apply in_map_iff in K. destruct K as (g1 & Eg & Hg).
    assert (K : In (rid g1, rpid g1) (links G')).
    { eapply Permutation_in; [apply Permutation_sym; exact PG'|]. apply in_links; eauto. }
    apply in_links in K. destruct K as (g2 & Hg2 & _ & E2). exists g2. split; [auto|congruence].
  - intros s Hs.
    assert (K : In (rid s, rpid s) (links E')) by (apply in_links; eauto).
    apply KE in K. destruct K as [_ K]. apply in_map_iff in K. destruct K as (g1 & Eg & Hg).
    assert (K : In (rid g1, rpid g1) (links G')).
    { eapply Permutation_in; [apply Permutation_sym; exact PG'|]. apply in_links; eauto. }
    apply in_links in K. destruct K as (g2 & Hg2 & E2 & _). exists g2. split; [auto|congruence].
Qed.
Print Assumptions C09_open_prunes_exactly_partial.

(** If every group names an existing flash and has an event, the opened tree is
    fully consistent, in the sense of C06, and has no childless row. *)
Theorem C09_open_self_consistent_partial :
  forall set_order, (forall l, Permutation (set_order l) l) ->
  forall nav op h (F G E : tbl) h' ds', check_tree op = true ->
  unique_ids [F; G; E] -> linked F G -> fertile G E ->
  glm_open set_order nav op h [F; G; E] = Ok (h', ds') ->
  exists F' G' E', ds' = [F'; G'; E'] /\ consistent [F'; G'; E'] /\ fertile F' G' /\ fertile G' E'.
Proof.
  intros so sp nav op h F G E h' ds' Hc U L Fe H.
  pose proof (C09_open_prunes_exactly_partial so sp nav op h F G E h' ds' Hc H) as
    (F' & G' & E' & Eds & PG & KF & KE & FF & LE).
  pose proof (open_converted so nav op h F G E h' ds' H) as
    (_ & _ & F0 & G0 & E0 & F1 & G1 & E1 & Hr & E2 & CF & CG & CE).
  rewrite Hc in Hr.
  destruct F as [|f F]; [rewrite repair_empty in Hr by (simpl; auto); discriminate|].
  destruct G as [|g G]; [rewrite repair_empty in Hr by (simpl; auto); discriminate|].
  destruct E as [|e E]; [rewrite repair_empty in Hr by (simpl; auto); discriminate|].
  destruct (repair_exact so sp (f :: F) (g :: G) (e :: E)) as (A & B & C & R & _ & _ & _ & NF & NE);
    try discriminate.
  rewrite R in Hr. inversion Hr; subst A B C; clear Hr R.
  remember (f :: F) as FF'. remember (g :: G) as GG. remember (e :: E) as EE.
  rewrite Eds in E2. inversion E2; subst F1 G1 E1.
  apply unique3 in U. destruct U as (U1 & U2 & U3).
  assert (Lk : forall T T', links T = links T' -> map rid T = map rid T').
  { intros T T' K. assert (map fst (links T) = map fst (links T')) by congruence.
    unfold links in H0. rewrite !map_map in H0. exact H0. }
  assert (Gin : forall g1, In g1 GG -> exists g2, In g2 G' /\ rid g2 = rid g1 /\ rpid g2 = rpid g1).
  { intros g1 Hg. apply in_links. eapply Permutation_in; [apply Permutation_sym; exact PG|].
    apply in_links; eauto. }
  assert (Gin' : forall g2, In g2 G' -> exists g1, In g1 GG /\ rid g1 = rid g2 /\ rpid g1 = rpid g2).
  { intros g1 Hg. apply in_links. eapply Permutation_in; [exact PG|]. apply in_links; eauto. }
  exists F', G', E'. split; [exact Eds|].
  apply conv_links in CF. apply conv_links in CG. apply conv_links in CE.
  split; [split|split].
  - apply unique3. rewrite (Lk _ _ CF), (Lk _ _ CE). split; [auto|]. split; [|auto].
    assert (P : Permutation (map rid GG) (map rid G')).
    { apply Permutation_sym. apply (Permutation_map fst) in PG. unfold links in PG.
      rewrite !map_map in PG. exact PG. }
    eapply Permutation_NoDup; [exact P|exact U2].
  - apply linked_no_orphans. split; [|exact LE].
    intros s Hs. destruct (Gin' s Hs) as (g1 & Hg & E3 & E4).
    destruct (L g1 Hg) as (f1 & Hf & E5).
    assert (K : In (rid f1, rpid f1) (links F')).
    { apply KF. split; [apply in_links; eauto|]. apply in_map_iff. exists g1. split; congruence. }
    apply in_links in K. destruct K as (f2 & Hf2 & E6 & _). exists f2. split; [auto|congruence].
  - exact FF.
  - intros r Hr. destruct (Gin' r Hr) as (g1 & Hg & E3 & _).
    destruct (Fe g1 Hg) as (e1 & He & E4).
    assert (K : In (rid e1, rpid e1) (links E')).
    { apply KE. split; [apply in_links; eauto|]. apply in_map_iff. exists g1. split; congruence. }
    apply in_links in K. destruct K as (e2 & He2 & _ & E6). exists e2. split; [auto|congruence].
Qed.
Print Assumptions C09_open_self_consistent_partial.

(** A tree without broken links is opened row for row in the order of the file. *)
Theorem C09_intact_tree_untouched :
  forall set_order, (forall l, Permutation (set_order l) l) -> forall nav op h (F G E : tbl) h' ds',
  fertile F G -> fertile G E -> linked F G -> linked G E ->
  glm_open set_order nav op h [F; G; E] = Ok (h', ds') ->
  map links ds' = map links [F; G; E].
Proof.
  intros so sp nav op h F G E h' ds' f1 f2 l1 l2 H.
  pose proof (open_converted so nav op h F G E h' ds' H) as
    (_ & _ & F0 & G0 & E0 & F1 & G1 & E1 & Hr & -> & CF & CG & CE).
  apply conv_links in CF. apply conv_links in CG. apply conv_links in CE.
  assert (K : [F0; G0; E0] = [F; G; E]).
  { destruct (check_tree op); [|inversion Hr; auto].
    destruct F as [|f F]; [rewrite repair_empty in Hr by (simpl; auto); discriminate|].
    destruct G as [|g G]; [rewrite repair_empty in Hr by (simpl; auto); discriminate|].
    destruct E as [|e E]; [rewrite repair_empty in Hr by (simpl; auto); discriminate|].
    rewrite repair_untouched in Hr; auto; try discriminate. inversion Hr; auto. }
  inversion K; subst. simpl. rewrite CF, CG, CE. reflexivity.
Qed.
Print Assumptions C09_intact_tree_untouched.

(** Whatever links are broken, opening succeeds when ids are unique and at least
    one flash has a group and one event has a group. *)
Theorem C09_open_broken_succeeds :
  forall set_order, (forall l, Permutation (set_order l) l) ->
  forall nav op h (F G E : tbl), check_tree op = true -> unique_ids [F; G; E] ->
  (opt_energy op = true ->
     u_flash_energy h = "J" /\ u_group_energy h = "J" /\ u_event_energy h = "J")%string ->
  (exists f g, In f F /\ In g G /\ rpid g = rid f) ->
  (exists g e, In g G /\ In e E /\ rpid e = rid g) ->
  exists ds', glm_open set_order nav op h [F; G; E] = Ok (header_out op h, ds').
Proof.
  intros so sp nav op h F G E Hc U Hu (f & g & Hf & Hg & Efg) (g1 & e & Hg1 & He & Eeg).
  assert (F <> [] /\ G <> [] /\ E <> []) as (n1 & n2 & n3)
    by (split; [|split]; intros K; subst; simpl in *; contradiction).
  destruct (repair_exact so sp F G E n1 n2 n3) as (F' & G' & E' & R & PG & HF & HE & NF & NE).
  apply unique3 in U. destruct U as (U1 & U2 & U3).
  assert (In f F') by (apply HF; eauto).
  assert (In e E') by (apply HE; eauto).
  assert (In g G') by (eapply Permutation_in; [apply Permutation_sym; exact PG|exact Hg]).
  rewrite open_rest, Hc, R. cbn [bind].
  destruct (calculate_parent_child op) eqn:Ecp.
  - destruct (rest_ok nav op h F' G' E') as (a & b & c & K & _); auto.
    1,2,3: intros K; subst; simpl in *; contradiction.
    + eapply Permutation_NoDup; [apply Permutation_sym, Permutation_map; exact PG|exact U2].
    + intros s Hs. apply HE in Hs. destruct Hs as [_ (g2 & Hg2 & E2)]. exists g2.
      split; [|auto]. eapply Permutation_in; [apply Permutation_sym; exact PG|exact Hg2].
    + eauto.
  - unfold glm_rest. rewrite Ecp. cbn [bind].
    destruct op as [oc oa oe ot]. destruct h as [ufe uge uee ufa uga eo es fo fs ff go gs gf].
    cbn [opt_energy opt_area] in *.
    destruct oe; [destruct (Hu eq_refl) as (V1 & V2 & V3); cbn in V1, V2, V3; subst|];
    destruct oa; cbn -[map]; unfold header_out; cbn -[map]; eexists; reflexivity.
Qed.
Print Assumptions C09_open_broken_succeeds.

(** Refutation of the claim that the opened tree is self-consistent: group 21 names
    the missing flash 9, group 22 has no event; flash 8 has no group; event 3 has no
    group.  Opening drops flash 8 and event 3 and keeps both groups. *)
Definition bF : tbl := [mkRow 7 0 (ob None None (q1 3) (q1 1)); mkRow 8 0 (ob None None (q1 3) (q1 1))].
Definition bG : tbl := [mkRow 20 7 (ob None None (q1 3) (q1 1)); mkRow 21 9 (ob None None (q1 3) (q1 1));
                        mkRow 22 7 (ob None None (q1 3) (q1 1))].
Definition bE : tbl := [mkRow 1 20 (ob None None (q1 3) None); mkRow 2 21 (ob None None (q1 3) None);
                        mkRow 3 25 (ob None None (q1 3) None)].
Theorem C09_tree_becomes_consistent_refuted :
  ~ (forall set_order, (forall l, Permutation (set_order l) l) ->
     forall nav op h (F G E : tbl) h' ds', check_tree op = true -> unique_ids [F; G; E] ->
     glm_open set_order nav op h [F; G; E] = Ok (h', ds') -> consistent ds').
Proof.
  intros H.
  assert (K : exists ds', glm_open (fun l => l) flat_nav all_on hd_J [bF; bG; bE]
    = Ok (header_out all_on hd_J, ds') /\ map links ds' = [[(7, 0)]; [(20, 7); (22, 7); (21, 9)];
      [(1, 20); (2, 21)]]).
  { eexists. split; vm_compute; reflexivity. }
  destruct K as (ds' & K & L).
  specialize (H (fun l => l) (fun l => Permutation_refl l) flat_nav all_on hd_J bF bG bE
    (header_out all_on hd_J) ds' eq_refl).
  specialize (H ltac:(apply unique3; repeat split; repeat constructor; simpl; intuition discriminate) K).
  destruct ds' as [|F' [|G' [|E' [|? ?]]]]; try discriminate L. simpl in L. inversion L as [[L1 L2 L3]].
  destruct H as [_ H]. apply linked_no_orphans in H. destruct H as [H _].
  assert (In (21, 9) (links G')) by (rewrite L2; simpl; auto 6).
  apply in_links in H0. destruct H0 as (g & Hg & _ & Eg). destruct (H g Hg) as (f & Hf & Ef).
  assert (In (rid f, rpid f) (links F')) by (apply in_links; eauto).
  rewrite L1 in H0. simpl in H0. destruct H0 as [H0|[]]. inversion H0. lia.
Qed.
Print Assumptions C09_tree_becomes_consistent_refuted.

Example C09_example : exists ds', glm_open (@rev Z) flat_nav all_on hd_J [bF; bG; bE]
  = Ok (header_out all_on hd_J, ds') /\
  map links ds' = [[(7, 0)]; [(21, 9); (20, 7); (22, 7)]; [(2, 21); (1, 20)]].
Proof. eexists. split; vm_compute; reflexivity. Qed.
Example C09_example_intact : exists ds', glm_open (@rev Z) flat_nav all_on hd_J [sF; sG; sE]
  = Ok (header_out all_on hd_J, ds') /\ map links ds' = map links [sF; sG; sE].
Proof. eexists. split; vm_compute; reflexivity. Qed.

(** * C10: files with no lightning *)
(** With the default options an empty dimension makes the constructor raise, for
    every such file. *)
Theorem C10_empty_file_opens_refuted :
  forall set_order nav op h (F G E : tbl), check_tree op = true -> In [] [F; G; E] ->
  glm_open set_order nav op h [F; G; E] = Err AttributeError.
Proof. exact open_empty_checked. Qed.
Print Assumptions C10_empty_file_opens_refuted.

(** Without check_tree a file without any flash, group or event opens as such. *)
Theorem C10_empty_file_opens_unchecked_partial :
  forall set_order nav op h, check_tree op = false ->
  (opt_energy op = true ->
     u_flash_energy h = "J" /\ u_group_energy h = "J" /\ u_event_energy h = "J")%string ->
  glm_open set_order nav op h [[]; []; []] = Ok (header_out op h, [[]; []; []]).
Proof. exact open_empty_all. Qed.
Print Assumptions C10_empty_file_opens_unchecked_partial.

(** ... but one in which only some of the dimensions are empty still raises. *)
Theorem C10_partly_empty_refuted :
  forall set_order nav op h (F G E : tbl), check_tree op = false ->
  calculate_parent_child op = true -> In [] [F; G; E] -> [F; G; E] <> [[]; []; []] ->
  glm_open set_order nav op h [F; G; E] = Err ValueError.
Proof. exact open_empty_some. Qed.
Print Assumptions C10_partly_empty_refuted.

Example C10_example : glm_open (fun l => l) flat_nav all_on hd_J [[]; []; []] = Err AttributeError
  /\ glm_open (fun l => l) flat_nav (mkOptions true true true false) hd_J [[]; []; []]
     = Ok (header_out all_on hd_J, [[]; []; []])
  /\ glm_open (fun l => l) flat_nav (mkOptions true true true false) hd_J [sF; sG; []] = Err ValueError.
Proof. vm_compute. auto. Qed.

(** * C11: derived variables *)
Theorem C11_opened_rows : forall set_order, (forall l, Permutation (set_order l) l) ->
  forall nav op h (F G E : tbl),
  F <> [] -> G <> [] -> E <> [] -> consistent [F; G; E] ->
  calculate_parent_child op = true ->
  (opt_energy op = true ->
     u_flash_energy h = "J" /\ u_group_energy h = "J" /\ u_event_energy h = "J")%string ->
  exists F0 G0 E0 F' G' E',
    glm_open set_order nav op h [F; G; E] = Ok (header_out op h, [F'; G'; E']) /\
    Permutation G0 G /\ Permutation E0 E /\
    Permutation F0 (if check_tree op
                    then filter (fun f => existsb (fun g => rpid g =? rid f) G) F else F) /\
    Forall2 (flash_row nav op h G0 E0) F0 F' /\ Forall2 (group_row nav op h E0) G0 G' /\
    Forall2 (event_row nav op h G0) E0 E' /\
    derived_ok F' G' E' /\ F' <> [] /\ G' <> [] /\ E' <> [].
Proof. exact open_consistent. Qed.
Print Assumptions C11_opened_rows.

Theorem C11_counts_add_up : forall F G E : tbl, derived_ok F G E ->
  (forall f, In f F -> o_nevent (rdat f)
     = list_sum (map (fun g => o_nchild (rdat g)) (with_parent G (rid f)))) /\
  list_sum (map (fun f => o_nchild (rdat f)) F) = List.length G /\
  list_sum (map (fun g => o_nchild (rdat g)) G) = List.length E /\
  list_sum (map (fun f => o_nevent (rdat f)) F) = List.length E.
Proof. exact derived_sums. Qed.
Print Assumptions C11_counts_add_up.

Example C11_example : exists h F G E, glm_open (fun l => l) flat_nav all_on hd_J [sF; sG; sE]
  = Ok (h, [F; G; E]) /\ map (fun f => (o_nchild (rdat f), o_nevent (rdat f))) F = [(2, 2); (1, 2)]%nat
  /\ map (fun g => o_nchild (rdat g)) G = [1; 1; 2]%nat /\ map (fun e => o_flash (rdat e)) E = [7; 7; 8; 8].
Proof. do 4 eexists. split; [vm_compute; reflexivity|]. vm_compute. auto. Qed.

(** * C12: selecting flashes *)
Theorem C12_subset_exact : forall set_order, (forall l, Permutation (set_order l) l) ->
  forall (F G E : tbl) q, derived_ok F G E -> F <> [] -> G <> [] -> E <> [] ->
  q_check q = true ->
  exists F2 G2 E2, subset_flashes set_order [F; G; E] q = Ok [F2; G2; E2] /\
    (forall f, In f F2 <-> In f F /\ wanted q G E f) /\
    (forall g, In g G2 <-> In g G /\ exists f, In f F2 /\ rid f = rpid g) /\
    (forall e, In e E2 <-> In e E /\ exists g, In g G2 /\ rid g = rpid e) /\
    derived_ok F2 G2 E2.
Proof. exact subset_exact. Qed.
Print Assumptions C12_subset_exact.

(** From the file to the selection: the opened dataset satisfies the hypotheses of
    the theorem above. *)
Theorem C12_open_then_subset : forall set_order, (forall l, Permutation (set_order l) l) ->
  forall nav op h (F G E : tbl) q,
  F <> [] -> G <> [] -> E <> [] -> consistent [F; G; E] ->
  calculate_parent_child op = true ->
  (opt_energy op = true ->
     u_flash_energy h = "J" /\ u_group_energy h = "J" /\ u_event_energy h = "J")%string ->
  q_check q = true ->
  exists F1 G1 E1 F2 G2 E2,
    glm_open set_order nav op h [F; G; E] = Ok (header_out op h, [F1; G1; E1]) /\
    subset_flashes set_order [F1; G1; E1] q = Ok [F2; G2; E2] /\
    (forall f, In f F2 <-> In f F1 /\ wanted q G1 E1 f) /\
    (forall g, In g G2 <-> In g G1 /\ exists f, In f F2 /\ rid f = rpid g) /\
    (forall e, In e E2 <-> In e E1 /\ exists g, In g G2 /\ rid g = rpid e) /\
    derived_ok F2 G2 E2.
Proof.
  intros so sp nav op h F G E q n1 n2 n3 Hc Hp Hu Hq.
  destruct (open_consistent so sp nav op h F G E n1 n2 n3 Hc Hp Hu)
    as (F0 & G0 & E0 & F' & G' & E' & Ho & _ & _ & _ & _ & _ & _ & D & m1 & m2 & m3).
  destruct (subset_exact so sp F' G' E' q D m1 m2 m3 Hq) as (F2 & G2 & E2 & Hs & K).
  exists F', G', E', F2, G2, E2. split; [exact Ho|]. split; [exact Hs|]. exact K.
Qed.
Print Assumptions C12_open_then_subset.

(** A second selection from a selection raises when the first was empty. *)
Theorem C12_subset_of_empty_raises : forall set_order (F G E : tbl) q,
  In [] [F; G; E] -> q_check q = true ->
  subset_flashes set_order [F; G; E] q = Err AttributeError.
Proof. exact subset_empty_dim. Qed.
Print Assumptions C12_subset_of_empty_raises.

Definition sq : query := mkQuery (Some ((2 # 100)%Q, (9 # 100)%Q)) None None None true (Some 2) None.
Example C12_example : exists F2 G2 E2,
  (r <- glm_open (fun l => l) flat_nav all_on hd_J [sF; sG; sE] ;; subset_flashes (@rev Z) (snd r) sq)
  = Ok [F2; G2; E2] /\ map rid F2 = [8] /\ map rid G2 = [22] /\ map rid E2 = [3; 4].
Proof. do 3 eexists. split; [vm_compute; reflexivity|]. vm_compute. auto. Qed.

(** * C13: the field-of-view option *)
(** check_event_xy=False never returns anything. *)
Theorem C13_check_off_refuted : forall set_order (F G E : tbl) q, q_check q = false ->
  subset_flashes set_order [F; G; E] q = Err UnboundLocalError.
Proof. intros so F G E q H. unfold subset_flashes. rewrite H. reflexivity. Qed.
Print Assumptions C13_check_off_refuted.

(** With True, events outside the field of view can be returned. *)
Theorem C13_events_in_view_refuted :
  ~ (forall set_order, (forall l, Permutation (set_order l) l) ->
     forall (F G E : tbl) q F2 G2 E2, derived_ok F G E -> q_check q = true ->
     subset_flashes set_order [F; G; E] q = Ok [F2; G2; E2] ->
     forall e, In e E2 -> strictly (-(1349 # 10000), 1349 # 10000)%Q (o_x (rdat e)) /\
                          strictly (-(1349 # 10000), 1349 # 10000)%Q (o_y (rdat e))).
Proof.
  intros H.
  destruct (open_consistent (fun l => l) (fun l => Permutation_refl l) flat_nav all_on hd_J sF sG sE)
    as (_ & _ & _ & F' & G' & E' & Ho & _ & _ & _ & _ & _ & _ & D & _); try discriminate;
    [exact s_consistent|reflexivity|simpl; auto|].
  assert (K : exists F2 G2 E2, subset_flashes (fun l => l) [F'; G'; E']
    (mkQuery None None None None true None None) = Ok [F2; G2; E2] /\
    exists e, In e E2 /\ o_x (rdat e) = Some (2 # 10)%Q).
  { vm_compute in Ho. inversion Ho; subst. do 3 eexists. split; [vm_compute; reflexivity|].
    eexists. split; [right; left; reflexivity|reflexivity]. }
  destruct K as (F2 & G2 & E2 & K & e & He & Ee).
  destruct (H _ (fun l => Permutation_refl l) F' G' E'
    (mkQuery None None None None true None None) F2 G2 E2 D eq_refl K e He) as [(x & Ex & L & U) _].
  rewrite Ee in Ex. inversion Ex; subst. vm_compute in U. discriminate.
Qed.
Print Assumptions C13_events_in_view_refuted.

(** What holds: each flash returned has at least one event in the field of view,
    and that event is among those returned. *)
Theorem C13_some_event_in_view_partial : forall set_order, (forall l, Permutation (set_order l) l) ->
  forall (F G E : tbl) q F2 G2 E2, derived_ok F G E -> F <> [] -> G <> [] -> E <> [] ->
  q_check q = true -> subset_flashes set_order [F; G; E] q = Ok [F2; G2; E2] ->
  forall f, In f F2 -> exists e, In e E2 /\ o_flash (rdat e) = rid f /\
    strictly (-(1349 # 10000), 1349 # 10000)%Q (o_x (rdat e)) /\
    strictly (-(1349 # 10000), 1349 # 10000)%Q (o_y (rdat e)).
Proof.
  intros so sp F G E q F2 G2 E2 D n1 n2 n3 Hq Hs f Hf.
  destruct (subset_exact so sp F G E q D n1 n2 n3 Hq) as (A & B & C & K & HF & HG & HE & _).
  rewrite Hs in K. inversion K; subst A B C. pose proof Hf as Hf2.
  apply HF in Hf. destruct Hf as [Hf (_ & _ & _ & _ & _ & _ & (e & He & Hx & Hy & _))].
  unfold flash_events in He. apply filter_In in He. destruct He as [He Hb].
  apply existsb_exists in Hb. destruct Hb as (g & Hg & Hb). apply andb_true_iff in Hb.
  destruct Hb as [B1 B2]. apply Z.eqb_eq in B1. apply Z.eqb_eq in B2.
  exists e. split.
  - apply HE. split; auto. exists g. split; auto. apply HG. split; auto. exists f. auto.
  - split; [|split; auto]. destruct D as ((U & _) & D1 & _). destruct (D1 e He) as (g2 & Hg2 & E2' & E3).
    apply unique3 in U. destruct U as (_ & U2 & _).
    assert (g2 = g) by (apply (nodup_map_inj_in _ _ _ _ g2 g U2 Hg2 Hg); congruence). subst. congruence.
Qed.
Print Assumptions C13_some_event_in_view_partial.

(** * C14: energies *)
Theorem C14_energies_after_opening :
  forall set_order, (forall l, Permutation (set_order l) l) -> forall nav op h (F G E : tbl) h' ds', opt_energy op = true ->
  glm_open set_order nav op h [F; G; E] = Ok (h', ds') ->
  exists F0 G0 E0 F' G' E', kept (check_tree op) F G E F0 G0 E0 /\
    ds' = [F'; G'; E'] /\
    (u_flash_energy h' = "nJ" /\ u_group_energy h' = "nJ" /\ u_event_energy h' = "nJ")%string /\
    let scaled v := option_map (fun q => q * (1000000000 # 1))%Q v in
    map (fun f => o_energy (rdat f)) F' = map (fun f => scaled (o_energy (rdat f))) F0 /\
    map (fun f => o_energy (rdat f)) G' = map (fun f => scaled (o_energy (rdat f))) G0 /\
    Forall2 (fun e e' => rid e' = rid e /\
      let smallest := (ev_offset h + ev_scale h)%Q in
      match o_energy (rdat e), o_energy (rdat e') with
      | None, None => True
      | Some q, Some w =>
          ((smallest <= q)%Q -> w = (q * (1000000000 # 1))%Q) /\
          ((q < smallest)%Q -> w = ((1 # 2) * smallest * (1000000000 # 1))%Q) /\
          ((0 < smallest)%Q -> ((1 # 2) * smallest * (1000000000 # 1) <= w)%Q /\ (0 < w)%Q)
      | _, _ => False
      end) E0 E'.
Proof.
  intros so sp nav op h F G E h' ds' Ho H.
  pose proof (open_converted so nav op h F G E h' ds' H) as
    (-> & _ & F0 & G0 & E0 & F1 & G1 & E1 & Hr & -> & CF & CG & CE).
  exists F0, G0, E0, F1, G1, E1. split; [exact (repair_kept so sp _ _ _ _ _ _ _ Hr)|]. split; [reflexivity|].
  split; [unfold header_out; cbn; rewrite Ho; auto|]. cbv zeta.
  assert (Es : forall v, energy_out op v = option_map (fun q => q * (1000000000 # 1))%Q v)
    by (intros v; unfold energy_out; rewrite Ho; reflexivity).
  split; [|split].
  - symmetry. eapply F2_map; [exact CF|]. intros a b (_ & _ & _ & _ & K & _). rewrite K, Es. reflexivity.
  - symmetry. eapply F2_map; [exact CG|]. intros a b (_ & _ & _ & _ & K & _). rewrite K, Es. reflexivity.
  - eapply F2_impl; [|exact CE]. intros e e' (Ei & _ & _ & _ & K & _). split; [exact Ei|].
    pose proof (fun w => event_floor op h (o_energy (rdat e)) w Ho) as Fl.
    rewrite K in *. unfold event_energy_out in *. destruct (o_energy (rdat e)) as [q|]; [|exact I].
    rewrite Es in *. cbn [option_map] in *. rewrite Ho in *.
    destruct (Qlt_le_dec q (ev_offset h + ev_scale h)) as [l|l].
    + split; [intros l2; exfalso; apply (Qle_not_lt _ _ l2 l)|]. split; [reflexivity|].
      intros Hp. apply (Fl _ Hp eq_refl).
    + split; [reflexivity|]. split; [intros l2; exfalso; apply (Qle_not_lt _ _ l l2)|].
      intros Hp. apply (Fl _ Hp eq_refl).
Qed.
Print Assumptions C14_energies_after_opening.

(** Conversion happens at most once: it accepts exactly data in J, labels the result
    nJ and refuses it afterwards. *)
Theorem C14_converted_once : forall h (ds : list tbl),
  match change_energy_units h ds with
  | Ok (h', _) => u_flash_energy h = "J"%string /\ u_group_energy h = "J"%string /\
      u_event_energy h = "J"%string /\ forall ds', change_energy_units h' ds' = Err ValueError
  | Err e => e = ValueError /\
      ~ (u_flash_energy h = "J" /\ u_group_energy h = "J" /\ u_event_energy h = "J")%string
  end.
Proof. exact change_units_spec. Qed.
Print Assumptions C14_converted_once.

(** Consequently a dataset already opened cannot be opened again. *)
Theorem C14_reopen_never_scales_twice :
  forall set_order nav op h (ds : list tbl) h' ds', opt_energy op = true ->
  glm_open set_order nav op h ds = Ok (h', ds') -> List.length ds = 3%nat ->
  forall so2 nav2 op2 r, opt_energy op2 = true -> glm_open so2 nav2 op2 h' ds' <> Ok r.
Proof.
  intros so nav op h ds h' ds' Ho H L so2 nav2 op2 r Ho2.
  destruct ds as [|F [|G [|E [|? ?]]]]; try discriminate L.
  pose proof (open_converted so nav op h F G E h' ds' H) as (-> & _).
  apply open_again_fails; auto. unfold header_out. cbn. rewrite Ho. discriminate.
Qed.
Print Assumptions C14_reopen_never_scales_twice.

Example C14_example : exists h F G E, glm_open (fun l => l) flat_nav all_on hd_J [sF; sG; sE]
  = Ok (h, [F; G; E]) /\
  map (fun e => option_map Qred (o_energy (rdat e))) E
  = [Some (1000000000 # 1); Some (2000000000 # 1); Some (500000 # 1); Some (4000000000 # 1)]%Q.
Proof. do 4 eexists. split; [vm_compute; reflexivity|]. vm_compute. reflexivity. Qed.

(** * C15: areas *)
Theorem C15_areas_after_opening :
  forall set_order, (forall l, Permutation (set_order l) l) -> forall nav op h (F G E : tbl) h' ds', opt_area op = true ->
  glm_open set_order nav op h [F; G; E] = Ok (h', ds') ->
  exists F0 G0 E0 F' G' E', kept (check_tree op) F G E F0 G0 E0 /\
    ds' = [F'; G'; E'] /\
    let conv units units' largest a a' :=
      exists v', a' = Some v' /\ units' <> "m2"%string /\
        let v := match a with Some v => v | None => largest end in
        (units = "m2"%string -> units' = "km2"%string /\ v' = (v * (1 # 1000000))%Q) /\
        (units <> "m2"%string -> units' = units /\ v' = v) in
    Forall2 (fun f f' => rid f' = rid f /\
      conv (u_flash_area h) (u_flash_area h') (fa_offset h + fa_scale h * fa_fill h)%Q
        (o_area (rdat f)) (o_area (rdat f'))) F0 F' /\
    Forall2 (fun g g' => rid g' = rid g /\
      conv (u_group_area h) (u_group_area h') (ga_offset h + ga_scale h * ga_fill h)%Q
        (o_area (rdat g)) (o_area (rdat g'))) G0 G'.
Proof.
  intros so sp nav op h F G E h' ds' Ho H.
  pose proof (open_converted so nav op h F G E h' ds' H) as
    (-> & _ & F0 & G0 & E0 & F1 & G1 & E1 & Hr & -> & CF & CG & CE).
  exists F0, G0, E0, F1, G1, E1. split; [exact (repair_kept so sp _ _ _ _ _ _ _ Hr)|]. split; [reflexivity|]. cbv zeta.
  split.
  - eapply F2_impl; [|exact CF]. intros e e' (Ei & _ & _ & _ & _ & K). split; [exact Ei|].
    rewrite K. unfold area_out, header_out. rewrite Ho. cbn [u_flash_area].
    eexists. split; [reflexivity|].
    destruct (String.eqb (u_flash_area h) "m2") eqn:Eu.
    + apply String.eqb_eq in Eu. split; [discriminate|]. split; [auto|congruence].
    + apply String.eqb_neq in Eu. split; [auto|]. split; [congruence|auto].
  - eapply F2_impl; [|exact CG]. intros e e' (Ei & _ & _ & _ & _ & K). split; [exact Ei|].
    rewrite K. unfold area_out, header_out. rewrite Ho. cbn [u_group_area].
    eexists. split; [reflexivity|].
    destruct (String.eqb (u_group_area h) "m2") eqn:Eu.
    + apply String.eqb_eq in Eu. split; [discriminate|]. split; [auto|congruence].
    + apply String.eqb_neq in Eu. split; [auto|]. split; [congruence|auto].
Qed.
Print Assumptions C15_areas_after_opening.

(** Running both area checks a second time changes neither data nor units. *)
Theorem C15_area_checks_idempotent : forall h (F G E : tbl) h1 ds1,
  check_area_units h (check_area_overflow h [F; G; E]) = (h1, ds1) ->
  check_area_units h1 (check_area_overflow h1 ds1) = (h1, ds1).
Proof. exact area_checks_twice. Qed.
Print Assumptions C15_area_checks_idempotent.

Example C15_example : exists h F G E, glm_open (fun l => l) flat_nav all_on hd_J [sF; sG; sE]
  = Ok (h, [F; G; E]) /\ (u_flash_area h = "km2" /\ u_group_area h = "km2")%string /\
  map (fun e => option_map Qred (o_area (rdat e))) F = [Some 1; Some (13107 # 200000)]%Q.
Proof. do 4 eexists. split; [vm_compute; reflexivity|]. vm_compute. auto. Qed.
