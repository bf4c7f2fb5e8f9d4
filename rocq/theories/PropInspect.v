(** Properties C84-C86: looking into files; the picture of a flash (glmtools/plot/locations.py),
    the script that checks files (examples/check_glm_data.py) and the bounds of the events
    (GLMDataset.fov_bounds).  A dataset is the list of its flash, group and event tables;
    [set_order] is the iteration order of Python sets, [nav] the fixed grid navigation. *)
From Coq Require Import List ZArith QArith Bool String Lia Permutation.
From Verif Require Import Base BaseProofs Traversal TraversalSpec TraversalProofs TraversalProofs2 TraversalProofs3 TraversalProofs4
  Glm GlmSpec GlmProofs GlmProofs2 GlmProofs3 GlmProofs4 PropGlm ChunkProofs Times TimesSpec TimesProofs Plot PlotProofs Points Inspect InspectProofs.
Import ListNotations.
Open Scope list_scope.
Open Scope Z_scope.
Local Notation tbl := (table obs).

(** * C84: the picture of a flash *)
(** What is drawn for rows of a table. *)
Definition shows (s : scatter) (T : tbl) (energies : bool) : Prop :=
  sc_lon s = map (fun r => o_lon (rdat r)) T /\ sc_lat s = map (fun r => o_lat (rdat r)) T /\
  sc_energy s = if energies then Some (map (fun r => o_energy (rdat r)) T) else None.
(** The events of flash [i]. *)
Definition of_flash (G : tbl) (i : Z) (e : row obs) : bool := existsb (fun g => ((rpid g =? i) && (rid g =? rpid e))%bool) G.

Theorem C84_flash_drawn : forall ck (F G E : tbl) f, unique_ids [F; G; E] -> G <> [] -> E <> [] -> In f F ->
  exists p Gs Es, plot_flash ck [F; G; E] (rid f) = Ok p /\
    shows (pc_groups p) Gs true /\ Gs = filter (fun g => rpid g =? rid f) G /\
    shows (pc_events p) Es true /\ Permutation Es (filter (of_flash G (rid f)) E) /\
    shows (pc_flash p) [f] false /\
    pc_title p = (rid f, t_first ck (rid f), t_last ck (rid f)).
Proof.
  intros ck F G E f U HG HE Hf. apply unique3 in U. destruct U as (NF & NG & NE).
  assert (HF : F <> []) by (intros ->; destruct Hf).
  rewrite plot_flash_eq by auto. rewrite (with_id_self F f NF Hf).
  assert (L0 : lev0 F [rid f] = [f]) by (unfold lev0; cbn; rewrite (with_id_self F f NF Hf); reflexivity).
  assert (L1 : lev1 G [rid f] = filter (fun g => rpid g =? rid f) G) by (unfold lev1; cbn; rewrite app_nil_r; reflexivity).
  eexists. exists (lev1 G [rid f]), (lev2 G E [rid f]). split; [reflexivity|]. cbn [pc_groups pc_events pc_flash pc_title].
  split; [repeat split|]. split; [exact L1|]. split; [repeat split|]. split.
  - etransitivity; [apply lev2_perm; auto; constructor; [intros []|constructor]|].
    erewrite filter_ext; [apply Permutation_refl|]. intros e. cbn beta. unfold of_flash. rewrite L1.
    destruct (existsb _ G) eqn:X.
    + apply existsb_exists in X. destruct X as (g & Hg & X). apply andb_prop in X. destruct X as [X1 X2].
      unfold zmem. apply existsb_exists. exists (rid g). split; [apply in_map, filter_In; auto|]. rewrite Z.eqb_sym. exact X2.
    + destruct (zmem _ _) eqn:Z1; [|reflexivity]. unfold zmem in Z1. apply existsb_exists in Z1. destruct Z1 as (j & Hj & Z1). apply in_map_iff in Hj.
      destruct Hj as (g & <- & Hg). apply filter_In in Hg. destruct Hg as [Hg K]. rewrite <- X. symmetry. apply existsb_exists.
      exists g. split; auto. rewrite K, Z.eqb_sym, Z1. reflexivity.
  - split; [|reflexivity]. rewrite L0. repeat split.
Qed.
Print Assumptions C84_flash_drawn.

(** Another id raises IndexError, a dataset with an empty dimension AttributeError: there is a
    picture exactly if the flash is in the dataset and no dimension is empty. *)
Theorem C84_drawn_when : forall ck (F G E : tbl) i,
  ((exists p, plot_flash ck [F; G; E] i = Ok p) <-> F <> [] /\ G <> [] /\ E <> [] /\ In i (map rid F)) /\
  (F <> [] -> G <> [] -> E <> [] -> ~ In i (map rid F) -> plot_flash ck [F; G; E] i = Err IndexError) /\
  (In [] [F; G; E] -> plot_flash ck [F; G; E] i = Err AttributeError).
Proof.
  intros ck F G E i.
  assert (A : In [] [F; G; E] -> plot_flash ck [F; G; E] i = Err AttributeError).
  { intros H. unfold plot_flash, get_flashes. rewrite init3. cbn [bind]. rewrite reduce3_empty by auto. reflexivity. }
  assert (B : F <> [] -> G <> [] -> E <> [] -> ~ In i (map rid F) -> plot_flash ck [F; G; E] i = Err IndexError).
  { intros HF HG HE N. rewrite plot_flash_eq by auto. destruct (with_id F i) as [|f r] eqn:W; [reflexivity|]. exfalso. apply N.
    assert (K : In f (with_id F i)) by (rewrite W; left; auto). apply in_with_id in K. destruct K as [K <-]. apply in_map; auto. }
  split; [|split; auto]. split.
  - intros [p H]. destruct F as [|f F]; [rewrite A in H by (cbn; auto); discriminate|]. destruct G as [|g G]; [rewrite A in H by (cbn; auto); discriminate|].
    destruct E as [|e E]; [rewrite A in H by (cbn; auto); discriminate|]. repeat (split; [discriminate|]).
    destruct (in_dec Z.eq_dec i (map rid (f :: F))) as [K|K]; [exact K|]. rewrite B in H by (auto; discriminate). discriminate.
  - intros (HF & HG & HE & Hi). rewrite plot_flash_eq by auto. apply in_map_iff in Hi. destruct Hi as (f & <- & Hf).
    assert (K : In f (with_id F (rid f))) by (apply in_with_id; auto). destruct (with_id F (rid f)); [destruct K|]. eexists; reflexivity.
Qed.
Print Assumptions C84_drawn_when.

Lemma filter_regrouped : forall A (key : A -> Z) (T : list A) ids i, NoDup ids -> In i ids ->
  filter (fun a => key a =? i) (flat_map (fun j => filter (fun a => key a =? j) T) ids) = filter (fun a => key a =? i) T.
Proof.
  intros A key T ids i ND Hi.
  assert (Z0 : forall j, filter (fun a => key a =? i) (filter (fun a => key a =? j) T) = if j =? i then filter (fun a => key a =? i) T else []).
  { intros j. induction T as [|a T IH]; [destruct (j =? i); reflexivity|]. cbn [filter].
    destruct (key a =? j) eqn:K; cbn [filter]; [|rewrite IH; destruct (j =? i) eqn:J; [|reflexivity]; apply Z.eqb_eq in J; subst; rewrite K; reflexivity].
    apply Z.eqb_eq in K. subst j. rewrite IH. destruct (key a =? i); reflexivity. }
  induction ND as [|j ids Hj ND IH]; [destruct Hi|]. cbn [flat_map]. rewrite filter_app, Z0.
  destruct (Z.eqb_spec j i) as [->|N].
  - assert (K : filter (fun a => key a =? i) (flat_map (fun j => filter (fun a => key a =? j) T) ids) = []).
    { clear IH Hi ND. induction ids as [|k ids IH]; [reflexivity|]. cbn [flat_map]. rewrite filter_app, Z0.
      destruct (Z.eqb_spec k i) as [->|N2]; [exfalso; apply Hj; left; reflexivity|]. apply IH. intros X. apply Hj. right; exact X. }
    rewrite K. apply app_nil_r.
  - destruct Hi as [Hi|Hi]; [congruence|]. cbn [app]. auto.
Qed.
Lemma lev2_flat : forall G E ids, lev2 G E ids = flat_map (fun j => filter (fun e => rpid e =? j) E) (map rid (lev1 G ids)).
Proof. intros. unfold lev2. rewrite <- (flat_map_map _ _ _ rid (with_parent E)). reflexivity. Qed.

(** Selecting flashes first makes no difference to the picture of one of them that has events. *)
Theorem C84_same_after_selection : forall ck (F G E : tbl) ids ds f g e, unique_ids [F; G; E] -> NoDup ids ->
  In f F -> In g G -> In e E -> rpid g = rid f -> rpid e = rid g -> In (rid f) ids ->
  get_flashes [F; G; E] ids = Ok ds -> plot_flash ck ds (rid f) = plot_flash ck [F; G; E] (rid f).
Proof.
  intros ck F G E ids ds f g e U ND Hf Hg He Eg Ee Hi H. apply unique3 in U. destruct U as (NF & NG & NE).
  rewrite get_flashes_levels in H by (intros ->; contradiction). injection H as <-.
  rewrite !plot_flash_eq.
  2-4: intros ->; contradiction.
  2: intros K; assert (X : In f (lev0 F ids)) by (apply in_lev0; auto); rewrite K in X; destruct X.
  2: intros K; assert (X : In g (lev1 G ids)) by (apply in_lev1; rewrite Eg; auto); rewrite K in X; destruct X.
  2: intros K; assert (X : In e (lev2 G E ids)) by (apply in_lev2; split; auto; exists g; rewrite Eg; auto); rewrite K in X; destruct X.
  assert (W0 : with_id (lev0 F ids) (rid f) = with_id F (rid f)) by (apply filter_regrouped; auto).
  assert (L1 : lev1 (lev1 G ids) [rid f] = lev1 G [rid f]).
  { unfold lev1 at 1 3. cbn [flat_map]. rewrite !app_nil_r. apply filter_regrouped; auto. }
  assert (L0 : lev0 (lev0 F ids) [rid f] = lev0 F [rid f]) by (unfold lev0 at 1 3; cbn [flat_map]; rewrite !app_nil_r; exact W0).
  assert (L2 : lev2 (lev1 G ids) (lev2 G E ids) [rid f] = lev2 G E [rid f]).
  { rewrite (lev2_flat (lev1 G ids)), (lev2_flat G E [rid f]), L1.
    assert (NL : NoDup (map rid (lev1 G ids))).
    { eapply Permutation_NoDup; [apply Permutation_map, Permutation_sym, lev1_perm; auto|]. apply nodup_map_filter; auto. }
    assert (S : forall j, In j (map rid (lev1 G [rid f])) -> In j (map rid (lev1 G ids))).
    { intros j Hj. apply in_map_iff in Hj. destruct Hj as (x & <- & Hx). apply in_map. apply in_lev1 in Hx. apply in_lev1. destruct Hx as [Hx [Hx2|[]]]. rewrite <- Hx2. auto. }
    induction (map rid (lev1 G [rid f])) as [|j l IH]; [reflexivity|]. cbn [flat_map]. f_equal; [|apply IH; intros; apply S; right; auto].
    rewrite lev2_flat. apply filter_regrouped; auto. apply S; left; reflexivity. }
  rewrite W0, L0, L1, L2. reflexivity.
Qed.
Print Assumptions C84_same_after_selection.

Definition ck0 : clock := mkClock (fun i => i) (fun i => i) (fun i => 100 + i) (fun i => 200 + i).
(** Flash 8 of the sample of C09-C15: one group, two events; flash 9 is not there. *)
Example C84_ex : (exists p, plot_flash ck0 [sF; sG; sE] 8 = Ok p /\ List.length (sc_lon (pc_groups p)) = 1%nat /\
  sc_lon (pc_events p) = [Some (5 # 100); Some (6 # 100)]%Q /\ pc_title p = (8, 108, 208)) /\
  plot_flash ck0 [sF; sG; sE] 9 = Err IndexError.
Proof. split; [|reflexivity]. eexists. repeat split; reflexivity. Qed.
Example C84_hypotheses : unique_ids [sF; sG; sE] /\ exists f g e, In f sF /\ In g sG /\ In e sE /\ rpid g = rid f /\ rpid e = rid g /\ In (rid f) [8; 7].
Proof.
  split; [apply s_consistent|]. exists (nth 1 sF (mkRow 0 0 (ob None None None None))), (nth 2 sG (mkRow 0 0 (ob None None None None))), (nth 3 sE (mkRow 0 0 (ob None None None None))).
  cbn. intuition auto.
Qed.

(** * C85: checking files *)
(** The script reports a file exactly if opening it raises KeyError and no earlier file raised
    anything else; it ends early at the first other exception. *)
Lemma check_files_app : forall A (pre rest : list (string * res A)),
  (forall n r, In (n, r) pre -> match r with Ok _ => True | Err e => e = KeyError end) ->
  check_files (pre ++ rest) = (map fst (filter (fun f => match snd f with Err _ => true | Ok _ => false end) pre) ++ fst (check_files rest), snd (check_files rest)).
Proof.
  intros A pre rest H. induction pre as [|[n r] pre IH]; [cbn [app map filter]; destruct (check_files rest); reflexivity|].
  specialize (IH (fun n' r' I => H n' r' (or_intror I))). pose proof (H n r (or_introl eq_refl)) as K.
  cbn [app check_files filter snd]. destruct r as [a|e]; [exact IH|]. subst e. rewrite IH. reflexivity.
Qed.

Definition checked_with so nav (f : string * (header * source)) := glm_open_timed so nav all_on true (fst (snd f)) (snd (snd f)).
Lemma run_silent : forall so nav files, (forall f, In f files -> checked_with so nav f <> Err KeyError) ->
  match check_glm_data so nav files with
  | (printed, stop) => printed = [] /\
      match stop with
      | None => forall f, In f files -> exists d, checked_with so nav f = Ok d
      | Some e => exists f, In f files /\ checked_with so nav f = Err e
      end
  end.
Proof.
  intros so nav files H. unfold check_glm_data. fold all_on. induction files as [|f files IH]; [cbn; split; [reflexivity|intros f []]|].
  specialize (IH (fun x I => H x (or_intror I))). cbn [map check_files]. fold (checked_with so nav f).
  destruct (checked_with so nav f) as [d|e] eqn:C.
  - destruct (check_files _) as [printed stop]. destruct IH as [-> IH]. split; [reflexivity|]. destruct stop as [e|].
    + destruct IH as (x & Hx & Ex). exists x. split; [right; exact Hx|exact Ex].
    + intros x [<-|Hx]; [eauto|auto].
  - pose proof (H f (or_introl eq_refl)) as K. rewrite C in K.
    destruct e; try (split; [reflexivity|exists f; split; [left; reflexivity|exact C]]). exfalso. apply K. reflexivity.
Qed.

(** A file with a flash, a group and an event table, whatever their links. *)
Definition glm_file (f : string * (header * source)) : Prop := exists F G E, s_rows (snd (snd f)) = [F; G; E].

(** Refutation of the purpose of the script: whatever is wrong with the files, none is ever
    reported.  Broken links are repaired before anything could raise KeyError; everything else
    that opening refuses ends the script. *)
Theorem C85_invalid_reported_refuted : forall set_order, (forall l, Permutation (set_order l) l) ->
  forall nav files, (forall f, In f files -> glm_file f) ->
  fst (check_glm_data set_order nav files) = [].
Proof.
  intros so sp nav files H. pose proof (run_silent so nav files) as K.
  destruct (check_glm_data so nav files) as [printed stop]. apply K. intros f Hf. destruct (H f Hf) as (F & G & E & HS).
  apply (nokey_open so nav (fst (snd f)) (snd (snd f)) F G E sp HS).
Qed.
Print Assumptions C85_invalid_reported_refuted.

(** The script goes through all files exactly if each can be opened; otherwise it ends with the
    exception of one of them. *)
Theorem C85_completes_when : forall set_order, (forall l, Permutation (set_order l) l) ->
  forall nav files, (forall f, In f files -> glm_file f) ->
  (snd (check_glm_data set_order nav files) = None <-> forall f, In f files -> exists d, checked_with set_order nav f = Ok d) /\
  (forall e, snd (check_glm_data set_order nav files) = Some e -> exists f, In f files /\ checked_with set_order nav f = Err e).
Proof.
  intros so sp nav files H. pose proof (run_silent so nav files) as K.
  assert (K' := K (fun f Hf => match H f Hf with ex_intro _ F (ex_intro _ G (ex_intro _ E HS)) => nokey_open so nav (fst (snd f)) (snd (snd f)) F G E sp HS end)).
  destruct (check_glm_data so nav files) as [printed stop]. destruct K' as [_ K']. cbn [snd]. destruct stop as [e|].
  - split; [|intros e' [= <-]; exact K']. split; [discriminate|]. intros A. destruct K' as (f & Hf & Ef). destruct (A f Hf) as [d D]. congruence.
  - split; [|discriminate]. split; auto.
Qed.
Print Assumptions C85_completes_when.

(** In particular a file without flashes ends the script, and files after it are not looked at. *)
Theorem C85_empty_file_ends_script_refuted : forall set_order, (forall l, Permutation (set_order l) l) ->
  forall nav before name h s after, (forall f, In f before -> exists d, checked_with set_order nav f = Ok d) ->
  (exists G E, s_rows s = [[]; G; E]) ->
  check_glm_data set_order nav (before ++ (name, (h, s)) :: after) = ([], Some AttributeError).
Proof.
  intros so sp nav before name h s after HB (G & E & HS). unfold check_glm_data. rewrite map_app. cbn [map fst snd].
  assert (C : glm_open_timed so nav all_on true h s = Err AttributeError).
  { unfold glm_open_timed. rewrite (open_dataset_eq s _ _ _ HS). rewrite repair_data. cbn [check_tree all_on]. rewrite repair_empty by (cbn; auto). reflexivity. }
  rewrite check_files_app.
  2:{ intros n r I. apply in_map_iff in I. destruct I as (f & Ef & Hf). injection Ef as _ <-. destruct (HB f Hf) as [d D]. unfold checked_with, all_on in D. rewrite D. exact I. }
  unfold all_on in C. cbn [check_files]. rewrite C. cbn [fst snd]. rewrite app_nil_r. f_equal.
  clear C. induction before as [|f before IH]; [reflexivity|]. cbn [map filter snd]. destruct (HB f (or_introl eq_refl)) as [d D]. unfold checked_with, all_on in D. rewrite D.
  apply IH. intros; apply HB; right; auto.
Qed.
Print Assumptions C85_empty_file_ends_script_refuted.

(** What the script is good for: with consistent files whose energies are in joules and whose
    times need no correction it reports nothing and comes to its end. *)
Theorem C85_valid_files_pass_partial : forall set_order, (forall l, Permutation (set_order l) l) ->
  forall nav files, (forall f, In f files -> let h := fst (snd f) in let s := snd (snd f) in
    in_time s = false /\ u_flash_energy h = "J"%string /\ u_group_energy h = "J"%string /\ u_event_energy h = "J"%string /\
    exists F G E, plain s = [F; G; E] /\ unique_ids [F; G; E] /\
      (exists f g, In f F /\ In g G /\ rpid g = rid f) /\ (exists g e, In g G /\ In e E /\ rpid e = rid g)) ->
  check_glm_data set_order nav files = ([], None).
Proof.
  intros so sp nav files H.
  assert (O : forall f, In f files -> exists d, checked_with so nav f = Ok d).
  { intros f Hf. unfold checked_with. destruct (H f Hf) as (IT & J1 & J2 & J3 & F & G & E & HP & U & L1 & L2).
    destruct (C09_open_broken_succeeds so sp nav all_on (fst (snd f)) F G E eq_refl U (fun _ => conj J1 (conj J2 J3)) L1 L2) as [ds D].
    rewrite <- HP in D. unfold plain in HP.
    destruct (s_rows (snd (snd f))) as [|F0 [|G0 [|E0 [|X R]]]] eqn:HS; try discriminate HP.
    destruct (timed_split so nav all_on true (fst (snd f)) (snd (snd f)) F0 G0 E0 _ HS D) as (ds' & _ & ->).
    unfold fix_times. rewrite IT. cbn [andb res_map]. eexists; reflexivity. }
  pose proof (run_silent so nav files) as K. destruct (check_glm_data so nav files) as [printed stop] eqn:C.
  destruct K as [-> K]; [intros f Hf; destruct (O f Hf) as [d ->]; discriminate|]. destruct stop as [e|]; [|reflexivity].
  destruct K as (f & Hf & Ef). destruct (O f Hf) as [d D]. congruence.
Qed.
Print Assumptions C85_valid_files_pass_partial.

Definition codes0 : codes := fun _ => 0.
Definition src (F G E : tbl) : source := mkSource true (0, 20)%Q (fun _ => None) (map (map (fun r => mkRow (rid r) (rpid r) (rdat r, codes0))) [F; G; E]).
(** The broken sample of C09, where event 3 has no group and group 21 no flash, passes; with a
    file without flashes before it the script ends there. *)
Example C85_ex : check_glm_data (fun l => l) flat_nav [("broken", (hd_J, src bF bG bE)); ("good", (hd_J, src sF sG sE))]%string = ([], None) /\
  check_glm_data (fun l => l) flat_nav [("good", (hd_J, src sF sG sE)); ("empty", (hd_J, src [] sG sE)); ("broken", (hd_J, src bF bG bE))]%string = ([], Some AttributeError) /\
  glm_file ("broken", (hd_J, src bF bG bE))%string.
Proof. split; [vm_compute; reflexivity|]. split; [vm_compute; reflexivity|]. unfold glm_file. cbn. eauto. Qed.

(** * C86: the bounds of the events *)
(** [v] lies within the bounds [b], which some of [l] attain. *)
Definition tight (b : Q * Q) (l : list fval) : Prop :=
  In (Some (fst b)) l /\ In (Some (snd b)) l /\ forall q, In (Some q) l -> (fst b <= q <= snd b)%Q.
Theorem C86_bounds_of_events : forall (F G E : tbl) b, fov_bounds [F; G; E] = Ok b ->
  (exists e q, In e E /\ o_lon (rdat e) = Some q) -> (exists e q, In e E /\ o_lat (rdat e) = Some q) ->
  exists w e s n, b = ((Some w, Some e), (Some s, Some n)) /\
    tight (w, e) (map (fun e => o_lon (rdat e)) E) /\ tight (s, n) (map (fun e => o_lat (rdat e)) E).
Proof.
  intros F G E b H (e1 & q1 & I1 & Q1) (e2 & q2 & I2 & Q2). unfold fov_bounds in H.
  set (lat := map (fun e => o_lat (rdat e)) E) in *. set (lon := map (fun e => o_lon (rdat e)) E) in *.
  assert (X1 : exists q, In (Some q) lon) by (exists q1; apply in_map_iff; eauto).
  assert (X2 : exists q, In (Some q) lat) by (exists q2; apply in_map_iff; eauto).
  destruct (col_min lat) as [s|] eqn:S; [|discriminate]. destruct (col_max lat) as [n|] eqn:N; [|discriminate].
  destruct (col_min lon) as [w|] eqn:W; [|discriminate]. destruct (col_max lon) as [e|] eqn:Ea; [|discriminate]. cbn [bind] in H. injection H as <-.
  destruct (col_min_some _ _ X2 S) as (s' & -> & S1 & S2). destruct (col_max_some _ _ X2 N) as (n' & -> & N1 & N2).
  destruct (col_min_some _ _ X1 W) as (w' & -> & W1 & W2). destruct (col_max_some _ _ X1 Ea) as (e' & -> & E1 & E2).
  exists w', e', s', n'. split; [reflexivity|]. unfold tight. cbn [fst snd]. repeat split; auto.
Qed.
Print Assumptions C86_bounds_of_events.

(** Used as ranges for a selection, the bounds lose every flash that lies on one of them, such as
    the flash of a single event furthest west or east. *)
Theorem C86_selection_keeps_all_refuted : forall set_order, (forall l, Permutation (set_order l) l) ->
  forall (F G E : tbl) w e s n q f, derived_ok F G E -> F <> [] -> G <> [] -> E <> [] ->
  fov_bounds [F; G; E] = Ok ((Some w, Some e), (Some s, Some n)) ->
  q_check q = true -> q_lon q = Some (w, e) ->
  In f F -> o_lon (rdat f) = Some w \/ o_lon (rdat f) = Some e ->
  exists F2 G2 E2, subset_flashes set_order [F; G; E] q = Ok [F2; G2; E2] /\ ~ In f F2.
Proof.
  intros so sp F G E w e s n q f D HF HG HE _ Hq Hl Hf Ef.
  destruct (subset_exact so sp F G E q D HF HG HE Hq) as (F2 & G2 & E2 & HS & K & _). exists F2, G2, E2. split; [exact HS|].
  intros I. apply K in I. destruct I as (_ & _ & _ & W & _). destruct (W _ Hl) as (x & Ex & Lw & Lx). cbn in Lw, Lx.
  destruct Ef as [Ef|Ef]; rewrite Ef in Ex; injection Ex as <-; [apply (Qlt_irrefl w Lw)|apply (Qlt_irrefl e Lx)].
Qed.
Print Assumptions C86_selection_keeps_all_refuted.

(** If every flash lies strictly within, the selection is the one without these ranges. *)
Theorem C86_selection_partial : forall set_order, (forall l, Permutation (set_order l) l) ->
  forall (F G E : tbl) w e s n, derived_ok F G E -> F <> [] -> G <> [] -> E <> [] ->
  fov_bounds [F; G; E] = Ok ((Some w, Some e), (Some s, Some n)) ->
  (forall f, In f F -> strictly (w, e) (o_lon (rdat f)) /\ strictly (s, n) (o_lat (rdat f))) ->
  exists F2 G2 E2 F3 G3 E3,
    subset_flashes set_order [F; G; E] (mkQuery (Some (w, e)) (Some (s, n)) None None true None None) = Ok [F2; G2; E2] /\
    subset_flashes set_order [F; G; E] (mkQuery None None None None true None None) = Ok [F3; G3; E3] /\
    (forall f, In f F2 <-> In f F3) /\ (forall g, In g G2 <-> In g G3) /\ (forall e, In e E2 <-> In e E3).
Proof.
  intros so sp F G E w e s n D HF HG HE _ HI.
  destruct (subset_exact so sp F G E (mkQuery (Some (w, e)) (Some (s, n)) None None true None None) D HF HG HE eq_refl) as (F2 & G2 & E2 & HS2 & A2 & B2 & C2 & _).
  destruct (subset_exact so sp F G E (mkQuery None None None None true None None) D HF HG HE eq_refl) as (F3 & G3 & E3 & HS3 & A3 & B3 & C3 & _).
  exists F2, G2, E2, F3, G3, E3. split; [exact HS2|]. split; [exact HS3|].
  assert (KF : forall f, In f F2 <-> In f F3).
  { intros f. rewrite A2, A3. unfold wanted. cbn [q_x q_y q_lon q_lat q_min_events q_min_groups]. split.
    - intros (Hf & W1 & W2 & _ & _ & W5 & W6 & W7). split; [exact Hf|]. repeat (split; [first [exact W1|exact W2|discriminate]|]). exact W7.
    - intros (Hf & W1 & W2 & _ & _ & W5 & W6 & W7). destruct (HI f Hf) as [I1 I2]. split; [exact Hf|]. split; [exact W1|]. split; [exact W2|].
      split; [intros r [= <-]; exact I1|]. split; [intros r [= <-]; exact I2|]. split; [exact W5|]. split; [exact W6|]. exact W7. }
  assert (KG : forall g, In g G2 <-> In g G3).
  { intros g. rewrite B2, B3. split; intros (Hg & f & Hf & Ef); (split; [exact Hg|]); exists f; (split; [apply KF; exact Hf|exact Ef]). }
  split; [exact KF|]. split; [exact KG|].
  intros x. rewrite C2, C3. split; intros (Hg & f & Hf & Ef); (split; [exact Hg|]); exists f; (split; [apply KG; exact Hf|exact Ef]).
Qed.
Print Assumptions C86_selection_partial.

(** The sample of C09-C15 as opened: flash 7 lies on the western bound, so it is lost; the bounds
    are those of the events. *)
Example C86_ex : exists h F G E, glm_open (fun l => l) flat_nav all_on hd_J [sF; sG; sE] = Ok (h, [F; G; E]) /\
  derived_ok F G E /\ F <> [] /\ G <> [] /\ E <> [] /\
  fov_bounds [F; G; E] = Ok ((Some (1 # 100), Some (2 # 10)), (Some 0, Some (1 # 100)))%Q /\
  (exists f, In f F /\ rid f = 7 /\ o_lon (rdat f) = Some (1 # 100)%Q) /\
  (exists G2 E2, subset_flashes (fun l => l) [F; G; E] (mkQuery (Some (1 # 100, 2 # 10)%Q) None None None true None None) = Ok [[nth 1 F (mkRow 0 0 (ob None None None None))]; G2; E2]).
Proof.
  destruct (open_consistent (fun l => l) (fun l => Permutation_refl l) flat_nav all_on hd_J sF sG sE) as (F0 & G0 & E0 & F' & G' & E' & H & _ & _ & _ & _ & _ & _ & D & N1 & N2 & N3);
    try discriminate; [apply s_consistent|reflexivity|intros _; repeat split|].
  exists (header_out all_on hd_J), F', G', E'. split; [exact H|]. split; [exact D|]. split; [exact N1|]. split; [exact N2|]. split; [exact N3|].
  clear D N1 N2 N3. vm_compute in H. injection H as <- <- <-. split; [vm_compute; reflexivity|]. split.
  - eexists. split; [left; reflexivity|]. split; reflexivity.
  - eexists _, _. vm_compute. reflexivity.
Qed.
