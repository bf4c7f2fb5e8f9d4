(** C124: the figure of flash locations within moving polygons. *)
From Coq Require Import String Ascii List ZArith QArith Bool Lia Lqa Permutation Sorting.Sorted.
From Verif Require Import Base BaseProofs FileName FileNameSpec FileNameProofs FileNameProofs2 Traversal TraversalSpec TraversalProofs Glm GlmSpec GlmProofs GlmProofs2 GlmProofs3 PropGlm
  Pipeline ChunkSpec PropChunks Points PointsSpec PointsProofs PropPoints GridSetup GridSetupSpec GridSetupProofs Output OutputSpec OutputProofs OutputProofs2 OutputProofs3 PlotFiles PlotFilesProofs
  LassoTable LassoTableSpec PropLassoTable Spectra SpectraSpec PropSpectra Centroids.
Import ListNotations.
Open Scope string_scope.
Open Scope list_scope.
Open Scope Z_scope.

Local Notation fval := Glm.fval.

Lemma least_ok : forall l m, least l = Ok m -> forall x, In x l -> (m <= x)%Q.
Proof.
  intros [|a r] m H x Hx; [discriminate|]. cbn in H. injection H as <-. revert a x Hx. induction r as [|b r IH]; intros a x Hx.
  - destruct Hx as [->|[]]. cbn. lra.
  - cbn [fold_left]. destruct (Qle_bool a b) eqn:E.
    + apply Qle_bool_iff in E. destruct Hx as [->|[->|Hx]]; [apply IH; left; auto| |apply IH; right; auto]. eapply Qle_trans; [apply (IH a a); left; auto|exact E].
    + assert (L : (b <= a)%Q) by (destruct (Qlt_le_dec b a); [lra|apply Qle_bool_iff in q; congruence]). destruct Hx as [->|[->|Hx]]; [eapply Qle_trans; [apply (IH b b); left; auto|exact L]|apply IH; left; auto|apply IH; right; auto].
Qed.
Lemma greatest_ok : forall l m, greatest l = Ok m -> forall x, In x l -> (x <= m)%Q.
Proof.
  intros [|a r] m H x Hx; [discriminate|]. cbn in H. injection H as <-. revert a x Hx. induction r as [|b r IH]; intros a x Hx.
  - destruct Hx as [->|[]]. cbn. lra.
  - cbn [fold_left]. destruct (Qle_bool b a) eqn:E.
    + apply Qle_bool_iff in E. destruct Hx as [->|[->|Hx]]; [apply IH; left; auto| |apply IH; right; auto]. eapply Qle_trans; [exact E|apply (IH a a); left; auto].
    + assert (L : (a <= b)%Q) by (destruct (Qlt_le_dec a b); [lra|apply Qle_bool_iff in q; congruence]). destruct Hx as [->|[->|Hx]]; [eapply Qle_trans; [exact L|apply (IH b b); left; auto]|apply IH; left; auto|apply IH; right; auto].
Qed.
Lemma window_edges : forall A (edges : list A) e, In e (windows_of edges) -> In (fst e) edges /\ In (snd e) edges.
Proof.
  intros A edges [a b] H. unfold windows_of in H. cbn. split; [eapply in_combine_l; exact H|]. apply in_combine_r in H. destruct edges; [destruct H|right; exact H].
Qed.

(** The color of every point is within the scale. *)
Theorem C124_colors : forall set_order junk disk parent_base names t_start t_end edges lonr latr lasso o outdir g pts lon lat v,
  flash_centroids set_order junk disk parent_base names t_start t_end edges lonr latr lasso o outdir = Ok g ->
  In pts (cf_points g) -> In (lon, lat, v) pts -> exists s, v = Some s /\ (cf_low g <= s)%Q /\ (s < cf_high g)%Q.
Proof.
  intros so junk disk pb names t_start t_end edges lonr latr lasso o outdir g pts lon lat v H Hp Hv. unfold flash_centroids in H. apply bind_ok_inv in H. destruct H as (files & _ & H). cbv zeta in H.
  set (base := pb (nanos t_start) None) in H. unfold event_flash_series in H. rewrite map_map in H.
  match type of H with match map ?f _ with _ => _ end = _ => set (win := f) in H end.
  assert (H' : (low <- least (map (edge_seconds base) edges) ;; high <- greatest (map (edge_seconds base) edges) ;;
    Ok (mkCentroids (centroid_file outdir t_start t_end) low high (map (fun w => scatter (snd w)) (map win (windows_of edges))))) = Ok g) by (destruct (windows_of edges); [discriminate|exact H]). clear H.
  apply bind_ok_inv in H'. destruct H' as (low & L & H). apply bind_ok_inv in H. destruct H as (high & G & H). injection H as <-. cbn [cf_points cf_low cf_high] in *.
  rewrite map_map in Hp. apply in_map_iff in Hp. destruct Hp as (e & <- & He). unfold scatter in Hv. apply in_map_iff in Hv. destruct Hv as (p & Ep & Hv). injection Ep as <- <- <-.
  unfold win in Hv. rewrite window_flashes in Hv. apply in_concat in Hv. destruct Hv as (l & Hl & Hv). apply in_map_iff in Hl. destruct Hl as (w & <- & _). apply filter_In in Hv. destruct Hv as [_ K].
  unfold keep in K. rewrite !andb_true_iff in K. destruct K as [[K _] _]. unfold in_window in K. destruct (p_start p) as [s|]; [|discriminate]. exists s. split; [reflexivity|].
  rewrite andb_true_iff in K. destruct K as [K1 K2]. apply Qle_bool_iff in K1. assert (K3 : (s < edge_seconds base (snd e))%Q) by (apply Qnot_le_lt; intros X; apply Qle_bool_iff in X; rewrite X in K2; discriminate).
  destruct (window_edges _ _ _ He) as [E1 E2]. pose proof (least_ok _ _ L _ (in_map (edge_seconds base) _ _ E1)). pose proof (greatest_ok _ _ G _ (in_map (edge_seconds base) _ _ E2)).
  split; [eapply Qle_trans; eassumption|eapply Qlt_le_trans; eassumption].
Qed.
Print Assumptions C124_colors.

Lemma same_length : forall A (a b r s : list A), List.length a = List.length b -> a ++ r = b ++ s -> r = s.
Proof. induction a as [|x a IH]; intros [|y b] r s L E; try discriminate; [exact E|]. cbn in E. injection E as _ E. injection L as L. eapply IH; eauto. Qed.
Lemma compact_length : forall d, List.length (compact_time d) = 12%nat.
Proof. intros d. rewrite compact_eq, !app_length, !pad_length. reflexivity. Qed.
(** Figures of one directory for times that differ have different names, to the second and within a
    century. *)
Theorem C124_names : forall century outdir s e s' e', in_century century s -> in_century century e -> in_century century s' -> in_century century e' ->
  centroid_file outdir s e = centroid_file outdir s' e' -> to_second s = to_second s' /\ to_second e = to_second e'.
Proof.
  intros cc outdir s e s' e' C1 C2 C3 C4 H. unfold centroid_file in H.
  assert (E : lit "flash_ctr_" ++ compact_time s ++ lit "_" ++ compact_time e ++ lit ".png" = lit "flash_ctr_" ++ compact_time s' ++ lit "_" ++ compact_time e' ++ lit ".png").
  { unfold join in H. destruct (rev outdir) as [|c r]; [exact H|]. destruct (Ascii.eqb c "/"); apply app_inv_head in H; [exact H|apply (f_equal (@tl ascii)) in H; exact H]. }
  apply app_inv_head in E. split; [eapply compact_second; [exact C1|exact C3|exact E]|].
  apply same_length in E; [|rewrite !compact_length; reflexivity]. apply app_inv_head in E. eapply compact_second; [exact C2|exact C4|exact E].
Qed.
Print Assumptions C124_names.

Section Counting.
Variables (base : Z) (lasso : fval -> fval -> fval -> bool) (o : stat_options) (f : glmfile) (x : row obs).
Local Notation C e := (counts base lasso (so_area o) (so_alt o) (so_energy o) (so_events o) (so_groups o) e f x).
Lemma counts_split : forall a b c, instant a <= instant b -> instant b <= instant c -> (C (a, c) <-> C (a, b) \/ C (b, c)).
Proof.
  intros a b c AB BC. split.
  - intros (F & G & E & EF & Hx & T & K). cbn [fst snd] in T. destruct (Z_lt_ge_dec (t_first (g_clock f) (rid x)) (ns b)); [left|right]; exists F, G, E; (split; [exact EF|]); (split; [exact Hx|]); (split; [cbn [fst snd]; lia|exact K]).
  - intros [K|K]; destruct K as (F & G & E & EF & Hx & T & K); exists F, G, E; (split; [exact EF|]); (split; [exact Hx|]); (split; [cbn [fst snd] in *; unfold ns in *; lia|exact K]).
Qed.
Lemma counts_apart : forall a b c, C (a, b) -> C (b, c) -> False.
Proof. intros a b c (F & G & E & _ & _ & T & _) (F' & G' & E' & _ & _ & T' & _). cbn [fst snd] in *. lia. Qed.
Lemma counts_none : forall a, C (a, a) -> False.
Proof. intros a (F & G & E & _ & _ & T & _). cbn [fst snd] in *. lia. Qed.
End Counting.

(** When every file has a flash in the rectangle around the polygons: the points are, each once, the
    flashes that count for the time from the first to the last edge, at their place, with the
    seconds of their start as color. *)
Theorem C124_points_partial : forall set_order junk, (forall l, Permutation (set_order l) l) ->
  forall disk parent_base size_stats names ts t_start t_end first rest lonr latr lasso o outdir,
  run_ok disk size_stats names ts lonr latr lasso -> (forall n, In n names -> has_near disk lonr latr o n) -> rest <> [] ->
  StronglySorted (fun a b => instant a < instant b) (first :: rest) ->
  let base := parent_base (nanos t_start) None in
  exists g flashes, flash_centroids set_order junk disk parent_base names t_start t_end (first :: rest) lonr latr lasso o outdir = Ok g /\
    NoDup flashes /\
    (forall n x, In (n, x) flashes <-> In n names /\ exists f, disk n = Ok f /\
       counts base lasso (so_area o) (so_alt o) (so_energy o) (so_events o) (so_groups o) (first, last rest first) f x) /\
    Forall2 (fun nx pt => exists f s, disk (fst nx) = Ok f /\ pt = (o_lon (rdat (snd nx)), o_lat (rdat (snd nx)), Some s) /\
       (s * inject_Z 1000000000 == inject_Z (t_first (g_clock f) (rid (snd nx)) - base))%Q) flashes (List.concat (cf_points g)).
Proof.
  intros so junk HP disk pb stats names ts t_start t_end first rest lonr latr lasso o outdir R HN NE S base.
  destruct (series_cases so junk HP disk pb stats names ts (nanos t_start) lonr latr lasso o R) as [OKC _]. destruct (OKC HN) as (w & order & PN & SS & W). clear OKC. fold base in W.
  assert (ND : NoDup order) by (eapply Permutation_NoDup; [apply Permutation_sym; exact PN|apply (names_distinct disk names ts); apply R]).
  unfold flash_centroids. fold (box_query lonr latr o). rewrite SS. cbn [bind]. fold base. unfold event_flash_series. rewrite map_map. cbv zeta.
  match goal with |- context [map ?f (windows_of _)] => set (win := f) end.
  set (PS := fun e => List.concat (map (fun n => filter (keep base lasso o e) (snd (w n))) order)).
  assert (WP : forall e, snd (win e) = PS e) by (intros e; unfold win; pose proof (window_flashes base lasso o e (map w order)) as WF; cbv zeta in WF; rewrite WF, map_map; reflexivity).
  assert (ALL : forall e, exists rows, NoDup rows /\
     (forall n x, In (n, x) rows <-> In n names /\ exists f, disk n = Ok f /\ counts base lasso (so_area o) (so_alt o) (so_energy o) (so_events o) (so_groups o) e f x) /\
     Forall2 (fun nx p => exists f, disk (fst nx) = Ok f /\ parent_point (t_first (g_clock f)) (t_last (g_clock f)) (Some base) (fun f => o_area (rdat f)) (snd nx) p) rows (PS e)).
  { intros e. destruct (all_rows so junk HP base lonr latr lasso o (r_box _ _ _ _ _ _ _ R) disk w e order ND W) as (rows & A & B & C). exists rows. split; [auto|]. split; [|exact C].
    intros n x. rewrite B. split; intros [Hn K]; (split; [|exact K]); [eapply Permutation_in; [exact PN|exact Hn]|eapply Permutation_in; [apply Permutation_sym; exact PN|exact Hn]]. }
  clearbody win PS. clear SS W HN R.
  set (pts := fun edges => List.concat (map (fun w => scatter (snd w)) (map win (windows_of edges)))).
  assert (MAIN : exists flashes, NoDup flashes /\
    (forall n x, In (n, x) flashes <-> In n names /\ exists f, disk n = Ok f /\
       counts base lasso (so_area o) (so_alt o) (so_energy o) (so_events o) (so_groups o) (first, last rest first) f x) /\
    Forall2 (fun nx pt => exists f s, disk (fst nx) = Ok f /\ pt = (o_lon (rdat (snd nx)), o_lat (rdat (snd nx)), Some s) /\
       (s * inject_Z 1000000000 == inject_Z (t_first (g_clock f) (rid (snd nx)) - base))%Q) flashes (pts (first :: rest))).
  { clear NE. revert first S. induction rest as [|b rest IH]; intros first S.
    - exists []. split; [constructor|]. split; [|constructor]. intros n x. split; [intros []|]. intros (_ & f & _ & K). cbn [last] in K. exfalso. eapply counts_none. exact K.
    - inversion S as [|? ? S' A]; subst. destruct (IH b S') as (fl & N & I & P). destruct (ALL (first, b)) as (rows & N1 & I1 & P1).
      assert (AB : instant first <= instant b) by (inversion A; subst; lia).
      assert (BL : instant b <= instant (last rest b)).
      { inversion S' as [|? ? _ B]; subst. clear - B. destruct rest as [|c r]; [cbn; lia|]. rewrite Forall_forall in B. apply Z.lt_le_incl. apply B. rewrite last_step. clear.
        revert c. induction r as [|d r IH]; intros c; [left; reflexivity|]. rewrite last_step. right. apply IH. }
      exists (rows ++ fl). split; [|split].
      + apply nodup_app; auto. intros [n x] H1 H2. apply I1 in H1. apply I in H2. destruct H1 as (_ & f & D & K1). destruct H2 as (_ & f' & D' & K2). assert (f' = f) by congruence. subst f'. exact (counts_apart base lasso o f x _ _ _ K1 K2).
      + intros n x. rewrite in_app_iff, I1, I, last_step. split.
        * intros [(Hn & f & D & K)|(Hn & f & D & K)]; (split; [exact Hn|]); exists f; (split; [exact D|]); apply (counts_split base lasso o f x first b (last rest b) AB BL); auto.
        * intros (Hn & f & D & K). apply (counts_split base lasso o f x first b (last rest b) AB BL) in K. destruct K as [K|K]; [left|right]; (split; [exact Hn|]); exists f; auto.
      + unfold pts. change (windows_of (first :: b :: rest)) with ((first, b) :: windows_of (b :: rest)). cbn [map List.concat]. apply Forall2_app; [|exact P].
        rewrite WP. unfold scatter. revert P1. generalize (PS (first, b)). intros ps0 P1. clear - P1. induction P1 as [|[n x] p rows ps (f & D & Q) _ IH]; [constructor|]. cbn [map]. constructor; [|exact IH]. cbn [fst snd] in *.
        destruct Q as (_ & _ & _ & _ & _ & Q1 & Q2 & _ & _ & _ & Q3 & _). cbn [seconds_from] in Q3. destruct Q3 as (s & Es & Hs). exists f, s. split; [exact D|]. split; [rewrite Q1, Q2, Es; reflexivity|exact Hs]. }
  destruct MAIN as (fl & N & I & P). destruct rest as [|b rest]; [congruence|].
  exists (mkCentroids (centroid_file outdir t_start t_end)
     (fold_left (fun m x => if Qle_bool m x then m else x) (map (edge_seconds base) (b :: rest)) (edge_seconds base first))
     (fold_left (fun m x => if Qle_bool x m then m else x) (map (edge_seconds base) (b :: rest)) (edge_seconds base first))
     (map (fun w => scatter (snd w)) (map win (windows_of (first :: b :: rest))))), fl.
  split; [reflexivity|]. split; [exact N|]. split; [exact I|]. exact P.
Qed.
Print Assumptions C124_points_partial.

(** The two files of C114: two points, 1 s and 11 s after the base date, on a scale from 0 to 30 s. *)
Example C124_ex : StronglySorted (fun a b => instant a < instant b) lt_edges /\ Forall (in_century 0) lt_edges /\
  exists g, flash_centroids (fun l => l) (fun _ => mkChild 0 0 None None None None) lt_disk lt_base ["b"; "a"] (mkDT 1 1 0 0 0 0) (mkDT 1 1 0 0 30 0) lt_edges (0, 5 # 2)%Q (0, 2)%Q west (lt_opts 1) (lit "out") = Ok g /\
    cf_path g = lit "out/flash_ctr_010101000000_010101000030.png" /\ map (@List.length _) (cf_points g) = [1; 1; 0]%nat.
Proof.
  split; [|split].
  - repeat constructor.
  - apply C116_hypotheses.
  - eexists. split; [vm_compute; reflexivity|]. split; vm_compute; reflexivity.
Qed.
