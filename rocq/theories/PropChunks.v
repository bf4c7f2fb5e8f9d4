(** C26: reading the flashes of a file in chunks. *)
From Coq Require Import String List ZArith QArith Qabs Bool Lia Permutation Sorting.Sorted.
From Verif Require Import Base BaseProofs Traversal TraversalSpec TraversalProofs TraversalProofs2 TraversalProofs3 TraversalProofs4 Glm GlmSpec GlmProofs GlmProofs2 GlmProofs3
  Lut LutSpec LutProofs PropGlm PropLut Accum AccumSpec Poly PolySpec BBox BBoxSpec Slice SliceSpec Regroup Pipeline PipelineSpec PipelineProofs PropSlice PropPipeline ChunkSpec ChunkProofs.
Import ListNotations.
Open Scope Z_scope.

Local Notation tbl := (table obs).

(** What a call selects, in a form that covers calls with and without conditions. *)
Lemma selection_exists : forall set_order, (forall l, Permutation (set_order l) l) ->
  forall (F G E : tbl) q, derived_ok F G E -> F <> [] -> G <> [] -> E <> [] ->
  (forall q', q = Some q' -> q_check q' = true) ->
  exists F2 G2 E2, selection set_order [F; G; E] q [F2; G2; E2] /\
    (forall f, In f F2 -> In f F) /\
    (forall g, In g G2 <-> In g G /\ exists f, In f F2 /\ rid f = rpid g) /\
    (forall e, In e E2 <-> In e E /\ exists g, In g G2 /\ rid g = rpid e) /\
    derived_ok F2 G2 E2.
Proof.
  intros so HP F G E q D nF nG nE HQ. destruct q as [q|].
  - destruct (C12_subset_exact so HP F G E q D nF nG nE (HQ q eq_refl)) as (F2 & G2 & E2 & S & H1 & H2 & H3 & D2).
    exists F2, G2, E2. split; [exact S|]. split; [intros f Hf; apply H1 in Hf; tauto|]. auto.
  - exists F, G, E. split; [reflexivity|]. split; [auto|]. destruct D as ((U & O) & D). pose proof O as O'. apply linked_no_orphans in O'. destruct O' as [L1 L2].
    split; [intros g; split; [intros Hg; split; [auto|apply L1; auto]|tauto]|].
    split; [intros e; split; [intros He; split; [auto|apply L2; auto]|tauto]|]. split; [split; auto|exact D].
Qed.

(** Whatever the chunk size, the chunks split the selection: every flash, group and event
    of the selection is in exactly one chunk, whole flashes stay together with all their
    groups and events, no chunk is empty, and none has [2 * chunk_size] flashes or more. *)
Theorem C26_chunks_split_selection : forall set_order, (forall l, Permutation (set_order l) l) ->
  forall chunk_size (F G E : tbl) q, (0 < chunk_size)%nat -> derived_ok F G E -> F <> [] -> G <> [] -> E <> [] ->
  (forall q', q = Some q' -> q_check q' = true) ->
  exists sel chunks, selection set_order [F; G; E] q sel /\
    flash_chunks set_order chunk_size [F; G; E] q = Ok chunks /\ splits chunks sel /\
    even (map (fun c => nth 0 c []) chunks) /\
    (forall c, In c chunks -> exists Fi Gi Ei, c = [Fi; Gi; Ei] /\ derived_ok Fi Gi Ei /\
       Fi <> [] /\ (List.length Fi < 2 * chunk_size)%nat /\
       (forall g, In g G -> (exists f, In f Fi /\ rid f = rpid g) -> In g Gi) /\
       (forall e, In e E -> (exists g, In g Gi /\ rid g = rpid e) -> In e Ei)).
Proof.
  intros so HP cs F G E q Hcs D nF nG nE HQ.
  destruct (selection_exists so HP F G E q D nF nG nE HQ) as (F2 & G2 & E2 & S & HF2 & HG2 & HE2 & D2).
  exists [F2; G2; E2].
  assert (SEL : match q with None => Ok [F; G; E] | Some q => subset_flashes so [F; G; E] q end = Ok [F2; G2; E2]).
  { destruct q; [exact S|]. cbn in S. rewrite S. reflexivity. }
  pose proof D as D'. destruct D' as ((U & O) & _). apply unique3 in U. destruct U as (NF & NG & NE).
  pose proof D2 as D2'. destruct D2' as ((U2 & O2) & _). apply unique3 in U2. destruct U2 as (NF2 & NG2 & NE2).
  apply linked_no_orphans in O2. destruct O2 as [L1 L2].
  unfold flash_chunks. rewrite SEL. cbn [bind]. rewrite map_length.
  destruct (Nat.eqb_spec (List.length F2) 0) as [Z0|NZ].
  - exists []. assert (F2 = []) by (destruct F2; [reflexivity|discriminate]). subst F2.
    assert (G2 = []) by (destruct G2 as [|g ?]; [reflexivity|destruct (L1 g (or_introl eq_refl)) as (? & [] & _)]). subst G2.
    assert (E2 = []) by (destruct E2 as [|g ?]; [reflexivity|destruct (L2 g (or_introl eq_refl)) as (? & [] & _)]). subst E2.
    split; [exact S|]. split; [reflexivity|]. split; [exists [], [], []; split; [reflexivity|]; split; [constructor|]; cbn; auto|]. split; [intros ? ? []|intros ? []].
  - set (ids := map rid F2). set (n := n_chunks cs (List.length F2)).
    destruct (chunk_count cs (List.length F2) Hcs ltac:(lia)) as (K0 & K1 & K2). fold n in K0, K1, K2.
    destruct (array_split_spec Z ids n K0) as (A1 & A2 & A3 & A4). set (parts := array_split ids n) in *.
    assert (LI : List.length ids = List.length F2) by (unfold ids; apply map_length). rewrite LI in A4.
    exists (map (fun p => [lev0 F p; lev1 G p; lev2 G E p]) parts).
    assert (ND : NoDup ids) by exact NF2.
    assert (PN : forall p, In p parts -> NoDup p).
    { intros p Hp. rewrite <- A1 in ND. clear -ND Hp. induction parts as [|a parts IH]; [destruct Hp|]. cbn in ND. destruct Hp as [->|Hp].
      - clear -ND. induction p as [|x p IH]; [constructor|]. inversion ND; subst. constructor; [intros K; apply H1, in_or_app; auto|auto].
      - apply IH; auto. clear -ND. induction a; [exact ND|apply IHa; inversion ND; auto]. }
    assert (PI : forall p, In p parts -> incl p (map rid F2)).
    { intros p Hp x Hx. fold ids. rewrite <- A1. apply in_concat. eauto. }
    assert (F2F : incl (map rid F2) (map rid F)) by (intros x Hx; apply in_map_iff in Hx; destruct Hx as (f & <- & Hf); apply in_map; auto).
    assert (L0 : forall p, In p parts -> map rid (lev0 F p) = p).
    { intros p Hp. assert (HI : incl p (map rid F)) by (intros x Hx; apply F2F, (PI p Hp); auto). clear -NF HI. unfold lev0. induction p as [|i p IH]; [reflexivity|].
      cbn [flat_map]. rewrite map_app, IH by (intros x Hx; apply HI; right; auto). assert (K : In i (map rid F)) by (apply HI; left; auto). apply in_map_iff in K.
      destruct K as (f & <- & Hf). rewrite with_id_self; auto. }
    assert (SZ : forall p, In p parts -> (1 <= List.length p < 2 * cs)%nat).
    { intros p Hp. destruct (A4 p Hp) as [->|[-> R]].
      - destruct (Nat.eqb (Nat.modulo (List.length F2) n) 0); lia.
      - destruct (Nat.eqb_spec (Nat.modulo (List.length F2) n) 0); lia. }
    split; [exact S|]. split; [|split; [|split]].
    + clearbody parts. clear -nF nG nE. induction parts as [|p parts IH]; [reflexivity|]. cbn [map_res map]. rewrite get_flashes_levels by auto. cbn [bind]. rewrite IH. reflexivity.
    + exists F2, G2, E2. split; [reflexivity|]. rewrite !map_map. cbn [nth].
      split; [apply Forall_forall; intros c Hc; apply in_map_iff in Hc; destruct Hc as (p & <- & _); reflexivity|].
      split; [|split].
      * unfold lev0. rewrite <- flat_map_concat'. rewrite A1. apply (lev0_sub F F2); auto.
      * unfold lev1. rewrite <- flat_map_concat'. rewrite A1. apply NoDup_Permutation.
        -- eapply Permutation_NoDup; [apply Permutation_sym, (lev1_perm G ids ND)|]. apply NoDup_filter. eapply nodup_of_map; eauto.
        -- eapply nodup_of_map; eauto.
        -- intros g. change (In g (lev1 G ids) <-> In g G2). rewrite in_lev1, HG2. unfold ids. rewrite in_map_iff. split; intros [h (f & K)]; split; auto; exists f; tauto.
      * change (Permutation (List.concat (map (lev2 G E) parts)) E2). rewrite <- lev2_concat, A1. apply NoDup_Permutation.
        -- eapply Permutation_NoDup; [apply Permutation_sym, (lev2_perm G E ids ND NG)|]. apply NoDup_filter. eapply nodup_of_map; eauto.
        -- eapply nodup_of_map; eauto.
        -- intros e. rewrite in_lev2, HE2. split.
           ++ intros (He & g & Hg & Hi & Eg). split; auto. exists g. split; auto. apply HG2. split; auto. unfold ids in Hi. apply in_map_iff in Hi. destruct Hi as (f & K1' & K2'). exists f. auto.
           ++ intros (He & g & Hg & Eg). split; auto. apply HG2 in Hg. destruct Hg as (Hg & f & Hf & Ef). exists g. split; auto. split; auto. unfold ids. rewrite <- Ef. apply in_map. auto.
    + intros c c' Hc Hc'. rewrite map_map in Hc, Hc'. apply in_map_iff in Hc, Hc'. destruct Hc as (p & <- & Hp). destruct Hc' as (p' & <- & Hp'). cbn [nth].
      rewrite <- (map_length rid (lev0 F p)), <- (map_length rid (lev0 F p')), (L0 p Hp), (L0 p' Hp'). apply A3; auto.
    + intros c Hc. apply in_map_iff in Hc. destruct Hc as (p & <- & Hp). exists (lev0 F p), (lev1 G p), (lev2 G E p). split; [reflexivity|].
      pose proof (SZ p Hp) as [s1 s2]. assert (LL : List.length (lev0 F p) = List.length p) by (rewrite <- (map_length rid), (L0 p Hp); reflexivity).
      split; [apply levels_derived; auto; intros x Hx; apply F2F, (PI p Hp); auto|].
      split; [intros K; rewrite K in LL; cbn in LL; lia|]. split; [lia|]. split.
      * intros g Hg (f & Hf & Ef). apply in_lev0 in Hf. apply in_lev1. split; auto. rewrite <- Ef. tauto.
      * intros e He (g & Hg & Eg). apply in_lev1 in Hg. apply in_lev2. split; auto. exists g. tauto.
Qed.
Print Assumptions C26_chunks_split_selection.

(** * What is known about a pixel does not depend on the chunks *)
Section Tables.
Variable weird : fval -> Z.
Variables (scale : Q) (xr yr : Q * Q).
Let pixel (e : row obs) : Z := discretize weird scale xr yr (o_x (rdat e)) (o_y (rdat e)).
Let table_of (ds : list tbl) L := get_lutevents weird scale xr yr ds = Ok L.

Lemma one_table : forall (F G E : tbl) L k, numbers (areas F) -> numbers (areas G) -> numbers (energies E) ->
  NoDup (map rid F) -> NoDup (map rid G) -> table_of [F; G; E] L ->
  let C := cell_events pixel E k in
  (pixel_sum (fun r => qnat (lu_count r)) k [L] == qnat (List.length C))%Q /\
  (pixel_sum (fun r => num (lu_energy r)) k [L] == total (energies C))%Q /\
  (pixel_sum (fun r => qnat (lu_fcount r)) k [L] == qnat (List.length (flashes_of F C)))%Q /\
  (pixel_sum (fun r => qnat (lu_gcount r)) k [L] == qnat (List.length (groups_of G C)))%Q /\
  (pixel_sum (fun r => num (lu_farea r)) k [L] == total (areas (flashes_of F C)))%Q /\
  (pixel_sum (fun r => num (lu_garea r)) k [L] == total (areas (groups_of G C)))%Q /\
  (rows_at k [L] = [] <-> C = []) /\
  (forall r, In r (rows_at k [L]) -> least_of (areas (flashes_of F C)) (lu_minarea r)).
Proof.
  intros F G E L k NF NG NE UF UG H C.
  destruct (C24_table_conserves weird scale xr yr F G E L NF NG NE H) as (SS & IDS & ROWS & _).
  assert (ND : NoDup (map lu_id L)).
  { clear -SS. induction SS as [|a l S IH FA]; [constructor|]. constructor; auto. intros K. rewrite Forall_forall in FA. specialize (FA a K). lia. }
  destruct (in_dec Z.eq_dec k (map lu_id L)) as [K|K].
  - apply in_map_iff in K. destruct K as (r & Er & Hr).
    assert (RA : rows_at k [L] = [r]).
    { unfold rows_at. cbn [List.concat]. rewrite app_nil_r, <- Er. apply (filter_key_unique _ lu_id L r ND Hr). }
    destruct (ROWS r Hr) as (c1 & c2 & c3). destruct (C25_counts_areas_minima weird scale xr yr F G E L r NF NG H Hr) as (_ & _ & _ & c4 & c5 & c6).
    destruct (C25_each_flash_once weird scale xr yr F G E L r NF NG UF UG H Hr) as (c7 & c8).
    rewrite Er in *. fold pixel in c1, c2, c3, c4, c5, c6, c7, c8. fold C in c1, c2, c3, c4, c5, c6, c7, c8.
    assert (ONE : forall f, (pixel_sum f k [L] == f r)%Q) by (intros f; unfold pixel_sum; rewrite RA; cbn; ring).
    rewrite !ONE, c2, c7, c8, RA.
    assert (NM : forall v q, is_num v q -> (num v == q)%Q) by (intros v q (x & -> & Ex); exact Ex).
    split; [reflexivity|]. split; [apply NM; auto|]. split; [reflexivity|]. split; [reflexivity|]. split; [apply NM; auto|]. split; [apply NM; auto|].
    split; [split; [discriminate|intros KK; contradiction]|]. intros r' [<-|[]]. exact c6.
  - assert (CE : C = []).
    { destruct C as [|e C'] eqn:EC; [reflexivity|]. exfalso. apply K. apply IDS. assert (He : In e C) by (rewrite EC; left; auto). apply filter_In in He. exists e. destruct He as [h1 h2]. apply Z.eqb_eq in h2. auto. }
    assert (RA : rows_at k [L] = []).
    { unfold rows_at. cbn [List.concat]. rewrite app_nil_r. apply filter_none. intros r Hr. apply Z.eqb_neq. intros Er. apply K. rewrite <- Er. apply in_map; auto. }
    unfold pixel_sum. rewrite RA, CE. unfold flashes_of, groups_of. cbn [existsb energies map].
    rewrite (filter_none _ (fun _ : row obs => false) F) by auto. rewrite (filter_none _ (fun _ : row obs => false) G) by auto. cbn.
    repeat (split; [reflexivity|]). split; [split; auto|]. intros r [].
Qed.

Section Whole.
Variables (F G E : tbl) (L : list lutrow) (chunks : list (list tbl)) (tables : list (list lutrow)).
Hypothesis NF : numbers (areas F).
Hypothesis NG : numbers (areas G).
Hypothesis NE : numbers (energies E).
Hypothesis UF : NoDup (map rid F).
Hypothesis UG : NoDup (map rid G).
Hypothesis SP : splits chunks [F; G; E].
Hypothesis HT : Forall2 table_of chunks tables.
Hypothesis HL : table_of [F; G; E] L.
Let c0 (c : list tbl) := nth 0 c [].
Let c1 (c : list tbl) := nth 1 c [].
Let c2 (c : list tbl) := nth 2 c [].

Lemma sp_facts : F = flat_map c0 chunks /\ Permutation (flat_map c1 chunks) G /\ Permutation (flat_map c2 chunks) E /\
  (forall c, In c chunks -> c = [c0 c; c1 c; c2 c]).
Proof.
  destruct SP as (F' & G' & E' & EQ & L3 & HF & HG & HE). inversion EQ; subst F' G' E'. rewrite !flat_map_concat_map. split; [auto|]. split; [auto|]. split; [auto|].
  intros c Hc. rewrite Forall_forall in L3. specialize (L3 c Hc). destruct c as [|a [|b [|d [|? ?]]]]; try discriminate. reflexivity.
Qed.
Lemma sub_nums : forall (v : row obs -> fval) (T T' : tbl), (forall x, In x T' -> In x T) -> numbers (map v T) -> numbers (map v T').
Proof. intros v T T' H N x Hx. apply in_map_iff in Hx. destruct Hx as (r & <- & Hr). apply N. apply in_map. auto. Qed.

Lemma chunk_facts : forall c t k, In c chunks -> table_of c t ->
  let C := cell_events pixel (c2 c) k in
  (pixel_sum (fun r => qnat (lu_count r)) k [t] == qnat (List.length C))%Q /\
  (pixel_sum (fun r => num (lu_energy r)) k [t] == total (energies C))%Q /\
  (pixel_sum (fun r => qnat (lu_fcount r)) k [t] == qnat (List.length (flashes_of (c0 c) C)))%Q /\
  (pixel_sum (fun r => qnat (lu_gcount r)) k [t] == qnat (List.length (groups_of (c1 c) C)))%Q /\
  (pixel_sum (fun r => num (lu_farea r)) k [t] == total (areas (flashes_of (c0 c) C)))%Q /\
  (pixel_sum (fun r => num (lu_garea r)) k [t] == total (areas (groups_of (c1 c) C)))%Q /\
  (rows_at k [t] = [] <-> C = []) /\
  (forall r, In r (rows_at k [t]) -> least_of (areas (flashes_of (c0 c) C)) (lu_minarea r)) /\
  (forall e, In e (c2 c) -> In (o_flash (rdat e)) (map rid (c0 c)) /\ In (rpid e) (map rid (c1 c))).
Proof.
  intros c t k Hc Ht. destruct sp_facts as (EF & PG & PE & E3).
  assert (n0 : numbers (areas (c0 c))) by (apply (sub_nums _ F); auto; intros x Hx; rewrite EF; apply in_flat_map; eauto).
  assert (n1 : numbers (areas (c1 c))) by (apply (sub_nums _ G); auto; intros x Hx; apply (Permutation_in _ PG); apply in_flat_map; eauto).
  assert (n2 : numbers (energies (c2 c))) by (apply (sub_nums _ E); auto; intros x Hx; apply (Permutation_in _ PE); apply in_flat_map; eauto).
  assert (ND : forall (a : list tbl -> tbl), NoDup (map rid (flat_map a chunks)) -> NoDup (map rid (a c))).
  { intros a N. clear -N Hc. induction chunks as [|d ch IH]; [destruct Hc|]. cbn [flat_map] in N. rewrite map_app in N. destruct Hc as [->|Hc].
    - clear -N. induction (map rid (a c)) as [|x l IH]; [constructor|]. inversion N; subst. constructor; [intros K; apply H1, in_or_app; auto|auto].
    - apply IH; auto. clear -N. induction (map rid (a d)); [exact N|apply IHl; inversion N; auto]. }
  assert (u0 : NoDup (map rid (c0 c))) by (apply ND; rewrite <- EF; auto).
  assert (u1 : NoDup (map rid (c1 c))) by (apply ND; eapply Permutation_NoDup; [apply Permutation_map, Permutation_sym, PG|auto]).
  pose proof Ht as Ht'. rewrite (E3 c Hc) in Ht'. pose proof (one_table (c0 c) (c1 c) (c2 c) t k n0 n1 n2 u0 u1 Ht') as (h1 & h2 & h3 & h4 & h5 & h6 & h7 & h8).
  intros C. repeat (split; [assumption|]).
  intros e He. destruct (C24_table_conserves weird scale xr yr _ _ _ t n0 n1 n2 Ht') as (_ & IDS & _ & _).
  assert (K : In (pixel e) (map lu_id t)) by (apply IDS; exists e; auto). apply in_map_iff in K. destruct K as (r & Er & Hr).
  destruct (C25_counts_areas_minima weird scale xr yr _ _ _ t r n0 n1 Ht' Hr) as (_ & _ & P & _). apply P. apply filter_In. split; auto. apply Z.eqb_eq. symmetry. exact Er.
Qed.
Lemma per_chunk : forall f k (V : list tbl -> Q), (forall c t, In c chunks -> table_of c t -> (pixel_sum f k [t] == V c)%Q) ->
  (pixel_sum f k tables == qsum (map V chunks))%Q.
Proof.
  intros f k V H. rewrite pixel_sum_tables. revert H. clear -HT. induction HT as [|c t ch ts Hc Hr IH]; intros H; [reflexivity|].
  cbn [map]. apply Qplus_comp; [apply (H c t (or_introl eq_refl) Hc)|]. apply (IH Hr). intros; apply H; auto. right; auto.
Qed.
Let C k := cell_events pixel E k.
Let Ci k c := cell_events pixel (c2 c) k.
Lemma cells_split : forall k, Permutation (flat_map (Ci k) chunks) (C k).
Proof. intros k. unfold Ci. rewrite <- cell_events_flat. apply filter_perm. apply sp_facts. Qed.
Lemma flashes_split : forall k, Permutation (flat_map (fun c => flashes_of (c0 c) (Ci k c)) chunks) (flashes_of F (C k)).
Proof.
  intros k. destruct sp_facts as (EF & PG & PE & E3). unfold flashes_of at 1. 
  rewrite <- (keyed_split _ (fun e => o_flash (rdat e)) c0 (Ci k) chunks).
  - rewrite <- EF. apply (keyed_perm (fun e => o_flash (rdat e))); [apply Permutation_refl|apply cells_split].
  - apply Forall_forall. intros c Hc e He. destruct (F2_in_l _ _ _ _ _ c HT Hc) as (t & _ & Ht). destruct (chunk_facts c t k Hc Ht) as (_ & _ & _ & _ & _ & _ & _ & _ & P).
    apply P. apply filter_In in He. tauto.
  - rewrite <- EF. exact UF.
Qed.
Lemma groups_split : forall k, Permutation (flat_map (fun c => groups_of (c1 c) (Ci k c)) chunks) (groups_of G (C k)).
Proof.
  intros k. destruct sp_facts as (EF & PG & PE & E3). unfold groups_of at 1.
  rewrite <- (keyed_split _ rpid c1 (Ci k) chunks).
  - apply (keyed_perm rpid); [exact PG|apply cells_split].
  - apply Forall_forall. intros c Hc e He. destruct (F2_in_l _ _ _ _ _ c HT Hc) as (t & _ & Ht). destruct (chunk_facts c t k Hc Ht) as (_ & _ & _ & _ & _ & _ & _ & _ & P).
    apply P. apply filter_In in He. tauto.
  - eapply Permutation_NoDup; [apply Permutation_map, Permutation_sym, PG|exact UG].
Qed.
Lemma total_map_perm : forall (v : row obs -> fval) T T', Permutation T T' -> (total (map v T) == total (map v T'))%Q.
Proof. intros. apply total_perm. apply Permutation_map. auto. Qed.

(** Every quantity of a pixel, summed over the tables of the chunks, is that of the table
    made of the whole selection, and the least of the minima is the minimum. *)
Theorem C26_pixels_do_not_depend_on_chunks : forall k,
  (pixel_sum (fun r => qnat (lu_count r)) k tables == pixel_sum (fun r => qnat (lu_count r)) k [L])%Q /\
  (pixel_sum (fun r => num (lu_energy r)) k tables == pixel_sum (fun r => num (lu_energy r)) k [L])%Q /\
  (pixel_sum (fun r => qnat (lu_fcount r)) k tables == pixel_sum (fun r => qnat (lu_fcount r)) k [L])%Q /\
  (pixel_sum (fun r => qnat (lu_gcount r)) k tables == pixel_sum (fun r => qnat (lu_gcount r)) k [L])%Q /\
  (pixel_sum (fun r => num (lu_farea r)) k tables == pixel_sum (fun r => num (lu_farea r)) k [L])%Q /\
  (pixel_sum (fun r => num (lu_garea r)) k tables == pixel_sum (fun r => num (lu_garea r)) k [L])%Q /\
  (rows_at k tables = [] <-> rows_at k [L] = []) /\
  (forall r, In r (rows_at k [L]) -> exists a, is_num (lu_minarea r) a /\ least_of (map lu_minarea (rows_at k tables)) (Some a)).
Proof.
  intros k. destruct (one_table F G E L k NF NG NE UF UG HL) as (h1 & h2 & h3 & h4 & h5 & h6 & h7 & h8).
  change (cell_events pixel E k) with (C k) in *.
  assert (CH : forall c t, In c chunks -> table_of c t -> _) by (intros c t Hc Ht; exact (chunk_facts c t k Hc Ht)).
  assert (ROWS : forall r, In r (rows_at k tables) <-> exists t, In t tables /\ In r (rows_at k [t])).
  { intros r. unfold rows_at. cbn [List.concat]. rewrite filter_In, in_concat. split.
    - intros [(t & Ht & Hr) Hk]. exists t. split; auto. rewrite app_nil_r. apply filter_In. auto.
    - intros (t & Ht & Hr). rewrite app_nil_r in Hr. apply filter_In in Hr. split; [exists t; tauto|tauto]. }
  rewrite h1, h2, h3, h4, h5, h6.
  split; [|split; [|split; [|split; [|split; [|split; [|split]]]]]].
  - rewrite (per_chunk _ k (fun c => qnat (List.length (Ci k c)))) by (intros c t Hc Ht; apply (CH c t Hc Ht)).
    unfold qnat. rewrite <- qnat_flat, (Permutation_length (cells_split k)). reflexivity.
  - rewrite (per_chunk _ k (fun c => total (energies (Ci k c)))) by (intros c t Hc Ht; apply (CH c t Hc Ht)).
    unfold energies. rewrite <- (total_flat _ _ (Ci k)). apply total_map_perm, cells_split.
  - rewrite (per_chunk _ k (fun c => qnat (List.length (flashes_of (c0 c) (Ci k c))))) by (intros c t Hc Ht; apply (CH c t Hc Ht)).
    unfold qnat. rewrite <- (qnat_flat _ _ (fun c => flashes_of (c0 c) (Ci k c))), (Permutation_length (flashes_split k)). reflexivity.
  - rewrite (per_chunk _ k (fun c => qnat (List.length (groups_of (c1 c) (Ci k c))))) by (intros c t Hc Ht; apply (CH c t Hc Ht)).
    unfold qnat. rewrite <- (qnat_flat _ _ (fun c => groups_of (c1 c) (Ci k c))), (Permutation_length (groups_split k)). reflexivity.
  - rewrite (per_chunk _ k (fun c => total (areas (flashes_of (c0 c) (Ci k c))))) by (intros c t Hc Ht; apply (CH c t Hc Ht)).
    unfold areas. rewrite <- (total_flat _ _ (fun c => flashes_of (c0 c) (Ci k c))). apply total_map_perm, flashes_split.
  - rewrite (per_chunk _ k (fun c => total (areas (groups_of (c1 c) (Ci k c))))) by (intros c t Hc Ht; apply (CH c t Hc Ht)).
    unfold areas. rewrite <- (total_flat _ _ (fun c => groups_of (c1 c) (Ci k c))). apply total_map_perm, groups_split.
  - rewrite h7. split.
    + intros K. assert (flat_map (Ci k) chunks = []) as Z.
      { assert (ALL : forall c, In c chunks -> Ci k c = []).
        { intros c Hc. destruct (F2_in_l _ _ _ _ _ c HT Hc) as (t & It & Ht). apply (CH c t Hc Ht). destruct (rows_at k [t]) as [|r l] eqn:ER; [reflexivity|].
          exfalso. assert (In r (rows_at k tables)) by (apply ROWS; exists t; rewrite ER; split; [auto|left; auto]). rewrite K in H. destruct H. }
        clear -ALL. induction chunks as [|c ch IH]; [reflexivity|]. cbn. rewrite (ALL c (or_introl eq_refl)). apply IH. intros; apply ALL; right; auto. }
      apply Permutation_nil. rewrite <- Z. apply cells_split.
    + intros K. destruct (rows_at k tables) as [|r l] eqn:ER; [reflexivity|]. exfalso.
      destruct (proj1 (ROWS r) (or_introl eq_refl)) as (t & It & Hr).
      destruct (F2_in_r _ _ _ _ _ t HT It) as (c & Hc & Ht). destruct (CH c t Hc Ht) as (_ & _ & _ & _ & _ & _ & q7 & _).
      assert (Z : Ci k c = []). { pose proof (cells_split k) as P. rewrite K in P. apply Permutation_sym, Permutation_nil in P. clear -P Hc. induction chunks as [|d ch IH]; [destruct Hc|].
        cbn in P. apply app_eq_nil in P. destruct Hc as [->|Hc]; [tauto|apply IH; tauto]. }
      apply q7 in Z. rewrite Z in Hr. destruct Hr.
  - intros r Hr. destruct (h8 r Hr) as (a & Ea & Ia & La).
    (* the flash with the least area is in one of the chunks *)
    unfold areas in Ia. apply in_map_iff in Ia. destruct Ia as (f & Ef & Hf). apply (Permutation_in _ (Permutation_sym (flashes_split k))) in Hf. apply in_flat_map in Hf. destruct Hf as (c & Hc & Hf).
    destruct (F2_in_l _ _ _ _ _ c HT Hc) as (t & It & Ht). destruct (CH c t Hc Ht) as (_ & _ & _ & _ & _ & _ & q7 & q8 & _).
    destruct (rows_at k [t]) as [|r' l] eqn:ER.
    { exfalso. assert (Z : cell_events pixel (c2 c) k = []) by (apply q7; reflexivity). unfold Ci in Hf. rewrite Z in Hf. apply filter_In in Hf. destruct Hf as [_ Hf]. discriminate. }
    destruct (q8 r' (or_introl eq_refl)) as (a' & Ea' & Ia' & La').
    assert (IN : forall r2 b, In r2 (rows_at k tables) -> lu_minarea r2 = Some b -> (a <= b)%Q).
    { intros r2 b H2 E2. apply ROWS in H2. destruct H2 as (t2 & It2 & H2). destruct (F2_in_r _ _ _ _ _ t2 HT It2) as (d & Hd & Ht2). destruct (CH d t2 Hd Ht2) as (_ & _ & _ & _ & _ & _ & _ & p8 & _).
      destruct (p8 r2 H2) as (b' & Eb & Ib & _). rewrite E2 in Eb. inversion Eb; subst b'. apply La. unfold areas in *. apply in_map_iff in Ib. destruct Ib as (f2 & Ef2 & Hf2).
      apply in_map_iff. exists f2. split; auto. apply (Permutation_in _ (flashes_split k)). apply in_flat_map. exists d. auto. }
    assert (R' : In r' (rows_at k tables)) by (apply ROWS; exists t; rewrite ER; split; [auto|left; auto]).
    exists a'. split.
    + exists a. split; auto. apply Qle_antisym; [apply (IN r'); auto|]. apply La'. unfold areas. apply in_map_iff. exists f. auto.
    + exists a'. split; auto. split; [rewrite <- Ea'; apply in_map; auto|]. intros b Hb. apply in_map_iff in Hb. destruct Hb as (r2 & E2 & H2).
      apply Qle_trans with a; [|apply (IN r2); auto]. apply La'. unfold areas. apply in_map_iff. exists f. auto.
Qed.
End Whole.
End Tables.
Print Assumptions C26_pixels_do_not_depend_on_chunks.

(** The same for two chunk sizes, from the file: whatever the chunk sizes, what the tables
    say about a pixel adds up to the same. *)
Definition column_ok (f : lutrow -> Q) : Prop :=
  In f [fun r => qnat (lu_count r); fun r => num (lu_energy r); fun r => qnat (lu_fcount r);
        fun r => qnat (lu_gcount r); fun r => num (lu_farea r); fun r => num (lu_garea r)].

Theorem C26_chunk_size_does_not_matter : forall set_order, (forall l, Permutation (set_order l) l) ->
  forall weird scale xr yr (F G E : tbl) q, derived_ok F G E -> F <> [] -> G <> [] -> E <> [] ->
  (forall q', q = Some q' -> q_check q' = true) ->
  numbers (areas F) -> numbers (areas G) -> numbers (energies E) ->
  forall s1 s2 chunks1 chunks2 tables1 tables2, (0 < s1)%nat -> (0 < s2)%nat ->
  flash_chunks set_order s1 [F; G; E] q = Ok chunks1 -> flash_chunks set_order s2 [F; G; E] q = Ok chunks2 ->
  Forall2 (fun c t => get_lutevents weird scale xr yr c = Ok t) chunks1 tables1 ->
  Forall2 (fun c t => get_lutevents weird scale xr yr c = Ok t) chunks2 tables2 ->
  forall k, (forall f, column_ok f -> (pixel_sum f k tables1 == pixel_sum f k tables2)%Q) /\
    (rows_at k tables1 = [] <-> rows_at k tables2 = []) /\
    (forall a, least_of (map lu_minarea (rows_at k tables1)) (Some a) ->
       exists b, (a == b)%Q /\ least_of (map lu_minarea (rows_at k tables2)) (Some b)).
Proof.
  intros so HP weird scale xr yr F G E q D nF nG nE HQ NF NG NE s1 s2 ch1 ch2 t1 t2 P1 P2 C1 C2 T1 T2 k.
  destruct (selection_exists so HP F G E q D nF nG nE HQ) as (F2 & G2 & E2 & S & HF2 & HG2 & HE2 & D2).
  assert (UNI : forall sel, selection so [F; G; E] q sel -> sel = [F2; G2; E2]).
  { intros sel Hs. unfold selection in *. destruct q; [rewrite S in Hs; inversion Hs; auto|subst sel; auto]. }
  destruct (C26_chunks_split_selection so HP s1 F G E q P1 D nF nG nE HQ) as (sel1 & c1 & S1 & R1 & SP1 & _ & N1).
  destruct (C26_chunks_split_selection so HP s2 F G E q P2 D nF nG nE HQ) as (sel2 & c2 & S2 & R2 & SP2 & _ & N2).
  rewrite C1 in R1. inversion R1; subst c1. rewrite C2 in R2. inversion R2; subst c2. apply UNI in S1, S2. subst sel1 sel2.
  pose proof D2 as D2'. destruct D2' as ((U & O) & DE & _). apply unique3 in U. destruct U as (UF & UG & UE). apply linked_no_orphans in O. destruct O as [L1 L2].
  assert (NF2 : numbers (areas F2)) by (apply (sub_nums _ F); auto).
  assert (NG2 : numbers (areas G2)) by (apply (sub_nums _ G); auto; intros x Hx; apply HG2 in Hx; tauto).
  assert (NE2 : numbers (energies E2)) by (apply (sub_nums _ E); auto; intros x Hx; apply HE2 in Hx; tauto).
  assert (EMP : E2 = [] -> forall ch t, splits ch [F2; G2; E2] -> (forall c, In c ch -> exists Fi Gi Ei, c = [Fi; Gi; Ei] /\ True) -> Forall2 (fun c t => get_lutevents weird scale xr yr c = Ok t) ch t -> t = []).
  { intros E0 ch t SP NN T. destruct T as [|c l ch t Hc Hr]; [reflexivity|]. exfalso.
    destruct (NN c (or_introl eq_refl)) as (Fi & Gi & Ei & -> & _). destruct SP as (? & ? & ? & EQ & _ & _ & _ & PE). inversion EQ; subst. cbn [map nth List.concat] in PE. apply Permutation_sym, Permutation_nil in PE.
    apply app_eq_nil in PE. destruct PE as [-> _]. discriminate. }
  destruct E2 as [|e0 E2'] eqn:EE2.
  - rewrite (EMP eq_refl ch1 t1 SP1) by (auto; intros c Hc; destruct (N1 c Hc) as (a & b & d & Hq & _); exists a, b, d; auto).
    rewrite (EMP eq_refl ch2 t2 SP2) by (auto; intros c Hc; destruct (N2 c Hc) as (a & b & d & Hq & _); exists a, b, d; auto).
    split; [reflexivity|]. split; [tauto|]. intros a (a' & _ & [] & _).
  - rewrite <- EE2 in *. assert (nE2 : E2 <> []) by (rewrite EE2; discriminate). clear EE2 EMP.
    assert (nG2 : G2 <> []). { destruct E2 as [|e ?]; [congruence|]. intros ->. destruct (L2 e (or_introl eq_refl)) as (? & [] & _). }
    assert (nF2 : F2 <> []). { destruct G2 as [|e ?]; [congruence|]. intros ->. destruct (L1 e (or_introl eq_refl)) as (? & [] & _). }
    destruct (C24_table_exists weird scale xr yr F2 G2 E2 nF2 nG2 nE2 NF2 D2) as (L & HL).
    pose proof (C26_pixels_do_not_depend_on_chunks weird scale xr yr F2 G2 E2 L ch1 t1 NF2 NG2 NE2 UF UG SP1 T1 HL k) as (a1 & a2 & a3 & a4 & a5 & a6 & a7 & a8).
    pose proof (C26_pixels_do_not_depend_on_chunks weird scale xr yr F2 G2 E2 L ch2 t2 NF2 NG2 NE2 UF UG SP2 T2 HL k) as (b1 & b2 & b3 & b4 & b5 & b6 & b7 & b8).
    split; [|split].
    + intros f [<-|[<-|[<-|[<-|[<-|[<-|[]]]]]]]; etransitivity; eauto; symmetry; auto.
    + rewrite a7, b7. tauto.
    + intros a Ha. destruct (rows_at k [L]) as [|r l] eqn:ER.
      * destruct Ha as (a' & _ & I & _). rewrite (proj2 a7 eq_refl) in I. destruct I.
      * destruct (a8 r (or_introl eq_refl)) as (x & Nx & Lx). destruct (b8 r (or_introl eq_refl)) as (y & Ny & Ly). exists y. split; [|exact Ly].
        destruct Nx as (z & Ez & Zx). destruct Ny as (z' & Ez' & Zy). rewrite Ez in Ez'. inversion Ez'; subst z'. rewrite <- Zy, Zx.
        destruct Ha as (a' & Ea & Ia & La). inversion Ea; subst a'. destruct Lx as (x' & Ex & Ix & Lx). inversion Ex; subst x'. apply Qle_antisym; auto.
Qed.
Print Assumptions C26_chunk_size_does_not_matter.

(** * From the files to the grid *)
Lemma total_nonneg_of : forall l, (forall w, In (Some w) l -> (0 <= w)%Q) -> (0 <= total l)%Q.
Proof.
  induction l as [|a l IH]; intros H; [apply Qle_refl|]. unfold total in *. cbn [map]. change (qsum (?x :: ?l)) with (x + qsum l)%Q.
  assert (A : (0 <= num a)%Q) by (destruct a as [w|]; [apply H; left; reflexivity|apply Qle_refl]). assert (B := IH (fun w Hw => H w (or_intror Hw))). apply (Qplus_le_compat 0 _ 0 _ A B).
Qed.
Lemma observed_tables : forall set_order, (forall l, Permutation (set_order l) l) ->
  forall weird chunk_size files q tables,
  (0 < chunk_size)%nat -> (forall q', q = Some q' -> q_check q' = true) -> Forall usable files ->
  tables_read set_order weird chunk_size q files tables ->
  exists es, Forall2 (observed set_order q) files es /\ (over (fun r => num (lu_energy r)) tables == qsum es)%Q /\
    (forall r, In r (List.concat tables) -> lu_farea r <> None /\ lu_garea r <> None /\
       ((forall ds e v, In ds files -> In e (nth 2 ds []) -> o_energy (rdat e) = Some v -> (0 <= v)%Q) -> (0 <= num (lu_energy r))%Q)).
Proof.
  intros so HP weird cs files q tables Hcs HQ US TR.
  destruct TR as (tss & F2 & ET).
  assert (ONE : forall ds ts, In ds files -> tables_of_file so weird cs q ds ts ->
    exists e, observed so q ds e /\ (over (fun r => num (lu_energy r)) ts == e)%Q /\
      forall r, In r (List.concat ts) -> lu_farea r <> None /\ lu_garea r <> None /\
        ((forall e v, In e (nth 2 ds []) -> o_energy (rdat e) = Some v -> (0 <= v)%Q) -> (0 <= num (lu_energy r))%Q)).
  { intros ds ts Hd T. rewrite Forall_forall in US. destruct (US ds Hd) as [Z|(F & G & E & -> & nF & nG & nE & D & NF & NG & NE)].
    - destruct T as [[_ ->]|[(e & E & K) _]]; [|congruence]. exists 0%Q. split; [left; auto|]. split; [reflexivity|]. intros r [].
    - destruct T as [[K _]|[_ (chunks & C1 & T1)]]; [cbn in K; inversion K; congruence|].
      destruct (selection_exists so HP F G E q D nF nG nE HQ) as (F2' & G2 & E2 & S & HF2 & HG2 & HE2 & D2).
      destruct (C26_chunks_split_selection so HP cs F G E q Hcs D nF nG nE HQ) as (sel1 & c1 & S1 & R1 & SP1 & _ & N1).
      rewrite C1 in R1. inversion R1; subst c1. assert (sel1 = [F2'; G2; E2]) by (unfold selection in *; destruct q; congruence). subst sel1.
      exists (total (energies E2)). split; [right; split; [destruct E as [|ev0 E]; [congruence|cbn; eauto]|exists F2', G2, E2; auto]|].
      destruct SP1 as (F0 & G0 & E0 & EQ & _ & h0 & h1 & PE). replace F0 with F2' in h0 by congruence. replace G0 with G2 in h1 by congruence. replace E0 with E2 in PE by congruence. pose proof PE as h2.
      assert (SUB : forall c, In c chunks -> exists Fi Gi Ei, c = [Fi; Gi; Ei] /\ numbers (areas Fi) /\ numbers (areas Gi) /\ numbers (energies Ei) /\ incl Ei E).
      { intros c Hc.
        destruct (N1 c Hc) as (Fi & Gi & Ei & -> & _). exists Fi, Gi, Ei. split; [reflexivity|].
        split; [apply (sub_nums _ F); [intros x Hx|exact NF]|split; [apply (sub_nums _ G); [intros x Hx|exact NG]|split; [apply (sub_nums _ E); [intros x Hx|exact NE]|intros x Hx]]].
        - apply HF2. rewrite <- h0. apply in_concat. exists Fi. split; auto. apply in_map_iff. exists [Fi; Gi; Ei]. auto.
        - apply HG2. apply (Permutation_in _ h1). apply in_concat. exists Gi. split; auto. apply in_map_iff. exists [Fi; Gi; Ei]. auto.
        - apply HE2. apply (Permutation_in _ h2). apply in_concat. exists Ei. split; auto. apply in_map_iff. exists [Fi; Gi; Ei]. auto.
        - apply HE2. apply (Permutation_in _ h2). apply in_concat. exists Ei. split; auto. apply in_map_iff. exists [Fi; Gi; Ei]. auto. }
      split.
      + rewrite <- (total_map_perm (fun r => o_energy (rdat r)) _ _ PE). rewrite <- flat_map_concat_map, total_flat. clear -T1 SUB.
        induction T1 as [|c t ch ts Hc Hr IH]; [reflexivity|]. unfold over. cbn [List.concat map]. rewrite map_app, qsum_app. apply Qplus_comp; [|apply IH; intros; apply SUB; right; auto].
        destruct (SUB c (or_introl eq_refl)) as (Fi & Gi & Ei & -> & n0 & n1 & n2 & _). destruct (C24_table_conserves weird _ _ _ Fi Gi Ei t n0 n1 n2 Hc) as (_ & _ & _ & _ & _ & K). cbn [nth].
        unfold total at 1 in K. rewrite map_map in K. exact K.
      + intros r Hr. apply in_concat in Hr. destruct Hr as (t & Ht & Hr). destruct (F2_in_r _ _ _ _ _ t T1 Ht) as (c & Hc & Et). destruct (SUB c Hc) as (Fi & Gi & Ei & -> & n0 & n1 & n2 & IE).
        destruct (C24_table_conserves weird _ _ _ Fi Gi Ei t n0 n1 n2 Et) as (_ & _ & CN & _). destruct (CN r Hr) as (_ & _ & (v & -> & Hv)).
        destruct (C25_counts_areas_minima weird _ _ _ Fi Gi Ei t r n0 n1 Et Hr) as (_ & _ & _ & (x & -> & _) & (y & -> & _) & _). split; [discriminate|]. split; [discriminate|].
        intros POS. cbn [num]. rewrite Hv. cbn [nth] in POS. unfold energies, cell_events. apply total_nonneg_of. intros w Hw. apply in_map_iff in Hw. destruct Hw as (ev & Ew & Hev). apply filter_In in Hev. apply (POS ev); [apply IE; tauto|exact Ew]. }
  assert (ALL : exists es, Forall2 (observed so q) files es /\ (over (fun r => num (lu_energy r)) tables == qsum es)%Q /\
    (forall r, In r (List.concat tables) -> lu_farea r <> None /\ lu_garea r <> None /\
       ((forall ds e v, In ds files -> In e (nth 2 ds []) -> o_energy (rdat e) = Some v -> (0 <= v)%Q) -> (0 <= num (lu_energy r))%Q))).
  { clear -F2 ONE ET. subst tables. induction F2 as [|ds ts fs tss H F2 IH]; [exists []; split; [constructor|]; split; [reflexivity|intros r []]|].
    destruct (ONE ds ts (or_introl eq_refl) H) as (e & O & K & N). destruct IH as (es & Os & Ks & Ns); [intros; apply ONE; auto; right; auto|].
    exists (e :: es). split; [constructor; auto|]. cbn [List.concat]. unfold over in *. rewrite concat_app. split.
    - rewrite map_app, qsum_app. apply Qplus_comp; auto.
    - intros r Hr. apply in_app_iff in Hr. destruct Hr as [Hr|Hr].
      + destruct (N r Hr) as (n1 & n2 & n3). split; [exact n1|]. split; [exact n2|]. intros POS. apply n3. intros ev v. apply POS. left. reflexivity.
      + destruct (Ns r Hr) as (n1 & n2 & n3). split; [exact n1|]. split; [exact n2|]. intros POS. apply n3. intros ds' ev v Hd. apply POS. right. exact Hd. }
  exact ALL.
Qed.
(** The energy in the grid is the energy of the events of the selected flashes of all
    files, each event counted once. *)
Theorem C36_observed_energy : forall set_order, (forall l, Permutation (set_order l) l) ->
  forall weird clip tree quad xe ye chunk_size files q g,
  (1 < List.length xe)%nat -> (1 < List.length ye)%nat -> increasing xe -> increasing ye -> proper clip ->
  (0 < chunk_size)%nat -> (forall q', q = Some q' -> q_check q' = true) -> Forall usable files ->
  grid_files set_order weird clip tree quad xe ye chunk_size files q = Ok g ->
  exists tables es, tables_read set_order weird chunk_size q files tables /\ Forall2 (observed set_order q) files es /\
  ((forall r, In r (List.concat tables) ->
      let p := quad (lu_x r) (lu_y r) in
      ~ (size p == 0)%Q /\ covered p (cut clip (regular_xy xe ye) p (nearby tree (regular_xy xe ye) p))) ->
   (grid_total (gr_energy g) == qsum es)%Q).
Proof.
  intros so HP weird clip tree quad xe ye cs files q g HX HY IX IY PR Hcs HQ US H.
  destruct (C36_total_energy so weird clip tree quad xe ye cs files q g HX HY IX IY PR H) as (tables & TR & TOT).
  destruct (observed_tables so HP weird cs files q tables Hcs HQ US TR) as (es & O & K & N).
  exists tables, es. split; [exact TR|]. split; [exact O|]. intros COV. rewrite <- K. apply TOT.
  intros r Hr. cbv zeta. destruct (COV r Hr) as [s c]. destruct (N r Hr) as (n1 & n2 & _). auto.
Qed.
Print Assumptions C36_observed_energy.

(** * C51: does the grid depend on the chunk size? *)
Section ById.
Variables (f w : lutrow -> Q).
Lemma sum_one_id : forall R k c, (forall r, In r R -> lu_id r = k -> w r == c)%Q ->
  (qsum (map (fun r => f r * w r) (filter (fun r => (lu_id r =? k)%Z) R)) == c * qsum (map f (filter (fun r => (lu_id r =? k)%Z) R)))%Q.
Proof.
  intros R k c. induction R as [|r R IH]; intros H; [cbn; ring|]. cbn [filter]. destruct (Z.eqb_spec (lu_id r) k) as [E|E].
  - cbn [map]. change (qsum (?x :: ?l)) with (x + qsum l)%Q. rewrite IH by (intros; apply H; auto; right; auto). rewrite (H r (or_introl eq_refl) E). ring.
  - apply IH. intros; apply H; auto; right; auto.
Qed.
Lemma sum_by_id : forall (h : lutrow -> Q) ids R, NoDup ids -> (forall r, In r R -> In (lu_id r) ids) ->
  (qsum (map h R) == qsum (map (fun k => qsum (map h (filter (fun r => (lu_id r =? k)%Z) R))) ids))%Q.
Proof.
  intros h ids. induction ids as [|k ids IH]; intros R ND H.
  - destruct R as [|r R]; [reflexivity|]. destruct (H r (or_introl eq_refl)).
  - inversion ND; subst. cbn [map]. change (qsum (?x :: ?l)) with (x + qsum l)%Q.
    set (R1 := filter (fun r => (lu_id r =? k)%Z) R). set (R2 := filter (fun r => negb (lu_id r =? k)%Z) R).
    assert (P : (qsum (map h R) == qsum (map h R1) + qsum (map h R2))%Q).
    { unfold R1, R2. clear. induction R as [|r R IH]; [reflexivity|]. cbn [filter map]. destruct (lu_id r =? k)%Z; cbn [negb map]; change (qsum (?x :: ?l)) with (x + qsum l)%Q; rewrite IH; ring. }
    rewrite P. apply Qplus_comp; [reflexivity|]. rewrite (IH R2); auto.
    + assert (ME : forall j, In j ids -> filter (fun r => (lu_id r =? j)%Z) R2 = filter (fun r => (lu_id r =? j)%Z) R).
      { intros j Hj. unfold R2. clear -H2 Hj. induction R as [|r R IH]; [reflexivity|]. cbn [filter]. destruct (Z.eqb_spec (lu_id r) k) as [E|E]; cbn [negb].
        - rewrite IH. destruct (Z.eqb_spec (lu_id r) j) as [E2|E2]; [|reflexivity]. exfalso. apply H2. congruence.
        - cbn [filter]. rewrite IH. reflexivity. }
      erewrite map_ext_in; [reflexivity|]. intros j Hj. cbv beta. rewrite (ME j Hj). reflexivity.
    + intros r Hr. apply filter_In in Hr. destruct Hr as [Hr E]. destruct (H r Hr) as [K|K]; [|exact K]. rewrite K, Z.eqb_refl in E. discriminate.
Qed.
Lemma same_pixels : forall t1 t2, (forall k, pixel_sum f k t1 == pixel_sum f k t2)%Q ->
  (forall r r', In r (List.concat t1 ++ List.concat t2) -> In r' (List.concat t1 ++ List.concat t2) -> lu_id r = lu_id r' -> w r == w r')%Q ->
  (over (fun r => f r * w r) t1 == over (fun r => f r * w r) t2)%Q.
Proof.
  intros t1 t2 HP HW. unfold over. set (ids := zunique (map lu_id (List.concat t1 ++ List.concat t2))).
  rewrite (sum_by_id _ ids (List.concat t1)); [|apply zunique_nodup|intros r Hr; apply zunique_in; apply in_map; apply in_or_app; auto].
  rewrite (sum_by_id _ ids (List.concat t2)); [|apply zunique_nodup|intros r Hr; apply zunique_in; apply in_map; apply in_or_app; auto].
  apply qsum_ext. intros k Hk. apply -> zunique_in in Hk. apply in_map_iff in Hk. destruct Hk as (r0 & E0 & H0).
  rewrite (sum_one_id (List.concat t1) k (w r0)); [rewrite (sum_one_id (List.concat t2) k (w r0))|].
  - specialize (HP k). unfold pixel_sum, rows_at in HP. rewrite HP. reflexivity.
  - intros r Hr Er. apply HW; auto; [apply in_or_app; auto|congruence].
  - intros r Hr Er. apply HW; auto; [apply in_or_app; auto|congruence].
Qed.
End ById.

Lemma file_pixels : forall set_order, (forall l, Permutation (set_order l) l) ->
  forall weird q s1 s2, (0 < s1)%nat -> (0 < s2)%nat -> (forall q', q = Some q' -> q_check q' = true) ->
  forall files t1 t2, Forall usable files ->
  tables_read set_order weird s1 q files t1 -> tables_read set_order weird s2 q files t2 ->
  forall f, column_ok f -> forall k, (pixel_sum f k t1 == pixel_sum f k t2)%Q.
Proof.
  intros so HP weird q s1 s2 P1 P2 HQ files t1 t2 US (x1 & F1 & ->) (x2 & F2 & ->) f CO k. revert x2 F2. induction F1 as [|ds a files x1 H1 F1 IH]; intros x2 F2; inversion F2 as [|? b ? x2' H2 F2']; subst; [reflexivity|].
  inversion US as [|? ? U US']; subst. cbn [List.concat]. 
  assert (AP : forall u v, (pixel_sum f k (u ++ v) == pixel_sum f k u + pixel_sum f k v)%Q) by (intros u v; unfold pixel_sum, rows_at; rewrite concat_app, filter_app, map_app, qsum_app; reflexivity).
  rewrite !AP. apply Qplus_comp; [|apply IH; auto].
  destruct U as [Z|(F & G & E & -> & nF & nG & nE & D & NF & NG & NE)].
  - destruct H1 as [[_ ->]|[(e & E & K) _]]; [|congruence]. destruct H2 as [[_ ->]|[(e & E & K) _]]; [reflexivity|congruence].
  - destruct H1 as [[K _]|[_ (c1 & C1 & T1)]]; [cbn in K; inversion K; congruence|]. destruct H2 as [[K _]|[_ (c2 & C2 & T2)]]; [cbn in K; inversion K; congruence|].
    apply (C26_chunk_size_does_not_matter so HP weird _ _ _ F G E q D nF nG nE HQ NF NG NE s1 s2 c1 c2 a b P1 P2 C1 C2 T1 T2 k); auto.
Qed.

(** Full statement: the grids do not depend on the chunk size.  Proved here when the
    polygon of a pixel is the same in all chunks; what is missing is refuted below. *)
Theorem C51_chunk_size_partial : forall set_order, (forall l, Permutation (set_order l) l) ->
  forall weird clip tree quad xe ye s1 s2 files q g1 g2,
  (1 < List.length xe)%nat -> (1 < List.length ye)%nat -> increasing xe -> increasing ye -> proper clip ->
  (0 < s1)%nat -> (0 < s2)%nat -> (forall q', q = Some q' -> q_check q' = true) -> Forall usable files ->
  grid_files set_order weird clip tree quad xe ye s1 files q = Ok g1 ->
  grid_files set_order weird clip tree quad xe ye s2 files q = Ok g2 ->
  exists t1 t2, tables_read set_order weird s1 q files t1 /\ tables_read set_order weird s2 q files t2 /\
  ((forall r, In r (List.concat t1 ++ List.concat t2) -> ~ (size (quad (lu_x r) (lu_y r)) == 0)%Q /\ lu_farea r <> None /\ lu_garea r <> None) ->
   (forall r r', In r (List.concat t1 ++ List.concat t2) -> In r' (List.concat t1 ++ List.concat t2) -> lu_id r = lu_id r' ->
      quad (lu_x r) (lu_y r) = quad (lu_x r') (lu_y r')) ->
   forall kx ky, (S kx < List.length xe)%nat -> (S ky < List.length ye)%nat ->
   forall h, In h [gr_energy; gr_fcount; gr_gcount; gr_farea; gr_garea] ->
   feq (g_at (h g1) (Z.of_nat kx) (Z.of_nat ky)) (g_at (h g2) (Z.of_nat kx) (Z.of_nat ky))).
Proof.
  intros so HP weird clip tree quad xe ye s1 s2 files q g1 g2 HX HY IX IY PR P1 P2 HQ US R1 R2.
  destruct (C36_cells so weird clip tree quad xe ye s1 files q g1 HX HY IX IY PR R1) as (t1 & TR1 & V1).
  destruct (C36_cells so weird clip tree quad xe ye s2 files q g2 HX HY IX IY PR R2) as (t2 & TR2 & V2).
  exists t1, t2. split; [exact TR1|]. split; [exact TR2|]. intros NZ SAME kx ky Hx Hy h Hh.
  destruct (V1 ltac:(intros r Hr; apply NZ; apply in_or_app; auto)) as (_ & W1). destruct (V2 ltac:(intros r Hr; apply NZ; apply in_or_app; auto)) as (_ & W2).
  specialize (W1 kx ky Hx Hy). specialize (W2 kx ky Hx Hy). cbv zeta in W1, W2.
  destruct W1 as (a1 & a2 & a3 & a4 & a5). destruct W2 as (b1 & b2 & b3 & b4 & b5).
  assert (GO : forall u v f w, column_ok f -> (forall r r', quad (lu_x r) (lu_y r) = quad (lu_x r') (lu_y r') -> w r == w r')%Q ->
    sums_to u f w t1 -> sums_to v f w t2 -> feq u v).
  { intros u v f w CO HW (x & -> & Ex) (y & -> & Ey). cbn. rewrite Ex, Ey. apply same_pixels.
    - intros k. apply (file_pixels so HP weird q s1 s2 P1 P2 HQ files t1 t2 US TR1 TR2 f CO k).
    - intros r r' Hr Hr' E. apply HW. apply SAME; auto. }
  destruct Hh as [<-|[<-|[<-|[<-|[<-|[]]]]]]; eapply GO; eauto; try (intros r r' E; cbv beta; rewrite E; reflexivity); unfold column_ok; cbn; tauto.
Qed.
Print Assumptions C51_chunk_size_partial.

(** Two flashes with events in the same pixel, 10 microradians apart: all at once they are
    put at the mean position, one flash at a time each at its own. *)
Definition ex_file2 : list (table obs) :=
  [[ar 1 0 (10 # 1); ar 2 0 (4 # 1)]; [ar 5 1 (3 # 1); ar 6 2 (2 # 1)];
   [ev 100 5 1 (20000 # 1000000) 0 (8 # 1); ev 101 6 2 (19990 # 1000000) 0 (4 # 1)]].
Theorem C51_chunk_size_refuted : ~ (forall set_order weird clip tree quad xe ye s1 s2 files q g1 g2, proper clip ->
  grid_files set_order weird clip tree quad xe ye s1 files q = Ok g1 ->
  grid_files set_order weird clip tree quad xe ye s2 files q = Ok g2 ->
  forall a b, feq (g_at (gr_energy g1) a b) (g_at (gr_energy g2) a b)).
Proof.
  intros H.
  set (r1 := grid_files (fun l => l) (fun _ => 0) ex_clip ex_tree ex_quad ex_xe ex_ye 1 [ex_file2] None).
  set (r2 := grid_files (fun l => l) (fun _ => 0) ex_clip ex_tree ex_quad ex_xe ex_ye 2 [ex_file2] None).
  destruct r1 as [g1|] eqn:E1; [|vm_compute in E1; discriminate]. destruct r2 as [g2|] eqn:E2; [|vm_compute in E2; discriminate].
  pose proof (H _ _ _ _ _ _ _ _ _ _ _ g1 g2 (proj2 (proj2 (proj2 (proj2 C36_hypotheses)))) E1 E2 1 1) as K.
  vm_compute in E1, E2. inversion E1; subst g1. inversion E2; subst g2. vm_compute in K. discriminate K.
Qed.
Print Assumptions C51_chunk_size_refuted.

(** Three flashes of a file in chunks: sizes 1 and 2 of the call, and what comes out. *)
Example C26_ex : exists a b c,
  flash_chunks (fun l => l) 1 ex_file None = Ok [a; b] /\ flash_chunks (fun l => l) 7 ex_file None = Ok [c] /\
  map (fun T => map rid T) a = [[1]; [5]; [100]] /\ map (fun T => map rid T) b = [[2]; [6]; [101; 102]] /\ c = ex_file.
Proof. do 3 eexists. split; [vm_compute; reflexivity|]. split; [vm_compute; reflexivity|]. split; [reflexivity|]. split; reflexivity. Qed.
Definition dob x y e a fl nc ne : obs := mkObs None None e a x y fl nc ne.
Definition ok_file : list (table obs) :=
  [[mkRow 1 0 (dob None None None (q1 10) 0 1 1); mkRow 2 0 (dob None None None (q1 4) 0 1 2)];
   [mkRow 5 1 (dob None None None (q1 3) 0 1 0); mkRow 6 2 (dob None None None (q1 2) 0 2 0)];
   [mkRow 100 5 (dob (Some (2 # 100)) (Some 0) (q1 8) None 1 0 0); mkRow 101 6 (dob (Some (2 # 100)) (Some 0) (q1 4) None 2 0 0);
    mkRow 102 6 (dob (Some 0) (Some (2 # 100)) (q1 6) None 2 0 0)]]%Q.
Example C26_usable : usable ok_file /\ (exists sel, selection (fun l => l) ok_file None sel).
Proof.
  split; [|exists ok_file; reflexivity]. right. do 3 eexists. split; [reflexivity|]. split; [discriminate|]. split; [discriminate|]. split; [discriminate|]. split; [|split; [|split]].
  - split; [split|split; [|split]].
    + apply unique3. cbn. split; [|split]; repeat constructor; cbn; intuition discriminate.
    + apply linked_no_orphans. split.
      * intros s [<-|[<-|[]]]; [eexists; split; [left; reflexivity|reflexivity]|eexists; split; [right; left; reflexivity|reflexivity]].
      * intros s [<-|[<-|[<-|[]]]]; [eexists; split; [left; reflexivity|reflexivity]|eexists; split; [right; left; reflexivity|reflexivity]|eexists; split; [right; left; reflexivity|reflexivity]].
    + intros e [<-|[<-|[<-|[]]]]; [eexists; split; [left; reflexivity|split; reflexivity]|eexists; split; [right; left; reflexivity|split; reflexivity]|eexists; split; [right; left; reflexivity|split; reflexivity]].
    + intros g [<-|[<-|[]]]; reflexivity.
    + intros f [<-|[<-|[]]]; split; reflexivity.
  - intros v [<-|[<-|[]]]; discriminate.
  - intros v [<-|[<-|[]]]; discriminate.
  - intros v [<-|[<-|[<-|[]]]]; discriminate.
Qed.
