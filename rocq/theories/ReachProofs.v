(** Lemmas about cells that two grids have in common. *)
From Coq Require Import String List ZArith QArith Qabs Bool Lia Permutation Sorting.Sorted.
From Verif Require Import Base BaseProofs Traversal TraversalSpec TraversalProofs TraversalProofs2 TraversalProofs3 TraversalProofs4 Glm GlmSpec GlmProofs GlmProofs2 GlmProofs3
  Lut LutSpec LutProofs PropGlm PropLut Accum AccumSpec AccumProofs Poly PolySpec PropPoly BBox BBoxSpec BBoxProofs Slice SliceSpec Regroup Pipeline PipelineSpec PipelineProofs PropSlice PropPipeline ChunkSpec ChunkProofs PropChunks RowOrderSpec RowOrderProofs PropScaled ReachSpec.
Import ListNotations.
Open Scope Z_scope.
Local Notation tbl := (table obs).

Lemma selection_takes : forall set_order, (forall l, Permutation (set_order l) l) ->
  forall (F G E : tbl) q, derived_ok F G E -> F <> [] -> G <> [] -> E <> [] ->
  (forall q', q = Some q' -> q_check q' = true) ->
  exists F2 G2 E2, selection set_order [F; G; E] q [F2; G2; E2] /\
    (forall f, In f F2 <-> In f F /\ takes q G E f) /\
    (forall g, In g G2 <-> In g G /\ exists f, In f F2 /\ rid f = rpid g) /\
    (forall e, In e E2 <-> In e E /\ exists g, In g G2 /\ rid g = rpid e) /\
    derived_ok F2 G2 E2.
Proof.
  intros so HP F G E q D nF nG nE HQ. destruct q as [q|].
  - destruct (C12_subset_exact so HP F G E q D nF nG nE (HQ q eq_refl)) as (F2 & G2 & E2 & S & H1 & H2 & H3 & D2). exists F2, G2, E2. auto.
  - exists F, G, E. split; [reflexivity|]. split; [cbn; tauto|]. destruct D as ((U & O) & D1 & D'). pose proof O as O'. apply linked_no_orphans in O. destruct O as [L1 L2].
    split; [intros g; split; [intros Hg; split; auto; apply L1; auto|tauto]|]. split; [intros e; split; [intros He; split; auto; apply L2; auto|tauto]|]. split; [split; auto|auto].
Qed.

Lemma nodup_key : forall A (key : A -> Z) (l : list A) a b, NoDup (map key l) -> In a l -> In b l -> key a = key b -> a = b.
Proof.
  induction l as [|c l IH]; intros a b N Ha Hb K; [destruct Ha|]. cbn [map] in N. inversion N as [|? ? N1 N2]; subst.
  destruct Ha as [<-|Ha], Hb as [<-|Hb]; auto; exfalso; apply N1; [rewrite K|rewrite <- K]; apply in_map; auto.
Qed.
Lemma same_pixel_sym : forall r r', same_pixel r r' -> same_pixel r' r.
Proof. unfold same_pixel. intros r r' (a & b & c & d & e & f & g & h & i & j). repeat split; auto; apply feq_sym; auto. Qed.

(** Rows for the same pixel made of the same events, flashes and groups. *)
Section Rows.
Variable weird : fval -> Z.
Variables (scale : Q) (xr yr : Q * Q).
Local Notation cell := (LutProofs.cell weird scale xr yr).
Lemma row_same_events : forall (F G E F' G' E' : tbl) L L' r r',
  numbers (areas F) -> numbers (areas G) -> NoDup (map rid F) -> NoDup (map rid G) ->
  numbers (areas F') -> numbers (areas G') -> NoDup (map rid F') -> NoDup (map rid G') ->
  get_lutevents weird scale xr yr [F; G; E] = Ok L -> get_lutevents weird scale xr yr [F'; G'; E'] = Ok L' -> In r L -> In r' L' -> lu_id r = lu_id r' ->
  let C := cell_events cell E (lu_id r) in let C' := cell_events cell E' (lu_id r) in
  Permutation C C' -> Permutation (flashes_of F C) (flashes_of F' C') -> Permutation (groups_of G C) (groups_of G' C') -> same_pixel r r'.
Proof.
  intros F G E F' G' E' L L' r r' NF NG UF UG NF' NG' UF' UG' H H' Hr Hr' K C C' PC PFl PGr.
  destruct (lut_spec weird scale xr yr F G E L NF NG H) as (_ & _ & _ & I & R).
  destruct (lut_spec weird scale xr yr F' G' E' L' NF' NG' H') as (_ & _ & _ & I' & R').
  rewrite Forall_forall in R, R'.
  destruct (R r Hr) as (_ & c & e & x & y & _ & _ & _ & fa & ga & mn). destruct (R' r' Hr') as (_ & c' & e' & x' & y' & _ & _ & _ & fa' & ga' & mn').
  destruct (C25_each_flash_once weird scale xr yr F G E L r NF NG UF UG H Hr) as (fc & gc).
  destruct (C25_each_flash_once weird scale xr yr F' G' E' L' r' NF' NG' UF' UG' H' Hr') as (fc' & gc').
  cbv zeta in fc, gc, fc', gc'. change (fun e0 : row obs => discretize weird scale xr yr (o_x (rdat e0)) (o_y (rdat e0))) with cell in fc, gc, fc', gc'.
  rewrite <- K in *. fold C in c, e, x, y, fa, ga, mn, fc, gc. fold C' in c', e', x', y', fa', ga', mn', fc', gc'.
  unfold same_pixel. split; [exact K|]. split; [rewrite x, x'; apply fmean_perm, Permutation_map, PC|]. split; [rewrite y, y'; apply fmean_perm, Permutation_map, PC|].
  split; [rewrite e, e'; apply fsum_perm, Permutation_map, PC|]. split; [rewrite c, c'; apply Permutation_length, PC|].
  split; [rewrite fc, fc'; apply Permutation_length, PFl|]. split; [rewrite gc, gc'; apply Permutation_length, PGr|].
  split; [apply (is_num_feq _ _ _ _ fa fa'), total_perm, areas_perm, PFl|]. split; [apply (is_num_feq _ _ _ _ ga ga'), total_perm, areas_perm, PGr|].
  apply (least_same _ _ _ _ (areas_perm _ _ PFl) mn mn').
Qed.
End Rows.

Lemma size_pieces : forall A B, Forall2 (fun a b => size a == size b)%Q A B -> (qsum (map size A) == qsum (map size B))%Q.
Proof.
  induction 1 as [|a b A B H _ IH]; [reflexivity|]. cbn [map]. change (qsum (size a :: map size A)) with (size a + qsum (map size A))%Q. change (qsum (size b :: map size B)) with (size b + qsum (map size B))%Q. rewrite H, IH. reflexivity.
Qed.
Lemma sorted_filter : forall A (key : A -> Z) p l, StronglySorted Z.lt (map key l) -> StronglySorted Z.lt (map key (filter p l)).
Proof.
  induction l as [|a l IH]; intros S; [exact S|]. cbn [map] in S. apply StronglySorted_inv in S. destruct S as [S A1]. cbn [filter]. destruct (p a); [|apply IH; exact S].
  cbn [map]. constructor; [apply IH; exact S|]. rewrite Forall_forall in *. intros x Hx. apply A1. apply in_map_iff in Hx. destruct Hx as (y & <- & Hy). apply filter_In in Hy. apply in_map. tauto.
Qed.
Lemma flash_of_event : forall (F G E : tbl) f e, derived_ok F G E -> In f F -> In e E -> o_flash (rdat e) = rid f -> In e (flash_events G E (rid f)).
Proof.
  intros F G E f e (_ & D1 & _) Hf He K. destruct (D1 e He) as (g & Hg & Eg & Ef). apply filter_In. split; [exact He|]. apply existsb_exists. exists g. split; [exact Hg|]. apply andb_true_iff. rewrite !Z.eqb_eq. split; congruence.
Qed.

Section Files.
Variable set_order : list Z -> list Z.
Hypothesis HP : forall l, Permutation (set_order l) l.
Variable weird : fval -> Z.
Variable cs : nat.
Hypothesis Hcs : (0 < cs)%nat.
Let lut := get_lutevents weird lut_scale lut_range lut_range.
Local Notation cell := (LutProofs.cell weird lut_scale lut_range lut_range).

(** The rows for pixel [k] of the table of what [q] selects are those of the events in that
    pixel whose flash is taken. *)
Lemma file_table : forall (F G E : tbl) q t, derived_ok F G E -> F <> [] -> G <> [] -> E <> [] -> numbers (areas F) -> numbers (areas G) ->
  (forall q', q = Some q' -> q_check q' = true) -> one_chunk set_order q cs [F; G; E] -> tables_of_file set_order weird cs q [F; G; E] t ->
  exists F2 G2 E2, (forall f, In f F2 <-> In f F /\ takes q G E f) /\ (forall g, In g G2 <-> In g G /\ exists f, In f F2 /\ rid f = rpid g) /\
    (forall e, In e E2 <-> In e E /\ exists g, In g G2 /\ rid g = rpid e) /\ derived_ok F2 G2 E2 /\
    ((F2 = [] /\ t = []) \/ exists L, lut [F2; G2; E2] = Ok L /\ t = [L] /\ numbers (areas F2) /\ numbers (areas G2)).
Proof.
  intros F G E q t D nF nG nE NF NG HQ OC T. destruct T as [[K _]|[_ (ch & C & T)]]; [cbn in K; inversion K; congruence|].
  destruct (selection_takes set_order HP F G E q D nF nG nE HQ) as (F2 & G2 & E2 & S & H1 & H2 & H3 & D2).
  pose proof (OC F2 G2 E2 S) as LEN.
  destruct (one_chunk_of set_order HP cs F G E q Hcs D nF nG nE HQ F2 G2 E2 S LEN) as [[Z C']|(nz & G3 & E3 & C' & Q1 & Q2 & D3)]; rewrite C in C'; inversion C'; subst ch.
  - exists F2, G2, E2. split; [exact H1|]. split; [exact H2|]. split; [exact H3|]. split; [exact D2|]. left. split; [exact Z|]. inversion T; subst. reflexivity.
  - exists F2, G3, E3. split; [exact H1|]. split; [intros g; rewrite <- (in_perm _ _ _ g Q1); apply H2|].
    split. { intros e. rewrite <- (in_perm _ _ _ e Q2), H3. split; intros [a (g & Hg & Eg)]; split; auto; exists g; split; auto; apply (in_perm _ _ _ g Q1); exact Hg. }
    split; [exact D3|]. right. inversion T as [|? L ? ? HL HN]; subst. inversion HN; subst. exists L. split; [exact HL|]. split; [reflexivity|].
    split; [apply (sub_nums _ F); auto; intros x Hx; apply H1 in Hx; tauto|apply (sub_nums _ G); auto; intros x Hx; apply (in_perm _ _ _ x Q1) in Hx; apply H2 in Hx; tauto].
Qed.

Lemma nodup3 : forall F G E : tbl, derived_ok F G E -> NoDup (map rid F) /\ NoDup (map rid G) /\ NoDup (map rid E).
Proof. intros F G E ((U & _) & _). apply unique3 in U. exact U. Qed.
Lemma derived_of : forall F G E : tbl, derived_ok F G E -> forall e, In e E -> exists g f, In g G /\ rid g = rpid e /\ o_flash (rdat e) = rpid g /\ In f F /\ rid f = rpid g.
Proof.
  intros F G E D e He. pose proof D as ((U & O) & D1 & _). apply linked_no_orphans in O. destruct O as [L1 L2]. destruct (D1 e He) as (g & Hg & Eg & Ef). destruct (L1 g Hg) as (f & Hf & Ff). eauto 9.
Qed.

(** Two selections of one file that take the same of the flashes in pixel [k]. *)
Lemma pixel_same : forall (F G E F2 G2 E2 F3 G3 E3 : tbl) q q' L L' r k, derived_ok F G E ->
  (forall f, In f F2 <-> In f F /\ takes q G E f) -> (forall g, In g G2 <-> In g G /\ exists f, In f F2 /\ rid f = rpid g) -> (forall e, In e E2 <-> In e E /\ exists g, In g G2 /\ rid g = rpid e) -> derived_ok F2 G2 E2 ->
  (forall f, In f F3 <-> In f F /\ takes q' G E f) -> (forall g, In g G3 <-> In g G /\ exists f, In f F3 /\ rid f = rpid g) -> (forall e, In e E3 <-> In e E /\ exists g, In g G3 /\ rid g = rpid e) -> derived_ok F3 G3 E3 ->
  numbers (areas F2) -> numbers (areas G2) -> numbers (areas F3) -> numbers (areas G3) ->
  lut [F2; G2; E2] = Ok L -> lut [F3; G3; E3] = Ok L' -> In r L -> lu_id r = k ->
  (forall f e, In f F -> In e (flash_events G E (rid f)) -> cell e = k -> (takes q G E f <-> takes q' G E f)) ->
  exists r', In r' L' /\ same_pixel r r'.
Proof.
  intros F G E F2 G2 E2 F3 G3 E3 q q' L L' r k D H1 H2 H3 D2 H1' H2' H3' D3 NF2 NG2 NF3 NG3 HL HL' Hr K AG.
  destruct (nodup3 _ _ _ D) as (u1 & u2 & u3). destruct (nodup3 _ _ _ D2) as (v1 & v2 & v3). destruct (nodup3 _ _ _ D3) as (w1 & w2 & w3).
  assert (UF : forall a b, In a F -> In b F -> rid a = rid b -> a = b) by (intros a b; apply nodup_key; exact u1).
  assert (UG : forall a b, In a G -> In b G -> rid a = rid b -> a = b) by (intros a b; apply nodup_key; exact u2).
  (* an event of pixel k is in both or in none; so are its group and its flash *)
  assert (IE : forall e, cell e = k -> In e E2 <-> In e E3).
  { intros e Ce. rewrite H3, H3'. split; intros [He (g & Hg & Eg)]; (split; [exact He|]); exists g; split; auto.
    - apply H2 in Hg. destruct Hg as [Hg (f & Hf & Ff)]. apply H2'. split; [exact Hg|]. exists f. split; [|exact Ff]. apply H1 in Hf. destruct Hf as [Hf TK]. apply H1'. split; [exact Hf|].
      apply (AG f e Hf); auto. apply filter_In. split; [exact He|]. apply existsb_exists. exists g. split; [exact Hg|]. apply andb_true_iff. rewrite !Z.eqb_eq. split; congruence.
    - apply H2' in Hg. destruct Hg as [Hg (f & Hf & Ff)]. apply H2. split; [exact Hg|]. exists f. split; [|exact Ff]. apply H1' in Hf. destruct Hf as [Hf TK]. apply H1. split; [exact Hf|].
      apply (AG f e Hf); auto. apply filter_In. split; [exact He|]. apply existsb_exists. exists g. split; [exact Hg|]. apply andb_true_iff. rewrite !Z.eqb_eq. split; congruence. }
  set (C := cell_events cell E2 k). set (C' := cell_events cell E3 k).
  assert (IC : forall e, In e C <-> In e C').
  { intros e. unfold C, C', cell_events. rewrite !filter_In, !Z.eqb_eq. split; intros [a b]; split; auto; apply IE; auto. }
  assert (PC : Permutation C C').
  { apply NoDup_Permutation; auto; apply NoDup_filter; apply nodup_rows; assumption. }
  assert (FB : forall f, In f (flashes_of F2 C) <-> In f (flashes_of F3 C')).
  { assert (G0 : forall Fa Ga Ea Fb Gb Eb (Ca Cb : tbl), derived_ok Fb Gb Eb -> (forall f, In f Fa -> In f F) -> (forall f, In f Fb -> In f F) -> (forall e, In e Ca -> In e Cb) -> (forall e, In e Cb -> In e Eb) -> derived_ok Fa Ga Ea ->
      forall f, In f (flashes_of Fa Ca) -> In f (flashes_of Fb Cb)).
    { intros Fa Ga Ea Fb Gb Eb Ca Cb Db SA SB CC CE Da f Hf. unfold flashes_of in *. apply filter_In in Hf. destruct Hf as [Hf X]. apply existsb_exists in X. destruct X as (e & He & X). apply Z.eqb_eq in X.
      apply filter_In. split; [|apply existsb_exists; exists e; split; [auto|apply Z.eqb_eq; exact X]].
      destruct (derived_of _ _ _ Db e (CE e (CC e He))) as (g & f' & Hg & _ & Og & Hf' & Rf'). assert (f = f') by (apply UF; auto; congruence). subst f'. exact Hf'. }
    intros f. split; [apply (G0 F2 G2 E2 F3 G3 E3 C C')|apply (G0 F3 G3 E3 F2 G2 E2 C' C)]; auto; try (intros x Hx; apply H1 in Hx; tauto); try (intros x Hx; apply H1' in Hx; tauto); try (intros x Hx; apply IC; exact Hx);
      intros x Hx; apply filter_In in Hx; tauto. }
  assert (GB : forall g, In g (groups_of G2 C) <-> In g (groups_of G3 C')).
  { assert (G0 : forall Ga Fb Gb Eb (Ca Cb : tbl), derived_ok Fb Gb Eb -> (forall g, In g Ga -> In g G) -> (forall g, In g Gb -> In g G) -> (forall e, In e Ca -> In e Cb) -> (forall e, In e Cb -> In e Eb) ->
      forall g, In g (groups_of Ga Ca) -> In g (groups_of Gb Cb)).
    { intros Ga Fb Gb Eb Ca Cb Db SA SB CC CE g Hg. unfold groups_of in *. apply filter_In in Hg. destruct Hg as [Hg X]. apply existsb_exists in X. destruct X as (e & He & X). apply Z.eqb_eq in X.
      apply filter_In. split; [|apply existsb_exists; exists e; split; [auto|apply Z.eqb_eq; exact X]].
      destruct (derived_of _ _ _ Db e (CE e (CC e He))) as (g' & f' & Hg' & Rg' & _). assert (g = g') by (apply UG; auto; congruence). subst g'. exact Hg'. }
    intros g. split; [apply (G0 G2 F3 G3 E3 C C')|apply (G0 G3 F2 G2 E2 C' C)]; auto; try (intros x Hx; apply H2 in Hx; tauto); try (intros x Hx; apply H2' in Hx; tauto); try (intros x Hx; apply IC; exact Hx);
      intros x Hx; apply filter_In in Hx; tauto. }
  assert (PF : Permutation (flashes_of F2 C) (flashes_of F3 C')) by (apply NoDup_Permutation; auto; apply NoDup_filter; apply nodup_rows; assumption).
  assert (PG : Permutation (groups_of G2 C) (groups_of G3 C')) by (apply NoDup_Permutation; auto; apply NoDup_filter; apply nodup_rows; assumption).
  destruct (lut_spec weird lut_scale lut_range lut_range F2 G2 E2 L NF2 NG2 HL) as (_ & _ & _ & I2 & R2).
  destruct (lut_spec weird lut_scale lut_range lut_range F3 G3 E3 L' NF3 NG3 HL') as (_ & _ & _ & I3 & R3).
  assert (IN : In k (map lu_id L')).
  { rewrite I3. apply zunique_in. assert (In k (map lu_id L)) as X by (rewrite <- K; apply in_map; exact Hr). rewrite I2 in X. apply (proj1 (zunique_in _ _)) in X. apply in_map_iff in X. destruct X as (e & Ce & He). apply in_map_iff. exists e. split; [exact Ce|]. apply IE; auto. }
  apply in_map_iff in IN. destruct IN as (r' & Kr & Hr'). exists r'. split; [exact Hr'|].
  apply (row_same_events weird lut_scale lut_range lut_range F2 G2 E2 F3 G3 E3 L L' r r'); auto; [congruence|rewrite K; exact PC|rewrite K; exact PF|rewrite K; exact PG].
Qed.

(** The rows that meet the cell, of one file. *)
Lemma file_meeting : forall ds q q' t t' (b b' : lutrow -> bool), usable ds ->
  (forall p, q = Some p -> q_check p = true) -> (forall p, q' = Some p -> q_check p = true) ->
  one_chunk set_order q cs ds -> one_chunk set_order q' cs ds ->
  tables_of_file set_order weird cs q ds t -> tables_of_file set_order weird cs q' ds t' ->
  (forall r r', same_pixel r r' -> b r = b' r') ->
  (forall r, (In r (List.concat t) /\ b r = true) \/ (In r (List.concat t') /\ b' r = true) ->
    forall F G E f e, ds = [F; G; E] -> In f F -> In e (flash_events G E (rid f)) -> cell e = lu_id r -> (takes q G E f <-> takes q' G E f)) ->
  Forall2 same_pixel (filter b (List.concat t)) (filter b' (List.concat t')).
Proof.
  intros ds q q' t t' b b' US HQ HQ' OC OC' T T' BB AG. destruct US as [Z|(F & G & E & -> & nF & nG & nE & D & NF & NG & NE)].
  - destruct T as [[_ ->]|[(? & ? & ?) _]]; [|congruence]. destruct T' as [[_ ->]|[(? & ? & ?) _]]; [|congruence]. constructor.
  - destruct (file_table F G E q t D nF nG nE NF NG HQ OC T) as (F2 & G2 & E2 & H1 & H2 & H3 & D2 & K).
    destruct (file_table F G E q' t' D nF nG nE NF NG HQ' OC' T') as (F3 & G3 & E3 & H1' & H2' & H3' & D3 & K').
    assert (AG' : forall r, (In r (List.concat t) /\ b r = true) \/ (In r (List.concat t') /\ b' r = true) -> forall f e, In f F -> In e (flash_events G E (rid f)) -> cell e = lu_id r -> (takes q G E f <-> takes q' G E f)) by (intros r Hr f e; apply (AG r Hr F G E f e eq_refl)).
    assert (ONE : forall Fa Ga Ea qa L r, (forall f, In f Fa <-> In f F /\ takes qa G E f) -> (forall g, In g Ga <-> In g G /\ exists f, In f Fa /\ rid f = rpid g) -> (forall e, In e Ea <-> In e E /\ exists g, In g Ga /\ rid g = rpid e) ->
      numbers (areas Fa) -> numbers (areas Ga) -> lut [Fa; Ga; Ea] = Ok L -> In r L -> exists f e, In f F /\ takes qa G E f /\ In e (flash_events G E (rid f)) /\ cell e = lu_id r).
    { intros Fa Ga Ea qa L r A1 A2 A3 NFa NGa HL Hr. destruct (lut_spec weird lut_scale lut_range lut_range Fa Ga Ea L NFa NGa HL) as (_ & _ & _ & I2 & _).
      assert (In (lu_id r) (map lu_id L)) as X by (apply in_map; exact Hr). rewrite I2 in X. apply (proj1 (zunique_in _ _)) in X. apply in_map_iff in X. destruct X as (e & Ce & He).
      apply A3 in He. destruct He as [He (g & Hg & Eg)]. apply A2 in Hg. destruct Hg as [Hg (f & Hf & Ff)]. apply A1 in Hf. exists f, e. split; [tauto|]. split; [tauto|]. split; [|exact Ce].
      apply filter_In. split; [exact He|]. apply existsb_exists. exists g. split; [exact Hg|]. apply andb_true_iff. rewrite !Z.eqb_eq. split; congruence. }
    assert (EMPTY : forall (p : lutrow -> bool) L, (forall r, In r L -> p r = true -> False) -> filter p L = []).
    { intros p L X. induction L as [|r L IH]; [reflexivity|]. cbn [filter]. destruct (p r) eqn:P; [destruct (X r (or_introl eq_refl) P)|]. apply IH. intros r0 Hr0. apply X. right. exact Hr0. }
    destruct K as [[Z ->]|(L & HL & -> & NF2 & NG2)]; destruct K' as [[Z' ->]|(L' & HL' & -> & NF3 & NG3)].
    + constructor.
    + cbn [List.concat filter]. rewrite app_nil_r. rewrite EMPTY; [constructor|]. intros r Hr Br.
      destruct (ONE F3 G3 E3 q' L' r H1' H2' H3' NF3 NG3 HL' Hr) as (f & e & Hf & TK & He & Ce).
      assert (In f F2) by (apply H1; split; [exact Hf|]; apply (AG' r) with (e := e); auto; right; cbn; rewrite app_nil_r; auto). subst F2. contradiction.
    + cbn [List.concat filter]. rewrite app_nil_r. rewrite EMPTY; [constructor|]. intros r Hr Br.
      destruct (ONE F2 G2 E2 q L r H1 H2 H3 NF2 NG2 HL Hr) as (f & e & Hf & TK & He & Ce).
      assert (In f F3) by (apply H1'; split; [exact Hf|]; apply (AG' r) with (e := e); auto; left; cbn; rewrite app_nil_r; auto). subst F3. contradiction.
    + clear AG. cbn [List.concat] in AG' |- *. rewrite !app_nil_r. setoid_rewrite app_nil_r in AG'.
      assert (S1 : StronglySorted Z.lt (map lu_id L)) by (destruct (lut_spec weird lut_scale lut_range lut_range F2 G2 E2 L NF2 NG2 HL) as (_ & _ & _ & -> & _); apply zunique_sorted).
      assert (S2 : StronglySorted Z.lt (map lu_id L')) by (destruct (lut_spec weird lut_scale lut_range lut_range F3 G3 E3 L' NF3 NG3 HL') as (_ & _ & _ & -> & _); apply zunique_sorted).
      assert (TO : forall r, In r L -> b r = true -> exists r', In r' L' /\ same_pixel r r').
      { intros r Hr Br. apply (pixel_same F G E F2 G2 E2 F3 G3 E3 q q' L L' r (lu_id r) D H1 H2 H3 D2 H1' H2' H3' D3 NF2 NG2 NF3 NG3 HL HL' Hr eq_refl). intros f e Hf He Ce. apply (AG' r) with (e := e); auto. }
      assert (FRO : forall r, In r L' -> b' r = true -> exists r', In r' L /\ same_pixel r r').
      { intros r Hr Br. apply (pixel_same F G E F3 G3 E3 F2 G2 E2 q' q L' L r (lu_id r) D H1' H2' H3' D3 H1 H2 H3 D2 NF3 NG3 NF2 NG2 HL' HL Hr eq_refl). intros f e Hf He Ce. symmetry. apply (AG' r) with (e := e); auto. }
      apply (by_key _ lu_id).
      * apply sorted_same; try (apply sorted_filter; assumption). intros k. rewrite !in_map_iff. split; intros (r & Kr & Hr); apply filter_In in Hr; destruct Hr as [Hr Br].
        -- destruct (TO r Hr Br) as (r' & Hr' & SP). exists r'. split; [destruct SP as (Q & _); congruence|]. apply filter_In. split; [exact Hr'|]. rewrite <- (BB r r' SP). exact Br.
        -- destruct (FRO r Hr Br) as (r' & Hr' & SP). exists r'. split; [destruct SP as (Q & _); congruence|]. apply filter_In. split; [exact Hr'|]. rewrite (BB r' r (same_pixel_sym _ _ SP)). exact Br.
      * intros r r' Hr Hr' K. apply filter_In in Hr, Hr'. destruct Hr as [Hr Br]. destruct Hr' as [Hr' Br']. destruct (TO r Hr Br) as (r2 & Hr2 & SP).
        assert (r2 = r') as <-; [|exact SP]. apply (nodup_key _ lu_id L'); auto; [|destruct SP as (Q & _); congruence].
        destruct (lut_spec weird lut_scale lut_range lut_range F3 G3 E3 L' NF3 NG3 HL') as (_ & _ & _ & -> & _). apply zunique_nodup.
Qed.
Lemma files_meeting : forall files q q' t t' (b b' : lutrow -> bool), Forall usable files ->
  (forall p, q = Some p -> q_check p = true) -> (forall p, q' = Some p -> q_check p = true) ->
  Forall (one_chunk set_order q cs) files -> Forall (one_chunk set_order q' cs) files ->
  tables_read set_order weird cs q files t -> tables_read set_order weird cs q' files t' ->
  (forall r r', same_pixel r r' -> b r = b' r') ->
  (forall r, (In r (List.concat t) /\ b r = true) \/ (In r (List.concat t') /\ b' r = true) ->
    forall F G E f e, In [F; G; E] files -> In f F -> In e (flash_events G E (rid f)) -> cell e = lu_id r -> (takes q G E f <-> takes q' G E f)) ->
  Forall2 same_pixel (filter b (List.concat t)) (filter b' (List.concat t')).
Proof.
  intros files q q' t t' b b' US HQ HQ' OC OC' (x & T & ->) (x' & T' & ->) BB. revert x x' T T'. induction files as [|ds files IH]; intros x x' T T' AG.
  - inversion T; subst. inversion T'; subst. constructor.
  - inversion US as [|? ? U US']; subst. inversion OC as [|? ? O1 OC1]; subst. inversion OC' as [|? ? O2 OC2]; subst. inversion T as [|? a ? xs Ta Txs]; subst. inversion T' as [|? a' ? xs' Ta' Txs']; subst.
    cbn [List.concat] in *. rewrite !concat_app, !filter_app in *. apply Forall2_app.
    + apply (file_meeting ds q q'); auto. intros r Hr F G E f e Ed. apply AG; [|left; exact Ed]. destruct Hr as [[h1 h2]|[h1 h2]]; [left|right]; split; auto; apply in_or_app; auto.
    + apply IH; auto. intros r Hr F G E f e Hd. apply AG; [|right; exact Hd]. destruct Hr as [[h1 h2]|[h1 h2]]; [left|right]; split; auto; apply in_or_app; auto.
Qed.
End Files.
