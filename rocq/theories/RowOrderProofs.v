(** Lemmas about files that hold the same rows in another order. *)
From Coq Require Import String List ZArith QArith Qabs Bool Lia Permutation Sorting.Sorted.
From Verif Require Import Base BaseProofs Traversal TraversalSpec TraversalProofs TraversalProofs2 TraversalProofs3 TraversalProofs4 Glm GlmSpec GlmProofs GlmProofs2 GlmProofs3
  Lut LutSpec LutProofs PropGlm PropLut Accum AccumSpec Poly PolySpec BBox BBoxSpec Slice SliceSpec Regroup Pipeline PipelineSpec PipelineProofs PropSlice PropPipeline ChunkSpec ChunkProofs PropChunks RowOrderSpec.
Import ListNotations.
Open Scope Z_scope.
Local Notation tbl := (table obs).

Lemma feq_refl : forall u, feq u u.
Proof. intros [a|]; cbn; [reflexivity|exact I]. Qed.
Lemma feq_sym : forall u v, feq u v -> feq v u.
Proof. intros [a|] [b|]; cbn; auto. intros. symmetry. auto. Qed.
Lemma feq_trans : forall u v w, feq u v -> feq v w -> feq u w.
Proof. intros [a|] [b|] [c|]; cbn; try tauto. intros -> ->. reflexivity. Qed.
Lemma feq_num : forall u v, feq u v -> (num u == num v)%Q.
Proof. intros [a|] [b|]; cbn; try tauto. intros _. reflexivity. Qed.
Lemma is_num_feq : forall u v a b, is_num u a -> is_num v b -> (a == b)%Q -> feq u v.
Proof. intros u v a b (x & -> & Hx) (y & -> & Hy) E. cbn. rewrite Hx, Hy. exact E. Qed.

Lemma fadd_feq : forall a a' b b', feq a a' -> feq b b' -> feq (Lut.fadd a b) (Lut.fadd a' b').
Proof. intros [a|] [a'|] [b|] [b'|]; cbn; try tauto. intros -> ->. reflexivity. Qed.
Lemma fold_feq : forall l a a', feq a a' -> feq (fold_left Lut.fadd l a) (fold_left Lut.fadd l a').
Proof. induction l as [|x l IH]; intros a a' H; [exact H|]. cbn. apply IH. apply fadd_feq; [exact H|apply feq_refl]. Qed.
Lemma fold_perm : forall l l', Permutation l l' -> forall a, feq (fold_left Lut.fadd l a) (fold_left Lut.fadd l' a).
Proof.
  induction 1 as [|x l l' P IH|x y l|l l' l'' P1 I1 P2 I2]; intros a; cbn [fold_left].
  - apply feq_refl.
  - apply IH.
  - apply fold_feq. destruct a as [a|], x as [x|], y as [y|]; cbn; auto. ring.
  - eapply feq_trans; eauto.
Qed.
Lemma fsum_perm : forall l l', Permutation l l' -> feq (fsum l) (fsum l').
Proof. intros. apply fold_perm. auto. Qed.
Lemma fmean_perm : forall l l', Permutation l l' -> feq (fmean l) (fmean l').
Proof.
  intros l l' P. pose proof (fsum_perm l l' P) as S. pose proof (Permutation_length P) as LEN. unfold fmean.
  destruct l as [|a l]; [apply Permutation_nil in P; subst; exact I|]. destruct l' as [|a' l']; [discriminate LEN|].
  rewrite LEN. destruct (fsum (a :: l)) as [x|], (fsum (a' :: l')) as [y|]; cbn in S |- *; try tauto. rewrite S. reflexivity.
Qed.
Lemma least_same : forall l l' u v, Permutation l l' -> least_of l u -> least_of l' v -> feq u v.
Proof.
  intros l l' u v P (a & -> & Ia & La) (b & -> & Ib & Lb). cbn. apply Qle_antisym.
  - apply La. apply (Permutation_in _ (Permutation_sym P)). exact Ib.
  - apply Lb. apply (Permutation_in _ P). exact Ia.
Qed.
Lemma sorted_same : forall l l', StronglySorted Z.lt l -> StronglySorted Z.lt l' -> (forall x, In x l <-> In x l') -> l = l'.
Proof.
  induction l as [|a l IH]; intros [|b l'] S S' H; [reflexivity|destruct (proj2 (H b) (or_introl eq_refl))|destruct (proj1 (H a) (or_introl eq_refl))|].
  apply StronglySorted_inv in S, S'. destruct S as [S A]. destruct S' as [S' B]. rewrite Forall_forall in A, B.
  assert (E : a = b).
  { destruct (proj1 (H a) (or_introl eq_refl)) as [K|K]; [congruence|]. destruct (proj2 (H b) (or_introl eq_refl)) as [K'|K']; [congruence|]. specialize (A b K'). specialize (B a K). lia. }
  subst b. f_equal. apply IH; auto. intros x. split; intros Hx.
  - destruct (proj1 (H x) (or_intror Hx)) as [K|K]; [|exact K]. specialize (A x Hx). lia.
  - destruct (proj2 (H x) (or_intror Hx)) as [K|K]; [|exact K]. specialize (B x Hx). lia.
Qed.
Lemma by_key : forall A (key : A -> Z) (P : A -> A -> Prop) l l', map key l = map key l' ->
  (forall r r', In r l -> In r' l' -> key r = key r' -> P r r') -> Forall2 P l l'.
Proof.
  induction l as [|a l IH]; intros [|b l'] E H; try discriminate E; constructor; inversion E.
  - apply H; cbn; auto.
  - apply IH; auto. intros; apply H; cbn; auto.
Qed.

(** * Selections *)
Lemma perm3 : forall ds ds' (F G E : tbl), same_rows ds ds' -> ds = [F; G; E] ->
  exists F' G' E', ds' = [F'; G'; E'] /\ Permutation F F' /\ Permutation G G' /\ Permutation E E'.
Proof.
  intros ds ds' F G E H ->. inversion H as [|? F' ? r1 PF H1]; subst. inversion H1 as [|? G' ? r2 PG H2]; subst. inversion H2 as [|? E' ? r3 PE H3]; subst. inversion H3; subst. eauto 8.
Qed.
Lemma in_perm : forall A (l l' : list A) x, Permutation l l' -> (In x l <-> In x l').
Proof. intros. split; apply Permutation_in; auto. apply Permutation_sym; auto. Qed.
Lemma numbers_perm : forall (v : row obs -> fval) T T', Permutation T T' -> numbers (map v T) -> numbers (map v T').
Proof. intros v T T' P N x Hx. apply N. apply (Permutation_in _ (Permutation_sym (Permutation_map v P))). exact Hx. Qed.

Section Shuffled.
Variables (F G E F' G' E' : tbl).
Hypothesis PF : Permutation F F'.
Hypothesis PG : Permutation G G'.
Hypothesis PE : Permutation E E'.

Lemma derived_perm : derived_ok F G E -> derived_ok F' G' E'.
Proof.
  intros ((U & O) & D1 & D2 & D3). apply unique3 in U. destruct U as (u1 & u2 & u3). apply linked_no_orphans in O. destruct O as [L1 L2].
  assert (LEN : forall (p : row obs -> bool) T T', Permutation T T' -> List.length (filter p T) = List.length (filter p T')) by (intros; apply Permutation_length, filter_perm; auto).
  split; [split|split; [|split]].
  - apply unique3. split; [|split]; eapply Permutation_NoDup; try apply Permutation_map; eauto.
  - apply linked_no_orphans. split.
    + intros s Hs. apply (in_perm _ _ _ s PG) in Hs. destruct (L1 s Hs) as (r & Hr & Er). exists r. split; auto. apply (in_perm _ _ _ r PF). auto.
    + intros s Hs. apply (in_perm _ _ _ s PE) in Hs. destruct (L2 s Hs) as (r & Hr & Er). exists r. split; auto. apply (in_perm _ _ _ r PG). auto.
  - intros e He. apply (in_perm _ _ _ e PE) in He. destruct (D1 e He) as (g & Hg & Eg). exists g. split; auto. apply (in_perm _ _ _ g PG). auto.
  - intros g Hg. apply (in_perm _ _ _ g PG) in Hg. rewrite (D2 g Hg). apply LEN. exact PE.
  - intros f Hf. apply (in_perm _ _ _ f PF) in Hf. destruct (D3 f Hf) as [-> ->]. split; apply LEN; auto.
Qed.
Lemma flash_events_perm : forall i, Permutation (flash_events G E i) (flash_events G' E' i).
Proof.
  intros i. unfold flash_events. eapply perm_trans; [apply filter_perm; exact PE|]. erewrite filter_ext; [apply Permutation_refl|]. intros e. cbv beta. apply existsb_perm. exact PG.
Qed.
Lemma wanted_perm : forall q f, wanted q G E f -> wanted q G' E' f.
Proof.
  intros q f (w1 & w2 & w3 & w4 & w5 & w6 & (e & He & w7)). split; [exact w1|]. split; [exact w2|]. split; [exact w3|]. split; [exact w4|]. split; [|split].
  - intros m Hm. rewrite <- (Permutation_length (flash_events_perm (rid f))). auto.
  - intros m Hm. unfold with_parent. rewrite <- (Permutation_length (filter_perm _ (fun s => rpid s =? rid f) _ _ PG)). apply w6. exact Hm.
  - exists e. split; [|exact w7]. apply (Permutation_in _ (flash_events_perm (rid f))). exact He.
Qed.
End Shuffled.

Lemma nodup_rows : forall (T : tbl), NoDup (map rid T) -> NoDup T.
Proof. intros T H. apply NoDup_map_inv with (f := rid). exact H. Qed.

Lemma selection_perm : forall set_order, (forall l, Permutation (set_order l) l) ->
  forall (F G E F' G' E' : tbl) q, Permutation F F' -> Permutation G G' -> Permutation E E' ->
  derived_ok F G E -> F <> [] -> G <> [] -> E <> [] -> (forall q', q = Some q' -> q_check q' = true) ->
  exists F2 G2 E2 F2' G2' E2', selection set_order [F; G; E] q [F2; G2; E2] /\ selection set_order [F'; G'; E'] q [F2'; G2'; E2'] /\
    Permutation F2 F2' /\ Permutation G2 G2' /\ Permutation E2 E2'.
Proof.
  intros so HP F G E F' G' E' q PF PG PE D nF nG nE HQ.
  assert (N : forall T T' : tbl, Permutation T T' -> T <> [] -> T' <> []) by (intros T T' P n K; subst T'; apply n; apply Permutation_nil; apply Permutation_sym; exact P).
  pose proof (derived_perm F G E F' G' E' PF PG PE D) as D'.
  destruct q as [q|].
  - destruct (C12_subset_exact so HP F G E q D nF nG nE (HQ q eq_refl)) as (F2 & G2 & E2 & S & H1 & H2 & H3 & ((U & _) & _)).
    destruct (C12_subset_exact so HP F' G' E' q D' (N _ _ PF nF) (N _ _ PG nG) (N _ _ PE nE) (HQ q eq_refl)) as (F2' & G2' & E2' & S' & H1' & H2' & H3' & ((U' & _) & _)).
    apply unique3 in U, U'. destruct U as (u1 & u2 & u3). destruct U' as (u1' & u2' & u3').
    exists F2, G2, E2, F2', G2', E2'. split; [exact S|]. split; [exact S'|].
    assert (A : forall f, In f F2 <-> In f F2').
    { intros f. rewrite H1, H1', (in_perm _ _ _ f PF). split; intros [a b]; split; auto.
      - apply (wanted_perm G E G' E' PG PE); auto.
      - apply (wanted_perm G' E' G E (Permutation_sym PG) (Permutation_sym PE)); auto. }
    assert (B : forall g, In g G2 <-> In g G2').
    { intros g. rewrite H2, H2', (in_perm _ _ _ g PG). split; intros [a (f & Hf & Ef)]; split; auto; exists f; split; auto; apply A; auto. }
    split; [|split]; apply NoDup_Permutation; try (apply nodup_rows; assumption); auto.
    intros e. rewrite H3, H3', (in_perm _ _ _ e PE). split; intros [a (f & Hf & Ef)]; split; auto; exists f; split; auto; apply B; auto.
  - exists F, G, E, F', G', E'. split; [reflexivity|]. split; [reflexivity|]. auto.
Qed.

(** * Tables *)
Section Tables.
Variable weird : fval -> Z.
Variables (scale : Q) (xr yr : Q * Q).

Lemma table_perm : forall (F G E F' G' E' : tbl) L L', Permutation F F' -> Permutation G G' -> Permutation E E' ->
  numbers (areas F) -> numbers (areas G) -> NoDup (map rid F) -> NoDup (map rid G) ->
  get_lutevents weird scale xr yr [F; G; E] = Ok L -> get_lutevents weird scale xr yr [F'; G'; E'] = Ok L' ->
  Forall2 same_pixel L L'.
Proof.
  intros F G E F' G' E' L L' PF PG PE NF NG UF UG H H'.
  pose proof (numbers_perm _ _ _ PF NF) as NF'. pose proof (numbers_perm _ _ _ PG NG) as NG'.
  assert (UF' : NoDup (map rid F')) by (eapply Permutation_NoDup; [apply Permutation_map; exact PF|exact UF]).
  assert (UG' : NoDup (map rid G')) by (eapply Permutation_NoDup; [apply Permutation_map; exact PG|exact UG]).
  destruct (lut_spec weird scale xr yr F G E L NF NG H) as (_ & _ & _ & I & R).
  destruct (lut_spec weird scale xr yr F' G' E' L' NF' NG' H') as (_ & _ & _ & I' & R').
  assert (IDS : map lu_id L = map lu_id L').
  { rewrite I, I'. apply sorted_same; try apply zunique_sorted. intros x. rewrite !zunique_in. apply in_perm. apply Permutation_map. exact PE. }
  apply (by_key _ lu_id); [exact IDS|]. intros r r' Hr Hr' K. rewrite Forall_forall in R, R'.
  destruct (R r Hr) as (_ & c & e & x & y & _ & _ & _ & fa & ga & mn). destruct (R' r' Hr') as (_ & c' & e' & x' & y' & _ & _ & _ & fa' & ga' & mn').
  destruct (C25_each_flash_once weird scale xr yr F G E L r NF NG UF UG H Hr) as (fc & gc).
  destruct (C25_each_flash_once weird scale xr yr F' G' E' L' r' NF' NG' UF' UG' H' Hr') as (fc' & gc').
  cbv zeta in fc, gc, fc', gc'. change (fun e0 : row obs => discretize weird scale xr yr (o_x (rdat e0)) (o_y (rdat e0))) with (cell weird scale xr yr) in fc, gc, fc', gc'.
  rewrite <- K in *. set (C := cell_events (cell weird scale xr yr) E (lu_id r)) in *. set (C' := cell_events (cell weird scale xr yr) E' (lu_id r)) in *.
  assert (PC : Permutation C C') by (apply filter_perm; exact PE).
  assert (PFl : Permutation (flashes_of F C) (flashes_of F' C')) by (apply (keyed_perm (fun e => o_flash (rdat e))); auto).
  assert (PGr : Permutation (groups_of G C) (groups_of G' C')) by (apply (keyed_perm rpid); auto).
  unfold same_pixel. split; [exact K|]. split; [rewrite x, x'; apply fmean_perm, Permutation_map, PC|]. split; [rewrite y, y'; apply fmean_perm, Permutation_map, PC|].
  split; [rewrite e, e'; apply fsum_perm, Permutation_map, PC|]. split; [rewrite c, c'; apply Permutation_length, PC|].
  split; [rewrite fc, fc'; apply Permutation_length, PFl|]. split; [rewrite gc, gc'; apply Permutation_length, PGr|].
  split; [apply (is_num_feq _ _ _ _ fa fa'), total_perm, areas_perm, PFl|]. split; [apply (is_num_feq _ _ _ _ ga ga'), total_perm, areas_perm, PGr|].
  apply (least_same _ _ _ _ (areas_perm _ _ PFl) mn mn').
Qed.
End Tables.

(** * One chunk *)
Lemma array_split_one : forall A (l : list A), array_split l 1 = [l].
Proof.
  intros A l. unfold array_split. rewrite Nat.div_1_r. change (Nat.modulo (List.length l) 1) with 0%nat. cbn [repeat app Nat.sub take_parts]. rewrite firstn_all. reflexivity.
Qed.
Lemma one_chunk_of : forall set_order, (forall l, Permutation (set_order l) l) ->
  forall cs (F G E : tbl) q, (0 < cs)%nat -> derived_ok F G E -> F <> [] -> G <> [] -> E <> [] ->
  (forall q', q = Some q' -> q_check q' = true) ->
  forall F2 G2 E2, selection set_order [F; G; E] q [F2; G2; E2] -> (List.length F2 < 2 * cs)%nat ->
  (F2 = [] /\ flash_chunks set_order cs [F; G; E] q = Ok []) \/
  (F2 <> [] /\ exists G3 E3, flash_chunks set_order cs [F; G; E] q = Ok [[F2; G3; E3]] /\ Permutation G2 G3 /\ Permutation E2 E3 /\ derived_ok F2 G3 E3).
Proof.
  intros so HP cs F G E q Hcs D nF nG nE HQ F2 G2 E2 S LEN.
  destruct (C26_chunks_split_selection so HP cs F G E q Hcs D nF nG nE HQ) as (sel & chunks & S1 & C & SP & _ & N).
  assert (sel = [F2; G2; E2]) by (unfold selection in *; destruct q; congruence). subst sel.
  assert (K : flash_chunks so cs [F; G; E] q = if Nat.eqb (List.length F2) 0 then Ok [] else map_res (get_flashes [F; G; E]) [map rid F2]).
  { unfold flash_chunks. assert (match q with None => Ok [F; G; E] | Some q0 => subset_flashes so [F; G; E] q0 end = Ok [F2; G2; E2]) as -> by (unfold selection in S; destruct q; congruence).
    cbn [bind]. assert (n_chunks cs (List.length (map rid F2)) = 1%nat) as ->.
    { rewrite map_length. unfold n_chunks. assert (List.length F2 / cs < 2)%nat by (apply Nat.div_lt_upper_bound; lia). lia. }
    rewrite array_split_one. reflexivity. }
  destruct F2 as [|f F2]; [left; split; [reflexivity|exact K]|right]. split; [discriminate|].
  cbn [List.length Nat.eqb map_res] in K. rewrite C in K. destruct (get_flashes [F; G; E] (map rid (f :: F2))) as [c|]; [|discriminate K]. cbn [bind] in K. inversion K; subst chunks. clear K.
  destruct (N c (or_introl eq_refl)) as (Fi & Gi & Ei & -> & Di & _). destruct SP as (F0 & G0 & E0 & EQ & _ & h0 & h1 & h2). injection EQ as e0 e1 e2. rewrite <- e0 in h0. rewrite <- e1 in h1. rewrite <- e2 in h2.
  cbn [map nth List.concat] in h0, h1, h2. rewrite app_nil_r in h0, h1, h2. subst Fi. exists Gi, Ei. split; [exact C|]. split; [apply Permutation_sym; exact h1|]. split; [apply Permutation_sym; exact h2|exact Di].
Qed.
