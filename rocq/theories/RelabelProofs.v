(** Proofs about renumbered files. *)
From Coq Require Import String List ZArith QArith Qabs Bool Lia Permutation Sorting.Sorted.
From Verif Require Import Base BaseProofs Traversal TraversalSpec TraversalProofs TraversalProofs2 TraversalProofs3 TraversalProofs4 Glm GlmSpec GlmProofs GlmProofs2 GlmProofs3
  Lut LutSpec LutProofs PropGlm PropLut Accum AccumSpec AccumProofs Poly ChunkSpec ChunkProofs PropChunks RowOrderSpec RowOrderProofs RelabelSpec.
Import ListNotations.
Open Scope Z_scope.
Local Notation tbl := (table obs).

(** * Numbers given to the ids of a file can be extended to all numbers *)
Fixpoint bound (l : list Z) : Z := match l with [] => 0 | a :: r => Z.max (Z.abs a) (bound r) end.
Lemma bound_in : forall l a, In a l -> Z.abs a <= bound l.
Proof. induction l as [|b l IH]; intros a []; cbn [bound]; [subst; lia|specialize (IH a H); lia]. Qed.
Lemma bound_pos : forall l, 0 <= bound l.
Proof. induction l; cbn [bound]; lia. Qed.
Lemma extend : forall f ids, one_to_one f ids -> exists g, (forall a b, g a = g b -> a = b) /\ forall a, In a ids -> g a = f a.
Proof.
  intros f ids I. set (M := bound (map f ids) + 1).
  exists (fun x => if in_dec Z.eq_dec x ids then f x else if 0 <=? x then x + M else x - M). pose proof (bound_pos (map f ids)).
  assert (B : forall a, In a ids -> Z.abs (f a) < M) by (intros a Ha; pose proof (bound_in (map f ids) (f a) (in_map f ids a Ha)); lia).
  split.
  - intros a b. destruct (in_dec Z.eq_dec a ids) as [A|A]; destruct (in_dec Z.eq_dec b ids) as [C|C]; [apply I; auto| | |].
    + specialize (B a A). destruct (Z.leb_spec 0 b); lia.
    + specialize (B b C). destruct (Z.leb_spec 0 a); lia.
    + destruct (Z.leb_spec 0 a); destruct (Z.leb_spec 0 b); lia.
  - intros a Ha. destruct (in_dec Z.eq_dec a ids); [reflexivity|contradiction].
Qed.

Lemma filter_map : forall A B (f : A -> B) (p : B -> bool) l, filter p (map f l) = map f (filter (fun x => p (f x)) l).
Proof. induction l as [|a l IH]; [reflexivity|]. cbn [map filter]. destruct (p (f a)); cbn [map]; rewrite IH; reflexivity. Qed.
Lemma existsb_map : forall A B (f : A -> B) (p : B -> bool) l, existsb p (map f l) = existsb (fun x => p (f x)) l.
Proof. induction l as [|a l IH]; [reflexivity|]. cbn [map existsb]. rewrite IH. reflexivity. Qed.

Section Renumbered.
Variables (ff fg fe : Z -> Z) (k : Q).
Hypothesis IF : forall a b, ff a = ff b -> a = b.
Hypothesis IG : forall a b, fg a = fg b -> a = b.
Hypothesis IE : forall a b, fe a = fe b -> a = b.
Let rf := flash_as ff k.
Let rg := group_as ff fg k.
Let re := event_as ff fg fe k.
Lemma eqf : forall a b, (ff a =? ff b) = (a =? b).
Proof. intros. destruct (Z.eqb_spec a b); [subst; apply Z.eqb_refl|]. apply Z.eqb_neq. intros K. apply n, IF, K. Qed.
Lemma eqg : forall a b, (fg a =? fg b) = (a =? b).
Proof. intros. destruct (Z.eqb_spec a b); [subst; apply Z.eqb_refl|]. apply Z.eqb_neq. intros K. apply n, IG, K. Qed.

Lemma rf_inj : forall a b, rid (rf a) = rid (rf b) -> rid a = rid b. Proof. intros a b. apply IF. Qed.
Lemma nodup_as : forall (h : Z -> Z) (f : row obs -> row obs) (T : tbl), (forall a b, h a = h b -> a = b) -> (forall r, rid (f r) = h (rid r)) -> NoDup (map rid T) -> NoDup (map rid (map f T)).
Proof.
  intros h f T I E N. rewrite map_map. rewrite (map_ext _ (fun r => h (rid r))) by auto. rewrite <- map_map. apply FinFun.Injective_map_NoDup; auto.
Qed.
Lemma flash_events_as : forall (G E : tbl) i, flash_events (map rg G) (map re E) (ff i) = map re (flash_events G E i).
Proof.
  intros G E i. unfold flash_events. rewrite filter_map. f_equal. apply filter_ext. intros e. rewrite existsb_map. induction G as [|g G IH]; [reflexivity|].
  cbn [existsb]. rewrite IH. f_equal. cbn [rg re group_as event_as rid rpid]. rewrite eqg, eqf. reflexivity.
Qed.
Lemma groups_as : forall (G : tbl) i, with_parent (map rg G) (ff i) = map rg (with_parent G i).
Proof. intros G i. unfold with_parent. rewrite filter_map. f_equal. apply filter_ext. intros g. cbn [rg group_as rpid]. apply eqf. Qed.
Lemma events_as : forall (E : tbl) i, with_parent (map re E) (fg i) = map re (with_parent E i).
Proof. intros E i. unfold with_parent. rewrite filter_map. f_equal. apply filter_ext. intros e. cbn [re event_as rpid]. apply eqg. Qed.

Lemma derived_as : forall F G E : tbl, derived_ok F G E -> derived_ok (map rf F) (map rg G) (map re E).
Proof.
  intros F G E ((U & O) & D1 & D2 & D3). apply unique3 in U. destruct U as (u1 & u2 & u3). apply linked_no_orphans in O. destruct O as [L1 L2].
  split; [split|split; [|split]].
  - apply unique3. split; [apply (nodup_as ff rf); auto|]. split; [apply (nodup_as fg rg); auto|apply (nodup_as fe re); auto].
  - apply linked_no_orphans. split.
    + intros s Hs. apply in_map_iff in Hs. destruct Hs as (g & <- & Hg). destruct (L1 g Hg) as (r & Hr & Er). exists (rf r). split; [apply in_map; auto|]. cbn. congruence.
    + intros s Hs. apply in_map_iff in Hs. destruct Hs as (e & <- & He). destruct (L2 e He) as (r & Hr & Er). exists (rg r). split; [apply in_map; auto|]. cbn. congruence.
  - intros s Hs. apply in_map_iff in Hs. destruct Hs as (e & <- & He). destruct (D1 e He) as (g & Hg & Eg & Of). exists (rg g). split; [apply in_map; auto|]. cbn. split; congruence.
  - intros s Hs. apply in_map_iff in Hs. destruct Hs as (g & <- & Hg). cbn [rg group_as rdat other o_nchild rid]. rewrite events_as, map_length. auto.
  - intros s Hs. apply in_map_iff in Hs. destruct Hs as (f & <- & Hf). cbn [rf flash_as rdat other o_nchild o_nevent rid]. rewrite groups_as, map_length. destruct (D3 f Hf) as [-> ->]. split; [reflexivity|].
    rewrite filter_map, map_length. f_equal. apply filter_ext. intros e. cbn. symmetry. apply eqf.
Qed.
Lemma wanted_as : forall q (G E : tbl) f, wanted q (map rg G) (map re E) (rf f) <-> wanted q G E f.
Proof.
  intros q G E f. unfold wanted. cbn [rf flash_as rdat rid other o_x o_y o_lon o_lat]. rewrite flash_events_as, groups_as, !map_length.
  assert (X : (exists e, In e (map re (flash_events G E (rid f))) /\ (let fov := (-(1349 # 10000), 1349 # 10000)%Q in
     strictly fov (o_x (rdat e)) /\ strictly fov (o_y (rdat e)) /\ (forall r, q_x q = Some r -> strictly r (o_x (rdat e))) /\ (forall r, q_y q = Some r -> strictly r (o_y (rdat e))))) <->
    (exists e, In e (flash_events G E (rid f)) /\ (let fov := (-(1349 # 10000), 1349 # 10000)%Q in
     strictly fov (o_x (rdat e)) /\ strictly fov (o_y (rdat e)) /\ (forall r, q_x q = Some r -> strictly r (o_x (rdat e))) /\ (forall r, q_y q = Some r -> strictly r (o_y (rdat e)))))).
  { split; intros (e & He & K).
    - apply in_map_iff in He. destruct He as (e0 & <- & He). exists e0. auto.
    - exists (re e). split; [apply in_map; auto|exact K]. }
  rewrite X. reflexivity.
Qed.
Lemma flashes_of_as : forall F C : tbl, flashes_of (map rf F) (map re C) = map rf (flashes_of F C).
Proof.
  intros F C. unfold flashes_of. rewrite filter_map. f_equal. apply filter_ext. intros f. rewrite existsb_map. induction C as [|e C IH]; [reflexivity|]. cbn [existsb]. rewrite IH. f_equal. cbn. apply eqf.
Qed.
Lemma groups_of_as : forall G C : tbl, groups_of (map rg G) (map re C) = map rg (groups_of G C).
Proof.
  intros G C. unfold groups_of. rewrite filter_map. f_equal. apply filter_ext. intros g. rewrite existsb_map. induction C as [|e C IH]; [reflexivity|]. cbn [existsb]. rewrite IH. f_equal. cbn. apply eqg.
Qed.
Lemma areas_as : forall T : tbl, areas (map rf T) = areas T /\ areas (map rg T) = areas T.
Proof. intros T. unfold areas. rewrite !map_map. split; reflexivity. Qed.
Lemma xy_as : forall T : tbl, xs (map re T) = xs T /\ ys (map re T) = ys T.
Proof. intros T. unfold xs, ys. rewrite !map_map. split; reflexivity. Qed.
Lemma fsum_times : forall l, feq (times k (fsum l)) (fsum (map (times k) l)).
Proof.
  intros l. unfold fsum. assert (G : forall l a b, feq (times k a) b -> feq (times k (fold_left Lut.fadd l a)) (fold_left Lut.fadd (map (times k) l) b)).
  { clear l. induction l as [|x l IH]; intros a b H; [exact H|]. cbn [fold_left map]. apply IH. destruct a as [a|], b as [b|], x as [x|]; cbn in *; try tauto. rewrite <- H. ring. }
  apply G. cbn. ring.
Qed.
Lemma energies_as : forall T : tbl, energies (map re T) = map (times k) (energies T).
Proof. intros T. unfold energies. rewrite !map_map. reflexivity. Qed.

(** Selections *)
Lemma sel_as : forall set_order, (forall l, Permutation (set_order l) l) ->
  forall (F G E F' G' E' : tbl) q, Permutation F' (map rf F) -> Permutation G' (map rg G) -> Permutation E' (map re E) ->
  derived_ok F G E -> F <> [] -> G <> [] -> E <> [] -> (forall q', q = Some q' -> q_check q' = true) ->
  exists F2 G2 E2 F2' G2' E2', selection set_order [F; G; E] q [F2; G2; E2] /\ selection set_order [F'; G'; E'] q [F2'; G2'; E2'] /\
    Permutation F2' (map rf F2) /\ Permutation G2' (map rg G2) /\ Permutation E2' (map re E2).
Proof.
  intros so HP F G E F' G' E' q PF PG PE D nF nG nE HQ. pose proof (derived_as F G E D) as D'.
  assert (NE : forall (h : row obs -> row obs) T, T <> [] -> map h T <> []) by (intros h [|? ?] n K; [congruence|discriminate]).
  destruct (selection_perm so HP (map rf F) (map rg G) (map re E) F' G' E' q (Permutation_sym PF) (Permutation_sym PG) (Permutation_sym PE) D' (NE _ _ nF) (NE _ _ nG) (NE _ _ nE) HQ) as (F1 & G1 & E1 & F2' & G2' & E2' & S1 & S2 & P1 & P2 & P3).
  destruct q as [q|].
  - destruct (C12_subset_exact so HP F G E q D nF nG nE (HQ q eq_refl)) as (F2 & G2 & E2 & S & H1 & H2 & H3 & ((U & _) & _)).
    destruct (C12_subset_exact so HP _ _ _ q D' (NE rf _ nF) (NE rg _ nG) (NE re _ nE) (HQ q eq_refl)) as (F3 & G3 & E3 & S3 & H1' & H2' & H3' & ((U' & _) & _)).
    assert ([F3; G3; E3] = [F1; G1; E1]) as EQ by (unfold selection in S1; congruence). inversion EQ; subst F3 G3 E3. clear EQ S3.
    apply unique3 in U, U'. destruct U as (u1 & u2 & u3). destruct U' as (u1' & u2' & u3').
    assert (A : forall f, In f F1 <-> In f (map rf F2)).
    { intros f. rewrite H1', !in_map_iff. split.
      - intros [(x & <- & Hx) W]. exists x. split; [reflexivity|]. apply H1. split; [exact Hx|]. apply wanted_as. exact W.
      - intros (x & <- & Hx). apply H1 in Hx. destruct Hx as [Hx W]. split; [eauto|]. apply wanted_as. exact W. }
    assert (B : forall g, In g G1 <-> In g (map rg G2)).
    { intros g. rewrite H2', !in_map_iff. split.
      - intros [(x & <- & Hx) (f & Hf & Ef)]. exists x. split; [reflexivity|]. apply H2. split; [exact Hx|]. apply A in Hf. apply in_map_iff in Hf. destruct Hf as (y & <- & Hy). exists y. split; [exact Hy|]. apply IF. exact Ef.
      - intros (x & <- & Hx). apply H2 in Hx. destruct Hx as [Hx (f & Hf & Ef)]. split; [eauto|]. exists (rf f). split; [apply A, in_map, Hf|]. cbn. congruence. }
    assert (C : forall e, In e E1 <-> In e (map re E2)).
    { intros e. rewrite H3', !in_map_iff. split.
      - intros [(x & <- & Hx) (f & Hf & Ef)]. exists x. split; [reflexivity|]. apply H3. split; [exact Hx|]. apply B in Hf. apply in_map_iff in Hf. destruct Hf as (y & <- & Hy). exists y. split; [exact Hy|]. apply IG. exact Ef.
      - intros (x & <- & Hx). apply H3 in Hx. destruct Hx as [Hx (f & Hf & Ef)]. split; [eauto|]. exists (rg f). split; [apply B, in_map, Hf|]. cbn. congruence. }
    exists F2, G2, E2, F2', G2', E2'. split; [exact S|]. split; [exact S2|].
    split; [|split]; (eapply perm_trans; [apply Permutation_sym; first [exact P1|exact P2|exact P3]|]); apply NoDup_Permutation; auto; try (apply nodup_rows; assumption);
    apply nodup_rows; [apply (nodup_as ff rf)|apply (nodup_as fg rg)|apply (nodup_as fe re)]; auto.
  - unfold selection in S2. exists F, G, E, F', G', E'. split; [reflexivity|]. split; [reflexivity|]. auto.
Qed.

(** Tables *)
Lemma table_as : forall weird scale xr yr (F G E F' G' E' : tbl) L L', Permutation F' (map rf F) -> Permutation G' (map rg G) -> Permutation E' (map re E) ->
  numbers (areas F) -> numbers (areas G) -> NoDup (map rid F) -> NoDup (map rid G) ->
  get_lutevents weird scale xr yr [F; G; E] = Ok L -> get_lutevents weird scale xr yr [F'; G'; E'] = Ok L' ->
  Forall2 (same_but_energy k) L L'.
Proof.
  intros weird scale xr yr F G E F' G' E' L L' PF PG PE NF NG UF UG H H'.
  assert (NF' : numbers (areas F')) by (apply (numbers_perm _ _ _ (Permutation_sym PF)); fold (areas (map rf F)); rewrite (proj1 (areas_as F)); exact NF).
  assert (NG' : numbers (areas G')) by (apply (numbers_perm _ _ _ (Permutation_sym PG)); fold (areas (map rg G)); rewrite (proj2 (areas_as G)); exact NG).
  assert (UF' : NoDup (map rid F')) by (eapply Permutation_NoDup; [apply Permutation_map, Permutation_sym; exact PF|apply (nodup_as ff rf); auto]).
  assert (UG' : NoDup (map rid G')) by (eapply Permutation_NoDup; [apply Permutation_map, Permutation_sym; exact PG|apply (nodup_as fg rg); auto]).
  destruct (lut_spec weird scale xr yr F G E L NF NG H) as (_ & _ & _ & I & R).
  destruct (lut_spec weird scale xr yr F' G' E' L' NF' NG' H') as (_ & _ & _ & I' & R').
  assert (CE : map (cell weird scale xr yr) (map re E) = map (cell weird scale xr yr) E) by (rewrite map_map; reflexivity).
  assert (IDS : map lu_id L = map lu_id L').
  { rewrite I, I'. apply sorted_same; try apply zunique_sorted. intros x. rewrite !zunique_in, <- CE. apply in_perm. apply Permutation_map, Permutation_sym. exact PE. }
  apply (by_key _ lu_id); [exact IDS|]. intros r r' Hr Hr' K. rewrite Forall_forall in R, R'.
  destruct (R r Hr) as (_ & c & e & x & y & _ & _ & _ & fa & ga & mn). destruct (R' r' Hr') as (_ & c' & e' & x' & y' & _ & _ & _ & fa' & ga' & mn').
  destruct (C25_each_flash_once weird scale xr yr F G E L r NF NG UF UG H Hr) as (fc & gc).
  destruct (C25_each_flash_once weird scale xr yr F' G' E' L' r' NF' NG' UF' UG' H' Hr') as (fc' & gc').
  cbv zeta in fc, gc, fc', gc'. change (fun e0 : row obs => discretize weird scale xr yr (o_x (rdat e0)) (o_y (rdat e0))) with (cell weird scale xr yr) in fc, gc, fc', gc'.
  rewrite <- K in *. set (C := cell_events (cell weird scale xr yr) E (lu_id r)) in *. set (C' := cell_events (cell weird scale xr yr) E' (lu_id r)) in *.
  assert (PC : Permutation C' (map re C)). { unfold C, C', cell_events. eapply perm_trans; [apply filter_perm; exact PE|]. rewrite filter_map. apply Permutation_refl. }
  assert (PFl : Permutation (flashes_of F' C') (map rf (flashes_of F C))) by (rewrite <- flashes_of_as; apply (keyed_perm (fun e => o_flash (rdat e))); auto).
  assert (PGr : Permutation (groups_of G' C') (map rg (groups_of G C))) by (rewrite <- groups_of_as; apply (keyed_perm rpid); auto).
  unfold same_but_energy. split; [exact K|].
  split. { rewrite x, x'. rewrite <- (proj1 (xy_as C)). apply fmean_perm, Permutation_map, Permutation_sym, PC. }
  split. { rewrite y, y'. rewrite <- (proj2 (xy_as C)). apply fmean_perm, Permutation_map, Permutation_sym, PC. }
  split. { rewrite e, e'. eapply feq_trans; [apply fsum_times|]. rewrite <- energies_as. apply fsum_perm, Permutation_map, Permutation_sym, PC. }
  split. { rewrite c, c', (Permutation_length PC), map_length. reflexivity. }
  split. { rewrite fc, fc', (Permutation_length PFl), map_length. reflexivity. }
  split. { rewrite gc, gc', (Permutation_length PGr), map_length. reflexivity. }
  pose proof (areas_perm _ _ PFl) as AF. rewrite (proj1 (areas_as _)) in AF. pose proof (areas_perm _ _ PGr) as AG. rewrite (proj2 (areas_as _)) in AG.
  split; [apply (is_num_feq _ _ _ _ fa fa'), total_perm, Permutation_sym, AF|]. split; [apply (is_num_feq _ _ _ _ ga ga'), total_perm, Permutation_sym, AG|].
  apply (least_same _ _ _ _ (Permutation_sym AF) mn mn').
Qed.
End Renumbered.

(** A complete file renumbered one to one is renumbered by functions that are one to one
    everywhere. *)
Lemma everywhere : forall k (F G E F' G' E' : tbl) ff fg fe, derived_ok F G E ->
  one_to_one ff (map rid F) -> one_to_one fg (map rid G) -> one_to_one fe (map rid E) ->
  Permutation F' (map (flash_as ff k) F) -> Permutation G' (map (group_as ff fg k) G) -> Permutation E' (map (event_as ff fg fe k) E) ->
  exists hf hg he, (forall a b, hf a = hf b -> a = b) /\ (forall a b, hg a = hg b -> a = b) /\ (forall a b, he a = he b -> a = b) /\
    Permutation F' (map (flash_as hf k) F) /\ Permutation G' (map (group_as hf hg k) G) /\ Permutation E' (map (event_as hf hg he k) E).
Proof.
  intros k F G E F' G' E' ff fg fe ((_ & O) & D1 & _) OF OG OE PF PG PE. apply linked_no_orphans in O. destruct O as [L1 L2].
  destruct (extend ff _ OF) as (hf & IF & EF). destruct (extend fg _ OG) as (hg & IG & EG). destruct (extend fe _ OE) as (he & IE & EE).
  assert (RF : forall f, In f F -> hf (rid f) = ff (rid f)) by (intros; apply EF, in_map; auto). assert (RG : forall g, In g G -> hg (rid g) = fg (rid g)) by (intros; apply EG, in_map; auto).
  exists hf, hg, he. split; [exact IF|]. split; [exact IG|]. split; [exact IE|]. split; [|split].
  - rewrite (map_ext_in _ (flash_as ff k)); [exact PF|]. intros f Hf. unfold flash_as. rewrite RF by auto. reflexivity.
  - rewrite (map_ext_in _ (group_as ff fg k)); [exact PG|]. intros g Hg. unfold group_as. rewrite RG by auto. destruct (L1 g Hg) as (f & Hf & <-). rewrite RF by auto. reflexivity.
  - rewrite (map_ext_in _ (event_as ff fg fe k)); [exact PE|]. intros e He. unfold event_as, other. rewrite (EE (rid e)) by (apply in_map; auto).
    destruct (D1 e He) as (g & Hg & <- & ->). rewrite RG by auto. destruct (L1 g Hg) as (f & Hf & <-). rewrite RF by auto. reflexivity.
Qed.
