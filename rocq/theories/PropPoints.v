(** C67-C72: flashes, groups and events as point data, collections of files in time,
    polygons and initiation points. *)
From Coq Require Import String List ZArith QArith Bool Lia Permutation Sorting.Sorted.
From Verif Require Import Base BaseProofs Traversal TraversalSpec TraversalProofs Glm GlmSpec GlmProofs GlmProofs2 GlmProofs3 PropGlm
  Pipeline ChunkSpec PropChunks Points PointsSpec PointsProofs.
Import ListNotations.
Open Scope Z_scope.

Local Notation tbl := (table obs).

(** Hypotheses on an opened file, as in C26. *)
Definition opened (F G E : tbl) : Prop := derived_ok F G E /\ F <> [] /\ G <> [] /\ E <> [].
Definition checked (q : option query) : Prop := forall q', q = Some q' -> q_check q' = true.

Lemma read_full : forall so junk ck base cs (F G E : tbl) q, (forall l, Permutation (so l) l) ->
  (0 < cs)%nat -> opened F G E -> checked q ->
  exists Fs Gs Es chunks, selection so [F; G; E] q [Fs; Gs; Es] /\ splits chunks [Fs; Gs; Es] /\
    read_points so junk ck base cs [F; G; E] q = Ok (map (full_batch ck base) chunks) /\
    derived_ok Fs Gs Es /\ (forall f, In f Fs -> In f F) /\
    (forall g, In g Gs <-> In g G /\ exists f, In f Fs /\ rid f = rpid g) /\
    (forall e, In e Es <-> In e E /\ exists g, In g Gs /\ rid g = rpid e) /\
    (forall c, In c chunks -> exists Fi Gi Ei, c = [Fi; Gi; Ei] /\ derived_ok Fi Gi Ei /\ Fi <> [] /\ (List.length Fi < 2 * cs)%nat) /\
    (chunks = [] <-> Fs = []).
Proof.
  intros so junk ck base cs F G E q HP Hcs (D & nF & nG & nE) HQ.
  destruct (selection_exists so HP F G E q D nF nG nE HQ) as (Fs & Gs & Es & S & HF & HG & HE & D2).
  destruct (C26_chunks_split_selection so HP cs F G E q Hcs D nF nG nE HQ) as (sel & chunks & S' & R & SP & _ & N).
  assert (sel = [Fs; Gs; Es]) by (unfold selection in *; destruct q; congruence). subst sel.
  exists Fs, Gs, Es, chunks. split; [auto|]. split; [auto|].
  split. { unfold read_points. rewrite R. cbn [bind]. apply map_res_ok. intros c Hc. destruct (N c Hc) as (Fi & Gi & Ei & -> & Di & nFi & _).
    destruct Di as ((_ & O) & _). apply linked_no_orphans in O. destruct O. apply chunk_full; auto. }
  split; [auto|]. split; [auto|]. split; [auto|]. split; [auto|].
  split. { intros c Hc. destruct (N c Hc) as (Fi & Gi & Ei & -> & Di & nFi & L & _). exists Fi, Gi, Ei. auto. }
  destruct SP as (F' & G' & E' & EQ & _ & CF & _). injection EQ as <- <- <-. split; [intros ->; cbn in CF; auto|].
  intros ->. destruct chunks as [|c chunks]; [auto|]. exfalso. destruct (N c (or_introl eq_refl)) as (Fi & Gi & Ei & -> & _ & nFi & _).
  cbn in CF. destruct Fi; [congruence|discriminate].
Qed.

Lemma children_full : forall ck base level key chunks,
  (forall c, In c chunks -> fst (level (full_batch ck base c)) = fill_children ck base key (nth 2 c [])) ->
  children level (map (full_batch ck base) chunks) = fill_children ck base key (List.concat (map (fun c => nth 2 c []) chunks)).
Proof.
  intros ck base level key chunks H. unfold children. rewrite map_map.
  rewrite (map_ext_in _ (fun c => fill_children ck base key (nth 2 c []))) by auto. unfold fill_children. apply concat_map_map.
Qed.
Lemma parents_full : forall ck base level t0 t1 area k chunks,
  (forall c, In c chunks -> snd (level (full_batch ck base c)) = fill_parents t0 t1 base area (List.length (nth 2 c [])) (nth k c [])) ->
  Forall2 (parent_point t0 t1 base area) (List.concat (map (fun c => nth k c []) chunks)) (parents level (map (full_batch ck base) chunks)).
Proof.
  intros ck base level t0 t1 area k chunks H. unfold parents. rewrite map_map. apply forall2_concat. intros c Hc. rewrite H by auto. apply fill_parents_ok.
Qed.

Lemma contained : forall ck base key t0 t1 area n (T E : tbl), (forall e, In e E -> exists r, In r T /\ rid r = key e) ->
  self_contained (fill_children ck base key E, fill_parents t0 t1 base area n T).
Proof.
  intros ck base key t0 t1 area n T E H c Hc. cbn in *. unfold fill_children in Hc. apply in_map_iff in Hc. destruct Hc as (e & <- & He).
  destruct (H e He) as (r & Hr & Er). eexists. split; [apply in_map_iff; exists r; split; [reflexivity|auto]|]. cbn. rewrite Er. reflexivity.
Qed.

(** Without clipping, reading gives every selected flash, group and event exactly once as
    a parent and, at each level, every event of the selection exactly once as a child,
    with the values of the file; parents and children of a batch belong together. *)
Theorem C67_points : forall set_order junk, (forall l, Permutation (set_order l) l) ->
  forall ck base chunk_size (F G E : tbl) q, (0 < chunk_size)%nat -> opened F G E -> checked q ->
  exists Fs Gs Es bs, selection set_order [F; G; E] q [Fs; Gs; Es] /\
    read_points set_order junk ck base chunk_size [F; G; E] q = Ok bs /\
    Forall2 (parent_point (t_first ck) (t_last ck) base (fun f => o_area (rdat f))) Fs (parents b_flash bs) /\
    one_each (parent_point (t_group ck) (t_group ck) base (fun g => o_area (rdat g))) Gs (parents b_group bs) /\
    one_each (parent_point (t_event ck) (t_event ck) base (fun _ => Some 0%Q)) Es (parents b_event bs) /\
    one_each (event_point ck base (fun e => o_flash (rdat e))) Es (children b_flash bs) /\
    one_each (event_point ck base (@rpid obs)) Es (children b_group bs) /\
    one_each (event_point ck base (@rid obs)) Es (children b_event bs) /\
    forall b, In b bs -> self_contained (b_flash b) /\ self_contained (b_group b) /\ self_contained (b_event b) /\
      snd (b_flash b) <> [].
Proof.
  intros so junk HP ck base cs F G E q Hcs OP HQ.
  destruct (read_full so junk ck base cs F G E q HP Hcs OP HQ) as (Fs & Gs & Es & chunks & S & SP & R & D & _ & _ & _ & N & _).
  destruct SP as (F' & G' & E' & EQ & _ & CF & CG & CE). injection EQ as <- <- <-.
  exists Fs, Gs, Es, (map (full_batch ck base) chunks). split; [auto|]. split; [auto|].
  split. { rewrite <- CF. apply (parents_full ck base b_flash _ _ _ 0). reflexivity. }
  split. { eexists. split; [exact CG|]. apply (parents_full ck base b_group _ _ _ 1). reflexivity. }
  split. { eexists. split; [exact CE|]. apply (parents_full ck base b_event _ _ _ 2). reflexivity. }
  split. { eexists. split; [exact CE|]. rewrite (children_full _ _ _ (fun e => o_flash (rdat e))) by reflexivity. apply fill_children_ok. }
  split. { eexists. split; [exact CE|]. rewrite (children_full _ _ _ (@rpid obs)) by reflexivity. apply fill_children_ok. }
  split. { eexists. split; [exact CE|]. rewrite (children_full _ _ _ (@rid obs)) by reflexivity. apply fill_children_ok. }
  intros b Hb. apply in_map_iff in Hb. destruct Hb as (c & <- & Hc). destruct (N c Hc) as (Fi & Gi & Ei & -> & Di & nFi & _).
  destruct Di as ((_ & O) & DE & _). apply linked_no_orphans in O. destruct O as [L1 L2]. unfold full_batch. cbn [nth b_flash b_group b_event snd].
  split; [|split; [|split]].
  - apply contained. intros e He. destruct (DE e He) as (g & Hg & _ & ->). apply L1. auto.
  - apply contained. intros e He. apply L2. auto.
  - apply contained. intros e He. exists e. auto.
  - destruct Fi; [congruence|discriminate].
Qed.
Print Assumptions C67_points.
(** To a target, no batch without points is sent and all points are sent; if every flash
    has an event, all batches are. *)
Theorem C67_sent : forall set_order junk, (forall l, Permutation (set_order l) l) ->
  forall ck base chunk_size (F G E : tbl) q bs, (0 < chunk_size)%nat -> opened F G E -> checked q ->
  read_points set_order junk ck base chunk_size [F; G; E] q = Ok bs ->
  children b_flash (sent_points bs) = children b_flash bs /\
  (forall b, In b (sent_points bs) -> In b bs /\ fst (b_flash b) <> []) /\
  ((forall f, In f F -> exists e, In e E /\ o_flash (rdat e) = rid f) -> sent_points bs = bs).
Proof.
  intros so junk HP ck base cs F G E q bs Hcs OP HQ R.
  assert (LEN : forall b : batch, Nat.leb 1 (List.length (fst (b_flash b))) = false -> fst (b_flash b) = []) by (intros b; destruct (fst (b_flash b)); [reflexivity|discriminate]).
  split; [|split].
  - clear - LEN. unfold children, sent_points. induction bs as [|b bs IH]; [reflexivity|]. cbn [filter map List.concat]. destruct (Nat.leb 1 _) eqn:L; cbn [map List.concat]; rewrite IH; [reflexivity|]. rewrite (LEN b L). reflexivity.
  - intros b I. apply filter_In in I. destruct I as [I L]. split; [exact I|]. intros Z. rewrite Z in L. discriminate L.
  - intros HE. destruct (read_full so junk ck base cs F G E q HP Hcs OP HQ) as (Fs & Gs & Es & chunks & S & SP & R' & D & IF & _ & _ & N & _).
    rewrite R in R'. injection R' as ->. destruct SP as (F' & G' & E' & EQ & _ & CF & _). injection EQ as <- <- <-.
    assert (A : forall c, In c chunks -> Nat.leb 1 (List.length (fst (b_flash (full_batch ck base c)))) = true).
    { intros c I. destruct (N c I) as (Fi & Gi & Ei & -> & Di & nFi & _). destruct Fi as [|f Fi]; [congruence|].
      assert (Hf : In f F). { apply IF. rewrite <- CF. apply in_concat. exists (f :: Fi). split; [|left; auto]. apply in_map_iff. exists [f :: Fi; Gi; Ei]. auto. }
      destruct Di as (_ & _ & _ & Di). destruct (Di f (or_introl eq_refl)) as [_ X]. destruct OP as (D0 & _). destruct D0 as (_ & _ & _ & D0). destruct (D0 f Hf) as [_ Y]. rewrite X in Y.
      destruct (HE f Hf) as (e & Ie & Ee). assert (Ie2 : In e (filter (fun e => o_flash (rdat e) =? rid f) E)) by (apply filter_In; rewrite Z.eqb_eq; auto).
      unfold full_batch. cbn [nth b_flash fst]. unfold fill_children. rewrite map_length. destruct Ei as [|e' Ei]; [|reflexivity]. cbn in Y. destruct (filter _ E); [destruct Ie2|discriminate Y]. }
    clear - A. unfold sent_points. induction chunks as [|c l IH]; [reflexivity|]. cbn [map filter]. rewrite (A c (or_introl eq_refl)), IH; [reflexivity|]. intros; apply A; right; auto.
Qed.
Print Assumptions C67_sent.

(** Joining by id is exact when the ids lie in a range of 2^32: a child names a parent
    exactly when the event belongs to that flash, group or event. *)
Theorem C67_joining : forall ck base key t0 t1 area lo (e r : row obs) c p,
  event_point ck base key e c -> parent_point t0 t1 base area r p ->
  lo <= key e < lo + 2 ^ 32 -> lo <= rid r < lo + 2 ^ 32 -> (c_id c = p_id p <-> key e = rid r).
Proof.
  intros ck base key t0 t1 area lo e r c p [Hc _] [Hp _] R1 R2. apply (low_bits_eq 32 _ _ _ _ lo); auto. lia.
Qed.
Print Assumptions C67_joining.

(** The points do not depend on the size of the chunks, except for n_points. *)
Lemma but_n_full : forall ck base level t0 t1 area k chunks,
  (forall c, In c chunks -> snd (level (full_batch ck base c)) = fill_parents t0 t1 base area (List.length (nth 2 c [])) (nth k c [])) ->
  map but_n (parents level (map (full_batch ck base) chunks)) = map but_n (fill_parents t0 t1 base area 0 (List.concat (map (fun c => nth k c []) chunks))).
Proof.
  intros ck base level t0 t1 area k chunks H. unfold parents. rewrite map_map.
  induction chunks as [|c chunks IH]; [reflexivity|]. cbn [map List.concat].
  rewrite H by (left; auto). rewrite map_app, IH by (intros; apply H; right; auto). unfold fill_parents. rewrite !map_app, !map_map. f_equal.
Qed.
Theorem C67_chunk_size : forall set_order junk, (forall l, Permutation (set_order l) l) ->
  forall ck base (F G E : tbl) q s1 s2 bs1 bs2, (0 < s1)%nat -> (0 < s2)%nat -> opened F G E -> checked q ->
  read_points set_order junk ck base s1 [F; G; E] q = Ok bs1 -> read_points set_order junk ck base s2 [F; G; E] q = Ok bs2 ->
  forall level, In level [b_flash; b_group; b_event] ->
  Permutation (children level bs1) (children level bs2) /\
  Permutation (map but_n (parents level bs1)) (map but_n (parents level bs2)).
Proof.
  intros so junk HP ck base F G E q s1 s2 bs1 bs2 P1 P2 OP HQ R1 R2 level Hl.
  destruct (read_full so junk ck base s1 F G E q HP P1 OP HQ) as (Fs & Gs & Es & ch1 & S1 & SP1 & Q1 & _).
  destruct (read_full so junk ck base s2 F G E q HP P2 OP HQ) as (Fs' & Gs' & Es' & ch2 & S2 & SP2 & Q2 & _).
  assert ([Fs'; Gs'; Es'] = [Fs; Gs; Es]) as EQ by (unfold selection in *; destruct q; congruence). injection EQ as -> -> ->.
  rewrite R1 in Q1. inversion Q1; subst bs1. rewrite R2 in Q2. inversion Q2; subst bs2.
  destruct SP1 as (F1 & G1 & E1 & EQ & _ & CF1 & CG1 & CE1). injection EQ as <- <- <-.
  destruct SP2 as (F1 & G1 & E1 & EQ2 & _ & CF2 & CG2 & CE2). injection EQ2 as <- <- <-.
  assert (CE : Permutation (List.concat (map (fun c => nth 2 c []) ch1)) (List.concat (map (fun c => nth 2 c []) ch2))) by (rewrite CE1, CE2; auto).
  destruct Hl as [<-|[<-|[<-|[]]]].
  - split. { rewrite !(children_full _ _ _ (fun e => o_flash (rdat e))) by reflexivity. apply Permutation_map; auto. }
    rewrite !(but_n_full _ _ _ (t_first ck) (t_last ck) (fun f => o_area (rdat f)) 0) by reflexivity. rewrite CF1, CF2. auto.
  - split. { rewrite !(children_full _ _ _ (@rpid obs)) by reflexivity. apply Permutation_map; auto. }
    rewrite !(but_n_full _ _ _ (t_group ck) (t_group ck) (fun f => o_area (rdat f)) 1) by reflexivity. do 2 apply Permutation_map. rewrite CG1, CG2. auto.
  - split. { rewrite !(children_full _ _ _ (@rid obs)) by reflexivity. apply Permutation_map; auto. }
    rewrite !(but_n_full _ _ _ (t_event ck) (t_event ck) (fun _ => Some 0%Q) 2) by reflexivity. do 2 apply Permutation_map. auto.
Qed.
Print Assumptions C67_chunk_size.

Lemma NoDup_app_r : forall A (l1 l2 : list A), NoDup (l1 ++ l2) -> NoDup l2.
Proof. induction l1 as [|a l1 IH]; cbn; intros l2 H; [auto|]. inversion H. auto. Qed.
Lemma NoDup_app_disj : forall A (l1 l2 : list A), NoDup (l1 ++ l2) -> forall x, In x l1 -> ~ In x l2.
Proof.
  induction l1 as [|a l1 IH]; cbn; intros l2 H x Hx; [destruct Hx|]. inversion H; subst. destruct Hx as [->|Hx]; [|apply IH; auto].
  intros K. apply H2. apply in_or_app. auto.
Qed.
(** n_points is the number of events of the flash... only when the flash is alone in its
    chunk and has fewer than 2^15 events. *)
Theorem C68_n_points_partial : forall set_order junk, (forall l, Permutation (set_order l) l) ->
  forall ck base (F G E : tbl) q bs, opened F G E -> checked q ->
  read_points set_order junk ck base 1 [F; G; E] q = Ok bs ->
  exists Fs Gs Es, selection set_order [F; G; E] q [Fs; Gs; Es] /\
  Forall2 (fun f p => let n := Z.of_nat (List.length (filter (fun e => o_flash (rdat e) =? rid f) E)) in
                      low_bits 16 n (p_n p) /\ (n < 2 ^ 15 -> p_n p = n)) Fs (parents b_flash bs).
Proof.
  intros so junk HP ck base F G E q bs OP HQ R.
  destruct (read_full so junk ck base 1 F G E q HP ltac:(lia) OP HQ) as (Fs & Gs & Es & chunks & S & SP & R' & D & HFs & HGs & HEs & N & _).
  rewrite R in R'. inversion R'; subst bs. exists Fs, Gs, Es. split; [auto|].
  destruct SP as (F' & G' & E' & EQ & _ & CF & CG & CE). injection EQ as <- <- <-.
  rewrite <- CF. unfold parents. rewrite map_map. apply forall2_concat. intros c Hc.
  destruct (N c Hc) as (Fi & Gi & Ei & -> & Di & nFi & L). cbn [nth full_batch b_flash snd].
  destruct Fi as [|f [|f2 Fi]]; [congruence| |cbn in L; lia]. constructor; [|constructor]. cbn [fill_parents map p_n].
  assert (LE : List.length Ei = List.length (filter (fun e => o_flash (rdat e) =? rid f) E)).
  2:{ rewrite LE. split; [apply wrap_low; lia|]. intros H. apply (low_bits_small 16); [apply wrap_low; lia| |lia]. cbn. lia. }
  apply Permutation_length. destruct Di as ((U & O) & DE & _). apply unique3 in U. destruct U as (_ & _ & UEi). apply linked_no_orphans in O. destruct O as [L1 L2].
  destruct OP as (((U0 & O0) & DE0 & _) & _). apply unique3 in U0. destruct U0 as (_ & UG & UE0). apply linked_no_orphans in O0. destruct O0 as [LG0 LE0].
  assert (INF : In f Fs) by (rewrite <- CF; apply in_concat; exists [f]; split; [apply in_map_iff; exists [[f]; Gi; Ei]; auto|left; auto]).
  assert (INE : forall e, In e Ei -> In e Es) by (intros e He; apply (Permutation_in _ CE); apply in_concat; exists Ei; split; [apply in_map_iff; exists [[f]; Gi; Ei]; auto|auto]).
  apply NoDup_Permutation.
  - eapply NoDup_map_inv. exact UEi.
  - apply NoDup_filter. eapply NoDup_map_inv. exact UE0.
  - intros e. rewrite filter_In, Z.eqb_eq. split.
    + intros He. split; [apply HEs, INE; auto|]. destruct (DE e He) as (g & Hg & _ & ->). destruct (L1 g Hg) as (f' & [<-|[]] & X). auto.
    + intros [He Ef].
      assert (Hs : In e Es).
      { apply HEs. split; [auto|]. destruct (DE0 e He) as (g & Hg & E1 & E2). exists g. split; [|auto]. apply HGs. split; [auto|]. exists f. split; [auto|congruence]. }
      apply (Permutation_in _ (Permutation_sym CE)) in Hs. apply in_concat in Hs. destruct Hs as (T & HT & He'). apply in_map_iff in HT. destruct HT as (c' & <- & Hc').
      destruct (N c' Hc') as (F2 & G2 & E2 & -> & D2 & nF2 & L'). cbn [nth] in He'.
      destruct F2 as [|f2 [|? ?]]; [congruence| |cbn in L'; lia].
      destruct D2 as ((_ & O2) & DE2 & _). apply linked_no_orphans in O2. destruct O2 as [M1 _].
      destruct (DE2 e He') as (g & Hg & _ & X). destruct (M1 g Hg) as (f' & [<-|[]] & Y).
      assert (rid f2 = rid f) by congruence.
      assert (INF2 : In f2 Fs) by (rewrite <- CF; apply in_concat; exists [f2]; split; [apply in_map_iff; exists [[f2]; G2; E2]; auto|left; auto]).
      destruct D as ((US & _) & _). apply unique3 in US. destruct US as (UF & _ & _).
      (* the flash is in one chunk only *)
      assert (OneC : forall (l : list (list tbl)), NoDup (map rid (List.concat (map (fun c => nth 0 c []) l))) ->
                In [[f2]; G2; E2] l -> In [[f]; Gi; Ei] l -> [[f2]; G2; E2] = [[f]; Gi; Ei]).
      { intros l. induction l as [|c l IH]; intros ND A B; [destruct A|]. cbn in ND. rewrite map_app in ND. 
        assert (N2 : NoDup (map rid (List.concat (map (fun c => nth 0 c []) l)))) by (eapply NoDup_app_r; exact ND).
        assert (N3 : forall x, In x (map rid (nth 0 c [])) -> ~ In x (map rid (List.concat (map (fun c => nth 0 c []) l)))) by (apply NoDup_app_disj; exact ND).
        destruct A as [->|A], B as [B|B]; auto.
        - exfalso. apply (N3 (rid f2)); [left; auto|]. rewrite H. apply in_map. apply in_concat. exists [f]. split; [apply in_map_iff; exists [[f]; Gi; Ei]; auto|left; auto].
        - subst c. exfalso. apply (N3 (rid f)); [left; auto|]. rewrite <- H. apply in_map. apply in_concat. exists [f2]. split; [apply in_map_iff; exists [[f2]; G2; E2]; auto|left; auto]. }
      assert (EQC := OneC chunks ltac:(rewrite CF; exact UF) Hc' Hc). inversion EQC; subst. auto.
Qed.
Print Assumptions C68_n_points_partial.

(** A file with two flashes: 1 with one event, 2 with two. *)
Definition pob (lon lat : Q) e a fl nc ne : obs := mkObs (Some lon) (Some lat) (Some e) (Some a) (Some 0%Q) (Some 0%Q) fl nc ne.
Definition pF : tbl := [mkRow 1 0 (pob 1 1 4 10 0 1 1); mkRow 2 0 (pob 3 1 9 20 0 1 2)].
Definition pG : tbl := [mkRow 11 1 (pob 1 1 4 10 0 1 0); mkRow 12 2 (pob 3 1 9 20 0 2 0)].
Definition pE : tbl := [mkRow 101 11 (pob 1 1 4 0 1 0 0); mkRow 102 12 (pob 2 1 4 0 2 0 0); mkRow 103 12 (pob 4 1 5 0 2 0 0)].
Definition pck : clock := mkClock (fun i => i * 1000000000) (fun i => i * 1000000000) (fun i => i * 1000000000) (fun i => (i + 2) * 1000000000).
Ltac pick_row := solve [eexists; split; [left; reflexivity|repeat split; reflexivity] | eexists; split; [right; left; reflexivity|repeat split; reflexivity]].
Lemma p_opened : opened pF pG pE.
Proof.
  split; [|repeat split; discriminate]. split; [split|].
  - apply unique3. repeat split; repeat constructor; cbn; intuition lia.
  - apply linked_no_orphans. split; intros s Hs; cbn in Hs.
    + destruct Hs as [<-|[<-|[]]]; pick_row.
    + destruct Hs as [<-|[<-|[<-|[]]]]; pick_row.
  - split; [|split].
    + intros e He. cbn in He. destruct He as [<-|[<-|[<-|[]]]]; pick_row.
    + intros g Hg. cbn in Hg. destruct Hg as [<-|[<-|[]]]; reflexivity.
    + intros f Hf. cbn in Hf. destruct Hf as [<-|[<-|[]]]; split; reflexivity.
Qed.

(** n_points is not the number of events of the flash: it is, cut to 16 bits, the number of
    all events in the chunk. *)
Theorem C68_n_points_refuted :
  (forall set_order junk, (forall l, Permutation (set_order l) l) ->
   forall ck base chunk_size (F G E : tbl) q bs, (0 < chunk_size)%nat -> opened F G E -> checked q ->
   read_points set_order junk ck base chunk_size [F; G; E] q = Ok bs ->
   forall b level p, In b bs -> In level [b_flash; b_group; b_event] -> In p (snd (level b)) ->
   low_bits 16 (Z.of_nat (List.length (fst (level b)))) (p_n p)) /\
  ~ (forall set_order junk, (forall l, Permutation (set_order l) l) ->
     forall ck base chunk_size (F G E : tbl) bs, (0 < chunk_size)%nat -> opened F G E ->
     read_points set_order junk ck base chunk_size [F; G; E] None = Ok bs ->
     Forall2 (fun f p => p_n p = Z.of_nat (List.length (filter (fun e => o_flash (rdat e) =? rid f) E))) F (parents b_flash bs)).
Proof.
  split.
  - intros so junk HP ck base cs F G E q bs Hcs OP HQ R b level p Hb Hl Hp.
    destruct (read_full so junk ck base cs F G E q HP Hcs OP HQ) as (Fs & Gs & Es & chunks & _ & _ & R' & _).
    rewrite R in R'. inversion R'; subst bs. apply in_map_iff in Hb. destruct Hb as (c & <- & Hc).
    destruct Hl as [<-|[<-|[<-|[]]]]; cbn [full_batch b_flash b_group b_event fst snd] in *;
      unfold fill_children; rewrite map_length; unfold fill_parents in Hp; apply in_map_iff in Hp; destruct Hp as (r & <- & _); cbn [p_n]; apply wrap_low; lia.
  - intros H.
    destruct (read_points (fun l => l) (fun _ => mkChild 0 0 None None None None) pck None 2 [pF; pG; pE] None) as [bs|] eqn:R; [|vm_compute in R; discriminate].
    specialize (H _ _ (fun l => Permutation_refl l) pck None 2%nat pF pG pE bs ltac:(lia) p_opened R).
    vm_compute in R. inversion R; subst bs. cbn in H. inversion H as [|? ? ? ? X]. vm_compute in X. discriminate X.
Qed.
Print Assumptions C68_n_points_refuted.

(** What the collection delivers for one file. *)
Definition file_points set_order (base : option Z) (q : option query) (f : glmfile) (w : list child * list parent) : Prop :=
  exists Fs Gs Es, selection set_order (g_data f) q [Fs; Gs; Es] /\ Fs <> [] /\
    Forall2 (parent_point (t_first (g_clock f)) (t_last (g_clock f)) base (fun f => o_area (rdat f))) Fs (snd w) /\
    one_each (event_point (g_clock f) base (fun e => o_flash (rdat e))) Es (fst w) /\ self_contained w.
Definition opened_file (f : glmfile) : Prop := exists F G E, g_data f = [F; G; E] /\ opened F G E.

(** The data of one file: all its selected flashes with their events.  When no flash is
    selected, an error. *)
Theorem C69_one_file : forall set_order junk, (forall l, Permutation (set_order l) l) ->
  forall base q f, opened_file f -> checked q ->
  (exists w, data_of_file set_order junk base q f = Ok w /\ file_points set_order base q f w) \/
  (exists Gs Es, selection set_order (g_data f) q [[]; Gs; Es] /\ data_of_file set_order junk base q f = Err ValueError).
Proof.
  intros so junk HP base q f (F & G & E & EF & OP) HQ. unfold data_of_file, file_points. rewrite EF.
  assert (CS : (0 < Z.to_nat 20000)%nat) by lia.
  generalize dependent (Z.to_nat 20000). intros cs CS.
  destruct (read_full so junk (g_clock f) base cs F G E q HP CS OP HQ) as (Fs & Gs & Es & chunks & S & SP & R & D & _ & _ & _ & N & Z).
  destruct SP as (F' & G' & E' & EQ & _ & CF & CG & CE). injection EQ as <- <- <-. rewrite R. cbn [bind].
  destruct chunks as [|c chunks].
  { right. exists Gs, Es. assert (Fs = []) by (apply Z; auto). subst Fs. split; [exact S|reflexivity]. }
  left. eexists. split; [reflexivity|]. exists Fs, Gs, Es. split; [auto|]. split; [intros K; apply Z in K; discriminate|].
  set (bs := map (full_batch (g_clock f) base) (c :: chunks)). cbn [fst snd].
  change (List.concat (map (fun b => snd (b_flash b)) bs)) with (parents b_flash bs). change (List.concat (map (fun b => fst (b_flash b)) bs)) with (children b_flash bs).
  split. { rewrite <- CF. apply (parents_full (g_clock f) base b_flash _ _ _ 0). reflexivity. }
  split. { eexists. split; [exact CE|]. unfold bs. rewrite (children_full _ _ _ (fun e => o_flash (rdat e))) by reflexivity. apply fill_children_ok. }
  intros x Hx. cbn [fst snd] in *. unfold children in Hx. apply in_concat in Hx. destruct Hx as (l & Hl & Hx). apply in_map_iff in Hl. destruct Hl as (b & <- & Hb).
  assert (SC : self_contained (b_flash b)).
  { unfold bs in Hb. apply in_map_iff in Hb. destruct Hb as (c' & <- & Hc'). destruct (N c' Hc') as (Fi & Gi & Ei & -> & Di & _).
    destruct Di as ((_ & O) & DE & _). apply linked_no_orphans in O. destruct O as [L1 _].
    apply contained. intros e He. destruct (DE e He) as (g & Hg & _ & ->). apply L1. auto. }
  destruct (SC x Hx) as (p & Hp & Ep). exists p. split; [|auto]. apply in_concat. exists (snd (b_flash b)). split; [apply in_map_iff; exists b; auto|auto].
Qed.
Print Assumptions C69_one_file.

(** Opening a collection: a table from whole seconds to the last file of that second. *)
Section Collection.
Variable disk : string -> res glmfile.
Definition second_of (n : string) (t : Z) : Prop := exists f, disk n = Ok f /\ t * 1000000000 <= g_product f < (t + 1) * 1000000000.
Lemma second_whole : forall n t, second_of n t -> exists f, disk n = Ok f /\ whole_second (g_product f) = t.
Proof.
  intros n t (f & D & B). exists f. split; [auto|]. unfold whole_second. symmetry. apply (Z.div_unique _ _ _ (g_product f - 1000000000 * t)); [left; lia|lia].
Qed.
Definition add_file (st : lookup_table * list Z) (n : string) : res (lookup_table * list Z) :=
  f <- disk n ;; let t := whole_second (g_product f) in Ok (dict_set (fst st) t n, snd st ++ [t]).
Lemma open_fold : forall names ts st, Forall2 second_of names ts ->
  exists d, fold_res add_file names st = Ok (d, snd st ++ ts) /\
    (forall t, ~ In t ts -> dict_get d t = dict_get (fst st) t) /\
    (forall pre post n t, names = pre ++ n :: post -> nth_error ts (List.length pre) = Some t ->
       ~ In t (skipn (S (List.length pre)) ts) -> dict_get d t = Ok n).
Proof.
  induction names as [|n names IH]; intros ts st H; inversion H; subst.
  - exists (fst st). cbn. rewrite app_nil_r. split; [destruct st; reflexivity|]. split; [auto|]. intros pre post n t X. destruct pre; discriminate.
  - destruct (second_whole _ _ H2) as (f & D & W). cbn [fold_res]. unfold add_file at 1. rewrite D. cbn [bind]. rewrite W.
    destruct (IH l' (dict_set (fst st) y n, snd st ++ [y]) H4) as (d & FD & OUT & LAST). exists d. cbn [fst snd] in *.
    split; [rewrite FD, <- app_assoc; reflexivity|]. split.
    + intros t Ht. rewrite OUT by (intros K; apply Ht; right; auto). rewrite dict_get_set. destruct (Z.eqb_spec y t); [subst; exfalso; apply Ht; left; auto|reflexivity].
    + intros pre post m t X Hn Hl. destruct pre as [|x pre].
      * cbn in X, Hn, Hl. injection X as -> ->. injection Hn as ->. rewrite OUT by auto. rewrite dict_get_set, Z.eqb_refl. reflexivity.
      * cbn in X, Hn, Hl. injection X as -> ->. eapply LAST; eauto.
Qed.
End Collection.

Lemma map_res_map : forall A B C (f : B -> res C) (g : A -> B) l, map_res f (map g l) = map_res (fun a => f (g a)) l.
Proof. induction l as [|a l IH]; [reflexivity|]. cbn. rewrite IH. reflexivity. Qed.
Lemma map_res_ext : forall A B (f g : A -> res B) l, (forall a, In a l -> f a = g a) -> map_res f l = map_res g l.
Proof. induction l as [|a l IH]; intros H; [reflexivity|]. cbn. rewrite (H a (or_introl eq_refl)), IH by (intros; apply H; right; auto). reflexivity. Qed.
Lemma map_res_err : forall A B (f : A -> res B) e l, (forall a, In a l -> (exists b, f a = Ok b) \/ f a = Err e) ->
  (exists a, In a l /\ f a = Err e) -> map_res f l = Err e.
Proof.
  induction l as [|a l IH]; intros H (x & Hx & Ex); [destruct Hx|]. cbn. destruct (H a (or_introl eq_refl)) as [(b & Eb)|Eb]; rewrite Eb; [|reflexivity].
  cbn. destruct Hx as [->|Hx]; [congruence|]. rewrite IH; [reflexivity|intros; apply H; right; auto|exists x; auto].
Qed.
Lemma combine_snd : forall A B (R : A -> B -> Prop) l m, Forall2 R l m -> map snd (combine l m) = m /\ map fst (combine l m) = l.
Proof. induction 1 as [|a b l m HR H [IH1 IH2]]; [auto|]. cbn. rewrite IH1, IH2. auto. Qed.
Lemma nodup_skipn : forall A (l : list A) k x, NoDup l -> nth_error l k = Some x -> ~ In x (skipn (S k) l).
Proof.
  induction l as [|a l IH]; intros k x N H; [destruct k; discriminate|]. inversion N; subst. destruct k; cbn in *; [injection H as ->; auto|]. apply (IH k); auto.
Qed.

(** The file of a time of the collection. *)
Lemma coll_lookup : forall disk names ts d, Forall2 (second_of disk) names ts -> NoDup ts ->
  fold_res (add_file disk) names ([], []) = Ok (d, ts) -> forall n t, In (n, t) (combine names ts) -> dict_get d t = Ok n.
Proof.
  intros disk names ts d H ND FD n t Hin. destruct (open_fold disk names ts ([], []) H) as (d' & FD' & _ & LAST).
  cbn in FD'. rewrite FD in FD'. inversion FD'; subst d'.
  apply In_nth_error in Hin. destruct Hin as (k & Hk).
  assert (KN : nth_error names k = Some n /\ nth_error ts k = Some t).
  { clear - Hk. revert ts k Hk. induction names as [|a names IH]; intros ts k Hk; [destruct k; discriminate|].
    destruct ts as [|b ts]; [destruct k; discriminate|]. destruct k; cbn in *; [injection Hk as -> ->; auto|apply IH; auto]. }
  destruct KN as [KN KT]. destruct (nth_error_split _ _ KN) as (pre & post & EN & LP).
  apply (LAST pre post n t EN); rewrite LP; [auto|]. apply nodup_skipn; auto.
Qed.

(** Files with different product times, to the second, are all delivered once, in order
    of time. *)
Theorem C69_collection_partial : forall set_order junk disk names ts,
  Forall2 (second_of disk) names ts -> NoDup ts ->
  exists c order, open_collection disk names = Ok c /\
    Permutation order (combine names ts) /\ StronglySorted Z.le (map snd order) /\
    forall base q,
    (forall n t, In (n, t) order -> data_for_time set_order junk disk base q c t = (f <- disk n ;; data_of_file set_order junk base q f)) /\
    (forall w, (forall n, In n names -> exists f, disk n = Ok f /\ data_of_file set_order junk base q f = Ok (w n)) ->
       iterate set_order junk disk base q c = Ok (map w (map fst order))) /\
    ((forall n, In n names -> exists f, disk n = Ok f /\
        ((exists w, data_of_file set_order junk base q f = Ok w) \/ data_of_file set_order junk base q f = Err ValueError)) ->
     (exists n f, In n names /\ disk n = Ok f /\ data_of_file set_order junk base q f = Err ValueError) ->
     iterate set_order junk disk base q c = Err ValueError).
Proof.
  intros so junk disk names ts H ND.
  destruct (open_fold disk names ts ([], []) H) as (d & FD & _ & _). cbn in FD.
  destruct (combine_snd _ _ _ _ _ H) as [CS CN].
  assert (PM : Permutation (sort_times ts) (map snd (combine names ts))) by (rewrite CS; apply sort_perm).
  apply Permutation_map_inv in PM. destruct PM as (order & EO & PO).
  exists (mkColl d (sort_times ts)), order. split; [unfold open_collection; change (fun st n => _) with (add_file disk); rewrite FD; reflexivity|].
  split; [symmetry; auto|]. split; [rewrite <- EO; apply sort_sorted|].
  intros base q.
  assert (ONE : forall n t, In (n, t) order -> data_for_time so junk disk base q (mkColl d (sort_times ts)) t = (f <- disk n ;; data_of_file so junk base q f)).
  { intros n t Hin. unfold data_for_time. cbn [cl_lookup]. rewrite (coll_lookup disk names ts d H ND FD n t) by (apply (Permutation_in _ (Permutation_sym PO)); auto). reflexivity. }
  assert (INN : forall x, In x order -> In (fst x) names).
  { intros x Hx. rewrite <- CN. apply in_map. apply (Permutation_in _ (Permutation_sym PO)). auto. }
  assert (IT : iterate so junk disk base q (mkColl d (sort_times ts)) = map_res (fun x => f <- disk (fst x) ;; data_of_file so junk base q f) order).
  { unfold iterate. cbn [cl_times]. rewrite EO, map_res_map. apply map_res_ext. intros [n t] Hx. rewrite <- EO. apply ONE. auto. }
  split; [exact ONE|]. split.
  - intros w W. rewrite IT. rewrite map_map. apply map_res_ok. intros x Hx. destruct (W (fst x) (INN x Hx)) as (f & D & E). rewrite D. cbn. auto.
  - intros W (n & f & Hn & D & E). rewrite IT. apply map_res_err.
    + intros x Hx. destruct (W (fst x) (INN x Hx)) as (f' & D' & [(w & E')|E']); rewrite D'; cbn; [left; eauto|right; auto].
    + rewrite <- CN in Hn. apply in_map_iff in Hn. destruct Hn as (x & <- & Hx). exists x. split; [apply (Permutation_in _ PO); auto|]. rewrite D. cbn. auto.
Qed.
Print Assumptions C69_collection_partial.

(** Of two files with the same second, the later one in the list is delivered twice and
    the other one not at all. *)
Theorem C69_same_second_refuted : forall set_order junk disk n1 n2 t f2 w2 base q,
  second_of disk n1 t -> second_of disk n2 t -> disk n2 = Ok f2 -> data_of_file set_order junk base q f2 = Ok w2 ->
  exists c, open_collection disk [n1; n2] = Ok c /\ iterate set_order junk disk base q c = Ok [w2; w2].
Proof.
  intros so junk disk n1 n2 t f2 w2 base q H1 H2 D E.
  destruct (open_fold disk [n1; n2] [t; t] ([], []) ltac:(repeat constructor; auto)) as (d & FD & _ & LAST). cbn [fst snd app] in FD.
  assert (DG : dict_get d t = Ok n2) by (apply (LAST [n1] [] n2 t eq_refl); [reflexivity|intros []]).
  exists (mkColl d (sort_times [t; t])). split; [unfold open_collection; change (fun st n => _) with (add_file disk); rewrite FD; reflexivity|].
  assert (DT : data_for_time so junk disk base q (mkColl d (sort_times [t; t])) t = Ok w2) by (unfold data_for_time; cbn [cl_lookup]; rewrite DG; cbn [bind]; rewrite D; cbn [bind]; auto).
  unfold iterate. replace (cl_times (mkColl d (sort_times [t; t]))) with [t; t] by (cbn; rewrite Z.leb_refl; reflexivity).
  cbn [map_res bind]. rewrite !DT. reflexivity.
Qed.
Print Assumptions C69_same_second_refuted.

(** The base date given to a time series is not used: any two give the same times, and
    these are counted from the date chosen by the superclass. *)
Theorem C70_base_date_refuted :
  (forall set_order junk disk parent_base names t_start b1 b2 q,
     subset_series set_order junk disk parent_base names t_start b1 q = subset_series set_order junk disk parent_base names t_start b2 q) /\
  ~ (forall set_order junk disk parent_base names t_start b q ws, (forall l, Permutation (set_order l) l) ->
     (forall t b, parent_base t (Some b) = b) ->
     subset_series set_order junk disk parent_base names t_start (Some b) q = Ok ws ->
     forall n f, names = [n] -> disk n = Ok f ->
     exists w, ws = [w] /\ file_points set_order (Some b) q f w) /\
  (forall set_order junk disk parent_base n t_start b q ws f, (forall l, Permutation (set_order l) l) ->
     disk n = Ok f -> opened_file f -> checked q ->
     subset_series set_order junk disk parent_base [n] t_start b q = Ok ws ->
     exists w, ws = [w] /\ file_points set_order (Some (parent_base t_start None)) q f w).
Proof.
  split; [reflexivity|]. split; [|
    intros so junk disk pb n t_start b q ws f HP Ed OF CQ H; unfold subset_series, open_collection in H; cbn [fold_res bind] in H; rewrite Ed in H; cbn [bind fst snd app] in H;
    unfold iterate in H; cbn [cl_times sort_times fold_right insert_time map_res] in H; unfold data_for_time in H; cbn [cl_lookup dict_set dict_get] in H; rewrite Z.eqb_refl in H; cbn [bind] in H; rewrite Ed in H; cbn [bind] in H;
    destruct (C69_one_file so junk HP (Some (pb t_start None)) q f OF CQ) as [(w & E & FP)|(Gs & Es & _ & E)]; rewrite E in H; cbn [bind] in H; [injection H as <-; eauto|discriminate H]].
  intros H.
  set (jk := fun _ : nat => mkChild 0 0 None None None None). set (dk := fun _ : string => Ok (mkFile 0 pck [pF; pG; pE])).
  set (pb := fun (t : Z) (o : option Z) => match o with Some b => b | None => 0 end).
  destruct (subset_series (fun l => l) jk dk pb [EmptyString] 0 (Some 1) None) as [ws|] eqn:R; [|vm_compute in R; discriminate].
  destruct (H (fun l => l) jk dk pb [EmptyString] 0 1 None ws (fun l => Permutation_refl l) ltac:(reflexivity) R EmptyString _ eq_refl eq_refl) as (w & -> & Fs & Gs & Es & S & _ & P & _).
  unfold selection in S. cbn in S. injection S as -> -> ->. vm_compute in R. injection R as <-. cbn [snd] in P. inversion P as [|? ? ? ? X]; subst.
  destruct X as (_ & _ & _ & _ & _ & _ & _ & _ & _ & _ & (s & E & Q) & _). cbn in E. injection E as <-. vm_compute in Q. discriminate Q.
Qed.
Print Assumptions C70_base_date_refuted.

(** Polygons.  A flash counts as inside when its centroid is; an event when it is itself. *)
Definition in_view (G E : tbl) (f : row obs) : Prop :=
  exists e, In e (flash_events G E (rid f)) /\
    let fov := (-(1349 # 10000), 1349 # 10000)%Q in strictly fov (o_x (rdat e)) /\ strictly fov (o_y (rdat e)).
Lemma but_n_filter : forall lasso ps,
  map but_n (filter (fun p => lasso (p_init_lon p) (p_init_lat p) (p_start p)) ps) =
  filter (fun p => lasso (p_init_lon p) (p_init_lat p) (p_start p) : bool) (map but_n ps).
Proof. intros lasso ps. induction ps as [|p ps IH]; [reflexivity|]. cbn. destruct (lasso _ _ _); cbn; rewrite IH; reflexivity. Qed.
Lemma filter_map_comm : forall A B (f : A -> B) p l, filter p (map f l) = map f (filter (fun a => p (f a)) l).
Proof. intros. induction l as [|a l IH]; [reflexivity|]. cbn. destruct (p (f a)); cbn; rewrite IH; reflexivity. Qed.

Lemma flashes_of_file : forall so junk base q f F G E w, (forall l, Permutation (so l) l) -> g_data f = [F; G; E] -> opened F G E -> checked q ->
  data_of_file so junk base q f = Ok w ->
  exists Fs Gs Es, selection so [F; G; E] q [Fs; Gs; Es] /\ derived_ok Fs Gs Es /\
    map but_n (snd w) = map but_n (fill_parents (t_first (g_clock f)) (t_last (g_clock f)) base (fun f => o_area (rdat f)) 0 Fs).
Proof.
  intros so junk base q f F G E w HP EF OP HQ H. unfold data_of_file in H. rewrite EF in H.
  assert (CS : (0 < Z.to_nat 20000)%nat) by lia. generalize dependent (Z.to_nat 20000). intros cs H CS.
  destruct (read_full so junk (g_clock f) base cs F G E q HP CS OP HQ) as (Fs & Gs & Es & chunks & S & SP & R & D & _).
  destruct SP as (F' & G' & E' & EQ & _ & CF & CG & CE). injection EQ as <- <- <-. exists Fs, Gs, Es. split; [auto|]. split; [auto|].
  rewrite R in H. cbn [bind] in H. destruct chunks as [|c chunks]; [discriminate|]. cbn [map] in H. injection H as <-. cbn [snd].
  rewrite <- CF. apply (but_n_full (g_clock f) base b_flash _ _ _ 0 (c :: chunks)). reflexivity.
Qed.

(** Reading only the flashes in a box around the polygons and then applying the polygons
    keeps exactly the flashes that the polygons keep of the whole file. *)
Theorem C71_flashes_in_polygon : forall set_order junk, (forall l, Permutation (set_order l) l) ->
  forall base f (F G E : tbl) lonr latr lasso w_box w_all, g_data f = [F; G; E] -> opened F G E ->
  (forall x, In x F -> in_view G E x) ->
  (forall lon lat t, lasso lon lat t = true -> strictly lonr lon /\ strictly latr lat) ->
  data_of_file set_order junk base (collection_query (Some lonr) (Some latr) None None) f = Ok w_box ->
  data_of_file set_order junk base None f = Ok w_all ->
  Permutation (map but_n (snd (lasso_window lasso w_box))) (map but_n (snd (lasso_window lasso w_all))).
Proof.
  intros so junk HP base f F G E lonr latr lasso wb wa EF OP VIEW BOX HB HA. unfold lasso_window. cbn [snd]. rewrite !but_n_filter.
  assert (CK : checked (collection_query (Some lonr) (Some latr) None None)) by (intros q' X; injection X as <-; reflexivity).
  destruct (flashes_of_file so junk base _ f F G E wb HP EF OP CK HB) as (Fs & Gs & Es & S & D & ->).
  destruct (flashes_of_file so junk base None f F G E wa HP EF OP ltac:(intros ? X; discriminate X) HA) as (F0 & G0 & E0 & S0 & D0 & ->).
  unfold selection in S0. injection S0 as -> -> ->. unfold fill_parents. rewrite !map_map, !filter_map_comm. apply Permutation_map.
  destruct OP as (DD & nF & nG & nE).
  cbn [collection_query selection] in S.
  destruct (C12_subset_exact so HP F G E (mkQuery (Some lonr) (Some latr) None None true None None) DD nF nG nE eq_refl) as (F2 & G2 & E2 & S2 & H1 & _).
  assert (EQ : [F2; G2; E2] = [Fs; Gs; Es]) by congruence. injection EQ as -> -> ->.
  destruct DD as ((U & _) & _). apply unique3 in U. destruct U as (UF & _). destruct D as ((U' & _) & _). apply unique3 in U'. destruct U' as (UFs & _).
  apply NoDup_Permutation.
  - apply NoDup_filter. eapply NoDup_map_inv. exact UFs.
  - apply NoDup_filter. eapply NoDup_map_inv. exact UF.
  - intros x. rewrite !filter_In. split; [intros [Hx L]; split; [apply H1 in Hx; tauto|auto]|].
    intros [Hx L]. split; [|auto]. apply H1. split; [auto|]. destruct (BOX _ _ _ L) as [B1 B2]. cbn in B1, B2.
    unfold wanted. cbn [q_x q_y q_lon q_lat q_min_events q_min_groups]. split; [discriminate|]. split; [discriminate|].
    split; [intros r [= <-]; auto|]. split; [intros r [= <-]; auto|]. split; [discriminate|]. split; [discriminate|].
    destruct (VIEW x Hx) as (e & He & V1 & V2). exists e. split; [auto|]. cbv zeta. split; [auto|]. split; [auto|]. split; discriminate.
Qed.
Print Assumptions C71_flashes_in_polygon.

(** Not so for events: one inside the polygon is lost when the centroid of its flash is
    outside the box; and an event may be kept whose flash is not. *)
Definition west : fval -> fval -> fval -> bool := fun lon lat t =>
  match lon, lat with Some x, Some y => Qlt_bool 0 x && Qlt_bool x (5 # 2) && Qlt_bool 0 y && Qlt_bool y 2 | _, _ => false end.
Theorem C71_events_refuted :
  (exists f F G E w_box w_all, g_data f = [F; G; E] /\ opened F G E /\ (forall x, In x F -> in_view G E x) /\
   (forall lon lat t, west lon lat t = true -> strictly (0, 5 # 2)%Q lon /\ strictly (0, 2)%Q lat) /\
   data_of_file (fun l => l) (fun _ => mkChild 0 0 None None None None) (Some 0) (collection_query (Some (0, 5 # 2)%Q) (Some (0, 2)%Q) None None) f = Ok w_box /\
   data_of_file (fun l => l) (fun _ => mkChild 0 0 None None None None) (Some 0) None f = Ok w_all /\
   List.length (fst (lasso_window west w_all)) = 2%nat /\ List.length (fst (lasso_window west w_box)) = 1%nat /\
   ~ self_contained (lasso_window west w_all)).
Proof.
  set (f := mkFile 0 pck [pF; pG; pE]). exists f, pF, pG, pE. eexists. eexists.
  split; [reflexivity|]. split; [apply p_opened|].
  split. { intros x [<-|[<-|[]]]; (eexists; split; [left; reflexivity|]); split; (eexists; split; [reflexivity|]; split; reflexivity). }
  split. { intros [x|] [y|] t; cbn; try discriminate. rewrite !andb_true_iff, !Qlt_bool_iff. intros [[[? ?] ?] ?]. split; eexists; (split; [reflexivity|]; split; assumption). }
  split; [vm_compute; reflexivity|]. split; [vm_compute; reflexivity|]. split; [reflexivity|]. split; [reflexivity|].
  intros H. destruct (H _ (or_intror (or_introl eq_refl))) as (p & Hp & Ep). cbn in Hp, Ep. destruct Hp as [<-|[]]. discriminate Ep.
Qed.
Print Assumptions C71_events_refuted.

(** The bounds on area, altitude and energy keep exactly the flashes within them, but all
    events: those of a flash that is removed stay. *)
Definition between (b : Q * Q) (v : fval) : Prop := exists x, v = Some x /\ (fst b <= x <= snd b)%Q.
Lemma within_between : forall b v, within b v = true <-> between b v.
Proof.
  intros b [x|]; cbn; [|split; [discriminate|intros (y & ? & _); discriminate]].
  rewrite andb_true_iff, !Qle_bool_iff. split; [intros; exists x; auto|]. intros (y & [= ->] & ?). auto.
Qed.
Theorem C71_bounds_partial : forall area alt energy w p,
  In p (snd (filtered area alt energy w)) <->
  In p (snd w) /\ between area (p_area p) /\ between alt (Some (p_ctr_alt p)) /\ between energy (p_energy p).
Proof.
  intros. unfold filtered. cbn [snd]. rewrite filter_In, !andb_true_iff, !within_between. tauto.
Qed.
Print Assumptions C71_bounds_partial.
Theorem C71_bounds_refuted : forall area alt energy w p c,
  (forall p1 p2, In p1 (snd w) -> In p2 (snd w) -> p_id p1 = p_id p2 -> p1 = p2) ->
  In p (snd w) -> In c (fst w) -> c_id c = p_id p ->
  ~ (between area (p_area p) /\ between alt (Some (p_ctr_alt p)) /\ between energy (p_energy p)) ->
  ~ self_contained (filtered area alt energy w).
Proof.
  intros area alt energy w p c U Hp Hc E OUT SC. destruct (SC c Hc) as (p' & Hp' & E'). apply C71_bounds_partial in Hp'. destruct Hp' as [Hp' B].
  assert (p' = p) by (apply U; auto; congruence). subst p'. auto.
Qed.
Print Assumptions C71_bounds_refuted.

(** Initiation points: the position of a flash's first group. *)
Definition earliest (t : Z -> Z) (l : tbl) (g : row obs) : Prop :=
  exists pre post, l = pre ++ g :: post /\ (forall h, In h pre -> t (rid g) < t (rid h)) /\ (forall h, In h post -> t (rid g) <= t (rid h)).
Lemma argmin_earliest : forall t l pre best post, (forall h, In h pre -> t (rid best) < t (rid h)) -> (forall h, In h post -> t (rid best) <= t (rid h)) ->
  earliest t (pre ++ best :: post ++ l) (argmin_row t best l).
Proof.
  intros t l. induction l as [|g l IH]; intros pre best post H1 H2; cbn.
  - exists pre, post. rewrite app_nil_r. auto.
  - destruct (Z.ltb_spec (t (rid g)) (t (rid best))) as [L|L].
    + replace (pre ++ best :: post ++ g :: l) with ((pre ++ best :: post) ++ g :: [] ++ l) by (rewrite <- app_assoc; reflexivity).
      apply IH; [|intros h []]. intros h Hh. apply in_app_or in Hh. destruct Hh as [Hh|[<-|Hh]]; [specialize (H1 h Hh); lia|auto|specialize (H2 h Hh); lia].
    + replace (post ++ g :: l) with ((post ++ [g]) ++ l) by (rewrite <- app_assoc; reflexivity). apply IH; [auto|].
      intros h Hh. apply in_app_or in Hh. destruct Hh as [Hh|[<-|[]]]; auto.
Qed.
Theorem C72_flash_init : forall t (F G E : tbl), consistent [F; G; E] -> fertile F G ->
  (forall f, In f F -> - 2 ^ 31 <= rid f < 2 ^ 31) ->
  exists out, add_flash_init t F G = Ok out /\
    Forall2 (fun f o => fst (fst o) = rid f /\ exists g, earliest t (with_parent G (rid f)) g /\
               snd (fst o) = o_lon (rdat g) /\ snd o = o_lat (rdat g)) F out.
Proof.
  intros t F G E [U O] FE RG. apply linked_no_orphans in O. destruct O as [L _].
  set (row_of := fun i => match filter (fun g => rpid g =? i) G with [] => mkRow 0 0 (mkObs None None None None None None 0 0 0) | g :: r => argmin_row t g r end).
  assert (FG : forall i, In i (map rpid G) -> first_group t (filter (fun g => rpid g =? i) G) = Ok (row_of i) /\
                 earliest t (filter (fun g => rpid g =? i) G) (row_of i) /\ rpid (row_of i) = i).
  { intros i Hi. apply in_map_iff in Hi. destruct Hi as (g & Eg & Hg). unfold row_of.
    assert (A : In g (filter (fun g => rpid g =? i) G)) by (apply filter_In; rewrite Z.eqb_eq; auto).
    destruct (filter (fun g => rpid g =? i) G) as [|h r] eqn:FI; [destruct A|].
    assert (EA : earliest t (h :: r) (argmin_row t h r)) by (apply (argmin_earliest t r [] h []); intros x []).
    split; [reflexivity|]. split; [exact EA|]. destruct EA as (pre & post & EQ & _).
    assert (B : In (argmin_row t h r) (filter (fun g => rpid g =? i) G)) by (rewrite FI, EQ; apply in_or_app; right; left; auto).
    apply filter_In in B. rewrite Z.eqb_eq in B. tauto. }
  set (d := map (fun i => (i4 (rpid (row_of i)), o_lon (rdat (row_of i)), o_lat (rdat (row_of i)))) (zunique (map rpid G))).
  assert (ID : init_data t G = Ok d).
  { unfold init_data. apply map_res_ok. intros i Hi. apply (proj1 (zunique_in _ _)) in Hi. destruct (FG i Hi) as (-> & _). reflexivity. }
  assert (RNG : forall i, In i (map rpid G) -> - 2 ^ 31 <= i < 2 ^ 31).
  { intros i Hi. apply in_map_iff in Hi. destruct Hi as (g & <- & Hg). destruct (L g Hg) as (f & Hf & <-). auto. }
  assert (I4 : forall i, - 2 ^ 31 <= i < 2 ^ 31 -> i4 i = i) by (intros i Hi; apply (low_bits_small 32); [apply wrap_low; lia|exact Hi|lia]).
  assert (FI : forall f, In f F -> find_init d (rid f) = Some (rid f, o_lon (rdat (row_of (rid f))), o_lat (rdat (row_of (rid f))))).
  { intros f Hf. destruct (FE f Hf) as (g & Hg & Eg). unfold find_init.
    assert (IN : In (rid f) (zunique (map rpid G))) by (apply zunique_in, in_map_iff; exists g; auto).
    assert (ALL : forall i, In i (zunique (map rpid G)) -> i4 (rpid (row_of i)) = i).
    { intros i Hi. apply (proj1 (zunique_in _ _)) in Hi. destruct (FG i Hi) as (_ & _ & ->). apply I4, RNG. auto. }
    unfold d. clear ID d. induction (zunique (map rpid G)) as [|i l IH]; [destruct IN|]. cbn. rewrite (ALL i (or_introl eq_refl)).
    destruct (Z.eqb_spec i (rid f)) as [->|N]; [reflexivity|]. apply IH; [destruct IN; [congruence|auto]|intros; apply ALL; right; auto]. }
  exists (map (fun f => (rid f, o_lon (rdat (row_of (rid f))), o_lat (rdat (row_of (rid f))))) F). split.
  - unfold add_flash_init. rewrite ID. cbn [bind]. apply map_res_ok. intros f Hf. rewrite (FI f Hf). reflexivity.
  - assert (INC : forall f, In f F -> In f F) by auto. revert INC. generalize F at 1 3 4. intros l. induction l as [|f l IH]; intros INC; [constructor|]. constructor; [|apply IH; intros; apply INC; right; auto].
    cbn. split; [reflexivity|]. exists (row_of (rid f)). split; [|auto]. destruct (FE f (INC f (or_introl eq_refl))) as (g & Hg & Eg).
    apply FG. apply in_map_iff. exists g. auto.
Qed.
Print Assumptions C72_flash_init.
Lemma map_res_back : forall A B (f : A -> res B) l out b, map_res f l = Ok out -> In b out -> exists a, In a l /\ f a = Ok b.
Proof.
  induction l as [|a l IH]; intros out b H I; cbn in H; [injection H as <-; destruct I|]. destruct (f a) as [c|] eqn:E; cbn in H; [|discriminate]. destruct (map_res f l) as [cs|]; cbn in H; [|discriminate].
  injection H as <-. destruct I as [<-|I]; [exists a; split; [left|]; auto|]. destruct (IH cs b eq_refl I) as (x & J & K). exists x. split; [right|]; auto.
Qed.
(** A flash without groups: an error, rather than no position. *)
Theorem C72_without_groups : forall t (F G : tbl) f, In f F -> with_parent G (rid f) = [] ->
  - 2 ^ 31 <= rid f < 2 ^ 31 -> (forall g, In g G -> - 2 ^ 31 <= rpid g < 2 ^ 31) ->
  exists e, add_flash_init t F G = Err e.
Proof.
  intros t F G f Hf NO RF RG. unfold add_flash_init. destruct (init_data t G) as [d|e] eqn:ID; [|eexists; reflexivity]. cbn [bind].
  assert (I4 : forall i, - 2 ^ 31 <= i < 2 ^ 31 -> i4 i = i) by (intros i Hi; apply (low_bits_small 32); [apply wrap_low; lia|exact Hi|lia]).
  assert (FI : find_init d (rid f) = None).
  { destruct (find_init d (rid f)) as [[[i lo] la]|] eqn:FI; [|reflexivity]. exfalso. apply find_some in FI. destruct FI as [I E]. cbn [fst] in E. apply Z.eqb_eq in E. subst i.
    unfold init_data in ID. destruct (map_res_back _ _ _ _ _ _ ID I) as (i & Ii & E). apply (proj1 (zunique_in _ _)) in Ii.
    destruct (first_group t (filter (fun g => rpid g =? i) G)) as [g|] eqn:FG; cbn [bind] in E; [|discriminate E]. injection E as E _ _.
    assert (Ig : In g (filter (fun g => rpid g =? i) G)).
    { destruct (filter (fun g => rpid g =? i) G) as [|h r]; [discriminate FG|]. injection FG as <-.
      assert (EA : earliest t (h :: r) (argmin_row t h r)) by (apply (argmin_earliest t r [] h []); intros x []). destruct EA as (pre & post & EQ & _). rewrite EQ. apply in_or_app. right. left. reflexivity. }
    apply filter_In in Ig. destruct Ig as [Ig Ei]. apply Z.eqb_eq in Ei. rewrite I4 in E by auto.
    assert (X : In g (with_parent G (rid f))) by (apply filter_In; rewrite Z.eqb_eq; auto). rewrite NO in X. destruct X. }
  clear ID RG NO. induction F as [|h F IH]; [destruct Hf|]. cbn [map_res]. destruct (Z.eq_dec (rid h) (rid f)) as [->|N].
  - rewrite FI. eexists. reflexivity.
  - destruct Hf as [->|Hf]; [congruence|]. destruct (match find_init d (rid h) with Some (_, lon, lat) => Ok (rid h, lon, lat) | None => Err ValueError end); cbn [bind]; [|eexists; reflexivity].
    destruct (IH Hf) as (e & ->). eexists. reflexivity.
Qed.
Print Assumptions C72_without_groups.
Example C72_without_groups_ex : with_parent [mkRow 11 1 (mkObs None None None None None None 0 0 0)] 2 = [] /\
  add_flash_init (fun t => t) [mkRow 2 0 (mkObs None None None None None None 0 0 0)] [mkRow 11 1 (mkObs None None None None None None 0 0 0)] = Err ValueError.
Proof. split; reflexivity. Qed.

(** The example file in one chunk and in two. *)
Definition pjunk : nat -> child := fun _ => mkChild 0 0 None None None None.
Example C67_ex : opened pF pG pE /\ exists bs1 bs2,
  read_points (fun l => l) pjunk pck (Some 0) 1 [pF; pG; pE] None = Ok bs1 /\
  read_points (fun l => l) pjunk pck (Some 0) 5 [pF; pG; pE] None = Ok bs2 /\
  List.length bs1 = 2%nat /\ List.length bs2 = 1%nat /\
  map p_id (parents b_flash bs1) = [1; 2] /\ map p_id (parents b_group bs2) = [11; 12] /\
  map c_id (children b_flash bs1) = [1; 2; 2] /\ map c_id (children b_event bs2) = [101; 102; 103] /\
  map p_n (parents b_flash bs1) = [1; 2] /\ map p_n (parents b_flash bs2) = [3; 3] /\
  map p_duration (parents b_flash bs2) = [Some (2000000000000000000 # 1000000000000000000); Some (2000000000000000000 # 1000000000000000000)]%Q.
Proof. split; [apply p_opened|]. do 2 eexists. split; [vm_compute; reflexivity|]. split; [vm_compute; reflexivity|]. do 8 (split; [vm_compute; reflexivity|]). vm_compute. reflexivity. Qed.

(** Two files given in the wrong order, and a selection without flashes. *)
Definition pdisk (n : string) : res glmfile :=
  if String.eqb n "a" then Ok (mkFile 40000000007 pck [pF; pG; pE])
  else if String.eqb n "b" then Ok (mkFile 20000000000 pck [pF; pG; pE])
  else Err FileNotFoundError.
Example C69_ex : Forall2 (second_of pdisk) ["a"; "b"]%string [40; 20] /\ NoDup [40; 20] /\
  (exists c, open_collection pdisk ["a"; "b"]%string = Ok c /\ cl_times c = [20; 40] /\
   exists ws, iterate (fun l => l) pjunk pdisk (Some 0) None c = Ok ws /\ map (fun w => map p_id (snd w)) ws = [[1; 2]; [1; 2]]) /\
  (exists f, pdisk "a" = Ok f /\ opened_file f /\
     data_of_file (fun l => l) pjunk (Some 0) (collection_query (Some (7, 8)%Q) None None None) f = Err ValueError).
Proof.
  split; [|split; [|split]].
  - repeat constructor; (eexists; split; [reflexivity|]; cbn; lia).
  - repeat constructor; cbn; intuition lia.
  - eexists. split; [vm_compute; reflexivity|]. split; [reflexivity|]. eexists. split; [vm_compute; reflexivity|]. reflexivity.
  - eexists. split; [reflexivity|]. split; [exists pF, pG, pE; split; [reflexivity|apply p_opened]|]. vm_compute. reflexivity.
Qed.

(** A bound on the area removes flash 1 and leaves its event. *)
Example C71_ex : exists w p c, data_of_file (fun l => l) pjunk (Some 0) None (mkFile 0 pck [pF; pG; pE]) = Ok w /\
  (forall p1 p2, In p1 (snd w) -> In p2 (snd w) -> p_id p1 = p_id p2 -> p1 = p2) /\
  In p (snd w) /\ In c (fst w) /\ c_id c = p_id p /\ ~ between (15, 100)%Q (p_area p).
Proof.
  do 3 eexists. split; [vm_compute; reflexivity|]. split.
  { intros p1 p2 H1 H2 E. cbn in H1, H2. destruct H1 as [<-|[<-|[]]], H2 as [<-|[<-|[]]]; auto; discriminate E. }
  split; [left; reflexivity|]. split; [left; reflexivity|]. split; [reflexivity|].
  intros (x & E & [L _]). cbn in E. injection E as <-. vm_compute in L. apply L. reflexivity.
Qed.

(** Flash 2 has three groups; the first in time, with two at the same time, is not the first
    in the file. *)
Definition iG : tbl := [mkRow 14 2 (pob 3 1 9 20 0 0 0); mkRow 11 1 (pob 1 1 4 10 0 0 0); mkRow 13 2 (pob 5 1 9 20 0 0 0); mkRow 12 2 (pob 6 1 9 20 0 0 0)].
Definition it (i : Z) : Z := if i =? 14 then 9 else 4.
Example C72_ex : consistent [pF; iG; []] /\ fertile pF iG /\ (forall f, In f pF -> - 2 ^ 31 <= rid f < 2 ^ 31) /\
  add_flash_init it pF iG = Ok [(1, Some 1%Q, Some 1%Q); (2, Some 5%Q, Some 1%Q)].
Proof.
  split; [split|].
  - apply unique3. repeat split; repeat constructor; cbn; intuition lia.
  - apply linked_no_orphans. split; intros s Hs; [|destruct Hs]. destruct Hs as [<-|[<-|[<-|[<-|[]]]]]; pick_row.
  - split. { intros r [<-|[<-|[]]]; pick_row. }
    split; [intros f [<-|[<-|[]]]; cbn; lia|]. vm_compute. reflexivity.
Qed.
