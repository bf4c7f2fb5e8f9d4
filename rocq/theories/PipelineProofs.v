(** Lemmas about the gridding pipeline. *)
From Coq Require Import List ZArith QArith Qabs Bool Lia Lqa Permutation.
From Verif Require Import Base BaseProofs Traversal Glm GlmProofs3 Lut LutSpec LutProofs Accum AccumSpec AccumProofs PropAccum
  Poly PolySpec PolyProofs PropPoly BBox BBoxSpec BBoxProofs PropBBox Slice SliceSpec SliceProofs PropSlice
  Regroup RegroupSpec RegroupProofs PropRegroup Pipeline PipelineSpec.
Import ListNotations.
Open Scope Z_scope.

(** * Weighted pieces of one chunk, polygon by polygon *)
Section Chunk.
Variables (clip : poly -> poly -> list poly) (tree : Q * Q -> list (Z * Z)) (m : mesh) (M N : nat).
Variable near : poly -> list (nat * nat).
Hypothesis MO : mesh_ok tree m M N.
Hypothesis PR : proper clip.
Hypothesis NEAR : forall p c, looked_up tree m NoBox p c -> near p = c.

Lemma zpair_inj : forall a b, zpair a = zpair b -> a = b.
Proof. intros [i j] [k l] H. inversion H. f_equal; lia. Qed.
Lemma looked_up_fun : forall b p c c', looked_up tree m b p c -> looked_up tree m b p c' -> c = c'.
Proof.
  intros b p c c' H H'. assert (E : map zpair c = map zpair c').
  { destruct b; cbn in *; try contradiction; rewrite H in H'; inversion H'; auto. }
  clear -E. revert c' E. induction c as [|a c IH]; intros [|a' c'] E; try discriminate; auto.
  cbn in E. inversion E. f_equal; [|apply IH; auto]. apply zpair_inj. unfold zpair. congruence.
Qed.
(** Row [s] of piece [e] of the polygon of table row [r], with the values of [r]. *)
Definition piece_of (r : lutrow) (p : poly) (w : weighted) (e : poly * (nat * nat)) : Prop :=
  exists s, w = weight_row s r /\ is_row m p (lu_id r) s e /\ valid M N (snd e).
Lemma chunk_blocks : forall L polys sl rows W, List.length polys = List.length L -> NoDup (map lu_id L) ->
  slice clip tree m polys NoBox = Ok sl -> split_event_data m (fst sl) (snd sl) (map lu_id L) = Ok rows ->
  replicate_and_weight_new L rows = Ok W ->
  exists blocks, W = List.concat blocks /\
    Forall2 (fun rp block => Forall2 (piece_of (fst rp) (snd rp)) block (cut clip m (snd rp) (near (snd rp)))) (combine L polys) blocks.
Proof.
  intros L polys [chopped areas] rows W LEN ND ES ER EW. cbn [fst snd] in *.
  destruct (split_data_ok clip tree m M N NoBox polys chopped areas (map lu_id L) MO PR ES ltac:(rewrite map_length; lia)) as (blocks & ES' & FB).
  rewrite ER in ES'. inversion ES'; subst rows. clear ES' ER.
  assert (FP : Forall2 (fun r block => Forall (fun s => sp_parent s = lu_id r) block) L blocks).
  { clear -FB LEN. revert L LEN blocks FB. induction polys as [|p polys IH]; intros [|r L] LEN blocks FB; try discriminate; cbn [map combine] in FB.
    - inversion FB. constructor.
    - inversion FB as [|? block ? bl' B1 B2]; subst. constructor; [|apply IH; auto]. destruct B1 as (cells & _ & _ & R). apply (rows_parent _ _ _ _ _ R). }
  rewrite (replicate_blocks L L blocks ND (fun r H => H) FP) in EW. inversion EW; subst W.
  eexists. split; [reflexivity|]. clear FP EW ES ND. revert L LEN blocks FB.
  induction polys as [|p polys IH]; intros [|r L] LEN blocks FB; try discriminate; cbn [map combine] in FB.
  - inversion FB. constructor.
  - inversion FB as [|? block ? bl' B1 B2]; subst. cbn [map2 combine]. constructor; [|apply IH; auto].
    destruct B1 as (cells & LU & V & R). cbn [fst snd] in *. rewrite (NEAR p cells LU).
    assert (V' : Forall (fun e => valid M N (snd e)) (cut clip m p cells)) by (apply cut_valid; auto). clear -R V'.
    induction R as [|s e block l R1 R IH]; [constructor|]. inversion V'; subst. cbn [map]. constructor; [|apply IH; auto].
    exists s. auto.
Qed.

(** Sum of a column over the pieces in one cell. *)
Lemma in_cell_app : forall A B c, in_cell (A ++ B) c = in_cell A c ++ in_cell B c.
Proof. intros. unfold in_cell. apply filter_app. Qed.
Lemma total_app : forall a b, (total (a ++ b) == total a + total b)%Q.
Proof. intros. unfold total. rewrite map_app. apply qsum_app. Qed.
Lemma same_cell_iff : forall c d, same_cell c d = true <-> c = d.
Proof.
  intros [a b] [c d]. unfold same_cell. cbn [fst snd]. rewrite andb_true_iff, !Nat.eqb_eq. split; [intros [-> ->]; auto|intros E; inversion E; auto].
Qed.
Lemma block_column : forall r p (f : weighted -> fval) (k : poly * (nat * nat) -> Q) c block l,
  Forall2 (piece_of r p) block l -> 
  (forall s e, In e l -> is_row m p (lu_id r) s e -> valid M N (snd e) -> snd e = c -> (num (f (weight_row s r)) == k e)%Q) ->
  (total (map f (in_cell block (zpair c))) == qsum (map k (filter (fun e => same_cell (snd e) c) l)))%Q.
Proof.
  intros r p f k c block l H. induction H as [|w e block l (s & -> & R & V) H IH]; intros K; [reflexivity|].
  unfold in_cell in *. cbn [filter].
  assert (C : ((sp_i (w_split (weight_row s r)) =? fst (zpair c)) && (sp_j (w_split (weight_row s r)) =? snd (zpair c)))%bool = same_cell (snd e) c).
  { change (w_split (weight_row s r)) with s. apply eq_true_iff_eq. rewrite andb_true_iff, !Z.eqb_eq, same_cell_iff.
    pose proof (SliceSpec.row_cell _ _ _ _ _ R) as RC. split.
    - intros [A B]. apply zpair_inj. rewrite <- RC, A, B. destruct (zpair c); reflexivity.
    - intros <-. rewrite <- RC. auto. }
  rewrite C. destruct (same_cell (snd e) c) eqn:SC.
  - cbn [map]. unfold total in *. cbn [map qsum fold_right]. fold (qsum (map num (map f (filter (fun w => (sp_i (w_split w) =? fst (zpair c)) && (sp_j (w_split w) =? snd (zpair c)))%bool block)))).
    fold (qsum (map k (filter (fun e => same_cell (snd e) c) l))). rewrite IH by (intros; apply K; auto; right; auto).
    rewrite (K s e); [reflexivity|left; auto|auto|auto|]. apply same_cell_iff. exact SC.
  - apply IH. intros; apply K; auto; right; auto.
Qed.
Lemma column_in_cell : forall (f : weighted -> fval) (k : lutrow -> poly -> poly * (nat * nat) -> Q) c L polys blocks,
  Forall2 (fun rp block => Forall2 (piece_of (fst rp) (snd rp)) block (cut clip m (snd rp) (near (snd rp)))) (combine L polys) blocks ->
  (forall r p s e, In (r, p) (combine L polys) -> is_row m p (lu_id r) s e -> valid M N (snd e) -> snd e = c -> (num (f (weight_row s r)) == k r p e)%Q) ->
  (total (map f (in_cell (List.concat blocks) (zpair c)))
   == qsum (map (fun rp => qsum (map (k (fst rp) (snd rp)) (filter (fun e => same_cell (snd e) c) (cut clip m (snd rp) (near (snd rp)))))) (combine L polys)))%Q.
Proof.
  intros f k c L polys blocks H. induction H as [|[r p] block rps blocks HB H IH]; intros K; [reflexivity|].
  cbn [List.concat map]. rewrite in_cell_app, map_app, total_app. cbn [qsum fold_right]. fold (qsum (map (fun rp => qsum (map (k (fst rp) (snd rp)) (filter (fun e => same_cell (snd e) c) (cut clip m (snd rp) (near (snd rp)))))) rps)).
  rewrite <- IH by (intros; apply K; auto; right; auto). cbn [fst snd] in *.
  rewrite (block_column r p f (k r p) c block _ HB); [reflexivity|]. intros s e _ R V EC. apply K; auto. left; auto.
Qed.
End Chunk.

Lemma qsum_scale : forall A (f : A -> Q) k l, (qsum (map (fun x => k * f x) l) == k * qsum (map f l))%Q.
Proof. induction l as [|x l IH]; cbn [map qsum fold_right]; [ring|]. unfold qsum in *. rewrite IH. ring. Qed.
Lemma qsum_ext : forall A (f g : A -> Q) l, (forall x, In x l -> f x == g x)%Q -> (qsum (map f l) == qsum (map g l))%Q.
Proof.
  induction l as [|x l IH]; intros H; [reflexivity|]. cbn [map qsum fold_right]. rewrite (H x) by (left; auto). unfold qsum in *.
  rewrite IH by (intros; apply H; right; auto). reflexivity.
Qed.

(** * One batch on the grid *)
Definition fits (nx ny : Z) (w : weighted) : Prop := 0 <= sp_i (w_split w) < ny /\ 0 <= sp_j (w_split w) < nx.
Lemma meansb_pos : forall n i a, 0 <= i < n -> 0 <= a < n -> meansb n i a = (i =? a).
Proof.
  intros n i a Hi Ha. unfold meansb. replace (0 <=? a) with true by (symmetry; apply Z.leb_le; lia).
  replace (a <? n) with true by (symmetry; apply Z.ltb_lt; lia). replace (i =? a - n) with false by (symmetry; apply Z.eqb_neq; lia).
  rewrite orb_false_r. reflexivity.
Qed.
Lemma means_pos : forall n i a, 0 <= i < n -> means n i a -> i = a.
Proof. intros n i a H [H1 [H2|H2]]; lia. Qed.
Lemma one_at_most : forall A (g : A -> Z * Z) c l, NoDup (map g l) ->
  filter (fun x => (snd (g x) =? snd c) && (fst (g x) =? fst c)) l = [] \/
  exists x, In x l /\ g x = c /\ filter (fun x => (snd (g x) =? snd c) && (fst (g x) =? fst c)) l = [x].
Proof.
  intros A g c l. induction l as [|x l IH]; intros ND; [left; reflexivity|]. inversion ND as [|? ? NI ND']; subst. cbn [filter].
  destruct ((snd (g x) =? snd c) && (fst (g x) =? fst c)) eqn:E.
  - apply andb_true_iff in E. rewrite !Z.eqb_eq in E. assert (EC : g x = c) by (destruct (g x), c; cbn in *; f_equal; tauto).
    right. exists x. split; [left; auto|]. split; [exact EC|]. rewrite (filter_none _ _ l); [reflexivity|].
    intros y Hy. apply not_true_is_false. intros K. apply andb_true_iff in K. rewrite !Z.eqb_eq in K.
    apply NI. replace (g x) with (g y); [apply in_map; auto|]. rewrite EC. destruct (g y), c; cbn in *; f_equal; tauto.
  - destruct (IH ND') as [IH1|(y & Hy & E1 & E2)]; [left; exact IH1|right; exists y; split; [right; auto|auto]].
Qed.
Section Batch.
Variables (nx ny : Z) (W : list weighted) (R : list cellrow).
Hypothesis FIT : Forall (fits nx ny) W.
Hypothesis ER : regroup W = Ok R.
Lemma batch_spec : NoDup (map row_cell R) /\ (forall c, In c (map row_cell R) <-> exists w, In w W /\ cell_of w = c) /\ Forall (merged W) R /\
  forall r, In r R -> 0 <= ce_xi r < ny /\ 0 <= ce_yi r < nx.
Proof.
  rewrite Forall_forall in FIT.
  assert (NE : W <> []) by (intros E; rewrite E in ER; discriminate).
  assert (NN : forall w, In w W -> 0 <= sp_i (w_split w)) by (intros w Hw; destruct (FIT w Hw); lia).
  destruct (C33_one_row_per_cell W NE NN) as (R' & E' & ND & C & MG). rewrite ER in E'. inversion E'; subst R'.
  split; [exact ND|]. split; [exact C|]. split; [exact MG|]. intros r Hr.
  assert (In (row_cell r) (map row_cell R)) as K by (apply in_map; auto). apply C in K. destruct K as (w & Hw & Ew). unfold row_cell, cell_of in Ew. inversion Ew as [[E1 E2]].
  destruct (FIT w Hw) as [F1 F2]. subst; lia.
Qed.
Lemma batch_in_grid : forall col, Forall (in_grid nx ny) (items col R).
Proof.
  intros col. destruct batch_spec as (_ & _ & _ & B). apply Forall_forall. intros it Hit. apply in_map_iff in Hit. destruct Hit as (r & <- & Hr).
  destruct (B r Hr) as [B1 B2]. exists (ce_yi r), (ce_xi r). split; (split; [auto|]); left; reflexivity.
Qed.
Lemma batch_no_repeat : forall col, no_repeat nx ny (items col R).
Proof.
  intros col k l a b i j Hk Hl [A1 A2] [B1 B2]. destruct batch_spec as (ND & _ & _ & B).
  unfold items in Hk, Hl. rewrite nth_error_map in Hk, Hl.
  destruct (nth_error R k) as [r|] eqn:E1; [|discriminate]. destruct (nth_error R l) as [r'|] eqn:E2; [|discriminate].
  cbn in Hk, Hl. inversion Hk; inversion Hl; subst i j. cbn [it_x it_y] in *.
  destruct (B r (nth_error_In _ _ E1)) as [C1 C2]. destruct (B r' (nth_error_In _ _ E2)) as [D1 D2].
  apply means_pos in A1; auto. apply means_pos in A2; auto. apply means_pos in B1; auto. apply means_pos in B2; auto.
  assert (EQ : nth_error (map row_cell R) k = nth_error (map row_cell R) l) by (rewrite !nth_error_map, E1, E2; cbn; unfold row_cell; congruence).
  apply (NoDup_nth_error (map row_cell R)); auto. rewrite map_length. apply nth_error_Some. rewrite E1. discriminate.
Qed.
Lemma sent_eq : forall col a b, 0 <= a < nx -> 0 <= b < ny ->
  sent_to nx ny a b (items col R) = map col (filter (fun r => (snd (row_cell r) =? a) && (fst (row_cell r) =? b)) R).
Proof.
  intros col a b Ha Hb. destruct batch_spec as (_ & _ & _ & B). unfold sent_to, items. revert B. generalize R as R0. clear -Ha Hb.
  induction R0 as [|r R0 IH]; intros B; [reflexivity|]. cbn [map filter]. cbn [it_x it_y row_cell fst snd].
  destruct (B r (or_introl eq_refl)) as [B1 B2]. rewrite !meansb_pos by auto.
  destruct ((ce_yi r =? a) && (ce_xi r =? b)); [cbn [map it_v]; f_equal|]; apply IH; intros; apply B; right; auto.
Qed.
Lemma batch_column : forall (col : cellrow -> fval) (f : weighted -> fval),
  (forall r, merged W r -> is_num (col r) (total (map f (in_cell W (row_cell r))))) ->
  forall a b, 0 <= a < nx -> 0 <= b < ny ->
  numbers (sent_to nx ny a b (items col R)) /\
  (total (sent_to nx ny a b (items col R)) == total (map f (in_cell W (b, a))))%Q.
Proof.
  intros col f HC a b Ha Hb. rewrite sent_eq by auto. destruct batch_spec as (ND & C & MG & _). rewrite Forall_forall in MG.
  destruct (one_at_most _ row_cell (b, a) R ND) as [E|(r & Hr & Er & E)]; cbn [fst snd] in E; rewrite E.
  - split; [intros v []|]. cbn [map].
    assert (in_cell W (b, a) = []) as ->; [|reflexivity].
    apply filter_none. intros w Hw. apply not_true_is_false. intros K. apply andb_true_iff in K. rewrite !Z.eqb_eq in K. cbn [fst snd] in K.
    assert (In (b, a) (map row_cell R)) as IN by (apply C; exists w; split; [auto|unfold cell_of; destruct K; congruence]).
    apply in_map_iff in IN. destruct IN as (r & Er & Hr). 
    assert (In r []) as K'; [rewrite <- E; apply filter_In; split; [auto|rewrite Er; cbn [fst snd]; rewrite !Z.eqb_refl; reflexivity]|destruct K'].
  - destruct (HC r (MG r Hr)) as (x & Ex & Hx). cbn [map]. rewrite Ex. split; [intros v [<-|[]]; discriminate|].
    rewrite Er in Hx. unfold total at 1. cbn [map num qsum fold_right]. rewrite Hx. ring.
Qed.
(** The minimum column: what arrives in a cell is the least of the pieces there. *)
Lemma batch_min : forall a b, 0 <= a < nx -> 0 <= b < ny ->
  (in_cell W (b, a) = [] /\ sent_to nx ny a b (items ce_minarea R) = []) \/
  (exists v, in_cell W (b, a) <> [] /\ sent_to nx ny a b (items ce_minarea R) = [v] /\ least_number (map w_minarea (in_cell W (b, a))) v).
Proof.
  intros a b Ha Hb. rewrite sent_eq by auto. destruct batch_spec as (ND & C & MG & _). rewrite Forall_forall in MG.
  destruct (one_at_most _ row_cell (b, a) R ND) as [E|(r & Hr & Er & E)]; cbn [fst snd] in E; rewrite E.
  - left. split; [|reflexivity].
    apply filter_none. intros w Hw. apply not_true_is_false. intros K. apply andb_true_iff in K. rewrite !Z.eqb_eq in K. cbn [fst snd] in K.
    assert (In (b, a) (map row_cell R)) as IN by (apply C; exists w; split; [auto|unfold cell_of; destruct K; congruence]).
    apply in_map_iff in IN. destruct IN as (r & Er & Hr). 
    assert (In r []) as K'; [rewrite <- E; apply filter_In; split; [auto|rewrite Er; cbn [fst snd]; rewrite !Z.eqb_refl; reflexivity]|destruct K'].
  - right. exists (ce_minarea r). pose proof (MG r Hr) as M1. destruct M1. rewrite Er in *. split; [auto|]. split; [reflexivity|auto].
Qed.
End Batch.

(** * All batches *)
Lemma sent_concat : forall nx ny a b B, sent_to nx ny a b (List.concat B) = List.concat (map (sent_to nx ny a b) B).
Proof.
  intros. unfold sent_to. induction B as [|x B IH]; [reflexivity|]. cbn [List.concat map]. rewrite filter_app, map_app, IH. reflexivity.
Qed.
Lemma total_concat : forall L, (total (List.concat L) == qsum (map total L))%Q.
Proof. induction L as [|l L IH]; [reflexivity|]. cbn [List.concat map]. rewrite total_app, IH. reflexivity. Qed.
Lemma numbers_concat : forall L, (forall l, In l L -> numbers l) -> numbers (List.concat L).
Proof. intros L H v Hv. apply in_concat in Hv. destruct Hv as (l & Hl & Hv). apply (H l Hl v Hv). Qed.
Lemma grid_column : forall nx ny Ws Rs (col : cellrow -> fval) (f : weighted -> fval),
  Forall2 (fun W R => regroup W = Ok R) Ws Rs -> Forall (Forall (fits nx ny)) Ws ->
  (forall W r, merged W r -> is_num (col r) (total (map f (in_cell W (row_cell r))))) ->
  exists g, accumulate (zeros nx ny) (map (items col) Rs) = Ok g /\ g_n0 g = nx /\ g_n1 g = ny /\
    forall a b, 0 <= a < nx -> 0 <= b < ny -> is_num (g_at g a b) (qsum (map (fun W => total (map f (in_cell W (b, a)))) Ws)).
Proof.
  intros nx ny Ws Rs col f F2 FIT HC.
  destruct (C34_adds_every_value_once (zeros nx ny) (map (items col) Rs)) as (g & E & D0 & D1 & C).
  - apply Forall_forall. intros its Hi. apply in_map_iff in Hi. destruct Hi as (R & <- & HR). cbn [zeros g_n0 g_n1].
    clear -F2 FIT HR. induction F2 as [|W R' Ws Rs E F2 IH]; [destruct HR|]. inversion FIT; subst. destruct HR as [->|HR]; [|apply IH; auto].
    apply (batch_in_grid nx ny W R); auto.
  - apply Forall_forall. intros its Hi. apply in_map_iff in Hi. destruct Hi as (R & <- & HR). cbn [zeros g_n0 g_n1].
    clear -F2 FIT HR. induction F2 as [|W R' Ws Rs E F2 IH]; [destruct HR|]. inversion FIT; subst. destruct HR as [->|HR]; [|apply IH; auto].
    apply (batch_no_repeat nx ny W R); auto.
  - cbn [zeros g_n0 g_n1] in *. exists g. split; [exact E|]. split; [exact D0|]. split; [exact D1|]. intros a b Ha Hb. specialize (C a b).
    cbn [g_at adds_to] in C. destruct C as [C _]. rewrite sent_concat, map_map in C.
    assert (T : numbers (List.concat (map (fun x => sent_to nx ny a b (items col x)) Rs)) /\
       (total (List.concat (map (fun x => sent_to nx ny a b (items col x)) Rs)) == qsum (map (fun W => total (map f (in_cell W (b, a)))) Ws))%Q).
    { clear -F2 FIT HC Ha Hb. induction F2 as [|W R Ws Rs E F2 IH]; [split; [intros v []|reflexivity]|]. inversion FIT; subst.
      destruct (batch_column nx ny W R H1 E col f (HC W) a b Ha Hb) as [N T]. destruct (IH H2) as [N' T']. cbn [map List.concat]. split.
      - intros v Hv. apply in_app_iff in Hv. destruct Hv as [Hv|Hv]; [apply (N v Hv)|apply (N' v Hv)].
      - rewrite total_app, T, T'. reflexivity. }
    destruct T as [N T]. destruct (C N) as (x & -> & Hx). exists x. split; [reflexivity|]. rewrite Hx, T. ring.
Qed.

(** * From files to grids *)
Lemma nearby_ok : forall tree m p c, looked_up tree m NoBox p c -> nearby tree m p = c.
Proof.
  intros tree m p c H. cbn in H. unfold nearby. rewrite H, map_map. rewrite <- (map_id c) at 2. apply map_ext. intros [i j].
  cbn [zpair fst snd]. rewrite !Nat2Z.id. reflexivity.
Qed.
Lemma lut_ids : forall weird s xr yr ds L, get_lutevents weird s xr yr ds = Ok L -> NoDup (map lu_id L).
Proof.
  intros weird s xr yr ds L H. unfold get_lutevents in H. destruct ds as [|F [|G [|E [|]]]]; try discriminate.
  match type of H with (if ?b then _ else _) = _ => destruct b; [discriminate|] end.
  match type of H with map_res ?f (zunique ?l) = _ => assert (map lu_id L = zunique l) as ->; [|apply zunique_nodup]; remember (zunique l) as ks; clear Heqks end.
  apply map_res_inv in H. induction H as [|k r ks L E1 E2 IH]; [reflexivity|]. cbn [map]. rewrite IH. f_equal. unfold lut_row in E1.
  repeat (apply bind_ok_inv in E1; destruct E1 as (? & _ & E1)). inversion E1. reflexivity.
Qed.
Section Grid.
Variables (set_order : list Z -> list Z) (weird : fval -> Z) (clip : poly -> poly -> list poly) (tree : Q * Q -> list (Z * Z)).
Variables (quad : fval -> fval -> poly) (xe ye : list Q).
Hypothesis XOK : (1 < List.length xe)%nat.
Hypothesis YOK : (1 < List.length ye)%nat.
Hypothesis XI : increasing xe.
Hypothesis YI : increasing ye.
Hypothesis PR : proper clip.
Let m := regular_xy xe ye.
Let N := List.length xe.
Let M := List.length ye.
Let nx := Z.of_nat N - 1.
Let ny := Z.of_nat M - 1.
Definition rpoly (r : lutrow) : poly := quad (lu_x r) (lu_y r).
Lemma grid_mesh_ok : mesh_ok tree m M N.
Proof.
  split; [exact YOK|]. split; [exact XOK|].
  split; [apply meshgrid_shape|]. split; [apply meshgrid_shape|]. cbn [m regular_xy me_regular].
  exists xe, ye. eexists. split; [split; auto|]. split; [split; auto|]. apply made_xy.
Qed.

Definition weighted_of (L : list lutrow) (W : list weighted) : Prop :=
  exists blocks, W = List.concat blocks /\
    Forall2 (fun rp block => Forall2 (piece_of m M N (fst rp) (snd rp)) block (cut clip m (snd rp) (nearby tree m (snd rp)))) (combine L (map rpoly L)) blocks.
Lemma chunk_rows : forall ds W, chunk_weighted weird clip tree quad m ds = Ok W ->
  exists L, get_lutevents weird lut_scale lut_range lut_range ds = Ok L /\ weighted_of L W.
Proof.
  intros ds W H. unfold chunk_weighted in H. apply bind_ok_inv in H. destruct H as (L & EL & H). exists L. split; [exact EL|].
  change (map (fun r => quad (lu_x r) (lu_y r)) L) with (map rpoly L) in H.
  apply bind_ok_inv in H. destruct H as ((ch & ar) & ES & H). apply bind_ok_inv in H. destruct H as (rows & ER & H).
  apply (chunk_blocks clip tree m M N (nearby tree m) grid_mesh_ok PR (nearby_ok tree m) L (map rpoly L) (ch, ar) rows W (map_length _ _) (lut_ids _ _ _ _ _ _ EL) ES ER H).
Qed.
Lemma weighted_fits : forall L W, weighted_of L W -> Forall (fits nx ny) W.
Proof.
  intros L W (blocks & -> & F2). apply Forall_forall. intros w Hw. apply in_concat in Hw. destruct Hw as (block & Hb & Hw).
  induction F2 as [|[r p] b rps bs B1 F2 IH]; [destruct Hb|]. destruct Hb as [->|Hb]; [|apply IH; auto]. clear -B1 Hw. cbn [fst snd] in B1.
  induction B1 as [|w' e block l (s & -> & R & V) B1 IH]; [destruct Hw|]. destruct Hw as [<-|Hw]; [|apply IH; auto].
  pose proof (SliceSpec.row_cell _ _ _ _ _ R) as RC. destruct e as [q [i j]]. cbn [snd zpair fst] in RC. inversion RC as [[E1 E2]].
  destruct V as [V1 V2]. cbn [snd fst] in V1, V2. unfold fits. change (w_split (weight_row s r)) with s. rewrite E1, E2. unfold nx, ny. lia.
Qed.
Lemma combine_map_r : forall A B C (f : A -> B) (g : A * B -> C) (l : list A), map g (combine l (map f l)) = map (fun x => g (x, f x)) l.
Proof. induction l as [|x l IH]; [reflexivity|]. cbn [map combine]. rewrite IH. reflexivity. Qed.
Lemma in_combine_map : forall A B (f : A -> B) l x y, In (x, y) (combine l (map f l)) -> In x l /\ y = f x.
Proof. induction l as [|a l IH]; intros x y H; [destruct H|]. destruct H as [H|H]; [inversion H; subst; split; [left|]; auto|]. destruct (IH x y H). split; [right|]; auto. Qed.
Lemma table_column : forall L W (f : weighted -> fval) (k : lutrow -> Q) (g : lutrow -> poly -> Q) kx ky,
  weighted_of L W ->
  (forall r s e, In r L -> is_row m (rpoly r) (lu_id r) s e -> valid M N (snd e) -> snd e = (ky, kx) ->
     (num (f (weight_row s r)) == k r * (size (fst e) * g r (rpoly r)))%Q) ->
  (total (map f (in_cell W (Z.of_nat ky, Z.of_nat kx)))
   == qsum (map (fun r => k r * (size_in clip m (rpoly r) (nearby tree m (rpoly r)) (ky, kx) * g r (rpoly r))) L))%Q.
Proof.
  intros L W f k g kx ky (blocks & -> & F2) K.
  rewrite (column_in_cell clip m M N (nearby tree m) f (fun r p e => k r * (size (fst e) * g r p))%Q (ky, kx) L (map rpoly L) blocks F2).
  - rewrite combine_map_r. apply qsum_ext. intros r Hr. cbn [fst snd]. unfold size_in.
    set (l := filter _ _). clearbody l. induction l as [|e l IH]; cbn [map qsum fold_right]; [ring|].
    fold (qsum (map (fun e => (k r * (size (fst e) * g r (rpoly r)))%Q) l)). fold (qsum (map (fun e => size (fst e)) l)). rewrite IH. ring.
  - intros r p s e Hr R V EC. apply in_combine_map in Hr. destruct Hr as [Hr ->]. apply K; auto.
Qed.
Lemma read_chunks : forall chunks bs, map_res (read_chunk weird clip tree quad m) chunks = Ok bs ->
  exists ts Ws, Forall2 (fun c t => get_lutevents weird lut_scale lut_range lut_range c = Ok t) chunks ts /\
    Forall2 weighted_of ts Ws /\ Forall2 (fun W R => regroup W = Ok R) Ws bs.
Proof.
  intros chunks bs H. apply map_res_inv in H. induction H as [|c R cs bs E F2 IH]; [exists [], []; repeat constructor|].
  destruct IH as (ts & Ws & A & B & C). unfold read_chunk in E. apply bind_ok_inv in E. destruct E as (W & EW & ER).
  destruct (chunk_rows c W EW) as (L & EL & HW). exists (L :: ts), (W :: Ws). repeat constructor; auto.
Qed.
Lemma F2_concat : forall A B (P : A -> B -> Prop) ls ms, Forall2 (Forall2 P) ls ms -> Forall2 P (List.concat ls) (List.concat ms).
Proof. intros A B P ls ms H. induction H; cbn; [constructor|]. apply Forall2_app; auto. Qed.
Lemma read_all : forall chunk_size q files bs, read_files set_order weird clip tree quad m chunk_size files q = Ok bs ->
  exists ts Ws, tables_read set_order weird chunk_size q files ts /\
    Forall2 weighted_of ts Ws /\ Forall2 (fun W R => regroup W = Ok R) Ws bs.
Proof.
  intros cs q files bs H. unfold read_files in H. apply bind_ok_inv in H. destruct H as (bss & H & E). inversion E; subst bs. clear E.
  apply map_res_inv in H.
  assert (K : exists tss Wss, Forall2 (tables_of_file set_order weird cs q) files tss /\ Forall2 (Forall2 weighted_of) tss Wss /\
     Forall2 (Forall2 (fun W R => regroup W = Ok R)) Wss bss).
  { induction H as [|ds b files bss E F2 IH]; [exists [], []; repeat constructor|]. destruct IH as (tss & Wss & A & B & C).
    destruct (nth_error ds 2) as [[|e E']|] eqn:EE; [inversion E; subst b| |discriminate].
    - exists ([] :: tss), ([] :: Wss). split; [constructor; auto; left; auto|]. split; constructor; auto.
    - unfold read_flashes in E. apply bind_ok_inv in E. destruct E as (chunks & EC & E). destruct (read_chunks _ _ E) as (ts & Ws & A' & B' & C').
      exists (ts :: tss), (Ws :: Wss). split; [constructor; auto|]; [|split; constructor; auto]. right. split; [eauto|]. exists chunks. auto. }
  destruct K as (tss & Wss & A & B & C). exists (List.concat tss), (List.concat Wss). split; [exists tss; auto|].
  split; apply F2_concat; auto.
Qed.
(** Sums over tables. *)
Lemma qsum_flat : forall A (f : A -> Q) ls, (qsum (map f (List.concat ls)) == qsum (map (fun l => qsum (map f l)) ls))%Q.
Proof. induction ls as [|l ls IH]; [reflexivity|]. cbn [List.concat map]. rewrite map_app, qsum_app, IH. reflexivity. Qed.
Lemma column_total : forall ts Ws (f : weighted -> fval) (k : lutrow -> Q) (g : lutrow -> poly -> Q) kx ky,
  Forall2 weighted_of ts Ws ->
  (forall r s e, In r (List.concat ts) -> is_row m (rpoly r) (lu_id r) s e -> valid M N (snd e) -> snd e = (ky, kx) ->
     (num (f (weight_row s r)) == k r * (size (fst e) * g r (rpoly r)))%Q) ->
  (qsum (map (fun W => total (map f (in_cell W (Z.of_nat ky, Z.of_nat kx)))) Ws)
   == over (fun r => k r * (size_in clip m (rpoly r) (nearby tree m (rpoly r)) (ky, kx) * g r (rpoly r))) ts)%Q.
Proof.
  intros ts Ws f k g kx ky F2 K. unfold over. rewrite qsum_flat. induction F2 as [|L W ts Ws H F2 IH]; [reflexivity|].
  cbn [map qsum fold_right]. unfold qsum in IH |- *. rewrite <- IH by (intros; apply K; auto; cbn [List.concat]; apply in_or_app; right; auto).
  rewrite (table_column L W f k g kx ky H); [reflexivity|]. intros; apply K; auto. cbn [List.concat]; apply in_or_app; left; auto.
Qed.
Lemma share_energy : forall r s e, ~ (size (rpoly r) == 0)%Q -> is_row m (rpoly r) (lu_id r) s e ->
  (num (w_energy (weight_row s r)) == num (lu_energy r) * (size (fst e) * / size (rpoly r)))%Q.
Proof.
  intros r s e NZ R. destruct (row_frac _ _ _ _ _ R) as [_ RF]. destruct (RF NZ) as (x & Ex & Hx). cbn [weight_row w_energy].
  destruct (lu_energy r) as [v|]; rewrite Ex; cbn [fmul num]; [rewrite Hx; reflexivity|ring].
Qed.
Lemma cell_pos : forall kx ky, (S kx < N)%nat -> (S ky < M)%nat -> (0 < cell_size xe ye kx ky)%Q.
Proof.
  intros kx ky Hx Hy. unfold cell_size. assert (edge xe kx < edge xe (S kx))%Q by (apply XI; unfold N in *; lia).
  assert (edge ye ky < edge ye (S ky))%Q by (apply YI; unfold M in *; lia). apply Qmult_lt_0_compat; lra.
Qed.
Lemma share_cell : forall r s e kx ky, ~ (size (rpoly r) == 0)%Q -> is_row m (rpoly r) (lu_id r) s e -> valid M N (snd e) -> snd e = (ky, kx) ->
  is_num (sp_mesh_frac s) (size (fst e) * / cell_size xe ye kx ky).
Proof.
  intros r s [p c] kx ky NZ R V E. cbn [snd fst] in *. subst c. destruct V as [V1 V2]. cbn [fst snd] in V1, V2.
  destruct (C31_mesh_fraction xe ye (rpoly r) (lu_id r) s p ky kx XI YI V1 V2 NZ R) as (_ & F & _). exact F.
Qed.

Lemma nearby_valid : forall p, Forall (valid M N) (nearby tree m p).
Proof.
  intros p. unfold nearby. destruct (quads_nearest tree m (vertex_mean p)) as [l|] eqn:E; [|constructor].
  destruct (nearest_cells _ _ _ _ _ _ grid_mesh_ok E) as (cells & -> & V). rewrite map_map.
  rewrite Forall_forall in V |- *. intros c Hc. apply in_map_iff in Hc. destruct Hc as ([i j] & <- & Hc). cbn [zpair fst snd]. rewrite !Nat2Z.id. apply V; auto.
Qed.
Lemma hit : forall n i (v : Q), (i < n)%nat -> (qsum (map (fun k => if Nat.eqb i k then v else 0%Q) (seq 0 n)) == v)%Q.
Proof.
  induction n as [|n IH]; intros i v Hi; [lia|]. rewrite seq_S, map_app, qsum_app. cbn [map qsum fold_right plus].
  destruct (Nat.eqb_spec i n) as [->|NE].
  - assert (Z : (qsum (map (fun k => if Nat.eqb n k then v else 0%Q) (seq 0 n)) == 0)%Q); [|rewrite Z; ring].
    assert (G : forall l, (forall k, In k l -> (k < n)%nat) -> (qsum (map (fun k => if Nat.eqb n k then v else 0%Q) l) == 0)%Q).
    { induction l as [|k l IHl]; intros H; [reflexivity|]. cbn [map qsum fold_right]. destruct (Nat.eqb_spec n k) as [->|]; [specialize (H k (or_introl eq_refl)); lia|].
      unfold qsum in IHl. rewrite IHl; [ring|]. intros; apply H; right; auto. }
    apply G. intros k Hk. apply in_seq in Hk. lia.
  - rewrite IH by lia. ring.
Qed.
Lemma qsum_plus : forall A (f g : A -> Q) l, (qsum (map (fun x => f x + g x) l) == qsum (map f l) + qsum (map g l))%Q.
Proof. induction l as [|x l IH]; [reflexivity|]. cbn [map qsum fold_right]. unfold qsum in *. rewrite IH. ring. Qed.
Lemma qsum_swap : forall A B (f : A -> B -> Q) la lb,
  (qsum (map (fun a => qsum (map (f a) lb)) la) == qsum (map (fun b => qsum (map (fun a => f a b) la)) lb))%Q.
Proof.
  induction la as [|a la IH]; intros lb.
  - cbn [map]. induction lb as [|b lb IHb]; [reflexivity|]. cbn [map qsum fold_right] in *. unfold qsum in IHb. rewrite <- IHb. reflexivity.
  - cbn [map qsum fold_right]. unfold qsum at 1 in IH. rewrite IH. rewrite <- qsum_plus. apply qsum_ext. intros b _. cbn [map qsum fold_right]. reflexivity.
Qed.
Lemma all_cells : forall A (h : A * (nat * nat) -> Q) l, Forall (fun e => valid M N (snd e)) l ->
  (qsum (map (fun kx => qsum (map (fun ky => qsum (map h (filter (fun e => same_cell (snd e) (ky, kx)) l))) (seq 0 (M - 1)))) (seq 0 (N - 1)))
   == qsum (map h l))%Q.
Proof.
  intros A h l V. induction V as [|[a [i j]] l [V1 V2] V IH]; cbn [snd fst] in *.
  - cbn [filter map qsum fold_right]. assert (Z : forall n, (qsum (map (fun _ : nat => 0%Q) (seq 0 n)) == 0)%Q).
    { intros n. generalize (seq 0 n). induction l as [|x l IH]; [reflexivity|]. cbn [map qsum fold_right]. unfold qsum in IH. rewrite IH. ring. }
    rewrite (qsum_ext _ _ (fun _ => 0%Q)); [apply Z|]. intros; apply Z.
  - assert (EL : forall x (r : list (A * (nat * nat))), (qsum (map h (x :: r)) == h x + qsum (map h r))%Q) by (intros; reflexivity). rewrite EL, <- IH.
    assert (E : (h (a, (i, j)) == qsum (map (fun kx => qsum (map (fun ky => if Nat.eqb i ky then (if Nat.eqb j kx then h (a, (i, j)) else 0%Q) else 0%Q) (seq 0 (M - 1)))) (seq 0 (N - 1))))%Q).
    { rewrite (qsum_ext _ _ (fun kx => if Nat.eqb j kx then h (a, (i, j)) else 0%Q)); [symmetry; apply hit; lia|]. intros kx _. apply hit. lia. }
    rewrite E at 1. rewrite <- qsum_plus. apply qsum_ext. intros kx _. rewrite <- qsum_plus. apply qsum_ext. intros ky _.
    cbn [filter snd]. unfold same_cell at 1. cbn [fst snd]. destruct (Nat.eqb i ky), (Nat.eqb j kx); cbn [andb]; rewrite ?EL; ring.
Qed.
Lemma size_in_all : forall p, (qsum (map (fun kx => qsum (map (fun ky => size_in clip m p (nearby tree m p) (ky, kx)) (seq 0 (M - 1)))) (seq 0 (N - 1)))
   == qsum (map (fun e => size (fst e)) (cut clip m p (nearby tree m p))))%Q.
Proof. intros p. unfold size_in. apply all_cells. apply cut_valid. apply nearby_valid. Qed.

(** Rows with a piece in a cell. *)
Definition here (kx ky : nat) (r : lutrow) : Prop := exists p, In (p, (ky, kx)) (cut clip m (rpoly r) (nearby tree m (rpoly r))).
Lemma F2_in_l : forall A B (P : A -> B -> Prop) l l' x, Forall2 P l l' -> In x l -> exists y, In y l' /\ P x y.
Proof. intros A B P l l' x H. induction H as [|a b l l' H1 H2 IH]; [intros []|]. intros [<-|K]; [eexists; split; [left|]; eauto|]. destruct (IH K) as (z & ? & ?). exists z. split; [right|]; auto. Qed.
Lemma F2_in_r : forall A B (P : A -> B -> Prop) l l' y, Forall2 P l l' -> In y l' -> exists x, In x l /\ P x y.
Proof. intros A B P l l' x H. induction H as [|a b l l' H1 H2 IH]; [intros []|]. intros [<-|K]; [eexists; split; [left|]; eauto|]. destruct (IH K) as (z & ? & ?). exists z. split; [right|]; auto. Qed.
Lemma in_combine_self : forall A B (f : A -> B) l x, In x l -> In (x, f x) (combine l (map f l)).
Proof. induction l as [|a l IH]; intros x []; [subst; left; auto|right; auto]. Qed.
Lemma cell_min_fwd : forall L W w kx ky, weighted_of L W -> In w (in_cell W (Z.of_nat ky, Z.of_nat kx)) ->
  exists r, In r L /\ here kx ky r /\ w_minarea w = lu_minarea r.
Proof.
  intros L W w kx ky (blocks & -> & F2) H. apply filter_In in H. destruct H as [H C]. apply in_concat in H. destruct H as (b & Hb & Hw).
  destruct (F2_in_r _ _ _ _ _ _ F2 Hb) as ([r p] & Hr & FB). apply in_combine_map in Hr. destruct Hr as [Hr ->]. cbn [fst snd] in FB.
  destruct (F2_in_l _ _ _ _ _ _ FB Hw) as (e & He & s & -> & R & _). exists r. split; [exact Hr|]. split; [|reflexivity].
  apply andb_true_iff in C. rewrite !Z.eqb_eq in C. cbn [fst snd] in C. change (w_split (weight_row s r)) with s in C.
  pose proof (SliceSpec.row_cell _ _ _ _ _ R) as RC. destruct e as [q [i j]]. cbn [zpair fst snd] in RC. inversion RC. exists q.
  replace ky with i by lia. replace kx with j by lia. exact He.
Qed.
Lemma cell_min_bwd : forall L W r kx ky, weighted_of L W -> In r L -> here kx ky r ->
  exists w, In w (in_cell W (Z.of_nat ky, Z.of_nat kx)) /\ w_minarea w = lu_minarea r.
Proof.
  intros L W r kx ky (blocks & -> & F2) Hr (q & Hq). destruct (F2_in_l _ _ _ _ _ _ F2 (in_combine_self _ _ rpoly _ _ Hr)) as (b & Hb & FB).
  cbn [fst snd] in FB. destruct (F2_in_r _ _ _ _ _ _ FB Hq) as (w & Hw & s & -> & R & _). exists (weight_row s r). split; [|reflexivity].
  apply filter_In. split; [apply in_concat; eauto|]. change (w_split (weight_row s r)) with s. pose proof (SliceSpec.row_cell _ _ _ _ _ R) as RC.
  cbn [zpair fst snd] in RC. inversion RC as [[E1 E2]]. cbn [fst snd]. rewrite E1, E2, !Z.eqb_refl. reflexivity.
Qed.
Lemma cell_nat : forall L W w, weighted_of L W -> In w W -> exists kx ky, In w (in_cell W (Z.of_nat ky, Z.of_nat kx)).
Proof.
  intros L W w HW Hw. pose proof (weighted_fits L W HW) as F. rewrite Forall_forall in F. destruct (F w Hw) as [F1 F2].
  exists (Z.to_nat (sp_j (w_split w))), (Z.to_nat (sp_i (w_split w))). apply filter_In. split; [exact Hw|]. cbn [fst snd].
  rewrite !Z2Nat.id by lia. rewrite !Z.eqb_refl. reflexivity.
Qed.
(** Totality. *)
Lemma chunk_total : forall ds L, get_lutevents weird lut_scale lut_range lut_range ds = Ok L ->
  (forall r, In r L -> rpoly r <> [] /\ exists c, looked_up tree m NoBox (rpoly r) c /\ List.length c <> 1%nat) ->
  exists W, chunk_weighted weird clip tree quad m ds = Ok W.
Proof.
  intros ds L EL H. unfold chunk_weighted. rewrite EL. cbn [bind]. change (map (fun r => quad (lu_x r) (lu_y r)) L) with (map rpoly L).
  assert (H' : forall p, In p (map rpoly L) -> p <> [] /\ exists c, looked_up tree m NoBox p c /\ List.length c <> 1%nat).
  { intros p Hp. apply in_map_iff in Hp. destruct Hp as (r & <- & Hr). apply H; auto. }
  destruct (C30_succeeds_without_box clip tree m M N (map rpoly L) grid_mesh_ok PR (fun p Hp => proj1 (H' p Hp)) (fun p Hp => proj2 (H' p Hp))) as ((ch & ar) & ES).
  rewrite ES. cbn [bind].
  destruct (split_data_ok clip tree m M N NoBox _ ch ar (map lu_id L) grid_mesh_ok PR ES ltac:(rewrite !map_length; auto)) as (blocks & ER & FB).
  rewrite ER. cbn [bind]. apply C32_lookup_path_exists; [apply (lut_ids _ _ _ _ _ _ EL)|].
  intros s Hs. apply in_concat in Hs. destruct Hs as (b & Hb & Hs). destruct (F2_in_r _ _ _ _ _ _ FB Hb) as ([p i] & Hp & c & _ & _ & R).
  cbn [fst snd] in R. apply in_combine_r in Hp. destruct (F2_in_l _ _ _ _ _ _ R Hs) as (e & _ & IR). rewrite (row_parent _ _ _ _ _ IR). exact Hp.
Qed.
End Grid.
