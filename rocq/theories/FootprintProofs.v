(** Lemmas on footprints split by a mesh. *)
From Coq Require Import List ZArith QArith Qabs Bool String Lia Lqa Sorted.
From Verif Require Import Base BaseProofs Traversal TraversalSpec TraversalProofs PropTraversal Glm GlmSpec GlmProofs3 Lut LutSpec Accum Poly PolySpec PolyProofs BBox BBoxSpec BBoxProofs
  PropBBox Slice SliceSpec SliceProofs PropSlice Points PointsSpec PointsProofs Footprint FootprintSpec.
Import ListNotations.
Open Scope Z_scope.

Local Notation tbl := (table obs).

Lemma NoDup_map_inj : forall A B (f : A -> B) l x y, NoDup (map f l) -> In x l -> In y l -> f x = f y -> x = y.
Proof.
  intros A B f. induction l as [|a l IH]; intros x y ND Hx Hy E; [destruct Hx|]. cbn in ND. inversion ND as [|? ? NI ND']; subst.
  destruct Hx as [<-|Hx], Hy as [<-|Hy]; auto; exfalso; apply NI; [rewrite E|rewrite <- E]; apply in_map; auto.
Qed.
Lemma choose_rows : forall (T : tbl) l, (forall i, In i l -> exists r, In r T /\ rid r = i) ->
  exists T', map rid T' = l /\ forall r, In r T' -> In r T.
Proof.
  induction l as [|i l IH]; intros H; [exists []; split; [reflexivity|intros r []]|].
  destruct IH as (T' & E & I); [intros j Hj; apply H; right; auto|]. destruct (H i (or_introl eq_refl)) as (r & Hr & Er).
  exists (r :: T'). split; [cbn; congruence|]. intros r' [<-|Hr']; auto.
Qed.
Lemma same_rows : forall (T U V : tbl), NoDup (map rid T) -> (forall r, In r U -> In r T) -> (forall r, In r V -> In r T) ->
  map rid U = map rid V -> U = V.
Proof.
  intros T U V ND. revert V. induction U as [|u U IH]; intros [|v V] HU HV E; try discriminate; [reflexivity|].
  cbn in E. injection E as E1 E2. f_equal; [|apply IH; auto; intros; [apply HU|apply HV]; right; auto].
  apply (NoDup_map_inj _ _ rid T); auto; [apply HU|apply HV]; left; auto.
Qed.

Lemma index_polygons : forall key outline (E : tbl) k,
  map snd (filter (fun e => fst e =? k) (combine (map key E) (map outline E))) = polygons_of key outline E k.
Proof.
  intros key outline E k. unfold polygons_of. induction E as [|e E IH]; [reflexivity|]. cbn [map combine filter fst].
  destruct (key e =? k); cbn [map snd]; rewrite IH; reflexivity.
Qed.
Lemma index_items : forall join key outline (T E : tbl), NoDup (map rid T) -> (forall e, In e E -> exists r, In r T /\ rid r = key e) ->
  exists items, footprints join key outline T E items /\ (forall it, In it items -> In (snd it) T) /\
    union_polys join (poly_index (map key E) (map outline E)) = map fst items /\
    union_ids join (poly_index (map key E) (map outline E)) = map (fun it => rid (snd it)) items /\
    forall it, In it items -> In (fst it) (join (polygons_of key outline E (rid (snd it)))).
Proof.
  intros join key outline T E ND H.
  destruct (choose_rows T (zunique (map key E))) as (T' & ET & IT).
  { intros i Hi. apply (proj1 (zunique_in _ _)) in Hi. apply in_map_iff in Hi. destruct Hi as (e & <- & He). destruct (H e He) as (r & Hr & Er). exists r. auto. }
  exists (flat_map (fun r => map (fun p => (p, r)) (join (polygons_of key outline E (rid r)))) T'). split; [|split; [|split; [|split]]].
  - exists T'. split; [rewrite ET; apply zunique_sorted|]. split; [|reflexivity]. intros r. split.
    + intros Hr. split; [auto|]. assert (In (rid r) (map key E)) as I by (apply (proj1 (zunique_in _ _)); rewrite <- ET; apply in_map; auto).
      apply in_map_iff in I. destruct I as (e & Ee & He). exists e. auto.
    + intros [Hr (e & He & Ee)]. assert (In (rid r) (zunique (map key E))) as I by (apply (proj2 (zunique_in _ _)); rewrite <- Ee; apply in_map; auto).
      rewrite <- ET in I. apply in_map_iff in I. destruct I as (r' & Er & Hr'). rewrite <- (NoDup_map_inj _ _ rid T r' r); auto.
  - intros it Hit. apply in_flat_map in Hit. destruct Hit as (r & Hr & Hp). apply in_map_iff in Hp. destruct Hp as (p & <- & _). auto.
  - unfold union_polys, poly_index. rewrite map_map, <- ET, map_map. clear. induction T' as [|r T' IH]; [reflexivity|].
    cbn [map List.concat flat_map]. rewrite map_app, <- IH. cbn [snd]. rewrite index_polygons, map_map. cbn [fst]. rewrite map_id. reflexivity.
  - unfold union_ids, poly_index. rewrite map_map, <- ET, map_map. clear. induction T' as [|r T' IH]; [reflexivity|].
    cbn [map List.concat flat_map]. rewrite map_app, <- IH. cbn [snd fst]. rewrite index_polygons, map_map. cbn [snd]. rewrite repeat_map_const. reflexivity.
  - intros it Hit. apply in_flat_map in Hit. destruct Hit as (r & Hr & Hp). apply in_map_iff in Hp. destruct Hp as (p & <- & Hp). exact Hp.
Qed.

Lemma share_abs : forall v a b, (0 <= a)%Q -> is_share v a b -> is_share (option_map Qabs v) a (Qabs b).
Proof.
  intros v a b Ha [H0 H1]. split.
  - intros K. rewrite H0; [reflexivity|]. destruct (Qlt_le_dec b 0) as [L|L]; [rewrite Qabs_neg in K by lra; lra|rewrite Qabs_pos in K by lra; lra].
  - intros K. destruct H1 as (x & -> & Ex); [intros Z; apply K; rewrite Z; reflexivity|]. cbn [option_map]. eexists. split; [reflexivity|]. rewrite Ex.
    unfold Qdiv. rewrite Qabs_Qmult, Qabs_Qinv. rewrite (Qabs_pos a) by lra. reflexivity.
Qed.

Lemma shard_ok : forall to_lonlat fixed m base time r p s e, is_row m p (rid r) s e ->
  is_shard to_lonlat fixed m base time r p e
    (let '(lon, lat) := centroid to_lonlat fixed s in
     mkShard (i4 (sp_parent s)) 0 lat lon (since base (time (rid r)))
       (fmul (o_energy (rdat r)) (sp_frac s)) (option_map Qabs (sp_mesh_frac s)) (i4 (sp_i s)) (i4 (sp_j s))).
Proof.
  intros tl fixed m base time r p s e R. destruct R as [R1 R2 R3 R4 R5 R6]. injection R2 as Ri Rj.
  destruct (centroid tl fixed s) as [lon lat] eqn:EC. constructor; cbn [k_id k_lon k_lat k_alt k_time k_power k_frac k_xi k_yi].
  - rewrite R1. apply wrap_low. lia.
  - exists (sp_x s), (sp_y s). split; [exact R3|]. split; [exact R4|]. rewrite <- EC. reflexivity.
  - reflexivity.
  - apply since_from.
  - exists (sp_frac s). split; [exact R5|]. apply is_product_fmul.
  - intros Hp. apply share_abs; [apply size_nonneg|auto].
  - rewrite Ri, Rj. split; apply wrap_low; lia.
Qed.

Lemma split_level_ok : forall clip tree to_lonlat fixed m M N b base time Fg Gg Eg tv k e T items r,
  mesh_ok tree m M N -> proper clip -> trav_init [Fg; Gg; Eg] entity_ids parent_ids = Ok tv -> Fg <> [] -> Gg <> [] -> Eg <> [] ->
  nth_error entity_ids k = Some e -> nth_error [Fg; Gg; Eg] k = Some T -> NoDup (map rid T) ->
  (forall it, In it items -> In (snd it) T) -> slice clip tree m (map fst items) b = Ok r ->
  exists l, split_level clip tree tv m b e k (map fst items) (map (fun it => rid (snd it)) items) = Ok l /\
    shards_of clip tree to_lonlat fixed m b base time items (fill_shards to_lonlat fixed base time l).
Proof.
  intros clip tree tl fixed m M N b base time Fg Gg Eg tv k e T items [chopped areas] MO PR HT nF nG nE He HTk ND HI ES.
  assert (NE : Forall (fun T : list (row obs) => T <> []) [Fg; Gg; Eg]) by (repeat constructor; auto).
  assert (NV : NoDup entity_ids) by (unfold entity_ids; repeat constructor; simpl; intuition discriminate).
  unfold split_level. rewrite ES. cbn [bind fst snd].
  destruct (split_data_ok _ _ _ _ _ _ _ _ _ (map (fun it => rid (snd it)) items) MO PR ES ltac:(rewrite !map_length; reflexivity)) as (blocks & EB & FB).
  rewrite EB. cbn [bind].
  assert (FB2 : Forall2 (fun it block => exists cells, looked_up tree m b (fst it) cells /\ Forall2 (is_row m (fst it) (rid (snd it))) block (cut clip m (fst it) cells)) items blocks).
  { clear - FB. revert blocks FB. induction items as [|it items IH]; intros blocks FB; cbn [map combine] in FB; inversion FB; subst; constructor; [|apply IH; auto].
    destruct H1 as (cells & L & _ & R). exists cells. auto. }
  set (want := List.concat (map2 (fun (it : poly * row obs) block => map (fun s : split => (s, snd it)) block) items blocks)).
  assert (W1 : map fst want = List.concat blocks /\ map (fun w => rid (snd w)) want = map sp_parent (List.concat blocks) /\ forall w, In w want -> In (snd w) T).
  { unfold want. clear - FB2 HI. induction FB2 as [|it block items blocks H FB2 IH]; [repeat split; auto; intros w []|]. cbn [map2 List.concat].
    destruct IH as (A & B & C); [intros; apply HI; right; auto|]. split; [rewrite map_app, A, map_map; cbn; rewrite map_id; reflexivity|].
    split. { rewrite !map_app, B, map_map. cbn [snd]. f_equal. destruct H as (cells & _ & R). pose proof (rows_parent _ _ _ _ _ R) as P.
      clear - P. induction P as [|s l E P IH]; [reflexivity|]. cbn [map]. rewrite IH, E. reflexivity. }
    intros w Hw. apply in_app_iff in Hw. destruct Hw as [Hw|Hw]; [|auto]. apply in_map_iff in Hw. destruct Hw as (s & <- & _). apply HI. left. auto. }
  destruct W1 as (W1 & W2 & W3).
  destruct (C04_prune_request_order [Fg; Gg; Eg] entity_ids parent_ids tv k e (map sp_parent (List.concat blocks)) T HT NV He NE HTk ND) as (ds & U & ER & EU & EI & HU).
  unfold replicate_level. rewrite ER. cbn [bind]. rewrite EU.
  assert (EI' : map rid U = map sp_parent (List.concat blocks)).
  { rewrite EI. apply filter_all. intros i Hi. rewrite <- W2 in Hi. apply in_map_iff in Hi. destruct Hi as (w & <- & Hw). apply existsb_exists. exists (snd w). split; auto. apply Z.eqb_refl. }
  assert (U = map snd want) as ->.
  { apply (same_rows T); auto; [intros r0 Hr0; apply in_map_iff in Hr0; destruct Hr0 as (w & <- & Hw); auto|]. rewrite EI', <- W2, map_map. reflexivity. }
  assert (LW : List.length (map snd want) = List.length (List.concat blocks)) by (rewrite <- W1, !map_length; reflexivity).
  rewrite LW, Nat.eqb_refl. eexists. split; [reflexivity|].
  assert (EC : combine (List.concat blocks) (map snd want) = want).
  { rewrite <- W1. clear. induction want as [|[s r] w IH]; [reflexivity|]. cbn [map combine]. rewrite IH. reflexivity. }
  rewrite EC. unfold want. clear - FB2.
  exists (map2 (fun (it : poly * row obs) block => fill_shards tl fixed base time (map (fun s : split => (s, snd it)) block)) items blocks). split.
  - clear FB2. unfold fill_shards. revert blocks. induction items as [|it items IH]; intros [|block blocks]; try reflexivity. cbn [map2 List.concat]. rewrite map_app, IH. reflexivity.
  - induction FB2 as [|it block items blocks H FB2 IH]; [constructor|]. cbn [map2]. constructor; [|exact IH].
    destruct H as (cells & L & R). exists cells. split; [exact L|]. clear - R. unfold fill_shards. rewrite map_map.
    induction R as [|s e block l R1 R IH]; [constructor|]. cbn [map]. constructor; [|exact IH]. apply shard_ok. exact R1.
Qed.

(** * Energy *)
Lemma total_app : forall a b, (total (a ++ b) == total a + total b)%Q.
Proof. intros a b. unfold total, qsum. induction a as [|x a IH]; cbn [app map fold_right]; [ring|]. rewrite IH. ring. Qed.
Lemma block_energy : forall tl fixed m base time r p l block v, ~ (size p == 0)%Q -> o_energy (rdat r) = Some v ->
  Forall2 (is_shard tl fixed m base time r p) l block ->
  numbers (map k_power block) /\ (total (map k_power block) == v * (qsum (map (fun e => size (fst e)) l) / size p))%Q.
Proof.
  intros tl fixed m base time r p l block v Hp Hv H. induction H as [|e k l block S H [N T]].
  - split; [intros x []|]. unfold total, qsum. cbn. field. exact Hp.
  - destruct (sh_power _ _ _ _ _ _ _ _ _ S) as (sh & [_ H1] & P). destruct (H1 Hp) as (x & -> & Ex). rewrite Hv in P. cbn in P. destruct P as (y & Ey & Hy). split.
    + intros z [<-|Hz]; [congruence|auto].
    + change (map k_power (k :: block)) with ([k_power k] ++ map k_power block). rewrite total_app, T. unfold total at 1. cbn [map]. rewrite Ey. unfold qsum. cbn [map fold_right num].
      rewrite Hy, Ex. field. exact Hp.
Qed.
Lemma shard_id : forall tl fixed m base time r p e k, is_shard tl fixed m base time r p e k -> - 2 ^ 31 <= rid r < 2 ^ 31 -> k_id k = rid r.
Proof. intros tl fixed m base time r p e k S H. apply (low_bits_small 32 _ _ (sh_id _ _ _ _ _ _ _ _ _ S)); lia. Qed.

Lemma powers_app : forall i a b, powers_of i (a ++ b) = powers_of i a ++ powers_of i b.
Proof. intros. unfold powers_of. rewrite filter_app, map_app. reflexivity. Qed.
Lemma shards_energy : forall clip tree tl fixed m b base time items out r v, shards_of clip tree tl fixed m b base time items out ->
  (forall it, In it items -> - 2 ^ 31 <= rid (snd it) < 2 ^ 31) ->
  (forall it, In it items -> rid (snd it) = rid r -> snd it = r /\ ~ (size (fst it) == 0)%Q) -> o_energy (rdat r) = Some v ->
  exists shares, Forall2 (share_of clip tree m b) (map fst (filter (fun it => rid (snd it) =? rid r) items)) shares /\
    numbers (powers_of (rid r) out) /\ (total (powers_of (rid r) out) == v * qsum shares)%Q.
Proof.
  intros clip tree tl fixed m b base time items out r v (blocks & -> & FB) HR HI Hv.
  induction FB as [|it block items blocks (cells & L & R) FB IH].
  - exists []. split; [constructor|]. split; [intros x []|]. unfold total, qsum. cbn. ring.
  - destruct IH as (shares & A & B & C); [intros; apply HR; right; auto|intros; apply HI; [right|]; auto|]. cbn [List.concat filter map].
    rewrite powers_app. assert (HID : forall k, In k block -> k_id k = rid (snd it)).
    { intros k Hk. destruct (F2_in_r _ _ _ _ _ _ R Hk) as (e & _ & S). apply (shard_id _ _ _ _ _ _ _ _ _ S). apply HR. left. auto. }
    destruct (rid (snd it) =? rid r) eqn:EQ.
    + apply Z.eqb_eq in EQ. destruct (HI it (or_introl eq_refl) EQ) as [Er Hs]. assert (P : powers_of (rid r) block = map k_power block).
      { unfold powers_of. rewrite filter_all; [reflexivity|]. intros k Hk. apply Z.eqb_eq. rewrite <- EQ. auto. }
      rewrite P. rewrite Er in R. destruct (block_energy _ _ _ _ _ _ _ _ _ v Hs Hv R) as [N1 T1].
      exists ((qsum (map (fun e => size (fst e)) (cut clip m (fst it) cells)) / size (fst it))%Q :: shares). split; [|split].
      * cbn [map]. constructor; [|exact A]. exists cells. split; [exact L|reflexivity].
      * intros x Hx. apply in_app_iff in Hx. destruct Hx; auto.
      * rewrite total_app, T1, C. unfold qsum. cbn [fold_right]. ring.
    + apply Z.eqb_neq in EQ. assert (P : powers_of (rid r) block = []).
      { unfold powers_of. rewrite filter_none; [reflexivity|]. intros k Hk. apply Z.eqb_neq. rewrite (HID k Hk). exact EQ. }
      rewrite P. cbn [app]. exists shares. auto.
Qed.
Lemma footprint_parts : forall join key outline (T E : tbl) items r, NoDup (map rid T) -> footprints join key outline T E items -> In r T -> (exists e, In e E /\ key e = rid r) ->
  map fst (filter (fun it => rid (snd it) =? rid r) items) = join (polygons_of key outline E (rid r)).
Proof.
  intros join key outline T E items r ND (T' & S & IT & ->) Hr HE. assert (Hr' : In r T') by (apply IT; auto).
  assert (ND' : NoDup (map rid T')) by (apply sorted_lt_nodup; auto). clear - Hr' ND'.
  induction T' as [|a T' IH]; [destruct Hr'|]. cbn [flat_map]. rewrite filter_app, map_app. cbn in ND'. inversion ND' as [|? ? NI ND2]; subst. destruct Hr' as [->|Hr'].
  - rewrite filter_all by (intros it Hit; apply in_map_iff in Hit; destruct Hit as (p & <- & _); apply Z.eqb_refl). rewrite map_map. cbn [fst]. rewrite map_id.
    rewrite (filter_none _ _ (flat_map _ _)), app_nil_r; [reflexivity|]. intros it Hit. apply in_flat_map in Hit. destruct Hit as (q & Hq & Hp). apply in_map_iff in Hp. destruct Hp as (p & <- & _).
    apply Z.eqb_neq. cbn [snd]. intros K. apply NI. rewrite <- K. apply in_map. auto.
  - rewrite (filter_none _ _ (map _ _)); [cbn [map app]; apply IH; auto|]. intros it Hit. apply in_map_iff in Hit. destruct Hit as (p & <- & _). apply Z.eqb_neq. cbn [snd].
    intros K. apply NI. rewrite K. apply in_map. auto.
Qed.
