(** Lemmas on the cell lookup. *)
From Coq Require Import List ZArith QArith Bool Lia Lqa.
From Verif Require Import Base BaseProofs Glm AccumProofs Poly PolySpec PolyProofs PropPoly BBox BBoxSpec.
Import ListNotations.
Open Scope Z_scope.

Lemma qle_iff : forall a b, qle a b = true <-> (a <= b)%Q.
Proof. intros. apply Qle_bool_iff. Qed.

(** A predicate that holds on a prefix: counting finds its end. *)
Lemma count_prefix : forall (p : Q -> bool) e,
  (forall i j, (i < j < List.length e)%nat -> p (edge e j) = true -> p (edge e i) = true) ->
  forall k, (k < List.length e)%nat -> (p (edge e k) = true <-> Z.of_nat k < count p e).
Proof.
  intros p e. unfold count, edge. induction e as [|a e IH]; intros H k Hk; [simpl in Hk; lia|].
  assert (IH' : forall k, (k < List.length e)%nat -> (p (nth k e 0%Q) = true <-> Z.of_nat k < Z.of_nat (List.length (filter p e)))).
  { apply IH. intros i j Hij Hp. apply (H (S i) (S j)); simpl; [lia|exact Hp]. }
  simpl filter. destruct (p a) eqn:E.
  - destruct k as [|k]; simpl nth; [split; intros; [simpl; lia|exact E]|]. simpl in Hk. rewrite IH' by lia. simpl List.length. lia.
  - assert (filter p e = []) as ->.
    { apply filter_none. intros x Hx. destruct (p x) eqn:Ex; [|reflexivity]. exfalso.
      apply (In_nth _ _ 0%Q) in Hx. destruct Hx as (j & Hj & <-).
      assert (K : p (nth 0 (a :: e) 0%Q) = true) by (apply (H 0%nat (S j)); [simpl; lia|exact Ex]). simpl in K. congruence. }
    simpl List.length. split; [|lia]. intros K. destruct k as [|k]; [simpl in K; congruence|].
    assert (K2 : p (nth 0 (a :: e) 0%Q) = true) by (apply (H 0%nat (S k)); [simpl in *; lia|exact K]). simpl in K2. congruence.
Qed.
Lemma filter_length_le : forall A (p : A -> bool) l, (List.length (filter p l) <= List.length l)%nat.
Proof. induction l as [|a l IH]; simpl; [lia|]. destruct (p a); simpl; lia. Qed.
Lemma count_bounds : forall (p : Q -> bool) e, 0 <= count p e <= Z.of_nat (List.length e).
Proof. intros. unfold count. pose proof (filter_length_le _ p e). lia. Qed.

Lemma monotone_incr : forall e, increasing e -> monotone qle e = true.
Proof.
  induction e as [|a e IH]; intros H; [reflexivity|]. destruct e as [|b e]; [reflexivity|].
  cbn [monotone]. apply andb_true_iff. split.
  - apply qle_iff. apply Qlt_le_weak. apply (H 0%nat 1%nat). simpl; lia.
  - apply IH. intros i j Hij. apply (H (S i) (S j)). simpl in *; lia.
Qed.
Lemma monotone_decr : forall e, decreasing e -> (1 < List.length e)%nat -> monotone qle e = false /\ monotone (fun a b => qle b a) e = true.
Proof.
  intros e H L. split.
  - destruct e as [|a [|b e]]; simpl in L; try lia. cbn [monotone]. apply andb_false_iff. left.
    destruct (qle a b) eqn:E; [|reflexivity]. apply qle_iff in E. exfalso. pose proof (H 0%nat 1%nat ltac:(simpl; lia)) as K.
    unfold edge in K. simpl in K. apply (Qlt_not_le _ _ K E).
  - clear L. induction e as [|a e IH]; [reflexivity|]. destruct e as [|b e]; [reflexivity|].
    cbn [monotone]. apply andb_true_iff. split.
    + apply qle_iff. apply Qlt_le_weak. apply (H 0%nat 1%nat). simpl; lia.
    + apply IH. intros i j Hij. apply (H (S i) (S j)). simpl in *; lia.
Qed.
Lemma digitize_incr : forall e v, increasing e ->
  exists c, digitize e v = Ok c /\ 0 <= c <= Z.of_nat (List.length e) /\
    forall k, (k < List.length e)%nat -> ((edge e k < v)%Q <-> Z.of_nat k < c).
Proof.
  intros e v H. unfold digitize. rewrite (monotone_incr e H). eexists. split; [reflexivity|]. split; [apply count_bounds|].
  intros k Hk. rewrite <- count_prefix; [rewrite Qlt_bool_iff; tauto| |exact Hk].
  intros i j Hij Hp. apply Qlt_bool_iff in Hp. apply Qlt_bool_iff. apply Qlt_trans with (edge e j); [apply H; auto|exact Hp].
Qed.
Lemma digitize_decr : forall e v, decreasing e -> (1 < List.length e)%nat ->
  exists c, digitize e v = Ok c /\ 0 <= c <= Z.of_nat (List.length e) /\
    forall k, (k < List.length e)%nat -> ((v <= edge e k)%Q <-> Z.of_nat k < c).
Proof.
  intros e v H L. unfold digitize. destruct (monotone_decr e H L) as [-> ->]. eexists. split; [reflexivity|]. split; [apply count_bounds|].
  intros k Hk. rewrite <- count_prefix; [rewrite qle_iff; tauto| |exact Hk].
  intros i j Hij Hp. apply qle_iff in Hp. apply qle_iff. apply Qle_trans with (edge e j); [exact Hp|apply Qlt_le_weak, H; auto].
Qed.

(** * Ranges *)
Lemma range_in : forall a b k, In k (range a b) <-> a <= k < b.
Proof.
  intros a b k. unfold range. rewrite in_map_iff. split.
  - intros (i & <- & Hi). apply in_seq in Hi. lia.
  - intros H. exists (Z.to_nat (k - a)). split; [lia|]. apply in_seq. lia.
Qed.
Lemma range_nodup : forall a b, NoDup (range a b).
Proof.
  intros. unfold range. apply FinFun.Injective_map_NoDup; [intros x y H; lia|apply seq_NoDup].
Qed.
Lemma nodup_prod : forall A B (a : list A) (b : list B), NoDup a -> NoDup b -> NoDup (list_prod a b).
Proof.
  induction a as [|x a IH]; intros b Ha Hb; [constructor|]. inversion Ha; subst. cbn [list_prod]. apply nodup_app.
  - apply FinFun.Injective_map_NoDup; [intros u v E; inversion E; reflexivity|exact Hb].
  - apply IH; auto.
  - intros [u v] H0 K. apply in_map_iff in H0. destruct H0 as (w & E & _). inversion E; subst. apply in_prod_iff in K. tauto.
Qed.
Lemma axis_range_bounds : forall e lim pad a b, axis_range e lim pad = Ok (Some (a, b)) ->
  0 <= a /\ b <= Z.of_nat (List.length e) - 1.
Proof.
  intros e lim pad a b H. unfold axis_range in H. apply bind_ok_inv in H. destruct H as [i0 [_ H]].
  apply bind_ok_inv in H. destruct H as [i1 [_ H]]. cbv zeta in H.
  destruct (filter _ _); [discriminate|]. inversion H; subst. lia.
Qed.
Lemma filter2 : forall (p : Z -> bool) a b, filter p [a; b] =
  (if p a then [a] else []) ++ (if p b then [b] else []).
Proof. intros. simpl. destruct (p a), (p b); reflexivity. Qed.
Lemma axis_range_both : forall e lim pad c0 c1, digitize e (fst lim) = Ok c0 -> digitize e (snd lim) = Ok c1 ->
  1 <= c0 < Z.of_nat (List.length e) -> 1 <= c1 < Z.of_nat (List.length e) ->
  axis_range e lim pad = Ok (Some (Z.max (Z.min (c0 - 1) (c1 - 1) - pad) 0,
                                   Z.min (Z.max (c0 - 1) (c1 - 1) + 1 + pad) (Z.of_nat (List.length e) - 1))).
Proof.
  intros e lim pad c0 c1 E0 E1 H0 H1. unfold axis_range. rewrite E0, E1. cbn [bind]. rewrite filter2.
  assert (V : forall c, 1 <= c < Z.of_nat (List.length e) -> ((0 <=? c - 1) && (c - 1 <? Z.of_nat (List.length e) - 1)) = true).
  { intros c Hc. apply andb_true_iff. split; [apply Z.leb_le|apply Z.ltb_lt]; lia. }
  rewrite (V c0 H0), (V c1 H1). cbn [app fold_left]. do 3 f_equal; f_equal; lia.
Qed.

(** The indices found for the two limits of an interval inside the mesh. *)
Lemma inside_axis : forall e a b pad, (1 < List.length e)%nat -> (a <= b)%Q -> inside e a b -> 
  exists lo hi, 0 <= lo <= hi /\ hi < Z.of_nat (List.length e) - 1 /\
    axis_range e (a, b) pad = Ok (Some (Z.max (lo - pad) 0, Z.min (hi + 1 + pad) (Z.of_nat (List.length e) - 1))) /\
    (forall k, meets e k a b -> lo - 1 <= Z.of_nat k <= hi + 1) /\
    meets e (Z.to_nat lo) a b /\ meets e (Z.to_nat hi) a b /\
    ((increasing e /\ (edge e (Z.to_nat lo) < a <= edge e (S (Z.to_nat lo)))%Q /\ (edge e (Z.to_nat hi) < b <= edge e (S (Z.to_nat hi)))%Q) \/
     (decreasing e /\ (edge e (S (Z.to_nat lo)) < b <= edge e (Z.to_nat lo))%Q /\ (edge e (S (Z.to_nat hi)) < a <= edge e (Z.to_nat hi))%Q)).
Proof.
  intros e a b pad L Hab [(M & Ha & Hb)|(M & Ha & Hb)].
  - destruct (digitize_incr e a M) as (c0 & E0 & B0 & C0). destruct (digitize_incr e b M) as (c1 & E1 & B1 & C1).
    assert (P0 : 1 <= c0) by (pose proof (proj1 (C0 0%nat ltac:(lia)) Ha); lia).
    assert (P1 : 1 <= c1) by (pose proof (proj1 (C1 0%nat ltac:(lia)) (Qlt_le_trans _ _ _ Ha Hab)); lia).
    assert (R1 : c1 < Z.of_nat (List.length e)).
    { destruct (Z_lt_le_dec (Z.of_nat (List.length e - 1)) c1) as [K|K]; [|lia].
      apply (C1 (List.length e - 1)%nat ltac:(lia)) in K. exfalso. apply (Qlt_not_le _ _ K Hb). }
    assert (R : c0 <= c1).
    { destruct (Z_le_gt_dec c0 c1) as [K|K]; [exact K|]. exfalso.
      assert (K1 : (edge e (Z.to_nat c1) < a)%Q) by (apply C0; lia).
      assert (K2 : ~ (edge e (Z.to_nat c1) < b)%Q) by (rewrite (C1 (Z.to_nat c1)) by lia; lia).
      apply K2. apply Qlt_le_trans with a; auto. }
    exists (c0 - 1), (c1 - 1). split; [lia|]. split; [lia|].
    assert (X0 : (edge e (Z.to_nat (c0 - 1)) < a <= edge e (S (Z.to_nat (c0 - 1))))%Q).
    { split; [apply C0; lia|]. apply Qnot_lt_le. rewrite C0 by lia. lia. }
    assert (X1 : (edge e (Z.to_nat (c1 - 1)) < b <= edge e (S (Z.to_nat (c1 - 1))))%Q).
    { split; [apply C1; lia|]. apply Qnot_lt_le. rewrite C1 by lia. lia. }
    split; [|split; [|split; [|split]]].
    + rewrite (axis_range_both e (a, b) pad c0 c1 E0 E1) by lia. do 3 f_equal; f_equal; lia.
    + intros k (Hk & v & Hv & HM).
      assert (Hk' : (edge e k < edge e (S k))%Q) by (apply M; lia).
      destruct HM as [HM|HM]; [|exfalso; apply (Qlt_not_le _ _ Hk'); apply Qle_trans with v; apply HM].
      assert (K0 : ~ (edge e (S k) < a)%Q) by (apply Qle_not_lt; apply Qle_trans with v; [apply Hv|apply HM]).
      assert (K1 : (edge e k <= b)%Q) by (apply Qle_trans with v; [apply HM|apply Hv]).
      rewrite C0 in K0 by lia. split; [lia|].
      destruct (Z_le_gt_dec (Z.of_nat k) c1) as [K|K]; [lia|]. exfalso.
      assert (K2 : (edge e (S (Z.to_nat (c1 - 1))) < edge e k)%Q) by (apply M; lia).
      apply (Qlt_not_le _ _ K2). apply Qle_trans with b; [exact K1|apply X1].
    + split; [lia|]. exists a. split; [split; [apply Qle_refl|exact Hab]|]. left. split; [apply Qlt_le_weak|]; apply X0.
    + split; [lia|]. exists b. split; [split; [exact Hab|apply Qle_refl]|]. left. split; [apply Qlt_le_weak|]; apply X1.
    + left. auto.
  - destruct (digitize_decr e a M L) as (c0 & E0 & B0 & C0). destruct (digitize_decr e b M L) as (c1 & E1 & B1 & C1).
    assert (P1 : 1 <= c1) by (pose proof (proj1 (C1 0%nat ltac:(lia)) Hb); lia).
    assert (R0 : c0 < Z.of_nat (List.length e)).
    { destruct (Z_lt_le_dec (Z.of_nat (List.length e - 1)) c0) as [K|K]; [|lia].
      apply (C0 (List.length e - 1)%nat ltac:(lia)) in K. exfalso. apply (Qlt_not_le _ _ Ha K). }
    assert (R : c1 <= c0).
    { destruct (Z_le_gt_dec c1 c0) as [K|K]; [exact K|]. exfalso.
      assert (K1 : (b <= edge e (Z.to_nat c0))%Q) by (apply C1; lia).
      assert (K2 : ~ (a <= edge e (Z.to_nat c0))%Q) by (rewrite (C0 (Z.to_nat c0)) by lia; lia).
      apply K2. apply Qle_trans with b; auto. }
    exists (c1 - 1), (c0 - 1). split; [lia|]. split; [lia|].
    assert (X1 : (edge e (S (Z.to_nat (c1 - 1))) < b <= edge e (Z.to_nat (c1 - 1)))%Q).
    { split; [|apply C1; lia]. apply Qnot_le_lt. rewrite C1 by lia. lia. }
    assert (X0 : (edge e (S (Z.to_nat (c0 - 1))) < a <= edge e (Z.to_nat (c0 - 1)))%Q).
    { split; [|apply C0; lia]. apply Qnot_le_lt. rewrite C0 by lia. lia. }
    split; [|split; [|split; [|split]]].
    + rewrite (axis_range_both e (a, b) pad c0 c1 E0 E1) by lia. do 3 f_equal; f_equal; lia.
    + intros k (Hk & v & Hv & HM).
      assert (Hk' : (edge e (S k) < edge e k)%Q) by (apply M; lia).
      destruct HM as [HM|HM]; [exfalso; apply (Qlt_not_le _ _ Hk'); apply Qle_trans with v; apply HM|].
      assert (K0 : (a <= edge e k)%Q) by (apply Qle_trans with v; [apply Hv|apply HM]).
      assert (K1 : (edge e (S k) <= b)%Q) by (apply Qle_trans with v; [apply HM|apply Hv]).
      rewrite C0 in K0 by lia. split; [|lia].
      destruct (Z_le_gt_dec (c1 - 2) (Z.of_nat k)) as [K|K]; [lia|]. exfalso.
      assert (K2 : (edge e (Z.to_nat (c1 - 1)) < edge e (S k))%Q) by (apply M; lia).
      apply (Qlt_not_le _ _ K2). apply Qle_trans with b; [exact K1|apply X1].
    + split; [lia|]. exists b. split; [split; [exact Hab|apply Qle_refl]|]. right. split; [apply Qlt_le_weak|]; apply X1.
    + split; [lia|]. exists a. split; [split; [apply Qle_refl|exact Hab]|]. right. split; [apply Qlt_le_weak|]; apply X0.
    + right. auto.
Qed.

(** * Detection of the orientation of a regular mesh *)
Lemma col0_meshgrid : forall xs ys, col0 (meshgrid_x xs ys) = map (fun _ => hd 0%Q xs) ys.
Proof. intros. unfold col0, meshgrid_x. rewrite map_map. reflexivity. Qed.
Lemma qsum_const : forall A (l : list A) c, (qsum (map (fun _ => c) l) == inject_Z (Z.of_nat (List.length l)) * c)%Q.
Proof.
  induction l as [|a l IH]; intros c; [simpl; reflexivity|]. cbn [map qsum fold_right]. unfold qsum in IH. rewrite IH.
  cbn [List.length]. rewrite Nat2Z.inj_succ, <- Z.add_1_l, inject_Z_plus. ring.
Qed.
Lemma detect_xy : forall xs ys, ys <> [] -> x_along_dim1 (regular_xy xs ys) = true.
Proof.
  intros xs ys H. unfold x_along_dim1, regular_xy. cbn [me_x]. rewrite col0_meshgrid. cbv zeta. apply forallb_forall.
  intros v Hv. apply in_map_iff in Hv. destruct Hv as (y & <- & _).
  assert (E : (qmean (map (fun _ : Q => hd 0%Q xs) ys) - hd 0%Q xs == 0)%Q).
  { unfold qmean. rewrite qsum_const, map_length. field. intros K. destruct ys as [|y0 ys]; [congruence|].
    unfold Qeq in K. simpl in K. lia. }
  apply andb_true_iff. split; apply qle_iff; rewrite E; discriminate.
Qed.
Lemma edges_xy : forall xs ys, xs <> [] -> ys <> [] ->
  x_edge1d (regular_xy xs ys) = xs /\ y_edge1d (regular_xy xs ys) = ys.
Proof.
  intros xs ys Hx Hy. unfold x_edge1d, y_edge1d. rewrite (detect_xy xs ys Hy). split.
  - unfold regular_xy, row0, meshgrid_x. cbn [me_x]. destruct ys; [congruence|reflexivity].
  - unfold regular_xy, col0, meshgrid_y. cbn [me_y]. rewrite map_map. destruct xs as [|x xs]; [congruence|]. cbn [map hd]. apply map_id.
Qed.
Lemma detect_ij : forall xs ys, ys <> [] -> spread xs -> x_along_dim1 (regular_ij xs ys) = false.
Proof.
  intros xs ys Hy (u & v & Hu & Hv & Huv). unfold x_along_dim1, regular_ij. cbn [me_x].
  assert (C : col0 (meshgrid_ij_x xs ys) = xs).
  { unfold col0, meshgrid_ij_x. rewrite map_map. destruct ys; [congruence|]. cbn [map hd]. apply map_id. }
  rewrite C. cbv zeta. destruct (forallb _ xs) eqn:E; [|reflexivity]. exfalso. rewrite forallb_forall in E.
  pose proof (E u Hu) as E1. pose proof (E v Hv) as E2. apply andb_true_iff in E1, E2. rewrite !qle_iff in E1, E2. lra.
Qed.
Lemma edges_ij : forall xs ys, xs <> [] -> ys <> [] -> spread xs ->
  x_edge1d (regular_ij xs ys) = xs /\ y_edge1d (regular_ij xs ys) = ys.
Proof.
  intros xs ys Hx Hy Hs. unfold x_edge1d, y_edge1d. rewrite (detect_ij xs ys Hy Hs). split.
  - unfold regular_ij, col0, meshgrid_ij_x. cbn [me_x]. rewrite map_map. destruct ys; [congruence|]. cbn [map hd]. apply map_id.
  - unfold regular_ij, row0, meshgrid_ij_y. cbn [me_y]. destruct xs; [congruence|reflexivity].
Qed.

(** * The brute-force search *)
Lemma where_row_in : forall mask i j p, In p (where_row i j mask) <->
  exists k, fst p = i /\ snd p = j + Z.of_nat k /\ nth_error mask k = Some true.
Proof.
  induction mask as [|b mask IH]; intros i j p; cbn [where_row].
  - split; [intros []|]. intros (k & _ & _ & H). destruct k; discriminate.
  - rewrite in_app_iff, IH. split.
    + intros [H|(k & H1 & H2 & H3)].
      * destruct b; [|destruct H]. destruct H as [<-|[]]. exists 0%nat. simpl. split; [auto|]. split; [lia|auto].
      * exists (S k). split; [auto|]. split; [lia|auto].
    + intros (k & H1 & H2 & H3). destruct k as [|k].
      * left. cbn [nth_error] in H3. inversion H3; subst b. left. destruct p; simpl in *. subst. f_equal. lia.
      * right. exists k. split; [auto|]. split; [lia|auto].
Qed.
Lemma where_in : forall mask i p, In p (where_ i mask) <->
  exists k l, fst p = i + Z.of_nat k /\ snd p = Z.of_nat l /\ at2 mask k l = Some true.
Proof.
  induction mask as [|r mask IH]; intros i p; cbn [where_].
  - split; [intros []|]. intros (k & l & _ & _ & H). unfold at2 in H. destruct k; discriminate.
  - rewrite in_app_iff, IH, where_row_in. split.
    + intros [(l & H1 & H2 & H3)|(k & l & H1 & H2 & H3)].
      * exists 0%nat, l. split; [simpl; lia|]. split; [lia|exact H3].
      * exists (S k), l. split; [lia|]. split; [auto|exact H3].
    + intros (k & l & H1 & H2 & H3). destruct k as [|k].
      * left. exists l. split; [simpl in H1; lia|]. split; [lia|exact H3].
      * right. exists k, l. split; [lia|]. split; [auto|exact H3].
Qed.
Lemma where_nodup : forall mask i, NoDup (where_ i mask).
Proof.
  assert (R : forall mask i j, NoDup (where_row i j mask)).
  { induction mask as [|b mask IH]; intros i j; cbn [where_row]; [constructor|]. destruct b; [|apply IH]. cbn [app].
    constructor; [|apply IH]. rewrite where_row_in. cbn [fst snd]. intros (k & _ & H & _). lia. }
  induction mask as [|r mask IH]; intros i; cbn [where_]; [constructor|]. apply nodup_app; [apply R|apply IH|].
  intros p H1 H2. apply where_row_in in H1. apply where_in in H2. destruct H1 as (k & H1 & _). destruct H2 as (k' & l & H2 & _). lia.
Qed.
Lemma at2_map : forall A B (f : A -> B) a i j, at2 (map (map f) a) i j = option_map f (at2 a i j).
Proof.
  intros. unfold at2. rewrite nth_error_map. destruct (nth_error a i) as [r|]; [|reflexivity]. cbn. apply nth_error_map.
Qed.
Lemma at2_some_bounds : forall A m n (a : arr A) i j x, shape m n a -> at2 a i j = Some x -> (i < m)%nat /\ (j < n)%nat.
Proof.
  intros A m n a i j x H E. apply shape_iff in H. destruct H as [H1 H2]. unfold at2 in E. destruct (nth_error a i) as [r|] eqn:R; [|discriminate].
  split; [rewrite <- H1; apply nth_error_Some; congruence|]. rewrite <- (H2 _ _ R). apply nth_error_Some. congruence.
Qed.
