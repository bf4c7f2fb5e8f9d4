(** Lemmas about the shared vocabulary of Base.v. *)
From Coq Require Import List ZArith QArith Bool String Lia Sorting.Sorted Permutation.
From Verif Require Import Base.
Import ListNotations.
Open Scope Z_scope.

Lemma fold_res_app : forall A S (f : S -> A -> res S) l1 l2 s,
  fold_res f (l1 ++ l2) s = bind (fold_res f l1 s) (fun s' => fold_res f l2 s').
Proof.
  induction l1 as [|a l1 IH]; intros l2 s; simpl; auto.
  destruct (f s a); simpl; auto.
Qed.

Lemma bind_ok_inv : forall A B (r : res A) (f : A -> res B) b,
  bind r f = Ok b -> exists a, r = Ok a /\ f a = Ok b.
Proof. intros A B [a|e] f b H; simpl in H; [eauto|discriminate]. Qed.

(** * gather *)
Lemma gather_app : forall A (l : list A) i j,
  gather l (i ++ j) = (a <- gather l i ;; b <- gather l j ;; Ok (a ++ b)).
Proof.
  induction i as [|k i IH]; intros j; simpl.
  - destruct (gather l j); auto.
  - destruct (nth_error l k); simpl; auto. rewrite IH.
    destruct (gather l i); simpl; auto. destruct (gather l j); auto.
Qed.

Lemma positions_shift : forall vals n k, positions (S n) k vals = map S (positions n k vals).
Proof.
  induction vals as [|v vals IH]; intros n k; simpl; auto.
  destruct (v =? k); simpl; rewrite IH; auto.
Qed.

Lemma gather_positions_gen : forall A (f : A -> Z) k T pre,
  gather (pre ++ T) (positions (List.length pre) k (map f T))
  = Ok (filter (fun r => f r =? k) T).
Proof.
  induction T as [|r T IH]; intros pre; simpl; auto.
  assert (E : pre ++ r :: T = (pre ++ [r]) ++ T) by (rewrite <- app_assoc; reflexivity).
  assert (L : S (List.length pre) = List.length (pre ++ [r]))
    by (rewrite app_length; simpl; lia).
  destruct (f r =? k).
  - simpl. rewrite nth_error_app2 by lia. rewrite Nat.sub_diag. simpl.
    rewrite E, L, IH. reflexivity.
  - rewrite E, L. apply IH.
Qed.

Lemma gather_positions : forall A (f : A -> Z) k T,
  gather T (positions 0 k (map f T)) = Ok (filter (fun r => f r =? k) T).
Proof. intros. exact (gather_positions_gen A f k T []). Qed.

Lemma groups_get_chain1 : forall vals k,
  match groups_get vals k with Some l => l | None => [] end = positions 0 k vals.
Proof. intros. unfold groups_get. destruct (positions 0 k vals); auto. Qed.

Lemma gather_chain : forall A (f : A -> Z) T keys,
  gather T (groups_chain (map f T) keys)
  = Ok (flat_map (fun k => filter (fun r => f r =? k) T) keys).
Proof.
  unfold groups_chain.
  induction keys as [|k keys IH]; [reflexivity|]. cbn [flat_map].
  rewrite groups_get_chain1, gather_app, gather_positions, IH. reflexivity.
Qed.

Lemma positions_length : forall A (f : A -> Z) k T n,
  List.length (positions n k (map f T)) = List.length (filter (fun r => f r =? k) T).
Proof.
  induction T as [|r T IH]; intros n; simpl; auto.
  destruct (f r =? k); simpl; rewrite IH; auto.
Qed.

Lemma groups_get_count : forall A (f : A -> Z) k T,
  match groups_get (map f T) k with Some l => List.length l | None => 0%nat end
  = List.length (filter (fun r => f r =? k) T).
Proof.
  intros. rewrite <- (positions_length A f k T 0). unfold groups_get.
  destruct (positions 0 k (map f T)); auto.
Qed.

Lemma groups_get_some : forall A (f : A -> Z) k T l,
  groups_get (map f T) k = Some l ->
  l = positions 0 k (map f T) /\ In k (map f T).
Proof.
  intros A f k T l H. unfold groups_get in H.
  destruct (positions 0 k (map f T)) eqn:E; inversion H; subst. split; auto.
  assert (G := gather_positions A f k T). rewrite E in G. simpl in G.
  destruct (nth_error T n) as [r|] eqn:N; [|discriminate].
  destruct (gather T l0); simpl in G; [|discriminate]. inversion G as [G'].
  assert (In r (filter (fun r => f r =? k) T)) by (rewrite <- G'; left; auto).
  apply filter_In in H0. destruct H0 as [H0 H1]. apply Z.eqb_eq in H1.
  subst. apply in_map; auto.
Qed.

Lemma groups_get_none : forall A (f : A -> Z) k T,
  groups_get (map f T) k = None <-> ~ In k (map f T).
Proof.
  intros. split.
  - intros H Hin. unfold groups_get in H.
    assert (L := positions_length A f k T 0).
    destruct (positions 0 k (map f T)); [|discriminate]. simpl in L.
    apply in_map_iff in Hin. destruct Hin as [r [E Hr]].
    assert (In r (filter (fun r => f r =? k) T)).
    { apply filter_In. split; auto. apply Z.eqb_eq; auto. }
    destruct (filter (fun r => f r =? k) T); simpl in *; [tauto|lia].
  - intros H. destruct (groups_get (map f T) k) eqn:E; auto.
    apply groups_get_some in E. tauto.
Qed.

(** * set_nth *)
Lemma set_nth_app : forall A (pre : list A) x y post,
  set_nth (List.length pre) y (pre ++ x :: post) = pre ++ y :: post.
Proof. induction pre; intros; simpl; auto. rewrite IHpre; auto. Qed.

Lemma set_nth_length : forall A k (a : A) l, List.length (set_nth k a l) = List.length l.
Proof. induction k; destruct l; simpl; auto. Qed.

Lemma nth_error_set_nth : forall A k (a : A) l j,
  nth_error (set_nth k a l) j =
  if (Nat.eqb j k && Nat.ltb k (List.length l))%bool then Some a else nth_error l j.
Proof.
  induction k; destruct l; intros j; simpl.
  - destruct j; auto.
  - destruct j; simpl; auto.
  - destruct j; simpl; auto. rewrite andb_false_r. auto.
  - destruct j; simpl; auto. rewrite IHk.
    change (Nat.ltb (S k) (S (List.length l))) with (Nat.ltb k (List.length l)). auto.
Qed.

Lemma nth_error_middle : forall A (pre : list A) x post,
  nth_error (pre ++ x :: post) (List.length pre) = Some x.
Proof. intros. rewrite nth_error_app2 by lia. rewrite Nat.sub_diag. auto. Qed.

(** * zunique *)
Lemma zinsert_in : forall x y l, In y (zinsert x l) <-> y = x \/ In y l.
Proof.
  induction l as [|z l IH]; simpl; [intuition|].
  destruct (x <? z) eqn:E1; [simpl; intuition|].
  destruct (x =? z) eqn:E2; simpl; [apply Z.eqb_eq in E2; subst; intuition|].
  rewrite IH. intuition.
Qed.

Lemma zinsert_sorted : forall x l, StronglySorted Z.lt l -> StronglySorted Z.lt (zinsert x l).
Proof.
  induction l as [|z l IH]; intros H; simpl.
  - repeat constructor.
  - inversion H; subst. destruct (x <? z) eqn:E1.
    + apply Z.ltb_lt in E1. constructor; auto. constructor; auto.
      rewrite Forall_forall in *. intros y Hy. specialize (H3 y Hy). lia.
    + destruct (x =? z) eqn:E2; auto. apply Z.ltb_ge in E1. apply Z.eqb_neq in E2.
      constructor; auto. rewrite Forall_forall in *. intros y Hy.
      apply zinsert_in in Hy. destruct Hy; [subst; lia|auto].
Qed.

Lemma zunique_sorted : forall l, StronglySorted Z.lt (zunique l).
Proof. induction l; simpl; [constructor|apply zinsert_sorted; auto]. Qed.

Lemma zunique_in : forall l y, In y (zunique l) <-> In y l.
Proof.
  induction l; intros y; simpl; [tauto|].
  change (fold_right zinsert [] l) with (zunique l).
  rewrite zinsert_in, IHl. intuition.
Qed.

Lemma sorted_lt_nodup : forall l, StronglySorted Z.lt l -> NoDup l.
Proof.
  induction l as [|x l IH]; intros H; [constructor|]. inversion H; subst.
  constructor; auto. intros Hin. rewrite Forall_forall in H3.
  specialize (H3 _ Hin). lia.
Qed.

Lemma zunique_nodup : forall l, NoDup (zunique l).
Proof. intros. apply sorted_lt_nodup, zunique_sorted. Qed.

Lemma sorted_ext : forall l1 l2,
  StronglySorted Z.lt l1 -> StronglySorted Z.lt l2 ->
  (forall x, In x l1 <-> In x l2) -> l1 = l2.
Proof.
  induction l1 as [|a l1 IH]; intros [|b l2] H1 H2 H; auto.
  - exfalso. apply (H b). left; auto.
  - exfalso. apply (H a). left; auto.
  - apply StronglySorted_inv in H1. destruct H1 as [S1 F1].
    apply StronglySorted_inv in H2. destruct H2 as [S2 F2].
    rewrite Forall_forall in *.
    assert (a = b).
    { destruct (proj1 (H a) (or_introl eq_refl)) as [|Ha]; auto.
      destruct (proj2 (H b) (or_introl eq_refl)) as [|Hb]; auto.
      specialize (F2 _ Ha). specialize (F1 _ Hb). lia. }
    subst b. f_equal. apply IH; auto. intros x. split; intros Hx.
    + destruct (proj1 (H x) (or_intror Hx)); auto. subst. specialize (F1 _ Hx). lia.
    + destruct (proj2 (H x) (or_intror Hx)); auto. subst. specialize (F2 _ Hx). lia.
Qed.

Lemma sorted_filter : forall p l, StronglySorted Z.lt l -> StronglySorted Z.lt (filter p l).
Proof.
  induction l as [|x l IH]; intros H; simpl; auto. inversion H; subst.
  destruct (p x); auto. constructor; auto. rewrite Forall_forall in *.
  intros y Hy. apply filter_In in Hy. apply H3; tauto.
Qed.

Lemma zmem_in : forall x l, zmem x l = true <-> In x l.
Proof.
  intros. unfold zmem. rewrite existsb_exists. split.
  - intros [y [Hy E]]. apply Z.eqb_eq in E. subst; auto.
  - intros H. exists x. split; auto. apply Z.eqb_refl.
Qed.

Lemma zmem_false : forall x l, zmem x l = false <-> ~ In x l.
Proof.
  intros. rewrite <- zmem_in. destruct (zmem x l); split; congruence.
Qed.

Lemma zset_inter_in : forall a b x, In x (zset_inter a b) <-> In x a /\ In x b.
Proof. intros. unfold zset_inter. rewrite filter_In, zmem_in. tauto. Qed.

Lemma zset_diff_in : forall a b x, In x (zset_diff a b) <-> In x a /\ ~ In x b.
Proof.
  intros. unfold zset_diff. rewrite filter_In, negb_true_iff, zmem_false. tauto.
Qed.

(** * flat_map and filter *)
Lemma filter_none : forall A (p : A -> bool) l,
  (forall x, In x l -> p x = false) -> filter p l = [].
Proof.
  induction l as [|x l IH]; intros H; simpl; auto.
  rewrite (H x) by (left; auto). apply IH. intros y Hy; apply H; right; auto.
Qed.

Lemma filter_all : forall A (p : A -> bool) l,
  (forall x, In x l -> p x = true) -> filter p l = l.
Proof.
  induction l as [|x l IH]; intros H; simpl; auto.
  rewrite (H x) by (left; auto). f_equal. apply IH. intros y Hy; apply H; right; auto.
Qed.

Lemma filter_flat_map : forall A B (p : B -> bool) (f : A -> list B) l,
  filter p (flat_map f l) = flat_map (fun a => filter p (f a)) l.
Proof.
  induction l as [|x l IH]; simpl; auto. rewrite filter_app, IH. auto.
Qed.

Lemma flat_map_ext_in : forall A B (f g : A -> list B) l,
  (forall x, In x l -> f x = g x) -> flat_map f l = flat_map g l.
Proof.
  induction l as [|x l IH]; intros H; simpl; auto.
  rewrite (H x) by (left; auto). f_equal. apply IH. intros y Hy; apply H; right; auto.
Qed.

Lemma flat_map_nil : forall A B (f : A -> list B) l,
  (forall x, In x l -> f x = []) -> flat_map f l = [].
Proof.
  induction l as [|x l IH]; intros H; simpl; auto.
  rewrite (H x) by (left; auto). apply IH. intros y Hy; apply H; right; auto.
Qed.

Lemma flat_map_flat_map : forall A B C (f : A -> list B) (g : B -> list C) l,
  flat_map g (flat_map f l) = flat_map (fun a => flat_map g (f a)) l.
Proof. induction l; simpl; auto. rewrite flat_map_app, IHl. auto. Qed.

Lemma flat_map_map : forall A B C (f : A -> B) (g : B -> list C) l,
  flat_map g (map f l) = flat_map (fun a => g (f a)) l.
Proof. induction l; simpl; auto. rewrite IHl. auto. Qed.

Lemma map_flat_map : forall A B C (f : B -> C) (g : A -> list B) l,
  map f (flat_map g l) = flat_map (fun a => map f (g a)) l.
Proof. induction l; simpl; auto. rewrite map_app, IHl. auto. Qed.

(** Selecting key [k] among rows chained by key gives the rows of key [k]. *)
Lemma filter_key_chain : forall A (f : A -> Z) T keys k,
  NoDup keys -> In k keys ->
  filter (fun r => f r =? k) (flat_map (fun i => filter (fun r => f r =? i) T) keys)
  = filter (fun r => f r =? k) T.
Proof.
  induction keys as [|i keys IH]; intros k ND Hin; [destruct Hin|].
  inversion ND; subst. simpl. rewrite filter_app.
  destruct (Z.eq_dec i k) as [->|Hne].
  - rewrite (filter_all _ (fun r => f r =? k) (filter (fun r => f r =? k) T)).
    2:{ intros x Hx. apply filter_In in Hx. tauto. }
    rewrite filter_flat_map, flat_map_nil, app_nil_r; auto.
    intros j Hj. apply filter_none. intros x Hx. apply filter_In in Hx.
    destruct Hx as [_ Hx]. apply Z.eqb_eq in Hx. apply Z.eqb_neq. intros E.
    apply H1. replace k with j by congruence. auto.
  - destruct Hin as [->|Hin]; [tauto|]. rewrite (IH k H2 Hin).
    rewrite filter_none; auto. intros x Hx. apply filter_In in Hx.
    destruct Hx as [_ Hx]. apply Z.eqb_eq in Hx. apply Z.eqb_neq. congruence.
Qed.

Lemma filter_key_unique : forall A (f : A -> Z) T r,
  NoDup (map f T) -> In r T -> filter (fun x => f x =? f r) T = [r].
Proof.
  induction T as [|a T IH]; intros r ND Hin; [destruct Hin|].
  simpl in ND. inversion ND; subst. simpl. destruct Hin as [->|Hin].
  - rewrite Z.eqb_refl. f_equal. apply filter_none. intros x Hx.
    apply Z.eqb_neq. intros E. apply H1. simpl in E. rewrite <- E. apply in_map; auto.
  - destruct (f a =? f r) eqn:E.
    + apply Z.eqb_eq in E. exfalso. apply H1. rewrite E. apply in_map; auto.
    + apply IH; auto.
Qed.

Lemma nodup_map_inj_in : forall A B (f : A -> B) l x y,
  NoDup (map f l) -> In x l -> In y l -> f x = f y -> x = y.
Proof.
  induction l as [|a l IH]; intros x y ND Hx Hy E; [destruct Hx|].
  simpl in ND. inversion ND; subst. destruct Hx as [->|Hx], Hy as [->|Hy]; auto.
  - exfalso. apply H1. rewrite E. apply in_map; auto.
  - exfalso. apply H1. rewrite <- E. apply in_map; auto.
Qed.

Lemma nodup_map_filter : forall A B (f : A -> B) p l,
  NoDup (map f l) -> NoDup (map f (filter p l)).
Proof.
  induction l as [|a l IH]; intros ND; simpl; auto. simpl in ND. inversion ND; subst.
  destruct (p a); auto. simpl. constructor; auto. intros Hin. apply H1.
  apply in_map_iff in Hin. destruct Hin as [x [E Hx]]. rewrite <- E.
  apply in_map. apply filter_In in Hx. tauto.
Qed.

Lemma nodup_app : forall A (l1 l2 : list A),
  NoDup l1 -> NoDup l2 -> (forall x, In x l1 -> ~ In x l2) -> NoDup (l1 ++ l2).
Proof.
  induction l1 as [|a l1 IH]; intros l2 H1 H2 H; simpl; auto.
  inversion H1; subst. constructor.
  - rewrite in_app_iff. intros [Hi|Hi]; auto. apply (H a); auto. left; auto.
  - apply IH; auto. intros x Hx. apply H. right; auto.
Qed.

Lemma nodup_map_flat_map : forall A B C (f : B -> C) (g : A -> list B) l,
  NoDup l -> (forall a, In a l -> NoDup (map f (g a))) ->
  (forall a b x y, In a l -> In b l -> In x (g a) -> In y (g b) -> f x = f y -> a = b) ->
  NoDup (map f (flat_map g l)).
Proof.
  induction l as [|a l IH]; intros ND H1 H2; simpl; [constructor|].
  inversion ND; subst. rewrite map_app. apply nodup_app.
  - apply H1. left; auto.
  - apply IH; auto.
    + intros b Hb. apply H1. right; auto.
    + intros b c x y Hb Hc. apply H2; right; auto.
  - intros x Hx Hy. apply in_map_iff in Hx. destruct Hx as [u [Eu Hu]].
    apply in_map_iff in Hy. destruct Hy as [v [Ev Hv]]. apply in_flat_map in Hv.
    destruct Hv as [b [Hb Hv]]. assert (a = b).
    { apply (H2 a b u v); auto; [left; auto|right; auto|congruence]. }
    subst. tauto.
Qed.

Lemma nth_error_ext : forall A (l1 l2 : list A),
  (forall j, nth_error l1 j = nth_error l2 j) -> l1 = l2.
Proof.
  induction l1 as [|a l1 IH]; intros [|b l2] H; auto.
  - specialize (H 0%nat). discriminate.
  - specialize (H 0%nat). discriminate.
  - assert (H0 := H 0%nat). simpl in H0. inversion H0; subst. f_equal.
    apply IH. intros j. exact (H (S j)).
Qed.
