(** Sums along the sides of a polygon, and how they change when the polygon is cut. *)
From Coq Require Import List ZArith QArith Qabs Qfield Bool Lia Lqa.
From Verif Require Import Base Poly PolySpec PolyProofs BBox BBoxSpec SliceSpec Overlap.
Import ListNotations.
Open Scope Q_scope.

Definition on (t : Q) (a b e : pt) : Prop := fst e == fst a + t * (fst b - fst a) /\ snd e == snd a + t * (snd b - snd a).
Definition edgefun := pt -> pt -> Q.
Definition splits (n : edgefun) : Prop := forall a b e t, 0 <= t -> t <= 1 -> on t a b e -> n a b == n a e + n e b.
Definition vanishes (f : pt -> Q) (n : edgefun) : Prop := forall a b, f a == 0 -> f b == 0 -> n a b == 0.
Definition affine (f : pt -> Q) : Prop := forall a b e t, on t a b e -> f e == (1 - t) * f a + t * f b.

Fixpoint walk (n : edgefun) (l : poly) : Q :=
  match l with
  | a :: ((b :: _) as r) => n a b + walk n r
  | _ => 0
  end.
Definition closed (n : edgefun) (p : poly) : Q := match p with [] => 0 | a :: l => walk n (a :: l ++ [a]) end.
Lemma walk2 : forall n a b l, walk n (a :: b :: l) = n a b + walk n (b :: l).
Proof. reflexivity. Qed.
Lemma walk_ext : forall n n' l, (forall a b, n a b == n' a b) -> walk n l == walk n' l.
Proof.
  intros n n' l H. induction l as [|a [|b l] IH]; try reflexivity. rewrite !walk2, (H a b), IH. reflexivity.
Qed.
Lemma closed_ext : forall n n' p, (forall a b, n a b == n' a b) -> closed n p == closed n' p.
Proof. intros n n' [|a l] H; [reflexivity|]. apply walk_ext; auto. Qed.
Lemma walk_plus : forall n n' l, walk (fun a b => n a b + n' a b) l == walk n l + walk n' l.
Proof. intros n n' l. induction l as [|a [|b l] IH]; [cbn; ring|cbn; ring|]. rewrite !walk2, IH. ring. Qed.
Lemma closed_plus : forall n n' p, closed (fun a b => n a b + n' a b) p == closed n p + closed n' p.
Proof. intros n n' [|a l]; [cbn; ring|]. apply walk_plus. Qed.
Lemma walk_minus : forall n n' l, walk (fun a b => n a b - n' a b) l == walk n l - walk n' l.
Proof. intros n n' l. induction l as [|a [|b l] IH]; [cbn; ring|cbn; ring|]. rewrite !walk2, IH. ring. Qed.
Lemma closed_minus : forall n n' p, closed (fun a b => n a b - n' a b) p == closed n p - closed n' p.
Proof. intros n n' [|a l]; [cbn; ring|]. apply walk_minus. Qed.
Lemma last_cons' : forall A (b : A) l a, last (b :: l) a = last l b.
Proof. intros A b l. revert b. induction l as [|c l IH]; intros b a; [reflexivity|]. change (last (b :: c :: l) a) with (last (c :: l) a). rewrite !IH. reflexivity. Qed.
Lemma walk_tele : forall (u : pt -> Q) l a, walk (fun a b => u b - u a) (a :: l) == u (last l a) - u a.
Proof.
  intros u l. induction l as [|b l IH]; intros a; [cbn; ring|]. rewrite walk2, IH, last_cons'. ring.
Qed.
Lemma last_app1 : forall A (l : list A) a d, last (l ++ [a]) d = a.
Proof. intros A l a d. apply last_last. Qed.
Lemma closed_tele : forall n n' (u : pt -> Q) p, (forall a b, n a b == n' a b + (u b - u a)) -> closed n p == closed n' p.
Proof.
  intros n n' u [|a l] H; [reflexivity|]. unfold closed. rewrite (walk_ext n (fun a b => n' a b + (u b - u a)) _ H).
  rewrite (walk_plus n' (fun a b => u b - u a)). rewrite walk_tele, last_app1. ring.
Qed.
Lemma walk_zero : forall n l, (forall a b, In a l -> In b l -> n a b == 0) -> walk n l == 0.
Proof.
  intros n l. induction l as [|a [|b l] IH]; intros H; try reflexivity. rewrite walk2, (H a b) by (cbn; auto).
  rewrite IH by (intros; apply H; right; auto). reflexivity.
Qed.
Lemma closed_zero : forall n p, (forall a b, In a p -> In b p -> n a b == 0) -> closed n p == 0.
Proof.
  intros n [|a l] H; [reflexivity|]. apply walk_zero. change (a :: l ++ [a]) with ((a :: l) ++ [a]).
  intros x y Hx Hy. apply H; [apply in_app_iff in Hx as [X|[<-|[]]]|apply in_app_iff in Hy as [X|[<-|[]]]]; cbn; auto.
Qed.

(** * Cutting along a line *)
Lemma qle_t : forall x, 0 <= x -> Qle_bool 0 x = true.
Proof. intros. apply Qle_bool_iff. auto. Qed.
Lemma qle_f : forall x, x < 0 -> Qle_bool 0 x = false.
Proof. intros x H. destruct (Qle_bool 0 x) eqn:E; [|reflexivity]. apply Qle_bool_iff in E. lra. Qed.
Lemma qle_cases : forall x, (Qle_bool 0 x = true /\ 0 <= x) \/ (Qle_bool 0 x = false /\ x < 0).
Proof.
  intros x. destruct (Qle_bool 0 x) eqn:E; [left; split; auto; apply Qle_bool_iff; auto|right; split; auto].
  apply Qnot_le_lt. intros K. apply Qle_bool_iff in K. congruence.
Qed.

Section Cut.
Variable f : pt -> Q.
Hypothesis F : affine f.
Definition keep (v : pt) : bool := Qle_bool 0 (f v).
Definition part_of (a b : pt) : Q := f a / (f a - f b).
Lemma meet_on : forall a b, on (part_of a b) a b (meet f a b).
Proof. intros a b. unfold on, meet, part_of. cbn [fst snd]. split; reflexivity. Qed.
Lemma meet_zero : forall a b, ~ f a - f b == 0 -> f (meet f a b) == 0.
Proof. intros a b N. rewrite (F _ _ _ _ (meet_on a b)). unfold part_of. field. auto. Qed.
Lemma part_range : forall a b, (0 <= f a /\ f b <= 0 \/ f a <= 0 /\ 0 <= f b) -> 0 <= part_of a b <= 1.
Proof.
  intros a b H. unfold part_of. destruct (Qeq_dec (f a - f b) 0) as [E|N].
  - assert (Z : f a / (f a - f b) == 0).
    { assert (f a == 0) by (destruct H; lra). rewrite H0. unfold Qdiv. ring. }
    rewrite Z. split; lra.
  - destruct H as [[H1 H2]|[H1 H2]].
    + assert (P : 0 < f a - f b) by (destruct (Qlt_le_dec 0 (f a - f b)); auto; exfalso; apply N; lra).
      split; [apply Qle_shift_div_l; lra|apply Qle_shift_div_r; lra].
    + assert (P : 0 < f b - f a) by (destruct (Qlt_le_dec 0 (f b - f a)); auto; exfalso; apply N; lra).
      assert (E : f a / (f a - f b) == (- f a) / (f b - f a)) by (field; split; lra). rewrite E.
      split; [apply Qle_shift_div_l; lra|apply Qle_shift_div_r; lra].
Qed.

Fixpoint same_side (l : poly) : Prop :=
  match l with
  | a :: ((b :: _) as r) => 0 <= f a * f b /\ same_side r
  | _ => True
  end.
Lemma same2 : forall a b l, same_side (a :: b :: l) = (0 <= f a * f b /\ same_side (b :: l)).
Proof. reflexivity. Qed.

Section Filter.
Variable n : edgefun.
Hypothesis V : vanishes f n.
Definition both (a b : pt) : Q := if keep a && keep b then n a b else 0.
Lemma neg_prod : forall x y, x < 0 -> 0 <= x * y -> y <= 0.
Proof. intros x y H K. destruct (Qlt_le_dec 0 y) as [P|P]; [|auto]. assert (x * y < 0) by nra. lra. Qed.
Lemma filter_walk : forall l a, same_side (a :: l) ->
  (0 <= f a -> walk both (a :: l) == walk n (a :: filter keep l)) /\
  (f a < 0 -> walk both (a :: l) == walk n (filter keep l) /\ forall b r, filter keep l = b :: r -> f b == 0).
Proof.
  intros l. induction l as [|b l IH]; intros a S.
  - split; [reflexivity|]. intros _. split; [reflexivity|discriminate].
  - rewrite same2 in S. destruct S as [P S]. destruct (IH b S) as [I1 I2]. rewrite walk2. cbn [filter].
    split; intros A.
    + destruct (qle_cases (f b)) as [[E B]|[E B]]; fold (keep b) in E; rewrite E.
      * rewrite (I1 B), walk2. unfold both. unfold keep in *. rewrite E, (qle_t (f a) A). cbn [andb]. reflexivity.
      * destruct (I2 B) as [I3 I4]. rewrite I3. unfold both. rewrite E, andb_false_r.
        assert (A0 : f a == 0). { pose proof (neg_prod (f b) (f a) B ltac:(rewrite Qmult_comm; auto)). lra. }
        destruct (filter keep l) as [|c r] eqn:EF; [cbn; ring|]. rewrite (walk2 n a c r), (V a c) by (eauto). ring.
    + assert (K : keep a = false) by (apply qle_f; auto). unfold both at 1. rewrite K. cbn [andb].
      pose proof (neg_prod (f a) (f b) A P) as B'.
      destruct (qle_cases (f b)) as [[E B]|[E B]]; fold (keep b) in E; rewrite E.
      * rewrite (I1 B). split; [ring|]. intros c r X. injection X as <- <-. lra.
      * destruct (I2 B) as [I3 I4]. rewrite I3. split; [ring|auto].
Qed.
Lemma filter_last : forall l a z, same_side (a :: l ++ [z]) -> f z < 0 -> forall b r, filter keep (a :: l) = b :: r -> f (last r b) == 0.
Proof.
  intros l. induction l as [|c l IH]; intros a z S Z b r E.
  - cbn [app] in S. rewrite same2 in S. cbn [filter] in E. destruct (keep a) eqn:K; [|discriminate]. injection E as <- <-. cbn.
    apply Qle_bool_iff in K. pose proof (neg_prod (f z) (f a) Z ltac:(rewrite Qmult_comm; apply S)). lra.
  - cbn [app] in S. rewrite same2 in S. destruct S as [P S]. cbn [filter] in E. destruct (keep a) eqn:K.
    + injection E as <- <-. change (if keep c then c :: filter keep l else filter keep l) with (filter keep (c :: l)).
      destruct (filter keep (c :: l)) as [|d r] eqn:E'.
      * cbn. cbn [filter] in E'. destruct (keep c) eqn:Kc; [discriminate|].
        destruct (qle_cases (f c)) as [[X _]|[_ X]]; [unfold keep in Kc; congruence|].
        apply Qle_bool_iff in K. pose proof (neg_prod (f c) (f a) X ltac:(rewrite Qmult_comm; auto)). lra.
      * rewrite last_cons'. eapply IH; eauto.
    + eapply IH; eauto.
Qed.
Lemma walk_snoc : forall l a z, walk n (a :: l ++ [z]) == walk n (a :: l) + n (last l a) z.
Proof.
  intros l. induction l as [|b l IH]; intros a z; [cbn; ring|]. cbn [app]. rewrite !walk2, IH, last_cons'. ring.
Qed.
Lemma filter_closed : forall a l, same_side (a :: l ++ [a]) -> closed n (filter keep (a :: l)) == walk both (a :: l ++ [a]).
Proof.
  intros a l S. destruct (filter_walk (l ++ [a]) a S) as [W1 W2].
  destruct (qle_cases (f a)) as [[E A]|[E A]]; fold (keep a) in E.
  - rewrite (W1 A). rewrite filter_app. cbn [filter]. rewrite E. reflexivity.
  - destruct (W2 A) as [W3 W4]. rewrite W3. rewrite filter_app in W4 |- *. cbn [filter] in W4 |- *. rewrite E in W4 |- *. rewrite app_nil_r in W4 |- *.
    destruct (filter keep l) as [|b r] eqn:EF; [reflexivity|]. unfold closed. rewrite walk_snoc.
    rewrite (V (last r b) b); [ring| |eauto].
    apply (filter_last l a a S A). cbn [filter]. rewrite E. exact EF.
Qed.
End Filter.

(** The crossing points. *)
Lemma crossing_cases : forall a b, (crossing f a b = [] /\ 0 <= f a * f b) \/ (crossing f a b = [meet f a b] /\ f a * f b < 0).
Proof. intros a b. unfold crossing. destruct (qle_cases (f a * f b)) as [[-> H]|[-> H]]; auto. Qed.
Lemma opposite : forall x y, x * y < 0 -> (0 < x /\ y < 0) \/ (x < 0 /\ 0 < y).
Proof.
  intros x y H. destruct (Q_dec x 0) as [[X|X]|X].
  - right. split; auto. destruct (Qlt_le_dec 0 y); auto. assert (0 <= x * y) by nra. lra.
  - left. split; auto. destruct (Qlt_le_dec y 0); auto. assert (0 <= x * y) by nra. lra.
  - rewrite X in H. lra.
Qed.
Lemma wc_shape : forall l a, exists r, with_crossings f a l ++ [last l a] = a :: r.
Proof. intros [|b l] a; [exists []; reflexivity|]. cbn [with_crossings]. eexists. cbn [app]. reflexivity. Qed.
Lemma wc_same : forall l a, same_side (with_crossings f a l ++ [last l a]).
Proof.
  intros l. induction l as [|b l IH]; intros a; [exact I|]. cbn [with_crossings]. rewrite last_cons'.
  destruct (wc_shape l b) as (r & E). specialize (IH b). cbn [app]. rewrite <- app_assoc, E in *.
  destruct (crossing_cases a b) as [[-> H]|[-> H]]; cbn [app].
  - rewrite same2. auto.
  - assert (Z : f (meet f a b) == 0) by (apply meet_zero; destruct (opposite _ _ H); lra).
    rewrite !same2. split; [rewrite Z; lra|]. split; [rewrite Z; lra|auto].
Qed.

Section Restrict.
Variable n : edgefun.
Hypothesis V : vanishes f n.
Hypothesis S : splits n.
(** The part of the value of a side that belongs to the part of the side inside. *)
Definition restrict : edgefun := fun a b =>
  if keep a then if keep b then n a b else n a (meet f a b)
  else if keep b then n (meet f a b) b else 0.
Lemma point_zero : forall a e, on 0 a a e -> n a a == 0.
Proof. intros a e H. assert (O : on 0 a a a) by (split; ring). pose proof (S a a a 0 ltac:(lra) ltac:(lra) O). lra. Qed.
Lemma self_zero : forall a, n a a == 0.
Proof. intros a. apply (point_zero a a). split; ring. Qed.
Lemma both_restrict : forall a b, f a * f b < 0 -> both n a (meet f a b) + both n (meet f a b) b == restrict a b.
Proof.
  intros a b H. assert (Z : f (meet f a b) == 0) by (apply meet_zero; destruct (opposite _ _ H); lra).
  unfold both, restrict. assert (K : keep (meet f a b) = true) by (apply qle_t; lra). rewrite K, andb_true_r. cbn [andb].
  destruct (opposite _ _ H) as [[A B]|[A B]].
  - unfold keep. rewrite (qle_t (f a)), (qle_f (f b)) by lra. ring.
  - unfold keep. rewrite (qle_t (f b)), (qle_f (f a)) by lra. ring.
Qed.
Lemma both_restrict' : forall a b, 0 <= f a * f b -> both n a b == restrict a b.
Proof.
  intros a b H. unfold both, restrict, keep. destruct (qle_cases (f a)) as [[-> A]|[-> A]], (qle_cases (f b)) as [[-> B]|[-> B]]; cbn [andb]; try reflexivity.
  - pose proof (neg_prod (f b) (f a) B ltac:(rewrite Qmult_comm; auto)). assert (A0 : f a == 0) by lra.
    symmetry. apply V; [auto|]. apply meet_zero. lra.
  - pose proof (neg_prod (f a) (f b) A H). assert (B0 : f b == 0) by lra. symmetry. apply V; [apply meet_zero; lra|auto].
Qed.
Lemma walk_restrict : forall l a, walk (both n) (with_crossings f a l ++ [last l a]) == walk restrict (a :: l).
Proof.
  intros l. induction l as [|b l IH]; intros a; [reflexivity|]. cbn [with_crossings]. rewrite last_cons'.
  destruct (wc_shape l b) as (r & E). specialize (IH b). cbn [app]. rewrite <- app_assoc, E in *. rewrite walk2.
  destruct (crossing_cases a b) as [[-> H]|[-> H]]; cbn [app]; rewrite !walk2, IH.
  - rewrite both_restrict' by auto. reflexivity.
  - rewrite <- both_restrict by auto. ring.
Qed.
Theorem half_closed : forall p, closed n (half f p) == closed restrict p.
Proof.
  intros [|a l]; [reflexivity|]. unfold half. change (fun v => Qle_bool 0 (f v)) with keep.
  destruct (wc_shape (l ++ [a]) a) as (r & E). rewrite last_app1 in E.
  destruct (with_crossings f a (l ++ [a])) as [|a' w] eqn:EW; [destruct l; discriminate|]. cbn [app] in E. injection E as -> E.
  pose proof (wc_same (l ++ [a]) a) as SS. pose proof (walk_restrict (l ++ [a]) a) as WR. rewrite last_app1, EW in SS, WR.
  rewrite filter_closed by (auto; exact SS). unfold closed. rewrite <- WR. reflexivity.
Qed.

End Restrict.
End Cut.

Definition peq (a b : pt) : Prop := fst a == fst b /\ snd a == snd b.
Definition respects (n : edgefun) : Prop := forall a a' b b', peq a a' -> peq b b' -> n a b == n a' b'.
Lemma peq_refl : forall a, peq a a.
Proof. split; reflexivity. Qed.
Lemma affine_respects : forall f, affine f -> forall a a', peq a a' -> f a == f a'.
Proof.
  intros f F a a' [X Y]. rewrite (F a' a' a 0) by (split; rewrite ?X, ?Y; ring). ring.
Qed.
Lemma on_peq : forall t u a b e e', on t a b e -> on u a b e' -> t == u -> peq e e'.
Proof. intros t u a b e e' [X Y] [X' Y'] E. split; [rewrite X, X'|rewrite Y, Y']; rewrite E; reflexivity. Qed.
Lemma half_in : forall f p v, In v (half f p) -> 0 <= f v.
Proof. intros f [|a l] v H; [contradiction|]. unfold half in H. apply filter_In in H. apply Qle_bool_iff. apply H. Qed.

Lemma restrict_respects : forall f n, affine f -> respects n -> respects (restrict f n).
Proof.
  intros f n F R a a' b b' A B. pose proof (affine_respects f F a a' A) as EA. pose proof (affine_respects f F b b' B) as EB.
  assert (M : peq (meet f a b) (meet f a' b')).
  { destruct A as [X Y], B as [X' Y']. unfold meet. split; cbn [fst snd]; rewrite EA, EB, ?X, ?Y, ?X', ?Y'; reflexivity. }
  unfold restrict, keep. rewrite (Qleb_comp 0 0 (Qeq_refl 0) _ _ EA), (Qleb_comp 0 0 (Qeq_refl 0) _ _ EB).
  destruct (Qle_bool 0 (f a')), (Qle_bool 0 (f b')); [apply R|apply R|apply R|reflexivity]; auto.
Qed.
Lemma restrict_vanishes : forall f h n, affine h -> vanishes h n -> vanishes h (restrict f n).
Proof.
  intros f h n H V a b A B. assert (M : h (meet f a b) == 0) by (rewrite (H _ _ _ _ (meet_on f a b)), A, B; ring).
  unfold restrict. destruct (keep f a), (keep f b); [apply V|apply V|apply V|reflexivity]; auto.
Qed.
Lemma restrict_outside : forall f n, affine f -> vanishes f n -> forall a b, f a <= 0 -> f b <= 0 -> restrict f n a b == 0.
Proof.
  intros f n F V a b A B. unfold restrict, keep.
  destruct (qle_cases (f a)) as [[-> A']|[-> A']], (qle_cases (f b)) as [[-> B']|[-> B']]; try reflexivity; apply V; try lra; apply meet_zero; auto; lra.
Qed.
Lemma on_between : forall f t a b e, affine f -> on t a b e -> f e == f a - t * (f a - f b).
Proof. intros f t a b e F O. rewrite (F _ _ _ _ O). ring. Qed.
Lemma restrict_splits : forall f n, affine f -> respects n -> splits n -> splits (restrict f n).
Proof.
  intros f n F R S a b e t T0 T1 O. pose proof (on_between f t a b e F O) as FE.
  pose proof (meet_on f a b) as MAB. pose proof (meet_on f a e) as MAE. pose proof (meet_on f e b) as MEB. unfold part_of in *.
  destruct O as [OX OY].
  unfold restrict, keep.
  destruct (qle_cases (f a)) as [[-> A]|[-> A]], (qle_cases (f b)) as [[-> B]|[-> B]], (qle_cases (f e)) as [[-> E]|[-> E]].
  - apply (S a b e t); auto. split; auto.
  - exfalso. assert (f e == (1 - t) * f a + t * f b) by (rewrite FE; ring). nra.
  - (* a inside, b outside, e inside *)
    assert (D : 0 < f a - f b) by lra. set (u := f a / (f a - f b)) in *.
    assert (U : u * (f a - f b) == f a) by (unfold u; field; lra).
    assert (TU : t <= u). { assert (t * (f a - f b) <= u * (f a - f b)) by lra. apply Qmult_le_r in H; auto. }
    assert (M : peq (meet f e b) (meet f a b)).
    { destruct MAB as [MX MY], MEB as [EX EY]. assert (f e - f b == (1 - t) * (f a - f b)) by (rewrite FE; ring).
      assert (t < 1) by (destruct (Qlt_le_dec t 1); auto; assert (t == 1) by lra; rewrite H0 in FE; lra).
      assert (Q : f e / (f e - f b) == (u - t) / (1 - t)).
      { assert (E1 : f e == (u - t) * (f a - f b)) by (rewrite FE; lra). rewrite H, E1. field. split; lra. }
      split; [rewrite EX, MX|rewrite EY, MY]; rewrite Q, ?OX, ?OY; field; lra. }
    rewrite (R e e _ _ (peq_refl e) M).
    destruct (Qeq_dec u 0) as [Z|NZ].
    + assert (t == 0) by lra. apply (S a (meet f a b) e 0); [lra|lra|]. destruct MAB as [MX MY].
      split; [rewrite OX|rewrite OY]; rewrite H; ring.
    + assert (0 < u) by (destruct (Qlt_le_dec 0 u); auto; exfalso; apply NZ; lra).
      apply (S a (meet f a b) e (t / u)).
      * apply Qle_shift_div_l; lra.
      * apply Qle_shift_div_r; lra.
      * destruct MAB as [MX MY]. split; [rewrite OX, MX|rewrite OY, MY]; field; lra.
  - (* a inside, e and b outside *)
    assert (D : 0 < f a - f b) by lra. set (u := f a / (f a - f b)) in *.
    assert (0 < t). { destruct (Qlt_le_dec 0 t); auto. assert (t == 0) by lra. rewrite H in FE. lra. }
    assert (M : peq (meet f a e) (meet f a b)).
    { destruct MAB as [MX MY], MAE as [EX EY]. assert (Q : f a / (f a - f e) == u / t) by (rewrite FE; unfold u; field; split; lra).
      split; [rewrite EX, MX|rewrite EY, MY]; rewrite Q, ?OX, ?OY; field; lra. }
    rewrite (R a a _ _ (peq_refl a) M). ring.
  - (* a outside, b inside, e inside *)
    assert (D : 0 < f b - f a) by lra. set (u := f a / (f a - f b)) in *.
    assert (U : u * (f b - f a) == - f a) by (unfold u; field; lra).
    assert (UT : u <= t). { assert (u * (f b - f a) <= t * (f b - f a)) by lra. apply Qmult_le_r in H; auto. }
    assert (0 < u). { destruct (Qlt_le_dec 0 u); auto. assert (u * (f b - f a) <= 0) by nra. lra. }
    assert (M : peq (meet f a e) (meet f a b)).
    { destruct MAB as [MX MY], MAE as [EX EY]. assert (Q : f a / (f a - f e) == u / t) by (rewrite FE; unfold u; field; repeat split; lra).
      split; [rewrite EX, MX|rewrite EY, MY]; rewrite Q, ?OX, ?OY; field; lra. }
    rewrite (R _ _ e e M (peq_refl e)).
    destruct (Qeq_dec u 1) as [Z|NZ].
    + assert (t == 1) by lra. apply (S (meet f a b) b e 1); [lra|lra|]. split; [rewrite OX|rewrite OY]; rewrite H0; ring.
    + assert (u < 1) by (destruct (Qlt_le_dec u 1); auto; exfalso; apply NZ; lra).
      apply (S (meet f a b) b e ((t - u) / (1 - u))).
      * apply Qle_shift_div_l; lra.
      * apply Qle_shift_div_r; lra.
      * destruct MAB as [MX MY]. split; [rewrite OX, MX|rewrite OY, MY]; field; lra.
  - (* a and e outside, b inside *)
    assert (D : 0 < f b - f a) by lra. set (u := f a / (f a - f b)) in *.
    assert (U : u * (f b - f a) == - f a) by (unfold u; field; lra).
    assert (t < 1) by (destruct (Qlt_le_dec t 1); auto; assert (t == 1) by lra; rewrite H in FE; lra).
    assert (M : peq (meet f e b) (meet f a b)).
    { destruct MAB as [MX MY], MEB as [EX EY]. assert (f e - f b == (1 - t) * (f a - f b)) by (rewrite FE; ring).
      assert (Q : f e / (f e - f b) == (u - t) / (1 - t)).
      { assert (E1 : f e == (u - t) * (f a - f b)) by (rewrite FE; lra). rewrite H0, E1. field. split; lra. }
      split; [rewrite EX, MX|rewrite EY, MY]; rewrite Q, ?OX, ?OY; field; lra. }
    rewrite (R _ _ b b M (peq_refl b)). ring.
  - exfalso. assert (f e == (1 - t) * f a + t * f b) by (rewrite FE; ring). nra.
  - ring.
Qed.

(** The two sides of a line. *)
Lemma restrict_sum : forall f g n, affine f -> (forall a, g a == - f a) -> vanishes f n -> respects n -> splits n ->
  forall a b, restrict f n a b + restrict g n a b == n a b.
Proof.
  intros f g n F G V R S a b. pose proof (G a) as GA. pose proof (G b) as GB.
  pose proof (meet_on f a b) as MF. pose proof (meet_on g a b) as MG.
  assert (M : ~ f a - f b == 0 -> peq (meet g a b) (meet f a b)).
  { intros N. apply (on_peq (part_of g a b) (part_of f a b) a b); auto. unfold part_of. rewrite GA, GB. field. split; lra. }
  assert (Z : ~ f a - f b == 0 -> f (meet f a b) == 0) by (apply meet_zero; auto).
  assert (PR := part_range f a b).
  unfold restrict, keep.
  destruct (qle_cases (f a)) as [[-> A]|[-> A]], (qle_cases (f b)) as [[-> B]|[-> B]],
    (qle_cases (g a)) as [[-> C]|[-> C]], (qle_cases (g b)) as [[-> D]|[-> D]]; try lra.
  - rewrite (V a b) by lra. ring.
  - assert (N : ~ f a - f b == 0) by lra. rewrite (R a a _ _ (peq_refl a) (M N)). rewrite (V a (meet f a b)); [ring|lra|auto].
  - assert (N : ~ f a - f b == 0) by lra. rewrite (R _ _ b b (M N) (peq_refl b)). rewrite (V (meet f a b) b); [ring|auto|lra].
  - assert (N : ~ f a - f b == 0) by lra. rewrite (V a (meet f a b)); [ring|lra|auto].
  - assert (N : ~ f a - f b == 0) by lra. rewrite (R _ _ b b (M N) (peq_refl b)). symmetry. apply (S _ _ _ (part_of f a b)); auto; apply PR; left; lra.
  - assert (N : ~ f a - f b == 0) by lra. rewrite (V (meet f a b) b); [ring|auto|lra].
  - assert (N : ~ f a - f b == 0) by lra. rewrite (R a a _ _ (peq_refl a) (M N)), Qplus_comm. symmetry. apply (S _ _ _ (part_of f a b)); auto; apply PR; right; lra.
Qed.
Lemma affine_opp : forall f g, affine f -> (forall a, g a == - f a) -> affine g.
Proof. intros f g F G a b e t O. rewrite !G, (F _ _ _ _ O). ring. Qed.
Lemma vanishes_opp : forall f g n, (forall a, g a == - f a) -> vanishes f n -> vanishes g n.
Proof. intros f g n G V a b A B. apply V; rewrite G in *; lra. Qed.
Theorem two_halves : forall f g n, affine f -> (forall a, g a == - f a) -> vanishes f n -> respects n -> splits n ->
  forall p, closed n (half f p) + closed n (half g p) == closed n p.
Proof.
  intros f g n F G V R S p. rewrite (half_closed f F n V), (half_closed g (affine_opp f g F G) n (vanishes_opp f g n G V)).
  rewrite <- closed_plus. apply closed_ext. intros. apply restrict_sum; auto.
Qed.
(** A cut that a later, deeper cut makes needless. *)
Theorem nested_halves : forall f f' g n, affine f -> affine f' -> (forall a, g a == - f a) -> (forall a, f' a <= f a) ->
  vanishes f' n -> respects n -> splits n ->
  forall p, closed n (half f' (half f p)) == closed n (half f' p).
Proof.
  intros f f' g n F F' G L V' R S p. rewrite !(half_closed f' F' n V').
  assert (VF : vanishes f (restrict f' n)).
  { intros a b A B. apply restrict_outside; auto; [pose proof (L a)|pose proof (L b)]; lra. }
  rewrite <- (two_halves f g (restrict f' n) F G VF (restrict_respects f' n F' R) (restrict_splits f' n F' R S) p).
  rewrite (closed_zero (restrict f' n) (half g p)); [ring|]. intros a b A B. apply half_in in A, B. rewrite G in A, B.
  apply restrict_outside; auto; [pose proof (L a)|pose proof (L b)]; lra.
Qed.

(** * Areas *)
Definition strip (c : Q) : edgefun := fun a b => - (snd a + snd b - 2 * c) * (fst b - fst a).
Lemma walk_op : forall l, walk cross l = op l.
Proof. intros l. induction l as [|a [|b l] IH]; try reflexivity. rewrite walk2, op_cons2, IH. reflexivity. Qed.
Lemma closed_cross : forall p, closed cross p == double_area p.
Proof. intros [|a l]; rewrite double_cyc; [reflexivity|]. unfold closed, cyc. rewrite walk_op. reflexivity. Qed.
Lemma strip_area : forall c p, closed (strip c) p == double_area p.
Proof.
  intros c p. rewrite <- closed_cross. apply (closed_tele _ _ (fun a => 2 * c * fst a - fst a * snd a)).
  intros a b. unfold strip, cross. ring.
Qed.
Lemma strip_respects : forall c, respects (strip c).
Proof. intros c a a' b b' [X Y] [X' Y']. unfold strip. rewrite X, Y, X', Y'. reflexivity. Qed.
Lemma strip_splits : forall c, splits (strip c).
Proof. intros c a b e t _ _ [X Y]. unfold strip. rewrite X, Y. ring. Qed.
Lemma strip_above : forall c, vanishes (above c) (strip c).
Proof. intros c a b A B. unfold above, strip in *. assert (E : snd a + snd b - 2 * c == 0) by lra. rewrite E. ring. Qed.
Lemma strip_vertical : forall c x, vanishes (right_of x) (strip c).
Proof. intros c x a b A B. unfold right_of, strip in *. assert (E : fst b - fst a == 0) by lra. rewrite E. ring. Qed.
Lemma affine_right : forall c, affine (right_of c).
Proof. intros c a b e t [X Y]. unfold right_of. rewrite X. ring. Qed.
Lemma affine_above : forall c, affine (above c).
Proof. intros c a b e t [X Y]. unfold above. rewrite Y. ring. Qed.
Lemma left_opp : forall c a, left_of c a == - right_of c a.
Proof. intros. unfold left_of, right_of. ring. Qed.
Lemma below_opp : forall c a, below c a == - above c a.
Proof. intros. unfold below, above. ring. Qed.

(** Twice the area of the part of [p] to the right of [x] and above [y]. *)
Definition upper (y : Q) : edgefun := restrict (above y) (strip y).
Definition corner (p : poly) (x y : Q) : Q := closed (upper y) (half (right_of x) p).
Lemma upper_respects : forall y, respects (upper y).
Proof. intros y. apply restrict_respects; [apply affine_above|apply strip_respects]. Qed.
Lemma upper_splits : forall y, splits (upper y).
Proof. intros y. apply restrict_splits; [apply affine_above|apply strip_respects|apply strip_splits]. Qed.
Lemma upper_vertical : forall y x, vanishes (right_of x) (upper y).
Proof. intros y x. apply restrict_vanishes; [apply affine_right|apply strip_vertical]. Qed.
Lemma band_y : forall y0 y1 q, y0 <= y1 -> double_area (half (below y1) (half (above y0) q)) == closed (upper y0) q - closed (upper y1) q.
Proof.
  intros y0 y1 q L. rewrite <- (strip_area y1).
  pose proof (two_halves (above y1) (below y1) (strip y1) (affine_above y1) (below_opp y1) (strip_above y1) (strip_respects y1) (strip_splits y1) (half (above y0) q)) as T.
  rewrite (nested_halves (above y0) (above y1) (below y0) (strip y1) (affine_above y0) (affine_above y1) (below_opp y0)) in T;
    [|intros a; unfold above; lra|apply strip_above|apply strip_respects|apply strip_splits].
  rewrite (strip_area y1 (half (above y0) q)), <- (strip_area y0 (half (above y0) q)) in T.
  rewrite (half_closed (above y0) (affine_above y0) (strip y0) (strip_above y0)), (half_closed (above y1) (affine_above y1) (strip y1) (strip_above y1)) in T.
  unfold upper. lra.
Qed.
Lemma band_x : forall y x0 x1 p, x0 <= x1 -> closed (upper y) (half (left_of x1) (half (right_of x0) p)) == corner p x0 y - corner p x1 y.
Proof.
  intros y x0 x1 p L. unfold corner.
  pose proof (two_halves (right_of x1) (left_of x1) (upper y) (affine_right x1) (left_opp x1) (upper_vertical y x1) (upper_respects y) (upper_splits y) (half (right_of x0) p)) as T.
  rewrite (nested_halves (right_of x0) (right_of x1) (left_of x0) (upper y) (affine_right x0) (affine_right x1) (left_opp x0)) in T;
    [|intros a; unfold right_of; lra|apply upper_vertical|apply upper_respects|apply upper_splits]. lra.
Qed.
Theorem overlap_area : forall p x0 x1 y0 y1, x0 <= x1 -> y0 <= y1 ->
  double_area (overlap p x0 x1 y0 y1) == corner p x0 y0 - corner p x1 y0 - corner p x0 y1 + corner p x1 y1.
Proof. intros p x0 x1 y0 y1 X Y. unfold overlap. rewrite band_y by auto. rewrite !band_x by auto. ring. Qed.

(** * Convex polygons *)
Fixpoint turns (s : Q) (p : poly) : Prop :=
  match p with
  | [] => True
  | a :: l => ForallOrdPairs (fun b c => 0 <= s * turn a b c) l /\ turns s l
  end.
Lemma nth_pairs : forall (R : pt -> pt -> Prop) l, (forall i j d, (i < j)%nat -> (j < List.length l)%nat -> R (nth i l d) (nth j l d)) -> ForallOrdPairs R l.
Proof.
  intros R l. induction l as [|a l IH]; intros H; [constructor|]. constructor.
  - apply Forall_forall. intros b B. destruct (In_nth l b a B) as (j & J & <-). apply (H 0%nat (S j) a); cbn [List.length]; lia.
  - apply IH. intros i j d I J. apply (H (S i) (S j) d); cbn [List.length]; lia.
Qed.
Lemma convex_turns : forall p, convex p -> exists s, (s == 1 \/ s == -1) /\ turns s p.
Proof.
  intros p (s & S & H). exists s. split; [auto|]. clear S. induction p as [|a l IH]; [exact I|]. split.
  - apply nth_pairs. intros i j d I J. apply (H 0%nat (S i) (S j) d); cbn [List.length]; lia.
  - apply IH. intros i j k d I J K. apply (H (S i) (S j) (S k) d); cbn [List.length]; lia.
Qed.
Lemma pairs_filter : forall (R : pt -> pt -> Prop) g l, ForallOrdPairs R l -> ForallOrdPairs R (filter g l).
Proof.
  intros R g l H. induction H as [|a l A _ IH]; [constructor|]. cbn [filter]. destruct (g a); [|auto]. constructor; auto.
  apply Forall_forall. intros b B. apply filter_In in B. rewrite Forall_forall in A. apply A. apply B.
Qed.
Lemma turns_filter : forall s g p, turns s p -> turns s (filter g p).
Proof.
  intros s g p. induction p as [|a l IH]; intros H; [exact I|]. destruct H as [A H]. cbn [filter]. destruct (g a); [|auto].
  split; [apply pairs_filter|]; auto.
Qed.
Lemma pairs_app : forall (R : pt -> pt -> Prop) l m, ForallOrdPairs R (l ++ m) <-> ForallOrdPairs R l /\ ForallOrdPairs R m /\ (forall a b, In a l -> In b m -> R a b).
Proof.
  intros R l m. induction l as [|a l IH].
  - cbn [app]. split; [intros H; split; [constructor|split; [auto|intros ? ? []]]|intros (_ & H & _); auto].
  - cbn [app]. split.
    + intros H. inversion H as [|? ? A B]; subst. apply IH in B. destruct B as (B1 & B2 & B3). rewrite Forall_forall in A.
      split; [constructor; auto; apply Forall_forall; intros; apply A; apply in_app_iff; auto|]. split; [auto|].
      intros x y [<-|X] Y; [apply A; apply in_app_iff; auto|auto].
    + intros (B1 & B2 & B3). inversion B1 as [|? ? A B]; subst. constructor.
      * apply Forall_forall. intros b B'. apply in_app_iff in B'. rewrite Forall_forall in A. destruct B'; [auto|apply B3; cbn; auto].
      * apply IH. split; [auto|]. split; [auto|]. intros x y X Y. apply B3; cbn; auto.
Qed.
Lemma turn_last : forall t a b c x y, on t a b c -> turn x y c == (1 - t) * turn x y a + t * turn x y b.
Proof. intros t a b c x y [X Y]. unfold turn. rewrite X, Y. ring. Qed.
Lemma turn_mid : forall t a b c x y, on t a b c -> turn x c y == (1 - t) * turn x a y + t * turn x b y.
Proof. intros t a b c x y [X Y]. unfold turn. rewrite X, Y. ring. Qed.
Lemma turn_first : forall t a b c x y, on t a b c -> turn c x y == (1 - t) * turn a x y + t * turn b x y.
Proof. intros t a b c x y [X Y]. unfold turn. rewrite X, Y. ring. Qed.
Lemma turn_same1 : forall a b, turn a a b == 0. Proof. intros. unfold turn. ring. Qed.
Lemma turn_same2 : forall a b, turn a b b == 0. Proof. intros. unfold turn. ring. Qed.
Lemma turn_same3 : forall a b, turn a b a == 0. Proof. intros. unfold turn. ring. Qed.
Lemma mix : forall s t u v, 0 <= t -> t <= 1 -> 0 <= s * u -> 0 <= s * v -> 0 <= s * ((1 - t) * u + t * v).
Proof. intros s t u v T0 T1 U V. assert (E : s * ((1 - t) * u + t * v) == (1 - t) * (s * u) + t * (s * v)) by ring. rewrite E. nra. Qed.
Ltac turnzero := rewrite ?turn_same1, ?turn_same2, ?turn_same3; lra.

(** A point in the middle of a side can be added. *)
Lemma turns_insert : forall s t a b c l pre, 0 <= t -> t <= 1 -> on t a b c ->
  turns s (pre ++ a :: b :: l) -> turns s (pre ++ a :: c :: b :: l).
Proof.
  intros s t a b c l pre T0 T1 O. induction pre as [|d pre IH]; cbn [app].
  - intros (A & B & H). inversion A as [|? ? A1 A2]; subst. rewrite Forall_forall in A1.
    split; [|split; [|split; auto]].
    + constructor; [|exact A].
      constructor; [rewrite (turn_mid t a b c) by auto; apply mix; auto; turnzero|].
      apply Forall_forall. intros y Y. rewrite (turn_mid t a b c) by auto. apply mix; auto. turnzero.
    + constructor.
      * apply Forall_forall. intros y Y. rewrite (turn_first t a b c) by auto. apply mix; auto. turnzero.
      * assert (J : forall x y, 0 <= s * turn a x y -> 0 <= s * turn b x y -> 0 <= s * turn c x y) by (intros; rewrite (turn_first t a b c) by auto; apply mix; auto).
        clear - A2 B J. induction l as [|x l IH]; [constructor|]. inversion A2 as [|? ? P1 P2]; inversion B as [|? ? Q1 Q2]; subst.
        constructor; [|auto]. rewrite Forall_forall in *. intros y Y. apply J; auto.
  - intros (A & H). split; [|auto]. apply pairs_app in A. destruct A as (A1 & A2 & A3). apply pairs_app. split; [auto|].
    inversion A2 as [|? ? B1 B2]; subst. inversion B2 as [|? ? C1 C2]; subst. rewrite Forall_forall in B1, C1.
    split.
    + constructor; [|constructor; [|exact B2]].
      * apply Forall_forall. intros y [<-|Y]; [|apply B1; auto]. rewrite (turn_last t a b c) by auto. apply mix; [auto|auto|turnzero|apply B1; cbn; auto].
      * apply Forall_forall. intros y [<-|Y].
        -- rewrite (turn_mid t a b c) by auto. apply mix; [auto|auto|apply B1; cbn; auto|turnzero].
        -- rewrite (turn_mid t a b c) by auto. apply mix; [auto|auto|apply B1; cbn; auto|apply C1; auto].
    + intros x y X [<-|[<-|Y]]; [apply A3; cbn; auto| |apply A3; cbn; auto].
      rewrite (turn_last t a b c) by auto. apply mix; auto; apply A3; cbn; auto.
Qed.
Lemma turns_snoc : forall s p c, turns s p -> ForallOrdPairs (fun x y => 0 <= s * turn x y c) p -> turns s (p ++ [c]).
Proof.
  intros s p c. induction p as [|a l IH]; intros H K; [split; [constructor|exact I]|]. destruct H as [A H]. inversion K as [|? ? K1 K2]; subst.
  cbn [app]. split; [|auto]. apply pairs_app. split; [auto|]. split; [repeat constructor|]. intros x y X [<-|[]]. rewrite Forall_forall in K1. auto.
Qed.
Lemma turns_end : forall s p e, turns s (p ++ [e]) -> ForallOrdPairs (fun x y => 0 <= s * turn x y e) (p ++ [e]).
Proof.
  intros s p e. induction p as [|a l IH]; intros H; [repeat constructor|]. destruct H as [A H]. cbn [app]. constructor; [|auto].
  apply pairs_app in A. destruct A as (_ & _ & A). apply Forall_forall. intros y Y. apply in_app_iff in Y as [Y|[<-|[]]]; [apply A; cbn; auto|turnzero].
Qed.
Lemma pairs_and : forall (R R' R'' : pt -> pt -> Prop) l, (forall x y, R x y -> R' x y -> R'' x y) -> ForallOrdPairs R l -> ForallOrdPairs R' l -> ForallOrdPairs R'' l.
Proof.
  intros R R' R'' l H. induction l as [|a l IH]; intros A B; [constructor|]. inversion A; inversion B; subst. rewrite Forall_forall in *.
  constructor; [apply Forall_forall; auto|auto].
Qed.
Lemma last_split : forall A (l : list A) a, exists p, a :: l = p ++ [last l a].
Proof.
  intros A l. induction l as [|b l IH]; intros a; [exists []; reflexivity|]. destruct (IH b) as (p & E). exists (a :: p). rewrite last_cons'. cbn [app]. rewrite <- E. reflexivity.
Qed.
Lemma turns_append : forall s t a l c, 0 <= t -> t <= 1 -> turns s (a :: l) -> on t (last l a) a c -> turns s ((a :: l) ++ [c]).
Proof.
  intros s t a l c T0 T1 H O. apply turns_snoc; [exact H|].
  apply (pairs_and (fun x y => 0 <= s * turn x y (last l a)) (fun x y => 0 <= s * turn x y a)).
  - intros x y X Y. rewrite (turn_last t (last l a) a c) by auto. apply mix; auto.
  - destruct (last_split _ l a) as (p & E). rewrite E in H |- *. apply turns_end. auto.
  - destruct H as [A _]. constructor; [apply Forall_forall; intros; turnzero|].
    assert (J : forall x y, turn x y a == turn a x y) by (intros; unfold turn; ring).
    clear O. induction A as [|x l X _ IH]; constructor; auto. rewrite Forall_forall in *. intros y Y. rewrite J. auto.
Qed.
Lemma wc_snoc : forall f l a z, with_crossings f a (l ++ [z]) = (with_crossings f a l ++ [last l a]) ++ crossing f (last l a) z.
Proof.
  intros f l. induction l as [|b l IH]; intros a z; [cbn; rewrite app_nil_r; reflexivity|]. cbn [app with_crossings]. rewrite IH, last_cons', <- !app_assoc. reflexivity.
Qed.
Lemma wc_turns : forall s f, affine f -> forall l a pre, turns s (pre ++ a :: l) -> turns s (pre ++ with_crossings f a l ++ [last l a]).
Proof.
  intros s f F l. induction l as [|b l IH]; intros a pre H; [exact H|]. cbn [with_crossings]. rewrite last_cons'.
  destruct (crossing_cases f a b) as [[-> C]|[-> C]]; cbn [app].
  - change (pre ++ a :: with_crossings f b l ++ [last l b]) with (pre ++ [a] ++ (with_crossings f b l ++ [last l b])). rewrite app_assoc. apply IH.
    rewrite <- app_assoc. exact H.
  - change (pre ++ a :: meet f a b :: with_crossings f b l ++ [last l b]) with (pre ++ [a; meet f a b] ++ (with_crossings f b l ++ [last l b])). rewrite app_assoc. apply IH.
    rewrite <- app_assoc. cbn [app].
    assert (P : 0 <= part_of f a b <= 1) by (apply part_range; destruct (opposite _ _ C); lra).
    apply (turns_insert s (part_of f a b)); try apply P; auto. apply meet_on.
Qed.
Lemma half_turns : forall s f p, affine f -> turns s p -> turns s (half f p).
Proof.
  intros s f [|a l] F H; [exact I|]. unfold half. apply turns_filter. rewrite wc_snoc. pose proof (wc_turns s f F l a [] H) as W. cbn [app] in W.
  destruct (crossing_cases f (last l a) a) as [[-> C]|[-> C]]; [rewrite app_nil_r; exact W|].
  destruct (wc_shape f l a) as (r & E). rewrite E in W |- *.
  assert (P : 0 <= part_of f (last l a) a <= 1) by (apply part_range; destruct (opposite _ _ C); lra).
  apply (turns_append s (part_of f (last l a) a)); try apply P; auto.
  assert (L : last r a = last l a). { pose proof (last_app1 _ (with_crossings f a l) (last l a) a) as X. rewrite E, last_cons' in X. exact X. }
  rewrite L. apply meet_on.
Qed.
Lemma fan : forall a l, double_area (a :: l) == walk (turn a) l.
Proof.
  intros a l. rewrite <- closed_cross. unfold closed. destruct l as [|b l]; [unfold walk; cbn; unfold cross; ring|].
  cbn [app]. rewrite walk2.
  assert (H : forall l b, walk cross (b :: l ++ [a]) == walk (turn a) (b :: l) - cross a b).
  { clear. induction l as [|c l IH]; intros b; [cbn; unfold cross; ring|]. cbn [app]. rewrite !walk2, IH. unfold turn, cross. ring. }
  rewrite H. ring.
Qed.
Lemma turns_area : forall s p, turns s p -> 0 <= s * double_area p.
Proof.
  intros s [|a l] H; [unfold double_area; cbn; lra|]. destruct H as [H _]. rewrite fan.
  induction H as [|b l B _ IH]; [cbn; lra|]. destruct l as [|c l]; [cbn; lra|]. rewrite walk2.
  assert (0 <= s * turn a b c) by (rewrite Forall_forall in B; apply B; cbn; auto). lra.
Qed.
Lemma affine_left : forall c, affine (left_of c).
Proof. intros c. exact (affine_opp _ _ (affine_right c) (left_opp c)). Qed.
Lemma affine_below : forall c, affine (below c).
Proof. intros c. exact (affine_opp _ _ (affine_above c) (below_opp c)). Qed.
Lemma overlap_turns : forall s p x0 x1 y0 y1, turns s p -> turns s (overlap p x0 x1 y0 y1).
Proof. intros. unfold overlap. apply half_turns; [apply affine_below|]. apply half_turns; [apply affine_above|]. apply half_turns; [apply affine_left|]. apply half_turns; [apply affine_right|auto]. Qed.
Lemma size_signed : forall s p, (s == 1 \/ s == -1) -> turns s p -> 2 * size p == s * double_area p.
Proof.
  intros s p S H. apply turns_area in H. unfold size, signed_area. destruct S as [S|S].
  - rewrite S in *. rewrite Qabs_pos; [field|apply Qle_shift_div_l; lra].
  - rewrite S in *. rewrite Qabs_neg; [field|apply Qle_shift_div_r; lra].
Qed.

(** * Sums over a grid *)
Lemma qsum_app' : forall a b, qsum (a ++ b) == qsum a + qsum b.
Proof. intros a b. induction a as [|x a IH]; [cbn [app]; change (qsum []) with 0; ring|]. cbn [app]. change (qsum (?x :: ?l)) with (x + qsum l). rewrite IH. ring. Qed.
Lemma telescope : forall (g : nat -> Q) n, qsum (map (fun k => g k - g (S k)) (seq 0 n)) == g 0%nat - g n.
Proof.
  intros g n. induction n as [|n IH]; [cbn; ring|]. rewrite seq_S, map_app, qsum_app', IH. cbn. ring.
Qed.
Lemma qsum_times : forall A (g : A -> Q) c l, qsum (map (fun x => c * g x) l) == c * qsum (map g l).
Proof. intros A g c l. induction l as [|x l IH]; [cbn; ring|]. cbn [map]. change (qsum (?x :: ?l)) with (x + qsum l). rewrite IH. ring. Qed.
Lemma le_edges : forall e i j, increasing e -> (i <= j)%nat -> (j < List.length e)%nat -> edge e i <= edge e j.
Proof. intros e i j I L J. destruct (Nat.eq_dec i j) as [->|N]; [lra|]. apply Qlt_le_weak, I. lia. Qed.
Lemma half_all : forall f p, (forall v, In v p -> 0 <= f v) -> half f p = p.
Proof.
  intros f [|a l] H; [reflexivity|]. unfold half.
  assert (W : forall l a, (forall v, In v (a :: l) -> 0 <= f v) -> with_crossings f a l = removelast (a :: l)).
  { clear. induction l as [|b l IH]; intros a H; [reflexivity|]. cbn [with_crossings]. rewrite IH by (intros; apply H; right; auto).
    unfold crossing. rewrite qle_t; [reflexivity|]. assert (0 <= f a) by (apply H; cbn; auto). assert (0 <= f b) by (apply H; cbn; auto). nra. }
  rewrite W.
  - change (a :: l ++ [a]) with ((a :: l) ++ [a]). rewrite removelast_last. 
    assert (FA : forall l : poly, (forall v, In v l -> 0 <= f v) -> filter (fun v => Qle_bool 0 (f v)) l = l).
    { clear. induction l as [|b l IH]; intros H; [reflexivity|]. cbn [filter]. rewrite qle_t by (apply H; cbn; auto). rewrite IH; auto. intros; apply H; cbn; auto. }
    apply FA. auto.
  - change (a :: l ++ [a]) with ((a :: l) ++ [a]). intros v V. apply in_app_iff in V as [V|[<-|[]]]; [|cbn]; auto. apply H; cbn; auto.
Qed.
Lemma overlap_all : forall p x0 x1 y0 y1, (forall v, In v p -> x0 <= fst v <= x1 /\ y0 <= snd v <= y1) -> overlap p x0 x1 y0 y1 = p.
Proof.
  intros p x0 x1 y0 y1 H. unfold overlap.
  rewrite (half_all (right_of x0)) by (intros v V; specialize (H v V); unfold right_of; lra).
  rewrite (half_all (left_of x1)) by (intros v V; specialize (H v V); unfold left_of; lra).
  rewrite (half_all (above y0)) by (intros v V; specialize (H v V); unfold above; lra).
  apply half_all. intros v V. specialize (H v V). unfold below. lra.
Qed.
(** The cells of the grid share the part of the polygon that is on the grid. *)
Theorem cells_share : forall p xs ys, convex p -> increasing xs -> increasing ys -> (1 < List.length xs)%nat -> (1 < List.length ys)%nat ->
  qsum (map (fun kx => qsum (map (fun ky => size (in_cell p xs ys kx ky)) (seq 0 (List.length ys - 1)))) (seq 0 (List.length xs - 1))) ==
  size (overlap p (edge xs 0) (edge xs (List.length xs - 1)) (edge ys 0) (edge ys (List.length ys - 1))).
Proof.
  intros p xs ys C IX IY LX LY. destruct (convex_turns p C) as (s & S & T).
  assert (Z : forall x0 x1 y0 y1, x0 <= x1 -> y0 <= y1 ->
     size (overlap p x0 x1 y0 y1) == (s / 2) * (corner p x0 y0 - corner p x1 y0 - corner p x0 y1 + corner p x1 y1)).
  { intros. pose proof (size_signed s _ S (overlap_turns s p x0 x1 y0 y1 T)) as E. rewrite overlap_area in E by auto. 
    assert (E2 : size (overlap p x0 x1 y0 y1) == (2 * size (overlap p x0 x1 y0 y1)) / 2) by field. rewrite E2, E. field. }
  set (g := fun kx ky => (s / 2) * (corner p (edge xs kx) (edge ys ky))).
  rewrite (qsum_map_ext _ _ (fun kx => (g kx 0%nat - g kx (List.length ys - 1)%nat) - (g (Datatypes.S kx) 0%nat - g (Datatypes.S kx) (List.length ys - 1)%nat))).
  - rewrite (telescope (fun kx => g kx 0%nat - g kx (List.length ys - 1)%nat)). rewrite Z by (apply le_edges; auto; lia). unfold g. ring.
  - intros kx Kx. apply in_seq in Kx.
    rewrite (qsum_map_ext _ _ (fun ky => (g kx ky - g (Datatypes.S kx) ky) - (g kx (Datatypes.S ky) - g (Datatypes.S kx) (Datatypes.S ky)))).
    + rewrite (telescope (fun ky => g kx ky - g (Datatypes.S kx) ky)). ring.
    + intros ky Ky. apply in_seq in Ky. unfold in_cell. rewrite Z by (apply le_edges; auto; lia). unfold g. ring.
Qed.
(** A polygon beside the rectangle has no part in it. *)
Lemma flat_x : forall p c, (forall v, In v p -> fst v == c) -> double_area p == 0.
Proof. intros p c H. rewrite <- (strip_area 0). apply closed_zero. intros a b A B. unfold strip. rewrite (H a A), (H b B). ring. Qed.
Lemma flat_y : forall p c, (forall v, In v p -> snd v == c) -> double_area p == 0.
Proof. intros p c H. rewrite <- (strip_area c). apply closed_zero. intros a b A B. unfold strip. rewrite (H a A), (H b B). ring. Qed.
Lemma half_keeps : forall f h p, affine f -> affine h -> (forall v, In v p -> 0 <= h v) -> forall v, In v (half f p) -> 0 <= h v.
Proof.
  intros f h [|a l] F H K v V; [contradiction|]. unfold half in V. apply filter_In in V. destruct V as [V _].
  assert (W : forall l a, (forall v, In v (a :: l) -> 0 <= h v) -> forall v, In v (with_crossings f a l) -> 0 <= h v).
  { clear - F H. induction l as [|b l IH]; intros a K v V; [contradiction|]. cbn [with_crossings] in V. destruct V as [<-|V]; [apply K; cbn; auto|].
    apply in_app_iff in V as [V|V]; [|apply (IH b); auto; intros; apply K; right; auto].
    destruct (crossing_cases f a b) as [[E C]|[E C]]; rewrite E in V; [contradiction|]. destruct V as [<-|[]].
    rewrite (H _ _ _ _ (meet_on f a b)). assert (P : 0 <= part_of f a b <= 1) by (apply part_range; destruct (opposite _ _ C); lra).
    assert (0 <= h a) by (apply K; cbn; auto). assert (0 <= h b) by (apply K; cbn; auto). nra. }
  apply (W (l ++ [a]) a); [|exact V]. intros w X. apply K. destruct X as [<-|X]; [cbn; auto|]. apply in_app_iff in X as [X|[<-|[]]]; cbn; auto.
Qed.
Lemma size_flat : forall p, double_area p == 0 -> size p == 0.
Proof. intros p H. unfold size, signed_area. rewrite H. reflexivity. Qed.
Lemma beside : forall p x0 x1 y0 y1,
  (forall v, In v p -> x1 <= fst v) \/ (forall v, In v p -> fst v <= x0) \/ (forall v, In v p -> y1 <= snd v) \/ (forall v, In v p -> snd v <= y0) ->
  size (overlap p x0 x1 y0 y1) == 0.
Proof.
  intros p x0 x1 y0 y1 H. apply size_flat. unfold overlap.
  set (p1 := half (right_of x0) p). set (p2 := half (left_of x1) p1). set (p3 := half (above y0) p2).
  destruct H as [H|[H|[H|H]]].
  - apply (flat_x _ x1). intros v V.
    assert (A : 0 <= left_of x1 v).
    { apply (half_keeps (below y1) _ p3 (affine_below y1) (affine_left x1)); auto. apply (half_keeps (above y0) _ p2 (affine_above y0) (affine_left x1)). apply half_in. }
    assert (B : 0 <= right_of x1 v).
    { apply (half_keeps (below y1) _ p3 (affine_below y1) (affine_right x1)); auto. apply (half_keeps (above y0) _ p2 (affine_above y0) (affine_right x1)).
      apply (half_keeps (left_of x1) _ p1 (affine_left x1) (affine_right x1)). apply (half_keeps (right_of x0) _ p (affine_right x0) (affine_right x1)).
      intros w W. specialize (H w W). unfold right_of. lra. }
    unfold left_of, right_of in *. lra.
  - apply (flat_x _ x0). intros v V.
    assert (A : 0 <= right_of x0 v).
    { apply (half_keeps (below y1) _ p3 (affine_below y1) (affine_right x0)); auto. apply (half_keeps (above y0) _ p2 (affine_above y0) (affine_right x0)).
      apply (half_keeps (left_of x1) _ p1 (affine_left x1) (affine_right x0)). apply half_in. }
    assert (B : 0 <= left_of x0 v).
    { apply (half_keeps (below y1) _ p3 (affine_below y1) (affine_left x0)); auto. apply (half_keeps (above y0) _ p2 (affine_above y0) (affine_left x0)).
      apply (half_keeps (left_of x1) _ p1 (affine_left x1) (affine_left x0)). apply (half_keeps (right_of x0) _ p (affine_right x0) (affine_left x0)).
      intros w W. specialize (H w W). unfold left_of. lra. }
    unfold left_of, right_of in *. lra.
  - apply (flat_y _ y1). intros v V.
    assert (A : 0 <= below y1 v) by (apply (half_in _ _ _ V)).
    assert (B : 0 <= above y1 v).
    { apply (half_keeps (below y1) _ p3 (affine_below y1) (affine_above y1)); auto. apply (half_keeps (above y0) _ p2 (affine_above y0) (affine_above y1)).
      apply (half_keeps (left_of x1) _ p1 (affine_left x1) (affine_above y1)). apply (half_keeps (right_of x0) _ p (affine_right x0) (affine_above y1)).
      intros w W. specialize (H w W). unfold above. lra. }
    unfold below, above in *. lra.
  - apply (flat_y _ y0). intros v V.
    assert (A : 0 <= above y0 v) by (apply (half_keeps (below y1) _ p3 (affine_below y1) (affine_above y0)); auto; apply half_in).
    assert (B : 0 <= below y0 v).
    { apply (half_keeps (below y1) _ p3 (affine_below y1) (affine_below y0)); auto. apply (half_keeps (above y0) _ p2 (affine_above y0) (affine_below y0)).
      apply (half_keeps (left_of x1) _ p1 (affine_left x1) (affine_below y0)). apply (half_keeps (right_of x0) _ p (affine_right x0) (affine_below y0)).
      intros w W. specialize (H w W). unfold below. lra. }
    unfold below, above in *. lra.
Qed.
