(** Lemmas on clipping in integer coordinates. *)
From Coq Require Import List ZArith QArith Qabs Qfield Lqa Lia Bool.
From Verif Require Import Base BaseProofs Poly PolySpec PolyProofs BBox Slice SliceSpec SliceProofs LutProofs Pipeline PipelineSpec Scaled ScaledSpec.
Import ListNotations.
Local Open Scope Q_scope.

Lemma step_pos : 0 < step. Proof. reflexivity. Qed.
Lemma scale_near : forall v, Qabs (unscale_value (scale_value v) - v) <= step.
Proof.
  intros [n d]. unfold unscale_value, scale_value. cbn [Qnum Qden].
  pose proof (Z.quot_rem (n * Zpos scale_fact) (Zpos d) ltac:(lia)) as E.
  pose proof (Z.rem_bound_abs (n * Zpos scale_fact) (Zpos d) ltac:(lia)) as B.
  set (a := Z.quot (n * Zpos scale_fact) (Zpos d)) in *. set (r := Z.rem (n * Zpos scale_fact) (Zpos d)) in *.
  change step with (1 # scale_fact).
  apply Qabs_Qle_condition. unfold Qle, Qminus, Qplus, Qopp. cbn [Qnum Qden]. rewrite !Pos2Z.inj_mul. nia.
Qed.
Lemma size_quad : forall a b c d, signed_area [a; b; c; d] ==
  ((fst a - fst c) * (snd b - snd d) - (snd a - snd c) * (fst b - fst d)) / 2.
Proof. intros. unfold signed_area. rewrite double_cyc. unfold cyc. simpl app. rewrite !op_cons2. change (op [_]) with 0. unfold cross. field. Qed.

Lemma mul_left : forall x y z, 0 <= z -> x <= y -> z * x <= z * y.
Proof. intros x y z Hz H. pose proof (Qmult_le_compat_r x y z H Hz). lra. Qed.
Lemma prod_near : forall x y x' y' e, 0 <= e -> Qabs (x' - x) <= 2 * e -> Qabs (y' - y) <= 2 * e ->
  Qabs (x' * y' - x * y) <= 2 * e * Qabs x + 2 * e * Qabs y + 4 * (e * e).
Proof.
  intros x y x' y' e He Hx Hy.
  setoid_replace (x' * y' - x * y) with (x * (y' - y) + ((x' - x) * y + (x' - x) * (y' - y))) by ring.
  eapply Qle_trans; [apply Qabs_triangle|]. rewrite Qabs_Qmult.
  assert (A : Qabs x * Qabs (y' - y) <= Qabs x * (2 * e)) by (apply mul_left; [apply Qabs_nonneg|exact Hy]).
  assert (B : Qabs ((x' - x) * y + (x' - x) * (y' - y)) <= 2 * e * Qabs y + (2 * e) * (2 * e)).
  { eapply Qle_trans; [apply Qabs_triangle|]. rewrite !Qabs_Qmult. apply Qplus_le_compat.
    - apply Qmult_le_compat_r; [exact Hx|apply Qabs_nonneg].
    - eapply Qle_trans; [apply Qmult_le_compat_r; [exact Hx|apply Qabs_nonneg]|]. apply mul_left; [lra|exact Hy]. }
  lra.
Qed.
Lemma diff_near : forall a b a' b' e, Qabs (a' - a) <= e -> Qabs (b' - b) <= e -> Qabs ((a' - b') - (a - b)) <= 2 * e.
Proof. intros a b a' b' e Ha Hb. apply Qabs_Qle_condition in Ha, Hb. apply Qabs_Qle_condition. lra. Qed.

(** The size of a quadrilateral whose corners moved by up to [e] along each axis. *)
Lemma quad_near : forall a b c d a' b' c' d' e, 0 <= e ->
  (forall f, f = fst \/ f = snd -> Qabs (f a' - f a) <= e /\ Qabs (f b' - f b) <= e /\ Qabs (f c' - f c) <= e /\ Qabs (f d' - f d) <= e) ->
  Qabs (size [a'; b'; c'; d'] - size [a; b; c; d]) <= e * diagonals a b c d + 4 * (e * e).
Proof.
  intros a b c d a' b' c' d' e He H. unfold size.
  apply Qle_trans with (Qabs (signed_area [a'; b'; c'; d'] - signed_area [a; b; c; d])).
  { apply Qabs_Qle_condition. pose proof (Qabs_triangle_reverse (signed_area [a'; b'; c'; d']) (signed_area [a; b; c; d])) as T1.
    pose proof (Qabs_triangle_reverse (signed_area [a; b; c; d]) (signed_area [a'; b'; c'; d'])) as T2.
    rewrite (Qabs_Qminus (signed_area [a; b; c; d])) in T2. split; lra. }
  rewrite !size_quad. destruct (H fst (or_introl eq_refl)) as (xa & xb & xc & xd). destruct (H snd (or_intror eq_refl)) as (ya & yb & yc & yd).
  pose proof (prod_near _ _ _ _ e He (diff_near _ _ _ _ _ xa xc) (diff_near _ _ _ _ _ yb yd)) as P1.
  pose proof (prod_near _ _ _ _ e He (diff_near _ _ _ _ _ ya yc) (diff_near _ _ _ _ _ xb xd)) as P2.
  unfold diagonals.
  set (X := fst a - fst c) in *. set (Y := snd a - snd c) in *. set (U := fst b - fst d) in *. set (V := snd b - snd d) in *.
  set (X' := fst a' - fst c') in *. set (Y' := snd a' - snd c') in *. set (U' := fst b' - fst d') in *. set (V' := snd b' - snd d') in *.
  apply Qabs_Qle_condition in P1, P2. apply Qabs_Qle_condition. split.
  - apply Qle_minus_iff. setoid_replace ((X' * V' - Y' * U') / 2 - (X * V - Y * U) / 2) with (((X' * V' - X * V) - (Y' * U' - Y * U)) * (1 # 2)) by field. lra.
  - setoid_replace ((X' * V' - Y' * U') / 2 - (X * V - Y * U) / 2) with (((X' * V' - X * V) - (Y' * U' - Y * U)) * (1 # 2)) by field. lra.
Qed.

Lemma signed_scale : forall k p, signed_area (map (fun v => (k * fst v, k * snd v)) p) == k * k * signed_area p.
Proof.
  intros k p. unfold signed_area. rewrite !double_cyc. destruct p as [|a l]; [cbn; field|]. unfold cyc. cbn [map].
  assert (O : forall l, op (map (fun v => (k * fst v, k * snd v)) l) == k * k * op l).
  { induction l0 as [|b l0 IH]; [cbn; ring|]. destruct l0 as [|c l0]; [cbn; ring|]. cbn [map]. cbn [map] in IH. rewrite !op_cons2, IH. unfold cross. cbn [fst snd]. ring. }
  specialize (O ((a :: l) ++ [a])). rewrite map_app in O. cbn [map] in O. rewrite O. field.
Qed.

Lemma op_scale_from : forall l, op (scale_from l) == step * step * op (whole l).
Proof.
  induction l as [|a l IH]; [cbn; reflexivity|]. destruct l as [|b l]; [cbn; reflexivity|].
  change (scale_from (a :: b :: l)) with ((unscale_value (fst a), unscale_value (snd a)) :: (unscale_value (fst b), unscale_value (snd b)) :: scale_from l).
  change (whole (a :: b :: l)) with ((inject_Z (fst a), inject_Z (snd a)) :: (inject_Z (fst b), inject_Z (snd b)) :: whole l).
  rewrite !op_cons2. change (scale_from (b :: l)) with ((unscale_value (fst b), unscale_value (snd b)) :: scale_from l) in IH.
  change (whole (b :: l)) with ((inject_Z (fst b), inject_Z (snd b)) :: whole l) in IH. rewrite IH. unfold cross. cbn [fst snd].
  assert (U : forall z, unscale_value z == step * inject_Z z) by (intros z; unfold unscale_value, step, Qeq, Qmult, inject_Z; cbn [Qnum Qden]; rewrite Pos.mul_1_r; unfold scale_fact; lia).
  rewrite !U. ring.
Qed.
Lemma size_scale_from : forall p, size (scale_from p) == step * step * size (whole p).
Proof.
  intros p. unfold size, signed_area. rewrite !double_cyc. destruct p as [|a l]; [reflexivity|].
  assert (E : cyc (scale_from (a :: l)) == step * step * cyc (whole (a :: l))).
  { unfold cyc. cbn [scale_from whole map]. pose proof (op_scale_from ((a :: l) ++ [a])) as O. unfold scale_from, whole in O. rewrite !map_app in O. exact O. }
  rewrite E. setoid_replace (step * step * cyc (whole (a :: l)) / 2) with (step * step * (cyc (whole (a :: l)) / 2)) by field. rewrite Qabs_Qmult. reflexivity.
Qed.
Lemma quad_scaled : forall p, List.length p = 4%nat -> Qabs (size (scale_from (scale_to p)) - size p) <= slack p.
Proof.
  intros p L. destruct p as [|a [|b [|c [|d [|]]]]]; try discriminate. unfold slack. cbn [scale_to scale_from map fst snd].
  apply quad_near; [discriminate|]. intros f Hf. pose proof scale_near as N. destruct Hf as [->| ->]; cbn [fst snd]; auto.
Qed.
Lemma scaled_proper : forall iclip, (forall p q c, In c (iclip p q) -> c <> []) -> proper (scaled_clip iclip).
Proof. intros iclip H p q c Hc. unfold scaled_clip in Hc. apply in_map_iff in Hc. destruct Hc as (i & <- & Hi). destruct i as [|]; [destruct (H _ _ _ Hi eq_refl)|discriminate]. Qed.

(** Sizes of all pieces. *)
Lemma sum_sizes : forall l, qsum (map (fun c => size (scale_from c)) l) == step * step * qsum (map (fun c => size (whole c)) l).
Proof. induction l as [|c l IH]; [reflexivity|]. cbn [map]. change (qsum (?x :: ?l)) with (x + qsum l). rewrite IH, size_scale_from. ring. Qed.
Lemma cut_sizes : forall iclip m p cells,
  qsum (map (fun e => size (fst e)) (cut (scaled_clip iclip) m p cells)) ==
  step * step * qsum (map (fun c => size (whole c)) (flat_map (iclip (scale_to p)) (map (fun c => scale_to (cell_quad m c)) cells))).
Proof.
  intros iclip m p cells. rewrite <- sum_sizes. induction cells as [|c cells IH]; [reflexivity|].
  unfold cut in *. cbn [flat_map map]. rewrite !map_app, !qsum_app, IH. unfold scaled_clip. rewrite !map_map. cbn [fst]. reflexivity.
Qed.
Lemma within_scaled : forall eta s p, List.length p = 4%nat -> within eta s (size (whole (scale_to p))) ->
  within (slack p + step * step * eta) (step * step * s) (size p).
Proof.
  intros eta s p L H. unfold within in *. pose proof (quad_scaled p L) as Q. rewrite size_scale_from in Q.
  apply Qabs_Qle_condition in H, Q. set (w := size (whole (scale_to p))) in *.
  assert (P : 0 <= step * step) by discriminate.
  pose proof (mul_left _ _ _ P (proj1 H)). pose proof (mul_left _ _ _ P (proj2 H)). apply Qabs_Qle_condition. lra.
Qed.
Lemma div_near : forall e a b, 0 < b -> within (e * b) a b -> within e (a / b) 1.
Proof.
  intros e a b B H. unfold within in *. setoid_replace (a / b - 1) with ((a - b) * / b) by (field; lra). rewrite Qabs_Qmult.
  assert (I : 0 < / b) by (apply Qinv_lt_0_compat; exact B). rewrite (Qabs_pos (/ b)) by lra.
  apply Qle_trans with (e * b * / b); [apply Qmult_le_compat_r; [exact H|lra]|]. setoid_replace (e * b * / b) with e by (field; lra). apply Qle_refl.
Qed.
Lemma within_le : forall e e' v w, within e v w -> e <= e' -> within e' v w.
Proof. intros e e' v w H L. unfold within in *. lra. Qed.
(** Sums of numbers each known up to the same relative error. *)
Lemma sum_near : forall A (f g : A -> Q) e l, 0 <= e -> (forall x, In x l -> 0 <= f x) -> (forall x, In x l -> within e (g x) 1) ->
  within (e * qsum (map f l)) (qsum (map (fun x => f x * g x) l)) (qsum (map f l)).
Proof.
  intros A f g e l He. induction l as [|x l IH]; intros F G; [unfold within; cbn [map]; change (qsum []) with 0; apply Qabs_Qle_condition; lra|].
  cbn [map]. change (qsum (?y :: ?r)) with (y + qsum r). specialize (IH (fun y Hy => F y (or_intror Hy)) (fun y Hy => G y (or_intror Hy))).
  pose proof (F x (or_introl eq_refl)) as Fx. pose proof (G x (or_introl eq_refl)) as Gx. unfold within in *.
  apply Qabs_Qle_condition in IH, Gx. pose proof (mul_left _ _ _ Fx (proj1 Gx)). pose proof (mul_left _ _ _ Fx (proj2 Gx)). apply Qabs_Qle_condition. lra.
Qed.
(** The clipping of Slice.v, with this library, is clip_polys_by_one_poly as called (scale=True). *)
Lemma clip_scaled_eq : forall iclip polys p, clip_scaled iclip polys p = clip_polys_by_one_poly (scaled_clip iclip) polys p.
Proof. reflexivity. Qed.
