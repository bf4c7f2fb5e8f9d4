(** Lemmas on polygon areas and meshes. *)
From Coq Require Import List ZArith QArith Bool Lia Lqa Setoid.
From Verif Require Import Base BaseProofs LutProofs Poly PolySpec.
Import ListNotations.
Local Open Scope Q_scope.

(** Sum of cross products along an open path. *)
Fixpoint op (l : poly) : Q :=
  match l with
  | a :: ((b :: _) as r) => cross a b + op r
  | _ => 0
  end.
Lemma op_cons2 : forall a b l, op (a :: b :: l) = cross a b + op (b :: l).
Proof. reflexivity. Qed.
Lemma op_app : forall l b m, op (l ++ b :: m) == op (l ++ [b]) + op (b :: m).
Proof.
  induction l as [|a l IH]; intros b m; [simpl app; change (op [b]) with 0; ring|].
  destruct l as [|c l].
  - simpl app. rewrite !op_cons2. change (op [b]) with 0. ring.
  - change ((a :: c :: l) ++ b :: m) with (a :: c :: (l ++ b :: m)). change ((a :: c :: l) ++ [b]) with (a :: c :: (l ++ [b])).
    rewrite !op_cons2. change (c :: l ++ b :: m) with ((c :: l) ++ b :: m). rewrite IH.
    change (c :: l ++ [b]) with ((c :: l) ++ [b]). ring.
Qed.
Lemma op_snoc : forall l a b, op (l ++ [a; b]) == op (l ++ [a]) + cross a b.
Proof. intros. rewrite op_app. rewrite op_cons2. change (op [b]) with 0. ring. Qed.

(** Cyclic sum. *)
Definition cyc (p : poly) : Q := match p with [] => 0 | a :: _ => op (p ++ [a]) end.

Lemma qsum_map_ext : forall A (f g : A -> Q) l, (forall x, In x l -> f x == g x) -> qsum (map f l) == qsum (map g l).
Proof.
  induction l as [|x l IH]; intros H; [reflexivity|]. simpl. rewrite (H x) by (left; auto). rewrite IH by (intros; apply H; right; auto). reflexivity.
Qed.

Lemma op_seq : forall l d, op l == qsum (map (fun i => cross (nth i l d) (nth (S i) l d)) (seq 0 (List.length l - 1))).
Proof.
  induction l as [|a l IH]; intros d; [reflexivity|]. destruct l as [|b l]; [reflexivity|].
  rewrite op_cons2. rewrite (IH d). cbn [List.length]. rewrite !Nat.sub_succ, !Nat.sub_0_r.
  cbn [seq map qsum fold_right]. rewrite <- seq_shift, map_map. reflexivity.
Qed.
Lemma vertex_app : forall a l i, (i <= List.length (a :: l))%nat ->
  vertex (a :: l) i = nth i ((a :: l) ++ [a]) (0, 0).
Proof.
  intros a l i H. unfold vertex. destruct (Nat.eq_dec i (List.length (a :: l))) as [->|N].
  - rewrite Nat.mod_same by (simpl; lia). rewrite app_nth2 by lia. rewrite Nat.sub_diag. reflexivity.
  - rewrite Nat.mod_small by lia. rewrite app_nth1 by lia. reflexivity.
Qed.
Lemma double_cyc : forall p, double_area p == cyc p.
Proof.
  intros [|a l]; [reflexivity|]. unfold cyc, double_area. rewrite (op_seq _ (0, 0)). rewrite app_length. cbn [List.length].
  replace (S (List.length l) + 1 - 1)%nat with (S (List.length l)) by lia.
  apply qsum_map_ext. intros i Hi. apply in_seq in Hi. rewrite !vertex_app by (simpl; lia). reflexivity.
Qed.

(** * poly_area computes the cyclic sum *)
Lemma det_op : forall l a,
  qsum (map2 Qminus (map2 Qmult (removelast (map fst (a :: l))) (map snd l))
                    (map2 Qmult (map fst l) (removelast (map snd (a :: l))))) == op (a :: l).
Proof.
  induction l as [|b l IH]; intros a; [reflexivity|]. rewrite op_cons2.
  change (removelast (map fst (a :: b :: l))) with (fst a :: removelast (map fst (b :: l))).
  change (removelast (map snd (a :: b :: l))) with (snd a :: removelast (map snd (b :: l))).
  change (qsum (map2 Qminus (map2 Qmult (fst a :: removelast (map fst (b :: l))) (snd b :: map snd l))
                    (map2 Qmult (fst b :: map fst l) (snd a :: removelast (map snd (b :: l)))))
          == cross a b + op (b :: l)).
  change (fst a * snd b - fst b * snd a + qsum (map2 Qminus (map2 Qmult (removelast (map fst (b :: l))) (map snd l))
                    (map2 Qmult (map fst l) (removelast (map snd (b :: l))))) == cross a b + op (b :: l)).
  rewrite IH. unfold cross. ring.
Qed.
Lemma last_map : forall A B (f : A -> B) l d, last (map f l) (f d) = f (last l d).
Proof. induction l as [|a l IH]; intros d; [reflexivity|]. destruct l; [reflexivity|]. exact (IH d). Qed.
Lemma op_close : forall l a, op ((a :: l) ++ [a]) == op (a :: l) + cross (last (a :: l) (0, 0)) a.
Proof.
  intros l a. destruct l as [|b l _] using rev_ind.
  - simpl app. rewrite op_cons2. simpl last. change (op [a]) with 0. ring.
  - rewrite app_comm_cons, last_last. rewrite <- app_assoc. simpl ([b] ++ [a]). rewrite op_snoc. reflexivity.
Qed.
Lemma area_cyc : forall p, match p with
  | [] => area_of p = Err IndexError
  | _ => exists q, area_of p = Ok q /\ q == cyc p / 2
  end.
Proof.
  intros [|a l]; [reflexivity|]. unfold area_of, poly_area. rewrite !map_length, Nat.eqb_refl. cbn [negb].
  eexists. split; [reflexivity|].
  match goal with |- (qsum ?D + _) * _ == _ => 
    change (qsum D) with (qsum (map2 Qminus (map2 Qmult (removelast (map fst (a :: l))) (map snd l))
                    (map2 Qmult (map fst l) (removelast (map snd (a :: l)))))) end.
  rewrite (det_op l a).
  change (last (map fst (a :: l)) 0) with (last (map fst (a :: l)) (fst (0, 0))).
  change (last (map snd (a :: l)) 0) with (last (map snd (a :: l)) (snd (0, 0))).
  rewrite !last_map. unfold cyc. rewrite op_close. unfold cross. field.
Qed.
Lemma area_signed : forall p, p <> [] -> exists q, area_of p = Ok q /\ q == signed_area p.
Proof.
  intros p H. pose proof (area_cyc p) as A. destruct p as [|a l]; [congruence|]. destruct A as (q & E & Q).
  exists q. split; [exact E|]. rewrite Q. unfold signed_area. rewrite double_cyc. reflexivity.
Qed.

(** * Vectorised form *)
Lemma combine_maps : forall A B C (f : A -> B) (g : A -> C) l, combine (map f l) (map g l) = map (fun x => (f x, g x)) l.
Proof. induction l as [|a l IH]; [reflexivity|]. simpl. rewrite IH. reflexivity. Qed.
Lemma map2_maps : forall A B C D (h : B -> C -> D) (f : A -> B) (g : A -> C) l,
  map2 h (map f l) (map g l) = map (fun x => h (f x) (g x)) l.
Proof. induction l as [|a l IH]; [reflexivity|]. simpl. rewrite IH. reflexivity. Qed.
Lemma vectorized_rows : forall ps : list poly,
  vectorized_poly_area (map (map fst) ps) (map (map snd) ps) = map_res area_of ps.
Proof.
  intros ps. unfold vectorized_poly_area. rewrite !map_length, Nat.eqb_refl. cbn [negb].
  rewrite combine_maps. assert (F : forallb (fun r : list Q * list Q => Nat.eqb (List.length (fst r)) (List.length (snd r)))
      (map (fun p : poly => (map fst p, map snd p)) ps) = true).
  { apply forallb_forall. intros r Hr. apply in_map_iff in Hr. destruct Hr as (p & <- & _). simpl. rewrite !map_length. apply Nat.eqb_refl. }
  rewrite F. cbn [negb]. destruct (existsb (fun r : list Q => Nat.eqb (List.length r) 0) (map (map fst) ps)) eqn:E.
  - symmetry. clear F. induction ps as [|p ps IH]; [discriminate|]. cbn [map existsb] in E. cbn [map_res].
    destruct p as [|a l]; [reflexivity|]. cbn [map List.length Nat.eqb orb] in E. specialize (IH E).
    pose proof (area_cyc (a :: l)) as (q & Eq & _). rewrite Eq. cbn [bind]. rewrite IH. reflexivity.
  - cbv zeta. rewrite !map_map. repeat (rewrite !map2_maps || rewrite !map_map). symmetry.
    clear F. induction ps as [|p ps IH]; [reflexivity|]. cbn [map existsb] in E. apply orb_false_iff in E. destruct E as [E1 E2].
    specialize (IH E2). cbn [map_res map]. destruct p as [|a l]; [discriminate|].
    unfold area_of at 1, poly_area. rewrite !map_length, Nat.eqb_refl. cbn [negb map bind hd tl].
    rewrite IH. reflexivity.
Qed.

(** * Invariances *)
Lemma cyc_rotate1 : forall a l, cyc (a :: l) == cyc (l ++ [a]).
Proof.
  intros a [|b l]; [reflexivity|].
  change (cyc ((b :: l) ++ [a])) with (op (((b :: l) ++ [a]) ++ [b])).
  change (cyc (a :: b :: l)) with (op (a :: b :: (l ++ [a]))).
  rewrite <- app_assoc. change ([a] ++ [b]) with [a; b]. rewrite op_snoc, op_cons2.
  change (b :: l ++ [a]) with ((b :: l) ++ [a]). ring.
Qed.
Lemma cyc_rotate : forall p q, cyc (p ++ q) == cyc (q ++ p).
Proof.
  induction p as [|a p IH]; intros q; [rewrite app_nil_r; reflexivity|].
  change ((a :: p) ++ q) with (a :: (p ++ q)). rewrite cyc_rotate1. rewrite <- app_assoc. rewrite IH. rewrite <- app_assoc. reflexivity.
Qed.
Lemma cross_anti : forall a b, cross a b == - cross b a.
Proof. intros. unfold cross. ring. Qed.
Lemma op_rev : forall l, op (rev l) == - op l.
Proof.
  induction l as [|a l IH]; [reflexivity|]. destruct l as [|b l]; [reflexivity|].
  cbn [rev]. rewrite <- app_assoc. simpl ([b] ++ [a]). rewrite op_snoc. cbn [rev] in IH. rewrite IH. rewrite op_cons2, (cross_anti b a). ring.
Qed.
Lemma cyc_rev : forall p, cyc (rev p) == - cyc p.
Proof.
  intros [|a l]; [reflexivity|]. cbn [rev]. rewrite cyc_rotate. simpl app. unfold cyc.
  change ((a :: rev l) ++ [a]) with (a :: (rev l ++ [a])). rewrite <- (rev_involutive (a :: rev l ++ [a])). rewrite op_rev.
  apply Qopp_comp. cbn [rev]. rewrite rev_app_distr, rev_involutive. simpl. reflexivity.
Qed.
Lemma op_translate : forall t l, op (translate t l) == op l + match l with [] => 0 | a :: _ => cross t (last l (0, 0)) - cross t a end.
Proof.
  induction l as [|a l IH]; [unfold translate; simpl; ring|]. destruct l as [|b l].
  - unfold translate. simpl. ring.
  - unfold translate in *. cbn [map]. rewrite op_cons2. cbn [map] in IH. rewrite IH. rewrite op_cons2.
    change (last (a :: b :: l) (0, 0)) with (last (b :: l) (0, 0)). unfold cross. cbn [fst snd]. ring.
Qed.
Lemma cyc_translate : forall t p, cyc (translate t p) == cyc p.
Proof.
  intros t [|a l]; [reflexivity|]. unfold cyc. change (translate t (a :: l)) with ((fst a + fst t, snd a + snd t) :: translate t l).
  cbv beta iota. change ((fst a + fst t, snd a + snd t) :: translate t l) with (translate t (a :: l)).
  replace (translate t (a :: l) ++ [(fst a + fst t, snd a + snd t)]) with (translate t ((a :: l) ++ [a])) by (unfold translate; rewrite map_app; reflexivity).
  rewrite op_translate. change ((a :: l) ++ [a]) with (a :: (l ++ [a])) at 2. cbv beta iota.
  change (a :: l ++ [a]) with ((a :: l) ++ [a]). rewrite last_last. ring.
Qed.
Lemma op_linear : forall a b c d l, op (linear a b c d l) == (a * d - b * c) * op l.
Proof.
  induction l as [|u l IH]; [unfold linear; simpl; ring|]. destruct l as [|v l]; [unfold linear; simpl; ring|].
  unfold linear in *. cbn [map]. rewrite op_cons2. cbn [map] in IH. rewrite IH. rewrite op_cons2. unfold cross. cbn [fst snd]. ring.
Qed.
Lemma cyc_linear : forall a b c d p, cyc (linear a b c d p) == (a * d - b * c) * cyc p.
Proof.
  intros a b c d [|u l]; [unfold linear, cyc; simpl; ring|]. unfold cyc at 2. rewrite <- op_linear.
  unfold linear. rewrite map_app. reflexivity.
Qed.
Lemma cyc_diagonal : forall a p b q, cyc (a :: p ++ b :: q) == cyc (a :: p ++ [b]) + cyc (a :: b :: q).
Proof.
  intros a p b q. unfold cyc.
  replace ((a :: p ++ b :: q) ++ [a]) with ((a :: p) ++ b :: (q ++ [a])) by (simpl; rewrite <- app_assoc; reflexivity).
  replace ((a :: p ++ [b]) ++ [a]) with ((a :: p) ++ [b; a]) by (simpl; rewrite <- app_assoc; reflexivity).
  rewrite op_app, op_snoc. change ((a :: b :: q) ++ [a]) with (a :: b :: (q ++ [a])). rewrite op_cons2, (cross_anti b a). ring.
Qed.
(** * Arrays *)
Definition at2 {A} (a : arr A) (i j : nat) : option A :=
  match nth_error a i with Some r => nth_error r j | None => None end.
Lemma nth_error_map2 : forall A B C (f : A -> B -> C) a b i,
  nth_error (map2 f a b) i = match nth_error a i, nth_error b i with Some x, Some y => Some (f x y) | _, _ => None end.
Proof.
  induction a as [|x a IH]; intros [|y b] [|i]; simpl; auto; destruct (nth_error _ i); auto.
Qed.
Lemma nth_error_removelast : forall A (l : list A) i, (S i < List.length l)%nat -> nth_error (removelast l) i = nth_error l i.
Proof.
  induction l as [|a l IH]; intros i H; [simpl in H; lia|]. destruct l as [|b l]; [simpl in H; lia|].
  change (removelast (a :: b :: l)) with (a :: removelast (b :: l)). destruct i; [reflexivity|]. cbn [nth_error]. apply IH. simpl in *; lia.
Qed.
Lemma removelast_length : forall A (l : list A), List.length (removelast l) = (List.length l - 1)%nat.
Proof. induction l as [|a l IH]; [reflexivity|]. destruct l as [|b l]; [reflexivity|].
  change (removelast (a :: b :: l)) with (a :: removelast (b :: l)). cbn [List.length]. rewrite IH. simpl. lia. Qed.
Lemma nth_error_tl : forall A (l : list A) i, nth_error (tl l) i = nth_error l (S i).
Proof. intros A [|a l] i; [destruct i; reflexivity|reflexivity]. Qed.
Lemma tl_length : forall A (l : list A), List.length (tl l) = (List.length l - 1)%nat.
Proof. intros A [|a l]; simpl; lia. Qed.
Lemma map2_length : forall A B C (f : A -> B -> C) a b, List.length (map2 f a b) = Nat.min (List.length a) (List.length b).
Proof. induction a as [|x a IH]; intros [|y b]; simpl; auto. Qed.

Lemma shape_iff : forall A m n (a : arr A), shape m n a <->
  (List.length a = m /\ forall i r, nth_error a i = Some r -> List.length r = n).
Proof.
  intros A m n a. unfold shape. split; intros [H1 H2]; split; auto.
  - intros i r H. rewrite Forall_forall in H2. apply H2. eapply nth_error_In; eauto.
  - apply Forall_forall. intros r Hr. apply In_nth_error in Hr. destruct Hr as [i Hi]. eauto.
Qed.
Lemma shape_map2 : forall A B C (f : A -> B -> C) m n a b, shape m n a -> shape m n b -> shape m n (map2 (map2 f) a b).
Proof.
  intros A B C f m n a b Ha Hb. apply shape_iff in Ha, Hb. apply shape_iff. destruct Ha as [A1 A2], Hb as [B1 B2].
  split; [rewrite map2_length; lia|]. intros i r H. rewrite nth_error_map2 in H.
  destruct (nth_error a i) eqn:E1; [|discriminate]. destruct (nth_error b i) eqn:E2; [|discriminate]. inversion H; subst.
  rewrite map2_length, (A2 _ _ E1), (B2 _ _ E2). lia.
Qed.
Lemma at2_map2 : forall A B C (f : A -> B -> C) a b i j,
  at2 (map2 (map2 f) a b) i j = match at2 a i j, at2 b i j with Some x, Some y => Some (f x y) | _, _ => None end.
Proof.
  intros. unfold at2. rewrite nth_error_map2. destruct (nth_error a i) as [r|]; [|reflexivity].
  destruct (nth_error b i) as [s|]; [apply nth_error_map2|]. destruct (nth_error r j); reflexivity.
Qed.
Lemma shape_top : forall A m n (a : arr A), shape m n a -> shape (m - 1) n (top a).
Proof.
  intros A m n a [H1 H2]. split; [unfold top; rewrite removelast_length; lia|].
  apply Forall_forall. intros r Hr. rewrite Forall_forall in H2. apply H2. clear -Hr. unfold top in Hr.
  destruct a as [|x a _] using rev_ind; [destruct Hr|]. rewrite removelast_last in Hr. apply in_or_app; auto.
Qed.
Lemma shape_bottom : forall A m n (a : arr A), shape m n a -> shape (m - 1) n (bottom a).
Proof.
  intros A m n a [H1 H2]. split; [unfold bottom; rewrite tl_length; lia|].
  destruct a; [constructor|]. inversion H2; auto.
Qed.
Lemma shape_left : forall A m n (a : arr A), shape m n a -> shape m (n - 1) (left a).
Proof.
  intros A m n a [H1 H2]. split; [unfold left; rewrite map_length; lia|].
  apply Forall_forall. intros r Hr. apply in_map_iff in Hr. destruct Hr as (s & <- & Hs). rewrite Forall_forall in H2.
  rewrite removelast_length, (H2 _ Hs). reflexivity.
Qed.
Lemma shape_right : forall A m n (a : arr A), shape m n a -> shape m (n - 1) (right a).
Proof.
  intros A m n a [H1 H2]. split; [unfold right; rewrite map_length; lia|].
  apply Forall_forall. intros r Hr. apply in_map_iff in Hr. destruct Hr as (s & <- & Hs). rewrite Forall_forall in H2.
  rewrite tl_length, (H2 _ Hs). reflexivity.
Qed.
Lemma at2_top : forall A m n (a : arr A) i j, shape m n a -> (i < m - 1)%nat -> at2 (top a) i j = at2 a i j.
Proof. intros A m n a i j [H1 H2] H. unfold at2, top. rewrite nth_error_removelast by lia. reflexivity. Qed.
Lemma at2_bottom : forall A (a : arr A) i j, at2 (bottom a) i j = at2 a (S i) j.
Proof. intros. unfold at2, bottom. rewrite nth_error_tl. reflexivity. Qed.
Lemma at2_left : forall A m n (a : arr A) i j, shape m n a -> (j < n - 1)%nat -> at2 (left a) i j = at2 a i j.
Proof.
  intros A m n a i j H Hj. apply shape_iff in H. destruct H as [_ H]. unfold at2, left. rewrite nth_error_map.
  destruct (nth_error a i) as [r|] eqn:E; [|reflexivity]. cbn. rewrite nth_error_removelast; [reflexivity|]. rewrite (H _ _ E). lia.
Qed.
Lemma at2_right : forall A (a : arr A) i j, at2 (right a) i j = at2 a i (S j).
Proof.
  intros. unfold at2, right. rewrite nth_error_map. destruct (nth_error a i) as [r|]; [|reflexivity]. cbn. apply nth_error_tl.
Qed.
Lemma at2_entry : forall A (d : A) m n a i j, shape m n a -> (i < m)%nat -> (j < n)%nat -> at2 a i j = Some (entry d a i j).
Proof.
  intros A d m n a i j H Hi Hj. apply shape_iff in H. destruct H as [H1 H2]. unfold at2, entry.
  destruct (nth_error a i) as [r|] eqn:E; [|apply nth_error_None in E; lia].
  rewrite (nth_error_nth _ _ [] E). apply nth_error_nth'. rewrite (H2 _ _ E). lia.
Qed.
Lemma at2_ext : forall A m n (a b : arr A), shape m n a -> shape m n b ->
  (forall i j, (i < m)%nat -> (j < n)%nat -> at2 a i j = at2 b i j) -> a = b.
Proof.
  intros A m n a b Ha Hb H. apply shape_iff in Ha, Hb. destruct Ha as [A1 A2], Hb as [B1 B2].
  apply nth_error_ext. intros i. destruct (nth_error a i) as [r|] eqn:E1; destruct (nth_error b i) as [s|] eqn:E2.
  - f_equal. apply nth_error_ext. intros j. assert (i < m)%nat by (rewrite <- A1; apply nth_error_Some; congruence).
    destruct (lt_dec j n) as [L|L].
    + specialize (H i j H0 L). unfold at2 in H. rewrite E1, E2 in H. exact H.
    + rewrite (proj2 (nth_error_None r j)), (proj2 (nth_error_None s j)); [reflexivity| |];
        [rewrite (B2 _ _ E2); lia|rewrite (A2 _ _ E1); lia].
  - exfalso. apply nth_error_None in E2. assert (i < List.length a)%nat by (apply nth_error_Some; congruence). lia.
  - exfalso. apply nth_error_None in E1. assert (i < List.length b)%nat by (apply nth_error_Some; congruence). lia.
  - reflexivity.
Qed.

(** * Quads *)
Definition quad_at (x y : arr Q) (i j : nat) : poly :=
  [node x y i j; node x y i (S j); node x y (S i) (S j); node x y (S i) j].
Lemma quads_shape : forall m n x y, shape m n x -> shape m n y -> shape (m - 1) (n - 1) (polys_from_quadmesh x y).
Proof.
  intros m n x y Hx Hy. unfold polys_from_quadmesh, zip4. cbv zeta.
  assert (V : shape m n (dstack x y)) by (apply shape_map2; auto).
  assert (shape (m - 1) (n - 1) (left (top (dstack x y)))) by (apply shape_left, shape_top, V).
  assert (shape (m - 1) (n - 1) (right (top (dstack x y)))) by (apply shape_right, shape_top, V).
  assert (shape (m - 1) (n - 1) (right (bottom (dstack x y)))) by (apply shape_right, shape_bottom, V).
  assert (shape (m - 1) (n - 1) (left (bottom (dstack x y)))) by (apply shape_left, shape_bottom, V).
  do 2 apply shape_map2; auto.
Qed.
Lemma quads_at : forall m n x y i j, shape m n x -> shape m n y -> (S i < m)%nat -> (S j < n)%nat ->
  at2 (polys_from_quadmesh x y) i j = Some (quad_at x y i j).
Proof.
  intros m n x y i j Hx Hy Hi Hj. unfold polys_from_quadmesh, zip4. cbv zeta.
  assert (V : shape m n (dstack x y)) by (apply shape_map2; auto).
  assert (N : forall i j, (i < m)%nat -> (j < n)%nat -> at2 (dstack x y) i j = Some (node x y i j)).
  { intros i' j' H1 H2. unfold dstack. rewrite at2_map2, (at2_entry _ 0 m n x), (at2_entry _ 0 m n y) by auto. reflexivity. }
  rewrite !at2_map2.
  rewrite (at2_left _ (m - 1) n) by (try apply shape_top; auto; lia). rewrite (at2_top _ m n) by (auto; lia).
  rewrite at2_right, (at2_top _ m n) by (auto; lia). rewrite at2_right, at2_bottom.
  rewrite (at2_left _ (m - 1) n) by (try apply shape_bottom; auto; lia). rewrite at2_bottom.
  rewrite !N by lia. reflexivity.
Qed.

(** * Areas of the cells *)
Lemma reshape_concat : forall A m n (a : arr A), shape m n a -> reshape m n (List.concat a) = a.
Proof.
  intros A m n a [H1 H2]. revert m H1. induction H2 as [|r a Hr _ IH]; intros m H1; simpl in H1; subst m; [reflexivity|].
  cbn [List.concat reshape List.length].
  replace (firstn n (r ++ List.concat a)) with r by (rewrite <- Hr, firstn_app, firstn_all, Nat.sub_diag; simpl; rewrite app_nil_r; reflexivity).
  replace (skipn n (r ++ List.concat a)) with (List.concat a) by (rewrite <- Hr, skipn_app, skipn_all, Nat.sub_diag; reflexivity).
  rewrite IH by reflexivity. reflexivity.
Qed.
Lemma shape_map : forall A B (f : A -> B) m n a, shape m n a -> shape m n (map (map f) a).
Proof.
  intros A B f m n a [H1 H2]. split; [rewrite map_length; auto|]. apply Forall_forall. intros r Hr.
  apply in_map_iff in Hr. destruct Hr as (s & <- & Hs). rewrite map_length. rewrite Forall_forall in H2. auto.
Qed.
Lemma centres_shape : forall m n x, shape m n x -> shape (m - 1) (n - 1) (centres x).
Proof.
  intros m n x V. unfold centres. do 2 apply shape_map2; try apply shape_map2;
    first [apply shape_left, shape_top, V|apply shape_right, shape_bottom, V|apply shape_left, shape_bottom, V|apply shape_right, shape_top, V].
Qed.
Definition sarea (p : poly) : Q := match area_of p with Ok q => q | Err _ => 0 end.
Lemma quad_areas_ok : forall m n x y, shape m n x -> shape m n y ->
  quad_areas x y = Ok (map (map sarea) (polys_from_quadmesh x y)).
Proof.
  intros m n x y Hx Hy. unfold quad_areas. cbv zeta. rewrite vectorized_rows.
  set (Qs := polys_from_quadmesh x y). assert (SQ : shape (m - 1) (n - 1) Qs) by (apply quads_shape; auto).
  assert (NE : forall p, In p (List.concat Qs) -> p <> []).
  { intros p Hp. apply in_concat in Hp. destruct Hp as (r & Hr & Hp). apply In_nth_error in Hr. destruct Hr as [i Hi].
    apply In_nth_error in Hp. destruct Hp as [j Hj].
    assert (Li : (i < m - 1)%nat) by (destruct SQ as [<- _]; apply nth_error_Some; congruence).
    assert (Lj : (j < n - 1)%nat) by (apply shape_iff in SQ; destruct SQ as [_ SQ]; rewrite <- (SQ _ _ Hi); apply nth_error_Some; congruence).
    pose proof (quads_at m n x y i j Hx Hy ltac:(lia) ltac:(lia)) as Q. unfold at2 in Q. fold Qs in Q. rewrite Hi, Hj in Q.
    inversion Q. discriminate. }
  rewrite (map_res_ok _ _ area_of sarea).
  2:{ intros p Hp. unfold sarea. pose proof (area_cyc p). destruct p; [exfalso; apply (NE [] Hp); reflexivity|].
      destruct H as (q & -> & _). reflexivity. }
  cbn [bind]. f_equal. rewrite concat_map. destruct (centres_shape m n x Hx) as [C1 C2]. rewrite C1.
  destruct (centres x) as [|r ctr]; [simpl in C1; rewrite <- C1|].
  - simpl. destruct SQ as [SQ _]. rewrite <- C1 in SQ. destruct Qs; [reflexivity|discriminate].
  - inversion C2; subst. apply reshape_concat. rewrite H1. apply shape_map. exact SQ.
Qed.
Lemma sarea_signed : forall p, sarea p == signed_area p.
Proof.
  intros p. unfold sarea. destruct p as [|a l]; [unfold signed_area, double_area; simpl; field|].
  destruct (area_signed (a :: l)) as (q & -> & E); [discriminate|exact E].
Qed.

(** Sums over indices. *)
Definition sigma (k : nat) (f : nat -> Q) : Q := qsum (map f (seq 0 k)).
Lemma sigma_S : forall k f, sigma (S k) f == sigma k f + f k.
Proof. intros. unfold sigma. rewrite seq_S, map_app, qsum_app. simpl. ring. Qed.
Lemma sigma_ext : forall k f g, (forall i, (i < k)%nat -> f i == g i) -> sigma k f == sigma k g.
Proof. intros k f g H. apply qsum_map_ext. intros i Hi. apply in_seq in Hi. apply H. lia. Qed.
Lemma sigma_plus : forall k f g, sigma k (fun i => f i + g i) == sigma k f + sigma k g.
Proof. induction k as [|k IH]; intros; [unfold sigma; simpl; ring|]. rewrite !sigma_S, IH. ring. Qed.
Lemma sigma_minus : forall k f g, sigma k (fun i => f i - g i) == sigma k f - sigma k g.
Proof. induction k as [|k IH]; intros; [unfold sigma; simpl; ring|]. rewrite !sigma_S, IH. ring. Qed.
Lemma sigma_tele : forall k f, sigma k (fun i => f (S i) - f i) == f k - f 0%nat.
Proof. induction k as [|k IH]; intros; [unfold sigma; simpl; ring|]. rewrite sigma_S, IH. ring. Qed.
Lemma sigma_scale : forall k c f, sigma k (fun i => c * f i) == c * sigma k f.
Proof. induction k as [|k IH]; intros; [unfold sigma; simpl; ring|]. rewrite !sigma_S, IH. ring. Qed.
Lemma sigma_swap : forall k l f, sigma k (fun i => sigma l (f i)) == sigma l (fun j => sigma k (fun i => f i j)).
Proof.
  induction k as [|k IH]; intros l f.
  - unfold sigma at 1. simpl. induction l as [|l IHl]; [reflexivity|]. rewrite sigma_S, <- IHl. unfold sigma; simpl; ring.
  - rewrite sigma_S, IH, <- sigma_plus. apply sigma_ext. intros i _. rewrite sigma_S. reflexivity.
Qed.
Lemma sigma_0 : forall f, sigma 0 f == 0. Proof. reflexivity. Qed.
Lemma sigma_first : forall k f, sigma (S k) f == f 0%nat + sigma k (fun i => f (S i)).
Proof. intros. unfold sigma. cbn [seq map qsum fold_right]. rewrite <- seq_shift, map_map. reflexivity. Qed.
Lemma sigma_rev : forall k f, sigma k f == sigma k (fun i => f (k - 1 - i)%nat).
Proof.
  induction k as [|k IH]; intros f; [reflexivity|]. rewrite sigma_S, (IH f), sigma_first, Qplus_comm. apply Qplus_comp.
  - replace (S k - 1 - 0)%nat with k by lia. reflexivity.
  - apply sigma_ext. intros i Hi. replace (S k - 1 - S i)%nat with (k - 1 - i)%nat by lia. reflexivity.
Qed.

Lemma op_stretch : forall k s (f : nat -> pt) X, hd (0, 0) X = f (s + k)%nat -> X <> [] ->
  op (map f (seq s k) ++ X) == qsum (map (fun i => cross (f i) (f (S i))) (seq s k)) + op X.
Proof.
  induction k as [|k IH]; intros s f X H N; [simpl; ring|]. cbn [seq map app].
  destruct k as [|k].
  - destruct X as [|x X]; [congruence|]. cbn [hd] in H. subst x. replace (s + 1)%nat with (S s) by lia.
    cbn [seq map app]. rewrite op_cons2. cbn [qsum fold_right]. ring.
  - specialize (IH (S s) f X). rewrite <- Nat.add_succ_comm in H. specialize (IH H N). cbn [seq map app] in IH |- *.
    rewrite op_cons2, IH. cbn [qsum fold_right]. unfold qsum. ring.
Qed.
Lemma hd_stretch : forall k (f : nat -> pt) X d, (k = 0%nat -> hd d X = f 0%nat) -> hd d (map f (seq 0 k) ++ X) = f 0%nat.
Proof. intros [|k] f X d H; [apply H; reflexivity|reflexivity]. Qed.

Lemma outline_area : forall x y m n, (1 <= m)%nat -> (1 <= n)%nat ->
  double_area (outline x y m n) ==
    sigma (n - 1) (fun j => cross (node x y 0 j) (node x y 0 (S j)))
  + sigma (m - 1) (fun i => cross (node x y i (n - 1)) (node x y (S i) (n - 1)))
  - sigma (n - 1) (fun j => cross (node x y (m - 1) j) (node x y (m - 1) (S j)))
  - sigma (m - 1) (fun i => cross (node x y i 0) (node x y (S i) 0)).
Proof.
  intros x y m n Hm Hn. rewrite double_cyc.
  set (f0 := fun j => node x y 0 j). set (f1 := fun i => node x y i (n - 1)).
  set (f2 := fun j => node x y (m - 1) (n - 1 - j)). set (f3 := fun i => node x y (m - 1 - i) 0).
  set (Z := [node x y 0 0]). set (X3 := map f3 (seq 0 (m - 1)) ++ Z). set (X2 := map f2 (seq 0 (n - 1)) ++ X3).
  set (X1 := map f1 (seq 0 (m - 1)) ++ X2). set (X0 := map f0 (seq 0 (n - 1)) ++ X1).
  assert (H3 : hd (0, 0) X3 = f3 0%nat).
  { apply hd_stretch. intros E. unfold Z, f3. simpl. replace (m - 1 - 0)%nat with 0%nat by lia. reflexivity. }
  assert (H2 : hd (0, 0) X2 = f2 0%nat).
  { apply hd_stretch. intros E. rewrite H3. unfold f2, f3. f_equal; lia. }
  assert (H1 : hd (0, 0) X1 = f1 0%nat).
  { apply hd_stretch. intros E. rewrite H2. unfold f1, f2. f_equal; lia. }
  assert (H0 : hd (0, 0) X0 = f0 0%nat).
  { apply hd_stretch. intros E. rewrite H1. unfold f0, f1. f_equal; lia. }
  assert (NZ : Z <> []) by discriminate.
  assert (N3 : X3 <> []) by (intros K; apply app_eq_nil in K; destruct K as [_ K]; discriminate).
  assert (N2 : X2 <> []) by (intros K; apply app_eq_nil in K; destruct K as [_ K]; auto).
  assert (N1 : X1 <> []) by (intros K; apply app_eq_nil in K; destruct K as [_ K]; auto).
  assert (C : cyc (outline x y m n) == op X0).
  { assert (E : X0 = outline x y m n ++ Z).
    { unfold X0, X1, X2, X3, outline. fold f0 f1 f2 f3. rewrite <- !app_assoc. reflexivity. }
    rewrite E. unfold cyc. destruct (outline x y m n) as [|a o] eqn:O; [reflexivity|].
    assert (a = node x y 0 0) as ->; [|reflexivity]. rewrite E in H0. exact H0. }
  rewrite C. unfold X0. rewrite op_stretch; [|rewrite H1; unfold f0, f1; f_equal; lia|exact N1].
  unfold X1. rewrite op_stretch; [|rewrite H2; unfold f1, f2; f_equal; lia|exact N2].
  unfold X2. rewrite op_stretch; [|rewrite H3; unfold f2, f3; f_equal; lia|exact N3].
  unfold X3. rewrite op_stretch; [|unfold f3, Z; simpl; f_equal; lia|exact NZ].
  change (op Z) with 0. fold (sigma (n - 1) (fun i => cross (f0 i) (f0 (S i)))). fold (sigma (m - 1) (fun i => cross (f1 i) (f1 (S i)))).
  fold (sigma (n - 1) (fun i => cross (f2 i) (f2 (S i)))). fold (sigma (m - 1) (fun i => cross (f3 i) (f3 (S i)))).
  assert (E2 : sigma (n - 1) (fun i => cross (f2 i) (f2 (S i))) == - sigma (n - 1) (fun j => cross (node x y (m - 1) j) (node x y (m - 1) (S j)))).
  { rewrite (sigma_rev (n - 1) (fun j => cross (node x y (m - 1) j) (node x y (m - 1) (S j)))).
    transitivity (-1 * sigma (n - 1) (fun i => cross (node x y (m - 1) (n - 1 - 1 - i)) (node x y (m - 1) (S (n - 1 - 1 - i))))); [|ring].
    rewrite <- sigma_scale. apply sigma_ext. intros i Hi. unfold f2.
    replace (n - 1 - S i)%nat with (n - 1 - 1 - i)%nat by lia. replace (n - 1 - i)%nat with (S (n - 1 - 1 - i)) by lia.
    unfold cross. ring. }
  assert (E3 : sigma (m - 1) (fun i => cross (f3 i) (f3 (S i))) == - sigma (m - 1) (fun i => cross (node x y i 0) (node x y (S i) 0))).
  { rewrite (sigma_rev (m - 1) (fun i => cross (node x y i 0) (node x y (S i) 0))).
    transitivity (-1 * sigma (m - 1) (fun i => cross (node x y (m - 1 - 1 - i) 0) (node x y (S (m - 1 - 1 - i)) 0))); [|ring].
    rewrite <- sigma_scale. apply sigma_ext. intros i Hi. unfold f3.
    replace (m - 1 - S i)%nat with (m - 1 - 1 - i)%nat by lia. replace (m - 1 - i)%nat with (S (m - 1 - 1 - i)) by lia.
    unfold cross. ring. }
  rewrite E2, E3. unfold f0, f1. ring.
Qed.

Lemma signed_quad : forall x y i j, signed_area (quad_at x y i j) ==
  (cross (node x y i j) (node x y i (S j)) + cross (node x y i (S j)) (node x y (S i) (S j))
   - cross (node x y (S i) j) (node x y (S i) (S j)) - cross (node x y i j) (node x y (S i) j)) / 2.
Proof.
  intros. unfold signed_area. rewrite double_cyc. unfold quad_at, cyc. simpl app. rewrite !op_cons2. change (op [_]) with 0.
  unfold cross. field.
Qed.

(** The sum over all cells. *)
Lemma qsum_nth : forall (l : list Q) d, qsum l == sigma (List.length l) (fun i => nth i l d).
Proof.
  induction l as [|a l IH]; intros d; [reflexivity|]. cbn [List.length]. rewrite sigma_first. simpl. rewrite (IH d). reflexivity.
Qed.
Lemma sum_cells_sigma : forall m n a, shape m n a -> sum_cells a == sigma m (fun i => sigma n (fun j => entry 0 a i j)).
Proof.
  intros m n a H. unfold sum_cells. rewrite (qsum_nth _ 0). rewrite map_length. apply shape_iff in H. destruct H as [H1 H2]. rewrite H1.
  apply sigma_ext. intros i Hi. change 0 with (qsum []). rewrite map_nth. rewrite (qsum_nth _ 0).
  assert (E : exists r, nth_error a i = Some r) by (destruct (nth_error a i) eqn:E; [eauto|apply nth_error_None in E; lia]).
  destruct E as [r E]. unfold entry. rewrite (nth_error_nth _ _ [] E). rewrite (H2 _ _ E). reflexivity.
Qed.
Lemma mesh_area : forall m n x y A, (1 <= m)%nat -> (1 <= n)%nat -> shape m n x -> shape m n y ->
  shape (m - 1) (n - 1) A -> (forall i j, (S i < m)%nat -> (S j < n)%nat -> entry 0 A i j == signed_area (quad_at x y i j)) ->
  sum_cells A == signed_area (outline x y m n).
Proof.
  intros m n x y A Hm Hn Hx Hy HA E. rewrite (sum_cells_sigma _ _ _ HA).
  set (h := fun i j => cross (node x y i j) (node x y i (S j))). set (v := fun i j => cross (node x y i j) (node x y (S i) j)).
  transitivity (sigma (m - 1) (fun i => sigma (n - 1) (fun j => (1 # 2) * ((v i (S j) - v i j) - (h (S i) j - h i j))))).
  { apply sigma_ext. intros i Hi. apply sigma_ext. intros j Hj. rewrite E by lia. rewrite signed_quad. unfold h, v. field. }
  transitivity ((1 # 2) * (sigma (m - 1) (fun i => sigma (n - 1) (fun j => v i (S j) - v i j))
                           - sigma (m - 1) (fun i => sigma (n - 1) (fun j => h (S i) j - h i j)))).
  { rewrite <- sigma_minus, <- sigma_scale. apply sigma_ext. intros i _. rewrite sigma_scale, sigma_minus. reflexivity. }
  rewrite (sigma_swap (m - 1) (n - 1) (fun i j => h (S i) j - h i j)).
  rewrite (sigma_ext (m - 1) _ (fun i => v i (n - 1)%nat - v i 0%nat)) by (intros i _; apply (sigma_tele (n - 1) (v i))).
  rewrite (sigma_ext (n - 1) (fun j => sigma (m - 1) (fun i => h (S i) j - h i j)) (fun j => h (m - 1)%nat j - h 0%nat j))
    by (intros j _; apply (sigma_tele (m - 1) (fun i => h i j))).
  rewrite !sigma_minus. unfold signed_area. rewrite (outline_area x y m n Hm Hn). fold (h 0%nat) (h (m - 1)%nat) .
  unfold h, v. field.
Qed.
