(** Properties C27 and C28: polygon areas and quadrilateral meshes. *)
From Coq Require Import List ZArith QArith Bool Lia Lqa Setoid.
From Verif Require Import Base BaseProofs LutProofs Poly PolySpec PolyProofs.
Import ListNotations.
Local Open Scope Q_scope.

(** * C27 *)
(** [poly_area] is half the cyclic sum of cross products; it raises only without vertices. *)
Theorem C27_area_is_signed_area : forall p,
  match p with
  | [] => area_of p = Err IndexError
  | _ => exists q, area_of p = Ok q /\ q == signed_area p
  end.
Proof. intros [|a l]; [reflexivity|]. apply area_signed. discriminate. Qed.
(** The vectorised version computes the same for each polygon. *)
Theorem C27_vectorized_agrees : forall ps : list poly,
  vectorized_poly_area (map (map fst) ps) (map (map snd) ps) = map_res area_of ps.
Proof. apply vectorized_rows. Qed.

Definition same_area (p q : poly) (k : Q) : Prop :=
  exists a b, area_of p = Ok a /\ area_of q = Ok b /\ b == k * a.
Lemma same_area_cyc : forall p q k, p <> [] -> q <> [] -> cyc q == k * cyc p -> same_area p q k.
Proof.
  intros p q k Hp Hq H. destruct (area_signed p Hp) as (a & Ea & Qa). destruct (area_signed q Hq) as (b & Eb & Qb).
  exists a, b. split; [auto|]. split; [auto|]. rewrite Qa, Qb. unfold signed_area. rewrite !double_cyc, H. field.
Qed.
Theorem C27_translation : forall t p, p <> [] -> same_area p (translate t p) 1.
Proof.
  intros t p H. apply same_area_cyc; auto; [destruct p; [congruence|discriminate]|]. rewrite cyc_translate. ring.
Qed.
Theorem C27_linear_map : forall a b c d p, p <> [] -> same_area p (linear a b c d p) (a * d - b * c).
Proof.
  intros a b c d p H. apply same_area_cyc; auto; [destruct p; [congruence|discriminate]|]. apply cyc_linear.
Qed.
Theorem C27_start_vertex : forall p q, p ++ q <> [] -> same_area (p ++ q) (q ++ p) 1.
Proof.
  intros p q H. apply same_area_cyc; auto; [intros K; apply H; apply app_eq_nil in K; destruct K; subst; reflexivity|].
  rewrite (cyc_rotate q p). ring.
Qed.
Theorem C27_reversal : forall p, p <> [] -> same_area p (rev p) (-1).
Proof.
  intros p H. apply same_area_cyc; auto.
  - intros K. apply H. rewrite <- (rev_involutive p), K. reflexivity.
  - rewrite cyc_rev. ring.
Qed.
(** Cutting along the diagonal from [a] to [b]. *)
Theorem C27_diagonal_cut : forall a p b q, exists whole left_ right_,
  area_of (a :: p ++ b :: q) = Ok whole /\ area_of (a :: p ++ [b]) = Ok left_ /\ area_of (a :: b :: q) = Ok right_ /\
  whole == left_ + right_.
Proof.
  intros a p b q.
  destruct (area_signed (a :: p ++ b :: q)) as (w & E1 & Q1); [discriminate|].
  destruct (area_signed (a :: p ++ [b])) as (l & E2 & Q2); [discriminate|].
  destruct (area_signed (a :: b :: q)) as (r & E3 & Q3); [discriminate|].
  exists w, l, r. split; [auto|]. split; [auto|]. split; [auto|]. rewrite Q1, Q2, Q3. unfold signed_area. rewrite !double_cyc, cyc_diagonal. field.
Qed.
(** Hence the area is the sum of the fan of triangles from the first vertex. *)
Fixpoint fan (a : pt) (l : poly) : Q :=
  match l with b :: ((c :: _) as r) => triangle a b c + fan a r | _ => 0 end.
Theorem C27_fan_of_triangles : forall a l, exists q, area_of (a :: l) = Ok q /\ q == fan a l.
Proof.
  intros a l. destruct (area_signed (a :: l)) as (q & E & Q); [discriminate|]. exists q. split; [exact E|]. rewrite Q.
  unfold signed_area. rewrite double_cyc. clear.
  destruct l as [|b l]; [unfold cyc; simpl; unfold cross; field|]. revert b. induction l as [|c l IH]; intros b.
  - unfold cyc. cbn [app fan]. rewrite !op_cons2. change (op [a]) with 0. unfold cross. field.
  - change (fan a (b :: c :: l)) with (triangle a b c + fan a (c :: l)). rewrite <- IH.
    change (a :: b :: c :: l) with (a :: [b] ++ c :: l). rewrite cyc_diagonal. unfold cyc at 1. cbn [app].
    rewrite !op_cons2. change (op [a]) with 0. unfold triangle, cross. field.
Qed.
Theorem C27_rectangle : forall x y w h, exists q,
  area_of [(x, y); (x + w, y); (x + w, y + h); (x, y + h)] = Ok q /\ q == w * h.
Proof.
  intros. eexists. split; [reflexivity|]. cbn. unfold qsum. cbn. field.
Qed.
Example C27_ex : exists q, area_of [(0, 0); (4, 0); (4, 3); (0, 3); (1, 1)] = Ok q /\ q == 21 # 2.
Proof. eexists. split; [vm_compute; reflexivity|]. vm_compute. reflexivity. Qed.

(** * C28 *)
(** One quad per cell, its four corners in cyclic order. *)
Theorem C28_quads_are_cells : forall m n x y, shape m n x -> shape m n y ->
  shape (m - 1) (n - 1) (polys_from_quadmesh x y) /\
  forall i j, (S i < m)%nat -> (S j < n)%nat ->
    entry [] (polys_from_quadmesh x y) i j =
      [node x y i j; node x y i (S j); node x y (S i) (S j); node x y (S i) j].
Proof.
  intros m n x y Hx Hy. pose proof (quads_shape m n x y Hx Hy) as SQ. split; [exact SQ|]. intros i j Hi Hj.
  pose proof (quads_at m n x y i j Hx Hy Hi Hj) as Q. rewrite (at2_entry _ [] (m - 1) (n - 1)) in Q by (auto; lia).
  inversion Q as [E]. exact E.
Qed.
Lemma entry_map : forall A B (f : A -> B) da db m n (a : arr A) i j, shape m n a -> (i < m)%nat -> (j < n)%nat ->
  entry db (map (map f) a) i j = f (entry da a i j).
Proof.
  intros A B f da db m n a i j H Hi Hj. pose proof (at2_entry _ da m n a i j H Hi Hj) as E.
  pose proof (at2_entry _ db m n (map (map f) a) i j (shape_map _ _ f _ _ _ H) Hi Hj) as E2.
  unfold at2 in E, E2. rewrite nth_error_map in E2. destruct (nth_error a i) as [r|]; [|discriminate]. cbn in E2.
  rewrite nth_error_map, E in E2. cbn in E2. inversion E2. reflexivity.
Qed.
(** Cell areas are the signed areas of the quads and add up to the signed area of
    the outline of the mesh. *)
Theorem C28_areas_add_up : forall m n x y, (1 <= m)%nat -> (1 <= n)%nat -> shape m n x -> shape m n y ->
  exists A, quad_areas x y = Ok A /\ shape (m - 1) (n - 1) A /\
    (forall i j, (S i < m)%nat -> (S j < n)%nat ->
       entry 0 A i j == signed_area [node x y i j; node x y i (S j); node x y (S i) (S j); node x y (S i) j]) /\
    sum_cells A == signed_area (outline x y m n).
Proof.
  intros m n x y Hm Hn Hx Hy. eexists. split; [apply (quad_areas_ok m n); auto|].
  pose proof (quads_shape m n x y Hx Hy) as SQ.
  assert (E : forall i j, (S i < m)%nat -> (S j < n)%nat ->
    entry 0 (map (map sarea) (polys_from_quadmesh x y)) i j == signed_area (quad_at x y i j)).
  { intros i j Hi Hj. rewrite (entry_map _ _ sarea [] 0 (m - 1) (n - 1)) by (auto; lia). rewrite sarea_signed.
    destruct (C28_quads_are_cells m n x y Hx Hy) as [_ Q]. rewrite (Q i j Hi Hj). reflexivity. }
  split; [apply shape_map; exact SQ|]. split; [exact E|]. apply mesh_area; auto. apply shape_map. exact SQ.
Qed.

Lemma meshgrid_shape : forall xs ys, shape (List.length ys) (List.length xs) (meshgrid_x xs ys) /\
  shape (List.length ys) (List.length xs) (meshgrid_y xs ys).
Proof.
  intros xs ys. unfold meshgrid_x, meshgrid_y. split; (split; [rewrite map_length; auto|]); apply Forall_forall; intros r Hr;
    apply in_map_iff in Hr; destruct Hr as (y & <- & _); [reflexivity|apply map_length].
Qed.
Lemma meshgrid_node : forall xs ys i j, (i < List.length ys)%nat -> (j < List.length xs)%nat ->
  node (meshgrid_x xs ys) (meshgrid_y xs ys) i j = (nth j xs 0, nth i ys 0).
Proof.
  intros xs ys i j Hi Hj. unfold node, entry, meshgrid_x, meshgrid_y. f_equal.
  - rewrite (nth_indep _ [] ((fun _ : Q => xs) 0)) by (rewrite map_length; lia).
    rewrite (map_nth (fun _ : Q => xs) ys 0 i). reflexivity.
  - rewrite (nth_indep _ [] ((fun y : Q => map (fun _ : Q => y) xs) 0)) by (rewrite map_length; lia).
    rewrite (map_nth (fun y : Q => map (fun _ : Q => y) xs) ys 0 i).
    rewrite (nth_indep _ 0 ((fun _ : Q => nth i ys 0) 0)) by (rewrite map_length; lia).
    rewrite (map_nth (fun _ : Q => nth i ys 0) xs 0 j). reflexivity.
Qed.
(** For a mesh made from edge coordinates with [np.meshgrid] the area of a cell is
    the product of the edge spacings. *)
Theorem C28_regular_mesh : forall xs ys, xs <> [] -> ys <> [] ->
  exists A, quad_areas (meshgrid_x xs ys) (meshgrid_y xs ys) = Ok A /\
    shape (List.length ys - 1) (List.length xs - 1) A /\
    forall i j, (S i < List.length ys)%nat -> (S j < List.length xs)%nat ->
      entry 0 A i j == (nth (S j) xs 0 - nth j xs 0) * (nth (S i) ys 0 - nth i ys 0).
Proof.
  intros xs ys Hx Hy. destruct (meshgrid_shape xs ys) as [S1 S2].
  assert (Lx : (1 <= List.length xs)%nat) by (destruct xs; [congruence|simpl; lia]).
  assert (Ly : (1 <= List.length ys)%nat) by (destruct ys; [congruence|simpl; lia]).
  destruct (C28_areas_add_up _ _ _ _ Ly Lx S1 S2) as (A & E & SA & EA & _).
  exists A. split; [exact E|]. split; [exact SA|]. intros i j Hi Hj. rewrite EA by auto. rewrite !meshgrid_node by lia.
  unfold signed_area. rewrite double_cyc. unfold cyc. cbn [app]. rewrite !op_cons2. change (op [_]) with 0. unfold cross. cbn [fst snd]. field.
Qed.
(** With 'ij' indexing the areas have the opposite sign (the code does not take
    absolute values, see C31). *)
Lemma meshgrid_ij_shape : forall xs ys, shape (List.length xs) (List.length ys) (meshgrid_ij_x xs ys) /\
  shape (List.length xs) (List.length ys) (meshgrid_ij_y xs ys).
Proof.
  intros xs ys. unfold meshgrid_ij_x, meshgrid_ij_y. split; (split; [rewrite map_length; auto|]); apply Forall_forall; intros r Hr;
    apply in_map_iff in Hr; destruct Hr as (y & <- & _); [apply map_length|reflexivity].
Qed.
Lemma meshgrid_ij_node : forall xs ys i j, (i < List.length xs)%nat -> (j < List.length ys)%nat ->
  node (meshgrid_ij_x xs ys) (meshgrid_ij_y xs ys) i j = (nth i xs 0, nth j ys 0).
Proof.
  intros xs ys i j Hi Hj. pose proof (meshgrid_node ys xs i j Hi Hj) as H. unfold node in *.
  change (meshgrid_ij_x xs ys) with (meshgrid_y ys xs). change (meshgrid_ij_y xs ys) with (meshgrid_x ys xs). congruence.
Qed.
Theorem C28_regular_mesh_ij : forall xs ys, xs <> [] -> ys <> [] ->
  exists A, quad_areas (meshgrid_ij_x xs ys) (meshgrid_ij_y xs ys) = Ok A /\
    shape (List.length xs - 1) (List.length ys - 1) A /\
    forall i j, (S i < List.length xs)%nat -> (S j < List.length ys)%nat ->
      entry 0 A i j == - ((nth (S i) xs 0 - nth i xs 0) * (nth (S j) ys 0 - nth j ys 0)).
Proof.
  intros xs ys Hx Hy. destruct (meshgrid_ij_shape xs ys) as [S1 S2].
  assert (Lx : (1 <= List.length xs)%nat) by (destruct xs; [congruence|simpl; lia]).
  assert (Ly : (1 <= List.length ys)%nat) by (destruct ys; [congruence|simpl; lia]).
  destruct (C28_areas_add_up _ _ _ _ Lx Ly S1 S2) as (A & E & SA & EA & _).
  exists A. split; [exact E|]. split; [exact SA|]. intros i j Hi Hj. rewrite EA by auto. rewrite !meshgrid_ij_node by lia.
  unfold signed_area. rewrite double_cyc. unfold cyc. cbn [app]. rewrite !op_cons2. change (op [_]) with 0. unfold cross. cbn [fst snd]. field.
Qed.
(** Cell centres are the means of the four corners. *)
Theorem C28_centres : forall m n e, shape m n e -> shape (m - 1) (n - 1) (centres e) /\
  forall i j, (S i < m)%nat -> (S j < n)%nat ->
    entry 0 (centres e) i j == (entry 0 e i j + entry 0 e (S i) (S j) + entry 0 e (S i) j + entry 0 e i (S j)) / 4.
Proof.
  intros m n e H. pose proof (centres_shape m n e H) as SC. split; [exact SC|]. intros i j Hi Hj.
  assert (E : at2 (centres e) i j = Some (qavg4 (entry 0 e i j) (entry 0 e (S i) (S j)) (entry 0 e (S i) j) (entry 0 e i (S j)))).
  { unfold centres. rewrite !at2_map2. rewrite (at2_left _ (m - 1) n (top e)) by (try apply shape_top; auto; lia).
    rewrite !(at2_top _ m n) by (auto; lia). rewrite !at2_right, !at2_bottom.
    rewrite (at2_left _ (m - 1) n (bottom e)) by (try apply shape_bottom; auto; lia). rewrite at2_bottom.
    rewrite (at2_top _ m n) by (auto; lia).
    rewrite !(at2_entry _ 0 m n e) by (auto; lia). reflexivity. }
  rewrite (at2_entry _ 0 (m - 1) (n - 1)) in E by (auto; lia). inversion E as [E']. rewrite E'. reflexivity.
Qed.

Definition mx_ex : arr Q := [[0; 1; 3]; [0; 2; 3]].
Definition my_ex : arr Q := [[0; 0; 0]; [2; 1; 3]].
Example C28_ex : shape 2 3 mx_ex /\ shape 2 3 my_ex /\
  exists A, quad_areas mx_ex my_ex = Ok A /\ sum_cells A == 5 /\ signed_area (outline mx_ex my_ex 2 3) == 5.
Proof.
  split; [split; [reflexivity|repeat constructor]|]. split; [split; [reflexivity|repeat constructor]|].
  eexists. split; [vm_compute; reflexivity|]. split; vm_compute; reflexivity.
Qed.

Print Assumptions C27_area_is_signed_area.
Print Assumptions C27_vectorized_agrees.
Print Assumptions C27_translation.
Print Assumptions C27_linear_map.
Print Assumptions C27_start_vertex.
Print Assumptions C27_reversal.
Print Assumptions C27_diagonal_cut.
Print Assumptions C27_fan_of_triangles.
Print Assumptions C27_rectangle.
Print Assumptions C28_quads_are_cells.
Print Assumptions C28_areas_add_up.
Print Assumptions C28_regular_mesh.
Print Assumptions C28_regular_mesh_ij.
Print Assumptions C28_centres.
