(** C103: every pixel is shared among the cells in proportion to the overlap. *)
From Coq Require Import List ZArith QArith Qabs Qfield Lqa Lia Bool Permutation.
From Verif Require Import Base BaseProofs Traversal TraversalSpec Glm GlmSpec GlmProofs3 Lut LutSpec LutProofs Accum AccumSpec Poly PolySpec BBox BBoxSpec Slice SliceSpec SliceProofs Regroup
  Pipeline PipelineSpec PipelineProofs BBoxProofs PropBBox PropPoly PropSlice PropPipeline ChunkSpec PropChunks Scaled ScaledSpec ScaledProofs PropScaled Overlap OverlapProofs.
Import ListNotations.
Local Open Scope Q_scope.

(** * What the overlap is *)
(** A point on the inner side of all sides of a convex polygon. *)
Definition side (p : poly) (a b : pt) : Prop := exists i, (i < List.length p)%nat /\ a = vertex p i /\ b = vertex p (S i).
Definition within_polygon (p : poly) (v : pt) : Prop :=
  exists s, (s == 1 \/ s == -1) /\ forall a b, side p a b -> 0 <= s * turn a b v.
Lemma affine_turn : forall s a b, affine (fun v => s * turn a b v).
Proof. intros s a b x y e t [X Y]. unfold turn. rewrite X, Y. ring. Qed.
Lemma overlap_keeps : forall h p x0 x1 y0 y1, affine h -> (forall v, In v p -> 0 <= h v) -> forall v, In v (overlap p x0 x1 y0 y1) -> 0 <= h v.
Proof.
  intros h p x0 x1 y0 y1 H K. unfold overlap. apply half_keeps; auto; [apply affine_below|]. apply half_keeps; auto; [apply affine_above|].
  apply half_keeps; auto; [apply affine_left|]. apply half_keeps; auto. apply affine_right.
Qed.
Lemma turns_nth : forall s p, (forall i j k d, (i < j)%nat -> (j < k)%nat -> (k < List.length p)%nat -> 0 <= s * turn (nth i p d) (nth j p d) (nth k p d)) ->
  forall i k, (i < List.length p)%nat -> (k < List.length p)%nat -> 0 <= s * turn (vertex p i) (vertex p (S i)) (nth k p (0, 0)).
Proof.
  intros s p H i k I K. unfold vertex. rewrite (Nat.mod_small i) by auto. set (n := List.length p) in *.
  destruct (Nat.eq_dec (S i) n) as [E|E].
  - rewrite E, Nat.mod_same by lia.
    destruct (Nat.eq_dec k i) as [->|N1]; [rewrite turn_same3; lra|]. destruct (Nat.eq_dec k 0) as [->|N2]; [rewrite turn_same2; lra|].
    assert (Q : turn (nth i p (0, 0)) (nth 0 p (0, 0)) (nth k p (0, 0)) == turn (nth 0 p (0, 0)) (nth k p (0, 0)) (nth i p (0, 0))) by (unfold turn; ring).
    rewrite Q. apply H; lia.
  - rewrite Nat.mod_small by lia.
    destruct (Nat.eq_dec k i) as [->|N1]; [rewrite turn_same3; lra|]. destruct (Nat.eq_dec k (S i)) as [->|N2]; [rewrite turn_same2; lra|].
    destruct (Nat.lt_ge_cases k i) as [L|L].
    + assert (Q : turn (nth i p (0, 0)) (nth (S i) p (0, 0)) (nth k p (0, 0)) == turn (nth k p (0, 0)) (nth i p (0, 0)) (nth (S i) p (0, 0))) by (unfold turn; ring).
      rewrite Q. apply H; lia.
    + apply H; lia.
Qed.
(** The part of a polygon in a rectangle lies in the rectangle and in the polygon, and is convex.  *)
Theorem C103_part : forall p x0 x1 y0 y1, convex p ->
  forall v, In v (overlap p x0 x1 y0 y1) -> (x0 <= fst v <= x1 /\ y0 <= snd v <= y1) /\ within_polygon p v.
Proof.
  intros p x0 x1 y0 y1 C v V. split.
  - unfold overlap in V. set (p1 := half (right_of x0) p) in *. set (p2 := half (left_of x1) p1) in *. set (p3 := half (above y0) p2) in *.
    assert (A : 0 <= below y1 v) by (apply (half_in _ _ _ V)).
    assert (B : 0 <= above y0 v) by (apply (half_keeps (below y1) _ p3 (affine_below y1) (affine_above y0)); auto; apply half_in).
    assert (D : 0 <= left_of x1 v).
    { apply (half_keeps (below y1) _ p3 (affine_below y1) (affine_left x1)); auto. apply (half_keeps (above y0) _ p2 (affine_above y0) (affine_left x1)). apply half_in. }
    assert (E : 0 <= right_of x0 v).
    { apply (half_keeps (below y1) _ p3 (affine_below y1) (affine_right x0)); auto. apply (half_keeps (above y0) _ p2 (affine_above y0) (affine_right x0)).
      apply (half_keeps (left_of x1) _ p1 (affine_left x1) (affine_right x0)). apply half_in. }
    unfold below, above, left_of, right_of in *. lra.
  - destruct C as (s & S & C). exists s. split; [exact S|]. intros a b (i & I & -> & ->).
    apply (overlap_keeps (fun v => s * turn (vertex p i) (vertex p (Datatypes.S i)) v) p x0 x1 y0 y1); [apply affine_turn| |exact V].
    intros w W. destruct (In_nth p w (0, 0) W) as (k & K & <-). apply (turns_nth s p C); auto.
Qed.
Print Assumptions C103_part.

(** The parts in the cells of a grid add up to the part on the grid, and to the whole
    when the polygon is on the grid. *)
Theorem C103_parts_add_up : forall p xs ys, convex p -> increasing xs -> increasing ys -> (1 < List.length xs)%nat -> (1 < List.length ys)%nat ->
  let cells f := qsum (map (fun kx => qsum (map (f kx) (seq 0 (List.length ys - 1)))) (seq 0 (List.length xs - 1))) in
  let x0 := edge xs 0 in let x1 := edge xs (List.length xs - 1) in let y0 := edge ys 0 in let y1 := edge ys (List.length ys - 1) in
  cells (fun kx ky => size (in_cell p xs ys kx ky)) == size (overlap p x0 x1 y0 y1) /\
  ((forall v, In v p -> x0 <= fst v <= x1 /\ y0 <= snd v <= y1) -> cells (fun kx ky => size (in_cell p xs ys kx ky)) == size p).
Proof.
  intros p xs ys C IX IY LX LY. cbv zeta. split; [apply cells_share; auto|]. intros H. rewrite cells_share by auto. rewrite overlap_all by auto. reflexivity.
Qed.
Print Assumptions C103_parts_add_up.

(** * The lookup finds every cell with a part of the pixel *)
(** A polygon no corner of which is further than two cells from the mean of its corners. *)
Definition small (dx dy : Q) (p : poly) : Prop :=
  forall v, In v p -> Qabs (fst v - fst (vertex_mean p)) <= 2 * dx /\ Qabs (snd v - snd (vertex_mean p)) <= 2 * dy.
(** The mean of the corners is on the grid. *)
Definition centred (xs ys : list Q) (p : poly) : Prop :=
  edge xs 0 < fst (vertex_mean p) <= edge xs (List.length xs - 1) /\ edge ys 0 < snd (vertex_mean p) <= edge ys (List.length ys - 1).
Lemma find_cell : forall e v, (1 < List.length e)%nat -> edge e 0 < v -> v <= edge e (List.length e - 1) -> exists k, holds e k v.
Proof.
  intros e v L H0 H1. assert (P : forall n, (n < List.length e)%nat -> v <= edge e n -> exists k, holds e k v).
  { induction n as [|n IH]; intros N V; [lra|]. destruct (Qlt_le_dec (edge e n) v) as [C|C]; [|apply IH; auto; lia]. exists n. split; [lia|]. left. auto. }
  apply (P (List.length e - 1)%nat); auto. lia.
Qed.
Lemma in_nearby : forall tree xs ys p cx cy kx ky, edges_ok xs -> edges_ok ys ->
  holds xs cx (fst (vertex_mean p)) -> holds ys cy (snd (vertex_mean p)) -> (S kx < List.length xs)%nat -> (S ky < List.length ys)%nat ->
  apart kx cx 2 -> apart ky cy 2 -> In (ky, kx) (nearby tree (regular_xy xs ys) p).
Proof.
  intros tree xs ys p cx cy kx ky Ex Ey Hx Hy Kx Ky Ax Ay.
  destruct (C29_nearest xs ys _ _ tree _ _ cx cy Ex Ey (made_xy xs ys) Hx Hy) as (l & E & _ & C).
  unfold nearby. rewrite (surjective_pairing (vertex_mean p)), E.
  apply in_map_iff. exists (Z.of_nat ky, Z.of_nat kx). cbn [fst snd]. rewrite !Nat2Z.id. split; [reflexivity|].
  apply C. exists kx, ky. auto.
Qed.
Lemma far_beside : forall e d c k v, uniform e d -> (S k < List.length e)%nat -> holds e c v -> ~ apart k c 2 ->
  (edge e (S k) <= v - 2 * d \/ v + 2 * d <= edge e k).
Proof.
  intros e d c k v U K H N. destruct (Qlt_le_dec (v - 2 * d) (edge e (S k))) as [A|A]; [|left; auto].
  destruct (Qlt_le_dec (edge e k) (v + 2 * d)) as [B|B]; [|right; auto].
  exfalso. apply N. apply (two_cells e d c v k (v - 2 * d) (v + 2 * d)); auto; try lra. split; auto.
Qed.
Lemma apart_dec : forall k c, {apart k c 2} + {~ apart k c 2}.
Proof. intros k c. unfold apart. destruct (Z_le_dec (Z.abs (Z.of_nat k - Z.of_nat c)) 2); auto. Qed.
Lemma part_size : forall clip tree xs ys dx dy p kx ky, exact clip -> uniform xs dx -> uniform ys dy ->
  (1 < List.length xs)%nat -> (1 < List.length ys)%nat -> (S kx < List.length xs)%nat -> (S ky < List.length ys)%nat ->
  convex p -> small dx dy p -> centred xs ys p ->
  size_in clip (regular_xy xs ys) p (nearby tree (regular_xy xs ys) p) (ky, kx) == size (in_cell p xs ys kx ky).
Proof.
  intros clip tree xs ys dx dy p kx ky EX Ux Uy LX LY Kx Ky C SM [[X0 X1] [Y0 Y1]].
  pose proof (uniform_increasing xs dx Ux) as IX. pose proof (uniform_increasing ys dy Uy) as IY.
  destruct (find_cell xs _ LX X0 X1) as (cx & Hx). destruct (find_cell ys _ LY Y0 Y1) as (cy & Hy).
  assert (Ex : edges_ok xs) by (split; [lia|auto]). assert (Ey : edges_ok ys) by (split; [lia|auto]).
  rewrite size_in_one by (apply nearby_nodup; auto).
  assert (Q : qsum (map size (clip p (cell_quad (regular_xy xs ys) (ky, kx)))) == size (in_cell p xs ys kx ky)).
  { unfold cell_quad, regular_xy. cbn [me_x me_y]. rewrite !meshgrid_node by lia. apply EX; auto; [apply (IX kx (S kx)); lia|apply (IY ky (S ky)); lia]. }
  destruct (existsb (same_cell (ky, kx)) (nearby tree (regular_xy xs ys) p)) eqn:E; [exact Q|].
  assert (N : ~ (apart kx cx 2 /\ apart ky cy 2)).
  { intros [Ax Ay]. pose proof (in_nearby tree xs ys p cx cy kx ky Ex Ey Hx Hy Kx Ky Ax Ay) as J.
    apply not_true_iff_false in E. apply E. apply existsb_exists. exists (ky, kx). split; [exact J|]. unfold same_cell. cbn [fst snd]. rewrite !Nat.eqb_refl. reflexivity. }
  symmetry. apply beside.
  assert (SM' : forall v, In v p -> fst (vertex_mean p) - 2 * dx <= fst v <= fst (vertex_mean p) + 2 * dx /\ snd (vertex_mean p) - 2 * dy <= snd v <= snd (vertex_mean p) + 2 * dy).
  { intros v V. destruct (SM v V) as [A B]. apply Qabs_Qle_condition in A, B. lra. }
  destruct (apart_dec kx cx) as [Ax|Ax]; [destruct (apart_dec ky cy) as [Ay|Ay]; [tauto|]|].
  - destruct (far_beside ys dy cy ky _ Uy Ky Hy Ay) as [F|F]; [right; right; left|right; right; right]; intros v V; specialize (SM' v V); lra.
  - destruct (far_beside xs dx cx kx _ Ux Kx Hx Ax) as [F|F]; [left|right; left]; intros v V; specialize (SM' v V); lra.
Qed.

(** * From the files to the grid *)
(** A pixel the theorems below apply to. *)
Definition fair (xs ys : list Q) (dx dy : Q) (p : poly) : Prop :=
  convex p /\ ~ size p == 0 /\ small dx dy p /\ centred xs ys p.
(** Every cell holds, of every pixel, the share of its energy that is the share of its
    size in the cell; counts and areas are weighted by the share of the cell that is covered. *)
Theorem C103_cells : forall set_order weird clip tree quad xe ye dx dy chunk_size files q g,
  (1 < List.length xe)%nat -> (1 < List.length ye)%nat -> uniform xe dx -> uniform ye dy -> proper clip -> exact clip ->
  grid_files set_order weird clip tree quad xe ye chunk_size files q = Ok g ->
  exists tables, tables_read set_order weird chunk_size q files tables /\
  ((forall r, In r (List.concat tables) -> fair xe ye dx dy (quad (lu_x r) (lu_y r)) /\ lu_farea r <> None /\ lu_garea r <> None) ->
   forall kx ky, (S kx < List.length xe)%nat -> (S ky < List.length ye)%nat ->
   let part r := size (in_cell (quad (lu_x r) (lu_y r)) xe ye kx ky) in
   let of_pixel r := part r / size (quad (lu_x r) (lu_y r)) in
   let of_cell r := part r / cell_size xe ye kx ky in
   let at_ (h : grids -> grid) := g_at (h g) (Z.of_nat kx) (Z.of_nat ky) in
   sums_to (at_ gr_energy) (fun r => num (lu_energy r)) of_pixel tables /\
   sums_to (at_ gr_fcount) (fun r => qnat (lu_fcount r)) of_cell tables /\
   sums_to (at_ gr_gcount) (fun r => qnat (lu_gcount r)) of_cell tables /\
   sums_to (at_ gr_farea) (fun r => num (lu_farea r)) of_cell tables /\
   sums_to (at_ gr_garea) (fun r => num (lu_garea r)) of_cell tables).
Proof.
  intros so weird clip tree quad xe ye dx dy cs files q g HX HY Ux Uy PR EX H.
  pose proof (uniform_increasing xe dx Ux) as IX. pose proof (uniform_increasing ye dy Uy) as IY.
  destruct (C36_cells so weird clip tree quad xe ye cs files q g HX HY IX IY PR H) as (ts & TR & K). exists ts. split; [exact TR|].
  intros C kx ky Kx Ky. cbv zeta.
  destruct (K ltac:(intros r Hr; destruct (C r Hr) as ((_ & NZ & _) & n1 & n2); auto)) as [_ K']. specialize (K' kx ky Kx Ky). cbv zeta in K'.
  assert (PS : forall r, In r (List.concat ts) -> size_in clip (regular_xy xe ye) (quad (lu_x r) (lu_y r)) (nearby tree (regular_xy xe ye) (quad (lu_x r) (lu_y r))) (ky, kx)
     == size (in_cell (quad (lu_x r) (lu_y r)) xe ye kx ky)).
  { intros r Hr. destruct (C r Hr) as ((CV & NZ & SM & CE) & _). apply (part_size clip tree xe ye dx dy); auto. }
  assert (W : forall v f (w w' : lutrow -> Q), (forall r, In r (List.concat ts) -> w r == w' r) -> sums_to v f w ts -> sums_to v f w' ts).
  { intros v f w w' E (u & -> & U). exists u. split; [reflexivity|]. rewrite U. apply qsum_ext. intros r Hr. rewrite (E r Hr). reflexivity. }
  destruct K' as (k1 & k2 & k3 & k4 & k5).
  repeat split; (eapply W; [|eassumption]); intros r Hr; cbv beta; rewrite (PS r Hr); reflexivity.
Qed.
Print Assumptions C103_cells.

(** The energy on the grid is the energy of the pixels, each times the share of it that is on the grid. *)
Theorem C103_total : forall set_order weird clip tree quad xe ye dx dy chunk_size files q g,
  (1 < List.length xe)%nat -> (1 < List.length ye)%nat -> uniform xe dx -> uniform ye dy -> proper clip -> exact clip ->
  grid_files set_order weird clip tree quad xe ye chunk_size files q = Ok g ->
  exists tables, tables_read set_order weird chunk_size q files tables /\
  ((forall r, In r (List.concat tables) -> fair xe ye dx dy (quad (lu_x r) (lu_y r)) /\ lu_farea r <> None /\ lu_garea r <> None) ->
   let on_grid p := overlap p (edge xe 0) (edge xe (List.length xe - 1)) (edge ye 0) (edge ye (List.length ye - 1)) in
   let share r := size (on_grid (quad (lu_x r) (lu_y r))) / size (quad (lu_x r) (lu_y r)) in
   grid_total (gr_energy g) == over (fun r => num (lu_energy r) * share r) tables).
Proof.
  intros so weird clip tree quad xe ye dx dy cs files q g HX HY Ux Uy PR EX H.
  pose proof (uniform_increasing xe dx Ux) as IX. pose proof (uniform_increasing ye dy Uy) as IY.
  pose proof H as H'. 
  destruct (C36_cells so weird clip tree quad xe ye cs files q g HX HY IX IY PR H) as (ts & TR & K). exists ts. split; [exact TR|].
  intros C. cbv zeta.
  destruct (K ltac:(intros r Hr; destruct (C r Hr) as ((_ & NZ & _) & n1 & n2); auto)) as [D K'].
  apply Forall_inv in D. destruct D as [D0 D1]. unfold grid_total. rewrite D0, D1.
  replace (Z.to_nat (Z.of_nat (List.length xe) - 1)) with (List.length xe - 1)%nat by lia.
  replace (Z.to_nat (Z.of_nat (List.length ye) - 1)) with (List.length ye - 1)%nat by lia.
  set (P := fun r => quad (lu_x r) (lu_y r)).
  assert (PS : forall r kx ky, In r (List.concat ts) -> (S kx < List.length xe)%nat -> (S ky < List.length ye)%nat ->
     size_in clip (regular_xy xe ye) (P r) (nearby tree (regular_xy xe ye) (P r)) (ky, kx) == size (in_cell (P r) xe ye kx ky)).
  { intros r kx ky Hr Kx Ky. destruct (C r Hr) as ((CV & NZ & SM & CE) & _). apply (part_size clip tree xe ye dx dy); auto. }
  rewrite (qsum_ext _ _ (fun kx => qsum (map (fun ky => over (fun r => (num (lu_energy r) / size (P r)) * size (in_cell (P r) xe ye kx ky)) ts) (seq 0 (List.length ye - 1))))).
  2:{ intros kx Hx. apply qsum_ext. intros ky Hy. apply in_seq in Hx, Hy. destruct (K' kx ky ltac:(lia) ltac:(lia)) as ((v & -> & Hv) & _). cbn [num].
      rewrite Hv. apply qsum_ext. intros r Hr. fold (P r). rewrite (PS r kx ky Hr) by lia. unfold Qdiv. ring. }
  unfold over. rewrite (qsum_ext _ _ (fun kx => qsum (map (fun r => qsum (map (fun ky => (num (lu_energy r) / size (P r)) * size (in_cell (P r) xe ye kx ky)) (seq 0 (List.length ye - 1)))) (List.concat ts)))) by (intros; apply qsum_swap).
  rewrite qsum_swap. apply qsum_ext. intros r Hr. destruct (C r Hr) as ((CV & NZ & SM & CE) & _). fold (P r) in *.
  rewrite (qsum_ext _ _ (fun kx => (num (lu_energy r) / size (P r)) * qsum (map (fun ky => size (in_cell (P r) xe ye kx ky)) (seq 0 (List.length ye - 1))))) by (intros kx _; apply qsum_times).
  rewrite qsum_times, cells_share by auto. unfold Qdiv. ring.
Qed.
Print Assumptions C103_total.

(** A polygon with all corners on the grid is centred on it, unless it is flat. *)
Lemma sum_between : forall l lo hi, (forall v, In v l -> lo <= v <= hi) ->
  inject_Z (Z.of_nat (List.length l)) * lo <= qsum l <= inject_Z (Z.of_nat (List.length l)) * hi.
Proof.
  intros l lo hi. induction l as [|a l IH]; intros H; [change (qsum []) with 0; cbn [List.length]; change (inject_Z (Z.of_nat 0)) with 0; lra|]. cbn [List.length]. rewrite Nat2Z.inj_succ. unfold Z.succ. rewrite inject_Z_plus. change (inject_Z 1) with 1.
  change (qsum (a :: l)) with (a + qsum l). assert (lo <= a <= hi) by (apply H; cbn; auto). specialize (IH ltac:(intros; apply H; cbn; auto)). lra.
Qed.
Lemma sum_above : forall l lo, (forall v, In v l -> lo <= v) -> (exists v, In v l /\ ~ v == lo) -> inject_Z (Z.of_nat (List.length l)) * lo < qsum l.
Proof.
  intros l lo. induction l as [|a l IH]; intros H (v & V & N); [contradiction|]. cbn [List.length]. rewrite Nat2Z.inj_succ. unfold Z.succ. rewrite inject_Z_plus. change (inject_Z 1) with 1.
  change (qsum (a :: l)) with (a + qsum l). assert (A : lo <= a) by (apply H; cbn; auto). destruct V as [<-|V].
  - assert (lo < a) by (destruct (Qlt_le_dec lo a); auto; exfalso; apply N; lra).
    assert (B : inject_Z (Z.of_nat (List.length l)) * lo <= qsum l).
    { clear - H. induction l as [|b l IH]; [change (qsum []) with 0; cbn [List.length]; change (inject_Z (Z.of_nat 0)) with 0; lra|]. cbn [List.length]. rewrite Nat2Z.inj_succ. unfold Z.succ. rewrite inject_Z_plus. change (inject_Z 1) with 1.
      change (qsum (b :: l)) with (b + qsum l). assert (lo <= b) by (apply H; cbn; auto). specialize (IH ltac:(intros v [<-|V]; apply H; cbn; auto)). lra. }
    lra.
  - specialize (IH ltac:(intros; apply H; cbn; auto) ltac:(eauto)). lra.
Qed.
Lemma mean_in : forall l lo hi, (forall v, In v l -> lo <= v <= hi) -> (exists v, In v l /\ ~ v == lo) -> lo < qmean l <= hi.
Proof.
  intros l lo hi H E. pose proof (sum_between l lo hi H) as [_ B]. pose proof (sum_above l lo ltac:(intros; apply H; auto) E) as A.
  assert (P : 0 < inject_Z (Z.of_nat (List.length l))).
  { destruct E as (v & V & _). destruct l; [contradiction|]. change 0 with (inject_Z 0). rewrite <- Zlt_Qlt. cbn [List.length]. lia. }
  unfold qmean. split; [apply Qlt_shift_div_l|apply Qle_shift_div_r]; auto; lra.
Qed.
Lemma spread_out : forall (g : pt -> Q) p c, (forall v, In v p -> g v == c) \/ (exists v, In v p /\ ~ g v == c).
Proof.
  intros g p c. induction p as [|a p IH]; [left; contradiction|]. destruct (Qeq_dec (g a) c) as [E|N]; [|right; exists a; cbn; auto].
  destruct IH as [IH|(v & V & N)]; [left; intros v [<-|V]; auto|right; exists v; cbn; auto].
Qed.
Lemma on_grid_centred : forall xs ys p, ~ size p == 0 ->
  (forall v, In v p -> edge xs 0 <= fst v <= edge xs (List.length xs - 1) /\ edge ys 0 <= snd v <= edge ys (List.length ys - 1)) -> centred xs ys p.
Proof.
  intros xs ys p NZ H. unfold centred, vertex_mean. cbn [fst snd]. split; apply mean_in.
  - intros u U. apply in_map_iff in U. destruct U as (v & <- & V). apply H; auto.
  - destruct (spread_out fst p (edge xs 0)) as [E|(v & V & N)]; [exfalso; apply NZ, size_flat, (flat_x p (edge xs 0)); auto|]. exists (fst v). split; [apply in_map; auto|auto].
  - intros u U. apply in_map_iff in U. destruct U as (v & <- & V). apply H; auto.
  - destruct (spread_out snd p (edge ys 0)) as [E|(v & V & N)]; [exfalso; apply NZ, size_flat, (flat_y p (edge ys 0)); auto|]. exists (snd v). split; [apply in_map; auto|auto].
Qed.
(** All of the observed energy is on the grid when all pixels are. *)
Theorem C103_observed_energy : forall set_order, (forall l, Permutation (set_order l) l) ->
  forall weird clip tree quad xe ye dx dy chunk_size files q g,
  (1 < List.length xe)%nat -> (1 < List.length ye)%nat -> uniform xe dx -> uniform ye dy -> proper clip -> exact clip ->
  (0 < chunk_size)%nat -> (forall q', q = Some q' -> q_check q' = true) -> Forall usable files ->
  grid_files set_order weird clip tree quad xe ye chunk_size files q = Ok g ->
  exists tables es, tables_read set_order weird chunk_size q files tables /\ Forall2 (observed set_order q) files es /\
  ((forall r, In r (List.concat tables) ->
      let p := quad (lu_x r) (lu_y r) in
      convex p /\ ~ size p == 0 /\ small dx dy p /\
      forall v, In v p -> edge xe 0 <= fst v <= edge xe (List.length xe - 1) /\ edge ye 0 <= snd v <= edge ye (List.length ye - 1)) ->
   grid_total (gr_energy g) == qsum es).
Proof.
  intros so HP weird clip tree quad xe ye dx dy cs files q g HX HY Ux Uy PR EX Hcs HQ US H.
  destruct (C103_total so weird clip tree quad xe ye dx dy cs files q g HX HY Ux Uy PR EX H) as (tables & TR & TOT).
  destruct (observed_tables so HP weird cs files q tables Hcs HQ US TR) as (es & O & K & N).
  exists tables, es. split; [exact TR|]. split; [exact O|]. intros COV. rewrite <- K. cbv zeta in TOT. rewrite TOT.
  - apply qsum_ext. intros r Hr. destruct (COV r Hr) as (C & NZ & _ & IN). rewrite overlap_all by auto. field. auto.
  - intros r Hr. destruct (COV r Hr) as (C & NZ & SM & IN). destruct (N r Hr) as (n1 & n2 & _). split; [|auto].
    split; [auto|]. split; [auto|]. split; [auto|]. apply on_grid_centred; auto.
Qed.
Print Assumptions C103_observed_energy.

(** A cell whose parts of the pixels add up to its size, all with the same count of flashes, shows that count. *)
Theorem C103_full_cell : forall set_order weird clip tree quad xe ye dx dy chunk_size files q g,
  (1 < List.length xe)%nat -> (1 < List.length ye)%nat -> uniform xe dx -> uniform ye dy -> proper clip -> exact clip ->
  grid_files set_order weird clip tree quad xe ye chunk_size files q = Ok g ->
  exists tables, tables_read set_order weird chunk_size q files tables /\
  ((forall r, In r (List.concat tables) -> fair xe ye dx dy (quad (lu_x r) (lu_y r)) /\ lu_farea r <> None /\ lu_garea r <> None) ->
   forall kx ky n, (S kx < List.length xe)%nat -> (S ky < List.length ye)%nat ->
   let part r := size (in_cell (quad (lu_x r) (lu_y r)) xe ye kx ky) in
   over part tables == cell_size xe ye kx ky ->
   (forall r, In r (List.concat tables) -> ~ part r == 0 -> lu_fcount r = n) ->
   is_num (g_at (gr_fcount g) (Z.of_nat kx) (Z.of_nat ky)) (qnat n)).
Proof.
  intros so weird clip tree quad xe ye dx dy cs files q g HX HY Ux Uy PR EX H.
  pose proof (uniform_increasing xe dx Ux) as IX. pose proof (uniform_increasing ye dy Uy) as IY.
  destruct (C103_cells so weird clip tree quad xe ye dx dy cs files q g HX HY Ux Uy PR EX H) as (ts & TR & K). exists ts. split; [exact TR|].
  intros C kx ky n Kx Ky part FULL SAME. destruct (K C kx ky Kx Ky) as (_ & (v & -> & Hv) & _). exists v. split; [reflexivity|]. fold part in Hv.
  pose proof (cell_pos xe ye HX HY IX IY kx ky Kx Ky) as CP. rewrite Hv. unfold over in *.
  rewrite (qsum_ext _ _ (fun r => (qnat n / cell_size xe ye kx ky) * part r)).
  - rewrite qsum_times. rewrite FULL. field. lra.
  - intros r Hr. destruct (Qeq_dec (part r) 0) as [E|NE].
    + fold (part r). rewrite E. unfold Qdiv. ring.
    + rewrite (SAME r Hr NE). fold (part r). unfold Qdiv. ring.
Qed.
Print Assumptions C103_full_cell.

(** * Examples *)
(** The reference itself is a clipping function that is exact: the corners 0 and 2 of the
    rectangle give its sides. *)
Definition reference_clip (p q : poly) : list poly :=
  let c := overlap p (fst (nth 0 q (0, 0))) (fst (nth 2 q (0, 0))) (snd (nth 0 q (0, 0))) (snd (nth 2 q (0, 0))) in
  match c with [] => [] | _ => [c] end.
Example C103_reference : exact reference_clip /\ proper reference_clip.
Proof.
  split.
  - intros p x0 x1 y0 y1 _ _ _. unfold reference_clip. cbn [nth fst snd]. destruct (overlap p x0 x1 y0 y1) as [|a l] eqn:E; [reflexivity|].
    cbn [map]. change (qsum [?x]) with (x + 0). ring.
  - intros p q c H. unfold reference_clip in H. destruct (overlap _ _ _ _ _); [contradiction|]. destruct H as [<-|[]]. discriminate.
Qed.
(** A square standing on a corner, across three rows and two columns. *)
Definition ex_diamond (x y : fval) : poly :=
  let x := num x in let y := num y in let h := (3 # 100) in [(x, y - h); (x + h, y); (x, y + h); (x - h, y)].
Definition ex_ex : list Q := [-(6 # 100); -(2 # 100); 2 # 100; 6 # 100].
Definition ex_ey : list Q := [-(6 # 100); -(3 # 100); 0; 3 # 100; 6 # 100].
Definition ex_one : list (table obs) := [[ar 1 0 (10 # 1)]; [ar 5 1 (3 # 1)]; [ev 100 5 1 (2 # 100) (1 # 100) (18 # 1)]].
Example C103_grid : exists g, grid_files (fun l => l) (fun _ => 0%Z) reference_clip ex_tree ex_diamond ex_ex ex_ey 1 [ex_one] None = Ok g /\
  map (fun a => map (fun b => option_map Qred (g_at (gr_energy g) a b)) [0; 1; 2; 3]%Z) [0; 1; 2]%Z
  = [[Some 0; Some 0; Some 0; Some 0]; [Some 0; Some 2; Some (13 # 2); Some (1 # 2)]; [Some 0; Some 2; Some (13 # 2); Some (1 # 2)]].
Proof. eexists. split; [vm_compute; reflexivity|]. vm_compute. reflexivity. Qed.

(** The pixels of that run meet the hypotheses of the theorems above. *)
Example C103_hypotheses : uniform ex_ex (4 # 100) /\ uniform ex_ey (3 # 100) /\
  forall L, get_lutevents (fun _ => 0%Z) lut_scale lut_range lut_range ex_one = Ok L -> L <> [] /\ forall r, In r L ->
  fair ex_ex ex_ey (4 # 100) (3 # 100) (ex_diamond (lu_x r) (lu_y r)) /\ lu_farea r <> None /\ lu_garea r <> None /\
  forall v, In v (ex_diamond (lu_x r) (lu_y r)) ->
    edge ex_ex 0 <= fst v <= edge ex_ex (List.length ex_ex - 1) /\ edge ex_ey 0 <= snd v <= edge ex_ey (List.length ex_ey - 1).
Proof.
  split; [split; [reflexivity|]; intros k K; do 4 (destruct k as [|k]; [reflexivity|]); cbn in K; lia|].
  split; [split; [reflexivity|]; intros k K; do 5 (destruct k as [|k]; [reflexivity|]); cbn in K; lia|].
  intros L H. vm_compute in H. inversion H; subst L. clear H. split; [discriminate|].
  assert (CV : forall x y, convex (ex_diamond x y)).
  { intros x y. exists 1. split; [left; reflexivity|]. intros i j k d I J K. unfold ex_diamond in *. cbn [List.length] in K.
    destruct k as [|[|[|[|k]]]]; try lia; destruct j as [|[|[|j]]]; try lia; destruct i as [|[|i]]; try lia; cbn [nth]; unfold turn; cbn [fst snd]; 
      match goal with |- 0 <= ?e => let v := constr:(18 # 10000) in assert (Z : e == v) by ring; rewrite Z; discriminate end. }
  intros r R. split.
  - split; [apply CV|]. repeat (destruct R as [<-|R]; [split; [intros E; vm_compute in E; discriminate|]; split;
      [intros v V; repeat (destruct V as [<-|V]; [split; vm_compute; discriminate|]); contradiction|
       split; split; vm_compute; first [reflexivity|discriminate]]|]). contradiction.
  - repeat (destruct R as [<-|R]; [split; [discriminate|]; split; [discriminate|];
      intros v V; repeat (destruct V as [<-|V]; [repeat split; vm_compute; discriminate|]); contradiction|]). contradiction.
Qed.

(** * With integer coordinates *)
(** The library, on integer coordinates: for a convex polygon and a rectangle the sizes of its
    pieces add up to the size of the part inside, up to [eta] square steps (the corners of its
    pieces are integers again, so it cannot be exact). *)
Definition nearly_exact (iclip : ipoly -> ipoly -> list ipoly) (eta : Q) : Prop :=
  forall p x0 x1 y0 y1, convex (whole p) -> (x0 < x1)%Z -> (y0 < y1)%Z ->
    within eta (qsum (map (fun c => size (whole c)) (iclip p [(x0, y0); (x1, y0); (x1, y1); (x0, y1)])))
               (size (overlap (whole p) (inject_Z x0) (inject_Z x1) (inject_Z y0) (inject_Z y1))).
Lemma div_mono : forall a b c d, (0 < b -> 0 < d -> a * d <= c * b -> a / b <= c / d)%Z.
Proof.
  intros a b c d B D H. apply Z.div_le_lower_bound; [auto|]. pose proof (Z.mul_div_le a b B). nia.
Qed.
Lemma scale_mono : forall v w, v <= w -> (scale_value v <= scale_value w)%Z.
Proof.
  intros [n d] [n' d'] H. unfold Qle in H. cbn [Qnum Qden] in H. unfold scale_value. cbn [Qnum Qden].
  assert (P : (0 < Zpos scale_fact)%Z) by reflexivity. set (F := Zpos scale_fact) in *.
  assert (D : (0 < Zpos d)%Z) by lia. assert (D' : (0 < Zpos d')%Z) by lia. set (e := Zpos d) in *. set (e' := Zpos d') in *.
  destruct (Z.le_gt_cases 0 n) as [N|N].
  - assert (0 <= n')%Z by nia. rewrite !Z.quot_div_nonneg by nia. apply div_mono; nia.
  - replace (n * F)%Z with (- (- n * F))%Z by ring. rewrite Z.quot_opp_l by lia. rewrite (Z.quot_div_nonneg (- n * F)) by nia.
    destruct (Z.le_gt_cases 0 n') as [N'|N'].
    + rewrite Z.quot_div_nonneg by nia. assert (0 <= n' * F / e')%Z by (apply Z.div_pos; nia). assert (0 <= - n * F / e)%Z by (apply Z.div_pos; nia). lia.
    + replace (n' * F)%Z with (- (- n' * F))%Z by ring. rewrite Z.quot_opp_l by lia. rewrite Z.quot_div_nonneg by nia.
      assert (- n' * F / e' <= - n * F / e)%Z by (apply div_mono; nia). lia.
Qed.
Definition scaled (v : Q) : Q := inject_Z (scale_value v).
Lemma scaled_mono : forall v w, v <= w -> scaled v <= scaled w.
Proof. intros. unfold scaled. rewrite <- Zle_Qle. apply scale_mono. auto. Qed.
Lemma scaled_strict : forall v w, v + 2 * step < w -> scaled v < scaled w.
Proof.
  intros v w H. pose proof (scale_near v) as A. pose proof (scale_near w) as B. apply Qabs_Qle_condition in A, B.
  assert (U : forall z, unscale_value z == step * inject_Z z) by (intros z; unfold unscale_value, step, Qeq, Qmult, inject_Z; cbn [Qnum Qden]; rewrite Pos.mul_1_r; unfold scale_fact; lia).
  rewrite U in A, B. fold (scaled v) in A. fold (scaled w) in B.
  assert (L : step * scaled v < step * scaled w) by lra. apply Qmult_lt_l in L; [exact L|reflexivity].
Qed.
Lemma whole_scaled : forall p, whole (scale_to p) = map (fun v => (scaled (fst v), scaled (snd v))) p.
Proof. intros p. unfold whole, scale_to. rewrite map_map. reflexivity. Qed.
Lemma edge_scaled : forall e k, (k < List.length e)%nat -> edge (map scaled e) k = scaled (edge e k).
Proof. intros e k K. unfold edge. rewrite (nth_indep _ 0 (scaled 0)) by (rewrite map_length; auto). apply map_nth. Qed.
Lemma increasing_scaled : forall e d, uniform e d -> 2 * step < d -> increasing (map scaled e).
Proof.
  intros e d [P U] D i j [I J]. rewrite map_length in J. rewrite !edge_scaled by lia. apply scaled_strict. rewrite (U i), (U j) by lia.
  assert (Q : inject_Z (Z.of_nat i) + 1 <= inject_Z (Z.of_nat j)) by (change 1 with (inject_Z 1); rewrite <- inject_Z_plus, <- Zle_Qle; lia). 
  assert (inject_Z (Z.of_nat i) * d + d <= inject_Z (Z.of_nat j) * d) by nra. lra.
Qed.
(** The pieces of one pixel, in integer coordinates, add up to it. *)
Definition iref (p q : poly) : list poly :=
  [overlap (whole (scale_to p)) (scaled (fst (nth 0 q (0, 0)))) (scaled (fst (nth 2 q (0, 0)))) (scaled (snd (nth 0 q (0, 0)))) (scaled (snd (nth 2 q (0, 0))))].
Lemma cell_xy : forall xs ys kx ky, (S kx < List.length xs)%nat -> (S ky < List.length ys)%nat ->
  cell_quad (regular_xy xs ys) (ky, kx) = [(edge xs kx, edge ys ky); (edge xs (S kx), edge ys ky); (edge xs (S kx), edge ys (S ky)); (edge xs kx, edge ys (S ky))].
Proof. intros xs ys kx ky Kx Ky. unfold cell_quad, regular_xy. cbn [me_x me_y]. rewrite !meshgrid_node by lia. reflexivity. Qed.
Lemma iref_total : forall tree xs ys dx dy p,
  (1 < List.length xs)%nat -> (1 < List.length ys)%nat -> uniform xs dx -> uniform ys dy -> 2 * step < dx -> 2 * step < dy ->
  convex (whole (scale_to p)) -> small dx dy p -> centred xs ys p ->
  (forall v, In v p -> edge xs 0 <= fst v <= edge xs (List.length xs - 1) /\ edge ys 0 <= snd v <= edge ys (List.length ys - 1)) ->
  qsum (map (fun e => size (fst e)) (cut iref (regular_xy xs ys) p (nearby tree (regular_xy xs ys) p))) == size (whole (scale_to p)).
Proof.
  intros tree xs ys dx dy p LX LY Ux Uy Dx Dy CV SM [[X0 X1] [Y0 Y1]] IN.
  pose proof (uniform_increasing xs dx Ux) as IX. pose proof (uniform_increasing ys dy Uy) as IY.
  destruct (find_cell xs _ LX X0 X1) as (cx & Hx). destruct (find_cell ys _ LY Y0 Y1) as (cy & Hy).
  assert (Ex : edges_ok xs) by (split; [lia|auto]). assert (Ey : edges_ok ys) by (split; [lia|auto]).
  rewrite <- (size_in_all iref tree xs ys LX LY IX IY p).
  pose proof (cells_share (whole (scale_to p)) (map scaled xs) (map scaled ys) CV (increasing_scaled xs dx Ux Dx) (increasing_scaled ys dy Uy Dy)) as CS.
  rewrite !map_length in CS. specialize (CS LX LY). rewrite !edge_scaled in CS by lia. rewrite overlap_all in CS.
  2:{ intros v V. rewrite whole_scaled in V. apply in_map_iff in V. destruct V as (w & <- & W). cbn [fst snd]. specialize (IN w W).
      repeat split; apply scaled_mono; lra. }
  rewrite <- CS. apply qsum_ext. intros kx Kx. apply qsum_ext. intros ky Ky. apply in_seq in Kx, Ky.
  rewrite size_in_one by (apply nearby_nodup; auto). unfold in_cell. rewrite !edge_scaled by lia.
  destruct (existsb (same_cell (ky, kx)) (nearby tree (regular_xy xs ys) p)) eqn:E.
  - rewrite cell_xy by lia. unfold iref. cbn [nth fst snd map]. change (qsum [?x]) with (x + 0). ring.
  - assert (N : ~ (apart kx cx 2 /\ apart ky cy 2)).
    { intros [Ax Ay]. pose proof (in_nearby tree xs ys p cx cy kx ky Ex Ey Hx Hy ltac:(lia) ltac:(lia) Ax Ay) as J.
      apply not_true_iff_false in E. apply E. apply existsb_exists. exists (ky, kx). split; [exact J|]. unfold same_cell. cbn [fst snd]. rewrite !Nat.eqb_refl. reflexivity. }
    symmetry. apply beside.
    assert (SM' : forall v, In v p -> fst (vertex_mean p) - 2 * dx <= fst v <= fst (vertex_mean p) + 2 * dx /\ snd (vertex_mean p) - 2 * dy <= snd v <= snd (vertex_mean p) + 2 * dy).
    { intros v V. destruct (SM v V) as [A B]. apply Qabs_Qle_condition in A, B. lra. }
    destruct (apart_dec kx cx) as [Ax|Ax]; [destruct (apart_dec ky cy) as [Ay|Ay]; [tauto|]|].
    + destruct (far_beside ys dy cy ky _ Uy ltac:(lia) Hy Ay) as [F|F]; [right; right; left|right; right; right]; intros v V;
        rewrite whole_scaled in V; apply in_map_iff in V; destruct V as (w & <- & W); cbn [fst snd]; apply scaled_mono; specialize (SM' w W); lra.
    + destruct (far_beside xs dx cx kx _ Ux ltac:(lia) Hx Ax) as [F|F]; [left|right; left]; intros v V;
        rewrite whole_scaled in V; apply in_map_iff in V; destruct V as (w & <- & W); cbn [fst snd]; apply scaled_mono; specialize (SM' w W); lra.
Qed.
(** At most 25 cells are looked up. *)
Lemma nearby_count : forall tree xs ys p, (1 < List.length xs)%nat -> (1 < List.length ys)%nat -> increasing xs -> increasing ys -> centred xs ys p ->
  (List.length (nearby tree (regular_xy xs ys) p) <= 25)%nat /\
  forall c, In c (nearby tree (regular_xy xs ys) p) -> (S (snd c) < List.length xs)%nat /\ (S (fst c) < List.length ys)%nat.
Proof.
  intros tree xs ys p LX LY IX IY [[X0 X1] [Y0 Y1]].
  destruct (find_cell xs _ LX X0 X1) as (cx & Hx). destruct (find_cell ys _ LY Y0 Y1) as (cy & Hy).
  assert (Ex : edges_ok xs) by (split; [lia|auto]). assert (Ey : edges_ok ys) by (split; [lia|auto]).
  assert (J : forall c, In c (nearby tree (regular_xy xs ys) p) -> apart (snd c) cx 2 /\ apart (fst c) cy 2 /\ (S (snd c) < List.length xs)%nat /\ (S (fst c) < List.length ys)%nat).
  { intros c Hc. destruct (C29_nearest xs ys _ _ tree _ _ cx cy Ex Ey (made_xy xs ys) Hx Hy) as (l & E & _ & C).
    unfold nearby in Hc. rewrite (surjective_pairing (vertex_mean p)), E in Hc. apply in_map_iff in Hc. destruct Hc as (z & <- & Hz).
    apply C in Hz. destruct Hz as (kx & ky & -> & Kx & Ky & Ax & Ay). cbn [fst snd]. rewrite !Nat2Z.id. auto. }
  split; [|intros c Hc; apply J; auto].
  set (around := fun c => map (fun i => (c + i - 2)%nat) (seq 0 5)).
  assert (IA : forall k c, apart k c 2 -> In k (around c)).
  { intros k c A. unfold apart in A. unfold around. apply in_map_iff. exists (k + 2 - c)%nat. split; [lia|]. apply in_seq. lia. }
  assert (INC : incl (nearby tree (regular_xy xs ys) p) (list_prod (around cy) (around cx))).
  { intros [a b] Hc. destruct (J _ Hc) as (A & B & _). cbn [fst snd] in *. apply in_prod; apply IA; auto. }
  pose proof (NoDup_incl_length (nearby_nodup tree xs ys p LX LY IX IY) INC) as L. rewrite prod_length in L. exact L.
Qed.
Lemma tiled_nearby : forall iclip eta tree xs ys dx dy p, nearly_exact iclip eta -> 0 <= eta ->
  (1 < List.length xs)%nat -> (1 < List.length ys)%nat -> uniform xs dx -> uniform ys dy -> 2 * step < dx -> 2 * step < dy ->
  convex (whole (scale_to p)) -> small dx dy p -> centred xs ys p ->
  (forall v, In v p -> edge xs 0 <= fst v <= edge xs (List.length xs - 1) /\ edge ys 0 <= snd v <= edge ys (List.length ys - 1)) ->
  tiled iclip (25 * eta) (scale_to p) (map (fun c => scale_to (cell_quad (regular_xy xs ys) c)) (nearby tree (regular_xy xs ys) p)).
Proof.
  intros iclip eta tree xs ys dx dy p NE E0 LX LY Ux Uy Dx Dy CV SM CE IN.
  pose proof (uniform_increasing xs dx Ux) as IX. pose proof (uniform_increasing ys dy Uy) as IY.
  destruct (nearby_count tree xs ys p LX LY IX IY CE) as [NC VC].
  pose proof (iref_total tree xs ys dx dy p LX LY Ux Uy Dx Dy CV SM CE IN) as IT. unfold tiled, within. rewrite <- IT. clear IT.
  match goal with |- Qabs (?a - ?b) <= ?e => change (within e a b) end.
  apply within_le with (inject_Z (Z.of_nat (List.length (nearby tree (regular_xy xs ys) p))) * eta).
  2:{ apply Qmult_le_compat_r; [|exact E0]. change 25 with (inject_Z 25). rewrite <- Zle_Qle. lia. }
  set (m := regular_xy xs ys) in *. clear NC. induction (nearby tree m p) as [|c l IH].
  - unfold within. cbn [map flat_map cut]. change (qsum []) with 0. cbn [List.length]. change (inject_Z (Z.of_nat 0)) with 0. 
    change (qsum (map (fun e : poly * (nat * nat) => size (fst e)) (cut iref m p []))) with 0. apply Qabs_Qle_condition. lra.
  - specialize (IH (fun d Hd => VC d (or_intror Hd))). destruct (VC c (or_introl eq_refl)) as [Kx Ky]. destruct c as [ky kx]. cbn [fst snd] in *.
    cbn [map flat_map List.length]. rewrite Nat2Z.inj_succ. unfold Z.succ. rewrite inject_Z_plus. change (inject_Z 1) with 1.
    change (cut iref m p ((ky, kx) :: l)) with (map (fun q => (q, (ky, kx))) (iref p (cell_quad m (ky, kx))) ++ cut iref m p l).
    unfold within in *. rewrite !map_app, !qsum_app.
    assert (A : Qabs (qsum (map (fun c => size (whole c)) (iclip (scale_to p) (scale_to (cell_quad m (ky, kx))))) -
                      qsum (map (fun e : poly * (nat * nat) => size (fst e)) (map (fun q => (q, (ky, kx))) (iref p (cell_quad m (ky, kx)))))) <= eta).
    { unfold m. rewrite cell_xy by auto. unfold iref. cbn [nth fst snd map scale_to]. change (qsum [?x]) with (x + 0). rewrite Qplus_0_r. apply NE; [exact CV| |]; rewrite Zlt_Qlt.
      - pose proof (increasing_scaled xs dx Ux Dx kx (S kx) ltac:(rewrite map_length; lia)) as Z. rewrite !edge_scaled in Z by lia. exact Z.
      - pose proof (increasing_scaled ys dy Uy Dy ky (S ky) ltac:(rewrite map_length; lia)) as Z. rewrite !edge_scaled in Z by lia. exact Z. }
    apply Qabs_Qle_condition in A, IH. apply Qabs_Qle_condition. lra.
Qed.
(** With integer coordinates, all of the observed energy is on the grid up to the rounding of
    the corners of the pixels and of the pieces. *)
Theorem C103_integer_energy : forall set_order, (forall l, Permutation (set_order l) l) ->
  forall weird iclip tree quad xe ye dx dy chunk_size files q g eta eps,
  (1 < List.length xe)%nat -> (1 < List.length ye)%nat -> uniform xe dx -> uniform ye dy -> 2 * step < dx -> 2 * step < dy ->
  (forall p q c, In c (iclip p q) -> c <> []) -> nearly_exact iclip eta -> 0 <= eta ->
  (0 < chunk_size)%nat -> (forall q', q = Some q' -> q_check q' = true) -> Forall usable files ->
  (forall ds e v, In ds files -> In e (nth 2 ds []) -> o_energy (rdat e) = Some v -> 0 <= v) -> 0 <= eps ->
  grid_files set_order weird (scaled_clip iclip) tree quad xe ye chunk_size files q = Ok g ->
  exists tables es, tables_read set_order weird chunk_size q files tables /\ Forall2 (observed set_order q) files es /\
  ((forall r, In r (List.concat tables) ->
      let p := quad (lu_x r) (lu_y r) in
      List.length p = 4%nat /\ convex (whole (scale_to p)) /\ ~ size p == 0 /\ small dx dy p /\
      (forall v, In v p -> edge xe 0 <= fst v <= edge xe (List.length xe - 1) /\ edge ye 0 <= snd v <= edge ye (List.length ye - 1)) /\
      slack p + step * step * (25 * eta) <= eps * size p) ->
   within (eps * qsum es) (grid_total (gr_energy g)) (qsum es)).
Proof.
  intros so HP weird iclip tree quad xe ye dx dy cs files q g eta eps HX HY Ux Uy Dx Dy PR NE E0 Hcs HQ US POS HE H.
  pose proof (uniform_increasing xe dx Ux) as IX. pose proof (uniform_increasing ye dy Uy) as IY.
  destruct (C82_grid_energy so HP weird iclip tree quad xe ye cs files q g (25 * eta) eps HX HY IX IY PR Hcs HQ US POS HE H) as (tables & es & TR & O & K).
  exists tables, es. split; [exact TR|]. split; [exact O|]. intros COV. apply K. intros r Hr. cbv zeta. destruct (COV r Hr) as (L4 & CV & NZ & SM & IN & LE).
  split; [exact L4|]. split; [exact NZ|]. split; [exact LE|]. apply (tiled_nearby iclip eta tree xe ye dx dy); auto. apply on_grid_centred; auto.
Qed.
Print Assumptions C103_integer_energy.

(** There are such libraries: one that answers with a strip of the size of the overlap, cut to
    an integer, is exact up to one square step. *)
Definition strip_clip (p q : ipoly) : list ipoly :=
  let c := whole q in
  let x0 := fst (nth 0 c (0, 0)) in let x1 := fst (nth 2 c (0, 0)) in let y0 := snd (nth 0 c (0, 0)) in let y1 := snd (nth 2 c (0, 0)) in
  let s := size (overlap (whole p) x0 x1 y0 y1) in
  let n := Z.div (Qnum s) (Zpos (Qden s)) in
  [[(0, 0); (n, 0); (n, 1); (0, 1)]]%Z.
Example C103_nearly_exact : nearly_exact strip_clip 1 /\ forall p q c, In c (strip_clip p q) -> c <> [].
Proof.
  split.
  - intros p x0 x1 y0 y1 _ _ _. unfold strip_clip, within. cbv zeta. change (nth 0 (whole [(x0, y0); (x1, y0); (x1, y1); (x0, y1)]) (0, 0)) with (inject_Z x0, inject_Z y0). change (nth 2 (whole [(x0, y0); (x1, y0); (x1, y1); (x0, y1)]) (0, 0)) with (inject_Z x1, inject_Z y1). cbn [fst snd map]. set (s := size (overlap _ _ _ _ _)).
    assert (S0 : 0 <= s) by apply Qabs_nonneg. destruct s as [a b]. cbn [Qnum Qden].
    assert (A : (0 <= a)%Z) by (unfold Qle in S0; cbn in S0; lia). pose proof (Z.div_mod a (Zpos b) ltac:(lia)) as D. pose proof (Z.mod_pos_bound a (Zpos b) ltac:(lia)) as M.
    assert (N0 : (0 <= a / Zpos b)%Z) by (apply Z.div_pos; lia). set (n := (a / Zpos b)%Z) in *.
    change (qsum [?x]) with (x + 0). rewrite Qplus_0_r.
    assert (E : size (whole [(0, 0); (n, 0); (n, 1); (0, 1)]%Z) == inject_Z n).
    { unfold size. cbn [whole map fst snd]. rewrite size_quad. cbn [fst snd].
      assert (Q : ((inject_Z 0 - inject_Z n) * (inject_Z 0 - inject_Z 1) - (inject_Z 0 - inject_Z 1) * (inject_Z n - inject_Z 0)) / 2 == inject_Z n)
        by (change (inject_Z 0) with 0; change (inject_Z 1) with 1; field).
      rewrite Q. apply Qabs_pos. change 0 with (inject_Z 0). rewrite <- Zle_Qle. auto. }
    rewrite E. apply Qabs_Qle_condition. unfold Qle, Qminus, Qplus, Qopp, inject_Z. cbn [Qnum Qden]. rewrite ?Pos2Z.inj_mul. nia.
  - intros p q c [<-|[]]. discriminate.
Qed.
(** A pixel of the concrete run above meets the other hypotheses. *)
Example C103_integer_pixel : let p := ex_diamond (Some (1 # 100)) (Some (1 # 70)) in
  List.length p = 4%nat /\ convex (whole (scale_to p)) /\ ~ size p == 0 /\ slack p + step * step * (25 * 1) <= (1 # 1000000) * size p.
Proof.
  split; [reflexivity|]. split.
  - exists 1. split; [left; reflexivity|]. intros i j k d I J K. cbn in K.
    destruct k as [|[|[|[|k]]]]; try lia; destruct j as [|[|[|j]]]; try lia; destruct i as [|[|i]]; try lia; vm_compute; discriminate.
  - split; vm_compute; discriminate.
Qed.
