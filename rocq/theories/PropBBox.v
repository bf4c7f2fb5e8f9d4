(** C29: the lookup of cells near a point and in a bounding box. *)
From Coq Require Import List ZArith QArith Bool Lia Lqa.
From Verif Require Import Base BaseProofs Glm AccumProofs Poly PolySpec PolyProofs PropPoly BBox BBoxSpec BBoxProofs.
Import ListNotations.
Open Scope Z_scope.

Lemma edges_nonempty : forall e, edges_ok e -> e <> [].
Proof. intros e [H _] ->. simpl in H. lia. Qed.
Lemma made_regular : forall xs ys m at_, made_from xs ys m at_ -> me_regular m = true.
Proof. intros xs ys m at_ [|_]; reflexivity. Qed.
Lemma digitize_ok : forall e v, edges_ok e -> exists c, digitize e v = Ok c.
Proof.
  intros e v [L [H|H]].
  - destruct (digitize_incr e v H) as (c & E & _). eauto.
  - destruct (digitize_decr e v H L) as (c & E & _). eauto.
Qed.
Lemma axis_range_ok : forall e lim pad, edges_ok e -> exists r, axis_range e lim pad = Ok r.
Proof.
  intros e lim pad H. unfold axis_range. destruct (digitize_ok e (fst lim) H) as [c0 ->]. destruct (digitize_ok e (snd lim) H) as [c1 ->].
  cbn [bind]. destruct (filter _ _); eauto.
Qed.
Lemma fast_spec : forall xs ys m at_ x0 x1 y0 y1 pad, edges_ok xs -> edges_ok ys -> made_from xs ys m at_ ->
  exists rx ry l, axis_range xs (x0, x1) pad = Ok rx /\ axis_range ys (y0, y1) pad = Ok ry /\
    quads_in_bbox_fast m (x0, x1, y0, y1) pad = Ok l /\ NoDup l /\
    forall p, In p l <-> exists kx ky xa xb ya yb, rx = Some (xa, xb) /\ ry = Some (ya, yb) /\
       p = at_ kx ky /\ xa <= Z.of_nat kx < xb /\ ya <= Z.of_nat ky < yb.
Proof.
  intros xs ys m at_ x0 x1 y0 y1 pad Hx Hy M.
  destruct (axis_range_ok xs (x0, x1) pad Hx) as [rx Ex]. destruct (axis_range_ok ys (y0, y1) pad Hy) as [ry Ey].
  assert (F : quads_in_bbox_fast m (x0, x1, y0, y1) pad = 
    match rx, ry with
    | Some (xa, xb), Some (ya, yb) =>
        let '(d0, d1) := if x_along_dim1 m then (range ya yb, range xa xb) else (range xa xb, range ya yb) in
        Ok (list_prod d0 d1)
    | _, _ => Ok []
    end).
  { unfold quads_in_bbox_fast. 
    assert (x_edge1d m = xs /\ y_edge1d m = ys) as [-> ->].
    { destruct M as [|Hs]; [apply edges_xy|apply edges_ij]; auto using edges_nonempty. }
    rewrite Ex, Ey. reflexivity. }
  exists rx, ry. rewrite F.
  destruct rx as [[xa xb]|]; [destruct ry as [[ya yb]|]|];
    [|eexists; do 3 (split; [eauto|]); split; [constructor|];
      intros p; split; [intros []|intros (?&?&?&?&?&?&?&?&_); discriminate]..].
  pose proof (axis_range_bounds _ _ _ _ _ Ex) as Bx. pose proof (axis_range_bounds _ _ _ _ _ Ey) as By.
  destruct M as [|Hs].
  - rewrite detect_xy by (auto using edges_nonempty). eexists. do 3 (split; [eauto|]). split; [apply nodup_prod; apply range_nodup|].
    intros [i j]. rewrite in_prod_iff, !range_in. split.
    + intros [Hi Hj]. exists (Z.to_nat j), (Z.to_nat i), xa, xb, ya, yb. do 2 (split; [reflexivity|]). split; [f_equal; lia|]. lia.
    + intros (kx & ky & xa' & xb' & ya' & yb' & E1 & E2 & E3 & H). inversion E1; inversion E2; inversion E3; subst. lia.
  - rewrite detect_ij by (auto using edges_nonempty). eexists. do 3 (split; [eauto|]). split; [apply nodup_prod; apply range_nodup|].
    intros [i j]. rewrite in_prod_iff, !range_in. split.
    + intros [Hi Hj]. exists (Z.to_nat i), (Z.to_nat j), xa, xb, ya, yb. do 2 (split; [reflexivity|]). split; [f_equal; lia|]. lia.
    + intros (kx & ky & xa' & xb' & ya' & yb' & E1 & E2 & E3 & H). inversion E1; inversion E2; inversion E3; subst. lia.
Qed.
Lemma at_inj : forall xs ys m at_ kx ky lx ly, made_from xs ys m at_ -> at_ kx ky = at_ lx ly -> kx = lx /\ ky = ly.
Proof. intros xs ys m at_ kx ky lx ly [|_] E; inversion E; lia. Qed.

(** The lookup never fails on such a mesh; it returns no cell twice and only cells of the mesh. *)
Theorem C29_valid_and_distinct : forall xs ys m at_ bbox,
  edges_ok xs -> edges_ok ys -> made_from xs ys m at_ ->
  exists l, quads_in_bbox m bbox = Ok l /\ NoDup l /\
    forall p, In p l -> exists kx ky, p = at_ kx ky /\ (S kx < List.length xs)%nat /\ (S ky < List.length ys)%nat.
Proof.
  intros xs ys m at_ [[[x0 x1] y0] y1] Hx Hy M.
  destruct (fast_spec xs ys m at_ x0 x1 y0 y1 2 Hx Hy M) as (rx & ry & l & Ex & Ey & E & ND & C).
  exists l. unfold quads_in_bbox. rewrite (made_regular _ _ _ _ M). split; [exact E|]. split; [exact ND|].
  intros p Hp. apply C in Hp. destruct Hp as (kx & ky & xa & xb & ya & yb & -> & -> & E3 & H).
  apply axis_range_bounds in Ex, Ey. exists kx, ky. split; [exact E3|]. lia.
Qed.

(** Missing from the full claim: boxes that touch the smallest edge or reach beyond
    the mesh; see the refutations below. *)
Theorem C29_box_inside_partial : forall xs ys m at_ x0 x1 y0 y1,
  edges_ok xs -> edges_ok ys -> made_from xs ys m at_ ->
  (x0 <= x1)%Q -> (y0 <= y1)%Q -> inside xs x0 x1 -> inside ys y0 y1 ->
  exists l, quads_in_bbox m (x0, x1, y0, y1) = Ok l /\
    (forall kx ky, meets xs kx x0 x1 -> meets ys ky y0 y1 -> In (at_ kx ky) l) /\
    (forall kx ky, In (at_ kx ky) l ->
       exists lx ly, meets xs lx x0 x1 /\ meets ys ly y0 y1 /\ apart kx lx 2 /\ apart ky ly 2).
Proof.
  intros xs ys m at_ x0 x1 y0 y1 Hx Hy M Lx Ly Ix Iy.
  destruct (fast_spec xs ys m at_ x0 x1 y0 y1 2 Hx Hy M) as (rx & ry & l & Ex & Ey & E & ND & C).
  destruct (inside_axis xs x0 x1 2 (proj1 Hx) Lx Ix) as (lox & hix & Ox & Rx & Ax & Cx & Mlx & Mhx & Wx).
  destruct (inside_axis ys y0 y1 2 (proj1 Hy) Ly Iy) as (loy & hiy & Oy & Ry & Ay & Cy & Mly & Mhy & Wy).
  rewrite Ax in Ex. rewrite Ay in Ey. inversion Ex; inversion Ey; subst rx ry.
  exists l. unfold quads_in_bbox. rewrite (made_regular _ _ _ _ M). split; [exact E|]. split.
  - intros kx ky Kx Ky. apply C. do 6 eexists. do 3 (split; [reflexivity|]).
    pose proof (Cx _ Kx). pose proof (Cy _ Ky). destruct Kx as [Kx _], Ky as [Ky _]. lia.
  - intros kx ky Hin. apply C in Hin. destruct Hin as (kx' & ky' & xa & xb & ya & yb & E1 & E2 & E3 & H).
    destruct (at_inj _ _ _ _ _ _ _ _ M E3) as [<- <-]. inversion E1; inversion E2; subst. clear E1 E2.
    assert (T : forall e a b lo hi k, (1 < List.length e)%nat -> (a <= b)%Q -> 0 <= lo <= hi -> hi < Z.of_nat (List.length e) - 1 ->
      meets e (Z.to_nat lo) a b -> meets e (Z.to_nat hi) a b -> 
      ((increasing e /\ (edge e (Z.to_nat lo) < a <= edge e (S (Z.to_nat lo)))%Q /\ (edge e (Z.to_nat hi) < b <= edge e (S (Z.to_nat hi)))%Q) \/
       (decreasing e /\ (edge e (S (Z.to_nat lo)) < b <= edge e (Z.to_nat lo))%Q /\ (edge e (S (Z.to_nat hi)) < a <= edge e (Z.to_nat hi))%Q)) ->
      Z.max (lo - 2) 0 <= Z.of_nat k < Z.min (hi + 1 + 2) (Z.of_nat (List.length e) - 1) ->
      exists k', meets e k' a b /\ apart k k' 2).
    { clear. intros e a b lo hi k L Hab O R Ml Mh W K. unfold apart.
      destruct (Z_le_gt_dec (Z.of_nat k) lo) as [D|D]; [exists (Z.to_nat lo); split; [exact Ml|lia]|].
      destruct (Z_le_gt_dec hi (Z.of_nat k)) as [D'|D']; [exists (Z.to_nat hi); split; [exact Mh|lia]|].
      exists k. split; [|lia]. split; [lia|]. destruct W as [(I & W1 & W2)|(I & W1 & W2)].
      - assert (H1 : (edge e (Z.to_nat lo) < edge e k)%Q) by (apply I; lia).
        assert (H2 : (edge e k <= edge e (Z.to_nat hi))%Q) by (apply Qlt_le_weak, I; lia).
        exists (edge e k). split; [split|left; split; [apply Qle_refl|apply Qlt_le_weak, I; lia]].
        + apply Qle_trans with (edge e (S (Z.to_nat lo))); [apply W1|].
          destruct (Z.eq_dec (Z.of_nat k) (lo + 1)) as [Ek|Ek]; [replace k with (S (Z.to_nat lo)) by lia; apply Qle_refl|apply Qlt_le_weak, I; lia].
        + apply Qle_trans with (edge e (Z.to_nat hi)); [exact H2|apply Qlt_le_weak, W2].
      - exists (edge e k). split; [split|right; split; [apply Qlt_le_weak, I; lia|apply Qle_refl]].
        + apply Qle_trans with (edge e (Z.to_nat hi)); [apply W2|apply Qlt_le_weak, I; lia].
        + apply Qle_trans with (edge e (S (Z.to_nat lo))); [|apply Qlt_le_weak, W1].
          destruct (Z.eq_dec (Z.of_nat k) (lo + 1)) as [Ek|Ek]; [replace k with (S (Z.to_nat lo)) by lia; apply Qle_refl|apply Qlt_le_weak, I; lia]. }
    destruct (T xs x0 x1 lox hix kx (proj1 Hx) Lx Ox Rx Mlx Mhx Wx ltac:(lia)) as (lx & Hlx & Dx).
    destruct (T ys y0 y1 loy hiy ky (proj1 Hy) Ly Oy Ry Mly Mhy Wy ltac:(lia)) as (ly & Hly & Dy).
    exists lx, ly. auto.
Qed.

(** A point inside the mesh: exactly the cells at most two away, in each direction,
    from the cell that holds it. *)
Theorem C29_nearest : forall xs ys m at_ tree px py cx cy,
  edges_ok xs -> edges_ok ys -> made_from xs ys m at_ -> holds xs cx px -> holds ys cy py ->
  exists l, quads_nearest tree m (px, py) = Ok l /\ NoDup l /\
    forall p, In p l <-> exists kx ky, p = at_ kx ky /\ (S kx < List.length xs)%nat /\ (S ky < List.length ys)%nat /\
                                       apart kx cx 2 /\ apart ky cy 2.
Proof.
  intros xs ys m at_ tree px py cx cy Hx Hy M Px Py.
  destruct (fast_spec xs ys m at_ px px py py 2 Hx Hy M) as (rx & ry & l & Ex & Ey & E & ND & C).
  assert (T : forall e c v, edges_ok e -> holds e c v ->
    axis_range e (v, v) 2 = Ok (Some (Z.max (Z.of_nat c - 2) 0, Z.min (Z.of_nat c + 1 + 2) (Z.of_nat (List.length e) - 1)))).
  { clear. intros e c v [L H] [Lc V]. 
    assert (exists n, digitize e v = Ok n /\ n = Z.of_nat c + 1) as (n & En & ->).
    { destruct H as [H|H].
      - destruct (digitize_incr e v H) as (n & En & B & K). exists n. split; [exact En|].
        assert (Hc : (edge e c < edge e (S c))%Q) by (apply H; lia).
        destruct V as [V|V]; [|exfalso; apply (Qlt_not_le _ _ Hc); apply Qlt_le_weak; apply Qlt_le_trans with v; apply V].
        pose proof (proj1 (K c ltac:(lia)) (proj1 V)). assert (~ (edge e (S c) < v)%Q) as N by (apply Qle_not_lt, V).
        rewrite K in N by lia. lia.
      - destruct (digitize_decr e v H L) as (n & En & B & K). exists n. split; [exact En|].
        assert (Hc : (edge e (S c) < edge e c)%Q) by (apply H; lia).
        destruct V as [V|V]; [exfalso; apply (Qlt_not_le _ _ Hc); apply Qlt_le_weak; apply Qlt_le_trans with v; apply V|].
        pose proof (proj1 (K c ltac:(lia)) (proj2 V)). assert (~ (v <= edge e (S c))%Q) as N by (apply Qlt_not_le, V).
        rewrite K in N by lia. lia. }
    rewrite (axis_range_both e (v, v) 2 (Z.of_nat c + 1) (Z.of_nat c + 1)) by (auto; lia). do 3 f_equal; f_equal; lia. }
  rewrite (T xs cx px Hx Px) in Ex. rewrite (T ys cy py Hy Py) in Ey. inversion Ex; inversion Ey; subst rx ry.
  exists l. unfold quads_nearest. rewrite (made_regular _ _ _ _ M). split; [exact E|]. split; [exact ND|].
  intros p. rewrite C. unfold apart. split.
  - intros (kx & ky & xa & xb & ya & yb & E1 & E2 & E3 & H). inversion E1; inversion E2; subst. exists kx, ky. split; [reflexivity|]. lia.
  - intros (kx & ky & -> & H). do 6 eexists. do 3 (split; [reflexivity|]). destruct Px as [Px _], Py as [Py _]. lia.
Qed.

(** A box that encloses the mesh in x (from the smallest edge or beyond, to beyond the
    largest) finds no cell at all, though every cell meets it. *)
Theorem C29_enclosing_box_refuted : forall xs ys m at_ x0 x1 y0 y1,
  edges_ok xs -> increasing xs -> edges_ok ys -> made_from xs ys m at_ ->
  (x0 <= edge xs 0)%Q -> (edge xs (List.length xs - 1) < x1)%Q ->
  quads_in_bbox m (x0, x1, y0, y1) = Ok [] /\ forall kx, (S kx < List.length xs)%nat -> meets xs kx x0 x1.
Proof.
  intros xs ys m at_ x0 x1 y0 y1 Hx I Hy M H0 H1. split.
  - destruct (fast_spec xs ys m at_ x0 x1 y0 y1 2 Hx Hy M) as (rx & ry & l & Ex & Ey & E & ND & C).
    unfold quads_in_bbox. rewrite (made_regular _ _ _ _ M), E. f_equal.
    destruct (digitize_incr xs x0 I) as (c0 & D0 & B0 & C0). destruct (digitize_incr xs x1 I) as (c1 & D1 & B1 & C1).
    destruct Hx as [L _].
    assert (c0 = 0) as -> by (assert (N : ~ (edge xs 0 < x0)%Q) by (apply Qle_not_lt; auto); rewrite C0 in N by lia; lia).
    apply C1 in H1; [|lia].
    unfold axis_range in Ex. cbn [fst snd] in Ex. rewrite D0, D1 in Ex. cbn [bind] in Ex. rewrite filter2 in Ex.
    replace (0 <=? 0 - 1) with false in Ex by reflexivity.
    replace (c1 - 1 <? Z.of_nat (List.length xs) - 1) with false in Ex by (symmetry; apply Z.ltb_ge; lia).
    rewrite andb_false_r in Ex. cbn in Ex. inversion Ex; subst rx.
    destruct l as [|p l]; [reflexivity|]. destruct (proj1 (C p) (or_introl eq_refl)) as (?&?&?&?&?&?&K&_). discriminate.
  - intros kx K. split; [exact K|]. exists (edge xs kx). split; [|left; split; [apply Qle_refl|apply Qlt_le_weak, I; lia]]. split.
    + destruct kx as [|kx]; [exact H0|]. apply Qle_trans with (edge xs 0); [exact H0|apply Qlt_le_weak, I; lia].
    + apply Qlt_le_weak. apply Qlt_trans with (edge xs (List.length xs - 1)); [apply I; lia|exact H1].
Qed.

Definition tens : list Q := map inject_Z [0; 1; 2; 3; 4; 5; 6; 7; 8; 9].
Lemma tens_ok : edges_ok tens /\ increasing tens.
Proof.
  assert (increasing tens).
  { intros i j Hij. unfold edge, tens in *. cbn [map List.length] in *.
    do 10 (destruct i as [|i]; [do 10 (destruct j as [|j]; [try lia; reflexivity|]); lia|]). lia. }
  split; [split; [unfold tens; simpl; lia|auto]|auto].
Qed.
(** The box exactly as large as the mesh, and a box straddling its border, lose cells:
    only cells near the limit that lies inside are found. *)
Theorem C29_box_at_border_refuted :
  quads_in_bbox (regular_xy tens (map inject_Z [0; 1])) (0, 9, 1 # 2, 1 # 2)%Q = Ok [(0, 6); (0, 7); (0, 8)] /\
  quads_in_bbox (regular_xy tens (map inject_Z [0; 1])) (-1 # 2, 17 # 2, 1 # 2, 1 # 2)%Q = Ok [(0, 6); (0, 7); (0, 8)] /\
  (forall k, (k < 9)%nat -> meets tens k 0 9).
Proof.
  split; [vm_compute; reflexivity|]. split; [vm_compute; reflexivity|].
  intros k Hk. destruct tens_ok as [_ I]. split; [unfold tens; simpl; lia|]. exists (edge tens k).
  unfold tens, edge; do 9 (destruct k as [|k]; [split; [split|left; split]; cbn; discriminate|]); lia.
Qed.

(** Meshes that are not regular are searched cell by cell: a cell is returned exactly
    when one of its corners has an x within the limits and one, possibly another,
    corner a y within the limits. *)
Theorem C29_search : forall M N x y bbox, shape M N x -> shape M N y ->
  let '(x0, x1, y0, y1) := bbox in
  exists l, quads_in_bbox (mkMesh x y false) bbox = Ok l /\ NoDup l /\
  forall p, In p l <-> exists i j, p = (Z.of_nat i, Z.of_nat j) /\ (S i < M)%nat /\ (S j < N)%nat /\
    let corner f a b := f (entry 0%Q x a b, entry 0%Q y a b) in
    let some f := corner f i j \/ corner f i (S j) \/ corner f (S i) (S j) \/ corner f (S i) j in
    some (fun v => x0 <= fst v <= x1)%Q /\ some (fun v => y0 <= snd v <= y1)%Q.
Proof.
  intros M N x y [[[x0 x1] y0] y1] Sx Sy. eexists. split; [reflexivity|]. cbn [me_x me_y]. split; [apply where_nodup|].
  pose proof (quads_shape M N x y Sx Sy) as SQ.
  intros [pi pj]. rewrite where_in. cbn [fst snd]. 
  assert (W : forall lim v, within lim v = true <-> (fst lim <= v <= snd lim)%Q).
  { intros lim v. unfold within. rewrite andb_true_iff, !qle_iff. tauto. }
  assert (G : forall i j, (S i < M)%nat -> (S j < N)%nat -> (at2 (map (map (good_quad (x0, x1, y0, y1))) (polys_from_quadmesh x y)) i j = Some true <->
    let corner f a b := f (entry 0%Q x a b, entry 0%Q y a b) in
    let some f := corner f i j \/ corner f i (S j) \/ corner f (S i) (S j) \/ corner f (S i) j in
    some (fun v => x0 <= fst v <= x1)%Q /\ some (fun v => y0 <= snd v <= y1)%Q)).
  { intros i j Hi Hj. rewrite at2_map, (quads_at M N x y i j Sx Sy Hi Hj). cbn [option_map]. 
    assert (K : forall b : bool, Some b = Some true <-> b = true) by (intros b; split; [intros E; inversion E; auto|intros ->; auto]).
    rewrite K. unfold good_quad. rewrite andb_true_iff. unfold quad_at, node. cbn [existsb]. rewrite !orb_true_iff, !W. cbn [fst snd].
    assert (F : false = true <-> False) by (split; [discriminate|tauto]). rewrite F. tauto. }
  split.
  - intros (i & j & -> & -> & A). assert (A' := A). rewrite at2_map in A'. destruct (at2 (polys_from_quadmesh x y) i j) eqn:Q; [|discriminate].
    destruct (at2_some_bounds _ _ _ _ _ _ _ SQ Q) as [B1 B2]. exists i, j. split; [reflexivity|]. split; [lia|]. split; [lia|].
    apply G; auto; lia.
  - intros (i & j & E & Hi & Hj & K). inversion E; subst. exists i, j. split; [reflexivity|]. split; [reflexivity|]. apply G; auto.
Qed.
(** So a box strictly inside one cell finds nothing, unlike on a regular mesh. *)
Theorem C29_search_refuted :
  let x := meshgrid_x tens tens in let y := meshgrid_y tens tens in
  quads_in_bbox (mkMesh x y false) (13 # 4, 15 # 4, 13 # 4, 15 # 4)%Q = Ok [] /\
  exists l, quads_in_bbox (mkMesh x y true) (13 # 4, 15 # 4, 13 # 4, 15 # 4)%Q = Ok l /\ In (3, 3) l.
Proof. split; [vm_compute; reflexivity|]. eexists. split; [vm_compute; reflexivity|]. do 12 right. left. reflexivity. Qed.

(** * Examples *)
Example C29_hypotheses : edges_ok tens /\ spread tens /\ inside tens (1 # 2) (17 # 2) /\ holds tens 3 (7 # 2) /\
  made_from tens (rev tens) (regular_ij tens (rev tens)) (fun kx ky => (Z.of_nat kx, Z.of_nat ky)).
Proof.
  assert (S : spread tens) by (exists 0%Q, 1%Q; split; [left; reflexivity|split; [right; left; reflexivity|reflexivity]]).
  split; [apply tens_ok|]. split; [exact S|]. split; [left; split; [apply tens_ok|split; [reflexivity|discriminate]]|].
  split; [|constructor; exact S]. split; [unfold tens; simpl; lia|]. left. split; [reflexivity|discriminate].
Qed.
Example C29_decreasing : edges_ok (map inject_Z [5; 3; 2]) /\ inside (map inject_Z [5; 3; 2]) 3 4.
Proof.
  assert (decreasing (map inject_Z [5; 3; 2])).
  { intros i j H. simpl in H. unfold edge. destruct i as [|[|[|i]]], j as [|[|[|j]]]; try lia; reflexivity. }
  split; [split; [simpl; lia|auto]|]. right. split; [auto|]. split; [reflexivity|discriminate].
Qed.
Example C29_search_hypotheses : shape 2 3 [[0; 1; 2]; [0; 1; 2]]%Q.
Proof. split; [reflexivity|]. repeat constructor. Qed.

Print Assumptions C29_valid_and_distinct.
Print Assumptions C29_box_inside_partial.
Print Assumptions C29_nearest.
Print Assumptions C29_enclosing_box_refuted.
Print Assumptions C29_box_at_border_refuted.
Print Assumptions C29_search.
Print Assumptions C29_search_refuted.
