(** C111: grids of different resolution. *)
From Coq Require Import List ZArith QArith Qabs Qfield Lqa Lia Bool Permutation.
From Verif Require Import Base BaseProofs Traversal TraversalSpec Glm GlmSpec GlmProofs3 Lut LutSpec LutProofs Accum AccumSpec Poly PolySpec BBox BBoxSpec Slice SliceSpec SliceProofs Regroup
  Pipeline PipelineSpec PipelineProofs BBoxProofs PropBBox PropPoly PropSlice PropPipeline ChunkSpec PropChunks Scaled ScaledSpec ScaledProofs PropScaled Overlap OverlapProofs PropOverlap PropReach NestedSpec.
Import ListNotations.
Local Open Scope Q_scope.

(** * The part of a pixel in a cell is made of its parts in the smaller cells *)
Lemma part_formula : forall p, convex p -> exists s, forall x0 x1 y0 y1, x0 <= x1 -> y0 <= y1 ->
  size (overlap p x0 x1 y0 y1) == (s / 2) * (corner p x0 y0 - corner p x1 y0 - corner p x0 y1 + corner p x1 y1).
Proof.
  intros p C. destruct (convex_turns p C) as (s & S & T). exists s. intros x0 x1 y0 y1 X Y.
  pose proof (size_signed s _ S (overlap_turns s p x0 x1 y0 y1 T)) as E. rewrite overlap_area in E by auto.
  assert (E2 : size (overlap p x0 x1 y0 y1) == (2 * size (overlap p x0 x1 y0 y1)) / 2) by field. rewrite E2, E. field.
Qed.
Lemma no_width : forall p x0 x1 y0 y1, convex p -> x0 == x1 -> size (overlap p x0 x1 y0 y1) == 0.
Proof. intros p x0 x1 y0 y1 C E. apply size_flat. apply (flat_x _ x0). intros v V. destruct (C103_part p x0 x1 y0 y1 C v V) as [[[A B] _] _]. lra. Qed.
Lemma no_height : forall p x0 x1 y0 y1, convex p -> y0 == y1 -> size (overlap p x0 x1 y0 y1) == 0.
Proof. intros p x0 x1 y0 y1 C E. apply size_flat. apply (flat_y _ y0). intros v V. destruct (C103_part p x0 x1 y0 y1 C v V) as [[_ [A B]] _]. lra. Qed.
Lemma same_rectangle : forall p x0 x1 y0 y1 x0' x1' y0' y1', convex p -> x0 <= x1 -> y0 <= y1 -> x0 == x0' -> x1 == x1' -> y0 == y0' -> y1 == y1' ->
  size (overlap p x0 x1 y0 y1) == size (overlap p x0' x1' y0' y1').
Proof.
  intros p x0 x1 y0 y1 x0' x1' y0' y1' C X Y E1 E2 E3 E4. destruct (part_formula p C) as (s & F).
  pose proof (no_width p x0 x0' y0 y1 C E1) as A. pose proof (no_width p x1 x1' y0 y1 C E2) as B.
  pose proof (no_height p x0' x1' y0 y0' C E3) as D. pose proof (no_height p x0' x1' y1 y1' C E4) as G.
  rewrite F in A, B, D, G by lra. rewrite !F by lra. lra.
Qed.
Definition some_edges (e : list Q) (a n : nat) : list Q := firstn (S n) (skipn a e).
Lemma some_length : forall e a n, (a + n < List.length e)%nat -> List.length (some_edges e a n) = S n.
Proof. intros e a n H. unfold some_edges. rewrite firstn_length, skipn_length. lia. Qed.
Lemma some_edge : forall e a n k, (k <= n)%nat -> edge (some_edges e a n) k = edge e (a + k).
Proof.
  intros e a n k H. unfold some_edges, edge. revert e. induction a as [|a IH]; intros e; [|destruct e as [|x e]; [rewrite skipn_nil, firstn_nil; destruct k; reflexivity|apply (IH e)]].
  cbn [skipn plus]. revert e k H. induction n as [|n IH]; intros e k H; destruct e as [|x e]; destruct k as [|k]; try reflexivity; try lia. cbn [firstn nth]. apply (IH e k). lia.
Qed.
Lemma some_increasing : forall e a n, (a + n < List.length e)%nat -> increasing e -> increasing (some_edges e a n).
Proof. intros e a n L H i j [I J]. rewrite some_length in J by auto. rewrite !some_edge by lia. apply H. lia. Qed.
Lemma seq_from : forall (f : nat -> Q) a n, map f (seq a n) = map (fun i => f (a + i)%nat) (seq 0 n).
Proof. intros f a n. rewrite <- (map_map (fun i => (a + i)%nat) f). f_equal. induction n as [|n IH]; [reflexivity|]. rewrite !seq_S, map_app, <- IH. reflexivity. Qed.

Lemma parts_of_part : forall p xe ye xe' ye' kx ky ax nx ay ny, convex p -> increasing xe -> increasing ye -> increasing xe' -> increasing ye' ->
  consists_of xe xe' kx ax nx -> consists_of ye ye' ky ay ny ->
  size (in_cell p xe ye kx ky) == qsum (map (fun ix => qsum (map (fun iy => size (in_cell p xe' ye' ix iy)) (seq ay ny))) (seq ax nx)).
Proof.
  intros p xe ye xe' ye' kx ky ax nx ay ny C IX IY IX' IY' (X1 & X2 & X3 & X4 & X5) (Y1 & Y2 & Y3 & Y4 & Y5).
  set (sx := some_edges xe' ax nx). set (sy := some_edges ye' ay ny).
  assert (LX : List.length sx = S nx) by (apply some_length; auto). assert (LY : List.length sy = S ny) by (apply some_length; auto).
  pose proof (cells_share p sx sy C (some_increasing _ _ _ X3 IX') (some_increasing _ _ _ Y3 IY') ltac:(lia) ltac:(lia)) as K. rewrite LX, LY in K. cbn [Nat.sub] in K. rewrite !Nat.sub_0_r in K.
  unfold sx, sy in K. rewrite !some_edge in K by lia. rewrite !Nat.add_0_r in K.
  unfold in_cell at 1. rewrite (same_rectangle p _ _ _ _ (edge xe' ax) (edge xe' (ax + nx)) (edge ye' ay) (edge ye' (ay + ny)) C); auto; [|apply Qlt_le_weak, IX; lia|apply Qlt_le_weak, IY; lia].
  rewrite <- K, (seq_from _ ax nx). apply qsum_ext. intros i Hi. apply in_seq in Hi. rewrite (seq_from _ ay ny). apply qsum_ext. intros k Hk. apply in_seq in Hk.
  unfold in_cell. rewrite !some_edge by lia. rewrite !Nat.add_succ_r. reflexivity.
Qed.

(** * From the files to the grids *)
Lemma blocks : forall (f : lutrow -> Q) (w : lutrow -> Q) (w' : nat -> nat -> lutrow -> Q) (g : grid) k t ax nx ay ny,
  (forall ix iy, In ix (seq ax nx) -> In iy (seq ay ny) -> sums_to (g_at g (Z.of_nat ix) (Z.of_nat iy)) f (w' ix iy) t) ->
  (forall r, In r (List.concat t) -> w r == k * qsum (map (fun ix => qsum (map (fun iy => w' ix iy r) (seq ay ny))) (seq ax nx))) ->
  over (fun r => f r * w r) t == k * block g ax nx ay ny.
Proof.
  intros f w w' g k t ax nx ay ny H W.
  assert (B : block g ax nx ay ny == over (fun r => f r * qsum (map (fun ix => qsum (map (fun iy => w' ix iy r) (seq ay ny))) (seq ax nx))) t).
  { unfold block. transitivity (qsum (map (fun ix => over (fun r => f r * qsum (map (fun iy => w' ix iy r) (seq ay ny))) t) (seq ax nx))).
    - apply qsum_ext. intros ix Hx. transitivity (qsum (map (fun iy => over (fun r => f r * w' ix iy r) t) (seq ay ny))).
      + apply qsum_ext. intros iy Hy. destruct (H ix iy Hx Hy) as (v & -> & V). exact V.
      + unfold over. rewrite qsum_swap. apply qsum_ext. intros r _. apply qsum_scale.
    - unfold over. rewrite qsum_swap. apply qsum_ext. intros r _. apply qsum_scale. }
  rewrite B. unfold over. rewrite <- qsum_scale. apply qsum_ext. intros r Hr. rewrite (W r Hr). ring.
Qed.
Lemma uniform_size : forall e d k, uniform e d -> (S k < List.length e)%nat -> edge e (S k) - edge e k == d.
Proof. intros e d k [_ U] H. rewrite (U (S k)), (U k) by lia. rewrite Nat2Z.inj_succ, <- Z.add_1_r, inject_Z_plus. ring. Qed.
Lemma uniform_steps : forall e d a n, uniform e d -> (a + n < List.length e)%nat -> edge e (a + n) - edge e a == inject_Z (Z.of_nat n) * d.
Proof. intros e d a n [_ U] H. rewrite (U (a + n)%nat), (U a) by lia. rewrite Nat2Z.inj_add, inject_Z_plus. ring. Qed.

(** The same files on a grid and on a finer one: the energy of a cell is the sum of those
    of the smaller cells it consists of; counts and areas, which are per cell, are their
    means. *)
Theorem C111_resolutions : forall set_order weird clip tree tree' quad xe ye dx dy xe' ye' dx' dy' chunk_size files q g g',
  (1 < List.length xe)%nat -> (1 < List.length ye)%nat -> uniform xe dx -> uniform ye dy ->
  (1 < List.length xe')%nat -> (1 < List.length ye')%nat -> uniform xe' dx' -> uniform ye' dy' -> proper clip -> exact clip ->
  grid_files set_order weird clip tree quad xe ye chunk_size files q = Ok g ->
  grid_files set_order weird clip tree' quad xe' ye' chunk_size files q = Ok g' ->
  exists tables, tables_read set_order weird chunk_size q files tables /\
  ((forall r, In r (List.concat tables) ->
      fair xe ye dx dy (quad (lu_x r) (lu_y r)) /\ fair xe' ye' dx' dy' (quad (lu_x r) (lu_y r)) /\ lu_farea r <> None /\ lu_garea r <> None) ->
   forall kx ky ax nx ay ny, consists_of xe xe' kx ax nx -> consists_of ye ye' ky ay ny ->
   let at_ (h : grids -> grid) := g_at (h g) (Z.of_nat kx) (Z.of_nat ky) in
   is_num (at_ gr_energy) (block (gr_energy g') ax nx ay ny) /\
   forall h, In h [gr_fcount; gr_gcount; gr_farea; gr_garea] -> is_num (at_ h) (block (h g') ax nx ay ny / (qnat nx * qnat ny))).
Proof.
  intros so weird clip tree tree' quad xe ye dx dy xe' ye' dx' dy' cs files q g g' HX HY Ux Uy HX' HY' Ux' Uy' PR EX H H'.
  destruct (C103_cells so weird clip tree quad xe ye dx dy cs files q g HX HY Ux Uy PR EX H) as (t & TR & K).
  destruct (C103_cells so weird clip tree' quad xe' ye' dx' dy' cs files q g' HX' HY' Ux' Uy' PR EX H') as (t' & TR' & K').
  rewrite <- (tables_unique _ _ _ _ _ _ _ TR TR') in K'. clear t' TR'. exists t. split; [exact TR|]. intros C kx ky ax nx ay ny CX CY at_.
  specialize (K ltac:(intros r Hr; destruct (C r Hr) as (? & ? & ? & ?); auto)). specialize (K' ltac:(intros r Hr; destruct (C r Hr) as (? & ? & ? & ?); auto)).
  pose proof (uniform_increasing xe dx Ux) as IX. pose proof (uniform_increasing ye dy Uy) as IY. pose proof (uniform_increasing xe' dx' Ux') as IX'. pose proof (uniform_increasing ye' dy' Uy') as IY'.
  assert (PP : forall r, In r (List.concat t) -> size (in_cell (quad (lu_x r) (lu_y r)) xe ye kx ky) ==
    qsum (map (fun ix => qsum (map (fun iy => size (in_cell (quad (lu_x r) (lu_y r)) xe' ye' ix iy)) (seq ay ny))) (seq ax nx))).
  { intros r Hr. destruct (C r Hr) as ((CV & _) & _). apply parts_of_part; auto. }
  destruct CX as (X1 & X2 & X3 & X4 & X5). destruct CY as (Y1 & Y2 & Y3 & Y4 & Y5).
  assert (KI : forall ix iy, In ix (seq ax nx) -> In iy (seq ay ny) -> (S ix < List.length xe')%nat /\ (S iy < List.length ye')%nat) by (intros ix iy A B; apply in_seq in A, B; lia).
  specialize (K kx ky X1 Y1). cbv zeta in K. fold (at_ gr_energy) (at_ gr_fcount) (at_ gr_gcount) (at_ gr_farea) (at_ gr_garea) in K. destruct K as (k1 & k2 & k3 & k4 & k5).
  assert (DX : dx == qnat nx * dx'). { rewrite <- (uniform_size xe dx kx Ux X1), X4, X5. apply uniform_steps; auto. }
  assert (DY : dy == qnat ny * dy'). { rewrite <- (uniform_size ye dy ky Uy Y1), Y4, Y5. apply uniform_steps; auto. }
  assert (NX : 0 < qnat nx) by (unfold qnat; change 0 with (inject_Z 0); rewrite <- Zlt_Qlt; lia). assert (NY : 0 < qnat ny) by (unfold qnat; change 0 with (inject_Z 0); rewrite <- Zlt_Qlt; lia).
  assert (CS : cell_size xe ye kx ky == qnat nx * qnat ny * (dx' * dy')). { unfold cell_size. rewrite (uniform_size xe dx kx Ux X1), (uniform_size ye dy ky Uy Y1), DX, DY. ring. }
  assert (D1 : 0 < dx') by apply Ux'. assert (D2 : 0 < dy') by apply Uy'.
  assert (SC : forall c (f : nat -> nat -> Q), qsum (map (fun ix => qsum (map (fun iy => f ix iy / c) (seq ay ny))) (seq ax nx)) == qsum (map (fun ix => qsum (map (fun iy => f ix iy) (seq ay ny))) (seq ax nx)) / c).
  { intros c f. unfold Qdiv. rewrite Qmult_comm, <- qsum_scale. apply qsum_ext. intros ix _. rewrite <- qsum_scale. apply qsum_ext. intros iy _. apply Qmult_comm. }
  split.
  - destruct k1 as (v & Ev & V). exists v. split; [exact Ev|]. rewrite V.
    rewrite (blocks (fun r => num (lu_energy r)) _ (fun ix iy r => size (in_cell (quad (lu_x r) (lu_y r)) xe' ye' ix iy) / size (quad (lu_x r) (lu_y r))) (gr_energy g') 1 t ax nx ay ny).
    + ring.
    + intros ix iy Hx Hy. destruct (KI ix iy Hx Hy) as [A B]. apply (K' ix iy A B).
    + intros r Hr. cbv beta. rewrite SC, (PP r Hr). ring.
  - intros h Hh.
    assert (G : forall f hh, sums_to (at_ hh) f (fun r => size (in_cell (quad (lu_x r) (lu_y r)) xe ye kx ky) / cell_size xe ye kx ky) t ->
      (forall ix iy, In ix (seq ax nx) -> In iy (seq ay ny) -> sums_to (g_at (hh g') (Z.of_nat ix) (Z.of_nat iy)) f (fun r => size (in_cell (quad (lu_x r) (lu_y r)) xe' ye' ix iy) / cell_size xe' ye' ix iy) t) ->
      is_num (at_ hh) (block (hh g') ax nx ay ny / (qnat nx * qnat ny))).
    { intros f hh (v & Ev & V) S. exists v. split; [exact Ev|]. rewrite V.
      rewrite (blocks f _ (fun ix iy r => size (in_cell (quad (lu_x r) (lu_y r)) xe' ye' ix iy) / (dx' * dy')) (hh g') (/ (qnat nx * qnat ny)) t ax nx ay ny).
      + unfold Qdiv. ring.
      + intros ix iy Hx Hy. destruct (KI ix iy Hx Hy) as [A B]. destruct (S ix iy Hx Hy) as (u & Eu & U). exists u. split; [exact Eu|]. rewrite U. apply qsum_ext. intros r _.
        unfold cell_size. rewrite (uniform_size xe' dx' ix Ux' A), (uniform_size ye' dy' iy Uy' B). reflexivity.
      + intros r Hr. cbv beta. rewrite SC, (PP r Hr), CS. field. repeat split; lra. }
    destruct Hh as [<-|[<-|[<-|[<-|[]]]]].
    + apply (G (fun r => qnat (lu_fcount r))); [exact k2|]. intros ix iy Hx Hy. destruct (KI ix iy Hx Hy) as [A B]. apply (K' ix iy A B).
    + apply (G (fun r => qnat (lu_gcount r))); [exact k3|]. intros ix iy Hx Hy. destruct (KI ix iy Hx Hy) as [A B]. apply (K' ix iy A B).
    + apply (G (fun r => num (lu_farea r))); [exact k4|]. intros ix iy Hx Hy. destruct (KI ix iy Hx Hy) as [A B]. apply (K' ix iy A B).
    + apply (G (fun r => num (lu_garea r))); [exact k5|]. intros ix iy Hx Hy. destruct (KI ix iy Hx Hy) as [A B]. apply (K' ix iy A B).
Qed.
Print Assumptions C111_resolutions.

(** The count of a cell is between the smallest and the largest of those of the smaller
    cells. *)
Lemma qsum_bounds : forall A (f : A -> Q) lo hi l, (forall x, In x l -> lo <= f x <= hi) -> qnat (List.length l) * lo <= qsum (map f l) <= qnat (List.length l) * hi.
Proof.
  intros A f lo hi l. induction l as [|x l IH]; intros H; [change (qnat (List.length (@nil A))) with 0; change (qsum (map f [])) with 0; lra|]. specialize (IH ltac:(intros y Hy; apply H; right; auto)). destruct (H x (or_introl eq_refl)) as [A1 A2].
  change (qsum (map f (x :: l))) with (f x + qsum (map f l)). unfold qnat in *. cbn [List.length]. rewrite Nat2Z.inj_succ, <- Z.add_1_r, inject_Z_plus. change (inject_Z 1) with 1. set (n := inject_Z (Z.of_nat (List.length l))) in *. assert (E : forall c, (n + 1) * c == n * c + c) by (intros; ring). rewrite !E. lra.
Qed.
Theorem C111_between : forall set_order weird clip tree tree' quad xe ye dx dy xe' ye' dx' dy' chunk_size files q g g',
  (1 < List.length xe)%nat -> (1 < List.length ye)%nat -> uniform xe dx -> uniform ye dy ->
  (1 < List.length xe')%nat -> (1 < List.length ye')%nat -> uniform xe' dx' -> uniform ye' dy' -> proper clip -> exact clip ->
  grid_files set_order weird clip tree quad xe ye chunk_size files q = Ok g ->
  grid_files set_order weird clip tree' quad xe' ye' chunk_size files q = Ok g' ->
  exists tables, tables_read set_order weird chunk_size q files tables /\
  ((forall r, In r (List.concat tables) ->
      fair xe ye dx dy (quad (lu_x r) (lu_y r)) /\ fair xe' ye' dx' dy' (quad (lu_x r) (lu_y r)) /\ lu_farea r <> None /\ lu_garea r <> None) ->
   forall kx ky ax nx ay ny h lo hi, consists_of xe xe' kx ax nx -> consists_of ye ye' ky ay ny -> In h [gr_fcount; gr_gcount; gr_farea; gr_garea] ->
   (forall ix iy, (ax <= ix < ax + nx)%nat -> (ay <= iy < ay + ny)%nat -> exists v, g_at (h g') (Z.of_nat ix) (Z.of_nat iy) = Some v /\ lo <= v <= hi) ->
   exists v, g_at (h g) (Z.of_nat kx) (Z.of_nat ky) = Some v /\ lo <= v <= hi).
Proof.
  intros so weird clip tree tree' quad xe ye dx dy xe' ye' dx' dy' cs files q g g' HX HY Ux Uy HX' HY' Ux' Uy' PR EX H H'.
  destruct (C111_resolutions so weird clip tree tree' quad xe ye dx dy xe' ye' dx' dy' cs files q g g') as (t & TR & K); auto. exists t. split; [exact TR|].
  intros C kx ky ax nx ay ny h lo hi CX CY Hh B. destruct (K C kx ky ax nx ay ny CX CY) as [_ K']. destruct (K' h Hh) as (v & Ev & V). exists v. split; [exact Ev|].
  assert (BL : qnat nx * (qnat ny * lo) <= block (h g') ax nx ay ny <= qnat nx * (qnat ny * hi)).
  { unfold block. rewrite <- (seq_length nx ax) at 1 4. apply qsum_bounds. intros ix Hx. apply in_seq in Hx. rewrite <- (seq_length ny ay) at 1 4. apply qsum_bounds. intros iy Hy. apply in_seq in Hy.
    destruct (B ix iy ltac:(lia) ltac:(lia)) as (u & -> & U). exact U. }
  assert (NX : 0 < qnat nx) by (destruct CX as (_ & X & _); unfold qnat; change 0 with (inject_Z 0); rewrite <- Zlt_Qlt; lia). assert (NY : 0 < qnat ny) by (destruct CY as (_ & X & _); unfold qnat; change 0 with (inject_Z 0); rewrite <- Zlt_Qlt; lia).
  assert (NN : 0 < qnat nx * qnat ny) by nra.
  rewrite V. split; [apply Qle_shift_div_l|apply Qle_shift_div_r]; auto; lra.
Qed.
Print Assumptions C111_between.

(** * Minima *)
Lemma here_part : forall clip tree xs ys dx dy p kx ky, solid clip -> exact clip -> uniform xs dx -> uniform ys dy ->
  (1 < List.length xs)%nat -> (1 < List.length ys)%nat -> (S kx < List.length xs)%nat -> (S ky < List.length ys)%nat -> fair xs ys dx dy p ->
  ((exists c, In (c, (ky, kx)) (cut clip (regular_xy xs ys) p (nearby tree (regular_xy xs ys) p))) <-> 0 < size (in_cell p xs ys kx ky)).
Proof.
  intros clip tree xs ys dx dy p kx ky SO EX Ux Uy LX LY Kx Ky (CV & NZ & SM & CE). rewrite <- (part_size clip tree xs ys dx dy p kx ky) by auto. unfold size_in.
  set (l := cut clip (regular_xy xs ys) p (nearby tree (regular_xy xs ys) p)).
  assert (POS : forall e, In e l -> 0 < size (fst e)).
  { intros e He. unfold l, cut in He. apply in_flat_map in He. destruct He as (c & _ & He). apply in_map_iff in He. destruct He as (piece & <- & Hp). cbn [fst]. apply (SO _ _ _ Hp). }
  assert (NN : forall m, (forall e, In e m -> 0 < size (fst e)) -> 0 <= qsum (map (fun e : poly * (nat * nat) => size (fst e)) m)).
  { induction m as [|e m IH]; intros P; [cbn; lra|]. change (qsum (map ?f (e :: m))) with (size (fst e) + qsum (map f m)). pose proof (P e (or_introl eq_refl)). specialize (IH ltac:(intros x X; apply P; right; auto)). lra. }
  split.
  - intros (c & Hc). assert (F : In (c, (ky, kx)) (filter (fun e => same_cell (snd e) (ky, kx)) l)) by (apply filter_In; split; [exact Hc|apply same_cell_refl]).
    apply in_split in F. destruct F as (l1 & l2 & E).
    assert (P : forall e, In e (l1 ++ (c, (ky, kx)) :: l2) -> 0 < size (fst e)) by (intros e He; rewrite <- E in He; apply filter_In in He; apply POS, He).
    rewrite E, map_app, qsum_app. cbn [map]. change (qsum (?x :: ?m)) with (x + qsum m).
    pose proof (NN l1 ltac:(intros e He; apply P, in_or_app; auto)). pose proof (NN l2 ltac:(intros e He; apply P, in_or_app; right; right; auto)). pose proof (P (c, (ky, kx)) ltac:(apply in_or_app; right; left; auto)). lra.
  - intros S. destruct (filter (fun e => same_cell (snd e) (ky, kx)) l) as [|[c d] m] eqn:E; [cbn in S; lra|].
    assert (F : In (c, d) (filter (fun e => same_cell (snd e) (ky, kx)) l)) by (rewrite E; left; auto). apply filter_In in F. destruct F as [F G]. cbn [snd] in G.
    unfold same_cell in G. apply andb_true_iff in G. destruct G as [G1 G2]. apply Nat.eqb_eq in G1, G2. cbn [fst snd] in G1, G2. destruct d as [d1 d2]. cbn in G1, G2. subst. exists c. exact F.
Qed.
Lemma sum_positive : forall A (f : A -> Q) l, (forall x, In x l -> 0 <= f x) -> (0 < qsum (map f l) <-> exists x, In x l /\ 0 < f x).
Proof.
  intros A f l. induction l as [|x l IH]; intros P; [cbn; split; [lra|intros (x & [] & _)]|]. change (qsum (map f (x :: l))) with (f x + qsum (map f l)).
  specialize (IH ltac:(intros y Hy; apply P; right; auto)). pose proof (P x (or_introl eq_refl)). split.
  - intros S. destruct (Qlt_le_dec 0 (f x)); [exists x; split; [left; auto|auto]|]. destruct (proj1 IH ltac:(lra)) as (y & Hy & Y). exists y. split; [right; auto|auto].
  - intros (y & [<-|Hy] & Y).
    + assert (0 <= qsum (map f l)); [|lra]. clear - P. induction l as [|z l IH]; [cbn; lra|]. change (qsum (map f (z :: l))) with (f z + qsum (map f l)). pose proof (P z ltac:(right; left; auto)). specialize (IH ltac:(intros y [<-|Hy]; apply P; [left|right; right]; auto)). lra.
    + assert (0 < qsum (map f l)) by (apply IH; exists y; auto). lra.
Qed.

(** The smallest flash area of a cell is the smallest of those of the smaller cells; a
    cell without lightning holds 0. *)
Theorem C111_minimum : forall set_order weird clip tree tree' quad xe ye dx dy xe' ye' dx' dy' chunk_size files q g g',
  (1 < List.length xe)%nat -> (1 < List.length ye)%nat -> uniform xe dx -> uniform ye dy ->
  (1 < List.length xe')%nat -> (1 < List.length ye')%nat -> uniform xe' dx' -> uniform ye' dy' -> proper clip -> exact clip -> solid clip ->
  grid_files set_order weird clip tree quad xe ye chunk_size files q = Ok g ->
  grid_files set_order weird clip tree' quad xe' ye' chunk_size files q = Ok g' ->
  exists tables, tables_read set_order weird chunk_size q files tables /\
  ((forall r, In r (List.concat tables) ->
      fair xe ye dx dy (quad (lu_x r) (lu_y r)) /\ fair xe' ye' dx' dy' (quad (lu_x r) (lu_y r)) /\ positive (lu_minarea r)) ->
   forall kx ky ax nx ay ny, consists_of xe xe' kx ax nx -> consists_of ye ye' ky ay ny ->
   let coarse := g_at (gr_minarea g) (Z.of_nat kx) (Z.of_nat ky) in
   let fine ix iy v := (ax <= ix < ax + nx)%nat /\ (ay <= iy < ay + ny)%nat /\ g_at (gr_minarea g') (Z.of_nat ix) (Z.of_nat iy) = Some v in
   (coarse = Some 0 /\ forall ix iy v, fine ix iy v -> v == 0) \/
   (exists m, coarse = Some m /\ 0 < m /\ (exists ix iy v, fine ix iy v /\ v == m) /\ forall ix iy v, fine ix iy v -> v == 0 \/ m <= v)).
Proof.
  intros so weird clip tree tree' quad xe ye dx dy xe' ye' dx' dy' cs files q g g' HX HY Ux Uy HX' HY' Ux' Uy' PR EX SO H H'.
  pose proof (uniform_increasing xe dx Ux) as IX. pose proof (uniform_increasing ye dy Uy) as IY. pose proof (uniform_increasing xe' dx' Ux') as IX'. pose proof (uniform_increasing ye' dy' Uy') as IY'.
  destruct (C36_minimum so weird clip tree quad xe ye cs files q g HX HY IX IY PR H) as (t & TR & K).
  destruct (C36_minimum so weird clip tree' quad xe' ye' cs files q g' HX' HY' IX' IY' PR H') as (t' & TR' & K').
  rewrite <- (tables_unique _ _ _ _ _ _ _ TR TR') in K'. clear t' TR'. exists t. split; [exact TR|]. intros C kx ky ax nx ay ny CX CY coarse fine.
  assert (POS : forall r, In r (List.concat t) -> positive (lu_minarea r)) by (intros r Hr; apply (C r Hr)).
  specialize (K POS). specialize (K' POS).
  pose proof CX as (X1 & X2 & X3 & X4 & X5). pose proof CY as (Y1 & Y2 & Y3 & Y4 & Y5). specialize (K kx ky X1 Y1). cbv zeta in K. fold coarse in K.
  assert (HC : forall r, In r (List.concat t) -> ((exists c, In (c, (ky, kx)) (cut clip (regular_xy xe ye) (quad (lu_x r) (lu_y r)) (nearby tree (regular_xy xe ye) (quad (lu_x r) (lu_y r))))) <->
     exists ix iy, (ax <= ix < ax + nx)%nat /\ (ay <= iy < ay + ny)%nat /\ exists c, In (c, (iy, ix)) (cut clip (regular_xy xe' ye') (quad (lu_x r) (lu_y r)) (nearby tree' (regular_xy xe' ye') (quad (lu_x r) (lu_y r)))))).
  { intros r Hr. destruct (C r Hr) as (F & F' & _). rewrite (here_part clip tree xe ye dx dy _ kx ky) by auto. rewrite (parts_of_part _ xe ye xe' ye' kx ky ax nx ay ny) by (auto; apply F).
    rewrite sum_positive.
    - split.
      + intros (ix & Hx & S). apply sum_positive in S; [|intros; apply Qabs_nonneg]. destruct S as (iy & Hy & S). apply in_seq in Hx, Hy. exists ix, iy. split; [lia|]. split; [lia|]. apply (here_part clip tree' xe' ye' dx' dy'); auto; lia.
      + intros (ix & iy & Hx & Hy & S). exists ix. split; [apply in_seq; lia|]. apply sum_positive; [intros; apply Qabs_nonneg|]. exists iy. split; [apply in_seq; lia|]. apply (here_part clip tree' xe' ye' dx' dy') in S; auto; lia.
    - intros ix _. assert (Z : forall l, 0 <= qsum (map (fun iy => size (in_cell (quad (lu_x r) (lu_y r)) xe' ye' ix iy)) l)); [|apply Z].
      induction l as [|z l IH]; [cbn; lra|]. change (qsum (map ?f (z :: l))) with (f z + qsum (map f l)). cbv beta. pose proof (Qabs_nonneg (signed_area (in_cell (quad (lu_x r) (lu_y r)) xe' ye' ix z))). unfold size at 1. lra. }
  destruct K as [[EC N]|(r & Hr & HE & EM & LE)].
  - left. split; [exact EC|]. intros ix iy v (Hx & Hy & Ev). specialize (K' ix iy ltac:(lia) ltac:(lia)). cbv zeta in K'. rewrite Ev in K'. destruct K' as [[E _]|(r & Hr & HE & _)]; [injection E as ->; reflexivity|].
    exfalso. apply (N r Hr). apply (HC r Hr). exists ix, iy. auto.
  - right. destruct (POS r Hr) as (m & EMm & Pm). rewrite <- EM. exists m. split; [exact EMm|]. split; [exact Pm|].
    assert (LOW : forall ix iy v, fine ix iy v -> v == 0 \/ m <= v).
    { intros ix iy v (Hx & Hy & Ev). specialize (K' ix iy ltac:(lia) ltac:(lia)). cbv zeta in K'. rewrite Ev in K'. destruct K' as [[E _]|(r' & Hr' & HE' & EV' & _)]; [left; injection E as ->; reflexivity|].
      right. apply (LE r' v m); auto; [apply (HC r' Hr'); exists ix, iy; auto|congruence]. }
    split; [|exact LOW]. apply (HC r Hr) in HE. destruct HE as (ix & iy & Hx & Hy & HE). specialize (K' ix iy ltac:(lia) ltac:(lia)). cbv zeta in K'.
    destruct K' as [[_ N]|(r' & Hr' & HE' & EV' & LE')]; [destruct (N r Hr HE)|]. destruct (POS r' Hr') as (v & Ev & Pv). exists ix, iy, v. rewrite <- EV' in LE'.
    assert (FV : fine ix iy v) by (split; [exact Hx|]; split; [exact Hy|congruence]). split; [exact FV|]. destruct (LOW ix iy v FV) as [Z|L]; [lra|]. pose proof (LE' r m v Hr HE EMm Ev). lra.
Qed.
Print Assumptions C111_minimum.

(** * Examples *)
(** A clipping function that is exact and returns no pieces without size. *)
Definition solid_clip (p q : poly) : list poly :=
  let c := overlap p (fst (nth 0 q (0, 0))) (fst (nth 2 q (0, 0))) (snd (nth 0 q (0, 0))) (snd (nth 2 q (0, 0))) in
  if Qle_bool (size c) 0 then [] else [c].
Example C111_clip : exact solid_clip /\ proper solid_clip /\ solid solid_clip.
Proof.
  assert (S : solid solid_clip).
  { intros p q c H. unfold solid_clip in H. destruct (Qle_bool (size _) 0) eqn:E; [destruct H|]. destruct H as [<-|[]]. apply Qnot_le_lt. intros K. apply Qle_bool_iff in K. congruence. }
  split; [|split; [|exact S]].
  - intros p x0 x1 y0 y1 _ _ _. unfold solid_clip. cbn [nth fst snd]. destruct (Qle_bool (size (overlap p x0 x1 y0 y1)) 0) eqn:E; cbn [map].
    + change (qsum []) with 0. apply Qle_bool_iff in E. pose proof (Qabs_nonneg (signed_area (overlap p x0 x1 y0 y1))). unfold size in *. lra.
    + change (qsum [?x]) with (x + 0). ring.
  - intros p q c H. apply S in H. intros ->. vm_compute in H. discriminate H.
Qed.
(** Two flashes in a pixel, and cells of half the width and half the height. *)
Definition ex_pixel (x y : fval) : poly :=
  let x := num x in let y := num y in let h := (2 # 100) in [(x, y - h); (x + h, y); (x, y + h); (x - h, y)].
Definition ex_cx : list Q := [-(4 # 100); 0; 4 # 100].
Definition ex_cy : list Q := [-(4 # 100); 4 # 100].
Definition ex_fx : list Q := [-(4 # 100); -(2 # 100); 0; 2 # 100; 4 # 100].
Definition ex_fy : list Q := [-(4 # 100); 0; 4 # 100].
Definition ex_two : list (table obs) :=
  [[ar 1 0 (10 # 1); ar 2 0 (4 # 1)]; [ar 5 1 (3 # 1); ar 6 2 (2 # 1)]; [ev 100 5 1 (2 # 100) 0 (18 # 1); ev 101 6 2 (2 # 100) 0 (36 # 1)]].
Definition ex_coarse := grid_files (fun l => l) (fun _ => 0%Z) solid_clip ex_tree ex_pixel ex_cx ex_cy 2 [ex_two] None.
Definition ex_fine := grid_files (fun l => l) (fun _ => 0%Z) solid_clip ex_tree ex_pixel ex_fx ex_fy 2 [ex_two] None.
Example C111_hypotheses : uniform ex_cx (4 # 100) /\ uniform ex_cy (8 # 100) /\ uniform ex_fx (2 # 100) /\ uniform ex_fy (4 # 100) /\
  consists_of ex_cx ex_fx 1 2 2 /\ consists_of ex_cy ex_fy 0 0 2 /\
  forall L, get_lutevents (fun _ => 0%Z) lut_scale lut_range lut_range ex_two = Ok L -> List.length L = 1%nat /\ forall r, In r L ->
  fair ex_cx ex_cy (4 # 100) (8 # 100) (ex_pixel (lu_x r) (lu_y r)) /\ fair ex_fx ex_fy (2 # 100) (4 # 100) (ex_pixel (lu_x r) (lu_y r)) /\
  lu_farea r <> None /\ lu_garea r <> None /\ positive (lu_minarea r).
Proof.
  split; [split; [reflexivity|]; intros k K; do 3 (destruct k as [|k]; [reflexivity|]); cbn in K; lia|].
  split; [split; [reflexivity|]; intros k K; do 2 (destruct k as [|k]; [reflexivity|]); cbn in K; lia|].
  split; [split; [reflexivity|]; intros k K; do 5 (destruct k as [|k]; [reflexivity|]); cbn in K; lia|].
  split; [split; [reflexivity|]; intros k K; do 3 (destruct k as [|k]; [reflexivity|]); cbn in K; lia|].
  split; [repeat split; cbn; lia|]. split; [repeat split; cbn; lia|].
  intros L H. vm_compute in H. injection H as EL. split; [rewrite <- EL; reflexivity|].
  assert (CV : forall x y, convex (ex_pixel x y)).
  { intros x y. exists 1. split; [left; reflexivity|]. intros i j k d I J K. unfold ex_pixel in *. cbn [List.length] in K.
    destruct k as [|[|[|[|k]]]]; try lia; destruct j as [|[|[|j]]]; try lia; destruct i as [|[|i]]; try lia; cbn [nth]; unfold turn; cbn [fst snd]; 
      match goal with |- 0 <= ?e => let v := constr:(8 # 10000) in assert (Z : e == v) by ring; rewrite Z; discriminate end. }
  intros r R.
  assert (FR : forall xs ys dx dy, (forall r, In r L -> ~ size (ex_pixel (lu_x r) (lu_y r)) == 0 /\ small dx dy (ex_pixel (lu_x r) (lu_y r)) /\ centred xs ys (ex_pixel (lu_x r) (lu_y r))) -> fair xs ys dx dy (ex_pixel (lu_x r) (lu_y r))).
  { intros xs ys dx dy K. split; [apply CV|]. apply K. exact R. }
  split; [apply FR|split; [apply FR|]].
  1, 2: clear R; intros s R; rewrite <- EL in R; repeat (destruct R as [<-|R]; [split; [intros E; vm_compute in E; discriminate|]; split;
      [intros v V; repeat (destruct V as [<-|V]; [split; vm_compute; discriminate|]); contradiction|
       split; split; vm_compute; first [reflexivity|discriminate]]|]); contradiction.
  rewrite <- EL in R. repeat (destruct R as [<-|R]; [split; [discriminate|]; split; [discriminate|]; eexists; split; [reflexivity|reflexivity]|]). contradiction.
Qed.
Definition ex_check : bool :=
  match ex_coarse, ex_fine with
  | Ok g, Ok g' =>
      let c h := num (g_at (h g) 1 0)%Z in
      Qeq_bool (c gr_energy) 54 && Qeq_bool (c gr_fcount) (1 # 2) && Qeq_bool (c gr_minarea) 4 &&
      Qeq_bool (block (gr_energy g') 2 2 0 2) 54 && Qeq_bool (block (gr_fcount g') 2 2 0 2) 2 && Qeq_bool (num (g_at (gr_energy g') 3 1)%Z) (27 # 2)
  | _, _ => false
  end.
Example C111_grids : ex_check = true.
Proof. vm_compute. reflexivity. Qed.
