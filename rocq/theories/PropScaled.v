(** C82: clipping in integer coordinates, and the energy on the grid. *)
From Coq Require Import List ZArith QArith Qabs Qfield Lqa Lia Bool Permutation.
From Verif Require Import Base BaseProofs Traversal TraversalSpec Glm GlmSpec GlmProofs3 Lut LutSpec LutProofs Accum AccumSpec Poly PolySpec BBox BBoxSpec Slice SliceSpec SliceProofs Regroup
  Pipeline PipelineSpec PipelineProofs BBoxProofs PropBBox PropSlice PropPipeline ChunkSpec PropChunks Scaled ScaledSpec ScaledProofs.
Import ListNotations.
Local Open Scope Q_scope.

(** The fractions of one polygon add up to 1, up to the rounding of its corners and what the
    library itself loses. *)
Theorem C82_fractions : forall iclip tree m M N b polys chopped areas k p eta eps,
  (forall p q c, In c (iclip p q) -> c <> []) ->
  mesh_ok tree m M N -> slice (scaled_clip iclip) tree m polys b = Ok (chopped, areas) ->
  nth_error polys k = Some p -> List.length p = 4%nat -> ~ size p == 0 ->
  (forall cells, looked_up tree m b p cells -> tiled iclip eta (scale_to p) (map (fun c => scale_to (cell_quad m c)) cells)) ->
  slack p + step * step * eta <= eps * size p ->
  exists pc, nth_error chopped k = Some pc /\ numbers (pc_fracs pc) /\ within eps (total (pc_fracs pc)) 1.
Proof.
  intros iclip tree m M N b polys chopped areas k p eta eps PR MO SL Hk L4 NZ T LE.
  destruct (C31_fractions _ _ _ _ _ _ _ _ _ _ _ MO (scaled_proper _ PR) SL Hk NZ) as (pc & cells & E1 & LU & NU & _ & F & _).
  exists pc. split; [exact E1|]. split; [exact NU|]. unfold within. rewrite F. rewrite cut_sizes. apply div_near.
  - pose proof (size_nonneg p). destruct (Qlt_le_dec 0 (size p)); [auto|]. exfalso. apply NZ. lra.
  - apply within_le with (slack p + step * step * eta); [|exact LE]. apply within_scaled; [exact L4|]. apply (T cells LU).
Qed.
Print Assumptions C82_fractions.

(** From the files to the grid: the energy on the grid is the energy observed, up to the same
    relative error. *)
Theorem C82_grid_energy : forall set_order, (forall l, Permutation (set_order l) l) ->
  forall weird iclip tree quad xe ye chunk_size files q g eta eps,
  (1 < List.length xe)%nat -> (1 < List.length ye)%nat -> increasing xe -> increasing ye ->
  (forall p q c, In c (iclip p q) -> c <> []) ->
  (0 < chunk_size)%nat -> (forall q', q = Some q' -> q_check q' = true) -> Forall usable files ->
  (forall ds e v, In ds files -> In e (nth 2 ds []) -> o_energy (rdat e) = Some v -> 0 <= v) -> 0 <= eps ->
  grid_files set_order weird (scaled_clip iclip) tree quad xe ye chunk_size files q = Ok g ->
  exists tables es, tables_read set_order weird chunk_size q files tables /\ Forall2 (observed set_order q) files es /\
  ((forall r, In r (List.concat tables) ->
      let p := quad (lu_x r) (lu_y r) in let m := regular_xy xe ye in
      List.length p = 4%nat /\ ~ size p == 0 /\ slack p + step * step * eta <= eps * size p /\
      tiled iclip eta (scale_to p) (map (fun c => scale_to (cell_quad m c)) (nearby tree m p))) ->
   within (eps * qsum es) (grid_total (gr_energy g)) (qsum es)).
Proof.
  intros so HP weird iclip tree quad xe ye cs files q g eta eps HX HY IX IY PR Hcs HQ US POS HE H.
  destruct (C36_total_share so weird (scaled_clip iclip) tree quad xe ye cs files q g HX HY IX IY (scaled_proper _ PR) H) as (tables & TR & TOT).
  destruct (observed_tables so HP weird cs files q tables Hcs HQ US TR) as (es & O & K & N).
  exists tables, es. split; [exact TR|]. split; [exact O|]. intros COV.
  assert (A : forall r, In r (List.concat tables) -> ~ size (quad (lu_x r) (lu_y r)) == 0 /\ lu_farea r <> None /\ lu_garea r <> None).
  { intros r Hr. destruct (COV r Hr) as (_ & NZ & _). destruct (N r Hr) as (n1 & n2 & _). auto. }
  specialize (TOT A). cbv zeta in TOT. unfold within. rewrite TOT, <- K. unfold over. apply sum_near; [exact HE|intros r Hr; apply (proj2 (proj2 (N r Hr))); exact POS|].
  intros r Hr. destruct (COV r Hr) as (L4 & NZ & LE & T). unfold within. rewrite cut_sizes. apply div_near.
  - set (p := quad (lu_x r) (lu_y r)) in *. pose proof (size_nonneg p). destruct (Qlt_le_dec 0 (size p)); [auto|]. exfalso. apply NZ. lra.
  - eapply within_le; [|exact LE]. apply within_scaled; [exact L4|exact T].
Qed.
Print Assumptions C82_grid_energy.

Lemma nodup_map_in : forall A B (f : A -> B) l, NoDup l -> (forall a b, In a l -> In b l -> f a = f b -> a = b) -> NoDup (map f l).
Proof.
  induction l as [|a l IH]; intros ND I; [constructor|]. inversion ND as [|? ? NI ND2]; subst. cbn [map]. constructor.
  - intros K. apply in_map_iff in K. destruct K as (b & E & Hb). apply NI. rewrite (I a b); auto; [left; auto|right; auto].
  - apply IH; auto. intros x y Hx Hy. apply I; right; auto.
Qed.
Lemma nearby_nodup : forall tree xe ye p, (1 < List.length xe)%nat -> (1 < List.length ye)%nat -> increasing xe -> increasing ye ->
  NoDup (nearby tree (regular_xy xe ye) p).
Proof.
  intros tree xe ye p HX HY IX IY. unfold nearby, quads_nearest. cbn [me_regular regular_xy].
  assert (Ex : edges_ok xe) by (split; [lia|auto]). assert (Ey : edges_ok ye) by (split; [lia|auto]).
  destruct (fast_spec xe ye _ _ (fst (vertex_mean p)) (fst (vertex_mean p)) (snd (vertex_mean p)) (snd (vertex_mean p)) 2 Ex Ey (made_xy xe ye)) as (rx & ry & l & _ & _ & E & ND & C).
  unfold regular_xy in E |- *. cbn [me_regular]. rewrite E. apply nodup_map_in; [exact ND|].
  intros a b Ha Hb H. apply C in Ha, Hb. destruct Ha as (k1 & k2 & xa & xb & ya & yb & _ & _ & -> & _). destruct Hb as (j1 & j2 & xc & xd & yc & yd & _ & _ & -> & _).
  cbn [fst snd] in H. rewrite !Nat2Z.id in H. congruence.
Qed.
Lemma size_in_one : forall clip m p c cells, NoDup cells ->
  size_in clip m p cells c == if existsb (same_cell c) cells then qsum (map size (clip p (cell_quad m c))) else 0.
Proof.
  intros clip m p c cells. unfold size_in, cut. induction cells as [|d cells IH]; intros ND; [reflexivity|]. inversion ND as [|? ? NI ND']; subst. cbn [flat_map existsb].
  rewrite filter_app, map_app, qsum_app, (IH ND'). clear IH.
  assert (SC : same_cell c d = true <-> d = c).
  { unfold same_cell. rewrite andb_true_iff, !Nat.eqb_eq. destruct c, d. cbn. split; [intros [-> ->]; auto|intros K; inversion K; auto]. }
  assert (SY : same_cell d c = same_cell c d) by (unfold same_cell; rewrite (Nat.eqb_sym (fst d)), (Nat.eqb_sym (snd d)); reflexivity).
  assert (FL : forall l : list poly, filter (fun e : poly * (nat * nat) => same_cell (snd e) c) (map (fun q => (q, d)) l) = if same_cell c d then map (fun q => (q, d)) l else []).
  { induction l as [|x l IH]; [destruct (same_cell c d); reflexivity|]. cbn [map filter snd]. rewrite SY in *. rewrite IH. destruct (same_cell c d); reflexivity. }
  rewrite FL. destruct (same_cell c d) eqn:E.
  - assert (d = c) by (apply SC; reflexivity). subst d. assert (EX : existsb (same_cell c) cells = false).
    { apply not_true_iff_false. intros K. apply existsb_exists in K. destruct K as (e & He & K). unfold same_cell in K. apply andb_true_iff in K. rewrite !Nat.eqb_eq in K. destruct c, e. cbn in K. destruct K as [-> ->]. auto. }
    rewrite EX. cbn [orb]. rewrite map_map. cbn [fst]. rewrite Qplus_0_r. reflexivity.
  - cbn [map orb]. change (qsum []) with 0. ring.
Qed.
(** A cell filled by pixels that all carry the same count shows that count, up to the
    relative error of the size of the cell. *)
Theorem C82_full_cell : forall set_order weird iclip tree quad xe ye chunk_size files q g eta eps,
  (1 < List.length xe)%nat -> (1 < List.length ye)%nat -> increasing xe -> increasing ye ->
  (forall p q c, In c (iclip p q) -> c <> []) -> 0 <= eps ->
  grid_files set_order weird (scaled_clip iclip) tree quad xe ye chunk_size files q = Ok g ->
  exists tables, tables_read set_order weird chunk_size q files tables /\
  ((forall r, In r (List.concat tables) -> ~ size (quad (lu_x r) (lu_y r)) == 0 /\ lu_farea r <> None /\ lu_garea r <> None) ->
   forall kx ky n, (S kx < List.length xe)%nat -> (S ky < List.length ye)%nat ->
   let m := regular_xy xe ye in let cell := cell_quad m (ky, kx) in
   let reached r := existsb (same_cell (ky, kx)) (nearby tree m (quad (lu_x r) (lu_y r))) in
   slack cell + step * step * eta <= eps * size cell ->
   filled iclip eta (scale_to cell) (map (fun r => scale_to (quad (lu_x r) (lu_y r))) (filter reached (List.concat tables))) ->
   (forall r, In r (List.concat tables) -> reached r = true -> lu_fcount r = n) ->
   exists v, g_at (gr_fcount g) (Z.of_nat kx) (Z.of_nat ky) = Some v /\ within (eps * qnat n) v (qnat n)).
Proof.
  intros so weird iclip tree quad xe ye cs files q g eta eps HX HY IX IY PR HE H.
  destruct (C36_cells so weird (scaled_clip iclip) tree quad xe ye cs files q g HX HY IX IY (scaled_proper _ PR) H) as (ts & TR & K). exists ts. split; [exact TR|].
  intros C kx ky n Kx Ky m cell reached LE FULL SAME. destruct (K C) as [_ K']. destruct (K' kx ky Kx Ky) as (_ & (v & Ev & Hv) & _). exists v. split; [exact Ev|].
  set (P := fun r => quad (lu_x r) (lu_y r)) in *.
  assert (CS : size cell == cell_size xe ye kx ky).
  { unfold cell, size. unfold m. rewrite (cell_quad_xy xe ye ky kx Ky Kx). apply Qabs_pos. pose proof (cell_pos xe ye HX HY IX IY kx ky Kx Ky). unfold cell_size in *. lra. }
  pose proof (cell_pos xe ye HX HY IX IY kx ky Kx Ky) as CP.
  assert (TOT : v == qnat n * (step * step * qsum (map (fun c => size (whole c)) (flat_map (fun p => iclip p (scale_to cell)) (map (fun r => scale_to (P r)) (filter reached (List.concat ts))))) / size cell)).
  { rewrite Hv, CS. unfold over. rewrite <- sum_sizes. clear -SAME HX HY IX IY CP. induction (List.concat ts) as [|r l IH]; [cbn [map filter flat_map]; change (qsum []) with 0; field; lra|].
    cbn [map filter]. change (qsum (?x :: ?y)) with (x + qsum y). rewrite IH by (intros; apply SAME; auto; right; auto). clear IH.
    cbv zeta. fold m. fold (P r). rewrite (size_in_one _ m (P r) (ky, kx)) by (apply nearby_nodup; auto).
    pose proof (SAME r (or_introl eq_refl)) as S. unfold reached in *. fold (P r) in S |- *. destruct (existsb (same_cell (ky, kx)) (nearby tree m (P r))).
    - rewrite (S eq_refl). cbn [map flat_map]. rewrite map_app, qsum_app. unfold scaled_clip. rewrite map_map. fold cell. field. lra.
    - field. lra. }
  unfold within. rewrite TOT.
  assert (W : within eps (step * step * qsum (map (fun c => size (whole c)) (flat_map (fun p => iclip p (scale_to cell)) (map (fun r => scale_to (P r)) (filter reached (List.concat ts))))) / size cell) 1).
  { apply div_near; [rewrite CS; exact CP|]. eapply within_le; [|exact LE]. apply within_scaled; [reflexivity|exact FULL]. }
  unfold within in W. apply Qabs_Qle_condition in W. assert (QN : 0 <= qnat n) by (unfold qnat; change 0 with (inject_Z 0); rewrite <- Zle_Qle; lia).
  set (s := _ / size cell) in *. pose proof (mul_left _ _ _ QN (proj1 W)). pose proof (mul_left _ _ _ QN (proj2 W)). apply Qabs_Qle_condition. lra.
Qed.
Print Assumptions C82_full_cell.

(** Pixels of the instrument: 200 microradians on a side or more, with diagonals of less than
    a milliradian along each axis.  The error is less than one part in 30000 (if the library loses no more
    than 2**20 square steps of each pixel). *)
Theorem C82_pixel_error : forall a b c d eta,
  Qabs (fst a - fst c) + Qabs (snd a - snd c) <= 1 # 1000 -> Qabs (fst b - fst d) + Qabs (snd b - snd d) <= 1 # 1000 ->
  (1 # 25000000) <= size [a; b; c; d] -> eta <= 1048576 ->
  slack [a; b; c; d] + step * step * eta <= (1 # 30000) * size [a; b; c; d].
Proof.
  intros a b c d eta H1 H2 H3 H4. unfold slack, diagonals. set (D1 := Qabs (fst a - fst c) + Qabs (snd a - snd c)) in *. set (D2 := Qabs (fst b - fst d) + Qabs (snd b - snd d)) in *.
  unfold step. lra.
Qed.
Print Assumptions C82_pixel_error.

(** * A run on concrete data *)
(** Intersection of upright rectangles with integer corners. *)
Definition iminl (l : list Z) : Z := match l with [] => 0%Z | a :: r => fold_left Z.min r a end.
Definition imaxl (l : list Z) : Z := match l with [] => 0%Z | a :: r => fold_left Z.max r a end.
Definition ex_iclip (p q : ipoly) : list ipoly :=
  let lo f := Z.max (iminl (map f p)) (iminl (map f q)) in
  let hi f := Z.min (imaxl (map f p)) (imaxl (map f q)) in
  if ((lo fst <? hi fst) && (lo snd <? hi snd))%Z%bool
  then [[(lo fst, lo snd); (hi fst, lo snd); (hi fst, hi snd); (lo fst, hi snd)]] else [].
(** The corners of these pixels and cells are no multiples of 2**-31, so the fractions do not
    add up to 1, and the energy on the grid is not 18; but it is up to a millionth. *)
Example C82_ex : exists g, grid_files (fun l => l) (fun _ => 0%Z) (scaled_clip ex_iclip) ex_tree ex_quad ex_xe ex_ye 1 [ok_file] None = Ok g /\
  ~ grid_total (gr_energy g) == 18 /\ within (1 # 100000) (grid_total (gr_energy g)) 18.
Proof.
  eexists. split; [vm_compute; reflexivity|]. split; [vm_compute; discriminate|]. vm_compute. discriminate.
Qed.
Example C82_hypotheses : (forall p q c, In c (ex_iclip p q) -> c <> []) /\
  (forall ds e v, In ds [ok_file] -> In e (nth 2 ds []) -> o_energy (rdat e) = Some v -> 0 <= v) /\
  forall L, get_lutevents (fun _ => 0%Z) lut_scale lut_range lut_range ok_file = Ok L -> (1 < List.length L)%nat /\ forall r, In r L ->
  let p := ex_quad (lu_x r) (lu_y r) in let m := regular_xy ex_xe ex_ye in
  List.length p = 4%nat /\ ~ size p == 0 /\ slack p + step * step * 0 <= (1 # 1000000) * size p /\
  tiled ex_iclip 0 (scale_to p) (map (fun c => scale_to (cell_quad m c)) (nearby ex_tree m p)).
Proof.
  split; [|split].
  - intros p q c Hc. unfold ex_iclip in Hc. destruct (_ && _)%bool in Hc; [destruct Hc as [<-|[]]; discriminate|destruct Hc].
  - intros ds e v [<-|[]] [<-|[<-|[<-|[]]]] E; inversion E; discriminate.
  - intros L H. vm_compute in H. inversion H; subst L. split; [cbn; lia|]. intros r [<-|[<-|[]]]; cbv zeta; (split; [reflexivity|]); (split; [vm_compute; discriminate|]);
      (split; [vm_compute; discriminate|vm_compute; discriminate]).
Qed.
Example C82_pixel : let p := [(0, 0); (28 # 125000, 1 # 50000); (30 # 125000, 28 # 125000); (1 # 50000, 26 # 125000)] in
  (1 # 25000000) <= size p /\ slack p + step * step * 1048576 <= (1 # 30000) * size p.
Proof. split; vm_compute; discriminate. Qed.
(** One flash with two pixels that fill a cell. *)
Definition full_file : list (table obs) :=
  [[ar 1 0 (10 # 1)]; [ar 5 1 (3 # 1)]; [ev 100 5 1 (1 # 100) 0 (8 # 1); ev 101 5 1 (- (1 # 100)) 0 (4 # 1)]].
Example C82_full_cell_hypotheses : exists L g v,
  get_lutevents (fun _ => 0%Z) lut_scale lut_range lut_range full_file = Ok L /\
  grid_files (fun l => l) (fun _ => 0%Z) (scaled_clip ex_iclip) ex_tree ex_quad ex_xe ex_ye 1 [full_file] None = Ok g /\
  let m := regular_xy ex_xe ex_ye in let cell := cell_quad m (1, 1)%nat in
  let reached r := existsb (same_cell (1, 1)%nat) (nearby ex_tree m (ex_quad (lu_x r) (lu_y r))) in
  slack cell + step * step * 0 <= (1 # 1000000) * size cell /\
  filled ex_iclip 0 (scale_to cell) (map (fun r => scale_to (ex_quad (lu_x r) (lu_y r))) (filter reached L)) /\
  (forall r, In r L -> reached r = true -> lu_fcount r = 1%nat) /\
  g_at (gr_fcount g) 1 1 = Some v /\ ~ v == 1 /\ within (1 # 1000000) v 1.
Proof.
  do 3 eexists. split; [vm_compute; reflexivity|]. split; [vm_compute; reflexivity|]. cbv zeta.
  split; [vm_compute; discriminate|]. split; [vm_compute; discriminate|]. split; [intros r [<-|[<-|[]]] _; reflexivity|].
  split; [vm_compute; reflexivity|]. split; vm_compute; discriminate.
Qed.
