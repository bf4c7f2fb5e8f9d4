(** C41-C44 and part of C53: grids subdivided into tiles. *)
From Coq Require Import List ZArith QArith Qround Bool String Lia Lqa.
From Verif Require Import Base BaseProofs Glm GlmProofs3 Lut FileName FileNameSpec FileNameProofs FileNameProofs2 PropFileName Imagery ImagerySpec ImageryProofs PropImagery Tiles TilesSpec TilesProofs.
Import ListNotations.
Open Scope Q_scope.

(** * C41 *)
(** All bounds, spacings and numbers of tiles: where the edges are, and that each point
    is in exactly one of the half-open segments. *)
Theorem C41_edges : forall bnd delta s, 0 < delta -> fst bnd <= snd bnd -> (1 <= s)%nat ->
  exists edges n, subdivide_bnd bnd delta s = Ok edges /\ List.length edges = S s /\
    nth 0 edges 0 == fst bnd /\ nth s edges 0 = snd bnd /\
    (forall i j, (i <= j <= s)%nat -> nth i edges 0 <= nth j edges 0) /\
    (0 <= n)%Z /\ (forall i, (S i < s)%nat -> nth (S i) edges 0 - nth i edges 0 == inject_Z n * delta) /\
    inject_Z n * delta <= nth s edges 0 - nth (s - 1) edges 0 < (inject_Z n + inject_Z (Z.of_nat s)) * delta /\
    forall x, fst bnd <= x -> x < snd bnd -> exists i, (i < s)%nat /\ nth i edges 0 <= x < nth (S i) edges 0 /\
      forall i', (i' < s)%nat -> nth i' edges 0 <= x < nth (S i') edges 0 -> i' = i.
Proof.
  intros bnd delta s D W S1. exists (edge_list bnd delta s), (per bnd delta s). split; [apply subdivide_eq; auto|]. split; [apply edge_list_length; auto|].
  split; [apply edge_first; auto|]. split; [apply edge_last; auto|]. split; [intros; apply edge_mono; auto|]. split; [apply per_ok; auto|]. split; [intros; apply edge_step; auto|].
  split; [|intros; apply edge_locate; auto].
  destruct (edge_final_bounds bnd delta s D W S1) as [A B]. split; [exact A|]. lra.
Qed.
Print Assumptions C41_edges.

(** When the domain is a whole number of cells, the coordinates written for the tiles of a
    row, one after the other, are those of the undivided grid, and so for columns: no cell
    is missing, none is written twice. *)
Theorem C41_tiles_join : forall x_bnd y_bnd dx dy s nx ny, 0 < dx -> 0 < dy -> (1 <= s)%nat ->
  snd x_bnd - fst x_bnd == inject_Z (Z.of_nat nx) * dx -> snd y_bnd - fst y_bnd == inject_Z (Z.of_nat ny) * dy ->
  exists tiles, subdivided_fixed_grid x_bnd y_bnd dx dy s = Ok tiles /\
    map (fun t => (t_i t, t_j t)) tiles = list_prod (seq 0 s) (seq 0 s) /\
    (forall j, (j < s)%nat -> qlist_eq (List.concat (map (tile_x dx) (in_row j tiles))) (centers (grid_edges x_bnd dx))) /\
    (forall i, (i < s)%nat -> qlist_eq (List.concat (map (tile_y dy) (in_col i tiles))) (centers (grid_edges y_bnd dy))) /\
    List.length (centers (grid_edges x_bnd dx)) = nx /\ List.length (centers (grid_edges y_bnd dy)) = ny /\
    forall t, In t tiles -> List.length (tile_x dx t) = (if Nat.ltb (S (t_i t)) s then nx / s else nx - (s - 1) * (nx / s))%nat /\
                            List.length (tile_y dy t) = (if Nat.ltb (S (t_j t)) s then ny / s else ny - (s - 1) * (ny / s))%nat.
Proof.
  intros x_bnd y_bnd dx dy s nx ny DX DY S1 WX WY.
  assert (LE : forall b d n, 0 < d -> snd b - fst b == inject_Z (Z.of_nat n) * d -> fst b <= snd b).
  { intros b d n D E. assert (0 <= inject_Z (Z.of_nat n) * d); [|lra]. apply Qmult_le_0_compat; [|lra]. change 0 with (inject_Z 0). rewrite <- Zle_Qle. lia. }
  destruct (tiles_eq x_bnd y_bnd dx dy s DX DY (LE _ _ _ DX WX) (LE _ _ _ DY WY) S1) as (PX & PY & E). eexists. split; [exact E|].
  set (px := qint (default_pad / dx)) in *. set (py := qint (default_pad / dy)) in *.
  set (mk := fun ij : nat * nat => mkTile (fst ij) (snd ij) (padded (edge_list x_bnd dx s) (fst ij) (inject_Z px * dx)) (padded (edge_list y_bnd dy s) (snd ij) (inject_Z py * dy)) px py).
  assert (FL : forall a b, qlist_eq a b -> List.length a = List.length b) by (intros a b H; induction H; cbn; congruence).
  split; [|split; [|split; [|split; [|split]]]].
  - rewrite map_map. cbn [t_i t_j mk]. rewrite <- (map_id (list_prod _ _)) at 2. apply map_ext. intros [a b]. reflexivity.
  - intros j Hj. unfold in_row. rewrite filter_map_comm. cbn [t_j mk]. rewrite filter_prod_snd by (try apply seq_NoDup; apply in_seq; lia). rewrite !map_map.
    eapply qlist_trans; [apply (axis_join x_bnd dx s nx px DX S1 WX PX)|]. apply qlist_sym. apply whole_cells; auto.
  - intros i Hi. unfold in_col. rewrite filter_map_comm. cbn [t_i mk]. rewrite filter_prod_fst by (try apply seq_NoDup; apply in_seq; lia). rewrite !map_map.
    eapply qlist_trans; [apply (axis_join y_bnd dy s ny py DY S1 WY PY)|]. apply qlist_sym. apply whole_cells; auto.
  - rewrite (FL _ _ (whole_cells x_bnd dx nx DX WX)). apply cells_length.
  - rewrite (FL _ _ (whole_cells y_bnd dy ny DY WY)). apply cells_length.
  - intros t Ht. apply in_map_iff in Ht. destruct Ht as ((i & j) & <- & Hin). apply in_prod_iff in Hin. rewrite !in_seq in Hin. cbn [t_i t_j mk fst snd].
    split.
    + change (tile_x dx _) with (axis_coords x_bnd dx s px i). rewrite (FL _ _ (axis_cells x_bnd dx s nx px DX S1 WX PX i ltac:(lia))). apply cells_length.
    + change (tile_y dy _) with (axis_coords y_bnd dy s py j). rewrite (FL _ _ (axis_cells y_bnd dy s ny py DY S1 WY PY j ltac:(lia))). apply cells_length.
Qed.
Print Assumptions C41_tiles_join.

(** * C42 *)
(** Taking the padding slice of anything padded by that many elements gives it back. *)
Theorem C42_trim_inverts_padding : forall A n (before inner after : list A), List.length before = n -> List.length after = n ->
  slice_list (pad_slice (Z.of_nat n)) (before ++ inner ++ after) = inner.
Proof.
  intros A n b m a Lb La. unfold slice_list. rewrite !app_length, Lb, La. replace (n + (List.length m + n))%nat with (List.length m + 2 * n)%nat by lia. rewrite pad_lo, pad_len.
  rewrite <- Lb at 1. rewrite skipn_app, skipn_all, Nat.sub_diag. cbn [app skipn]. rewrite firstn_app, firstn_all, Nat.sub_diag. cbn [firstn]. apply app_nil_r.
Qed.
Print Assumptions C42_trim_inverts_padding.
(** The call that is captured when tiles are written: both coordinates and the grid are
    trimmed alike. *)
Theorem C42_captured_call : forall A B nx ny (x x' x'' y y' y'' : list A) (left inner right : list (list B)) (south north : nat -> list B),
  List.length x = nx -> List.length x'' = nx -> List.length y = ny -> List.length y'' = ny -> List.length left = nx -> List.length right = nx ->
  (forall k, List.length (south k) = ny /\ List.length (north k) = ny) ->
  capture (Z.of_nat nx) (Z.of_nat ny) (x ++ x' ++ x'') (y ++ y' ++ y'')
    (left ++ map (fun kc => south (fst kc) ++ snd kc ++ north (fst kc)) (combine (seq 0 (List.length inner)) inner) ++ right) = (x', y', inner).
Proof.
  intros A B nx ny x x' x'' y y' y'' l m r so no Lx Lx' Ly Ly' Ll Lr Ls. unfold capture. rewrite !C42_trim_inverts_padding by auto. f_equal.
  rewrite map_map. assert (K : forall k, map (fun kc => slice_list (pad_slice (Z.of_nat ny)) (so (fst kc) ++ snd kc ++ no (fst kc))) (combine (seq k (List.length m)) m) = m); [|apply K].
  induction m as [|c m IH]; intros k; [reflexivity|]. cbn [List.length seq combine map fst snd]. rewrite C42_trim_inverts_padding by apply Ls. f_equal. apply IH.
Qed.
Print Assumptions C42_captured_call.
(** Tiles: trimming the coordinates of the padded grid gives those of the grid between the
    edges of the tile. *)
Theorem C42_tiles : forall x_bnd y_bnd dx dy s nx ny tiles t, 0 < dx -> 0 < dy -> (1 <= s)%nat ->
  snd x_bnd - fst x_bnd == inject_Z (Z.of_nat nx) * dx -> snd y_bnd - fst y_bnd == inject_Z (Z.of_nat ny) * dy ->
  subdivided_fixed_grid x_bnd y_bnd dx dy s = Ok tiles -> In t tiles ->
  exists xe ye, subdivide_bnd x_bnd dx s = Ok xe /\ subdivide_bnd y_bnd dy s = Ok ye /\
    qlist_eq (tile_x dx t) (centers (grid_edges (nth (t_i t) xe 0, nth (S (t_i t)) xe 0) dx)) /\
    qlist_eq (tile_y dy t) (centers (grid_edges (nth (t_j t) ye 0, nth (S (t_j t)) ye 0) dy)) /\
    0 <= inject_Z (t_npx t) * dx <= 28 # 10000 /\ 28 # 10000 < (inject_Z (t_npx t) + 1) * dx /\
    0 <= inject_Z (t_npy t) * dy <= 28 # 10000 /\ 28 # 10000 < (inject_Z (t_npy t) + 1) * dy.
Proof.
  intros x_bnd y_bnd dx dy s nx ny tiles t DX DY S1 WX WY HT Ht.
  assert (LE : forall b d n, 0 < d -> snd b - fst b == inject_Z (Z.of_nat n) * d -> fst b <= snd b).
  { intros b d n D E. assert (0 <= inject_Z (Z.of_nat n) * d); [|lra]. apply Qmult_le_0_compat; [|lra]. change 0 with (inject_Z 0). rewrite <- Zle_Qle. lia. }
  destruct (tiles_eq x_bnd y_bnd dx dy s DX DY (LE _ _ _ DX WX) (LE _ _ _ DY WY) S1) as (PX & PY & E). rewrite E in HT. inversion HT as [HT']. subst tiles. clear HT E.
  apply in_map_iff in Ht. destruct Ht as ((i & j) & <- & Hin). apply in_prod_iff in Hin. rewrite !in_seq in Hin. destruct Hin as [Hi Hj]. cbn [fst snd t_i t_j t_npx t_npy].
  exists (edge_list x_bnd dx s), (edge_list y_bnd dy s). split; [apply subdivide_eq; auto|]. split; [apply subdivide_eq; auto|].
  assert (PAD : forall d, 0 < d -> 0 <= inject_Z (qint (default_pad / d)) * d <= 28 # 10000 /\ 28 # 10000 < (inject_Z (qint (default_pad / d)) + 1) * d).
  { intros d D. destruct (qint_nonneg (default_pad / d)) as (A & B & C); [apply div_nonneg; [discriminate|exact D]|]. set (q := inject_Z (qint (default_pad / d))) in *.
    assert (0 <= q) by (subst q; change 0 with (inject_Z 0); rewrite <- Zle_Qle; exact A). assert (EQ : default_pad / d * d == 28 # 10000) by (unfold default_pad; field; lra).
    split; [split|].
    - apply Qmult_le_0_compat; lra.
    - rewrite <- EQ. apply Qmult_le_compat_r; lra.
    - rewrite <- EQ. apply Qmult_lt_compat_r; lra. }
  split; [|split].
  - eapply qlist_trans; [apply (axis_cells x_bnd dx s nx _ DX S1 WX PX i ltac:(lia))|]. apply qlist_sym. apply whole_cells; auto. cbn [fst snd]. apply tile_width; auto; lia.
  - eapply qlist_trans; [apply (axis_cells y_bnd dy s ny _ DY S1 WY PY j ltac:(lia))|]. apply qlist_sym. apply whole_cells; auto. cbn [fst snd]. apply tile_width; auto; lia.
  - destruct (PAD dx DX) as [A B]. destruct (PAD dy DY) as [C D]. repeat split; try apply A; try apply C; assumption.
Qed.
Print Assumptions C42_tiles.

(** * C43 *)
(** What the options say about scaling (absent: scaled). *)
Definition asks (o : option dict) (b : bool) : Prop :=
  match o with
  | None => b = true
  | Some d => match dict_get "scale_and_offset" d with None => b = true | Some v => b = truth v end
  end.
Lemma asks_wanted : forall o b, asks o b <-> b = wanted o.
Proof. intros [d|] b; cbn; [destruct (dict_get _ d)|]; tauto. Qed.
(** Each tile is written once, in order, with its own padding; the first one with the
    options of the user, and so are all others when these ask for scaled output. *)
Theorem C43_options_partial : forall gridder_of gridded sc stamp clock tiles options fs out fs',
  run gridder_of gridded sc stamp clock tiles options fs = Ok (out, fs') ->
  map (fun r => fst (fst r)) out = tiles /\
  (forall t scaled files, In (t, scaled, files) out ->
     exists after, write_goes_imagery (gridder_of t) (pad_slice (t_npx t)) (pad_slice (t_npy t)) scaled sc stamp (clock t) (gridded t) = Ok (after, files)) /\
  (forall t scaled files rest, out = (t, scaled, files) :: rest -> asks options scaled) /\
  (asks options true -> forall t scaled files, In (t, scaled, files) out -> scaled = true).
Proof.
  intros gof gr sc stamp clock tiles o fs out fs' H. destruct (run_inv _ _ _ _ _ _ _ _ _ _ H) as (M & K & F & _). split; [exact M|]. split; [|split].
  - intros t b fl Hin. exact (F _ Hin).
  - intros t b fl rest E. apply asks_wanted. exact (K 0%nat (t, b, fl) ltac:(rewrite E; reflexivity)).
  - intros A t b fl Hin. apply asks_wanted in A. apply In_nth_error in Hin. destruct Hin as (k & Hk). specialize (K k _ Hk). cbn [fst snd] in K. destruct k; congruence.
Qed.
Print Assumptions C43_options_partial.
(** After the first tile the options of the user are gone: whatever they were, every other
    tile of every run is written scaled. *)
Theorem C43_options_refuted : forall gridder_of gridded sc stamp clock tiles options fs out fs' k t scaled files,
  run gridder_of gridded sc stamp clock tiles options fs = Ok (out, fs') -> nth_error out (S k) = Some (t, scaled, files) -> scaled = true.
Proof. intros gof gr sc stamp clock tiles o fs out fs' k t b fl H Hk. destruct (run_inv _ _ _ _ _ _ _ _ _ _ H) as (_ & K & _). exact (K (S k) _ Hk). Qed.
Print Assumptions C43_options_refuted.

(** Four tiles of 2 by 1 cells with one cell of padding. *)
Definition ex_d : Q := 28 # 10000.
Definition ex_tiles : list tile := match subdivided_fixed_grid (0, 4 * ex_d) (0, 2 * ex_d) ex_d ex_d 2 with Ok ts => ts | Err _ => [] end.
Definition ex_gof (t : tile) : gridder := mkGridder (grid_edges (t_xbnd t) ex_d) (grid_edges (t_ybnd t) ex_d) [0; 60] (firstn 3 lut_names) lut_divide (lit "G16").
Definition ex_gridded (t : tile) : list array3 := let a := mkArr 4 3 1 (fun x y _ => Some (1 # 4)) in [a; a; a].
Definition ex_run : res (list (tile * bool * list outfile) * files) :=
  run ex_gof ex_gridded ex_scenes (fun _ => ex_time) (fun _ _ => ex_time) ex_tiles (Some [("scale_and_offset"%string, OBool false)]) [].
Example C43_ex : exists out fs, ex_run = Ok (out, fs) /\ map (fun r => snd (fst r)) out = [false; true; true; true] /\ map (fun r => List.length (snd r)) out = [1; 1; 1; 1]%nat.
Proof. eexists. eexists. split; [vm_compute; reflexivity|]. split; reflexivity. Qed.

(** * C44 *)
(** No file is lost as long as all names are different. *)
Theorem C44_tiles_partial : forall gridder_of gridded sc stamp clock tiles options fs out fs',
  run gridder_of gridded sc stamp clock tiles options fs = Ok (out, fs') ->
  NoDup (map of_name (flat_map snd out)) ->
  forall t scaled files f, In (t, scaled, files) out -> In f files -> file_at fs' (lit "./" ++ of_name f) = Some f.
Proof.
  intros gof gr sc stamp clock tiles o fs out fs' H ND t b fl f Hin Hf. destruct (run_inv _ _ _ _ _ _ _ _ _ _ H) as (_ & _ & _ & E). rewrite E.
  apply all_kept; [exact ND|]. apply in_flat_map. exists (t, b, fl). split; [exact Hin|exact Hf].
Qed.
Print Assumptions C44_tiles_partial.
(** And they are different for frames or tiles whose start, end or time of writing are a
    second apart. *)
Theorem C44_names_partial : forall gridder_of gridded sc stamp clock tiles options fs out fs' t1 b1 fl1 t2 b2 fl2 k1 k2 f1 f2 s1 e1 s2 e2,
  run gridder_of gridded sc stamp clock tiles options fs = Ok (out, fs') ->
  In (t1, b1, fl1) out -> In (t2, b2, fl2) out -> nth_error fl1 k1 = Some f1 -> nth_error fl2 k2 = Some f2 ->
  nth_error (gd_tedges (gridder_of t1)) k1 = Some s1 -> nth_error (gd_tedges (gridder_of t1)) (S k1) = Some e1 ->
  nth_error (gd_tedges (gridder_of t2)) k2 = Some s2 -> nth_error (gd_tedges (gridder_of t2)) (S k2) = Some e2 ->
  (forall q, valid_from 1000 (stamp q)) -> (forall t k, valid_from 1000 (clock t k)) ->
  component (gd_platform (gridder_of t1)) -> component (gd_platform (gridder_of t2)) ->
  (1000000 <= Z.abs (instant (stamp s1) - instant (stamp s2)) \/ 1000000 <= Z.abs (instant (stamp e1) - instant (stamp e2)) \/
   1000000 <= Z.abs (instant (clock t1 k1) - instant (clock t2 k2)))%Z ->
  of_name f1 <> of_name f2.
Proof.
  intros gof gr sc stamp clock tiles o fs out fs' t1 b1 fl1 t2 b2 fl2 k1 k2 f1 f2 s1 e1 s2 e2 H H1 H2 K1 K2 S1 E1 S2 E2 VS VC P1 P2 D EN.
  destruct (run_inv _ _ _ _ _ _ _ _ _ _ H) as (_ & _ & F & _).
  destruct (F _ H1) as (a1 & W1). destruct (F _ H2) as (a2 & W2). cbn [fst snd] in W1, W2. unfold write_goes_imagery in W1, W2.
  destruct (frames_names _ _ _ _ _ _ _ _ _ _ _ _ W1 k1 f1 K1) as (s1' & e1' & sc1 & A1 & B1 & N1). destruct (frames_names _ _ _ _ _ _ _ _ _ _ _ _ W2 k2 f2 K2) as (s2' & e2' & sc2 & A2 & B2 & N2).
  rewrite S1 in A1. rewrite E1 in B1. rewrite S2 in A2. rewrite E2 in B2. inversion A1; subst s1'. inversion B1; subst e1'. inversion A2; subst s2'. inversion B2; subst e2'.
  cbn [plus] in N1, N2. rewrite EN in N1. apply parse_dataset_name in N1; auto. apply parse_dataset_name in N2; auto.
  destruct N1 as (x & _ & N1). destruct N2 as (y & _ & N2). rewrite N1 in N2.
  assert (to_second (stamp s1) = to_second (stamp s2) /\ to_second (stamp e1) = to_second (stamp e2) /\ to_second (clock t1 k1) = to_second (clock t2 k2)) as (A & B & C)
    by (inversion N2; unfold to_second; split; [|split]; congruence).
  pose proof (instant_seconds _ _ (valid_1000 _ (VS _)) (valid_1000 _ (VS _)) A).
  pose proof (instant_seconds _ _ (valid_1000 _ (VS _)) (valid_1000 _ (VS _)) B).
  pose proof (instant_seconds _ _ (valid_1000 _ (VC _ _)) (valid_1000 _ (VC _ _)) C). destruct D as [D|[D|D]]; lia.
Qed.
Print Assumptions C44_names_partial.
(** Two tiles written within a second: only one file remains for both. *)
Theorem C44_tiles_overwrite_refuted : ~ (forall gridder_of gridded sc stamp clock tiles options fs out fs',
  run gridder_of gridded sc stamp clock tiles options fs = Ok (out, fs') ->
  forall t scaled files f, In (t, scaled, files) out -> In f files -> file_at fs' (lit "./" ++ of_name f) = Some f).
Proof.
  intros H. destruct ex_run as [[out fs]|] eqn:E; [|vm_compute in E; discriminate E]. specialize (H _ _ _ _ _ _ _ _ _ _ E).
  destruct out as [|[[t1 b1] fl1] out]; [vm_compute in E; discriminate E|]. destruct fl1 as [|f1 fl1]; [vm_compute in E; discriminate E|].
  specialize (H t1 b1 (f1 :: fl1) f1 (or_introl eq_refl) (or_introl eq_refl)).
  assert (K : option_map of_x (file_at fs (lit "./" ++ of_name f1)) = Some (of_x f1)) by (rewrite H; reflexivity).
  clear H. vm_compute in E. inversion E; subst. vm_compute in K. discriminate K.
Qed.
Print Assumptions C44_tiles_overwrite_refuted.

(** * C53 for tiles *)
(** Subdividing a grid of fewer than two columns per tile fails, whatever the data. *)
Theorem C53_narrow_tiles_refuted : forall x_bnd y_bnd dx dy s nx ny gridder_of gridded sc stamp clock options fs tiles, 0 < dx -> 0 < dy -> (2 <= s)%nat ->
  snd x_bnd - fst x_bnd == inject_Z (Z.of_nat nx) * dx -> snd y_bnd - fst y_bnd == inject_Z (Z.of_nat ny) * dy -> (nx < 2 * s)%nat ->
  (forall t, gd_xedge (gridder_of t) = grid_edges (t_xbnd t) dx /\ (2 <= List.length (gd_tedges (gridder_of t)))%nat) ->
  subdivided_fixed_grid x_bnd y_bnd dx dy s = Ok tiles -> run gridder_of gridded sc stamp clock tiles options fs = Err IndexError.
Proof.
  intros x_bnd y_bnd dx dy s nx ny gof gr sc stamp clock o fs tiles DX DY S2 WX WY NX G HT. assert (S1 : (1 <= s)%nat) by lia.
  assert (LE : forall b d n, 0 < d -> snd b - fst b == inject_Z (Z.of_nat n) * d -> fst b <= snd b).
  { intros b d n D E. assert (0 <= inject_Z (Z.of_nat n) * d); [|lra]. apply Qmult_le_0_compat; [|lra]. change 0 with (inject_Z 0). rewrite <- Zle_Qle. lia. }
  destruct (tiles_eq x_bnd y_bnd dx dy s DX DY (LE _ _ _ DX WX) (LE _ _ _ DY WY) S1) as (PX & PY & E). rewrite E in HT. inversion HT as [HT']. subst tiles. clear HT E.
  destruct s as [|[|s']]; try lia. set (s := S (S s')) in *. change (seq 0 s) with (0%nat :: seq 1 (S s')). cbn [list_prod map app run fst snd].
  set (t := mkTile 0 0 _ _ _ _). unfold proc_tile, write_grids. rewrite dict_get_set. cbn [bind fst snd t_npx t_npy].
  set (p := Z.to_nat (qint (default_pad / dx))). assert (EP : t_npx t = Z.of_nat p) by (subst p t; cbn [t_npx]; lia). change (qint (default_pad / dx)) with (t_npx t). rewrite EP.
  destruct (G t) as [G1 G2]. erewrite (C53_one_column_refuted (gof t) p _ _ (nx / s)); [reflexivity| | |exact G2].
  - assert (nx / s < 2)%nat by (apply Nat.div_lt_upper_bound; lia). lia.
  - rewrite G1. unfold t. cbn [t_xbnd]. unfold padded. apply grid_edges_exact; [exact DX|].
    pose proof (tile_width x_bnd dx s nx DX S1 WX 0 ltac:(lia)) as TW. unfold size in TW. replace (Nat.ltb 1 s) with true in TW by (symmetry; apply Nat.ltb_lt; lia).
    assert (EP' : qint (default_pad / dx) = Z.of_nat p) by (subst p; lia). rewrite EP'. replace (Z.of_nat (nx / s + 2 * p)) with (Z.of_nat (nx / s) + Z.of_nat p + Z.of_nat p)%Z by lia. rewrite !inject_Z_plus.
    rewrite !Qmult_plus_distr_l, <- TW. ring.
Qed.
Print Assumptions C53_narrow_tiles_refuted.

(** * Examples *)
Example C41_ex : subdivide_bnd (0, 4) (1 # 2) 3 = Ok [0 * (1 # 2) * 2 + 0; 1 * (1 # 2) * 2 + 0; 2 * (1 # 2) * 2 + 0; 4].
Proof. reflexivity. Qed.
Example C41_ex_tiles : List.length ex_tiles = 4%nat /\ map (fun t => (t_npx t, t_npy t)) ex_tiles = [(1, 1); (1, 1); (1, 1); (1, 1)]%Z /\
  snd (0, 4 * ex_d) - fst (0, 4 * ex_d) == inject_Z (Z.of_nat 4) * ex_d.
Proof. split; [reflexivity|]. split; reflexivity. Qed.
Example C42_ex : slice_list (pad_slice 2) [1; 2; 3; 4; 5; 6]%nat = [3; 4]%nat /\ slice_list (pad_slice 0) [1; 2; 3]%nat = [1; 2; 3]%nat.
Proof. split; reflexivity. Qed.
