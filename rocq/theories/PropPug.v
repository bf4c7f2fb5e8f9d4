(** C87: from the command line to the pixels of the images of a sector. *)
From Coq Require Import List ZArith QArith Qabs Qround Bool String Lia Lqa.
From Verif Require Import Base BaseProofs Glm GlmProofs3 Lut FileName FileNameSpec FileNameProofs Imagery ImagerySpec ImageryProofs PropImagery Tiles TilesSpec TilesProofs PropTiles GridSetup GridSetupSpec PropGridSetup Output OutputSpec OutputProofs2 PropOutput Pug PugProofs.
Import ListNotations.
Open Scope Q_scope.

(** Where the middle of pixel [c] of [n] is: [n] pixels of size [d] around [ctr].  Columns
    are counted from the west, rows from the north (size [- d]). *)
Definition pixel (n : Z) (d ctr : Q) (c : nat) : Q := ctr + (inject_Z (Z.of_nat c) - (inject_Z n - 1) / 2) * d.
(** A file that was written for a tile, cells of size [d]. *)
Definition written (d : Q) (t : tile) (f : ncfile) : Prop :=
  exists j og fs af fs' paths p, saves j og fs af fs' paths /\ In p paths /\ holds fs' p f /\
    gd_xedge (j_gd j) = grid_edges (t_xbnd t) d /\ gd_yedge (j_gd j) = grid_edges (t_ybnd t) d /\
    Z.of_nat (j_pad j) = t_npx t /\ Z.of_nat (j_pad j) = t_npy t.
(** The coordinates that a reader of the file gets. *)
Definition x_read (f : ncfile) : list fval := map (unpack_coord x_enc) (nc_x f).
Definition y_read (f : ncfile) : list fval := map (unpack_coord y_enc) (nc_y f).
(** Those of all tiles of a row side by side, of all tiles of a column from the north. *)
Definition across (tiles : list tile) (file : tile -> ncfile) (j : nat) : list fval := List.concat (map (fun t => x_read (file t)) (in_row j tiles)).
Definition down (tiles : list tile) (file : tile -> ncfile) (i : nat) : list fval := List.concat (map (fun t => y_read (file t)) (rev (in_col i tiles))).
(** [n] coordinates are read, each one of those that can be stored and within half a step of
    the middle of its pixel. *)
Definition reads_as (l : list fval) (n : Z) (d ctr : Q) : Prop :=
  Z.of_nat (List.length l) = n /\
  forall c, (Z.of_nat c < n)%Z -> exists u, nth_error l c = Some (Some u) /\ on_grid u /\ Qabs (u - pixel n d ctr c) <= step56 / 2.

(** * Helpers *)
Definition rdg (o : fval) (q : Q) : Prop := exists u, o = Some u /\ on_grid u /\ Qabs (u - q) <= step56 / 2.
Lemma rdg_compat : forall o q q', q == q' -> rdg o q -> rdg o q'.
Proof. intros o q q' E (u & A & B & C). exists u. split; [exact A|]. split; [exact B|]. rewrite <- E. exact C. Qed.
Lemma F2_rdg_eq : forall l qs qs', Forall2 rdg l qs -> qlist_eq qs qs' -> Forall2 rdg l qs'.
Proof. intros l qs qs' H. revert qs'. induction H as [|o q l qs A H IH]; intros qs' E; inversion E; subst; constructor; [eapply rdg_compat; eauto|auto]. Qed.
Lemma F2_by_nth : forall A B (R : A -> B -> Prop) l l', List.length l = List.length l' -> (forall k b, nth_error l' k = Some b -> exists a, nth_error l k = Some a /\ R a b) -> Forall2 R l l'.
Proof.
  induction l as [|a l IH]; intros [|b l'] E H; try discriminate E; constructor.
  - destruct (H 0%nat b eq_refl) as (a' & X & Y). inversion X. subst. exact Y.
  - apply IH; [injection E; auto|]. intros k b' K. apply (H (S k) b' K).
Qed.
Lemma F2_concat_map : forall A B C (R : B -> C -> Prop) (f : A -> list B) (g : A -> list C) l, (forall a, In a l -> Forall2 R (f a) (g a)) -> Forall2 R (List.concat (map f l)) (List.concat (map g l)).
Proof. intros A B C R f g l H. induction l as [|a l IH]; [constructor|]. cbn. apply Forall2_app; [apply H; left; reflexivity|apply IH; intros; apply H; right; assumption]. Qed.
Lemma x_code_grid : forall code u v, unpack_coord x_enc code = Some u -> u == v -> on_grid u.
Proof.
  intros code u v H _. unfold unpack_coord in H. destruct (Z.eqb code (-999)); [discriminate|]. injection H as <-. exists (code + (-2712))%Z. unfold x_enc, step56. cbn [fst snd].
  rewrite inject_Z_plus. change (inject_Z (-2712)) with (-2712 # 1). lra.
Qed.
Lemma y_code_grid : forall code u v, unpack_coord y_enc code = Some u -> u == v -> on_grid u.
Proof.
  intros code u v H _. unfold unpack_coord in H. destruct (Z.eqb code (-999)); [discriminate|]. injection H as <-. exists (2711 + - code)%Z. unfold y_enc, step56. cbn [fst snd].
  rewrite inject_Z_plus, inject_Z_opp. change (inject_Z 2711) with (2711 # 1). lra.
Qed.
Lemma file_axes : forall d t f, written d t f -> (forall q, In q (tile_x d t) \/ In q (tile_y d t) -> -(2 # 10) <= q <= 2 # 10) ->
  Forall2 rdg (x_read f) (tile_x d t) /\ Forall2 rdg (y_read f) (rev (tile_y d t)).
Proof.
  intros d t f (j & og & fs & af & fs' & paths & p & SV & Hp & HF & EX & EY & PX & PY) B.
  destruct (cols_rows j og (proj1 SV)) as [CX CY]. unfold slices in CX, CY. rewrite PX, EX in CX. rewrite PY, EY in CY. change (tile_x d t = columns j) in CX. change (tile_y d t = rows j) in CY.
  rewrite CX, CY in *. destruct (C63_coordinates_partial j og fs af fs' paths SV B p Hp) as (f' & HF' & LX & LY & RX & RY & _).
  assert (f' = f) by (unfold holds in *; congruence). subst f'.
  split; apply F2_by_nth.
  - unfold x_read, columns. rewrite !map_length, seq_length. exact LX.
  - intros k b K. destruct (RX k b K) as (u & (code & u' & N & U & EU) & D & _). exists (Some u'). unfold x_read. rewrite nth_error_map, N. cbn [option_map]. rewrite U. split; [reflexivity|].
    exists u'. split; [reflexivity|]. split; [eapply x_code_grid; eauto; reflexivity|]. rewrite EU. exact D.
  - unfold y_read, rows. rewrite rev_length, !map_length, seq_length. exact LY.
  - intros k b K. destruct (RY k b K) as (u & (code & u' & N & U & EU) & D & _). exists (Some u'). unfold y_read. rewrite nth_error_map, N. cbn [option_map]. rewrite U. split; [reflexivity|].
    exists u'. split; [reflexivity|]. split; [eapply y_code_grid; eauto; reflexivity|]. rewrite EU. exact D.
Qed.
Lemma concat_rev : forall A B (f : A -> list B) l, List.concat (map (fun a => rev (f a)) (rev l)) = rev (List.concat (map f l)).
Proof. intros A B f l. induction l as [|a l IH]; [reflexivity|]. cbn [rev map List.concat]. rewrite map_app, concat_app, IH. cbn [map List.concat]. rewrite app_nil_r, rev_app_distr. reflexivity. Qed.
Lemma qlist_rev : forall a b, qlist_eq a b -> qlist_eq (rev a) (rev b).
Proof. intros a b H. induction H; [constructor|]. cbn [rev]. apply Forall2_app; [exact IHForall2|]. constructor; [assumption|constructor]. Qed.
Lemma qlist_in : forall a b q, qlist_eq a b -> In q a -> exists q', In q' b /\ q == q'.
Proof. intros a b q H. induction H; intros HI; [destruct HI|]. destruct HI as [<-|HI]; [exists y; split; [left; reflexivity|assumption]|]. destruct (IHForall2 HI) as (q' & X & Y). exists q'. split; [right; exact X|exact Y]. Qed.
Lemma cells_pixels : forall b n d ctr, fst b + snd b == 2 * ctr -> snd b - fst b == inject_Z (Z.of_nat n) * d ->
  forall k, (k < n)%nat -> exists q, nth_error (cells (fst b) d n) k = Some q /\ q == pixel (Z.of_nat n) d ctr k.
Proof.
  intros b n d ctr A B k K. unfold cells. rewrite nth_error_map, nth_error_seq by exact K. cbn [option_map]. eexists. split; [reflexivity|].
  unfold pixel. assert (F : fst b == ctr - (1 # 2) * (inject_Z (Z.of_nat n) * d)) by lra.
  cbv beta. setoid_rewrite F. field.
Qed.

Lemma reads_x : forall l b n d ctr, Forall2 rdg l (cells (fst b) d (Z.to_nat n)) -> (0 <= n)%Z -> fst b + snd b == 2 * ctr -> snd b - fst b == inject_Z n * d -> reads_as l n d ctr.
Proof.
  intros l b n d ctr H N A B. split; [rewrite (F2_length _ _ _ _ _ H), cells_length; lia|]. intros c Hc.
  replace (inject_Z n) with (inject_Z (Z.of_nat (Z.to_nat n))) in B by (rewrite Z2Nat.id by lia; reflexivity).
  destruct (cells_pixels b (Z.to_nat n) d ctr A B c ltac:(lia)) as (q & Q1 & Q2). rewrite Z2Nat.id in Q2 by lia.
  assert (K : exists o, nth_error l c = Some o /\ rdg o q). { clear -H Q1. revert c Q1. induction H as [|o r l l' R H IH]; intros [|c] Q1; try discriminate Q1; [injection Q1 as <-; exists o; auto|apply IH; exact Q1]. }
  destruct K as (o & K1 & u & -> & G & D). exists u. split; [exact K1|]. split; [exact G|]. rewrite <- Q2. exact D.
Qed.
Lemma pixel_mirror : forall n d ctr c, (Z.of_nat c < n)%Z -> pixel n d ctr (Z.to_nat n - 1 - c) == pixel n (- d) ctr c.
Proof. intros n d ctr c H. unfold pixel. replace (Z.of_nat (Z.to_nat n - 1 - c)) with (n + (-1) + - Z.of_nat c)%Z by lia. rewrite !inject_Z_plus, inject_Z_opp. change (inject_Z (-1)) with (-1). field. Qed.
Lemma reads_y : forall l b n d ctr, Forall2 rdg l (rev (cells (fst b) d (Z.to_nat n))) -> (0 <= n)%Z -> fst b + snd b == 2 * ctr -> snd b - fst b == inject_Z n * d -> reads_as l n (- d) ctr.
Proof.
  intros l b n d ctr H N A B. split; [rewrite (F2_length _ _ _ _ _ H), rev_length, cells_length; lia|]. intros c Hc.
  replace (inject_Z n) with (inject_Z (Z.of_nat (Z.to_nat n))) in B by (rewrite Z2Nat.id by lia; reflexivity).
  destruct (cells_pixels b (Z.to_nat n) d ctr A B (Z.to_nat n - 1 - c) ltac:(lia)) as (q & Q1 & Q2). rewrite Z2Nat.id in Q2 by lia. rewrite pixel_mirror in Q2 by exact Hc.
  assert (Q3 : nth_error (rev (cells (fst b) d (Z.to_nat n))) c = Some q).
  { assert (LT : (c < List.length (cells (fst b) d (Z.to_nat n)))%nat) by (rewrite cells_length; lia).
    apply nth_error_nth with (d := 0) in Q1. rewrite <- Q1. rewrite (nth_error_nth' _ 0) by (rewrite rev_length; exact LT). rewrite rev_nth by exact LT. rewrite cells_length. f_equal. f_equal. lia. }
  assert (K : exists o, nth_error l c = Some o /\ rdg o q). { clear -H Q3. revert c Q3. induction H as [|o r l l' R H IH]; intros [|c] Q1; try discriminate Q1; [injection Q1 as <-; exists o; auto|apply IH; exact Q1]. }
  destruct K as (o & K1 & u & -> & G & D). exists u. split; [exact K1|]. split; [exact G|]. rewrite <- Q2. exact D.
Qed.

Section Sector.
Variable goes_grid : string -> string -> string -> res view.
Variable to_grid to_lonlat : Q -> Q * Q -> Q * Q.
Variable dlonlat : Q * Q -> Q * Q -> Q * Q -> Q * Q -> (Q * Q) * (Q * Q) * (Q * Q).
Let setup := grid_setup goes_grid to_grid to_lonlat dlonlat.

(** The command line asks for a sector [v] of the product definition, whose centre is [ctr];
    the sector lies within 0.2 radians of the point below the satellite. *)
Definition asks_sector (a : cmdline) (v : view) (ctr : Q * Q) : Prop :=
  a_fixed_grid a = true /\ a_position a <> "none"%string /\ a_sector a <> "none"%string /\
  goes_grid (a_position a) (a_sector a) (nearest_resolution (a_dx a)) = Ok v /\
  (vw_ctr v = Some ctr \/ vw_ctr v = None /\ a_sector a = "meso"%string /\ ctr = to_grid (vw_nadir v) (a_lon a, a_lat a)) /\
  0 < vw_res v /\ (0 <= vw_ew v)%Z /\ (0 <= vw_ns v)%Z /\
  Qabs (fst ctr) + inject_Z (vw_ew v) * vw_res v / 2 <= 2 # 10 /\ Qabs (snd ctr) + inject_Z (vw_ns v) * vw_res v / 2 <= 2 # 10.

Lemma cells_inside : forall b n d ctr q, fst b + snd b == 2 * ctr -> snd b - fst b == inject_Z (Z.of_nat n) * d -> 0 < d -> Qabs ctr + inject_Z (Z.of_nat n) * d / 2 <= 2 # 10 ->
  In q (cells (fst b) d n) -> -(2 # 10) <= q <= 2 # 10.
Proof.
  intros b n d ctr q A B D W H. apply In_nth_error in H. destruct H as (k & H). assert (LT : (k < n)%nat) by (rewrite <- (cells_length (fst b) d n); apply nth_error_Some; congruence).
  destruct (cells_pixels b n d ctr A B k LT) as (q' & Q1 & Q2). assert (q' = q) by congruence. subst q'. rewrite Q2. unfold pixel.
  assert (HC : Qabs ctr <= (2 # 10) - inject_Z (Z.of_nat n) * d * (1 # 2)) by (setoid_replace (inject_Z (Z.of_nat n) * d * (1 # 2)) with (inject_Z (Z.of_nat n) * d / 2) by field; lra).
  apply Qabs_Qle_condition in HC. assert (K1 : 0 <= inject_Z (Z.of_nat k)) by (change 0 with (inject_Z 0); rewrite <- Zle_Qle; lia).
  assert (K2 : inject_Z (Z.of_nat k) <= inject_Z (Z.of_nat n) - 1) by (change 1 with (inject_Z 1); rewrite <- inject_Z_opp, <- inject_Z_plus || idtac; unfold Qminus; rewrite <- inject_Z_opp, <- inject_Z_plus, <- Zle_Qle; lia).
  set (x := inject_Z (Z.of_nat k)) in *. set (y := inject_Z (Z.of_nat n)) in *. setoid_replace ((y - 1) / 2) with ((y - 1) * (1 # 2)) by field. nra.
Qed.

(** For every sector and every number of tiles per side: the images of a row of tiles side
    by side have the columns of the sector, those of a column of tiles its rows from the
    north; each coordinate read is within 28 microradians of the middle of its pixel. *)
Theorem C87_pixels_of_the_sector : forall a v ctr paths s e g n, asks_sector a v ctr ->
  setup a = Ok (paths, s, e, g) -> (1 <= n)%nat -> g_subdivide g = Z.of_nat n ->
  exists tiles, subdivided_fixed_grid (g_xbnd g) (g_ybnd g) (g_dx g) (g_dy g) n = Ok tiles /\
    forall file, (forall t, In t tiles -> written (vw_res v) t (file t)) ->
    forall i j, (i < n)%nat -> (j < n)%nat ->
      reads_as (across tiles file j) (vw_ew v) (vw_res v) (fst ctr) /\ reads_as (down tiles file i) (vw_ns v) (- vw_res v) (snd ctr).
Proof.
  intros a v ctr paths s e g n (FX & PO & SE & GG & CT & R & EW & NS & WX & WY) ST N1 _.
  assert (TW : exists s' e', time_window (a_paths a) (a_start a) (a_end a) = Ok (s', e')).
  { unfold setup, grid_setup in ST. destruct (time_window _ _ _) as [[s' e']|]; [eauto|discriminate]. }
  destruct TW as (s' & e' & TW).
  destruct (C45_sector_grid goes_grid to_grid to_lonlat dlonlat a v s' e' ctr FX PO SE TW GG R EW NS CT) as (g' & ST' & DX & DY & (CX1 & CX2 & CX3) & (CY1 & CY2 & CY3) & _).
  fold setup in ST'. assert (g' = g) by congruence. subst g'. clear ST'.
  rewrite DX, DY. destruct (C41_tiles_join (g_xbnd g) (g_ybnd g) (vw_res v) (vw_res v) n (Z.to_nat (vw_ew v)) (Z.to_nat (vw_ns v)) R R N1 CX2 CY2) as (tiles & T & _ & JX & JY & _).
  exists tiles. split; [exact T|]. intros file W i j Hi Hj.
  pose proof (whole_cells (g_xbnd g) (vw_res v) _ R CX2) as WCX. pose proof (whole_cells (g_ybnd g) (vw_res v) _ R CY2) as WCY.
  assert (IJ : forall t, In t tiles -> (t_i t < n)%nat /\ (t_j t < n)%nat).
  { destruct (C41_tiles_join (g_xbnd g) (g_ybnd g) (vw_res v) (vw_res v) n (Z.to_nat (vw_ew v)) (Z.to_nat (vw_ns v)) R R N1 CX2 CY2) as (tiles' & T' & M & _). assert (tiles' = tiles) by congruence. subst tiles'.
    intros t Ht. assert (In (t_i t, t_j t) (list_prod (seq 0 n) (seq 0 n))) by (rewrite <- M; apply in_map_iff; exists t; auto). apply in_prod_iff in H. rewrite !in_seq in H. lia. }
  assert (BX : forall t q, In t tiles -> In q (tile_x (vw_res v) t) -> -(2 # 10) <= q <= 2 # 10).
  { intros t q Ht Hq. destruct (qlist_in _ _ q (qlist_trans _ _ _ (JX (t_j t) (proj2 (IJ t Ht))) WCX)) as (q' & I & E).
    - apply in_concat. exists (tile_x (vw_res v) t). split; [|exact Hq]. apply in_map. apply filter_In. split; [exact Ht|apply Nat.eqb_refl].
    - rewrite E. apply (cells_inside _ _ _ (fst ctr) _ CX1 CX2 R); [rewrite Z2Nat.id by lia; exact WX|exact I]. }
  assert (BY : forall t q, In t tiles -> In q (tile_y (vw_res v) t) -> -(2 # 10) <= q <= 2 # 10).
  { intros t q Ht Hq. destruct (qlist_in _ _ q (qlist_trans _ _ _ (JY (t_i t) (proj1 (IJ t Ht))) WCY)) as (q' & I & E).
    - apply in_concat. exists (tile_y (vw_res v) t). split; [|exact Hq]. apply in_map. apply filter_In. split; [exact Ht|apply Nat.eqb_refl].
    - rewrite E. apply (cells_inside _ _ _ (snd ctr) _ CY1 CY2 R); [rewrite Z2Nat.id by lia; exact WY|exact I]. }
  assert (FA : forall t, In t tiles -> Forall2 rdg (x_read (file t)) (tile_x (vw_res v) t) /\ Forall2 rdg (y_read (file t)) (rev (tile_y (vw_res v) t))).
  { intros t Ht. apply file_axes; [apply W; exact Ht|]. intros q [Hq|Hq]; [eapply BX|eapply BY]; eauto. }
  rewrite Z2Nat.id in CX2, CY2 by lia.
  split.
  - apply (reads_x _ (g_xbnd g)); auto. eapply F2_rdg_eq; [|exact (qlist_trans _ _ _ (JX j Hj) WCX)]. unfold across. apply F2_concat_map. intros t Ht. apply FA. apply filter_In in Ht. apply Ht.
  - apply (reads_y _ (g_ybnd g)); auto. eapply F2_rdg_eq; [|apply qlist_rev; exact (qlist_trans _ _ _ (JY i Hi) WCY)]. unfold down. rewrite <- concat_rev. apply F2_concat_map. intros t Ht. apply FA. apply in_rev in Ht. apply filter_In in Ht. apply Ht.
Qed.
End Sector.

(** The distance of the middles of the pixels from the nearest numbers that can be stored,
    in steps; the same for all pixels if their size is a whole number of steps. *)
Definition off_by (n : Z) (d ctr : Q) (theta : Q) : Prop :=
  (exists m : Z, d == inject_Z m * step56) /\ (exists k : Z, pixel n d ctr 0 == (inject_Z k + (1 # 2) + theta) * step56) /\ -(1 # 2) < theta < 1 # 2.
Lemma one_grid : forall (k k' : Z) theta, -(1 # 2) < theta < 1 # 2 -> Qabs ((inject_Z k' + (1 # 2)) * step56 - (inject_Z k + (1 # 2) + theta) * step56) <= step56 / 2 -> k' = k.
Proof.
  intros k k' th T H. assert (S : step56 / 2 == 28 # 1000000) by reflexivity. rewrite S in H. apply Qabs_Qle_condition in H. unfold step56 in H. assert (A : inject_Z k' < inject_Z (k + 1)) by (rewrite inject_Z_plus; change (inject_Z 1) with 1; lra).
  assert (B : inject_Z (k + (-1)) < inject_Z k') by (rewrite inject_Z_plus; change (inject_Z (-1)) with (-1); lra). rewrite <- Zlt_Qlt in A, B. lia.
Qed.
Lemma reads_shifted : forall l n d ctr theta, reads_as l n d ctr -> off_by n d ctr theta -> exists qs, l = map Some qs /\ forall c, (Z.of_nat c < n)%Z -> nth c qs 0 == pixel n d ctr c - theta * step56.
Proof.
  intros l n d ctr th [L R] ((m & M) & (k & K) & T).
  assert (P : forall c, pixel n d ctr c == (inject_Z (k + Z.of_nat c * m) + (1 # 2) + th) * step56).
  { intros c. assert (E : pixel n d ctr c == pixel n d ctr 0 + inject_Z (Z.of_nat c) * d) by (unfold pixel; change (inject_Z (Z.of_nat 0)) with 0; ring). rewrite E, K, M, inject_Z_plus, inject_Z_mult. ring. }
  assert (S : forall c, (Z.of_nat c < n)%Z -> exists u, nth_error l c = Some (Some u) /\ u == pixel n d ctr c - th * step56).
  { intros c Hc. destruct (R c Hc) as (u & U1 & (k' & G) & D). exists u. split; [exact U1|]. rewrite G, P in *. apply one_grid in D; [|exact T]. subst k'. ring. }
  exists (map (fun o => match o with Some u => u | None => 0 end) l). split.
  - rewrite map_map. rewrite <- (map_id l) at 1. apply map_ext_in. intros o Ho. apply In_nth_error in Ho. destruct Ho as (c & Hc). unfold fval in *. assert (LT : (c < List.length l)%nat) by (apply nth_error_Some; intros NN; rewrite Hc in NN; discriminate NN).
    destruct (S c ltac:(lia)) as (u & U & _). rewrite U in Hc. injection Hc as <-. reflexivity.
  - intros c Hc. destruct (S c Hc) as (u & U & E). erewrite nth_error_nth; [exact E|]. rewrite nth_error_map. unfold fval in *. rewrite U. reflexivity.
Qed.
Lemma axis_check : forall l n d r ctr theta, reads_as l n d ctr -> off_by n d ctr theta -> (2 <= n)%Z -> r == Qabs d ->
  (axis_passes n r (inject_Z n * r) ctr l = true <-> Qabs theta * step56 <= (1 # 100000000) + (1 # 100000) * Qabs ctr).
Proof.
  intros l n d r ctr th RA OB N2 RD. destruct (reads_shifted _ _ _ _ _ RA OB) as (qs & -> & E). destruct RA as [L _]. rewrite map_length in L.
  set (m := Z.to_nat (n - 2)). assert (NM : n = Z.of_nat (S (S m))) by (unfold m; lia).
  assert (LQ : List.length qs = S (S m)) by lia.
  rewrite (axis_iff qs m (pixel n d ctr 0 - th * step56) d LQ).
  - set (w := inject_Z (Z.of_nat (S m))). assert (WN : w + 1 == inject_Z n) by (unfold w; change 1 with (inject_Z 1); rewrite <- inject_Z_plus; replace (Z.of_nat (S m) + 1)%Z with n by lia; reflexivity).
    assert (A1 : Qabs (Qabs d - r) <= (1 # 100000) * Qabs r).
    { setoid_replace (Qabs d - r) with 0 by (rewrite RD; ring). pose proof (Qabs_nonneg r). change (Qabs 0) with 0. lra. }
    assert (A2 : Qabs ((w + 1) * Qabs d - inject_Z n * r) <= (1 # 100000) * Qabs (inject_Z n * r)).
    { setoid_replace ((w + 1) * Qabs d - inject_Z n * r) with 0 by (rewrite WN, RD; ring). pose proof (Qabs_nonneg (inject_Z n * r)). change (Qabs 0) with 0. lra. }
    assert (A3 : Qabs (pixel n d ctr 0 - th * step56 + w / 2 * d - ctr) == Qabs th * step56).
    { setoid_replace (pixel n d ctr 0 - th * step56 + w / 2 * d - ctr) with (- (th * step56)).
      - rewrite Qabs_opp, Qabs_Qmult. apply Qmult_comp; [reflexivity|]. reflexivity.
      - unfold pixel. rewrite <- WN. change (inject_Z (Z.of_nat 0)) with 0. field. }
    rewrite A3. split; [intros (_ & _ & _ & H); exact H|auto].
  - intros k Hk. rewrite E by lia. unfold pixel. change (inject_Z (Z.of_nat 0)) with 0. ring.
Qed.

Section Check.
Variable goes_grid : string -> string -> string -> res view.
Variable to_grid to_lonlat : Q -> Q * Q -> Q * Q.
Variable dlonlat : Q * Q -> Q * Q -> Q * Q -> Q * Q -> (Q * Q) * (Q * Q) * (Q * Q).
Let setup := grid_setup goes_grid to_grid to_lonlat dlonlat.
(** The product definition of a sector, with its centre. *)
Definition pug_of (v : view) (ctr : Q * Q) : pug :=
  mkPug (vw_ew v) (vw_ns v) (vw_res v) (inject_Z (vw_ew v) * vw_res v) (inject_Z (vw_ns v) * vw_res v) (fst ctr) (snd ctr).
(** The check of the images against the definition, for sectors whose resolution is a whole
    number of storage steps (2 km and coarser): it passes exactly if the centre is where
    pixels can be stored, up to the tolerance of the check. *)
Theorem C87_check_of_the_sector : forall a v ctr paths s e g n tiles file i j thx thy, asks_sector goes_grid to_grid a v ctr ->
  setup a = Ok (paths, s, e, g) -> (1 <= n)%nat -> g_subdivide g = Z.of_nat n ->
  subdivided_fixed_grid (g_xbnd g) (g_ybnd g) (g_dx g) (g_dy g) n = Ok tiles ->
  (forall t, In t tiles -> written (vw_res v) t (file t)) -> (i < n)%nat -> (j < n)%nat ->
  (2 <= vw_ew v)%Z -> (2 <= vw_ns v)%Z -> off_by (vw_ew v) (vw_res v) (fst ctr) thx -> off_by (vw_ns v) (- vw_res v) (snd ctr) thy ->
  (check_against_pug (across tiles file j) (down tiles file i) (pug_of v ctr) = true <->
   Qabs thx * step56 <= (1 # 100000000) + (1 # 100000) * Qabs (fst ctr) /\ Qabs thy * step56 <= (1 # 100000000) + (1 # 100000) * Qabs (snd ctr)).
Proof.
  intros a v ctr paths s e g n tiles file i j thx thy AS ST N1 SD TL W Hi Hj E2 S2 OX OY.
  destruct (C87_pixels_of_the_sector goes_grid to_grid to_lonlat dlonlat a v ctr paths s e g n AS ST N1 SD) as (tiles' & TL' & RD).
  assert (tiles' = tiles) by congruence. subst tiles'. destruct (RD file W i j Hi Hj) as [RX RY].
  destruct AS as (_ & _ & _ & _ & _ & R & _).
  unfold check_against_pug, pug_of. cbn [pg_ew pg_ns pg_res pg_span_ew pg_span_ns pg_ctr_ew pg_ctr_ns]. rewrite andb_true_iff.
  rewrite (axis_check _ _ _ _ _ _ RX OX E2) by (rewrite Qabs_pos by lra; reflexivity).
  rewrite (axis_check _ _ _ _ _ _ RY OY S2) by (rewrite Qabs_opp, Qabs_pos by lra; reflexivity). reflexivity.
Qed.
(** Sectors whose pixels are where coordinates can be stored pass. *)
Theorem C87_standard_sectors_pass_partial : forall a v ctr paths s e g n tiles file i j, asks_sector goes_grid to_grid a v ctr ->
  setup a = Ok (paths, s, e, g) -> (1 <= n)%nat -> g_subdivide g = Z.of_nat n ->
  subdivided_fixed_grid (g_xbnd g) (g_ybnd g) (g_dx g) (g_dy g) n = Ok tiles ->
  (forall t, In t tiles -> written (vw_res v) t (file t)) -> (i < n)%nat -> (j < n)%nat ->
  (2 <= vw_ew v)%Z -> (2 <= vw_ns v)%Z -> (exists m : Z, vw_res v == inject_Z m * step56) ->
  on_grid (pixel (vw_ew v) (vw_res v) (fst ctr) 0) -> on_grid (pixel (vw_ns v) (- vw_res v) (snd ctr) 0) ->
  check_against_pug (across tiles file j) (down tiles file i) (pug_of v ctr) = true.
Proof.
  intros a v ctr paths s e g n tiles file i j AS ST N1 SD TL W Hi Hj E2 S2 (m & M) (kx & GX) (ky & GY).
  apply (C87_check_of_the_sector a v ctr paths s e g n tiles file i j 0 0); auto.
  - split; [exists m; exact M|]. split; [exists kx; rewrite GX; ring|lra].
  - split; [exists (- m)%Z; rewrite M, inject_Z_opp; ring|]. split; [exists ky; rewrite GY; ring|lra].
  - change (Qabs 0 * step56) with (0 * step56). rewrite Qmult_0_l. pose proof (Qabs_nonneg (fst ctr)). pose proof (Qabs_nonneg (snd ctr)). lra.
Qed.
(** A mesoscale sector may be centred anywhere.  Then all coordinates of its files are off by
    the same distance, and the check fails if that is more than its tolerance. *)
Theorem C87_any_centre_refuted : forall a v ctr paths s e g n tiles file i j thx thy, asks_sector goes_grid to_grid a v ctr ->
  setup a = Ok (paths, s, e, g) -> (1 <= n)%nat -> g_subdivide g = Z.of_nat n ->
  subdivided_fixed_grid (g_xbnd g) (g_ybnd g) (g_dx g) (g_dy g) n = Ok tiles ->
  (forall t, In t tiles -> written (vw_res v) t (file t)) -> (i < n)%nat -> (j < n)%nat ->
  (2 <= vw_ew v)%Z -> (2 <= vw_ns v)%Z -> off_by (vw_ew v) (vw_res v) (fst ctr) thx -> off_by (vw_ns v) (- vw_res v) (snd ctr) thy ->
  (1 # 100000000) + (1 # 100000) * Qabs (fst ctr) < Qabs thx * step56 ->
  check_against_pug (across tiles file j) (down tiles file i) (pug_of v ctr) = false.
Proof.
  intros a v ctr paths s e g n tiles file i j thx thy AS ST N1 SD TL W Hi Hj E2 S2 OX OY T.
  destruct (check_against_pug _ _ _) eqn:C; [|reflexivity]. apply (C87_check_of_the_sector a v ctr paths s e g n tiles file i j thx thy) in C; auto. destruct C as [C _]. lra.
Qed.
End Check.
Print Assumptions C87_pixels_of_the_sector.
Print Assumptions C87_check_of_the_sector.
Print Assumptions C87_standard_sectors_pass_partial.
Print Assumptions C87_any_centre_refuted.

(** A sector of 4 by 4 pixels of 2800 microradians in 2 by 2 tiles, with one cell of padding;
    the mesoscale one is centred elsewhere. *)
Definition ex_goes (p s r : string) : res view := Ok (mkView (-75) (28 # 10000) 4 4 (if String.eqb s "meso" then None else Some (28 # 1000000, 28 # 1000000))).
Definition ex_ctr : Q * Q := (20 # 1000000, 28 # 1000000).
Definition ex_cmd (sector : string) := mkCmd (map path_of [nm 30 20; nm 30 0]) None None 10 4 25 10 (-100) 33 60 1 3 true 2 "east" sector true true (-1).
Definition ex_setup := grid_setup ex_goes (fun _ p => ex_ctr) (fun _ p => p) (fun _ d x y => (d, x, y)).
Definition ex_job (t : tile) : job :=
  mkJob (mkGridder (grid_edges (t_xbnd t) (28 # 10000)) (grid_edges (t_ybnd t) (28 # 10000)) [0; 60] ["flash_extent_density"%string] (fun _ => None) (lit "G16")) 1 2 2 true (mkScenes (304 # 1000, 304 # 1000) (140 # 1000, 84 # 1000) (28 # 1000, 28 # 1000))
    ex_resolutions (lit "GOES-East") (lit "GLM-1") ex_default ex_stamp (fun _ => mkDT 2018 183 5 0 0 0).
Definition ex_og : list array3 := [mkArr 4 4 1 (fun x y _ => Some 1)].
Definition ex_file (t : tile) : ncfile :=
  match call (ex_job t) ex_og ex_fs with
  | Ok (_, fs', p :: _) => match lookup fs' (norm p) with Some f => f | None => mkNc (mkOut [] [] [] []) (mkAttrs [] [] [] [] [] [] [] [] []) [] [] end
  | _ => mkNc (mkOut [] [] [] []) (mkAttrs [] [] [] [] [] [] [] [] []) [] [] end.
Definition ex_bnd (c : Q) : Q * Q := match axis_bnd 4 (28 # 10000) c with Ok b => b | Err _ => (0, 0) end.
Definition ex_tiles (sector : string) : list tile :=
  let c := if String.eqb sector "meso" then ex_ctr else (28 # 1000000, 28 # 1000000) in
  match subdivided_fixed_grid (ex_bnd (fst c)) (ex_bnd (snd c)) (28 # 10000) (28 # 10000) 2 with Ok ts => ts | Err _ => [] end.
Definition ex_view (sector : string) : view := mkView (-75) (28 # 10000) 4 4 (if String.eqb sector "meso" then None else Some (28 # 1000000, 28 # 1000000)).
Lemma edges_up : forall b d m, 0 < d -> snd b - fst b == inject_Z (Z.of_nat m) * d -> ascending (grid_edges b d) /\ List.length (grid_edges b d) = S m.
Proof.
  intros [lo hi] d m D E. destruct (grid_edges_exact lo hi d m D E) as [L N]. split; [|exact L]. intros i k [A B]. rewrite L in B. rewrite !N by lia.
  assert (inject_Z (Z.of_nat i) < inject_Z (Z.of_nat k)) by (rewrite <- Zlt_Qlt; lia). nra.
Qed.
Lemma ex_job_written : forall t, snd (t_xbnd t) - fst (t_xbnd t) == 4 * (28 # 10000) -> snd (t_ybnd t) - fst (t_ybnd t) == 4 * (28 # 10000) -> t_npx t = 1%Z -> t_npy t = 1%Z ->
  (exists af fs' p, call (ex_job t) ex_og ex_fs = Ok (af, fs', [p]) /\ lookup fs' (norm p) = Some (ex_file t)) -> written (28 # 10000) t (ex_file t).
Proof.
  intros t W1 W2 P1 P2 (af & fs' & p & E & F). destruct (edges_up (t_xbnd t) (28 # 10000) 4 ltac:(reflexivity) W1) as [A1 L1]. destruct (edges_up (t_ybnd t) (28 # 10000) 4 ltac:(reflexivity) W2) as [A2 L2].
  exists (ex_job t), ex_og, ex_fs, af, fs', [p], p. split; [split; [|exact E]|].
  - split; [exact A1|]. split; [exact A2|]. split; [exact L1|]. split; [exact L2|]. split; [repeat constructor|]. split; [reflexivity|]. intros i d H. discriminate H.
  - split; [left; reflexivity|]. split; [exact F|]. split; [reflexivity|]. split; [reflexivity|]. rewrite P1, P2. split; reflexivity.
Qed.
Lemma ex_written : forall sector t, In sector ["full"; "meso"]%string -> In t (ex_tiles sector) -> written (28 # 10000) t (ex_file t).
Proof.
  assert (K : forall sector, In sector ["full"; "meso"]%string -> Forall (fun t => written (28 # 10000) t (ex_file t)) (ex_tiles sector)); [|intros sector t Hs Ht; exact (proj1 (Forall_forall _ _) (K sector Hs) t Ht)].
  intros sector [<-|[<-|[]]].
  - let l := eval vm_compute in (ex_tiles "full") in assert (E : ex_tiles "full" = l) by (vm_compute; reflexivity). rewrite E. clear E.
    repeat (apply Forall_cons; [apply ex_job_written; [reflexivity|reflexivity|reflexivity|reflexivity|eexists; eexists; eexists; split; vm_compute; reflexivity]|]). constructor.
  - let l := eval vm_compute in (ex_tiles "meso") in assert (E : ex_tiles "meso" = l) by (vm_compute; reflexivity). rewrite E. clear E.
    repeat (apply Forall_cons; [apply ex_job_written; [reflexivity|reflexivity|reflexivity|reflexivity|eexists; eexists; eexists; split; vm_compute; reflexivity]|]). constructor.
Qed.
Lemma ex_asks : forall sector, In sector ["full"; "meso"]%string -> asks_sector ex_goes (fun _ p => ex_ctr) (ex_cmd sector) (ex_view sector) (if String.eqb sector "meso" then ex_ctr else (28 # 1000000, 28 # 1000000)).
Proof.
  intros sector [<-|[<-|[]]]; (split; [reflexivity|]; split; [discriminate|]; split; [discriminate|]; split; [reflexivity|]; split; [first [left; reflexivity|right; split; [reflexivity|split; reflexivity]]|]; split; [reflexivity|]; split; [discriminate|]; split; [discriminate|]; split; vm_compute; discriminate).
Qed.
Example C87_ex : exists g, ex_setup (ex_cmd "full") = Ok (map path_of [nm 30 20; nm 30 0], mkDT 2018 183 4 30 0 0, mkDT 2018 183 4 30 40 0, g) /\ g_subdivide g = 2%Z /\
  subdivided_fixed_grid (g_xbnd g) (g_ybnd g) (g_dx g) (g_dy g) 2 = Ok (ex_tiles "full") /\ List.length (ex_tiles "full") = 4%nat /\
  on_grid (pixel 4 (28 # 10000) (28 # 1000000) 0) /\ check_against_pug (across (ex_tiles "full") ex_file 0) (down (ex_tiles "full") ex_file 1) (pug_of (ex_view "full") (28 # 1000000, 28 # 1000000)) = true.
Proof. eexists. split; [vm_compute; reflexivity|]. split; [reflexivity|]. split; [vm_compute; reflexivity|]. split; [vm_compute; reflexivity|]. split; [exists (-75)%Z; reflexivity|]. vm_compute. reflexivity. Qed.
Example C87_ex_meso : off_by 4 (28 # 10000) (fst ex_ctr) (-(8 # 56)) /\ (1 # 100000000) + (1 # 100000) * Qabs (fst ex_ctr) < Qabs (-(8 # 56)) * step56 /\
  check_against_pug (across (ex_tiles "meso") ex_file 0) (down (ex_tiles "meso") ex_file 1) (pug_of (ex_view "meso") ex_ctr) = false.
Proof. split; [|split; vm_compute; reflexivity]. split; [exists 50%Z; reflexivity|]. split; [exists (-75)%Z; reflexivity|split; reflexivity]. Qed.
