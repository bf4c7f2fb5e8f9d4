(** C47 and C56: pixel lookup and polygons from the table of corners. *)
From Coq Require Import List ZArith QArith Qabs Lia Lqa Bool.
From Verif Require Import Base BaseProofs Ccd.
Import ListNotations.
Open Scope nat_scope.

(** ** Specification *)
Definition at2 {A} (a : arr2 A) (i j : nat) : option A :=
  match nth_error a i with Some row => nth_error row j | None => None end.
Definition rectangular {A} (nx ny : nat) (a : arr2 A) : Prop :=
  length a = nx /\ forall row, In row a -> length row = ny.
(** Masked at (i, j). *)
Definition masked (n : ndarray) (i j : nat) : Prop :=
  exists m, nd_mask n = Some (Mask m) /\ at2 m i j = Some true.
(** An array of pixels of a shape, with a mask of the same shape if any. *)
Definition well_shaped (nx ny : nat) (n : ndarray) : Prop :=
  rectangular nx ny (nd_data n) /\ (forall m, nd_mask n = Some (Mask m) -> rectangular nx ny m).
Definition is_masked_array (n : ndarray) : Prop := nd_mask n <> None.
(** A pixel that exists and is masked in neither array. *)
Definition usable (nx ny : nat) (lons lats : ndarray) (i j : nat) : Prop :=
  i < nx /\ j < ny /\ ~ masked lons i j /\ ~ masked lats i j.

(** ** Lemmas *)
Definition cells (nx ny : nat) : list (nat * nat) :=
  flat_map (fun i => map (fun j => (i, j)) (seq 0 ny)) (seq 0 nx).

Lemma cells_in : forall nx ny i j, In (i, j) (cells nx ny) <-> i < nx /\ j < ny.
Proof.
  intros nx ny i j. unfold cells. rewrite in_flat_map. split.
  - intros [i' [H1 H2]]. apply in_map_iff in H2. destruct H2 as [j' [E H2]]. injection E as -> ->.
    apply in_seq in H1. apply in_seq in H2. lia.
  - intros [H1 H2]. exists i. split; [apply in_seq; lia|]. apply in_map_iff. exists j.
    split; [reflexivity|apply in_seq; lia].
Qed.

Lemma cells_nodup : forall nx ny, NoDup (cells nx ny).
Proof.
  intros nx ny. unfold cells. generalize 0 at 2. induction nx as [|nx IH]; intro s; cbn [seq flat_map]; [constructor|].
  apply nodup_app.
  - apply FinFun.Injective_map_NoDup; [|apply seq_NoDup]. intros a b E. congruence.
  - apply IH.
  - intros x H1 H2. apply in_map_iff in H1. destruct H1 as [j [<- _]].
    apply in_flat_map in H2. destruct H2 as [i [Hi H2]]. apply in_map_iff in H2.
    destruct H2 as [j' [E _]]. injection E as -> _. apply in_seq in Hi. lia.
Qed.

Lemma row_map : forall (A : Type) (d : A) (l : list A) n, length l = n -> l = map (fun j => nth j l d) (seq 0 n).
Proof.
  intros A d l. induction l as [|a l IH]; intros n H; subst n; [reflexivity|].
  cbn [length seq map nth]. f_equal. rewrite <- seq_shift, map_map. apply IH. reflexivity.
Qed.

Lemma concat_cells : forall (A : Type) (d : A) nx ny (a : arr2 A), rectangular nx ny a ->
  List.concat a = map (fun c => nth (snd c) (nth (fst c) a []) d) (cells nx ny).
Proof.
  intros A d nx ny a [H1 H2]. subst nx. unfold cells.
  assert (G : forall s (pre suf : arr2 A), length pre = s -> (forall row, In row suf -> length row = ny) ->
    List.concat suf = map (fun c => nth (snd c) (nth (fst c) (pre ++ suf) []) d)
      (flat_map (fun i => map (fun j => (i, j)) (seq 0 ny)) (seq s (length suf)))).
  { intros s pre suf. revert s pre. induction suf as [|row suf IH]; intros s pre Hs Hr; [reflexivity|].
    cbn [List.concat length seq flat_map]. rewrite map_app, map_map. f_equal.
    - cbn [fst snd]. rewrite app_nth2 by lia. replace (s - length pre) with 0 by lia. cbn [nth].
      apply row_map. apply Hr. left. reflexivity.
    - rewrite (IH (S s) (pre ++ [row])).
      + rewrite <- app_assoc. reflexivity.
      + rewrite app_length. cbn. lia.
      + intros r Hr'. apply Hr. right. exact Hr'. }
  apply (G 0 []); auto.
Qed.

Lemma select_cells : forall (A : Type) (d : A) nx ny (a : arr2 A) (g : arr2 bool),
  rectangular nx ny a -> rectangular nx ny g ->
  select a g = map (fun c => nth (snd c) (nth (fst c) a []) d)
                 (filter (fun c => nth (snd c) (nth (fst c) g []) false) (cells nx ny)).
Proof.
  intros A d nx ny a g Ra Rg. unfold select.
  rewrite (concat_cells A d nx ny a Ra), (concat_cells bool false nx ny g Rg).
  induction (cells nx ny) as [|c l IH]; [reflexivity|]. cbn [map combine filter snd].
  destruct (nth (snd c) (nth (fst c) g []) false); cbn [map fst]; rewrite IH; reflexivity.
Qed.

Lemma nth_map_seq0 : forall (A : Type) (f : nat -> A) d n i, i < n -> nth i (map f (seq 0 n)) d = f i.
Proof.
  intros A f d n i H. rewrite (nth_indep _ d (f 0)) by (rewrite map_length, seq_length; exact H).
  rewrite map_nth, seq_nth by exact H. reflexivity.
Qed.

Lemma transpose_X : forall nx ny i j, i < nx -> j < ny ->
  nth j (nth i (transpose 0 nx (fst (meshgrid (seq 0 nx) (seq 0 ny)))) []) 0 = i.
Proof.
  intros nx ny i j Hi Hj. unfold transpose, meshgrid. cbn [fst].
  rewrite nth_map_seq0 by exact Hi. rewrite map_map.
  rewrite nth_map_seq0 by exact Hj. apply seq_nth. exact Hi.
Qed.
Lemma transpose_Y : forall nx ny i j, i < nx -> j < ny ->
  nth j (nth i (transpose 0 nx (snd (meshgrid (seq 0 nx) (seq 0 ny)))) []) 0 = j.
Proof.
  intros nx ny i j Hi Hj. unfold transpose, meshgrid. cbn [snd].
  rewrite nth_map_seq0 by exact Hi. rewrite map_map.
  rewrite nth_map_seq0 by exact Hj. rewrite nth_map_seq0 by exact Hi. reflexivity.
Qed.
Lemma transpose_rect : forall (A : Type) (d : A) nx ny (a : arr2 A), length a = ny ->
  rectangular nx ny (transpose d nx a).
Proof.
  intros A d nx ny a H. unfold transpose. split; [rewrite map_length, seq_length; reflexivity|].
  intros row Hr. apply in_map_iff in Hr. destruct Hr as [i [<- _]]. rewrite map_length. exact H.
Qed.

Lemma rect_at2 : forall (A : Type) (d : A) nx ny (a : arr2 A) i j, rectangular nx ny a -> i < nx -> j < ny ->
  at2 a i j = Some (nth j (nth i a []) d).
Proof.
  intros A d nx ny a i j [H1 H2] Hi Hj. unfold at2.
  rewrite (nth_error_nth' a [] (n := i)) by lia. apply nth_error_nth'.
  rewrite (H2 (nth i a [])); [exact Hj|]. apply nth_In. lia.
Qed.

(** The mask of good pixels is that of the usable ones. *)
Lemma good_spec : forall nx ny lons lats, 0 < nx -> well_shaped nx ny lons -> well_shaped nx ny lats ->
  (is_masked_array lons <-> is_masked_array lats) ->
  exists good, good_pixels lons lats = Ok good /\ rectangular nx ny good /\
    forall i j, i < nx -> j < ny -> (nth j (nth i good []) false = true <-> usable nx ny lons lats i j).
Proof.
  intros nx ny lons lats Hn [Rlo Mlo] [Rla Mla] HM.
  assert (Sh : shape (nd_data lats) = (nx, ny)).
  { unfold shape. destruct Rla as [L R]. rewrite L. f_equal. destruct (nd_data lats) as [|r a]; cbn in *; [lia|].
    apply R. left. reflexivity. }
  unfold good_pixels. rewrite Sh.
  assert (MA : forall n mv i j, nd_mask n = Some mv -> (forall m, nd_mask n = Some (Mask m) -> rectangular nx ny m) ->
     i < nx -> j < ny -> (mask_at mv i j = true <-> masked n i j)).
  { intros n mv i j E R Hi Hj. unfold masked. rewrite E. destruct mv as [|m]; cbn.
    - split; [discriminate|]. intros [m [K _]]. discriminate.
    - split.
      + intro K. exists m. split; [reflexivity|]. rewrite (rect_at2 bool true nx ny m i j (R m E) Hi Hj). congruence.
      + intros [m' [K1 K2]]. injection K1 as <-. rewrite (rect_at2 bool true nx ny m i j (R m E) Hi Hj) in K2. congruence. }
  destruct (nd_mask lats) as [a|] eqn:Ea; destruct (nd_mask lons) as [b|] eqn:Eb.
  - eexists. split; [reflexivity|]. split.
    + split; [rewrite map_length, seq_length; reflexivity|]. intros row Hr. apply in_map_iff in Hr.
      destruct Hr as [i [<- _]]. rewrite map_length, seq_length. reflexivity.
    + intros i j Hi Hj. rewrite nth_map_seq0 by exact Hi. rewrite nth_map_seq0 by exact Hj.
      rewrite negb_true_iff, orb_false_iff. unfold usable.
      assert (A1 := MA lats a i j Ea ltac:(intros m K; apply Mla; congruence) Hi Hj).
      assert (B1 := MA lons b i j Eb ltac:(intros m K; apply Mlo; congruence) Hi Hj).
      rewrite <- A1, <- B1.
      destruct (mask_at a i j), (mask_at b i j); intuition congruence.
  - exfalso. destruct HM as [_ HM]. apply HM; congruence.
  - exfalso. destruct HM as [HM _]. apply HM; congruence.
  - eexists. split; [reflexivity|]. split.
    + split; [apply repeat_length|]. intros row Hr. apply repeat_spec in Hr. subst row. apply repeat_length.
    + intros i j Hi Hj.
      assert (E : nth j (nth i (repeat (repeat true ny) nx) []) false = true).
      { rewrite (nth_indep _ [] (repeat true ny)) by (rewrite repeat_length; exact Hi). rewrite nth_repeat.
        rewrite (nth_indep _ false true) by (rewrite repeat_length; exact Hj). apply nth_repeat. }
      rewrite E. split; [|reflexivity]. intros _. unfold usable, masked. rewrite Ea, Eb.
      repeat split; auto; intros [m [K _]]; discriminate.
Qed.

Lemma lookup_spec : forall nx ny lons lats, 0 < nx -> well_shaped nx ny lons -> well_shaped nx ny lats ->
  (is_masked_array lons <-> is_masked_array lats) ->
  exists sel : list (nat * nat),
    create_pixel_lookup lons lats = Ok
      (map (fun c => (nth (snd c) (nth (fst c) (nd_data lons) []) 0%Q, nth (snd c) (nth (fst c) (nd_data lats) []) 0%Q)) sel,
       map fst sel, map snd sel) /\
    NoDup sel /\ forall i j, In (i, j) sel <-> usable nx ny lons lats i j.
Proof.
  intros nx ny lons lats Hn Wlo Wla HM.
  destruct (good_spec nx ny lons lats Hn Wlo Wla HM) as [good [Eg [Rg Sg]]].
  exists (filter (fun c => nth (snd c) (nth (fst c) good []) false) (cells nx ny)).
  assert (Sh : shape (nd_data lons) = (nx, ny)).
  { destruct Wlo as [[L R] _]. unfold shape. rewrite L. f_equal. destruct (nd_data lons) as [|r a]; cbn in *; [lia|].
    apply R. left. reflexivity. }
  split.
  - unfold create_pixel_lookup. rewrite Sh, Eg. cbn [bind].
    destruct (meshgrid (seq 0 nx) (seq 0 ny)) as [X Y] eqn:Em.
    assert (EX : X = fst (meshgrid (seq 0 nx) (seq 0 ny))) by (rewrite Em; reflexivity).
    assert (EY : Y = snd (meshgrid (seq 0 nx) (seq 0 ny))) by (rewrite Em; reflexivity).
    assert (LX : length X = ny) by (rewrite EX; unfold meshgrid; cbn [fst]; rewrite map_length, seq_length; reflexivity).
    assert (LY : length Y = ny) by (rewrite EY; unfold meshgrid; cbn [snd]; rewrite map_length, seq_length; reflexivity).
    rewrite (select_cells nat 0 nx ny _ _ (transpose_rect nat 0 nx ny X LX) Rg).
    rewrite (select_cells nat 0 nx ny _ _ (transpose_rect nat 0 nx ny Y LY) Rg).
    rewrite (select_cells Q 0%Q nx ny _ _ (proj1 Wlo) Rg), (select_cells Q 0%Q nx ny _ _ (proj1 Wla) Rg).
    f_equal. f_equal; [f_equal|].
    + induction (filter _ (cells nx ny)) as [|c l IH]; [reflexivity|]. cbn [map combine]. f_equal. exact IH.
    + apply map_ext_in. intros [i j] H. apply filter_In in H. destruct H as [H _]. apply cells_in in H.
      cbn [fst snd]. rewrite EX. apply transpose_X; apply H.
    + apply map_ext_in. intros [i j] H. apply filter_In in H. destruct H as [H _]. apply cells_in in H.
      cbn [fst snd]. rewrite EY. apply transpose_Y; apply H.
  - split; [apply NoDup_filter, cells_nodup|].
    intros i j. rewrite filter_In, cells_in. cbn [fst snd]. split.
    + intros [[Hi Hj] H]. apply Sg; assumption.
    + intro U. assert (i < nx /\ j < ny) as [Hi Hj] by (destruct U as [? [? _]]; auto).
      split; [auto|]. apply Sg; auto.
Qed.

(** ** C47 *)

(** Row [k] of the lookup is the location of pixel (X[k], Y[k]), a usable one; every
    usable pixel has exactly one row. *)
Theorem C47_rows_are_pixels : forall nx ny lons lats, 0 < nx ->
  well_shaped nx ny lons -> well_shaped nx ny lats -> (is_masked_array lons <-> is_masked_array lats) ->
  exists geo X Y, create_pixel_lookup lons lats = Ok (geo, X, Y) /\
    length X = length geo /\ length Y = length geo /\
    (forall k i j, nth_error X k = Some i -> nth_error Y k = Some j ->
       usable nx ny lons lats i j /\
       exists lon lat, nth_error geo k = Some (lon, lat) /\
         at2 (nd_data lons) i j = Some lon /\ at2 (nd_data lats) i j = Some lat) /\
    (forall i j, usable nx ny lons lats i j ->
       exists k, nth_error X k = Some i /\ nth_error Y k = Some j /\
         forall k', nth_error X k' = Some i -> nth_error Y k' = Some j -> k' = k).
Proof.
  intros nx ny lons lats Hn Wlo Wla HM.
  destruct (lookup_spec nx ny lons lats Hn Wlo Wla HM) as [sel [E [ND S]]].
  eexists _, _, _. split; [exact E|]. rewrite !map_length. split; [reflexivity|]. split; [reflexivity|].
  assert (At : forall k i j, nth_error (map fst sel) k = Some i -> nth_error (map snd sel) k = Some j ->
    nth_error sel k = Some (i, j)).
  { intros k i j Hi Hj. rewrite nth_error_map in Hi, Hj. destruct (nth_error sel k) as [[a b]|]; cbn in *; congruence. }
  split.
  - intros k i j Hi Hj. pose proof (At k i j Hi Hj) as K.
    assert (U : usable nx ny lons lats i j) by (apply S; eapply nth_error_In; exact K).
    split; [exact U|]. destruct U as [Ui [Uj _]].
    eexists _, _. split; [rewrite nth_error_map, K; reflexivity|]. cbn [fst snd].
    split; apply (rect_at2 Q 0%Q nx ny); auto; [apply Wlo|apply Wla].
  - intros i j U. apply S in U. destruct (In_nth_error _ _ U) as [k K]. exists k.
    split; [rewrite nth_error_map, K; reflexivity|]. split; [rewrite nth_error_map, K; reflexivity|].
    intros k' Hi Hj. pose proof (At k' i j Hi Hj) as K'.
    apply (proj1 (NoDup_nth_error sel) ND); [|congruence].
    apply nth_error_Some. congruence.
Qed.

(** A row at the least distance of an event, by any measure of distance, names a usable
    pixel that no other usable pixel is nearer than. *)
Theorem C47_nearest_pixel : forall nx ny lons lats geo X Y (dist : Q * Q -> Q * Q -> Q) p k lon lat, 0 < nx ->
  well_shaped nx ny lons -> well_shaped nx ny lats -> (is_masked_array lons <-> is_masked_array lats) ->
  create_pixel_lookup lons lats = Ok (geo, X, Y) ->
  nth_error geo k = Some (lon, lat) ->
  (forall q, In q geo -> (dist p (lon, lat) <= dist p q)%Q) ->
  exists i j, nth_error X k = Some i /\ nth_error Y k = Some j /\ usable nx ny lons lats i j /\
    at2 (nd_data lons) i j = Some lon /\ at2 (nd_data lats) i j = Some lat /\
    forall i' j' lon' lat', usable nx ny lons lats i' j' ->
      at2 (nd_data lons) i' j' = Some lon' -> at2 (nd_data lats) i' j' = Some lat' ->
      (dist p (lon, lat) <= dist p (lon', lat'))%Q.
Proof.
  intros nx ny lons lats geo X Y dist p k lon lat Hn Wlo Wla HM E Hk Hmin.
  destruct (C47_rows_are_pixels nx ny lons lats Hn Wlo Wla HM) as [geo' [X' [Y' [E' [LX [LY [F B]]]]]]].
  rewrite E in E'. injection E' as <- <- <-.
  assert (Kl : k < length geo) by (apply nth_error_Some; congruence).
  destruct (nth_error X k) as [i|] eqn:EX; [|apply nth_error_None in EX; lia].
  destruct (nth_error Y k) as [j|] eqn:EY; [|apply nth_error_None in EY; lia].
  exists i, j. split; [reflexivity|]. split; [reflexivity|].
  destruct (F k i j EX EY) as [U [lo [la [G [A1 A2]]]]]. rewrite Hk in G. injection G as <- <-.
  split; [exact U|]. split; [exact A1|]. split; [exact A2|].
  intros i' j' lon' lat' U' B1 B2. apply Hmin.
  destruct (B i' j' U') as [k' [K1 [K2 _]]]. destruct (F k' i' j' K1 K2) as [_ [lo' [la' [G' [C1 C2]]]]].
  assert (lo' = lon' /\ la' = lat') as [-> ->] by (split; congruence).
  eapply nth_error_In. exact G'.
Qed.

(** Passing one masked and one plain array raises AttributeError. *)
Theorem C47_both_masked_needed : forall nx ny lons lats, 0 < nx ->
  well_shaped nx ny lons -> well_shaped nx ny lats ->
  (is_masked_array lons /\ ~ is_masked_array lats) \/ (~ is_masked_array lons /\ is_masked_array lats) ->
  create_pixel_lookup lons lats = Err AttributeError.
Proof.
  intros nx ny lons lats Hn Wlo Wla H. unfold is_masked_array in H. unfold create_pixel_lookup, good_pixels.
  destruct (shape (nd_data lons)), (shape (nd_data lats)).
  destruct (nd_mask lons), (nd_mask lats); cbn [bind]; try reflexivity; exfalso; intuition congruence.
Qed.

Example C47_ex :
  let lons := mkArr [[1; 2; 3]; [4; 5; 6]]%Q (Some (Mask [[false; true; false]; [false; false; false]])) in
  let lats := mkArr [[7; 8; 9]; [10; 11; 12]]%Q (Some NoMask) in
  well_shaped 2 3 lons /\ well_shaped 2 3 lats /\
  create_pixel_lookup lons lats
  = Ok ([(1, 7); (3, 9); (4, 10); (5, 11); (6, 12)]%Q, [0; 0; 1; 1; 1], [0; 2; 0; 1; 2]).
Proof.
  assert (R : forall (A : Type) (a b c d e f : A), rectangular 2 3 [[a; b; c]; [d; e; f]]).
  { intros. split; [reflexivity|]. intros row [<-|[<-|[]]]; reflexivity. }
  cbn zeta. repeat split; cbn; intros; try discriminate.
  - destruct H as [<-|[<-|[]]]; reflexivity.
  - injection H as <-. reflexivity.
  - injection H as <-. destruct H0 as [<-|[<-|[]]]; reflexivity.
  - destruct H as [<-|[<-|[]]]; reflexivity.
Qed.

(** ** C56: polygons of events *)
Section QUADS.
Variable linear : list (Q * Q * fval) -> Q * Q -> fval.
Variable nearest : list (Q * Q * fval) -> Q * Q -> fval.

(** Assumed of scipy's interpolators: linear values lie between the extremes of the
    table (they are means of three nodes), nearest values are values of the table, and
    there is one when the table is not empty. *)
Definition within (lo hi : Q) (v : fval) : Prop := exists q, v = Some q /\ (lo <= q <= hi)%Q.
Hypothesis linear_between : forall table p lo hi q,
  (forall a b v, In (a, b, v) table -> within lo hi v) -> linear table p = Some q -> (lo <= q <= hi)%Q.
Hypothesis nearest_value : forall table p, table <> [] -> exists a b, In (a, b, nearest table p) table.

(** With offsets within [w] in each coordinate, each corner of each event lies within
    [inflate * w] of the event, and exists: no corner is NaN. *)
Theorem C56_corners_around_event : forall table n_corners nadir inflate pixels w,
  table <> [] -> (0 <= inflate)%Q ->
  (forall n c, In n table -> c < n_corners -> exists dx dy, nth_error (n_off n) c = Some (dx, dy) /\
     within (- w) w dx /\ within (- w) w dy) ->
  forall k quad, nth_error (quads_from_corner_lookup linear nearest table n_corners nadir inflate true pixels) k = Some quad ->
  exists px py, nth_error pixels k = Some (px, py) /\ length quad = n_corners /\
    forall c corner, nth_error quad c = Some corner -> exists x y, corner = (Some x, Some y) /\
      (px - inflate * w <= x <= px + inflate * w)%Q /\ (py - inflate * w <= y <= py + inflate * w)%Q.
Proof using linear_between nearest_value.
  intros table nc nadir inflate pixels w NE Hi HW k quad Hq.
  unfold quads_from_corner_lookup in Hq. rewrite nth_error_map in Hq.
  destruct (nth_error pixels k) as [[px py]|]; [|discriminate]. exists px, py. split; [reflexivity|].
  cbn [option_map] in Hq. injection Hq as <-. split; [rewrite map_length, seq_length; reflexivity|].
  intros c corner Hc. rewrite nth_error_map in Hc.
  destruct (nth_error (seq 0 nc) c) as [c'|] eqn:Ec; [|discriminate].
  assert (c < nc) by (rewrite <- (seq_length nc 0); apply nth_error_Some; congruence).
  assert (c' = c).
  { rewrite (nth_error_nth' _ 0) in Ec by (rewrite seq_length; assumption). injection Ec as <-. apply seq_nth. assumption. }
  subst c'. cbn [option_map fst snd] in Hc. injection Hc as <-.
  assert (G : forall (f : fval * fval -> fval),
     (forall dx dy, within (- w) w dx -> within (- w) w dy -> within (- w) w (f (dx, dy))) ->
     exists d, offset_at linear nearest (map (fun n => ((n_lon n + nadir)%Q, n_lat n, f (nth c (n_off n) (None, None)))) table) true (px, py) = Some d
       /\ (- w <= d <= w)%Q).
  { intros f Hf.
    assert (T : forall a b v, In (a, b, v) (map (fun n => ((n_lon n + nadir)%Q, n_lat n, f (nth c (n_off n) (None, None)))) table) -> within (- w) w v).
    { intros a b v Hin. apply in_map_iff in Hin. destruct Hin as [n [E Hin]]. injection E as _ _ <-.
      destruct (HW n c Hin H) as [dx [dy [E [W1 W2]]]]. rewrite (nth_error_nth _ _ _ E). apply Hf; assumption. }
    unfold offset_at. destruct (linear _ (px, py)) as [d|] eqn:El.
    - exists d. split; [reflexivity|]. eapply linear_between; [exact T|exact El].
    - destruct (nearest_value (map (fun n => ((n_lon n + nadir)%Q, n_lat n, f (nth c (n_off n) (None, None)))) table) (px, py)) as [a [b Hin]].
      { destruct table; [congruence|discriminate]. }
      destruct (T _ _ _ Hin) as [d [E Hd]]. exists d. split; [exact E|exact Hd]. }
  destruct (G fst ltac:(intros; cbn; assumption)) as [dx [Ex Bx]].
  destruct (G snd ltac:(intros; cbn; assumption)) as [dy [Ey By]].
  rewrite Ex, Ey. cbn [fplus fmult]. exists (px + dx * inflate)%Q, (py + dy * inflate)%Q. split; [reflexivity|].
  split; split; nra.
Qed.

(** Inflation scales each corner about the event; with inflation zero the corners
    coincide with it. *)
Theorem C56_inflation : forall table n_corners nadir inflate extrapolate pixels k c px py x y,
  nth_error pixels k = Some (px, py) ->
  at2 (quads_from_corner_lookup linear nearest table n_corners nadir 1 extrapolate pixels) k c = Some (Some x, Some y) ->
  exists x' y', at2 (quads_from_corner_lookup linear nearest table n_corners nadir inflate extrapolate pixels) k c
    = Some (Some x', Some y') /\
  (x' - px == inflate * (x - px))%Q /\ (y' - py == inflate * (y - py))%Q.
Proof using.
  intros table nc nadir inflate ex pixels k c px py x y Hp H.
  unfold at2, quads_from_corner_lookup in *. rewrite nth_error_map, Hp in *. cbn [option_map] in *.
  rewrite nth_error_map in *. destruct (nth_error (seq 0 nc) c) as [c'|]; [|discriminate].
  cbn [option_map fst snd] in *.
  match goal with H : Some (fplus _ (fmult ?a _), fplus _ (fmult ?b _)) = _ |- _ =>
    destruct a as [dx|]; [|discriminate]; destruct b as [dy|]; [|discriminate] end.
  cbn [fplus fmult] in *. injection H as Ex Ey.
  eexists _, _. split; [reflexivity|]. rewrite <- Ex, <- Ey. split; ring.
Qed.

(** At a node of the table, if the interpolation is exact there, the corners are the
    tabulated ones. *)
Theorem C56_exact_at_nodes : forall table n_corners nadir extrapolate n c dx dy,
  (forall t a b v, In (a, b, Some v) t -> (forall v', In (a, b, v') t -> v' = Some v) -> linear t (a, b) = Some v) ->
  In n table -> (forall n', In n' table -> n_lon n' == n_lon n -> n_lat n' == n_lat n -> n' = n)%Q ->
  c < n_corners -> nth_error (n_off n) c = Some (Some dx, Some dy) ->
  at2 (quads_from_corner_lookup linear nearest table n_corners nadir 1 extrapolate [(n_lon n + nadir, n_lat n)%Q]) 0 c
  = Some (Some (n_lon n + nadir + dx * 1), Some (n_lat n + dy * 1))%Q.
Proof using.
  intros table nc nadir ex n c dx dy Hl Hin Hu Hc E.
  unfold at2, quads_from_corner_lookup. cbn [map nth_error]. rewrite nth_error_map.
  rewrite (nth_error_nth' (seq 0 nc) 0) by (rewrite seq_length; exact Hc). rewrite seq_nth by exact Hc.
  cbn [option_map Nat.add fst snd].
  assert (G : forall (f : fval * fval -> fval) d, f (Some dx, Some dy) = Some d ->
    offset_at linear nearest (map (fun n0 => ((n_lon n0 + nadir)%Q, n_lat n0, f (nth c (n_off n0) (None, None)))) table) ex
      ((n_lon n + nadir)%Q, n_lat n) = Some d).
  { intros f d Ef. unfold offset_at. rewrite (Hl _ _ _ d); [reflexivity| |].
    - apply in_map_iff. exists n. split; [|exact Hin]. cbv beta. rewrite (nth_error_nth _ _ _ E), Ef. reflexivity.
    - intros v' Hv. apply in_map_iff in Hv. destruct Hv as [n' [Ev Hn']]. 
      assert (E1 : (n_lon n' + nadir)%Q = (n_lon n + nadir)%Q) by congruence.
      assert (E2 : n_lat n' = n_lat n) by congruence.
      assert (E3 : f (nth c (n_off n') (None, None)) = v') by congruence.
      assert (Eq1 : (n_lon n' == n_lon n)%Q).
      { assert (X : (n_lon n' + nadir == n_lon n + nadir)%Q) by (rewrite E1; reflexivity). lra. }
      assert (Eq2 : (n_lat n' == n_lat n)%Q) by (rewrite E2; reflexivity).
      rewrite (Hu n' Hn' Eq1 Eq2) in E3. rewrite (nth_error_nth _ _ _ E), Ef in E3. congruence. }
  rewrite (G fst dx eq_refl), (G snd dy eq_refl). reflexivity.
Qed.
(** Extrapolation matters only where the linear interpolation has no value; without it a
    corner is NaN there. *)
Theorem C56_outside : forall table n_corners nadir inflate pixels k c px py,
  nth_error pixels k = Some (px, py) -> c < n_corners ->
  let grid f := map (fun n => (n_lon n + nadir, n_lat n, f (nth c (n_off n) (None, None)))%Q) table in
  let corner extrapolate := at2 (quads_from_corner_lookup linear nearest table n_corners nadir inflate extrapolate pixels) k c in
  (linear (grid fst) (px, py) = None -> exists y, corner false = Some (None, y)) /\
  (linear (grid snd) (px, py) = None -> exists x, corner false = Some (x, None)) /\
  (linear (grid fst) (px, py) <> None -> linear (grid snd) (px, py) <> None ->
     corner false = corner true /\ exists x y, corner false = Some (Some x, Some y)).
Proof using.
  intros table nc nadir inflate pixels k c px py Hp Hc grid corner.
  assert (C : forall ex, corner ex = Some (fplus (Some px) (fmult (offset_at linear nearest (grid fst) ex (px, py)) (Some inflate)),
                                           fplus (Some py) (fmult (offset_at linear nearest (grid snd) ex (px, py)) (Some inflate)))).
  { intros ex. unfold corner, at2, quads_from_corner_lookup. rewrite nth_error_map, Hp. cbn [option_map]. rewrite nth_error_map.
    rewrite (nth_error_nth' (seq 0 nc) 0) by (rewrite seq_length; exact Hc). rewrite seq_nth by exact Hc. reflexivity. }
  rewrite !C. unfold offset_at. split; [|split].
  - intros ->. eexists. reflexivity.
  - intros ->. eexists. reflexivity.
  - intros A B. destruct (linear (grid fst) (px, py)); [|congruence]. destruct (linear (grid snd) (px, py)); [|congruence].
    split; [reflexivity|]. do 2 eexists. reflexivity.
Qed.
End QUADS.

(** The table read from a file: node (i, j) has the grid location of (i, j), and corner
    [c] the offsets of the c-th pair of arrays. *)
Theorem C56_table_from_file : forall nx ny lons lats xc yc i j c,
  rectangular nx ny lons -> rectangular nx ny lats -> length xc = 4 -> length yc = 4 ->
  (forall a, In a (xc ++ yc) -> rectangular nx ny a) -> i < nx -> j < ny -> c < 4 ->
  exists n ax ay, at2 (read_official_corner_lut lons lats xc yc) i j = Some n /\
    nth_error xc c = Some ax /\ nth_error yc c = Some ay /\
    at2 lons i j = Some (n_lon n) /\ at2 lats i j = Some (n_lat n) /\ length (n_off n) = 4 /\
    exists dx dy, nth_error (n_off n) c = Some (dx, dy) /\ at2 ax i j = Some dx /\ at2 ay i j = Some dy.
Proof.
  intros nx ny lons lats xc yc i j c Rlo Rla Lx Ly Rc Hi Hj Hc.
  assert (Hrow : length (nth i lats []) = ny).
  { destruct Rla as [L R]. apply R, nth_In. lia. }
  set (ax := nth c xc []). set (ay := nth c yc []).
  assert (Iax : nth_error xc c = Some ax) by (apply nth_error_nth'; lia).
  assert (Iay : nth_error yc c = Some ay) by (apply nth_error_nth'; lia).
  eexists _, ax, ay. split.
  - unfold at2, read_official_corner_lut. rewrite nth_error_map.
    rewrite (nth_error_nth' (seq 0 (length lats)) 0) by (rewrite seq_length; destruct Rla; lia).
    rewrite seq_nth by (destruct Rla; lia). cbn [option_map Nat.add]. rewrite nth_error_map, Hrow.
    rewrite (nth_error_nth' (seq 0 ny) 0) by (rewrite seq_length; exact Hj). rewrite seq_nth by exact Hj.
    cbn [option_map Nat.add]. reflexivity.
  - split; [exact Iax|]. split; [exact Iay|]. cbn [n_lon n_lat n_off].
    split; [apply (rect_at2 Q 0%Q nx ny); auto|]. split; [apply (rect_at2 Q 0%Q nx ny); auto|].
    split; [reflexivity|].
    eexists _, _. split.
    + rewrite nth_error_map, (nth_error_nth' (seq 0 4) 0) by (cbn; lia). rewrite seq_nth by lia.
      cbn [option_map Nat.add]. reflexivity.
    + fold ax ay. split; apply (rect_at2 fval None nx ny); auto; apply Rc, in_or_app;
        [left|right]; eapply nth_error_In; eassumption.
Qed.

(** The hypotheses on the interpolators and the table are met: a constant table. *)
Example C56_ex :
  let lin := fun (t : list (Q * Q * fval)) (_ : Q * Q) => match t with [] => None | e :: _ => snd e end in
  let table := [mkNode 0 0 [(Some (-1), Some 1); (Some (-1), Some (-1))]%Q;
                mkNode 5 0 [(Some (-1), Some 1); (Some (-1), Some (-1))]%Q] in
  (forall t p lo hi q, (forall a b v, In (a, b, v) t -> within lo hi v) -> lin t p = Some q -> (lo <= q <= hi)%Q) /\
  (forall t p, t <> [] -> exists a b, In (a, b, lin t p) t) /\
  quads_from_corner_lookup lin lin table 2 10 2 true [(10, 20)]%Q
  = [[(Some (10 + -1 * 2), Some (20 + 1 * 2)); (Some (10 + -1 * 2), Some (20 + -1 * 2))]]%Q.
Proof.
  cbn zeta. repeat split.
  - destruct t as [|[[a b] v] t]; [discriminate|]. cbn in H0. subst v.
    destruct (H a b (Some q) (or_introl eq_refl)) as [q' [E B]]. injection E as <-. apply B.
  - destruct t as [|[[a b] v] t]; [discriminate|]. cbn in H0. subst v.
    destruct (H a b (Some q) (or_introl eq_refl)) as [q' [E B]]. injection E as <-. apply B.
  - intros t p NE. destruct t as [|[[a b] v] t]; [congruence|]. exists a, b. left. reflexivity.
Qed.

Print Assumptions C47_rows_are_pixels.
Print Assumptions C47_nearest_pixel.
Print Assumptions C47_both_masked_needed.
Print Assumptions C56_corners_around_event.
Print Assumptions C56_inflation.
Print Assumptions C56_exact_at_nodes.
Print Assumptions C56_outside.
Print Assumptions C56_table_from_file.
