(** C104: coordinates of the pixels in binary arithmetic. *)
From Coq Require Import List ZArith Lia Bool QArith Qabs Qround Lqa Floats.SpecFloat.
From Verif Require Import Base Glm BBox Imagery Output ImageryProofs OutputProofs FloatProofs Unsigned TilesBinary FloatExact PropTilesBinary PixelsBinary PixelsBinaryProofs.
Import ListNotations.
Open Scope Z_scope.

(** * Specification *)
(** A grid of the gridding script (C94) with cells of at least 2^-17 radian (270 m at nadir). *)
Definition fine_grid (n : Z) (d ctr : f64) : Prop := sane_grid n d ctr /\ ((1 # 131072) <= vq d)%Q.
(** The place that is [k] cells (or fractions of cells) from the lower end of a grid of [n]
    cells of size [d] about [ctr], exactly. *)
Definition at_cells (n : Z) (d ctr : f64) (k : Q) : Q := (vq ctr + (k - inject_Z n * (1 # 2)) * vq d)%Q.
Definition about (x : f64) (v d : Q) : Prop := is_finite x /\ (Qabs (vq x - v) <= (1 # 1000) * d)%Q.
Definition cell (k : nat) : Q := inject_Z (Z.of_nat k).
(** The PUG's step of the coordinates, 56 microradians. *)
Definition step : Q := 56 # 1000000.

(** * Proofs *)
Lemma bounds_fine : forall n d ctr, fine_grid n d ctr -> 1 <= n ->
  is_finite (fst (bounds n d ctr)) /\ is_finite (snd (bounds n d ctr)) /\
  near (fst (bounds n d ctr)) (at_cells n d ctr 0) ((1 # 10000000) * vq d) /\
  near (snd (bounds n d ctr)) (at_cells n d ctr (inject_Z n)) ((1 # 10000000) * vq d).
Proof.
  intros n d ctr (H & _) N. pose proof (bound_near n 0 d ctr H ltac:(lia) ltac:(lia)) as X. pose proof (bound_near n n d ctr H ltac:(lia) ltac:(lia)) as Y.
  unfold bounds. cbn [fst snd]. split; [apply X|]. split; [apply Y|]. unfold at_cells. split.
  - eapply near_le; [exact X|change (inject_Z 0) with 0%Q; field|lra].
  - eapply near_le; [exact Y|field|lra].
Qed.
Lemma width : forall n d ctr, fine_grid n d ctr -> 1 <= n ->
  ((1 # 131072) <= vq d <= 1)%Q /\ (vq d <= inject_Z n * vq d <= 2)%Q /\ (-(3 # 2) <= at_cells n d ctr 0 <= 1 # 2)%Q /\
  (at_cells n d ctr (inject_Z n) == at_cells n d ctr 0 + inject_Z n * vq d)%Q /\ (-(1 # 2) <= at_cells n d ctr (inject_Z n) <= 3 # 2)%Q.
Proof.
  intros n d ctr ((FD & FC & DB & CB & NB) & L) N.
  assert (N1 : (1 <= inject_Z n)%Q) by (change 1%Q with (inject_Z 1); rewrite <- Zle_Qle; lia).
  assert (ND : (vq d <= inject_Z n * vq d)%Q) by nra. unfold at_cells.
  assert (E0 : ((0 - inject_Z n * (1 # 2)) * vq d == - ((1 # 2) * (inject_Z n * vq d)))%Q) by ring.
  assert (E1 : ((inject_Z n - inject_Z n * (1 # 2)) * vq d == (1 # 2) * (inject_Z n * vq d))%Q) by ring. rewrite E0, E1.
  repeat split; lra.
Qed.

(** * Theorems *)
(** Edges: as many as cells and one, or one more; each at its place to a thousandth of a cell. *)
Theorem C104_edges : forall n d ctr, fine_grid n d ctr -> 1 <= n ->
  exists e, cell_edges (bounds n d ctr) d = Some e /\ (Z.of_nat (List.length e) = n + 1 \/ Z.of_nat (List.length e) = n + 2) /\
  forall k x, nth_error e k = Some x -> about x (at_cells n d ctr (cell k)) (vq d).
Proof.
  intros n d ctr H N. destruct (bounds_fine n d ctr H N) as (F0 & F1 & N0 & N1). destruct (width n d ctr H N) as (DB & ND & A0 & AE & A1).
  assert (FD : is_finite d) by apply H. destruct (bounds n d ctr) as [b0 b1]. cbn [fst snd] in *. destruct N0 as (_ & N0). destruct N1 as (_ & N1).
  destruct (edges_spec b0 d F0 FD DB ltac:(lra) b1 n F1 ltac:(lra) ltac:(lia) ltac:(lra) ltac:(lra)) as (e & E & L & K).
  exists e. split; [exact E|]. split; [exact L|]. intros k x X. destruct (K k x X) as (FX & NX). split; [exact FX|].
  apply Qabs_Qle_condition. unfold cell. set (q := inject_Z (Z.of_nat k)) in *.
  assert (AK : (at_cells n d ctr q == at_cells n d ctr 0 + q * vq d)%Q) by (unfold at_cells; ring). rewrite AK. lra.
Qed.

(** Centres: each at its place to a thousandth of a cell. *)
Lemma of_edges : forall e n d ctr o, fine_grid n d ctr -> 1 <= n ->
  (forall k x, nth_error e k = Some x -> near x (at_cells n d ctr (cell k - o)) ((990 # 1000000) * vq d) /\ (-3 <= at_cells n d ctr (cell k - o) <= 3)%Q) ->
  forall k x, nth_error (centres e) k = Some x -> about x (at_cells n d ctr (cell k - o + (1 # 2))) (vq d).
Proof.
  intros e n d ctr o H N HE k x X. destruct (centres_nth e k x X) as (a & b & A & B & ->).
  destruct (HE k a A) as (NA & BA). destruct (HE (S k) b B) as (NB & BB). destruct (width n d ctr H N) as (DB & ND & _).
  pose proof (centre_near a b _ _ _ NA NB BA BB ltac:(lra)) as (F & M). split; [exact F|].
  assert (EP : (2 * eps <= (1 # 1000000) * vq d)%Q) by (rewrite eps_eq; lra).
  assert (CK : (cell (S k) == cell k + 1)%Q) by (unfold cell; replace (Z.of_nat (S k)) with (Z.of_nat k + 1) by lia; rewrite inject_Z_plus; reflexivity).
  assert (AE : ((at_cells n d ctr (cell k - o) + at_cells n d ctr (cell (S k) - o)) * (1 # 2) == at_cells n d ctr (cell k - o + (1 # 2)))%Q)
    by (unfold at_cells; rewrite CK; ring).
  rewrite AE in M. apply Qabs_Qle_condition. lra.
Qed.
Theorem C104_centres : forall n d ctr, fine_grid n d ctr -> 1 <= n ->
  exists e, cell_edges (bounds n d ctr) d = Some e /\ (Z.of_nat (List.length (centres e)) = n \/ Z.of_nat (List.length (centres e)) = n + 1) /\
  forall k x, nth_error (centres e) k = Some x -> about x (at_cells n d ctr (cell k + (1 # 2))) (vq d).
Proof.
  intros n d ctr H N. destruct (bounds_fine n d ctr H N) as (F0 & F1 & N0 & N1). destruct (width n d ctr H N) as (DB & ND & A0 & AE & A1).
  assert (FD : is_finite d) by apply H. destruct (bounds n d ctr) as [b0 b1]. cbn [fst snd] in *. destruct N0 as (_ & N0). destruct N1 as (_ & N1).
  destruct (edges_spec b0 d F0 FD DB ltac:(lra) b1 n F1 ltac:(lra) ltac:(lia) ltac:(lra) ltac:(lra)) as (e & E & L & K).
  exists e. split; [exact E|]. rewrite centres_length. split; [lia|]. intros k x X.
  assert (Z : about x (at_cells n d ctr (cell k - 0 + (1 # 2))) (vq d)).
  { apply (of_edges e n d ctr 0 H N); [|exact X]. clear k x X. intros k x X. pose proof (K k x X) as (FX & NX).
    assert (AK : (at_cells n d ctr (cell k - 0) == at_cells n d ctr 0 + cell k * vq d)%Q) by (unfold at_cells; ring).
    fold (cell k) in NX. split; [split; [exact FX|rewrite AK; lra]|]. rewrite AK.
    assert (KL : Z.of_nat k <= n + 1) by (assert (k < List.length e)%nat by (apply nth_error_Some; congruence); lia).
    assert (K0 : 0 <= Z.of_nat k) by lia. rewrite Zle_Qle in KL, K0. rewrite inject_Z_plus in KL. fold (cell k) in KL, K0.
    change (inject_Z 1) with 1%Q in KL. change (inject_Z 0) with 0%Q in K0. assert (X1 : (cell k * vq d <= (inject_Z n + 1) * vq d)%Q) by (apply Qmult_le_compat_r; lra).
    assert (X2 : (0 * vq d <= cell k * vq d)%Q) by (apply Qmult_le_compat_r; lra). lra. }
  destruct Z as (F & Z). split; [exact F|]. assert (AK : (at_cells n d ctr (cell k - 0 + (1 # 2)) == at_cells n d ctr (cell k + (1 # 2)))%Q) by (unfold at_cells; ring).
  rewrite AK in Z. exact Z.
Qed.

(** A location that is more than a thousandth of a cell from every edge is in its cell. *)
Lemma increasing : forall l v k, (forall i j a b, (i < j)%nat -> nth_error l i = Some a -> nth_error l j = Some b -> (a < b)%Q) ->
  (k < List.length l)%nat -> (forall i a, (i <= k)%nat -> nth_error l i = Some a -> (a < v)%Q) ->
  (forall i a, (k < i)%nat -> nth_error l i = Some a -> (v <= a)%Q) -> digitize l v = Ok (Z.of_nat k + 1).
Proof.
  intros l v k M K L U. unfold digitize.
  assert (MO : monotone qle l = true).
  { clear k K L U. induction l as [|a [|b t] IH]; [reflexivity|reflexivity|]. cbn [monotone] in *. rewrite IH.
    - rewrite andb_true_r. unfold qle. apply Qle_bool_iff. apply Qlt_le_weak. apply (M 0%nat 1%nat); [lia|reflexivity|reflexivity].
    - intros i j x y IJ X Y. apply (M (S i) (S j)); [lia|exact X|exact Y]. }
  rewrite MO. f_equal. unfold count. f_equal. revert k K L U. clear MO. induction l as [|a t IH]; intros k K L U; [cbn in K; lia|].
  cbn [filter]. assert (LA : Qlt_bool a v = true) by (unfold Qlt_bool; rewrite negb_true_iff; destruct (Qle_bool v a) eqn:E; [|reflexivity];
    apply Qle_bool_iff in E; specialize (L 0%nat a ltac:(lia) eq_refl); lra).
  rewrite LA. cbn [List.length]. destruct k as [|k].
  - assert (T : filter (fun b => Qlt_bool b v) t = []).
    { assert (TU : forall b, In b t -> (v <= b)%Q). { intros b B. apply In_nth_error in B. destruct B as (i & I). apply (U (S i) b); [lia|exact I]. }
      clear - TU. induction t as [|b t IH]; [reflexivity|]. cbn [filter]. assert (E : Qlt_bool b v = false) by (unfold Qlt_bool; rewrite negb_false_iff; apply Qle_bool_iff; apply TU; left; reflexivity).
      rewrite E. apply IH. intros x X. apply TU. right. exact X. }
    rewrite T. reflexivity.
  - cbn [List.length] in K. specialize (IH ltac:(intros i j x y IJ X Y; apply (M (S i) (S j)); [lia|exact X|exact Y]) k ltac:(lia)).
    rewrite Nat2Z.inj_succ, IH; [lia| |].
    + intros i b I B. apply (L (S i) b); [lia|exact B].
    + intros i b I B. apply (U (S i) b); [lia|exact B].
Qed.
Theorem C104_cell : forall n d ctr e v k, fine_grid n d ctr -> 1 <= n -> cell_edges (bounds n d ctr) d = Some e -> is_finite v ->
  0 <= k < n -> (at_cells n d ctr (inject_Z k + (1 # 1000)) < vq v <= at_cells n d ctr (inject_Z (k + 1) - (1 # 1000)))%Q ->
  cell_of e v = Ok k.
Proof.
  intros n d ctr e v k H N E FV K V. destruct (C104_edges n d ctr H N) as (e' & E' & L & P). rewrite E in E'. injection E' as <-.
  destruct (width n d ctr H N) as (DB & ND & A0 & AE & A1).
  assert (PV : forall i a, nth_error (map vq e) i = Some a -> (- ((1 # 1000) * vq d) <= a - at_cells n d ctr (cell i) <= (1 # 1000) * vq d)%Q).
  { intros i a A. rewrite nth_error_map in A. destruct (nth_error e i) as [x|] eqn:X; [|discriminate]. injection A as <-.
    destruct (P i x X) as (_ & Q). apply Qabs_Qle_condition in Q. exact Q. }
  assert (MONO : forall i j : Z, i <= j -> (at_cells n d ctr (inject_Z i) <= at_cells n d ctr (inject_Z j))%Q).
  { intros i j IJ. rewrite Zle_Qle in IJ. unfold at_cells. nra. }
  assert (STEP : forall (i : Z) q, (at_cells n d ctr (inject_Z i + q) == at_cells n d ctr (inject_Z i) + q * vq d)%Q) by (intros; unfold at_cells; ring).
  assert (ONE : forall i : Z, (at_cells n d ctr (inject_Z (i + 1)) == at_cells n d ctr (inject_Z i) + vq d)%Q).
  { intros i. unfold at_cells. rewrite inject_Z_plus. change (inject_Z 1) with 1%Q. ring. }
  unfold cell_of. rewrite (increasing (map vq e) (vq v) (Z.to_nat k)).
  - f_equal. lia.
  - intros i j a b IJ A B. pose proof (PV i a A) as PA. pose proof (PV j b B) as PB. unfold cell in *.
    pose proof (MONO (Z.of_nat i + 1) (Z.of_nat j) ltac:(lia)) as M. rewrite ONE in M. lra.
  - rewrite map_length. lia.
  - intros i a I A. pose proof (PV i a A) as PA. unfold cell in *. pose proof (MONO (Z.of_nat i) k ltac:(lia)) as M. rewrite STEP in V. lra.
  - intros i a I A. pose proof (PV i a A) as PA. unfold cell in *. pose proof (MONO (k + 1) (Z.of_nat i) ltac:(lia)) as M.
    unfold Qminus in V. rewrite (STEP (k + 1)) in V. lra.
Qed.

(** * Tiles *)
Lemma nth_firstn : forall A (l : list A) n k, (k < n)%nat -> nth_error (firstn n l) k = nth_error l k.
Proof. induction l as [|a l IH]; intros n k H; destruct n, k; try lia; cbn; auto. apply IH. lia. Qed.
Lemma nth_skipn : forall A n (l : list A) k, nth_error (skipn n l) k = nth_error l (n + k).
Proof. induction n; intros l k; [reflexivity|]. destruct l; cbn; [destruct k; reflexivity|apply IHn]. Qed.
Lemma trim_nth : forall A np (l : list A) k x, nth_error (trim np l) k = Some x -> nth_error l (Z.to_nat np + k) = Some x.
Proof.
  intros A np l k x H. unfold trim in H.
  assert (K : (k < List.length l - 2 * Z.to_nat np)%nat).
  { assert (X : (k < List.length (firstn (List.length l - 2 * Z.to_nat np) (skipn (Z.to_nat np) l)))%nat) by (apply nth_error_Some; congruence).
    rewrite firstn_length in X. lia. }
  rewrite nth_firstn in H by exact K. rewrite nth_skipn in H. exact H.
Qed.

(** The coordinates in the file of a tile, after the removal of the padding: those of the
    columns of the whole grid that belong to the tile, to a thousandth of a cell. *)
Theorem C104_tiles : forall n d ctr s, fine_grid n d ctr -> 1 <= Z.of_nat s < n ->
  exists dn, (dn = n / Z.of_nat s \/ dn = (n - 1) / Z.of_nat s) /\
  forall i, (i < s)%nat -> exists c, tile_centres (bounds n d ctr) d s i = Some c /\
    (Z.of_nat (List.length c) = share n dn s i \/ Z.of_nat (List.length c) = share n dn s i + 1) /\
    forall j x, nth_error c j = Some x -> about x (at_cells n d ctr (inject_Z (Z.of_nat i * dn + Z.of_nat j) + (1 # 2))) (vq d).
Proof.
  intros n d ctr s H HS. assert (N : 1 <= n) by lia. destruct (width n d ctr H N) as (DB & ND & A0 & AE & A1).
  assert (FD : is_finite d) by apply H. pose proof H as (SG & _).
  destruct (C94_tiles_partial n d ctr s SG HS) as (edges & dn & SU & LE & DN & EK & _).
  destruct (C94_padding d FD ltac:(lra)) as (np & EP & P0 & PU & _).
  exists dn. split; [exact DN|]. intros i I. unfold tile_centres. rewrite SU, EP. unfold tile_bounds.
  assert (HD : 0 <= dn /\ Z.of_nat s * dn <= n).
  { pose proof (Z.mul_div_le n (Z.of_nat s) ltac:(lia)). pose proof (Z.mul_div_le (n - 1) (Z.of_nat s) ltac:(lia)).
    pose proof (Z.div_pos n (Z.of_nat s) ltac:(lia) ltac:(lia)). pose proof (Z.div_pos (n - 1) (Z.of_nat s) ltac:(lia) ltac:(lia)).
    destruct DN as [-> | ->]; lia. }
  set (D := vq d) in *.
  assert (PQ : (0 <= inject_Z np)%Q) by (change 0%Q with (inject_Z 0); rewrite <- Zle_Qle; exact P0).
  assert (PD : (0 <= inject_Z np * D <= 3 # 1000)%Q) by (split; [nra|lra]).
  assert (NPL : (inject_Z np <= 400)%Q).
  { assert (inject_Z np * (1 # 131072) <= inject_Z np * D)%Q by nra. lra. }
  assert (NPZ : np <= 400) by (rewrite Zle_Qle; exact NPL).
  destruct (of_int_exact np ltac:(lia)) as (FI & VI). fold (of_int np) in FI, VI.
  assert (PN : near (fmul (of_int np) d) (inject_Z np * D) (0 + eps)).
  { apply near_mul; [exact FI|exact FD| |]; fold D; rewrite VI; lra. }
  set (pad := fmul (of_int np) d) in *.
  assert (EC : (0 <= eps <= (1 # 1073741824) * D)%Q) by (rewrite eps_eq; lra).
  assert (EDGE : forall k, (k <= s)%nat -> let c := if Nat.eqb k s then n else Z.of_nat k * dn in
    near (nth k edges S754_nan) (at_cells n d ctr (inject_Z c)) ((2 # 1000000) * D) /\ 0 <= c <= n).
  { intros k K c. destruct (EK k K) as (FE & NE). fold c in NE. apply Qabs_Qle_condition in NE.
    assert (X : (at_cells n d ctr (inject_Z c) == vq ctr + (inject_Z c - inject_Z n / 2) * D)%Q) by (unfold at_cells; fold D; field).
    split; [split; [exact FE|rewrite X; lra]|]. unfold c. destruct (Nat.eqb_spec k s); nia. }
  destruct (EDGE i ltac:(lia)) as (NL & CL). destruct (EDGE (S i) ltac:(lia)) as (NH & CH).
  assert (EI : Nat.eqb i s = false) by (apply Nat.eqb_neq; lia). rewrite EI in NL, CL.
  set (lo := Z.of_nat i * dn) in *. set (hi := if Nat.eqb (S i) s then n else Z.of_nat (S i) * dn) in *.
  assert (SH : hi - lo = share n dn s i).
  { unfold share, hi, lo. destruct (Nat.eqb_spec (S i) s) as [E|E].
    - rewrite (proj2 (Nat.ltb_ge (S i) s)) by lia. assert (Z.of_nat i = Z.of_nat s - 1) by lia. nia.
    - rewrite (proj2 (Nat.ltb_lt (S i) s)) by lia. lia. }
  assert (SH0 : 0 <= hi - lo).
  { unfold hi, lo. destruct (Nat.eqb_spec (S i) s); nia. }
  assert (AT : forall c : Z, (at_cells n d ctr (inject_Z c) == at_cells n d ctr 0 + inject_Z c * D)%Q) by (intros; unfold at_cells; fold D; ring).
  assert (CQ : forall c, 0 <= c <= n -> (0 <= inject_Z c * D <= 2)%Q).
  { intros c (C0 & C1). rewrite Zle_Qle in C0, C1. change (inject_Z 0) with 0%Q in C0. split; [nra|].
    assert (inject_Z c * D <= inject_Z n * D)%Q by (apply Qmult_le_compat_r; lra). lra. }
  pose proof (CQ lo CL) as QL. pose proof (CQ hi CH) as QH. apply (near_le _ _ _ _ _) with (2 := AT lo) (3 := Qle_refl _) in NL. apply (near_le _ _ _ _ _) with (2 := AT hi) (3 := Qle_refl _) in NH. assert (NL' := proj2 NL). assert (NH' := proj2 NH).
  assert (QLN : (inject_Z lo * D <= inject_Z n * D)%Q) by (apply Qmult_le_compat_r; [rewrite <- Zle_Qle; lia|lra]).
  assert (QHN : (inject_Z hi * D <= inject_Z n * D)%Q) by (apply Qmult_le_compat_r; [rewrite <- Zle_Qle; lia|lra]).
  pose proof (near_sub _ pad _ _ _ _ NL PN ltac:(destruct PN; lra)) as BL. pose proof (near_add _ pad _ _ _ _ NH PN ltac:(destruct PN; lra)) as BH.
  set (b0 := fsub (nth i edges S754_nan) pad) in *. set (b1 := fadd (nth (S i) edges S754_nan) pad) in *.
  destruct BL as (F0 & BL). destruct BH as (F1 & BH).
  set (m := hi - lo + 2 * np).
  assert (MD : (inject_Z m * D == inject_Z hi * D - inject_Z lo * D + 2 * (inject_Z np * D))%Q).
  { unfold m, Z.sub. rewrite !inject_Z_plus, inject_Z_opp, inject_Z_mult. change (inject_Z 2) with 2%Q. ring. }
  destruct (edges_spec b0 d F0 FD DB ltac:(lra) b1 m F1 ltac:(lra) ltac:(lia)) as (e & E & L & K).
  { fold D. setoid_replace ((inject_Z m + 1) * D)%Q with (inject_Z m * D + D)%Q by ring. rewrite MD. lra. }
  { fold D. rewrite MD. lra. }
  rewrite E. eexists. split; [reflexivity|]. split.
  - unfold trim. rewrite firstn_length, skipn_length, centres_length. fold m in L. lia.
  - intros j x X. apply trim_nth in X.
    assert (Z : about x (at_cells n d ctr (cell (Z.to_nat np + j) - (inject_Z np - inject_Z lo) + (1 # 2))) D).
    { apply (of_edges e n d ctr _ H N); [|exact X]. clear j x X. intros k x X. pose proof (K k x X) as (FX & NX). fold D in NX. fold (cell k) in NX.
      assert (AK : (at_cells n d ctr (cell k - (inject_Z np - inject_Z lo)) == at_cells n d ctr 0 + inject_Z lo * D - inject_Z np * D + cell k * D)%Q) by (unfold at_cells; fold D; ring).
      fold D. split; [split; [exact FX|rewrite AK; lra]|]. rewrite AK.
      assert (KL : Z.of_nat k <= m + 1) by (assert (k < List.length e)%nat by (apply nth_error_Some; congruence); lia).
      assert (K0 : 0 <= Z.of_nat k) by lia. rewrite Zle_Qle in KL, K0. rewrite inject_Z_plus in KL. fold (cell k) in KL, K0.
      change (inject_Z 1) with 1%Q in KL. change (inject_Z 0) with 0%Q in K0.
      assert (X1 : (cell k * D <= (inject_Z m + 1) * D)%Q) by (apply Qmult_le_compat_r; lra).
      assert (X2 : (0 * D <= cell k * D)%Q) by (apply Qmult_le_compat_r; lra).
      setoid_replace ((inject_Z m + 1) * D)%Q with (inject_Z m * D + D)%Q in X1 by ring. rewrite MD in X1. lra. }
    destruct Z as (FX & Z). split; [exact FX|].
    assert (AK : (at_cells n d ctr (cell (Z.to_nat np + j) - (inject_Z np - inject_Z lo) + (1 # 2)) == at_cells n d ctr (inject_Z (lo + Z.of_nat j) + (1 # 2)))%Q).
    { unfold at_cells, cell. rewrite Nat2Z.inj_add, Z2Nat.id by lia. rewrite !inject_Z_plus. ring. }
    rewrite AK in Z. exact Z.
Qed.

(** * Codes *)
Lemma quotient_near : forall v sc off S O q, is_finite v -> is_finite sc -> is_finite off ->
  (S == step \/ S == - step)%Q -> (- (1 # 100000000000000000000) <= vq sc - S <= 1 # 100000000000000000000)%Q ->
  (- (1 # 10000000000000000) <= vq off - O <= 1 # 10000000000000000)%Q -> (-1 <= O <= 1)%Q -> (-2 <= vq v <= 2)%Q ->
  (vq v == O + q * S)%Q -> (- (1 # 1000) <= vq (fdiv (fsub v off) sc) - q <= 1 # 1000)%Q.
Proof.
  intros v sc off S O q FV FS FO HS SC OF OB VB E. pose proof eps_small as EE.
  pose proof (near_sub v off _ _ _ _ (near_exact v _ FV (Qeq_refl _)) (near_exact off _ FO (Qeq_refl _)) ltac:(lra)) as (FX & NX).
  set (x := fsub v off) in *. assert (ES : (eps <= 1 # 100000000000000)%Q) by (rewrite eps_eq; lra).
  assert (QB : (-60000 <= q <= 60000)%Q) by (unfold step in HS; destruct HS as [X|X]; rewrite X in E; lra).
  assert (NZ : ~ (vq sc == 0)%Q) by (unfold step in HS; destruct HS as [X|X]; rewrite X in SC; lra).
  set (t := (vq sc - S)%Q) in *.
  assert (R : (- (1 # 2000) <= vq x / vq sc - q <= 1 # 2000)%Q).
  { assert (U : (- (2 # 100000000) <= vq x - q * vq sc <= 2 # 100000000)%Q).
    { assert (T : (vq sc == S + t)%Q) by (unfold t; ring). rewrite T.
      assert (QT : (- (1 # 1000000000) <= q * t <= 1 # 1000000000)%Q) by (split; nra).
      setoid_replace (q * (S + t))%Q with (q * S + q * t)%Q by ring. lra. }
    setoid_replace (vq x / vq sc - q)%Q with ((vq x - q * vq sc) / vq sc)%Q by (field; exact NZ).
    unfold step in HS. assert (T : (vq sc == S + t)%Q) by (unfold t; ring). set (u := (vq x - q * vq sc)%Q) in *. set (c := vq sc) in *.
    destruct HS as [X|X]; rewrite X in T.
    - split; [apply Qle_shift_div_l|apply Qle_shift_div_r]; lra.
    - setoid_replace (u / c)%Q with ((- u) / (- c))%Q by (field; exact NZ).
      split; [apply Qle_shift_div_l|apply Qle_shift_div_r]; lra. }
  assert (A : (Qabs (vq x / vq sc) <= 60001)%Q) by (apply Qabs_Qle_condition; lra).
  destruct (div_any x sc FX FS NZ) as (_ & B).
  { assert (p2 25 <= p2 800)%Q by (apply p2_le; lia). assert (p2 25 == 33554432)%Q as E25 by reflexivity. rewrite E25 in *. lra. }
  apply Qabs_Qle_condition in B. unfold fdiv.
  assert (G : (p2 (-51) * Qabs (vq x / vq sc) + p2 (-1073) <= 1 # 2000)%Q).
  { assert (p2 (-1073) <= p2 (-51))%Q by (apply p2_le; lia). assert (p2 (-51) == 1 # 2251799813685248)%Q as E51 by reflexivity. rewrite E51 in *.
    pose proof (Qabs_nonneg (vq x / vq sc)). lra. }
  lra.
Qed.
Lemma off_x : (- (1 # 10000000000000000) <= vq (f151844 true) - (-151844 # 1000000) <= 1 # 10000000000000000)%Q.
Proof. split; vm_compute; discriminate. Qed.
Lemma off_y : (- (1 # 10000000000000000) <= vq (f151844 false) - (151844 # 1000000) <= 1 # 10000000000000000)%Q.
Proof. split; vm_compute; discriminate. Qed.
Lemma scale_x : (- (1 # 100000000000000000000) <= vq f56e6 - step <= 1 # 100000000000000000000)%Q.
Proof. split; vm_compute; discriminate. Qed.
Lemma scale_y : (- (1 # 100000000000000000000) <= vq (S754_finite true 8264141345021879 (-67)) - - step <= 1 # 100000000000000000000)%Q.
Proof. split; vm_compute; discriminate. Qed.
Lemma x_quotient : forall v, is_finite v -> (-2 <= vq v <= 2)%Q ->
  (- (1 # 1000) <= vq (fdiv (fsub v (f151844 true)) f56e6) - (vq v + (151844 # 1000000)) / step <= 1 # 1000)%Q.
Proof.
  intros v F B. apply (quotient_near v f56e6 (f151844 true) step (-151844 # 1000000) _ F I I (or_introl (Qeq_refl _)) scale_x off_x ltac:(lra) B).
  unfold step. field.
Qed.
Lemma y_quotient : forall v, is_finite v -> (-2 <= vq v <= 2)%Q ->
  (- (1 # 1000) <= vq (fdiv (fsub v (f151844 false)) (S754_finite true 8264141345021879 (-67))) - ((151844 # 1000000) - vq v) / step <= 1 # 1000)%Q.
Proof.
  intros v F B. apply (quotient_near v (S754_finite true 8264141345021879 (-67)) (f151844 false) (- step) (151844 # 1000000) _ F I I (or_intror (Qeq_refl _)) scale_y off_y ltac:(lra) B).
  unfold step. field.
Qed.
Lemma round_to : forall q z, (- (49 # 100) <= q - inject_Z z <= 49 # 100)%Q -> -32768 <= z <= 32767 -> int16 (round_even q) = z.
Proof.
  intros q z Q R. pose proof (round_in q z z ltac:(lra) ltac:(lra)) as RI. replace (round_even q) with z by lia. apply int16_id. exact R.
Qed.
(** A column within 27 microradians of the place of code [z] gets code [z]. *)
Theorem C104_column_code : forall v z, is_finite v -> -32768 <= z <= 32767 ->
  (Qabs (vq v - (inject_Z z * step - (151844 # 1000000))) <= 27 # 1000000)%Q -> x_code v = z.
Proof.
  intros v z F R H. apply Qabs_Qle_condition in H. assert (R' := R). rewrite !Zle_Qle in R'. change (inject_Z (-32768)) with (-32768)%Q in R'. change (inject_Z 32767) with 32767%Q in R'.
  unfold step in H. pose proof (x_quotient v F ltac:(lra)) as Q. unfold x_code, pack64. apply round_to; [|exact R].
  assert (T : (- (485 # 1000) <= (vq v + (151844 # 1000000)) / step - inject_Z z <= 485 # 1000)%Q).
  { setoid_replace ((vq v + (151844 # 1000000)) / step - inject_Z z)%Q with ((vq v + (151844 # 1000000) - inject_Z z * step) / step)%Q by (unfold step; field).
    unfold step. split; [apply Qle_shift_div_l|apply Qle_shift_div_r]; lra. }
  lra.
Qed.
(** The same for rows, which are counted from the north. *)
Theorem C104_row_code : forall v z, is_finite v -> -32768 <= z <= 32767 ->
  (Qabs (vq v - ((151844 # 1000000) - inject_Z z * step)) <= 27 # 1000000)%Q -> y_code v = z.
Proof.
  intros v z F R H. apply Qabs_Qle_condition in H. assert (R' := R). rewrite !Zle_Qle in R'. change (inject_Z (-32768)) with (-32768)%Q in R'. change (inject_Z 32767) with 32767%Q in R'.
  unfold step in H. pose proof (y_quotient v F ltac:(lra)) as Q. unfold y_code, pack64. apply round_to; [|exact R].
  assert (T : (- (485 # 1000) <= ((151844 # 1000000) - vq v) / step - inject_Z z <= 485 # 1000)%Q).
  { setoid_replace (((151844 # 1000000) - vq v) / step - inject_Z z)%Q with (((151844 # 1000000) - vq v - inject_Z z * step) / step)%Q by (unfold step; field).
    unfold step. split; [apply Qle_shift_div_l|apply Qle_shift_div_r]; lra. }
  lra.
Qed.

(** Grids of cells of 2 km about a point of the fixed grid, with an even number of cells:
    column [k] of the grid has the code of its place, and so has every column of every tile. *)
Definition on_fixed_grid (n c : Z) (ctr : f64) : Prop :=
  fine_grid n d2km ctr /\ Z.even n = true /\ 1 <= n /\ (Qabs (vq ctr - inject_Z c * step) <= 1 # 1000000)%Q.
Lemma two_km_place : forall n c ctr x k, on_fixed_grid n c ctr -> 0 <= k <= n -> about x (at_cells n d2km ctr (inject_Z k + (1 # 2))) (vq d2km) ->
  x_code x = k + c - n / 2 + 2712 /\ y_code x = 2711 - (k + c - n / 2).
Proof.
  intros n c ctr x k (H & EV & N & C) K (F & X). destruct (width n d2km ctr H N) as (DB & ND & _). apply Qabs_Qle_condition in C. apply Qabs_Qle_condition in X.
  apply Z.even_spec in EV. destruct EV as (h & ->). rewrite (Z.mul_comm 2 h), Z.div_mul in * by lia.
  assert (SD := scale_x). change (vq f56e6) with (vq d2km) in SD. set (D := vq d2km) in *. destruct H as ((_ & _ & _ & CB & NB) & _).
  assert (W : (inject_Z (h * 2) * (55 # 1000000) <= 2)%Q).
  { assert (0 <= inject_Z (h * 2))%Q by (change 0%Q with (inject_Z 0); rewrite <- Zle_Qle; lia). unfold step in SD. nra. }
  assert (HB : h <= 18182).
  { rewrite Zle_Qle. rewrite inject_Z_mult in W. change (inject_Z 2) with 2%Q in W. change (inject_Z 18182) with 18182%Q. lra. }
  assert (CZ : -8930 <= c <= 8930).
  { unfold step in C. rewrite !Zle_Qle. change (inject_Z (-8930)) with (-8930)%Q. change (inject_Z 8930) with 8930%Q. lra. }
  set (g := k + c - h). assert (GE : (inject_Z k + (1 # 2) - inject_Z (h * 2) * (1 # 2) == inject_Z (k - h) + (1 # 2))%Q).
  { unfold Z.sub. rewrite inject_Z_plus, inject_Z_opp, inject_Z_mult. change (inject_Z 2) with 2%Q. ring. }
  assert (XK : (-(2 # 1000000) <= vq x - (inject_Z g + (1 # 2)) * step <= 2 # 1000000)%Q).
  { unfold at_cells in X. fold D in X. rewrite GE in X. set (kk := inject_Z (k - h)) in *.
    assert (GG : (inject_Z g == kk + inject_Z c)%Q) by (unfold kk, g; rewrite <- inject_Z_plus; replace (k - h + c) with (k + c - h) by lia; reflexivity).
    assert (KB : (-20000 <= kk <= 20000)%Q).
    { unfold kk. change (-20000)%Q with (inject_Z (-20000)). change 20000%Q with (inject_Z 20000). rewrite <- !Zle_Qle. lia. }
    set (t := (D - step)%Q) in *. assert (TD : (D == step + t)%Q) by (unfold t; ring). rewrite GG.
    assert (KT : (- (1 # 10000000) <= (kk + (1 # 2)) * t <= 1 # 10000000)%Q) by (split; nra).
    assert (DS : ((1 # 1000) * D <= 6 # 100000000)%Q) by (rewrite TD; unfold step; lra).
    assert (PX : ((kk + (1 # 2)) * D == (kk + (1 # 2)) * step + (kk + (1 # 2)) * t)%Q) by (rewrite TD; ring). rewrite PX in X.
    setoid_replace ((kk + inject_Z c + (1 # 2)) * step)%Q with ((kk + (1 # 2)) * step + inject_Z c * step)%Q by ring. lra. }
  split.
  - apply C104_column_code; [exact F|lia|]. apply Qabs_Qle_condition. fold g. rewrite inject_Z_plus. change (inject_Z 2712) with 2712%Q. unfold step in *. lra.
  - apply C104_row_code; [exact F|lia|]. apply Qabs_Qle_condition. fold g. unfold Z.sub. rewrite inject_Z_plus, inject_Z_opp. change (inject_Z 2711) with 2711%Q. unfold step in *. lra.
Qed.
Theorem C104_two_km : forall n c ctr, on_fixed_grid n c ctr ->
  exists e, cell_edges (bounds n d2km ctr) d2km = Some e /\
  forall k x, nth_error (centres e) k = Some x ->
    x_code x = Z.of_nat k + c - n / 2 + 2712 /\ y_code x = 2711 - (Z.of_nat k + c - n / 2).
Proof.
  intros n c ctr H. assert (G : fine_grid n d2km ctr) by apply H. assert (N : 1 <= n) by apply H. destruct (C104_centres n d2km ctr G N) as (e & E & L & P). exists e. split; [exact E|].
  intros k x X. apply (two_km_place n c ctr x (Z.of_nat k) H); [|apply P; exact X].
  assert (k < List.length (centres e))%nat by (apply nth_error_Some; congruence). lia.
Qed.
Theorem C104_two_km_tiles : forall n c ctr s, on_fixed_grid n c ctr -> 1 <= Z.of_nat s < n ->
  exists dn, (dn = n / Z.of_nat s \/ dn = (n - 1) / Z.of_nat s) /\
  forall i, (i < s)%nat -> exists l, tile_centres (bounds n d2km ctr) d2km s i = Some l /\
  forall j x, nth_error l j = Some x ->
    x_code x = Z.of_nat i * dn + Z.of_nat j + c - n / 2 + 2712 /\ y_code x = 2711 - (Z.of_nat i * dn + Z.of_nat j + c - n / 2).
Proof.
  intros n c ctr s H HS. assert (G : fine_grid n d2km ctr) by apply H. destruct (C104_tiles n d2km ctr s G HS) as (dn & DN & T). exists dn. split; [exact DN|].
  intros i I. destruct (T i I) as (l & E & L & P). exists l. split; [exact E|]. intros j x X. apply (two_km_place n c ctr x _ H); [|apply P; exact X].
  assert (J : (j < List.length l)%nat) by (apply nth_error_Some; congruence).
  assert (SB : 0 <= dn /\ Z.of_nat s * dn <= n).
  { pose proof (Z.mul_div_le n (Z.of_nat s) ltac:(lia)). pose proof (Z.mul_div_le (n - 1) (Z.of_nat s) ltac:(lia)).
    pose proof (Z.div_pos n (Z.of_nat s) ltac:(lia) ltac:(lia)). pose proof (Z.div_pos (n - 1) (Z.of_nat s) ltac:(lia) ltac:(lia)). destruct DN as [-> | ->]; lia. }
  unfold share in L. destruct (Nat.ltb_spec (S i) s) as [A|A].
  - assert (Z.of_nat (S i) * dn <= Z.of_nat s * dn) by nia. nia.
  - assert (Z.of_nat i = Z.of_nat s - 1) by lia. nia.
Qed.

(** Cells of at least 58 microradians: columns keep their order, so different columns have
    different coordinates in the file. *)
Theorem C104_order : forall n d ctr e i j x y, fine_grid n d ctr -> 1 <= n -> (58 # 1000000 <= vq d)%Q -> (inject_Z n * vq d <= 1)%Q ->
  cell_edges (bounds n d ctr) d = Some e -> (i < j)%nat -> nth_error (centres e) i = Some x -> nth_error (centres e) j = Some y -> (j < Z.to_nat n)%nat ->
  x_code x < x_code y /\ y_code y < y_code x.
Proof.
  intros n d ctr e i j x y H N BIG NAR E IJ X Y JN. destruct (width n d ctr H N) as (DB & ND & A0 & AE & A1).
  destruct (C104_centres n d ctr H N) as (e' & E' & L & P). rewrite E in E'. injection E' as <-.
  destruct (P i x X) as (FX & PX). destruct (P j y Y) as (FY & PY). apply Qabs_Qle_condition in PX. apply Qabs_Qle_condition in PY.
  set (D := vq d) in *.
  assert (AT : forall q, (at_cells n d ctr (q + (1 # 2)) == at_cells n d ctr 0 + q * D + (1 # 2) * D)%Q) by (intros; unfold at_cells; fold D; ring).
  rewrite AT in PX, PY.
  assert (CI : (cell i + 1 <= cell j)%Q).
  { unfold cell. change 1%Q with (inject_Z 1). rewrite <- inject_Z_plus, <- Zle_Qle. lia. }
  assert (CJ : (cell j + 1 <= inject_Z n)%Q) by (unfold cell; change 1%Q with (inject_Z 1); rewrite <- inject_Z_plus, <- Zle_Qle; lia).
  assert (C0 : (0 <= cell i)%Q) by (unfold cell; change 0%Q with (inject_Z 0); rewrite <- Zle_Qle; lia).
  assert (S1 : (cell i * D + D <= cell j * D)%Q) by nra. assert (S2 : (cell j * D + D <= inject_Z n * D)%Q) by nra. assert (S3 : (0 <= cell i * D)%Q) by nra.
  assert (AC : (-1 <= at_cells n d ctr 0 /\ at_cells n d ctr 0 + inject_Z n * D <= 1)%Q).
  { destruct H as ((_ & _ & _ & CB & _) & _). unfold at_cells. fold D.
    setoid_replace ((0 - inject_Z n * (1 # 2)) * D)%Q with (- ((1 # 2) * (inject_Z n * D)))%Q by ring. lra. }
  assert (GAP : (vq x + (57 # 1000000) <= vq y)%Q) by lra.
  assert (XB : (-1 - (1 # 100) <= vq x)%Q) by lra. assert (YB : (vq y <= 3 # 2)%Q) by lra.
  assert (LT : forall q q', (-30000 <= q)%Q -> (q + 1 < q')%Q -> (q' <= 32000)%Q -> int16 (round_even q) < int16 (round_even q')).
  { intros q q' Q0 QQ Q1. pose proof (round_near q) as (R1 & R2). pose proof (round_near q') as (R3 & R4).
    assert (-32000 <= round_even q) by (rewrite Zle_Qle; change (inject_Z (-32000)) with (-32000)%Q; lra).
    assert (round_even q' <= 32700) by (rewrite Zle_Qle; change (inject_Z 32700) with 32700%Q; lra).
    assert (round_even q < round_even q') by (rewrite Zlt_Qlt; lra). rewrite !int16_id by lia. assumption. }
  assert (DV : forall a b : Q, (a + (57 # 1000000) <= b)%Q -> (a / step + (1017 # 1000) <= b / step)%Q).
  { intros a b AB. unfold step. apply Qle_shift_div_l; [lra|]. setoid_replace ((a / (56 # 1000000) + (1017 # 1000)) * (56 # 1000000))%Q with (a + (1017 # 1000) * (56 # 1000000))%Q by field. lra. }
  pose proof (x_quotient x FX ltac:(lra)) as QX. pose proof (x_quotient y FY ltac:(lra)) as QY.
  pose proof (y_quotient x FX ltac:(lra)) as RX. pose proof (y_quotient y FY ltac:(lra)) as RY.
  pose proof (DV (vq x + (151844 # 1000000))%Q (vq y + (151844 # 1000000))%Q ltac:(lra)) as D1.
  pose proof (DV ((151844 # 1000000) - vq y)%Q ((151844 # 1000000) - vq x)%Q ltac:(lra)) as D2.
  assert (LO : forall a : Q, (-(15 # 10) <= a <= 17 # 10)%Q -> (-27000 <= a / step <= 31000)%Q).
  { intros a A. unfold step. split; [apply Qle_shift_div_l|apply Qle_shift_div_r]; lra. }
  pose proof (LO (vq x + (151844 # 1000000))%Q ltac:(lra)). pose proof (LO (vq y + (151844 # 1000000))%Q ltac:(lra)).
  pose proof (LO ((151844 # 1000000) - vq x)%Q ltac:(lra)). pose proof (LO ((151844 # 1000000) - vq y)%Q ltac:(lra)).
  unfold x_code, y_code, pack64. split; apply LT; lra.
Qed.

(** * The hypotheses can be met *)
Lemma fine_full : fine_grid 5424 d2km (S754_zero false).
Proof. split; [exact sane_full|vm_compute; discriminate]. Qed.
(** The full disk at 2 km: column [k] has code [k], row [k] from the south has code 5423 - k. *)
Example C104_full_disk : exists e, cell_edges (bounds 5424 d2km (S754_zero false)) d2km = Some e /\
  forall k x, nth_error (centres e) k = Some x -> x_code x = Z.of_nat k /\ y_code x = 5423 - Z.of_nat k.
Proof.
  destruct (C104_two_km 5424 0 (S754_zero false)) as (e & E & K).
  { split; [exact fine_full|]. split; [reflexivity|]. split; [lia|]. vm_compute. discriminate. }
  exists e. split; [exact E|]. intros k x X. destruct (K k x X) as (A & B). change (5424 / 2) with 2712 in *. rewrite A, B. split; lia.
Qed.
(** The continental sector along y: the centre 0.08624 is 1540 cells from the nadir. *)
Example C104_conus : exists e, cell_edges (bounds 1500 d2km ctr_conus_y) d2km = Some e /\
  forall k x, nth_error (centres e) k = Some x -> y_code x = 1921 - Z.of_nat k.
Proof.
  destruct (C104_two_km 1500 1540 ctr_conus_y) as (e & E & K).
  { split; [split; [exact sane_conus|vm_compute; discriminate]|]. split; [reflexivity|]. split; [lia|]. vm_compute. discriminate. }
  exists e. split; [exact E|]. intros k x X. destruct (K k x X) as (A & B). change (1500 / 2) with 750 in *. rewrite B. lia.
Qed.
(** Cells of 10 km, 100 of them about the nadir. *)
Definition d10km : f64 := fdiv (of_int 28) (of_int 100000).
Example C104_ten_km : fine_grid 100 d10km (S754_zero false) /\ ((58 # 1000000) <= vq d10km)%Q /\ (inject_Z 100 * vq d10km <= 1)%Q.
Proof. repeat split; vm_compute; discriminate. Qed.
(** A location in cell 7 of that grid. *)
Example C104_location : exists e, cell_edges (bounds 100 d10km (S754_zero false)) d10km = Some e /\
  cell_of e (fdiv (of_int (-119)) (of_int 10000)) = Ok 7.
Proof.
  destruct C104_ten_km as (F & _). destruct (C104_edges 100 d10km (S754_zero false) F ltac:(lia)) as (e & E & _). exists e. split; [exact E|].
  apply (C104_cell 100 d10km (S754_zero false) e (fdiv (of_int (-119)) (of_int 10000)) 7 F ltac:(lia) E I ltac:(lia)). split; vm_compute; [reflexivity|discriminate].
Qed.
Print Assumptions C104_edges.
Print Assumptions C104_centres.
Print Assumptions C104_cell.
Print Assumptions C104_tiles.
Print Assumptions C104_column_code.
Print Assumptions C104_row_code.
Print Assumptions C104_two_km.
Print Assumptions C104_two_km_tiles.
Print Assumptions C104_order.
