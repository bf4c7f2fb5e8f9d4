(** C95: the lookup of cells by arithmetic on an evenly spaced mesh. *)
From Coq Require Import List ZArith QArith Qround Bool Lia Lqa.
From Verif Require Import Base BaseProofs Glm AccumProofs Poly BBox BBoxSpec BBoxProofs PropBBox BBoxRegular.
Import ListNotations.
Open Scope Z_scope.

(** * Specification *)
(** Edges with even spacing [d]. *)
Definition even (e : list Q) (d : Q) : Prop :=
  (0 < d)%Q /\ (2 < List.length e)%nat /\ forall k, (k < List.length e)%nat -> (edge e k == edge e 0 + inject_Z (Z.of_nat k) * d)%Q.
(** The centre of cell [k]. *)
Definition centre (e : list Q) (k : nat) : Q := ((edge e k + edge e (S k)) / 2)%Q.
(** Numbers of cells from the first edge that fit easily in 32 bits. *)
Definition not_far (e : list Q) (d v : Q) : Prop := (- 2000000000 * d <= v - edge e 0 <= 2000000000 * d)%Q.
(** What is assumed of the conversion to 32 bit integers. *)
Definition converts (i32 : Z -> Z) : Prop := forall z, - 2 ^ 31 <= z < 2 ^ 31 -> i32 z = z.

(** * Proofs *)
Lemma ctr_row_length : forall r r', List.length r = List.length r' -> List.length (ctr_row r r') = (List.length r - 1)%nat.
Proof.
  induction r as [|a r IH]; intros [|c r'] L; try discriminate L; [reflexivity|]. cbn [List.length] in L. injection L as L.
  destruct r as [|b t], r' as [|d t']; try discriminate L; [reflexivity|].
  change (ctr_row (a :: b :: t) (c :: d :: t')) with (((a + d + c + b) / 4)%Q :: ctr_row (b :: t) (d :: t')).
  cbn [List.length]. rewrite (IH (d :: t') L). cbn [List.length]. lia.
Qed.
Lemma ctr2_same : forall (r : list Q) {A} (l : list A), ctr2 (map (fun _ => r) l) = map (fun _ => ctr_row r r) (tl l).
Proof.
  intros r A l. destruct l as [|x l]; [reflexivity|]. cbn [tl]. revert x. induction l as [|y l IH]; intros x; [reflexivity|].
  change (ctr2 (map (fun _ => r) (x :: y :: l))) with (ctr_row r r :: ctr2 (map (fun _ => r) (y :: l))). rewrite IH. reflexivity.
Qed.
(** The list of midpoints. *)
Fixpoint mids (e : list Q) : list Q := match e with a :: ((b :: _) as t) => ((a + b) / 2)%Q :: mids t | _ => [] end.
Lemma mids_length : forall e, List.length (mids e) = (List.length e - 1)%nat.
Proof.
  induction e as [|a [|b t] IH]; [reflexivity..|]. change (mids (a :: b :: t)) with (((a + b) / 2)%Q :: mids (b :: t)). cbn [List.length]. rewrite IH. cbn [List.length]. lia.
Qed.
Lemma ctr_row_same : forall r, Forall2 Qeq (ctr_row r r) (mids r).
Proof.
  induction r as [|a [|b t] IH]; [constructor..|].
  change (ctr_row (a :: b :: t) (a :: b :: t)) with (((a + b + a + b) / 4)%Q :: ctr_row (b :: t) (b :: t)).
  change (mids (a :: b :: t)) with (((a + b) / 2)%Q :: mids (b :: t)). constructor; [field|exact IH].
Qed.
Lemma ctr_row_const : forall (a b : Q) {A} (l : list A), (1 < List.length l)%nat ->
  (hd 0 (ctr_row (map (fun _ => a) l) (map (fun _ => b) l)) == (a + b) / 2)%Q.
Proof. intros a b A [|x [|y l]] L; cbn [List.length] in L; try lia. cbn. field. Qed.
Lemma col0_const : forall (e : list Q) {A} (l : list A), (1 < List.length l)%nat -> Forall2 Qeq (col0 (ctr2 (map (fun y => map (fun _ => y) l) e))) (mids e).
Proof.
  intros e A l L. induction e as [|a [|b t] IH]; [constructor..|].
  change (ctr2 (map (fun y => map (fun _ : A => y) l) (a :: b :: t)))
    with (ctr_row (map (fun _ => a) l) (map (fun _ => b) l) :: ctr2 (map (fun y => map (fun _ : A => y) l) (b :: t))).
  change (mids (a :: b :: t)) with (((a + b) / 2)%Q :: mids (b :: t)). unfold col0 in *. cbn [map]. constructor; [apply ctr_row_const; exact L|exact IH].
Qed.
Lemma row0_same : forall (e : list Q) {A} (l : list A), (1 < List.length l)%nat -> Forall2 Qeq (row0 (ctr2 (map (fun _ => e) l))) (mids e).
Proof. intros e A [|x [|y l]] L; cbn [List.length] in L; try lia. rewrite ctr2_same. cbn [tl map row0 hd]. apply ctr_row_same. Qed.
Lemma centres : forall xs ys m at_, (2 < List.length xs)%nat -> (2 < List.length ys)%nat -> made_from xs ys m at_ ->
  Forall2 Qeq (x_ctr1d m) (mids xs) /\ Forall2 Qeq (y_ctr1d m) (mids ys).
Proof.
  intros xs ys m at_ Lx Ly M. assert (Nx : xs <> []) by (intros ->; cbn in Lx; lia). assert (Ny : ys <> []) by (intros ->; cbn in Ly; lia).
  unfold x_ctr1d, y_ctr1d. destruct M as [|Hs].
  - rewrite detect_xy by exact Ny. unfold regular_xy, meshgrid_x, meshgrid_y. cbn [me_x me_y]. split; [apply row0_same; lia|apply col0_const; lia].
  - rewrite detect_ij by assumption. unfold regular_ij, meshgrid_ij_x, meshgrid_ij_y. cbn [me_x me_y]. split; [apply col0_const; lia|apply row0_same; lia].
Qed.

Lemma eq_length : forall l l', Forall2 Qeq l l' -> List.length l = List.length l'.
Proof. induction 1 as [|? ? ? ? _ _ IH]; [reflexivity|]. cbn [List.length]. rewrite IH. reflexivity. Qed.
Lemma floor_le : forall q z, z <= Qfloor q <-> (inject_Z z <= q)%Q.
Proof.
  intros q z. split; intros H.
  - apply Qle_trans with (inject_Z (Qfloor q)); [rewrite <- Zle_Qle; exact H|apply Qfloor_le].
  - pose proof (Qlt_floor q) as L. assert (K : (inject_Z z < inject_Z (Qfloor q + 1))%Q) by lra. rewrite <- Zlt_Qlt in K. lia.
Qed.
(** One axis: which cells are within the slice. *)
Lemma axis_cells : forall i32 e d cs lo hi pad, converts i32 -> even e d -> Forall2 Qeq cs (mids e) -> 0 <= pad -> (lo <= hi)%Q -> not_far e d lo -> not_far e d hi ->
  exists ab, axis_slice i32 cs (lo, hi) pad = Ok ab /\ 
    forall z, In z (sliced (List.length cs) ab) <->
      exists k, z = Z.of_nat k /\ (S k < List.length e)%nat /\ (lo - (inject_Z pad + 1) * d < centre e k)%Q /\ (centre e k <= hi + (inject_Z pad - 1) * d)%Q.
Proof.
  intros i32 e d cs lo hi pad CV (D & L & E) F P O N1 N2.
  assert (LC : List.length cs = (List.length e - 1)%nat) by (rewrite (eq_length _ _ F); apply mids_length).
  destruct e as [|e0 [|e1 [|e2 er]]]; cbn [List.length] in L; try lia.
  change (mids (e0 :: e1 :: e2 :: er)) with (((e0 + e1) / 2)%Q :: ((e1 + e2) / 2)%Q :: mids (e2 :: er)) in F.
  inversion F as [|c0 m0 cr mr H0 F']; subst. inversion F' as [|c1 m1 cr' mr' H1 F'']; subst.
  set (e := e0 :: e1 :: e2 :: er) in *. set (n := List.length e) in LC, E |- *.
  assert (L3 : (2 < n)%nat) by (unfold n, e; cbn [List.length]; lia). clearbody n.
  assert (E0 : edge e 0 = e0) by reflexivity. rewrite E0 in *.
  pose proof (E 1%nat ltac:(lia)) as X1. pose proof (E 2%nat ltac:(lia)) as X2.
  change (edge e 1) with e1 in X1. change (edge e 2) with e2 in X2. change (inject_Z (Z.of_nat 1)) with 1%Q in X1. change (inject_Z (Z.of_nat 2)) with 2%Q in X2.
  assert (C0 : (c0 == e0 + d / 2)%Q) by (rewrite H0, X1; field).
  assert (DD : (c1 - c0 == d)%Q) by (rewrite H0, H1, X1, X2; field).
  assert (CK : forall k, (S k < n)%nat -> (centre e k == c0 + inject_Z (Z.of_nat k) * d)%Q).
  { intros k K. unfold centre. rewrite (E k) by lia. rewrite (E (S k)) by lia. rewrite C0, Nat2Z.inj_succ, <- Z.add_1_r, inject_Z_plus. change (inject_Z 1) with 1%Q. field. }
  assert (FL : forall v, not_far e d v -> i32 (Qfloor ((v - c0) / (c1 - c0))) = Qfloor ((v - c0) / (c1 - c0))).
  { intros v [A B]. rewrite E0 in A, B. apply CV. assert (V : ((v - c0) / (c1 - c0) == (v - e0) / d - (1 # 2))%Q) by (rewrite DD, C0; field; lra).
    assert (V1 : (- 2000000000 <= (v - e0) / d)%Q) by (apply Qle_shift_div_l; lra).
    assert (V2 : ((v - e0) / d <= 2000000000)%Q) by (apply Qle_shift_div_r; lra).
    split.
    - apply floor_le. rewrite V. change (inject_Z (- 2 ^ 31)) with (-2147483648)%Q. lra.
    - destruct (Z_lt_le_dec (Qfloor ((v - c0) / (c1 - c0))) (2 ^ 31)) as [Y|Y]; [exact Y|]. exfalso. apply floor_le in Y. rewrite V in Y.
      change (inject_Z (2 ^ 31)) with 2147483648%Q in Y. lra. }
  unfold axis_slice. cbn [fst snd]. rewrite (FL lo N1), (FL hi N2). eexists. split; [reflexivity|].
  set (f := Qfloor ((lo - c0) / (c1 - c0))). set (g := Qfloor ((hi - c0) / (c1 - c0))).
  assert (FG : f <= g).
  { apply floor_le. apply Qle_trans with ((lo - c0) / (c1 - c0))%Q; [apply Qfloor_le|]. rewrite !DD.
    apply Qle_shift_div_l; [exact D|]. setoid_replace ((lo - c0) / d * d)%Q with (lo - c0)%Q by (field; lra). lra. }
  assert (LO : forall k, (S k < n)%nat -> (f - pad <= Z.of_nat k <-> (lo - (inject_Z pad + 1) * d < centre e k)%Q)).
  { intros k K. rewrite (CK k K). assert (I : f - pad <= Z.of_nat k <-> ~ (Z.of_nat k + pad + 1 <= f)) by lia. rewrite I. unfold f. rewrite floor_le.
    rewrite !inject_Z_plus. change (inject_Z 1) with 1%Q. split; intros H.
    - apply Qnot_le_lt. intros Y. apply H. rewrite DD. apply Qle_shift_div_l; [exact D|]. lra.
    - intros Y. rewrite DD in Y. assert (Z1 : ((inject_Z (Z.of_nat k) + inject_Z pad + 1) * d <= (lo - c0) / d * d)%Q) by (apply Qmult_le_compat_r; lra).
      setoid_replace ((lo - c0) / d * d)%Q with (lo - c0)%Q in Z1 by (field; lra). lra. }
  assert (HI : forall k, (S k < n)%nat -> (Z.of_nat k < g + pad <-> (centre e k <= hi + (inject_Z pad - 1) * d)%Q)).
  { intros k K. rewrite (CK k K). assert (I : Z.of_nat k < g + pad <-> Z.of_nat k + 1 - pad <= g) by lia. rewrite I. unfold g. rewrite floor_le.
    replace (Z.of_nat k + 1 - pad) with (Z.of_nat k + 1 + - pad) by lia. rewrite !inject_Z_plus, inject_Z_opp. change (inject_Z 1) with 1%Q. split; intros H.
    - rewrite DD in H. assert (Z1 : ((inject_Z (Z.of_nat k) + 1 + - inject_Z pad) * d <= (hi - c0) / d * d)%Q) by (apply Qmult_le_compat_r; lra).
      setoid_replace ((hi - c0) / d * d)%Q with (hi - c0)%Q in Z1 by (field; lra). lra.
    - rewrite DD. apply Qle_shift_div_l; [exact D|]. lra. }
  set (N := Z.of_nat (List.length (c0 :: c1 :: cr'))) in *. assert (EN : N = Z.of_nat n - 1) by (unfold N; rewrite LC; lia).
  intros z. unfold sliced. rewrite range_in. cbn [fst snd]. fold N. split.
  - intros H. assert (B : 0 <= z < N /\ f - pad <= z /\ z < g + pad).
    { destruct (Z.ltb_spec (f - pad) 0), (Z.ltb_spec (g + pad) 0); repeat match type of H with context [?a <? ?b] => destruct (Z.ltb_spec a b) end; lia. }
    exists (Z.to_nat z). rewrite Z2Nat.id by lia. split; [reflexivity|]. assert (K : (S (Z.to_nat z) < n)%nat) by lia. split; [exact K|].
    split; [apply LO; [exact K|lia]|apply HI; [exact K|lia]].
  - intros (k & -> & K & A & B). apply LO in A; [|exact K]. apply HI in B; [|exact K].
    destruct (Z.ltb_spec (f - pad) 0), (Z.ltb_spec (g + pad) 0); repeat match goal with |- context [?a <? ?b] => destruct (Z.ltb_spec a b) end; lia.
Qed.

Lemma nodup_sliced : forall n ab, NoDup (sliced n ab).
Proof. intros. apply range_nodup. Qed.

(** The lookup by arithmetic finds exactly the cells whose centre is at most [pad] - 1 spacings
    above the box and less than [pad] + 1 below it, each once. *)
Theorem C95_cells_found : forall i32 xs ys dx dy m at_ x0 x1 y0 y1 pad, converts i32 ->
  even xs dx -> even ys dy -> made_from xs ys m at_ -> 0 <= pad -> (x0 <= x1)%Q -> (y0 <= y1)%Q ->
  not_far xs dx x0 -> not_far xs dx x1 -> not_far ys dy y0 -> not_far ys dy y1 ->
  exists l, quads_in_bbox_regular i32 m (x0, x1, y0, y1) pad = Ok l /\ NoDup l /\
    forall p, In p l <-> exists kx ky, p = at_ kx ky /\ (S kx < List.length xs)%nat /\ (S ky < List.length ys)%nat /\
      (x0 - (inject_Z pad + 1) * dx < centre xs kx)%Q /\ (centre xs kx <= x1 + (inject_Z pad - 1) * dx)%Q /\
      (y0 - (inject_Z pad + 1) * dy < centre ys ky)%Q /\ (centre ys ky <= y1 + (inject_Z pad - 1) * dy)%Q.
Proof.
  intros i32 xs ys dx dy m at_ x0 x1 y0 y1 pad CV Ex Ey M P Ox Oy X0 X1 Y0 Y1.
  pose proof Ex as (_ & Lx & _). pose proof Ey as (_ & Ly & _).
  destruct (centres xs ys m at_ Lx Ly M) as [Cx Cy].
  destruct (axis_cells i32 xs dx _ x0 x1 pad CV Ex Cx P Ox X0 X1) as (rx & Rx & Ix).
  destruct (axis_cells i32 ys dy _ y0 y1 pad CV Ey Cy P Oy Y0 Y1) as (ry & Ry & Iy).
  unfold quads_in_bbox_regular. rewrite Rx, Ry. cbn [bind]. eexists. split; [reflexivity|].
  assert (Nx : xs <> []) by (intros ->; cbn in Lx; lia). assert (Ny : ys <> []) by (intros ->; cbn in Ly; lia).
  destruct M as [|Hs].
  - rewrite detect_xy by exact Ny. split; [apply nodup_prod; apply nodup_sliced|]. intros [i j]. rewrite in_prod_iff, Ix, Iy. split.
    + intros [(ky & -> & Y) (kx & -> & X)]. exists kx, ky. tauto.
    + intros (kx & ky & E & K). injection E as -> ->. split; [exists ky; tauto|exists kx; tauto].
  - rewrite detect_ij by assumption. split; [apply nodup_prod; apply nodup_sliced|]. intros [i j]. rewrite in_prod_iff, Ix, Iy. split.
    + intros [(kx & -> & X) (ky & -> & Y)]. exists kx, ky. tauto.
    + intros (kx & ky & E & K). injection E as -> ->. split; [exists kx; tauto|exists ky; tauto].
Qed.
Print Assumptions C95_cells_found.

Lemma meets_centre : forall e d k lo hi, even e d -> meets e k lo hi -> (lo <= centre e k + d / 2 /\ centre e k - d / 2 <= hi)%Q.
Proof.
  intros e d k lo hi (D & L & E) (K & v & V & W). unfold centre. rewrite (E k) in * by lia. rewrite (E (S k)) in * by lia.
  rewrite Nat2Z.inj_succ, <- Z.add_1_r, inject_Z_plus in *. change (inject_Z 1) with 1%Q in *.
  set (c := (edge e 0 + inject_Z (Z.of_nat k) * d)%Q) in *.
  setoid_replace (edge e 0 + (inject_Z (Z.of_nat k) + 1) * d)%Q with (c + d)%Q by (unfold c; ring).
  setoid_replace ((c + (c + d)) / 2)%Q with (c + d * (1 # 2))%Q by field. setoid_replace (d / 2)%Q with (d * (1 # 2))%Q by field.
  assert (W' : (c <= v <= c + d \/ c + d <= v <= c)%Q) by (setoid_replace (c + d)%Q with (edge e 0 + (inject_Z (Z.of_nat k) + 1) * d)%Q by (unfold c; ring); exact W).
  destruct W' as [W'|W']; lra.
Qed.
(** With the padding of two it uses, no cell that meets the box is missed, wherever the box is:
    within the mesh, partly outside or around it. *)
Theorem C95_no_cell_missed : forall i32 xs ys dx dy m at_ x0 x1 y0 y1 pad, converts i32 ->
  even xs dx -> even ys dy -> made_from xs ys m at_ -> 2 <= pad -> (x0 <= x1)%Q -> (y0 <= y1)%Q ->
  not_far xs dx x0 -> not_far xs dx x1 -> not_far ys dy y0 -> not_far ys dy y1 ->
  exists l, quads_in_bbox_regular i32 m (x0, x1, y0, y1) pad = Ok l /\ NoDup l /\
    forall kx ky, meets xs kx x0 x1 -> meets ys ky y0 y1 -> In (at_ kx ky) l.
Proof.
  intros i32 xs ys dx dy m at_ x0 x1 y0 y1 pad CV Ex Ey M P Ox Oy X0 X1 Y0 Y1.
  destruct (C95_cells_found i32 xs ys dx dy m at_ x0 x1 y0 y1 pad CV Ex Ey M ltac:(lia) Ox Oy X0 X1 Y0 Y1) as (l & E & ND & C).
  exists l. split; [exact E|]. split; [exact ND|]. intros kx ky Mx My. apply C. exists kx, ky. split; [reflexivity|].
  split; [apply Mx|]. split; [apply My|]. pose proof (meets_centre _ _ _ _ _ Ex Mx) as [A1 A2]. pose proof (meets_centre _ _ _ _ _ Ey My) as [B1 B2].
  destruct Ex as (Dx & _). destruct Ey as (Dy & _). assert (PQ : (2 <= inject_Z pad)%Q) by (change 2%Q with (inject_Z 2); rewrite <- Zle_Qle; exact P).
  assert (KX : (2 * dx <= inject_Z pad * dx)%Q) by (apply Qmult_le_compat_r; lra). assert (KY : (2 * dy <= inject_Z pad * dy)%Q) by (apply Qmult_le_compat_r; lra).
  setoid_replace (dx / 2)%Q with (dx * (1 # 2))%Q in A1 by field. setoid_replace (dx / 2)%Q with (dx * (1 # 2))%Q in A2 by field. setoid_replace (dy / 2)%Q with (dy * (1 # 2))%Q in B1 by field. setoid_replace (dy / 2)%Q with (dy * (1 # 2))%Q in B2 by field.
  setoid_replace ((inject_Z pad + 1) * dx)%Q with (inject_Z pad * dx + dx)%Q by ring. setoid_replace ((inject_Z pad + 1) * dy)%Q with (inject_Z pad * dy + dy)%Q by ring.
  setoid_replace ((inject_Z pad - 1) * dx)%Q with (inject_Z pad * dx - dx)%Q by ring. setoid_replace ((inject_Z pad - 1) * dy)%Q with (inject_Z pad * dy - dy)%Q by ring.
  set (px := (inject_Z pad * dx)%Q) in *. set (py := (inject_Z pad * dy)%Q) in *. repeat split; lra.
Qed.
Print Assumptions C95_no_cell_missed.

(** A box around the mesh: here every cell is found; the lookup in use finds none (C29). *)
Theorem C95_box_around : forall i32 xs ys dx dy m at_ x0 x1 y0 y1, converts i32 ->
  even xs dx -> even ys dy -> made_from xs ys m at_ ->
  (x0 <= edge xs 0)%Q -> (edge xs (List.length xs - 1) < x1)%Q -> (y0 <= edge ys 0)%Q -> (edge ys (List.length ys - 1) < y1)%Q ->
  not_far xs dx x0 -> not_far xs dx x1 -> not_far ys dy y0 -> not_far ys dy y1 ->
  quads_in_bbox m (x0, x1, y0, y1) = Ok [] /\
  exists l, quads_in_bbox_regular i32 m (x0, x1, y0, y1) 2 = Ok l /\
    forall kx ky, (S kx < List.length xs)%nat -> (S ky < List.length ys)%nat -> In (at_ kx ky) l.
Proof.
  intros i32 xs ys dx dy m at_ x0 x1 y0 y1 CV Ex Ey M A1 A2 B1 B2 X0 X1 Y0 Y1.
  assert (INC : forall e d, even e d -> increasing e).
  { intros e d (D & L & E) i j H. rewrite (E i) by lia. rewrite (E j) by lia.
    assert (inject_Z (Z.of_nat i) < inject_Z (Z.of_nat j))%Q by (rewrite <- Zlt_Qlt; lia).
    assert (inject_Z (Z.of_nat i) * d < inject_Z (Z.of_nat j) * d)%Q by (apply Qmult_lt_compat_r; assumption). lra. }
  assert (LEN : forall e d, even e d -> (2 < List.length e)%nat) by (intros e d (_ & H & _); exact H).
  pose proof (LEN _ _ Ex) as Lx. pose proof (LEN _ _ Ey) as Ly.
  assert (OK : forall e d, even e d -> edges_ok e) by (intros e d H; split; [pose proof (LEN _ _ H); lia|left; eapply INC; exact H]).
  assert (ALL : forall e d lo hi k, even e d -> (lo <= edge e 0)%Q -> (edge e (List.length e - 1) < hi)%Q -> (S k < List.length e)%nat -> meets e k lo hi).
  { intros e d lo hi k H P Q K. split; [exact K|]. exists (edge e k). pose proof (INC _ _ H) as I.
    assert (W0 : (edge e 0 <= edge e k)%Q) by (destruct k; [lra|apply Qlt_le_weak, I; lia]).
    assert (W1 : (edge e k < edge e (List.length e - 1))%Q) by (apply I; lia).
    split; [split; lra|]. left. split; [lra|]. apply Qlt_le_weak, I. lia. }
  split.
  - exact (proj1 (C29_enclosing_box_refuted xs ys m at_ x0 x1 y0 y1 (OK _ _ Ex) (INC _ _ Ex) (OK _ _ Ey) M A1 A2)).
  - assert (SX : (edge xs 0 <= edge xs (List.length xs - 1))%Q) by (apply Qlt_le_weak, (INC _ _ Ex); lia).
    assert (SY : (edge ys 0 <= edge ys (List.length ys - 1))%Q) by (apply Qlt_le_weak, (INC _ _ Ey); lia).
    destruct (C95_no_cell_missed i32 xs ys dx dy m at_ x0 x1 y0 y1 2 CV Ex Ey M ltac:(lia) ltac:(lra) ltac:(lra) X0 X1 Y0 Y1) as (l & E & _ & C).
    exists l. split; [exact E|]. intros kx ky Kx Ky. apply C; [apply (ALL _ dx)|apply (ALL _ dy)]; assumption.
Qed.
Print Assumptions C95_box_around.

(** With a padding of one the last cell touched by the box can be missed. *)
Definition nines : list Q := map inject_Z [0; 1; 2; 3; 4; 5; 6; 7; 8; 9].
Example C95_padding_needed : meets nines 5 (1 # 2) (21 # 4) /\ meets nines 5 (21 # 4) (21 # 4) /\
  exists l, quads_in_bbox_regular (fun z => z) (regular_xy nines nines) (1 # 2, 21 # 4, 21 # 4, 21 # 4)%Q 1 = Ok l /\ ~ In (5, 5) l.
Proof.
  split; [split; [vm_compute; lia|exists (21 # 4)%Q; split; [split; lra|left; vm_compute; split; congruence]]|].
  split; [split; [vm_compute; lia|exists (21 # 4)%Q; split; [split; lra|left; vm_compute; split; congruence]]|].
  eexists. split; [vm_compute; reflexivity|]. intros H. repeat (destruct H as [H|H]; [discriminate H|]). exact H.
Qed.

Example C95_hypotheses : even nines 1 /\ not_far nines 1 (-3) /\ not_far nines 1 20 /\ converts (fun z => z) /\
  made_from nines nines (regular_xy nines nines) (fun kx ky => (Z.of_nat ky, Z.of_nat kx)) /\
  quads_in_bbox_regular (fun z => z) (regular_xy nines nines) (5 # 4, 5 # 4, 31 # 4, 20)%Q 2 = Ok [(5, 0); (5, 1); (6, 0); (6, 1); (7, 0); (7, 1); (8, 0); (8, 1)].
Proof.
  split.
  - split; [reflexivity|]. split; [vm_compute; lia|]. intros k K. cbn [nines List.length map] in K.
    do 10 (destruct k as [|k]; [vm_compute; reflexivity|]). lia.
  - split; [split; vm_compute; congruence|]. split; [split; vm_compute; congruence|]. split; [intros z _; reflexivity|]. split; [constructor|]. vm_compute. reflexivity.
Qed.
