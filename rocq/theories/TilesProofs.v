(** Lemmas about tiles. *)
From Coq Require Import List ZArith QArith Qround Bool String Lia Lqa.
From Verif Require Import Base BaseProofs Glm GlmProofs3 Lut FileName Imagery ImagerySpec ImageryProofs PropImagery Tiles TilesSpec.
Import ListNotations.
Open Scope Q_scope.

Lemma qint_nonneg : forall q, 0 <= q -> (0 <= qint q)%Z /\ inject_Z (qint q) <= q /\ q < inject_Z (qint q) + 1.
Proof.
  intros q H. unfold qint. destruct (Qlt_bool q 0) eqn:B; [apply Qlt_bool_iff in B; lra|]. split; [|split].
  - apply Qfloor_resp_le in H. exact H.
  - apply Qfloor_le.
  - pose proof (Qlt_floor q) as L. rewrite inject_Z_plus in L. exact L.
Qed.
Lemma qint_int : forall z, (0 <= z)%Z -> forall q, q == inject_Z z -> qint q = z.
Proof.
  intros z H q E. assert (Q0 : 0 <= q) by (rewrite E; change 0 with (inject_Z 0); rewrite <- Zle_Qle; exact H).
  destruct (qint_nonneg q Q0) as (A & B & C). assert (B' : inject_Z (qint q) <= inject_Z z) by lra.
  assert (C' : inject_Z z < inject_Z (qint q + 1)) by (rewrite inject_Z_plus; change (inject_Z 1) with 1; lra). rewrite <- Zle_Qle in B'. rewrite <- Zlt_Qlt in C'. lia.
Qed.
Lemma div_nonneg : forall a b, 0 <= a -> 0 < b -> 0 <= a / b.
Proof. intros a b A B. apply Qle_shift_div_l; [exact B|]. lra. Qed.

Lemma nth_map_seq : forall (h : nat -> Q) n k d, (k < n)%nat -> nth k (map h (seq 0 n)) d = h k.
Proof. intros h n k d H. apply nth_error_nth. rewrite nth_error_map, nth_error_seq by exact H. reflexivity. Qed.

Section Edges.
Variables (bnd : Q * Q) (delta : Q) (s : nat).
Hypothesis D : 0 < delta.
Hypothesis W : fst bnd <= snd bnd.
Hypothesis S1 : (1 <= s)%nat.
Definition count : Z := qint ((snd bnd - fst bnd) / delta).
Definition per : Z := qint (inject_Z count / inject_Z (Z.of_nat s)).
Lemma count_ok : (0 <= count)%Z /\ inject_Z count * delta <= snd bnd - fst bnd /\ snd bnd - fst bnd < (inject_Z count + 1) * delta.
Proof.
  unfold count. destruct (qint_nonneg ((snd bnd - fst bnd) / delta)) as (A & B & C); [apply div_nonneg; lra|]. split; [exact A|].
  set (c := inject_Z (qint ((snd bnd - fst bnd) / delta))) in *. assert (E : (snd bnd - fst bnd) == (snd bnd - fst bnd) / delta * delta) by (field; lra).
  split; rewrite E; [apply Qmult_le_compat_r; lra|apply Qmult_lt_compat_r; lra].
Qed.
Lemma per_ok : (0 <= per)%Z /\ (per * Z.of_nat s <= count < (per + 1) * Z.of_nat s)%Z.
Proof.
  destruct count_ok as (C0 & _). unfold per. assert (SP : 0 < inject_Z (Z.of_nat s)) by (change 0 with (inject_Z 0); rewrite <- Zlt_Qlt; lia).
  destruct (qint_nonneg (inject_Z count / inject_Z (Z.of_nat s))) as (A & B & C); [apply div_nonneg; [change 0 with (inject_Z 0); rewrite <- Zle_Qle; exact C0|exact SP]|].
  split; [exact A|]. assert (E : inject_Z count == inject_Z count / inject_Z (Z.of_nat s) * inject_Z (Z.of_nat s)) by (field; lra).
  split.
  - rewrite Zle_Qle, inject_Z_mult. eapply Qle_trans; [apply Qmult_le_compat_r; [exact B|lra]|lra].
  - rewrite Zlt_Qlt, inject_Z_mult, inject_Z_plus. eapply Qle_lt_trans; [|apply Qmult_lt_compat_r; [exact SP|exact C]]. lra.
Qed.
Definition edge_list : list Q := map (fun k => inject_Z (Z.of_nat k) * delta * inject_Z per + fst bnd) (seq 0 s) ++ [snd bnd].
Lemma subdivide_eq : subdivide_bnd bnd delta s = Ok edge_list.
Proof.
  unfold edge_list, per, count. unfold subdivide_bnd. destruct (Qeq_bool delta 0) eqn:Z; [apply Qeq_bool_iff in Z; lra|]. destruct s as [|s']; [lia|]. reflexivity.
Qed.
Lemma edge_list_length : List.length edge_list = S s.
Proof. unfold edge_list. rewrite app_length, map_length, seq_length. cbn. lia. Qed.
Lemma edge_inner : forall k, (k < s)%nat -> nth k edge_list 0 = inject_Z (Z.of_nat k) * delta * inject_Z per + fst bnd.
Proof.
  intros k H. unfold edge_list. rewrite app_nth1 by (rewrite map_length, seq_length; exact H).
  rewrite nth_map_seq by exact H. reflexivity.
Qed.
Lemma edge_last : nth s edge_list 0 = snd bnd.
Proof. unfold edge_list. rewrite app_nth2; rewrite map_length, seq_length; [|lia]. rewrite Nat.sub_diag. reflexivity. Qed.
Lemma per_delta : 0 <= inject_Z per * delta.
Proof. destruct per_ok as (A & _). apply Qmult_le_0_compat; [change 0 with (inject_Z 0); rewrite <- Zle_Qle; exact A|lra]. Qed.
Lemma edge_step : forall k, (S k < s)%nat -> nth (S k) edge_list 0 - nth k edge_list 0 == inject_Z per * delta.
Proof.
  intros k H. rewrite !edge_inner by lia. rewrite Nat2Z.inj_succ. unfold Z.succ. rewrite inject_Z_plus. change (inject_Z 1) with 1. ring.
Qed.
Lemma edge_final : nth s edge_list 0 - nth (s - 1) edge_list 0 == (snd bnd - fst bnd) - (inject_Z (Z.of_nat s) - 1) * (inject_Z per * delta).
Proof.
  rewrite edge_last, edge_inner by lia. replace (Z.of_nat (s - 1)) with (Z.of_nat s + - (1))%Z by lia. rewrite inject_Z_plus. change (inject_Z (- (1))) with (-1). ring.
Qed.
Lemma edge_final_bounds : inject_Z per * delta <= nth s edge_list 0 - nth (s - 1) edge_list 0 /\
  nth s edge_list 0 - nth (s - 1) edge_list 0 < inject_Z per * delta + inject_Z (Z.of_nat s) * delta.
Proof.
  rewrite edge_final. destruct count_ok as (_ & C1 & C2). destruct per_ok as (_ & P1 & P2).
  assert (Q1 : inject_Z per * inject_Z (Z.of_nat s) * delta <= inject_Z count * delta) by (apply Qmult_le_compat_r; [rewrite <- inject_Z_mult, <- Zle_Qle; exact P1|lra]).
  assert (Q2 : (inject_Z count + 1) * delta <= (inject_Z per + 1) * inject_Z (Z.of_nat s) * delta).
  { apply Qmult_le_compat_r; [|lra]. change 1 with (inject_Z 1). rewrite <- !inject_Z_plus, <- inject_Z_mult, <- Zle_Qle. lia. }
  assert (E1 : (inject_Z (Z.of_nat s) - 1) * (inject_Z per * delta) == inject_Z per * inject_Z (Z.of_nat s) * delta - inject_Z per * delta) by ring.
  assert (E2 : (inject_Z per + 1) * inject_Z (Z.of_nat s) * delta == inject_Z per * inject_Z (Z.of_nat s) * delta + inject_Z (Z.of_nat s) * delta) by ring.
  rewrite E1. rewrite E2 in Q2. split; lra.
Qed.
Lemma edge_first : nth 0 edge_list 0 == fst bnd.
Proof. rewrite edge_inner by lia. change (inject_Z (Z.of_nat 0)) with 0. ring. Qed.
Lemma edge_mono1 : forall k, (k < s)%nat -> nth k edge_list 0 <= nth (S k) edge_list 0.
Proof.
  intros k H. pose proof per_delta. destruct (Nat.eq_dec (S k) s) as [E|N].
  - destruct edge_final_bounds as [B _]. replace (S k) with s by lia. replace k with (s - 1)%nat by lia. lra.
  - pose proof (edge_step k ltac:(lia)). lra.
Qed.
Lemma edge_mono : forall i j, (i <= j <= s)%nat -> nth i edge_list 0 <= nth j edge_list 0.
Proof.
  intros i j [L U]. induction j as [|j IH]; [replace i with 0%nat by lia; lra|]. destruct (Nat.eq_dec i (S j)) as [->|N]; [lra|].
  specialize (IH ltac:(lia) ltac:(lia)). pose proof (edge_mono1 j ltac:(lia)). lra.
Qed.
Lemma edge_locate : forall x, fst bnd <= x -> x < snd bnd -> exists i, (i < s)%nat /\ nth i edge_list 0 <= x < nth (S i) edge_list 0 /\
  forall i', (i' < s)%nat -> nth i' edge_list 0 <= x < nth (S i') edge_list 0 -> i' = i.
Proof.
  intros x L U.
  assert (K : forall k, (k <= s)%nat -> x < nth k edge_list 0 -> exists i, (i < k)%nat /\ nth i edge_list 0 <= x < nth (S i) edge_list 0).
  { induction k as [|k IH]; intros Hk Hx; [exfalso; pose proof edge_first; lra|].
    destruct (Qlt_le_dec x (nth k edge_list 0)) as [A|A]; [destruct (IH ltac:(lia) A) as (i & Hi & B); exists i; split; [lia|exact B]|]. exists k. split; [lia|split; assumption]. }
  destruct (K s ltac:(lia)) as (i & Hi & B); [rewrite edge_last; exact U|]. exists i. split; [exact Hi|]. split; [exact B|]. intros i' Hi' B'.
  destruct (Nat.lt_trichotomy i' i) as [C|[C|C]]; [exfalso|exact C|exfalso].
  - pose proof (edge_mono (S i') i ltac:(lia)). lra.
  - pose proof (edge_mono (S i) i' ltac:(lia)). lra.
Qed.
End Edges.

(** * Cells *)
Lemma grid_edges_exact : forall lo hi d m, 0 < d -> hi - lo == inject_Z (Z.of_nat m) * d ->
  List.length (grid_edges (lo, hi) d) = S m /\ forall k, (k <= m)%nat -> nth k (grid_edges (lo, hi) d) 0 = lo + inject_Z (Z.of_nat k) * d.
Proof.
  intros lo hi d m Hd E. unfold grid_edges. cbn [fst snd].
  assert (C : Qceiling ((hi + d - lo) / d) = Z.of_nat (S m)).
  { rewrite (Qceiling_comp _ (inject_Z (Z.of_nat (S m)))); [unfold Qceiling; rewrite <- inject_Z_opp, Qfloor_Z; lia|].
    rewrite Nat2Z.inj_succ. unfold Z.succ. rewrite inject_Z_plus. change (inject_Z 1) with 1. assert (E' : hi + d - lo == (inject_Z (Z.of_nat m) + 1) * d) by (rewrite Qmult_plus_distr_l, <- E; ring).
    rewrite E'. field. lra. }
  rewrite C, Nat2Z.id. split; [rewrite map_length, seq_length; reflexivity|]. intros k Hk.
  rewrite nth_map_seq by lia. reflexivity.
Qed.
Lemma forall2_nth : forall (a b : list Q), List.length a = List.length b ->
  (forall k x y, nth_error a k = Some x -> nth_error b k = Some y -> x == y) -> qlist_eq a b.
Proof.
  induction a as [|x a IH]; intros [|y b] L H; try discriminate L; [constructor|]. constructor; [apply (H 0%nat); reflexivity|].
  apply IH; [cbn in L; lia|]. intros k u v U V. apply (H (S k)); assumption.
Qed.
Lemma qlist_refl : forall a, qlist_eq a a.
Proof. induction a; constructor; auto. reflexivity. Qed.
Lemma qlist_trans : forall a b c, qlist_eq a b -> qlist_eq b c -> qlist_eq a c.
Proof. intros a b c H. revert c. induction H; intros c K; inversion K; subst; constructor; [etransitivity; eassumption|apply IHForall2; assumption]. Qed.
Lemma qlist_sym : forall a b, qlist_eq a b -> qlist_eq b a.
Proof. intros a b H. induction H; constructor; auto. symmetry. assumption. Qed.
Lemma qlist_app : forall a b c d, qlist_eq a b -> qlist_eq c d -> qlist_eq (a ++ c) (b ++ d).
Proof. intros. apply Forall2_app; assumption. Qed.
Lemma cells_length : forall lo d m, List.length (cells lo d m) = m.
Proof. intros. unfold cells. rewrite map_length, seq_length. reflexivity. Qed.
Lemma cells_nth : forall lo d m k, (k < m)%nat -> nth_error (cells lo d m) k = Some (lo + (inject_Z (Z.of_nat k) + (1 # 2)) * d).
Proof. intros lo d m k H. unfold cells. rewrite nth_error_map, nth_error_seq by exact H. reflexivity. Qed.
Lemma trimmed_cells : forall lo hi d m n, 0 < d -> hi - lo == inject_Z (Z.of_nat m) * d -> (0 <= n)%Z ->
  qlist_eq (slice_list (pad_slice n) (centers (grid_edges (lo - inject_Z n * d, hi + inject_Z n * d) d))) (cells lo d m).
Proof.
  intros lo hi d m n Hd E Hn. set (p := Z.to_nat n). assert (En : n = Z.of_nat p) by (subst p; lia). rewrite En. clearbody p. clear n Hn En.
  destruct (grid_edges_exact (lo - inject_Z (Z.of_nat p) * d) (hi + inject_Z (Z.of_nat p) * d) d (m + 2 * p) Hd) as [L N].
  { replace (Z.of_nat (m + 2 * p)) with (Z.of_nat m + Z.of_nat p + Z.of_nat p)%Z by lia. rewrite !inject_Z_plus.
    assert (E2 : hi == lo + inject_Z (Z.of_nat m) * d) by lra. rewrite E2. ring. }
  destruct (coords _ p m L) as [CL CN]. apply forall2_nth; [rewrite CL, cells_length; reflexivity|]. intros k x y X Y.
  assert (K : (k < m)%nat) by (rewrite <- CL; apply nth_error_Some; congruence). rewrite (CN k K) in X. rewrite (cells_nth _ _ _ _ K) in Y. inversion X. inversion Y.
  unfold center. rewrite !N by lia. replace (Z.of_nat (S (p + k))) with (Z.of_nat p + Z.of_nat k + 1)%Z by lia. replace (Z.of_nat (p + k)) with (Z.of_nat p + Z.of_nat k)%Z by lia.
  rewrite !inject_Z_plus. change (inject_Z 1) with 1. field.
Qed.
Lemma cells_shift : forall lo lo' d k m n, lo' == lo + inject_Z (Z.of_nat k) * d -> (k + m <= n)%nat ->
  qlist_eq (cells lo' d m) (firstn m (skipn k (cells lo d n))).
Proof.
  intros lo lo' d k m n E H. apply forall2_nth.
  - rewrite firstn_length, skipn_length, !cells_length. lia.
  - intros i x y X Y. assert (K : (i < m)%nat) by (rewrite <- (cells_length lo' d m); apply nth_error_Some; congruence).
    rewrite cells_nth in X by exact K. rewrite nth_error_firstn in Y by exact K. rewrite nth_error_skipn, cells_nth in Y by lia. inversion X. inversion Y.
    rewrite E, Nat2Z.inj_add, inject_Z_plus. ring.
Qed.
(** Consecutive pieces of a list. *)
Lemma pieces : forall A (l : list A) p s k, (k + s * p <= List.length l)%nat ->
  List.concat (map (fun i => firstn p (skipn (k + i * p) l)) (seq 0 s)) = firstn (s * p) (skipn k l).
Proof.
  intros A l p s. induction s as [|s IH]; intros k H; [reflexivity|].
  rewrite seq_S, map_app, concat_app, IH by lia. cbn [map List.concat app plus]. rewrite app_nil_r.
  rewrite <- (firstn_skipn (s * p) (firstn (S s * p) (skipn k l))) at 1.
  rewrite firstn_firstn. replace (Nat.min (s * p) (S s * p)) with (s * p)%nat by (cbn; lia). f_equal.
  rewrite skipn_firstn_comm. replace (S s * p - s * p)%nat with p by (cbn; lia). f_equal.
  clear. revert k. generalize (s * p)%nat as q. intros q k. revert l. induction k; intros l; [reflexivity|]. destruct l; [cbn; rewrite skipn_nil; reflexivity|]. cbn. apply IHk.
Qed.
Lemma skipn_add : forall A n m (l : list A), skipn n (skipn m l) = skipn (m + n) l.
Proof. intros A n m. induction m; intros l; [reflexivity|]. destruct l; [cbn; apply skipn_nil|]. cbn. apply IHm. Qed.

(** * Tiles *)
Lemma filter_prod_snd : forall (l1 l2 : list nat) j, NoDup l2 -> In j l2 ->
  filter (fun p => Nat.eqb (snd p) j) (list_prod l1 l2) = map (fun i => (i, j)) l1.
Proof.
  induction l1 as [|a l1 IH]; intros l2 j ND Hj; [reflexivity|]. cbn [list_prod map]. rewrite filter_app, IH by assumption.
  change ((a, j) :: map (fun i => (i, j)) l1) with ([(a, j)] ++ map (fun i => (i, j)) l1). f_equal. clear IH. revert ND Hj.
  induction l2 as [|b l2 IH]; intros ND Hj; [destruct Hj|]. inversion ND; subst. cbn [map filter snd]. destruct (Nat.eqb_spec b j) as [->|N].
  - f_equal. clear IH ND Hj. induction l2 as [|c l2 IH]; [reflexivity|]. cbn [map filter snd]. destruct (Nat.eqb_spec c j) as [->|M]; [exfalso; apply H1; left; reflexivity|].
    apply IH; [intros K; apply H1; right; exact K|inversion H2; assumption].
  - apply IH; [assumption|]. destruct Hj; [congruence|assumption].
Qed.
Lemma filter_prod_fst : forall (l1 l2 : list nat) i, NoDup l1 -> In i l1 ->
  filter (fun p => Nat.eqb (fst p) i) (list_prod l1 l2) = map (fun j => (i, j)) l2.
Proof.
  assert (A : forall a l2 i, filter (fun p => Nat.eqb (fst p) i) (map (fun j : nat => (a, j)) l2) = if Nat.eqb a i then map (fun j => (a, j)) l2 else []).
  { intros a l2 i. induction l2 as [|b l2 IH]; [destruct (Nat.eqb a i); reflexivity|]. cbn [map filter fst]. rewrite IH. destruct (Nat.eqb a i); reflexivity. }
  induction l1 as [|a l1 IH]; intros l2 i ND Hi; [destruct Hi|]. inversion ND; subst. cbn [list_prod]. rewrite filter_app, A. destruct (Nat.eqb_spec a i) as [->|N].
  - rewrite <- (app_nil_r (map (fun j => (i, j)) l2)) at 2. f_equal. clear IH Hi ND. induction l1 as [|c l1 IH]; [reflexivity|]. cbn [list_prod]. rewrite filter_app, A.
    destruct (Nat.eqb_spec c i) as [->|M]; [exfalso; apply H1; left; reflexivity|]. apply IH; [intros K; apply H1; right; exact K|inversion H2; assumption].
  - apply IH; [assumption|]. destruct Hi; [congruence|assumption].
Qed.
Lemma filter_map_comm : forall A B (g : A -> B) (p : B -> bool) l, filter p (map g l) = map g (filter (fun a => p (g a)) l).
Proof. intros A B g p l. induction l as [|a l IH]; [reflexivity|]. cbn. destruct (p (g a)); cbn; rewrite IH; reflexivity. Qed.

Section Axis.
(** One axis of the subdivision: bounds, spacing, number of tiles, cells of padding. *)
Variables (bnd : Q * Q) (d : Q) (s N : nat) (n : Z).
Hypothesis D : 0 < d.
Hypothesis S1 : (1 <= s)%nat.
Hypothesis WN : snd bnd - fst bnd == inject_Z (Z.of_nat N) * d.
Hypothesis Hn : (0 <= n)%Z.
Let W : fst bnd <= snd bnd.
Proof. assert (0 <= inject_Z (Z.of_nat N) * d); [|lra]. apply Qmult_le_0_compat; [|lra]. change 0 with (inject_Z 0). rewrite <- Zle_Qle. lia. Qed.
Definition size (i : nat) : nat := if Nat.ltb (S i) s then (N / s)%nat else (N - (s - 1) * (N / s))%nat.
Lemma count_N : count bnd d = Z.of_nat N.
Proof. unfold count. apply qint_int; [lia|]. rewrite WN. field. lra. Qed.
Lemma per_N : per bnd d s = Z.of_nat (N / s).
Proof.
  destruct (per_ok bnd d s D W S1) as (A & B). rewrite count_N in B. rewrite Nat2Z.inj_div. apply Z.div_unique with (r := (Z.of_nat N - Z.of_nat s * per bnd d s)%Z); lia.
Qed.
Lemma N_bound : (s * (N / s) <= N)%nat.
Proof. apply Nat.mul_div_le. lia. Qed.
Lemma tile_width : forall i, (i < s)%nat -> nth (S i) (edge_list bnd d s) 0 - nth i (edge_list bnd d s) 0 == inject_Z (Z.of_nat (size i)) * d.
Proof.
  intros i Hi. unfold size. destruct (Nat.ltb_spec (S i) s) as [L|G].
  - rewrite edge_step by lia. rewrite per_N. reflexivity.
  - replace (S i) with s by lia. replace i with (s - 1)%nat by lia. rewrite edge_final by assumption. rewrite per_N, WN.
    pose proof N_bound. replace (Z.of_nat (N - (s - 1) * (N / s))) with (Z.of_nat N + - ((Z.of_nat s + - (1)) * Z.of_nat (N / s)))%Z by nia.
    rewrite inject_Z_plus, inject_Z_opp, inject_Z_mult, inject_Z_plus. change (inject_Z (- (1))) with (-1). ring.
Qed.
Definition axis_coords (i : nat) : list Q :=
  slice_list (pad_slice n) (centers (grid_edges (padded (edge_list bnd d s) i (inject_Z n * d)) d)).
Lemma axis_cells : forall i, (i < s)%nat -> qlist_eq (axis_coords i) (cells (nth i (edge_list bnd d s) 0) d (size i)).
Proof. intros i Hi. unfold axis_coords, padded. apply trimmed_cells; auto. apply tile_width. exact Hi. Qed.
Lemma axis_piece : forall i, (i < s)%nat -> qlist_eq (axis_coords i) (firstn (size i) (skipn (i * (N / s)) (cells (fst bnd) d N))).
Proof.
  intros i Hi. eapply qlist_trans; [apply axis_cells; exact Hi|]. apply cells_shift.
  - rewrite edge_inner by exact Hi. rewrite per_N, Nat2Z.inj_mul, inject_Z_mult. ring.
  - pose proof N_bound. unfold size. destruct (Nat.ltb_spec (S i) s); nia.
Qed.
Lemma qlist_concat : forall (f g : nat -> list Q) l, (forall i, In i l -> qlist_eq (f i) (g i)) -> qlist_eq (List.concat (map f l)) (List.concat (map g l)).
Proof. intros f g l H. induction l as [|a l IH]; [constructor|]. cbn. apply qlist_app; [apply H; left; reflexivity|apply IH; intros; apply H; right; assumption]. Qed.
Lemma axis_join : qlist_eq (List.concat (map axis_coords (seq 0 s))) (cells (fst bnd) d N).
Proof.
  eapply qlist_trans; [apply qlist_concat; intros i Hi; apply axis_piece; apply in_seq in Hi; lia|].
  pose proof N_bound as NB. set (l := cells (fst bnd) d N). assert (LL : List.length l = N) by apply cells_length. clearbody l.
  destruct s as [|s'] eqn:ES; [lia|]. rewrite <- ES in *. replace s with (s' + 1)%nat by lia. rewrite seq_app, map_app, concat_app. cbn [seq map List.concat plus]. rewrite app_nil_r.
  assert (E1 : List.concat (map (fun i => firstn (size i) (skipn (i * (N / (s' + 1))) l)) (seq 0 s')) = firstn (s' * (N / s)) l).
  { change l with (skipn 0 l) at 2. rewrite <- (pieces _ l (N / s) s' 0) by nia. f_equal. apply map_ext_in. intros i Hi. apply in_seq in Hi. unfold size.
    replace (Nat.ltb (S i) s) with true by (symmetry; apply Nat.ltb_lt; lia). replace (s' + 1)%nat with s by lia. reflexivity. }
  rewrite E1. unfold size. replace (Nat.ltb (S s') s) with false by (symmetry; apply Nat.ltb_ge; lia). replace (s' + 1)%nat with s by lia. replace (s - 1)%nat with s' by lia.
  rewrite <- (firstn_skipn (s' * (N / s)) l) at 3. apply qlist_app; [apply qlist_refl|].
  rewrite firstn_all2; [apply qlist_refl|]. rewrite skipn_length, LL. lia.
Qed.
Lemma whole_cells : qlist_eq (centers (grid_edges bnd d)) (cells (fst bnd) d N).
Proof using D WN.
  clear S1 Hn.
  pose proof (trimmed_cells (fst bnd) (snd bnd) d N 0 D WN ltac:(lia)) as K. cbn [pad_slice Z.eqb] in K. 
  assert (E : forall A (l : list A), slice_list slice_all l = l).
  { intros A l. unfold slice_list, slice_len, slice_lo, slice_hi, slice_all. cbn [sl_lo sl_hi skipn]. rewrite Nat.sub_0_r. apply firstn_all. }
  unfold pad_slice in K. cbn [Z.eqb] in K. rewrite E in K. eapply qlist_trans; [|exact K].
  destruct (grid_edges_exact (fst bnd) (snd bnd) d N D WN) as [L1 N1].
  destruct (grid_edges_exact (fst bnd - inject_Z 0 * d) (snd bnd + inject_Z 0 * d) d N D) as [L2 N2]; [rewrite <- WN; change (inject_Z 0) with 0; ring|].
  rewrite <- surjective_pairing in L1, N1. apply forall2_nth; [rewrite !centers_length; congruence|]. intros k x y X Y.
  assert (Hk : (S k < S N)%nat) by (assert (k < List.length (centers (grid_edges bnd d)))%nat by (apply nth_error_Some; congruence); rewrite centers_length, L1 in H; lia).
  rewrite centers_nth in X by lia. rewrite centers_nth in Y by lia. inversion X. inversion Y. unfold center. rewrite !N1, !N2 by lia. change (inject_Z 0) with 0. field.
Qed.
End Axis.

Lemma tiles_eq : forall x_bnd y_bnd dx dy s, 0 < dx -> 0 < dy -> fst x_bnd <= snd x_bnd -> fst y_bnd <= snd y_bnd -> (1 <= s)%nat ->
  let nx := qint (default_pad / dx) in let ny := qint (default_pad / dy) in
  (0 <= nx)%Z /\ (0 <= ny)%Z /\
  subdivided_fixed_grid x_bnd y_bnd dx dy s = Ok (map (fun ij => mkTile (fst ij) (snd ij) (padded (edge_list x_bnd dx s) (fst ij) (inject_Z nx * dx)) (padded (edge_list y_bnd dy s) (snd ij) (inject_Z ny * dy)) nx ny) (list_prod (seq 0 s) (seq 0 s))).
Proof.
  intros x_bnd y_bnd dx dy s DX DY WX WY S1 nx ny. split; [|split].
  - apply qint_nonneg. apply div_nonneg; [discriminate|exact DX].
  - apply qint_nonneg. apply div_nonneg; [discriminate|exact DY].
  - unfold subdivided_fixed_grid. destruct (Qeq_bool dx 0) eqn:ZX; [apply Qeq_bool_iff in ZX; lra|]. destruct (Qeq_bool dy 0) eqn:ZY; [apply Qeq_bool_iff in ZY; lra|]. cbn [orb].
    rewrite (subdivide_eq x_bnd dx s DX S1), (subdivide_eq y_bnd dy s DY S1). reflexivity.
Qed.

(** * The loop over tiles *)
Section Run.
Variable gridder_of : tile -> gridder.
Variable gridded : tile -> list array3.
Variable sc : scenes.
Variable stamp : Q -> datetime.
Variable clock : tile -> nat -> datetime.
Notation RUN := (run gridder_of gridded sc stamp clock).
Lemma dict_get_del : forall k k' d, k <> k' -> dict_get k (dict_del k' d) = dict_get k d.
Proof.
  intros k k' d N. unfold dict_get, dict_del. induction d as [|[a v] d IH]; [reflexivity|]. cbn [filter find fst]. destruct (String.eqb_spec a k') as [->|A]; cbn [negb].
  - destruct (String.eqb_spec k' k); [congruence|]. exact IH.
  - cbn [find fst]. destruct (String.eqb a k); [reflexivity|exact IH].
Qed.
Lemma dict_get_del_same : forall k d, dict_get k (dict_del k d) = None.
Proof.
  intros k d. unfold dict_get, dict_del. induction d as [|[a v] d IH]; [reflexivity|]. cbn [filter fst]. destruct (String.eqb_spec a k) as [->|A]; cbn [negb]; [exact IH|].
  cbn [find fst]. destruct (String.eqb_spec a k); [congruence|]. exact IH.
Qed.
Lemma find_app : forall A (p : A -> bool) l l', find p (l ++ l') = match find p l with Some a => Some a | None => find p l' end.
Proof. intros A p l l'. induction l as [|a l IH]; [reflexivity|]. cbn. destruct (p a); auto. Qed.
Lemma dict_get_set : forall k v d, dict_get k (dict_set k v d) = Some v.
Proof.
  intros k v d. unfold dict_set. pose proof (dict_get_del_same k d) as H. unfold dict_get in *. rewrite find_app. destruct (find _ (dict_del k d)); [discriminate H|].
  cbn [find fst snd]. rewrite String.eqb_refl. reflexivity.
Qed.
Lemma dict_get_set_other : forall k k' v d, k <> k' -> dict_get k (dict_set k' v d) = dict_get k d.
Proof.
  intros k k' v d N. rewrite <- (dict_get_del k k' d N). unfold dict_set, dict_get. rewrite find_app. destruct (find _ (dict_del k' d)); [reflexivity|].
  cbn [find fst]. destruct (String.eqb_spec k' k); [congruence|reflexivity].
Qed.
Definition wanted (o : option dict) : bool :=
  match o with None => true | Some d => match dict_get "scale_and_offset" d with Some v => truth v | None => true end end.
Lemma proc_tile_inv : forall t o o' b fl, proc_tile gridder_of gridded sc stamp clock t o = Ok (o', b, fl) ->
  b = wanted o /\ wanted o' = true /\ (o = None -> o' = None) /\
  exists after, write_goes_imagery (gridder_of t) (pad_slice (t_npx t)) (pad_slice (t_npy t)) b sc stamp (clock t) (gridded t) = Ok (after, fl).
Proof.
  intros t o o' b fl H. unfold proc_tile in H. apply bind_ok_inv in H. destruct H as (((d' & b0) & fl0) & W & H). cbn [fst snd] in H. inversion H; subst o' b fl; clear H.
  unfold write_grids in W. rewrite dict_get_set in W. cbn [bind fst snd] in W. apply bind_ok_inv in W. destruct W as ((af & fl1) & W & E). cbn [snd] in E. inversion E; subst d' b0 fl1; clear E.
  rewrite dict_get_del in * by discriminate. rewrite dict_get_set_other in * by discriminate. split; [destruct o; reflexivity|]. split; [|split].
  - destruct o; [|reflexivity]. cbn [wanted]. rewrite dict_get_del_same. reflexivity.
  - intros ->. reflexivity.
  - exists af. exact W.
Qed.
Lemma run_inv : forall ts o fs out fs', RUN ts o fs = Ok (out, fs') ->
  map (fun r => fst (fst r)) out = ts /\
  (forall k r, nth_error out k = Some r -> snd (fst r) = match k with O => wanted o | S _ => true end) /\
  (forall r, In r out -> exists after, write_goes_imagery (gridder_of (fst (fst r))) (pad_slice (t_npx (fst (fst r)))) (pad_slice (t_npy (fst (fst r)))) (snd (fst r)) sc stamp (clock (fst (fst r))) (gridded (fst (fst r))) = Ok (after, snd r)) /\
  fs' = fold_left file_put (flat_map snd out) fs.
Proof.
  induction ts as [|t ts IH]; intros o fs out fs' H; cbn [run] in H.
  - inversion H; subst. split; [reflexivity|]. split; [intros [|k] r E; discriminate E|]. split; [intros r []|reflexivity].
  - apply bind_ok_inv in H. destruct H as (((o1 & b) & fl) & P & H). cbn [fst snd] in H. apply bind_ok_inv in H. destruct H as ((out1 & fs1) & R & H). cbn [fst snd] in H. inversion H; subst out fs'; clear H.
    destruct (proc_tile_inv _ _ _ _ _ P) as (B & W & N & AF). destruct (IH _ _ _ _ R) as (M & K & F & E). split; [cbn; rewrite M; reflexivity|]. split; [|split].
    + intros [|k] r Hk; cbn [nth_error] in Hk; [inversion Hk; exact B|]. rewrite (K k r Hk). destruct k; auto.
    + intros r [<-|Hr]; [exact AF|apply F; exact Hr].
    + rewrite E. cbn [flat_map snd]. rewrite fold_left_app. reflexivity.
Qed.
Lemma file_at_put : forall fs f p, file_at (file_put fs f) p = if list_eq_dec Ascii.ascii_dec (lit "./" ++ of_name f) p then Some f else file_at fs p.
Proof. intros fs f p. unfold file_at, file_put. cbn [find fst]. destruct (list_eq_dec Ascii.ascii_dec (lit "./" ++ of_name f) p); reflexivity. Qed.
Lemma kept : forall fl fs p, (forall f, In f fl -> lit "./" ++ of_name f <> p) -> file_at (fold_left file_put fl fs) p = file_at fs p.
Proof.
  induction fl as [|f fl IH]; intros fs p H; [reflexivity|]. cbn [fold_left]. rewrite IH by (intros; apply H; right; assumption). rewrite file_at_put.
  destruct (list_eq_dec Ascii.ascii_dec (lit "./" ++ of_name f) p) as [E|_]; [|reflexivity]. exfalso. apply (H f); [left; reflexivity|exact E].
Qed.
Lemma all_kept : forall fl fs f, NoDup (map of_name fl) -> In f fl -> file_at (fold_left file_put fl fs) (lit "./" ++ of_name f) = Some f.
Proof.
  induction fl as [|g fl IH]; intros fs f ND Hf; [destruct Hf|]. cbn [map] in ND. inversion ND; subst. cbn [fold_left]. destruct Hf as [->|Hf]; [|apply IH; assumption].
  rewrite kept; [rewrite file_at_put; destruct (list_eq_dec _ _ _); [reflexivity|congruence]|]. intros f' Hf' E. apply app_inv_head in E. apply H1. rewrite <- E. apply in_map. exact Hf'.
Qed.
End Run.
Lemma frames_names : forall gd xs ys scaled sc stamp nows edges st t S files, write_frames gd xs ys scaled sc stamp nows st t edges = Ok (S, files) ->
  forall k f, nth_error files k = Some f -> exists t0 t1 scene, nth_error edges k = Some t0 /\ nth_error edges (Datatypes.S k) = Some t1 /\
    dataset_name (stamp t0) (stamp t1) (nows (t + k)%nat) (gd_platform gd) scene "ABI Mode 3" = Ok (of_name f).
Proof.
  intros gd xs ys scaled sc stamp nows edges. induction edges as [|e0 edges IH]; intros st t S files H k f Hk; [inversion H; subst; destruct k; discriminate Hk|].
  destruct edges as [|e1 edges]; [inversion H; subst; destruct k; discriminate Hk|].
  change (write_frames gd xs ys scaled sc stamp nows st t (e0 :: e1 :: edges)) with
    (so <- write_frame gd xs ys scaled sc stamp (nows t) st t e0 e1 ;;
     r <- write_frames gd xs ys scaled sc stamp nows (fst so) (Datatypes.S t) (e1 :: edges) ;; Ok (fst r, snd so :: snd r)) in H.
  apply bind_ok_inv in H. destruct H as ((S1 & f0) & W1 & H). apply bind_ok_inv in H. destruct H as ((S2 & fs) & W2 & H). cbn [fst snd] in *. inversion H; subst S2 files; clear H.
  destruct k as [|k]; cbn [nth_error] in Hk.
  - inversion Hk; subst f0. unfold write_frame in W1. apply bind_ok_inv in W1. destruct W1 as (scene & _ & W1). apply bind_ok_inv in W1. destruct W1 as (name & EN & W1). apply bind_ok_inv in W1. destruct W1 as (st' & _ & W1).
    inversion W1. exists e0, e1, scene. rewrite Nat.add_0_r. repeat split. cbn [of_name]. exact EN.
  - destruct (IH _ _ _ _ W2 k f Hk) as (t0 & t1 & scene & A & B & C). exists t0, t1, scene. split; [exact A|]. split; [exact B|]. replace (t + Datatypes.S k)%nat with (Datatypes.S t + k)%nat by lia. exact C.
Qed.
