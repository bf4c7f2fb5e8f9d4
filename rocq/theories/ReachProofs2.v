(** Lemmas for C108: the edges of a tile among the edges of the undivided grid; the
    selection that a call asks for. *)
From Coq Require Import String List ZArith QArith Qround Bool Lia Lqa.
From Verif Require Import Base BaseProofs Glm Lut FileName Imagery Aggregate Output Tiles TilesProofs Gridder Calls CallsSpec CallsProofs Reach.
Import ListNotations.
Open Scope Q_scope.

Section Axis.
Variables (bnd : Q * Q) (d : Q) (s N : nat) (n : Z).
Hypothesis D : 0 < d.
Hypothesis S1 : (1 <= s)%nat.
Hypothesis WN : snd bnd - fst bnd == inject_Z (Z.of_nat N) * d.
Hypothesis Hn : (0 <= n)%Z.
Hypothesis SN : (s <= N)%nat.
Let W : fst bnd <= snd bnd.
Proof. assert (0 <= inject_Z (Z.of_nat N) * d); [|lra]. apply Qmult_le_0_compat; [|lra]. change 0 with (inject_Z 0). rewrite <- Zle_Qle. lia. Qed.
Local Notation axis_edges s i := (grid_edges (padded (edge_list bnd d s) i (inject_Z n * d)) d).
Local Notation m i := (size s N i + 2 * Z.to_nat n)%nat.
Lemma nat_Q : forall k, inject_Z (Z.of_nat (Z.to_nat k)) = inject_Z (Z.max 0 k).
Proof. intros. f_equal. lia. Qed.
Lemma axis_exact : forall i, (i < s)%nat -> List.length (axis_edges s i) = S (m i) /\
  forall k, (k <= m i)%nat -> nth k (axis_edges s i) 0 == fst bnd + (inject_Z (Z.of_nat (i * (N / s) + k)) - inject_Z n) * d.
Proof.
  intros i Hi. unfold padded. destruct (grid_edges_exact (nth i (edge_list bnd d s) 0 - inject_Z n * d) (nth (S i) (edge_list bnd d s) 0 + inject_Z n * d) d (m i) D) as [L V].
  { pose proof (tile_width bnd d s N D S1 WN i Hi) as TW. rewrite Nat2Z.inj_add, inject_Z_plus, Nat2Z.inj_mul, inject_Z_mult, Z2Nat.id by lia. change (inject_Z (Z.of_nat 2)) with 2. lra. }
  split; [exact L|]. intros k Hk. rewrite V by exact Hk. rewrite (edge_inner bnd d s i Hi), (per_N bnd d s N D S1 WN).
  rewrite Nat2Z.inj_add, inject_Z_plus, Nat2Z.inj_mul, inject_Z_mult. ring.
Qed.
Lemma size_pos : forall i, (i < s)%nat -> (1 <= size s N i)%nat /\ (i * (N / s) + size s N i <= N)%nat.
Proof.
  intros i Hi. pose proof (N_bound s N S1). assert (1 <= N / s)%nat by (apply Nat.div_le_lower_bound; lia). unfold size. destruct (Nat.ltb_spec (S i) s); nia.
Qed.
Lemma axis_long : forall i, (i < s)%nat -> (1 < List.length (axis_edges s i))%nat.
Proof. intros i Hi. rewrite (proj1 (axis_exact i Hi)). pose proof (size_pos i Hi). lia. Qed.
Lemma axis_increasing : forall i, (i < s)%nat -> forall k l, (k < l < List.length (axis_edges s i))%nat -> nth k (axis_edges s i) 0 < nth l (axis_edges s i) 0.
Proof.
  intros i Hi k l [H1 H2]. destruct (axis_exact i Hi) as [L V]. rewrite L in H2. rewrite !V by lia.
  assert (inject_Z (Z.of_nat (i * (N / s) + k)) < inject_Z (Z.of_nat (i * (N / s) + l))) by (rewrite <- Zlt_Qlt; lia). nra.
Qed.
End Axis.
(** A cell of a tile is a cell of the undivided grid. *)
Lemma axis_common : forall bnd d s N n i k, 0 < d -> (1 <= s)%nat -> snd bnd - fst bnd == inject_Z (Z.of_nat N) * d -> (0 <= n)%Z -> (s <= N)%nat -> (i < s)%nat ->
  let te := grid_edges (padded (edge_list bnd d s) i (inject_Z n * d)) d in
  let we := grid_edges (padded (edge_list bnd d 1) 0 (inject_Z n * d)) d in
  (k < List.length te)%nat -> (i * (N / s) + k < List.length we)%nat /\ nth k te 0 == nth (i * (N / s) + k) we 0.
Proof.
  intros bnd d s N n i k D S1 WN Hn SN Hi te we Hk.
  destruct (axis_exact bnd d s N n D S1 WN Hn SN i Hi) as [L V]. destruct (axis_exact bnd d 1 N n D (le_n 1) WN Hn ltac:(lia) 0%nat (le_n 1)) as [L' V'].
  fold te in L, V. fold we in L', V'. rewrite L in Hk. pose proof (size_pos s N S1 SN i Hi) as SP. assert (size 1 N 0 = N) by (unfold size; cbn; lia).
  split; [rewrite L'; lia|]. rewrite V, V' by lia. rewrite Nat.div_1_r. reflexivity.
Qed.
(** The bounds of a tile are within those of the undivided grid. *)
Lemma padded_inside : forall bnd d s N n i x, 0 < d -> (1 <= s)%nat -> snd bnd - fst bnd == inject_Z (Z.of_nat N) * d -> (i < s)%nat ->
  fst (padded (edge_list bnd d s) i (inject_Z n * d)) < x -> x < snd (padded (edge_list bnd d s) i (inject_Z n * d)) ->
  fst (padded (edge_list bnd d 1) 0 (inject_Z n * d)) < x /\ x < snd (padded (edge_list bnd d 1) 0 (inject_Z n * d)).
Proof.
  intros bnd d s N n i x D S1 WN Hi. unfold padded. cbn [fst snd].
  assert (W : fst bnd <= snd bnd). { assert (0 <= inject_Z (Z.of_nat N) * d); [|lra]. apply Qmult_le_0_compat; [|lra]. change 0 with (inject_Z 0). rewrite <- Zle_Qle. lia. }
  pose proof (edge_mono bnd d s D W S1 0 i ltac:(lia)) as A. pose proof (edge_mono bnd d s D W S1 (S i) s ltac:(lia)) as B. rewrite (edge_last bnd d s S1) in B.
  pose proof (edge_first bnd d s S1) as C. pose proof (edge_first bnd d 1 (le_n 1)) as C'. pose proof (edge_last bnd d 1 (le_n 1)) as B'. rewrite B'. intros U V. split; lra.
Qed.

(** * Selection *)
Open Scope string_scope.
Open Scope list_scope.
(** The minimum that an argument stands for, none if it is left out or None. *)
Definition minimum (kw : kwargs) (k : string) (n : option Z) : Prop :=
  ((omitted kw k \/ In (k, KNone) kw) /\ n = None) \/ (exists m, In (k, KNat m) kw /\ n = Some (Z.of_nat m)).
Lemma kget_of : forall d k v, keywords d -> In (k, v) d -> kget k d = Some v.
Proof. intros. apply kget_given; auto. Qed.
Lemma count_minimum : forall kw b k n, keywords b -> (forall v, In (k, v) b <-> In (k, v) kw) -> minimum kw k n -> count_of (kget k b) = Ok n.
Proof.
  intros kw b k n KB SAME [[[O|O] ->]|(m & I & ->)].
  - assert (kget k b = None) as ->; [|reflexivity]. apply kget_none. intros v I. apply (O v). apply SAME. exact I.
  - apply SAME in O. rewrite (kget_of b k _ KB O). reflexivity.
  - apply SAME in I. rewrite (kget_of b k _ KB I). reflexivity.
Qed.
Lemma asked_names : forall kw a r b, asked kw a r b -> forallb (fun x => existsb (String.eqb (fst x)) process_names) b = true.
Proof.
  intros kw a r b A. apply forallb_forall. intros [k v] I. cbn [fst]. destruct (existsb (String.eqb k) process_names) eqn:E; [reflexivity|]. exfalso.
  apply (asked_other kw a r b A k) with (v := v); [|exact I]. intros J. assert (K : In k process_names) by (unfold process_names; cbn in *; tauto).
  assert (existsb (String.eqb k) process_names = true) by (apply existsb_exists; exists k; split; [exact K|apply String.eqb_refl]). congruence.
Qed.
