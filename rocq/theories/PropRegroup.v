(** C33: merging split events by mesh cell. *)
From Coq Require Import List ZArith QArith Qabs Bool Lia Lqa Permutation Sorting.Sorted.
From Verif Require Import Base BaseProofs Glm Lut LutSpec LutProofs Slice Regroup RegroupSpec RegroupProofs.
Import ListNotations.
Open Scope Z_scope.

(** One row per occupied cell, which merges exactly the split events of that cell. *)
Theorem C33_one_row_per_cell : forall W, W <> [] -> (forall w, In w W -> 0 <= sp_i (w_split w)) ->
  exists R, regroup W = Ok R /\ NoDup (map row_cell R) /\
    (forall c, In c (map row_cell R) <-> exists w, In w W /\ cell_of w = c) /\
    Forall (merged W) R.
Proof.
  intros W NE NN. pose proof (regroup_eq W NE) as E. eexists. split; [exact E|].
  set (key := fun w => sp_j (w_split w) * (zmax (map (fun w => sp_i (w_split w)) W) + 1) + sp_i (w_split w)) in *.
  assert (K : forall k, In k (zunique (map key W)) -> exists w, In w W /\ k = key w /\
     merge_row (filter (fun w => key w =? k) W) = merge_row (in_cell W (cell_of w)) /\
     row_cell (merge_row (filter (fun w => key w =? k) W)) = cell_of w).
  { intros k Hk. apply -> zunique_in in Hk. apply in_map_iff in Hk. destruct Hk as (w & <- & Hw). exists w. split; [exact Hw|]. split; [reflexivity|].
    pose proof (group_cell W NN w Hw) as G. fold key in G. rewrite G. split; [reflexivity|]. apply merge_cell; auto. }
  split; [|split].
  - rewrite map_map. apply nodup_map_on; [|apply zunique_nodup]. intros k k' Hk Hk' EQ.
    destruct (K k Hk) as (w & Hw & -> & _ & R). destruct (K k' Hk') as (w' & Hw' & -> & _ & R'). rewrite R, R' in EQ.
    pose proof (key_cell W NN w w' Hw Hw') as C. fold key in C. apply C. exact EQ.
  - intros c. rewrite map_map, in_map_iff. split.
    + intros (k & Ek & Hk). destruct (K k Hk) as (w & Hw & _ & _ & R). exists w. rewrite <- Ek, R. auto.
    + intros (w & Hw & <-). exists (key w). assert (In (key w) (zunique (map key W))) as Hk by (apply zunique_in; apply in_map; auto).
      split; [|exact Hk]. pose proof (group_cell W NN w Hw) as G. fold key in G. rewrite G. apply merge_cell; auto.
  - apply Forall_forall. intros r Hr. apply in_map_iff in Hr. destruct Hr as (k & <- & Hk). destruct (K k Hk) as (w & Hw & _ & E1 & E2).
    rewrite E1 in E2 |- *. apply (merge_merged W (in_cell W (cell_of w))); [|reflexivity|rewrite E2; reflexivity].
    intros Z. assert (In w (in_cell W (cell_of w))) as I; [|rewrite Z in I; destruct I].
    apply filter_In. split; [auto|]. cbn [cell_of fst snd]. rewrite !Z.eqb_refl. reflexivity.
Qed.
(** Nothing is lost or counted twice: every summed column keeps its total. *)
Theorem C33_sums_preserved : forall W R, regroup W = Ok R ->
  let same (f : weighted -> fval) (g : cellrow -> fval) := numbers (map g R) /\ (total (map g R) == total (map f W))%Q in
  same w_energy ce_power /\ same abs_frac ce_frac /\ same w_count ce_count /\ same w_fcount ce_fcount /\
  same w_gcount ce_gcount /\ same w_farea ce_farea /\ same w_garea ce_garea.
Proof.
  intros W R E same. unfold same. repeat match goal with |- (numbers _ /\ _) /\ _ => split end; (eapply rows_total; [|exact E]; intros B; apply pd_sum_total).
Qed.
(** Two split events are merged iff they lie in the same cell. *)
Theorem C33_merged_iff_same_cell : forall W w w' R, (forall w, In w W -> 0 <= sp_i (w_split w)) ->
  regroup W = Ok R -> In w W -> In w' W ->
  (cell_of w = cell_of w' <-> exists r, In r R /\ In w (in_cell W (row_cell r)) /\ In w' (in_cell W (row_cell r))).
Proof.
  intros W w w' R NN E Hw Hw'. assert (NE : W <> []) by (intros ->; destruct Hw).
  destruct (C33_one_row_per_cell W NE NN) as (R' & E' & _ & C & _). rewrite E in E'. inversion E'; subst R'. clear E'. split.
  - intros EQ. assert (In (cell_of w) (map row_cell R)) as K by (apply C; eauto). apply in_map_iff in K. destruct K as (r & Er & Hr).
    exists r. split; [exact Hr|]. rewrite Er. split; apply filter_In; (split; [auto|]); [|rewrite EQ]; cbn [cell_of fst snd]; rewrite !Z.eqb_refl; reflexivity.
  - intros (r & Hr & H1 & H2). apply filter_In in H1. apply filter_In in H2. destruct H1 as [_ H1], H2 as [_ H2].
    apply andb_true_iff in H1. apply andb_true_iff in H2. rewrite !Z.eqb_eq in *. unfold cell_of. destruct H1, H2. congruence.
Qed.
(** Part of the claim that fails: a batch without split events raises. *)
Example empty_batch_raises : regroup [] = Err ValueError.
Proof. reflexivity. Qed.

Definition ex_w i j e m : weighted :=
  mkWeighted (mkSplit (inject_Z i) 0 (Some 1%Q) (Some (-(1 # 2))%Q) i j (10 + i)) e (Some 1%Q) (Some 1%Q) (Some 1%Q) None None m.
Definition ex_W := [ex_w 3 0 (Some 5%Q) (Some 7%Q); ex_w 0 1 None None; ex_w 3 0 (Some 2%Q) (Some 4%Q)].
Example C33_ex : exists a b, regroup ex_W = Ok [a; b] /\ row_cell a = (3, 0) /\ ce_power a = Some 7%Q /\ ce_minarea a = Some 4%Q /\
  row_cell b = (0, 1) /\ ce_power b = Some 0%Q /\ ce_minarea b = None.
Proof. do 2 eexists. split; [vm_compute; reflexivity|]. repeat (split; [vm_compute; reflexivity|]). vm_compute. reflexivity. Qed.
Example C33_hypotheses : ex_W <> [] /\ forall w, In w ex_W -> 0 <= sp_i (w_split w).
Proof. split; [discriminate|]. intros w [<-|[<-|[<-|[]]]]; vm_compute; discriminate. Qed.
Print Assumptions C33_one_row_per_cell.
Print Assumptions C33_sums_preserved.
Print Assumptions C33_merged_iff_same_cell.
