(** Lemmas for the gridder classes and time frames. *)
From Coq Require Import List ZArith QArith Qabs Bool String Lia Lqa Permutation.
From Verif Require Import Base BaseProofs Traversal Glm GlmProofs3 Lut LutProofs Accum AccumSpec AccumProofs Poly PolySpec BBox BBoxSpec
  Slice SliceSpec Regroup Pipeline PipelineSpec PipelineProofs ChunkSpec ChunkProofs FileName Imagery Gridder GridderSpec.
Import ListNotations.
Open Scope Z_scope.

Local Notation tbl := (table obs).

Lemma map_res_F2 : forall A B (f : A -> res B) l out, Forall2 (fun a b => f a = Ok b) l out -> map_res f l = Ok out.
Proof. induction 1 as [|a b l out E F IH]; cbn [map_res]; [reflexivity|]. rewrite E. cbn [bind]. rewrite IH. reflexivity. Qed.

Lemma skipn_nth2 : forall (l : list Q) t, match skipn t l with a :: b :: _ => nth_error l t = Some a /\ nth_error l (S t) = Some b | _ => nth_error l (S t) = None end.
Proof.
  induction l as [|x l IH]; intros t.
  - rewrite skipn_nil. destruct t; reflexivity.
  - destruct t as [|t].
    + destruct l; cbn; auto.
    + exact (IH t).
Qed.
Lemma in_frame_during : forall te t v, in_frame te t v = duringb te t v.
Proof.
  intros te t v. unfold in_frame, duringb. pose proof (skipn_nth2 te t) as H. destruct (skipn t te) as [|a [|b r]].
  - rewrite H. destruct (nth_error te t); reflexivity.
  - rewrite H. destruct (nth_error te t); reflexivity.
  - destruct H as [-> ->]. reflexivity.
Qed.
Lemma duringb_iff : forall te t v, duringb te t v = true <-> during te t v.
Proof.
  intros te t v. rewrite <- in_frame_during. unfold in_frame, during, Qlt_bool. split.
  - destruct (nth_error te t) as [a|]; [|discriminate]. destruct (nth_error te (S t)) as [b|]; [|discriminate]. intros H. apply andb_true_iff in H. destruct H as [H1 H2].
    apply Qle_bool_iff in H1. exists a, b. repeat split; auto. destruct (Qlt_le_dec v b) as [|L]; auto. apply Qle_bool_iff in L. rewrite L in H2. discriminate.
  - intros (a & b & -> & -> & H1 & H2). apply andb_true_iff. split; [apply Qle_bool_iff; auto|]. destruct (Qle_bool b v) eqn:E; [|reflexivity]. apply Qle_bool_iff in E. lra.
Qed.

Lemma accumulate_skip : forall batches g, accumulate g (filter (fun b => negb (Nat.eqb (List.length b) 0)) batches) = accumulate g batches.
Proof.
  unfold accumulate. induction batches as [|b bs IH]; intros g; [reflexivity|]. cbn [filter]. destruct b as [|i b].
  - cbn [List.length Nat.eqb negb]. rewrite IH. reflexivity.
  - cbn [List.length Nat.eqb negb fold_res]. destruct (add_batch g (i :: b)); cbn [bind]; [apply IH|reflexivity].
Qed.
Lemma accumulate_min_skip : forall batches g, accumulate_min g (filter (fun b => negb (Nat.eqb (List.length b) 0)) batches) = accumulate_min g batches.
Proof.
  unfold accumulate_min. induction batches as [|b bs IH]; intros g; [reflexivity|]. cbn [filter]. destruct b as [|i b].
  - cbn [List.length Nat.eqb negb]. rewrite IH. reflexivity.
  - cbn [List.length Nat.eqb negb fold_res]. destruct (min_batch g (i :: b)); cbn [bind]; [apply IH|reflexivity].
Qed.

Section G.
Variable set_order : list Z -> list Z.
Variable weird : fval -> Z.
Variable clip : poly -> poly -> list poly.
Variable tree : Q * Q -> list (Z * Z).
Variable quad : fval -> fval -> poly.
Variables (xe ye te : list Q).
Let m := mkMesh (meshgrid_x xe ye) (meshgrid_y xe ye) true.
Let nx := Z.of_nat (List.length xe) - 1.
Let ny := Z.of_nat (List.length ye) - 1.
Variable chunk_size : nat.
Variable q : option query.

Lemma frame_sent : forall (col : cellrow -> fval) t bs,
  select_dataset true (map (fun b => (items col (frame_rows te t b), [])) bs) =
  filter (fun b => negb (Nat.eqb (List.length b) 0)) (map (items col) (map b_rows (filter (fun b => duringb te t (b_time b)) bs))).
Proof.
  intros col t bs. unfold select_dataset. rewrite map_map. cbn [fst]. induction bs as [|b bs IH]; [reflexivity|].
  cbn [map filter]. unfold frame_rows at 1 2. rewrite in_frame_during. destruct (duringb te t (b_time b)); cbn [map filter].
  - destruct (negb (Nat.eqb (List.length (items col (b_rows b))) 0)); rewrite IH; reflexivity.
  - cbn [items map List.length Nat.eqb negb]. exact IH.
Qed.
Lemma frame_sum : forall name col t bs, column name = Ok col ->
  frame_grid xe ye te bs (Sum name) t = accumulate (zeros nx ny) (map (items col) (map b_rows (filter (fun b => duringb te t (b_time b)) bs))).
Proof. intros name col t bs H. unfold frame_grid. rewrite H. cbn [bind]. rewrite frame_sent, accumulate_skip. reflexivity. Qed.
Lemma frame_min : forall name col t bs, column name = Ok col ->
  frame_grid xe ye te bs (Min name) t = accumulate_min (zeros nx ny) (map (items col) (map b_rows (filter (fun b => duringb te t (b_time b)) bs))).
Proof. intros name col t bs H. unfold frame_grid. rewrite H. cbn [bind]. rewrite frame_sent, accumulate_min_skip. reflexivity. Qed.

(** One file, read for its rows. *)
Definition read_file (ds : list tbl) : res (list (list cellrow)) :=
  match nth_error ds 2 with
  | Some [] => Ok []
  | Some _ => read_flashes set_order weird clip tree quad m chunk_size ds q
  | None => Err AttributeError end.
Lemma read_batches_rows : forall f bs, read_batches set_order weird clip tree quad xe ye chunk_size q f = Ok bs ->
  read_file (f_ds f) = Ok (map b_rows bs) /\ Forall (fun b => b_time b = f_time f) bs.
Proof.
  intros f bs. unfold read_batches, read_file, read_flashes. fold m. destruct (nth_error (f_ds f) 2) as [[|e E]|].
  - intros H. inversion H; subst. split; [reflexivity|constructor].
  - intros H. apply bind_ok_inv in H. destruct H as (chunks & -> & H). cbn [bind].
    revert bs H. induction chunks as [|c chunks IH]; intros bs H; cbn [map_res] in *.
    + inversion H; subst. split; [reflexivity|constructor].
    + apply bind_ok_inv in H. destruct H as (b & Hb & H). apply bind_ok_inv in Hb. destruct Hb as (rows & -> & Hb). inversion Hb; subst b. cbn [bind].
      apply bind_ok_inv in H. destruct H as (r & Hr & H). inversion H; subst bs. destruct (IH r Hr) as [-> F]. cbn [bind map]. split; [reflexivity|]. constructor; auto.
  - discriminate.
Qed.
Lemma read_files_filter : forall (P : Q -> bool) files bss, map_res (read_batches set_order weird clip tree quad xe ye chunk_size q) files = Ok bss ->
  read_files set_order weird clip tree quad m chunk_size (map f_ds (filter (fun f => P (f_time f)) files)) q =
  Ok (map b_rows (filter (fun b => P (b_time b)) (List.concat bss))).
Proof.
  intros P files bss H. apply map_res_inv in H. unfold read_files. change (fun ds => match nth_error ds 2 with Some [] => Ok [] | Some _ => read_flashes set_order weird clip tree quad m chunk_size ds q | None => Err AttributeError end) with read_file.
  assert (K : exists rs, map_res read_file (map f_ds (filter (fun f => P (f_time f)) files)) = Ok rs /\ List.concat rs = map b_rows (filter (fun b => P (b_time b)) (List.concat bss))).
  { induction H as [|f bs files bss E F IH]; [exists []; split; reflexivity|]. destruct IH as (rs & E1 & E2). apply read_batches_rows in E. destruct E as [E T].
    cbn [filter List.concat]. rewrite filter_app, map_app.
    assert (K : filter (fun b => P (b_time b)) bs = if P (f_time f) then bs else []).
    { clear -T. induction T as [|b bs E T IH]; [destruct (P (f_time f)); reflexivity|]. cbn [filter]. rewrite E, IH. destruct (P (f_time f)); reflexivity. }
    rewrite K. destruct (P (f_time f)).
    - exists (map b_rows bs :: rs). cbn [map map_res List.concat]. rewrite E, E1. cbn [bind]. split; [reflexivity|]. rewrite E2. reflexivity.
    - exists rs. split; [exact E1|]. rewrite E2. reflexivity. }
  destruct K as (rs & -> & K). cbn [bind]. rewrite K. reflexivity.
Qed.

Lemma frames_inv : forall bs fd a, frames xe ye te bs fd = Ok a ->
  a_nx a = Z.to_nat nx /\ a_ny a = Z.to_nat ny /\ a_nt a = (List.length te - 1)%nat /\
  forall t, (t < List.length te - 1)%nat -> exists g, frame_grid xe ye te bs fd t = Ok g /\
    forall x y, a_at a x y t = g_at g (Z.of_nat x) (Z.of_nat y).
Proof.
  intros bs fd a H. unfold frames in H. apply bind_ok_inv in H. destruct H as (gs & E & H). inversion H; subst a. cbn [a_nx a_ny a_nt a_at].
  repeat (split; [reflexivity|]). intros t Ht. apply map_res_inv in E.
  assert (K : forall n l gs, Forall2 (fun t g => frame_grid xe ye te bs fd t = Ok g) (seq n l) gs -> forall k, (k < l)%nat ->
    frame_grid xe ye te bs fd (n + k) = Ok (nth k gs (zeros nx ny))).
  { intros n l. revert n. induction l as [|l IH]; intros n gs0 F k Hk; [lia|]. cbn [seq] in F. inversion F; subst. destruct k as [|k].
    - rewrite Nat.add_0_r. assumption.
    - cbn [nth]. rewrite <- Nat.add_succ_comm. apply IH; [assumption|lia]. }
  unfold n_frames in E. eexists. split; [apply (K 0%nat _ _ E t Ht)|]. reflexivity.
Qed.
Lemma frames_total : forall bs fd, (forall t, (t < List.length te - 1)%nat -> exists g, frame_grid xe ye te bs fd t = Ok g) -> exists a, frames xe ye te bs fd = Ok a.
Proof.
  intros bs fd H. unfold frames. assert (K : exists gs, map_res (frame_grid xe ye te bs fd) (seq 0 (n_frames te)) = Ok gs).
  { unfold n_frames. assert (K : forall t, In t (seq 0 (List.length te - 1)) -> exists g, frame_grid xe ye te bs fd t = Ok g) by (intros t Ht; apply in_seq in Ht; apply H; lia).
    revert K. generalize (seq 0 (List.length te - 1)). induction l as [|t l IH]; intros K; cbn [map_res]; [eauto|].
    destruct (K t (or_introl eq_refl)) as (g & ->). cbn [bind]. destruct IH as (gs & ->); [intros; apply K; right; auto|]. eexists; reflexivity. }
  destruct K as (gs & ->). eexists; reflexivity.
Qed.
End G.
