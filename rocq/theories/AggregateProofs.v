(** Lemmas about aggregation. *)
From Coq Require Import List ZArith QArith Bool String Lia Lqa Setoid.
From Verif Require Import Base BaseProofs Glm GlmProofs3 Lut Aggregate AggregateSpec.
Import ListNotations.
Open Scope Z_scope.

Section Proofs.
Variable P : Type.
Implicit Types (f : frame P) (fs : list (frame P)) (iv : interval P).

Lemma nansum_total : forall (h : frame P -> fval) fs, exists s, nansum (map h fs) = Some s /\ (s == total h fs)%Q.
Proof.
  intros h fs. eexists. split; [reflexivity|]. induction fs as [|f fs IH]; [reflexivity|]. cbn [map total]. unfold present in *. cbn [flat_map].
  destruct (h f) as [q|]; cbn [app or0].
  - change (qsum (q :: ?l)) with (q + qsum l)%Q. apply Qplus_comp; [reflexivity|exact IH].
  - rewrite IH. ring.
Qed.
Lemma total_ext : forall (h k : frame P -> fval) fs, (forall f, In f fs -> h f = k f) -> total h fs = total k fs.
Proof. intros h k fs H. induction fs as [|f fs IH]; [reflexivity|]. cbn. rewrite (H f) by (left; auto). rewrite IH; auto. intros; apply H; right; auto. Qed.
Lemma total_split : forall (h : frame P -> fval) lo mid hi fs, lo <= mid <= hi ->
  (total h (filter (coverb lo hi) fs) == total h (filter (coverb lo mid) fs) + total h (filter (coverb mid hi) fs))%Q.
Proof.
  intros h lo mid hi fs H. induction fs as [|f fs IH]; [reflexivity|]. cbn [filter].
  destruct (coverb lo hi f) eqn:A, (coverb lo mid f) eqn:B, (coverb mid hi f) eqn:C; cbn [total]; rewrite ?IH; try ring; exfalso; unfold coverb in *;
  destruct (Z.ltb_spec lo (fr_time f)), (Z.leb_spec (fr_time f) hi), (Z.leb_spec (fr_time f) mid), (Z.ltb_spec mid (fr_time f)); cbn [andb] in *; try discriminate; lia.
Qed.
Lemma total_none : forall (h : frame P -> fval) lo fs, (total h (filter (coverb lo lo) fs) == 0)%Q.
Proof. intros h lo fs. induction fs as [|f fs IH]; [reflexivity|]. cbn [filter]. unfold coverb at 1. destruct (Z.ltb_spec lo (fr_time f)), (Z.leb_spec (fr_time f) lo); cbn [andb]; try lia; exact IH. Qed.

Definition bins_from (start dt : Z) (k n : nat) : list (Z * Z) := map (fun i => (start + dt * Z.of_nat i, start + dt * Z.of_nat (S i))) (seq k n).
Lemma bins_consecutive : forall minutes start mk n k, 0 < minutes ->
  (forall b, iv_left (mk b) = fst b /\ iv_right (mk b) = snd b) ->
  consecutive minutes (start + 60000000 * minutes * Z.of_nat k) (map (mk : Z * Z -> interval P) (bins_from start (60000000 * minutes) k n)) (start + 60000000 * minutes * Z.of_nat (k + n)).
Proof.
  intros minutes start mk n. induction n as [|n IH]; intros k Hm HM.
  - rewrite Nat.add_0_r. constructor.
  - unfold bins_from. cbn [seq map]. set (b := (start + 60000000 * minutes * Z.of_nat k, start + 60000000 * minutes * Z.of_nat (S k))).
    destruct (HM b) as [L R]. replace (start + 60000000 * minutes * Z.of_nat k) with (iv_left (mk b)) by (rewrite L; reflexivity).
    constructor; [rewrite L, R; subst b; cbn [fst snd]; lia|].
    replace (k + S n)%nat with (S k + n)%nat by lia. replace (iv_right (mk b)) with (start + 60000000 * minutes * Z.of_nat (S k)) by (rewrite R; reflexivity).
    apply (IH (S k) Hm HM).
Qed.
Lemma consecutive_le : forall minutes lo ivs hi, 0 < minutes -> consecutive (P:=P) minutes lo ivs hi -> lo <= hi.
Proof. intros minutes lo ivs hi Hm H. induction H; lia. Qed.
Lemma consecutive_in : forall minutes lo ivs hi, 0 < minutes -> consecutive (P:=P) minutes lo ivs hi -> forall iv, In iv ivs -> lo <= iv_left iv /\ iv_right iv <= hi /\ iv_left iv < iv_right iv.
Proof.
  intros minutes lo ivs hi Hm H. induction H as [|iv ivs hi E C IH]; intros iv' [].
  - subst iv'. pose proof (consecutive_le _ _ _ _ Hm C). lia.
  - specialize (IH iv' H). lia.
Qed.
Lemma consecutive_unique : forall minutes lo ivs hi f, 0 < minutes -> consecutive minutes lo ivs hi -> lo < fr_time f <= hi ->
  exists before iv after, ivs = before ++ iv :: after /\ covers iv f /\ forall iv', In iv' (before ++ after) -> ~ covers iv' f.
Proof.
  intros minutes lo ivs hi f Hm H. induction H as [lo|iv ivs hi E C IH]; intros T; [lia|].
  destruct (Z_le_gt_dec (fr_time f) (iv_right iv)) as [L|G].
  - exists [], iv, ivs. split; [reflexivity|]. split; [unfold covers; lia|]. cbn [app]. intros iv' Hin. destruct (consecutive_in _ _ _ _ Hm C iv' Hin). unfold covers. lia.
  - destruct IH as (b & iv0 & a & -> & C0 & U); [lia|]. exists (iv :: b), iv0, a. split; [reflexivity|]. split; [exact C0|]. intros iv' [<-|Hin]; [unfold covers; lia|auto].
Qed.
Lemma consecutive_total : forall minutes lo ivs hi (h : frame P -> fval) (k : interval P -> fval) fs, 0 < minutes -> consecutive minutes lo ivs hi ->
  (forall iv, In iv ivs -> (or0 (k iv) == total h (filter (coverb (iv_left iv) (iv_right iv)) fs))%Q) ->
  (qsum (map (fun iv => or0 (k iv)) ivs) == total h (filter (coverb lo hi) fs))%Q.
Proof.
  intros minutes lo ivs hi h k fs Hm H. induction H as [lo|iv ivs hi E C IH]; intros K; [symmetry; apply total_none|].
  cbn [map]. change (qsum (?x :: ?l)) with (x + qsum l)%Q. pose proof (consecutive_le _ _ _ _ Hm C).
  rewrite (total_split h (iv_left iv) (iv_right iv) hi) by lia. apply Qplus_comp; [apply K; left; auto|apply IH; intros; apply K; right; auto].
Qed.

Lemma zmin_spec : forall l, l <> [] -> In (zmin_list l) l /\ forall x, In x l -> zmin_list l <= x.
Proof.
  intros [|x r] H; [congruence|]. clear H. unfold zmin_list. revert x. induction r as [|y r IH]; intros x; cbn [fold_left].
  - split; [left; auto|]. intros z [<-|[]]; lia.
  - destruct (IH (Z.min x y)) as [A B]. split.
    + destruct A as [A|A]; [|right; right; exact A]. rewrite <- A. destruct (Z.min_spec x y) as [[_ E]|[_ E]]; rewrite E; [left|right; left]; auto.
    + intros z [<-|[<-|Hz]]; [specialize (B (Z.min x y) (or_introl eq_refl)); lia|specialize (B (Z.min x y) (or_introl eq_refl)); lia|apply B; right; auto].
Qed.
Lemma zmax_spec : forall l, l <> [] -> In (zmax_list l) l /\ forall x, In x l -> x <= zmax_list l.
Proof.
  intros [|x r] H; [congruence|]. clear H. unfold zmax_list. revert x. induction r as [|y r IH]; intros x; cbn [fold_left].
  - split; [left; auto|]. intros z [<-|[]]; lia.
  - destruct (IH (Z.max x y)) as [A B]. split.
    + destruct A as [A|A]; [|right; right; exact A]. rewrite <- A. destruct (Z.max_spec x y) as [[_ E]|[_ E]]; rewrite E; [right; left|left]; auto.
    + intros z [<-|[<-|Hz]]; [specialize (B (Z.max x y) (or_introl eq_refl)); lia|specialize (B (Z.max x y) (or_introl eq_refl)); lia|apply B; right; auto].
Qed.
Lemma in_present : forall l q, In q (present l) <-> In (Some q) l.
Proof.
  intros l q. unfold present. rewrite in_flat_map. split.
  - intros (v & Hv & Hq). destruct v as [q'|]; [|destruct Hq]. destruct Hq as [->|[]]. exact Hv.
  - intros H. exists (Some q). split; [exact H|left; auto].
Qed.
Lemma fold_min : forall r q, (fold_left (fun a b => if Qlt_bool b a then b else a) r q <= q)%Q /\
  (forall x, In x r -> (fold_left (fun a b => if Qlt_bool b a then b else a) r q <= x)%Q) /\ (fold_left (fun a b => if Qlt_bool b a then b else a) r q = q \/ In (fold_left (fun a b => if Qlt_bool b a then b else a) r q) r).
Proof.
  induction r as [|y r IH]; intros q; cbn [fold_left].
  - split; [apply Qle_refl|]. split; [intros x []|left; auto].
  - destruct (Qlt_bool y q) eqn:B.
    + apply Qlt_bool_iff in B. destruct (IH y) as (A & C & D). split; [lra|]. split; [intros x [<-|Hx]; auto|]. right. destruct D as [->|D]; [left|right]; auto.
    + assert (q <= y)%Q by (destruct (Qlt_le_dec y q) as [L|L]; [apply Qlt_bool_iff in L; congruence|exact L]).
      destruct (IH q) as (A & C & D). split; [exact A|]. split; [intros x [<-|Hx]; [lra|auto]|]. destruct D as [D|D]; [left|right; right]; auto.
Qed.
Lemma nanmin_least : forall l, least l (nanmin l).
Proof.
  intros l. unfold nanmin. pose proof (in_present l) as H. destruct (present l) as [|q r].
  - intros [q|] Hv; [|reflexivity]. apply H in Hv. destruct Hv.
  - destruct (fold_min r q) as (A & B & C). split.
    + eexists. split; [|reflexivity]. apply H. destruct C as [->|C]; [left|right]; auto.
    + intros q' Hq. apply H in Hq. destruct Hq as [<-|Hq]; [exact A|apply B; exact Hq].
Qed.

Lemma aggregate_inv : forall g minutes se out, aggregate g minutes se = Ok out ->
  0 < minutes /\ has g "average_flash_area" = true /\ has g "flash_extent_density" = true /\ has g "group_extent_density" = true /\
  exists s e, (match se with Some p => p = (s, e) | None => s_frames g <> [] /\ s = zmin_list (map fr_time (s_frames g)) /\ e = zmax_list (map fr_time (s_frames g)) + 60000000 * minutes end) /\
    out = map (fun b => mkInt (fst b) (snd b) (filter (has g) sum_vars ++ ["total_flash_area"; "total_group_area"; "average_flash_area"; "average_group_area"]%string ++ filter (has g) min_vars)
        (bin_value (filter (in_bin (fst b) (snd b)) (s_frames g)))) (bins_from s (60000000 * minutes) 0 (Z.to_nat (Z.quot (e - s) (60000000 * minutes)))) /\
    exists iv f, In iv out /\ In f (s_frames (P:=P) g) /\ covers iv f.
Proof.
  intros g minutes se out H. unfold aggregate in H. apply bind_ok_inv in H. destruct H as ((s & e) & HSE & H). cbn [fst snd] in H.
  destruct (has g "average_flash_area" && has g "flash_extent_density")%bool eqn:HV; [|discriminate H]. cbn [negb] in H. apply andb_true_iff in HV. destruct HV as [V1 V2].
  destruct (Z.eqb_spec (60000000 * minutes) 0) as [E|E]; [discriminate H|]. destruct (Z.ltb_spec (60000000 * minutes) 0) as [L|L]; [discriminate H|].
  fold (bins_from s (60000000 * minutes) 0 (Z.to_nat (Z.quot (e - s) (60000000 * minutes)))) in H. set (bins := bins_from _ _ _ _) in *.
  destruct (existsb (fun b => existsb (in_bin (fst b) (snd b)) (s_frames g)) bins) eqn:EX; [|discriminate H]. cbn [negb] in H.
  destruct (has g "group_extent_density") eqn:V3; [|discriminate H]. cbn [negb] in H. inversion H as [HO]. clear H. split; [lia|]. repeat (split; [auto|]). exists s, e. split.
  - destruct se as [p|]; [inversion HSE; reflexivity|]. destruct (s_frames g) as [|f0 fs]; [discriminate HSE|]. split; [discriminate|].
    change (Ok (zmin_list (map fr_time (f0 :: fs)), zmax_list (map fr_time (f0 :: fs)) + 60000000 * minutes) = Ok (s, e)) in HSE. inversion HSE. split; reflexivity.
  - split; [reflexivity|]. apply existsb_exists in EX. destruct EX as (b & Hb & EX). apply existsb_exists in EX. destruct EX as (f & Hf & EX).
    eexists. exists f. split; [apply in_map; exact Hb|]. split; [exact Hf|]. unfold in_bin in EX. apply andb_true_iff in EX. rewrite Z.ltb_lt, Z.leb_le in EX. exact EX.
Qed.
End Proofs.
