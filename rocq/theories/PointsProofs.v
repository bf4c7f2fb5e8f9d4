(** Lemmas about the point data of Points.v. *)
From Coq Require Import String List ZArith QArith Qfield Bool Lia Permutation Sorting.Sorted.
From Verif Require Import Base BaseProofs Traversal TraversalSpec Glm GlmSpec GlmProofs2 GlmProofs3 Pipeline ChunkSpec Points PointsSpec.
Import ListNotations.
Open Scope Z_scope.

Local Notation tbl := (table obs).

Lemma wrap_low : forall bits z, 0 < bits -> low_bits bits z (wrap bits z).
Proof.
  intros bits z H. unfold low_bits, wrap.
  assert (E : 2 ^ bits = 2 * 2 ^ (bits - 1)) by (replace bits with (Z.succ (bits - 1)) at 1 by lia; rewrite Z.pow_succ_r by lia; reflexivity).
  assert (P : 0 < 2 ^ (bits - 1)) by (apply Z.pow_pos_nonneg; lia).
  pose proof (Z.mod_pos_bound (z + 2 ^ (bits - 1)) (2 ^ bits) ltac:(lia)) as B. split; [lia|].
  exists ((z + 2 ^ (bits - 1)) / 2 ^ bits). pose proof (Z.div_mod (z + 2 ^ (bits - 1)) (2 ^ bits) ltac:(lia)). lia.
Qed.
Lemma low_bits_eq : forall bits a b k l lo, 0 < bits -> low_bits bits a k -> low_bits bits b l ->
  lo <= a < lo + 2 ^ bits -> lo <= b < lo + 2 ^ bits -> (k = l <-> a = b).
Proof.
  intros bits a b k l lo H [Hk [n ->]] [Hl [m ->]] Ra Rb.
  assert (E : 2 ^ bits = 2 * 2 ^ (bits - 1)) by (replace bits with (Z.succ (bits - 1)) at 1 by lia; rewrite Z.pow_succ_r by lia; reflexivity).
  split; intros X; [assert (n = m) by nia; subst; lia|]. assert (n = m) by nia. subst. lia.
Qed.
Lemma low_bits_small : forall bits z k, low_bits bits z k -> - 2 ^ (bits - 1) <= z < 2 ^ (bits - 1) -> 0 < bits -> k = z.
Proof.
  intros bits z k [Hk [n ->]] Hz H.
  assert (E : 2 ^ bits = 2 * 2 ^ (bits - 1)) by (replace bits with (Z.succ (bits - 1)) at 1 by lia; rewrite Z.pow_succ_r by lia; reflexivity).
  assert (P : 0 < 2 ^ (bits - 1)) by (apply Z.pow_pos_nonneg; lia). rewrite E in Hz. set (M := 2 ^ (bits - 1)) in *.
  destruct (Z.lt_trichotomy n 0) as [N|[N|N]]; [|subst; lia|].
  - assert (n * (2 * M) <= - 1 * (2 * M)) by (apply Z.mul_le_mono_nonneg_r; lia). lia.
  - assert (1 * (2 * M) <= n * (2 * M)) by (apply Z.mul_le_mono_nonneg_r; lia). lia.
Qed.

Lemma since_from : forall base t, seconds_from base t (since base t).
Proof.
  intros [b|] t; [|reflexivity]. cbn. eexists. split; [reflexivity|]. field.
Qed.
Lemma duration_from : forall b t0 t1, seconds t0 t1 (fminus (since (Some b) t1) (since (Some b) t0)).
Proof.
  intros b t0 t1. cbn. eexists. split; [reflexivity|].
  replace (t1 - t0) with ((t1 - b) + - (t0 - b)) by lia. rewrite inject_Z_plus, inject_Z_opp. field.
Qed.

Lemma fill_children_ok : forall ck base key E, Forall2 (event_point ck base key) E (fill_children ck base key E).
Proof.
  intros. induction E as [|e E IH]; constructor; auto. unfold event_point. cbn.
  split; [apply wrap_low; lia|]. split; [auto|]. split; [auto|]. split; [apply since_from|]. split; [auto|reflexivity].
Qed.
Lemma fill_parents_ok : forall t0 t1 base area n T, Forall2 (parent_point t0 t1 base area) T (fill_parents t0 t1 base area n T).
Proof.
  intros. induction T as [|r T IH]; constructor; auto. unfold parent_point. cbn -[since].
  split; [apply wrap_low; lia|]. do 6 (split; [reflexivity|]). do 3 (split; [reflexivity|]). split; [apply since_from|].
  destruct base; [apply duration_from|reflexivity].
Qed.

(** The batch of a chunk whose events belong to its groups and its groups to its flashes. *)
Definition full_batch (ck : clock) (base : option Z) (ds : list tbl) : batch :=
  let F := nth 0 ds [] in let G := nth 1 ds [] in let E := nth 2 ds [] in
  mkBatch (fill_children ck base (fun e => o_flash (rdat e)) E, fill_parents (t_first ck) (t_last ck) base (fun f => o_area (rdat f)) (List.length E) F)
    (fill_children ck base (@rpid obs) E, fill_parents (t_group ck) (t_group ck) base (fun g => o_area (rdat g)) (List.length E) G)
    (fill_children ck base (@rid obs) E, fill_parents (t_event ck) (t_event ck) base (fun _ => Some 0%Q) (List.length E) E).
Lemma chunk_full : forall junk ck base (F G E : tbl), linked F G -> linked G E -> F <> [] ->
  point_chunk junk ck base [F; G; E] = Ok (full_batch ck base [F; G; E]).
Proof.
  intros junk ck base F G E L1 L2 nF. unfold point_chunk, full_batch. cbn [nth]. f_equal.
  destruct F as [|f F]; [congruence|]. f_equal.
  - destruct G as [|g G]; [|reflexivity]. destruct E as [|e E]; [reflexivity|]. destruct (L2 e (or_introl eq_refl)) as (? & [] & _).
  - destruct E; reflexivity.
Qed.
Lemma map_res_ok : forall A B (f : A -> res B) g l, (forall a, In a l -> f a = Ok (g a)) -> map_res f l = Ok (map g l).
Proof.
  induction l as [|a l IH]; intros H; [reflexivity|]. cbn. rewrite (H a (or_introl eq_refl)). cbn. rewrite IH by (intros; apply H; right; auto). reflexivity.
Qed.
Lemma concat_map_map : forall A B C (f : B -> C) (g : A -> list B) l,
  List.concat (map (fun x => map f (g x)) l) = map f (List.concat (map g l)).
Proof. intros. induction l as [|x l IH]; [reflexivity|]. cbn. rewrite IH, map_app. reflexivity. Qed.

Lemma forall2_concat : forall A B C (R : B -> C -> Prop) (f : A -> list B) (g : A -> list C) l,
  (forall x, In x l -> Forall2 R (f x) (g x)) -> Forall2 R (List.concat (map f l)) (List.concat (map g l)).
Proof.
  induction l as [|x l IH]; intros H; [constructor|]. cbn. apply Forall2_app; [apply H; left; auto|apply IH; intros; apply H; right; auto].
Qed.

(** Dictionary of times. *)
Lemma dict_get_set : forall d k v j, dict_get (dict_set d k v) j = if k =? j then Ok v else dict_get d j.
Proof.
  induction d as [|[k' v'] d IH]; intros k v j; cbn; [reflexivity|].
  destruct (Z.eqb_spec k' k) as [->|N]; cbn.
  - destruct (Z.eqb_spec k j); reflexivity.
  - rewrite IH. destruct (Z.eqb_spec k' j) as [->|N2]; [|reflexivity]. destruct (Z.eqb_spec k j); [congruence|reflexivity].
Qed.
Lemma insert_perm : forall t l, Permutation (insert_time t l) (t :: l).
Proof.
  induction l as [|s l IH]; cbn; [auto|]. destruct (t <=? s); [auto|]. rewrite IH. apply perm_swap.
Qed.
Lemma sort_perm : forall l, Permutation (sort_times l) l.
Proof. induction l as [|t l IH]; cbn; [auto|]. rewrite insert_perm. auto. Qed.
Lemma insert_sorted : forall t l, StronglySorted Z.le l -> StronglySorted Z.le (insert_time t l).
Proof.
  induction 1 as [|s l S IH F]; cbn; [repeat constructor|]. destruct (Z.leb_spec t s) as [L|L].
  - constructor; [constructor; auto|]. constructor; auto. eapply Forall_impl; [|exact F]. cbn. intros. lia.
  - constructor; auto. eapply Permutation_Forall; [symmetry; apply insert_perm|]. constructor; [lia|auto].
Qed.
Lemma sort_sorted : forall l, StronglySorted Z.le (sort_times l).
Proof. induction l; cbn; [constructor|apply insert_sorted; auto]. Qed.
