(** C122: the coverage that an aggregated series claims. *)
From Coq Require Import List ZArith QArith Bool String Lia.
From Verif Require Import Base BaseProofs Glm GlmProofs3 Lut Aggregate AggregateSpec AggregateProofs PropAggregate AggregateAttrs PropReadBack PropAggregateRange.
Import ListNotations.
Open Scope Z_scope.

(** The frame is in one of the intervals. *)
Definition counted {P} (out : list (interval P)) (f : frame P) : Prop := exists iv, In iv out /\ covers iv f.

Lemma edges : forall P minutes lo (out : list (interval P)) hi, 0 < minutes -> consecutive minutes lo out hi -> out <> [] -> coverage out = Ok (lo, hi).
Proof.
  intros P minutes lo out hi Hm C NE. unfold coverage. destruct out as [|iv0 r] eqn:E; [congruence|]. rewrite <- E in *. clear NE.
  assert (NL : map iv_left out <> []) by (rewrite E; discriminate). assert (NR : map iv_right out <> []) by (rewrite E; discriminate).
  destruct (zmin_spec _ NL) as [I1 M1]. destruct (zmax_spec _ NR) as [I2 M2]. pose proof (consecutive_in P _ _ _ _ Hm C) as B.
  assert (L : In lo (map iv_left out)) by (rewrite E in *; inversion C; subst; left; reflexivity).
  assert (R : In hi (map iv_right out)).
  { clear - C E. assert (N : out <> []) by (rewrite E; discriminate). clear E. induction C as [lo|iv ivs hi Eq C IH]; [congruence|]. destruct ivs as [|iv' ivs]; [inversion C; subst; left; reflexivity|]. right. apply IH. discriminate. }
  specialize (M1 _ L). specialize (M2 _ R). apply in_map_iff in I1. destruct I1 as (a & E1 & Ia). apply in_map_iff in I2. destruct I2 as (b & E2 & Ib). pose proof (B a Ia). pose proof (B b Ib).
  do 2 f_equal; lia.
Qed.
Lemma attrs_inv : forall P (g : series P) minutes se out c, aggregate_attrs g minutes se = Ok (out, c) -> aggregate g minutes se = Ok out /\ coverage out = Ok c.
Proof.
  intros P g minutes se out c H. unfold aggregate_attrs in H. apply bind_ok_inv in H. destruct H as (o & A & H). apply bind_ok_inv in H. destruct H as (d & B & H). inversion H; subst. auto.
Qed.

(** Whenever aggregating succeeds, there are attributes. *)
Theorem C122_succeeds : forall P (g : series P) minutes se out, aggregate g minutes se = Ok out -> exists c, aggregate_attrs g minutes se = Ok (out, c).
Proof.
  intros P g minutes se out H. destruct (aggregate_inv P g minutes se out H) as (_ & _ & _ & _ & _ & _ & _ & _ & (iv & _ & I & _)). unfold aggregate_attrs. rewrite H. cbn [bind].
  destruct out as [|iv0 r]; [destruct I|]. eexists. reflexivity.
Qed.
Print Assumptions C122_succeeds.
(** With a range: the coverage is from its start to the end of the last whole interval. *)
Theorem C122_range : forall P (g : series P) minutes s e out first last, aggregate_attrs g minutes (Some (s, e)) = Ok (out, (first, last)) ->
  first = s /\ last_whole minutes s e last.
Proof.
  intros P g minutes s e out first last H. destruct (attrs_inv _ _ _ _ _ _ H) as [A C]. destruct (range P g minutes s e out A) as (w & LW & Hm & CO & NE & _).
  rewrite (edges P minutes s out w Hm CO NE) in C. inversion C; subst. auto.
Qed.
Print Assumptions C122_range.
(** Without: from the first frame, for a whole number of intervals, to after the start of
    the last frame, by at most one interval. *)
Theorem C122_default : forall P (g : series P) minutes out first last, aggregate_attrs g minutes None = Ok (out, (first, last)) ->
  (exists f, In f (s_frames g) /\ fr_time f = first) /\ (forall f, In f (s_frames g) -> first <= fr_time f < last) /\ whole minutes first last /\
  exists f, In f (s_frames g) /\ last <= fr_time f + 60 * 1000000 * minutes.
Proof.
  intros P g minutes out first last H. destruct (attrs_inv _ _ _ _ _ _ H) as [A C]. destruct (C40_each_frame_once_partial P g minutes None out A) as (lo & hi & CO & Hm & (F & B) & _).
  destruct (aggregate_inv P g minutes None out A) as (_ & _ & _ & _ & s & e & (NF & Es & Ee) & HO & (iv & _ & I & _)).
  assert (NE : out <> []) by (intros ->; destruct I). rewrite (edges P minutes lo out hi Hm CO NE) in C. inversion C; subst first last. clear C.
  split; [exact F|]. split; [exact B|]. split; [eapply consecutive_whole; eauto|].
  assert (NM : map fr_time (s_frames g) <> []) by (destruct (s_frames g); [congruence|discriminate]). destruct (zmax_spec _ NM) as [IM _]. apply in_map_iff in IM. destruct IM as (f & Ef & If). exists f. split; [exact If|]. rewrite Ef.
  set (n := Z.to_nat (Z.quot (e - s) (60000000 * minutes))) in *. match type of HO with _ = map ?m _ => set (mk := m) in HO end.
  pose proof (bins_consecutive P minutes s mk n 0 Hm (fun b => conj eq_refl eq_refl)) as K. rewrite <- HO in K. destruct (consecutive_fun _ _ _ _ _ _ _ K CO NE) as [_ <-].
  assert (N : 60000000 * minutes * Z.of_nat n <= e - s).
  { unfold n. assert (SE : 0 <= e - s). { assert (M0 : s <= e - 60000000 * minutes); [|lia]. rewrite Ee, Es. destruct (zmin_spec _ NM) as [_ ML]. pose proof (ML _ (in_map fr_time _ _ If)). rewrite Ef in H0. lia. }
    rewrite Z2Nat.id by (apply Z.quot_pos; lia). rewrite Z.quot_div_nonneg by lia. apply Z.mul_div_le. lia. }
  rewrite Nat.add_0_l. lia.
Qed.
Print Assumptions C122_default.
(** Every frame that is counted starts within the coverage. *)
Theorem C122_counted_within : forall P (g : series P) minutes se out first last f, aggregate_attrs g minutes se = Ok (out, (first, last)) ->
  counted out f -> first < fr_time f <= last.
Proof.
  intros P g minutes se out first last f H (iv & I & CV). destruct (attrs_inv _ _ _ _ _ _ H) as [A C]. destruct (C40_each_frame_once_partial P g minutes se out A) as (lo & hi & CO & Hm & _).
  assert (NE : out <> []) by (intros ->; destruct I). rewrite (edges P minutes lo out hi Hm CO NE) in C. inversion C; subst. destruct (consecutive_in P _ _ _ _ Hm CO iv I) as (X & Y & _). unfold covers in CV. lia.
Qed.
Print Assumptions C122_counted_within.
(** And every frame that starts within it is counted, but for those at its first instant. *)
Theorem C122_within_counted_partial : forall P (g : series P) minutes se out first last f, aggregate_attrs g minutes se = Ok (out, (first, last)) ->
  In f (s_frames g) -> first < fr_time f <= last -> counted out f.
Proof.
  intros P g minutes se out first last f H Hf T. destruct (attrs_inv _ _ _ _ _ _ H) as [A C]. destruct (C40_each_frame_once_partial P g minutes se out A) as (lo & hi & CO & Hm & _ & U).
  assert (NE : out <> []) by (destruct (aggregate_inv P g minutes se out A) as (_ & _ & _ & _ & _ & _ & _ & _ & (iv & _ & I & _)); intros ->; destruct I).
  rewrite (edges P minutes lo out hi Hm CO NE) in C. inversion C; subst. destruct (U f Hf T) as (b & iv & a & -> & CV & _). exists iv. split; [apply in_app_iff; right; left; reflexivity|exact CV].
Qed.
Print Assumptions C122_within_counted_partial.
(** The claimed coverage begins with a frame that is not counted, in every series aggregated
    without a range; and a frame that starts when it is over is counted. *)
Theorem C122_coverage_refuted : forall P (g : series P) minutes out first last, aggregate_attrs g minutes None = Ok (out, (first, last)) ->
  exists f, In f (s_frames g) /\ fr_time f = first /\ first < last /\ ~ counted out f.
Proof.
  intros P g minutes out first last H. destruct (C122_default P g minutes out first last H) as ((f & Hf & E) & B & _). exists f. split; [exact Hf|]. split; [exact E|]. split; [specialize (B f Hf); lia|].
  intros K. pose proof (C122_counted_within P g minutes None out first last f H K). lia.
Qed.
Print Assumptions C122_coverage_refuted.
Theorem C122_end_refuted : forall P (g : series P) minutes s e out first last f, aggregate_attrs g minutes (Some (s, e)) = Ok (out, (first, last)) ->
  In f (s_frames g) -> fr_time f = last -> counted out f.
Proof.
  intros P g minutes s e out first last f H Hf E. apply (C122_within_counted_partial P g minutes (Some (s, e)) out first last f H Hf).
  destruct (attrs_inv _ _ _ _ _ _ H) as [A C]. destruct (range P g minutes s e out A) as (w & _ & Hm & CO & NE & _). rewrite (edges P minutes s out w Hm CO NE) in C. inversion C; subst.
  destruct out as [|iv r]; [congruence|]. pose proof (consecutive_in P _ _ _ _ Hm CO iv (or_introl eq_refl)). lia.
Qed.
Print Assumptions C122_end_refuted.

(** Frames at 0, 1 and 2 minutes in intervals of five: coverage from 0 to 5 minutes, but the
    first of them is not in it; from minute 0 to 2 in one interval: the last is in it. *)
Example C122_ex : (exists out, aggregate_attrs ex_series 5 None = Ok (out, (0, 300000000))) /\ (exists out, aggregate_attrs ex_series 2 (Some (0, 120000000)) = Ok (out, (0, 120000000))).
Proof. split; eexists; vm_compute; reflexivity. Qed.
