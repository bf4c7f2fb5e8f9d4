(** Lemmas about packing and writing imagery. *)
From Coq Require Import List ZArith QArith Qabs Qround Bool String Lia Lqa.
From Verif Require Import Base BaseProofs Glm GlmProofs3 Lut FileName Imagery ImagerySpec.
Import ListNotations.
Open Scope Q_scope.

Lemma Qlt_bool_false : forall a b, Qlt_bool a b = false -> b <= a.
Proof. intros a b H. destruct (Qlt_le_dec a b) as [L|L]; [|exact L]. apply Qlt_bool_iff in L. congruence. Qed.
Lemma Qle_bool_false : forall a b, Qle_bool a b = false -> b < a.
Proof. intros a b H. destruct (Qlt_le_dec b a) as [L|L]; [exact L|]. apply Qle_bool_iff in L. congruence. Qed.

(** * Rounding *)
Lemma round_near : forall q, inject_Z (round_even q) <= q + (1 # 2) /\ q - (1 # 2) <= inject_Z (round_even q).
Proof.
  intros q. unfold round_even. pose proof (Qfloor_le q) as L. pose proof (Qlt_floor q) as U. rewrite inject_Z_plus in U. change (inject_Z 1) with 1 in U.
  set (f := Qfloor q) in *. destruct (Qlt_bool (q - inject_Z f) (1 # 2)) eqn:B1.
  - apply Qlt_bool_iff in B1. split; lra.
  - apply Qlt_bool_false in B1. destruct (Qlt_bool (1 # 2) (q - inject_Z f)) eqn:B2.
    + rewrite inject_Z_plus. change (inject_Z 1) with 1. apply Qlt_bool_iff in B2. split; lra.
    + apply Qlt_bool_false in B2. destruct (Z.even f); [split; lra|]. rewrite inject_Z_plus. change (inject_Z 1) with 1. split; lra.
Qed.
Lemma round_compat : forall a b, a == b -> round_even a = round_even b.
Proof.
  intros a b E. unfold round_even. pose proof (Qfloor_comp a b E) as F. rewrite F.
  assert (C : forall x y z, x == y -> Qlt_bool x z = Qlt_bool y z /\ Qlt_bool z x = Qlt_bool z y).
  { intros x y z K. split; destruct (Qlt_bool x z) eqn:B1, (Qlt_bool y z) eqn:B2; try reflexivity;
    destruct (Qlt_bool z x) eqn:B3, (Qlt_bool z y) eqn:B4; try reflexivity; exfalso;
    repeat match goal with H : Qlt_bool _ _ = true |- _ => apply Qlt_bool_iff in H | H : Qlt_bool _ _ = false |- _ => apply Qlt_bool_false in H end; lra. }
  assert (E2 : a - inject_Z (Qfloor b) == b - inject_Z (Qfloor b)) by (rewrite E; reflexivity).
  destruct (C _ _ (1 # 2) E2) as [-> ->]. reflexivity.
Qed.
Lemma round_mono : forall a b, a <= b -> (round_even a <= round_even b)%Z.
Proof.
  intros a b H. destruct (Z_le_gt_dec (round_even a) (round_even b)) as [L|G]; [exact L|exfalso].
  (* both are half way between the same integers *)
  destruct (round_near a) as [a1 a2]. destruct (round_near b) as [b1 b2].
  assert (K : inject_Z (round_even b) + 1 <= inject_Z (round_even a)) by (change 1 with (inject_Z 1); rewrite <- inject_Z_plus, <- Zle_Qle; lia).
  assert (E : a == b) by lra. apply round_compat in E. lia.
Qed.
Lemma round_int : forall z, round_even (inject_Z z) = z.
Proof.
  intros z. destruct (round_near (inject_Z z)) as [h1 h2]. 
  assert (inject_Z (round_even (inject_Z z)) < inject_Z (z + 1)) as A by (rewrite inject_Z_plus; change (inject_Z 1) with 1; lra).
  assert (inject_Z (z - 1) < inject_Z (round_even (inject_Z z))) as B by (unfold Zminus; rewrite inject_Z_plus, inject_Z_opp; change (inject_Z 1) with 1; lra).
  rewrite <- Zlt_Qlt in A, B. lia.
Qed.

(** * One pixel *)
Lemma unpack_pack : forall s q, 0 < s -> 0 <= q -> q / s <= 65535 ->
  let code := round_even (q / s) in (0 <= code <= 65535)%Z /\ pack (s, 0) (Some q) = code /\
  unpack (s, 0) (pack (s, 0) (Some q)) = (if (code =? 0)%Z then None else Some (inject_Z code * s + 0)).
Proof.
  intros s q Hs H0 H1 code.
  assert (C : (0 <= code <= 65535)%Z).
  { split; [rewrite <- (round_int 0)|rewrite <- (round_int 65535)]; apply round_mono; auto.
    apply Qle_shift_div_l; auto. change (inject_Z 0) with 0. lra. }
  assert (P : pack (s, 0) (Some q) = code).
  { unfold pack. cbn [fst snd]. rewrite (round_compat _ (q / s)) by (apply Qmult_comp; [ring|reflexivity]). fold code. apply Z.mod_small. lia. }
  split; [exact C|]. split; [exact P|]. rewrite P. reflexivity.
Qed.

Lemma scaling_step : forall name, glm_scaling name = option_map (fun s => (s, 0)) (step name).
Proof.
  intros name. unfold glm_scaling.
  repeat match goal with |- context [String.eqb name ?n] => destruct (String.eqb_spec name n) as [->|?]; [reflexivity|] end.
  assert (S : step name = None); [|rewrite S; reflexivity].
  destruct (step name) as [s|] eqn:E; [exfalso|reflexivity]. unfold step in E.
  repeat match type of E with context [match ?x with _ => _ end] => destruct x end; try discriminate; congruence.
Qed.
Lemma step_pos : forall name s, step name = Some s -> 0 < s.
Proof.
  intros name s H. pose proof (scaling_step name) as E. rewrite H in E. cbn in E. unfold glm_scaling in E.
  repeat match type of E with context [String.eqb name ?n] => destruct (String.eqb name n) end; inversion E; reflexivity.
Qed.

Definition final (sc : option (Q * Q)) (v : fval) : fval := stored sc (raise_tiny sc v).
Lemma step_of_scaling : forall (scaled : bool) name, scaling_of scaled name = option_map (fun s => (s, 0)) (if scaled then step name else None).
Proof. intros [|] name; unfold scaling_of; [apply scaling_step|reflexivity]. Qed.
Lemma raise_tiny_zero : forall sc v, v == 0 -> raise_tiny sc (Some v) = Some v.
Proof.
  intros [[s o]|] v E; [|reflexivity]. unfold raise_tiny. destruct (Qlt_bool 0 v) eqn:B; [|reflexivity]. apply Qlt_bool_iff in B. exfalso. lra.
Qed.
Lemma raise_tiny_cases : forall s v, 0 < s -> 0 < v -> exists u, raise_tiny (Some (s, 0)) (Some v) = Some u /\ (v <= s -> u == s) /\ (s <= v -> u == v) /\ s <= u.
Proof.
  intros s v Hs Hv. unfold raise_tiny. rewrite (proj2 (Qlt_bool_iff 0 v) Hv). destruct (Qle_bool v (s + 0)) eqn:B; cbn [andb].
  - apply Qle_bool_iff in B. exists (s + 0). repeat split; intros; lra.
  - apply Qle_bool_false in B. exists v. repeat split; intros; lra.
Qed.
Lemma final_shows : forall (scaled : bool) name v, shows (if scaled then step name else None) v (final (scaling_of scaled name) (Some v)).
Proof.
  intros scaled name v. rewrite step_of_scaling. pose proof (step_pos name) as SP. unfold final. split.
  - intros E. rewrite raise_tiny_zero by auto. destruct scaled, (step name) as [s|]; cbn [option_map stored]; try (rewrite (proj2 (Qeq_bool_iff v 0) E); reflexivity).
    specialize (SP s eq_refl). unfold pack. cbn [fst snd]. rewrite (round_compat _ (inject_Z 0)); [rewrite round_int; reflexivity|].
    rewrite E. unfold Qdiv. change (inject_Z 0) with 0. ring.
  - intros Hv. assert (F : exists u, stored None (raise_tiny None (Some v)) = Some u /\ u == v).
    { exists v. split; [|reflexivity]. cbn. destruct (Qeq_bool v 0) eqn:B; [apply Qeq_bool_iff in B; lra|reflexivity]. }
    destruct scaled; [|exact F]. destruct (step name) as [s|]; [|exact F]. specialize (SP s eq_refl). cbn [option_map].
    intros HM. destruct (raise_tiny_cases s v SP Hv) as (u & -> & u1 & u2 & u3). cbn [stored].
    assert (UM : u / s <= 65535). { apply Qle_shift_div_r; auto. destruct (Qlt_le_dec v s) as [L|L]; [rewrite u1 by lra; lra|rewrite u2 by lra; lra]. }
    destruct (unpack_pack s u SP ltac:(lra) UM) as (C & P & ->). set (code := round_even (u / s)) in *.
    assert (C1 : (1 <= code)%Z).
    { unfold code. rewrite <- (round_int 1). apply round_mono. apply Qle_shift_div_l; auto. change (inject_Z 1) with 1. lra. }
    replace (code =? 0)%Z with false by (symmetry; apply Z.eqb_neq; lia).
    exists (inject_Z code * s + 0). split; [reflexivity|].
    split; [|split].
    + intros L. specialize (u1 L). assert (code = 1%Z) as ->; [|change (inject_Z 1) with 1; ring].
      unfold code. rewrite (round_compat _ (inject_Z 1)); [apply round_int|]. rewrite u1. change (inject_Z 1) with 1. field. lra.
    + intros L. specialize (u2 L). destruct (round_near (u / s)) as [n1 n2]. fold code in n1, n2.
      assert (X : inject_Z code * s <= (u / s + (1 # 2)) * s) by (apply Qmult_le_compat_r; lra).
      assert (Y : (u / s - (1 # 2)) * s <= inject_Z code * s) by (apply Qmult_le_compat_r; lra).
      assert (US : (u / s) * s == u) by (field; lra).
      assert (X' : inject_Z code * s <= u + s / 2). { setoid_replace (u + s / 2) with ((u / s + (1 # 2)) * s); [exact X|field; lra]. }
      assert (Y' : u - s / 2 <= inject_Z code * s). { setoid_replace (u - s / 2) with ((u / s - (1 # 2)) * s); [exact Y|field; lra]. }
      apply Qabs_Qle_condition. split; lra.
    + intros k Ek. assert (K1 : (1 <= k)%Z). { destruct (Z_le_gt_dec 1 k) as [K|K]; [exact K|exfalso]. assert (inject_Z k <= inject_Z 0) by (rewrite <- Zle_Qle; lia). change (inject_Z 0) with 0 in *. nra. }
      assert (SV : s <= v) by (rewrite Zle_Qle in K1; change (inject_Z 1) with 1 in K1; nra). specialize (u2 SV).
      assert (code = k) as ->; [|rewrite Ek; ring]. unfold code. rewrite (round_compat _ (inject_Z k)); [apply round_int|]. rewrite u2, Ek. field. lra.
Qed.
Lemma final_mono : forall s v v', 0 < s -> 0 < v -> v <= v' -> v' <= 65535 * s ->
  exists u u', final (Some (s, 0)) (Some v) = Some u /\ final (Some (s, 0)) (Some v') = Some u' /\ u <= u'.
Proof.
  intros s v v' Hs Hv L HM. unfold final.
  destruct (raise_tiny_cases s v Hs Hv) as (u & -> & u1 & u2 & u3). destruct (raise_tiny_cases s v' Hs ltac:(lra)) as (w & -> & w1 & w2 & w3).
  assert (UW : u <= w).
  { destruct (Qlt_le_dec v s) as [A|A]; [rewrite u1 by lra; exact w3|]. rewrite u2, w2 by lra. exact L. }
  assert (WM : w / s <= 65535) by (apply Qle_shift_div_r; auto; destruct (Qlt_le_dec v' s) as [A|A]; [rewrite w1 by lra; lra|rewrite w2 by lra; lra]).
  assert (D : u / s <= w / s) by (apply Qle_shift_div_l; auto; setoid_replace (u / s * s) with u; [exact UW|field; lra]).
  cbn [stored]. destruct (unpack_pack s u Hs ltac:(lra) ltac:(lra)) as (C & P & ->). destruct (unpack_pack s w Hs ltac:(lra) WM) as (C' & P' & ->).
  pose proof (round_mono _ _ D) as M.
  assert (C1 : (1 <= round_even (u / s))%Z).
  { rewrite <- (round_int 1). apply round_mono. apply Qle_shift_div_l; auto. change (inject_Z 1) with 1. lra. }
  replace (round_even (u / s) =? 0)%Z with false by (symmetry; apply Z.eqb_neq; lia).
  replace (round_even (w / s) =? 0)%Z with false by (symmetry; apply Z.eqb_neq; lia).
  do 2 eexists. split; [reflexivity|]. split; [reflexivity|]. rewrite Zle_Qle in M. apply Qplus_le_compat; [|lra]. apply Qmult_le_compat_r; lra.
Qed.
(** Above the range the code wraps. *)
Lemma final_wraps : forall s k, 0 < s -> (0 <= k < 65536)%Z ->
  final (Some (s, 0)) (Some (inject_Z (65536 + k) * s)) = (if (k =? 0)%Z then None else Some (inject_Z k * s + 0)).
Proof.
  intros s k Hs Hk. unfold final.
  assert (V : s < inject_Z (65536 + k) * s).
  { assert (1 < inject_Z (65536 + k)) by (change 1 with (inject_Z 1); rewrite <- Zlt_Qlt; lia). rewrite <- (Qmult_1_l s) at 1. apply Qmult_lt_compat_r; auto. }
  assert (R : raise_tiny (Some (s, 0)) (Some (inject_Z (65536 + k) * s)) = Some (inject_Z (65536 + k) * s)).
  { unfold raise_tiny. destruct (Qle_bool (inject_Z (65536 + k) * s) (s + 0)) eqn:B; [apply Qle_bool_iff in B; lra|]. rewrite andb_false_r. reflexivity. }
  rewrite R. cbn [stored]. unfold pack. cbn [fst snd].
  rewrite (round_compat _ (inject_Z (65536 + k))) by (field; lra). rewrite round_int.
  replace ((65536 + k) mod 65536)%Z with k by (rewrite Z.add_comm; change 65536%Z with (1 * 65536)%Z at 1; rewrite Z.mod_add by lia; symmetry; apply Z.mod_small; lia).
  reflexivity.
Qed.

(** * The loop over the fields *)
Section Fields.
Variables (gd : gridder) (xs ys : pyslice) (scaled : bool).
Variables nx ny nt : nat.
Hypothesis HD : simple_divide (gd_divide gd).
Let X0 := slice_lo xs nx.
Let LX := slice_len xs nx.
Let Y0 := slice_lo ys ny.
Let LY := slice_len ys ny.
Definition in_view (x y : nat) : bool := (Nat.leb X0 x && Nat.ltb x (X0 + LX) && Nat.leb Y0 y && Nat.ltb y (Y0 + LY))%bool.
Definition no_array : array3 := mkArr 0 0 0 (fun _ _ _ => None).
Definition at_ (st : list array3) (i x y u : nat) : fval := a_at (nth i st no_array) x y u.
Definition sc_of (i : nat) : option (Q * Q) := scaling_of scaled (nth i (gd_names gd) EmptyString).
Definition value (st : list array3) (t i x y : nat) : fval :=
  match gd_divide gd i with
  | None => at_ st i x y t
  | Some d => divide (at_ st i x y t) (raise_tiny (sc_of d) (at_ st d x y t))
  end.
Definition expected (st : list array3) (t i x y u : nat) : fval :=
  if (Nat.eqb u t && in_view x y)%bool then raise_tiny (sc_of i) (value st t i x y) else at_ st i x y u.
Definition after (k t : nat) (st S : list array3) : Prop :=
  List.length S = List.length st /\ shaped S nx ny nt /\
  forall i x y u, (i < List.length st)%nat -> at_ S i x y u = if Nat.ltb i k then expected st t i x y u else at_ st i x y u.

Lemma nth_of : forall (st : list array3) i, (i < List.length st)%nat -> nth_error st i = Some (nth i st no_array).
Proof. intros st i H. apply nth_error_nth'. auto. Qed.
Lemma nth_res_ok : forall A (l : list A) i d, (i < List.length l)%nat -> nth_res l i = Ok (nth i l d).
Proof. intros A l i d H. unfold nth_res. rewrite (nth_error_nth' l d H). reflexivity. Qed.
Lemma shape_of : forall st i, shaped st nx ny nt -> (i < List.length st)%nat ->
  a_nx (nth i st no_array) = nx /\ a_ny (nth i st no_array) = ny /\ a_nt (nth i st no_array) = nt.
Proof. intros st i H Hi. unfold shaped in H. rewrite Forall_forall in H. apply H. apply nth_In. auto. Qed.
Lemma at_set_nth : forall st i a j x y u, (i < List.length st)%nat ->
  at_ (set_nth i a st) j x y u = if Nat.eqb j i then a_at a x y u else at_ st j x y u.
Proof.
  intros st i a j x y u Hi. unfold at_. destruct (Nat.eqb_spec j i) as [->|N].
  - assert (K : nth_error (set_nth i a st) i = Some a) by (rewrite nth_error_set_nth, Nat.eqb_refl; apply Nat.ltb_lt in Hi; rewrite Hi; reflexivity). erewrite nth_error_nth; [|exact K]. reflexivity.
  - f_equal. destruct (Nat.lt_ge_cases j (List.length st)) as [L|G].
    + assert (K : nth_error (set_nth i a st) j = Some (nth j st no_array)).
      { rewrite nth_error_set_nth. destruct (Nat.eqb_spec j i); [congruence|]. cbn [andb]. apply nth_of; auto. }
      erewrite nth_error_nth; [|exact K]. reflexivity.
    + rewrite !nth_overflow; auto. rewrite set_nth_length. auto.
Qed.
Lemma at_view_set : forall t a h x y u, a_nx a = nx -> a_ny a = ny ->
  a_at (view_set xs ys t a h) x y u = if (Nat.eqb u t && in_view x y)%bool then h (x - X0)%nat (y - Y0)%nat else a_at a x y u.
Proof. intros t a h x y u Hx Hy. unfold view_set, in_view. cbn [a_at]. rewrite Hx, Hy. fold X0 LX Y0 LY. rewrite !andb_assoc. reflexivity. Qed.
Lemma view_back : forall t a x y, a_nx a = nx -> a_ny a = ny -> in_view x y = true ->
  view_at xs ys t a (x - X0) (y - Y0) = a_at a x y t.
Proof.
  intros t a x y Hx Hy V. unfold in_view in V. rewrite !andb_true_iff, !Nat.leb_le, !Nat.ltb_lt in V. unfold view_at. rewrite Hx, Hy. fold X0 Y0.
  replace (X0 + (x - X0))%nat with x by lia. replace (Y0 + (y - Y0))%nat with y by lia. reflexivity.
Qed.
Lemma view_set_shape : forall t a h, a_nx (view_set xs ys t a h) = a_nx a /\ a_ny (view_set xs ys t a h) = a_ny a /\ a_nt (view_set xs ys t a h) = a_nt a.
Proof. intros. auto. Qed.

Lemma field_step : forall t st S k, (t < nt)%nat -> List.length (gd_names gd) = List.length st -> (k < List.length st)%nat ->
  after k t st S -> exists S', write_field gd xs ys scaled t S k = Ok S' /\ after (Datatypes.S k) t st S'.
Proof.
  intros t st S k Ht HN Hk (HL & HS & HA).
  assert (Hk' : (k < List.length S)%nat) by lia. destruct (shape_of S k HS Hk') as (sx & sy & sn).
  set (g := nth k S no_array) in *.
  assert (G1 : exists g1, (match gd_divide gd k with None => Ok g | Some d => dn <- nth_res S d ;;
      if negb (Nat.ltb t (a_nt dn)) then Err IndexError else Ok (view_set xs ys t g (fun a b => divide (view_at xs ys t g a b) (view_at xs ys t dn a b))) end) = Ok g1 /\
      a_nx g1 = nx /\ a_ny g1 = ny /\ a_nt g1 = nt /\
      forall x y u, a_at g1 x y u = if (Nat.eqb u t && in_view x y)%bool then value st t k x y else at_ st k x y u).
  { assert (GK : forall x y u, a_at g x y u = at_ st k x y u).
    { intros x y u. change (a_at g x y u) with (at_ S k x y u). rewrite HA by auto. rewrite Nat.ltb_irrefl. reflexivity. }
    unfold value. destruct (gd_divide gd k) as [d|] eqn:ED.
    - destruct (HD k d ED) as [Hd ND]. rewrite (nth_res_ok _ S d no_array) by lia. cbn [bind].
      destruct (shape_of S d HS ltac:(lia)) as (dx & dy & dn). rewrite dn. replace (Nat.ltb t nt) with true by (symmetry; apply Nat.ltb_lt; auto). cbn [negb].
      eexists. split; [reflexivity|]. split; [exact sx|]. split; [exact sy|]. split; [exact sn|]. intros x y u. rewrite at_view_set by auto.
      destruct (Nat.eqb u t && in_view x y)%bool eqn:B; [|apply GK]. apply andb_true_iff in B. destruct B as [_ V].
      rewrite !view_back by auto. rewrite GK. f_equal.
      change (a_at (nth d S no_array) x y t) with (at_ S d x y t). rewrite HA by lia. replace (Nat.ltb d k) with true by (symmetry; apply Nat.ltb_lt; auto).
      unfold expected. rewrite Nat.eqb_refl, V. cbn [andb]. unfold value. rewrite ND. reflexivity.
    - exists g. split; [reflexivity|]. split; [exact sx|]. split; [exact sy|]. split; [exact sn|]. intros x y u. rewrite GK.
      destruct (Nat.eqb_spec u t) as [->|]; destruct (in_view x y); reflexivity. }
  destruct G1 as (g1 & E1 & x1 & y1 & n1 & A1).
  unfold write_field. rewrite (nth_res_ok _ S k no_array) by auto. fold g. cbn [bind]. rewrite (nth_res_ok _ (gd_names gd) k EmptyString) by lia. cbn [bind].
  rewrite sn. replace (Nat.ltb t nt) with true by (symmetry; apply Nat.ltb_lt; auto). cbn [negb]. rewrite E1. cbn [bind].
  eexists. split; [reflexivity|]. split; [rewrite set_nth_length; auto|]. split.
  - unfold shaped. apply Forall_forall. intros a Ha. apply In_nth_error in Ha. destruct Ha as (j & Hj). rewrite nth_error_set_nth in Hj.
    destruct (Nat.eqb_spec j k) as [E|N].
    + replace (Nat.ltb k (List.length S)) with true in Hj by (symmetry; apply Nat.ltb_lt; auto). cbn [andb] in Hj. inversion Hj. cbn. auto.
    + cbn [andb] in Hj. unfold shaped in HS. rewrite Forall_forall in HS. apply HS. eapply nth_error_In. exact Hj.
  - intros i x y u Hi. rewrite at_set_nth by auto. destruct (Nat.eqb_spec i k) as [->|N].
    + replace (Nat.ltb k (Datatypes.S k)) with true by (symmetry; apply Nat.ltb_lt; lia). rewrite at_view_set by auto. unfold expected.
      destruct (Nat.eqb u t && in_view x y)%bool eqn:B.
      * apply andb_true_iff in B. destruct B as [_ V]. rewrite view_back by auto. rewrite A1, Nat.eqb_refl, V. reflexivity.
      * rewrite A1, B. reflexivity.
    + rewrite HA by auto. destruct (Nat.ltb_spec i k); destruct (Nat.ltb_spec i (Datatypes.S k)); try lia; reflexivity.
Qed.
Lemma fields_loop : forall t st, (t < nt)%nat -> List.length (gd_names gd) = List.length st -> shaped st nx ny nt ->
  exists S, fold_res (write_field gd xs ys scaled t) (seq 0 (List.length st)) st = Ok S /\ after (List.length st) t st S.
Proof.
  intros t st Ht HN HS.
  assert (K : forall k, (k <= List.length st)%nat -> exists S, fold_res (write_field gd xs ys scaled t) (seq 0 k) st = Ok S /\ after k t st S).
  { induction k as [|k IH]; intros Hk.
    - exists st. split; [reflexivity|]. split; [reflexivity|]. split; [exact HS|]. intros; reflexivity.
    - destruct IH as (S & ES & AS); [lia|]. rewrite seq_S, fold_res_app, ES. cbn [bind plus fold_res].
      destruct (field_step t st S k Ht HN ltac:(lia) AS) as (S' & E' & A'). rewrite E'. cbn [bind]. exists S'. auto. }
  apply K. lia.
Qed.
End Fields.

(** * Frames *)
Section Frames.
Variables (gd : gridder) (xs ys : pyslice) (scaled : bool) (sc : scenes) (stamp : Q -> datetime).
Variables nx ny nt : nat.
Hypothesis HD : simple_divide (gd_divide gd).
Let X0 := slice_lo xs nx.
Let LX := slice_len xs nx.
Let Y0 := slice_lo ys ny.
Let LY := slice_len ys ny.

(** What a file shows for frame [t] of arrays with the content of [st]. *)
Definition shows_frame (st : list array3) (t : nat) (f : outfile) : Prop :=
  of_x f = slice_list xs (centers (gd_xedge gd)) /\ of_y f = rev (slice_list ys (centers (gd_yedge gd))) /\
  map fst (of_fields f) = gd_names gd /\ rectangular f LY LX /\
  forall i r c, (i < List.length st)%nat -> (r < LY)%nat -> (c < LX)%nat ->
    pixel_of f i r c (final (sc_of gd scaled i) (value gd scaled st t i (X0 + c) (Y0 + (LY - 1 - r)))).
Lemma slice_fits : forall s n, (slice_lo s n + slice_len s n <= Nat.max n (slice_lo s n))%nat.
Proof.
  intros s n. unfold slice_len. assert (slice_hi s n <= n)%nat.
  { unfold slice_hi. destruct (sl_hi s); [|lia]. unfold bound. destruct (Z.ltb_spec z 0); lia. }
  lia.
Qed.
Lemma nth_error_seq : forall n r, (r < n)%nat -> nth_error (seq 0 n) r = Some r.
Proof. intros n r H. rewrite nth_error_nth' with (d := 0%nat) by (rewrite seq_length; auto). rewrite seq_nth by auto. reflexivity. Qed.
Lemma frame_file : forall now st t t0 t1 S f, (t < nt)%nat -> List.length (gd_names gd) = List.length st -> shaped st nx ny nt ->
  write_frame gd xs ys scaled sc stamp now st t t0 t1 = Ok (S, f) ->
  after gd xs ys scaled nx ny nt (List.length st) t st S /\ shows_frame st t f.
Proof.
  intros now st t t0 t1 S f Ht HN HS W. unfold write_frame in W.
  apply bind_ok_inv in W. destruct W as (scene & _ & W). apply bind_ok_inv in W. destruct W as (name & _ & W).
  rewrite HN, Nat.min_id in W. destruct (fields_loop gd xs ys scaled nx ny nt HD t st Ht HN HS) as (S' & E & A).
  rewrite E in W. cbn [bind] in W. inversion W; subst S' f; clear W. split; [exact A|]. destruct A as (LS & SS & A).
  unfold shows_frame. cbn [of_x of_y of_fields]. split; [reflexivity|]. split; [reflexivity|]. split.
  { rewrite map_map. cbn [fst]. clear -LS HN. assert (List.length (gd_names gd) = List.length S) by congruence. revert S H LS. clear. intros S H _. revert S H.
    induction (gd_names gd) as [|a l IH]; intros [|b S] H; try discriminate H; auto. cbn. f_equal. apply IH. cbn in H. lia. }
  assert (I : forall i, (i < List.length st)%nat -> nth_error (combine (gd_names gd) S) i = Some (nth i (gd_names gd) EmptyString, nth i S no_array)).
  { intros i Hi. rewrite nth_error_nth' with (d := (EmptyString, no_array)) by (rewrite combine_length; lia). rewrite combine_nth by lia. reflexivity. }
  split.
  - unfold rectangular. cbn [of_fields]. apply Forall_forall. intros nr Hin. apply in_map_iff in Hin. destruct Hin as ((nm & g) & <- & Hin). cbn [snd fst].
    apply in_combine_r in Hin. unfold shaped in SS. rewrite Forall_forall in SS. destruct (SS g Hin) as (gx & gy & gt). unfold image. rewrite gx, gy. fold LX LY.
    split; [rewrite !map_length, seq_length; reflexivity|]. apply Forall_forall. intros row Hrow. apply in_map_iff in Hrow. destruct Hrow as (row' & <- & Hrow').
    apply in_map_iff in Hrow'. destruct Hrow' as (r & <- & _). rewrite !map_length, seq_length. reflexivity.
  - intros i r c Hi Hr Hc. exists (nth i (gd_names gd) EmptyString).
    destruct (shape_of nx ny nt S i SS ltac:(lia)) as (gx & gy & gt).
    eexists. eexists. split; [|split].
    + unfold of_fields. rewrite nth_error_map, (I i Hi). cbn [option_map fst snd]. reflexivity.
    + rewrite nth_error_map. unfold image. rewrite nth_error_map, gy. fold LY. rewrite nth_error_seq by auto. cbn [option_map]. reflexivity.
    + rewrite nth_error_map, nth_error_map, gx. fold LX. rewrite nth_error_seq by auto. cbn [option_map]. f_equal. unfold final.
      change (scaling_of scaled (nth i (gd_names gd) EmptyString)) with (sc_of gd scaled i). f_equal.
      unfold view_at. rewrite gx, gy. fold X0 Y0. fold (at_ S i (X0 + c) (Y0 + (LY - 1 - r)) t). rewrite A by auto.
      replace (Nat.ltb i (List.length st)) with true by (symmetry; apply Nat.ltb_lt; auto). unfold expected. rewrite Nat.eqb_refl.
      replace (in_view xs ys nx ny (X0 + c) (Y0 + (LY - 1 - r))) with true; [reflexivity|].
      symmetry. unfold in_view. fold X0 LX Y0 LY. rewrite !andb_true_iff, !Nat.leb_le, !Nat.ltb_lt. lia.
Qed.
Lemma value_ext : forall st S t, List.length st = List.length S -> (forall i x y, at_ S i x y t = at_ st i x y t) ->
  forall i x y, value gd scaled S t i x y = value gd scaled st t i x y.
Proof. intros st S t HL H i x y. unfold value. destruct (gd_divide gd i); rewrite ?H; auto. Qed.
Lemma shows_frame_ext : forall st S t f, List.length st = List.length S -> (forall i x y, at_ S i x y t = at_ st i x y t) -> shows_frame S t f -> shows_frame st t f.
Proof.
  intros st S t f HL H (A & B & C & D & E). split; auto. split; auto. split; auto. split; auto.
  intros i r c Hi Hr Hc. rewrite <- (value_ext st S t HL H). apply E; auto. lia.
Qed.
Lemma frames_files : forall nows edges st t S files, (t + (List.length edges - 1) <= nt)%nat ->
  List.length (gd_names gd) = List.length st -> shaped st nx ny nt ->
  write_frames gd xs ys scaled sc stamp nows st t edges = Ok (S, files) ->
  List.length files = (List.length edges - 1)%nat /\ List.length S = List.length st /\ shaped S nx ny nt /\
  (forall k f, nth_error files k = Some f -> shows_frame st (t + k) f) /\
  (forall i x y u, (i < List.length st)%nat ->
     at_ S i x y u = if (Nat.leb t u && Nat.ltb u (t + (List.length edges - 1)))%bool then expected gd xs ys scaled nx ny st u i x y u else at_ st i x y u).
Proof.
  intros nows edges. induction edges as [|e0 edges IH]; intros st t S files Ht HN HS W.
  { inversion W; subst. split; [reflexivity|]. split; [reflexivity|]. split; [exact HS|]. split; [intros [|k] f Hk; discriminate Hk|].
    intros i x y u Hi. replace (Nat.leb t u && Nat.ltb u (t + (List.length (@nil Q) - 1)))%bool with false; auto. symmetry. apply andb_false_iff. cbn [List.length Nat.sub].
    destruct (Nat.leb_spec t u); auto. right. apply Nat.ltb_ge. lia. }
  destruct edges as [|e1 edges].
  { inversion W; subst. split; [reflexivity|]. split; [reflexivity|]. split; [exact HS|]. split; [intros [|k] f Hk; discriminate Hk|].
    intros i x y u Hi. replace (Nat.leb t u && Nat.ltb u (t + (List.length [e0] - 1)))%bool with false; auto. symmetry. apply andb_false_iff. cbn [List.length Nat.sub].
    destruct (Nat.leb_spec t u); auto. right. apply Nat.ltb_ge. lia. }
  cbn [write_frames] in W. apply bind_ok_inv in W. destruct W as ((S1 & f0) & W1 & W). cbn [fst snd] in W.
  apply bind_ok_inv in W. destruct W as ((S2 & fs) & W2 & W). cbn [fst snd] in W. inversion W; subst S2 files; clear W.
  cbn [List.length] in Ht. destruct (frame_file (nows t) st t e0 e1 S1 f0 ltac:(lia) HN HS W1) as ((L1 & SH1 & A1) & F0).
  destruct (IH S1 (Datatypes.S t) S fs) as (LF & LS & SHS & FF & AA); [cbn [List.length]; lia|congruence|exact SH1|exact W2|].
  assert (OTH : forall i x y u, u <> t -> at_ S1 i x y u = at_ st i x y u).
  { intros i x y u Hu. destruct (Nat.lt_ge_cases i (List.length st)) as [L|G].
    - rewrite A1 by auto. unfold expected. destruct (Nat.eqb_spec u t); [congruence|]. destruct (Nat.ltb i (List.length st)); reflexivity.
    - unfold at_. rewrite !nth_overflow by lia. reflexivity. }
  split; [cbn [List.length] in *; lia|]. split; [congruence|]. split; [exact SHS|]. split.
  - intros [|k] f Hk; cbn [nth_error] in Hk.
    + inversion Hk; subst f. rewrite Nat.add_0_r. exact F0.
    + replace (t + Datatypes.S k)%nat with (Datatypes.S t + k)%nat by lia. apply shows_frame_ext with (S := S1); [congruence| |apply FF; exact Hk].
      intros i x y. apply OTH. lia.
  - intros i x y u Hi. rewrite AA by lia. cbn [List.length].
    destruct (Nat.eq_dec u t) as [->|N].
    + replace (Nat.leb (Datatypes.S t) t) with false by (symmetry; apply Nat.leb_gt; lia). cbn [andb]. rewrite A1 by auto.
      replace (Nat.ltb i (List.length st)) with true by (symmetry; apply Nat.ltb_lt; auto). rewrite Nat.leb_refl. cbn [andb].
      replace (Nat.ltb t _) with true; [reflexivity|]. symmetry. apply Nat.ltb_lt. lia.
    + replace (Nat.leb (Datatypes.S t) u && Nat.ltb u (Datatypes.S t + (Datatypes.S (List.length edges) - 1)))%bool
        with (Nat.leb t u && Nat.ltb u (t + (Datatypes.S (Datatypes.S (List.length edges)) - 1)))%bool.
      2:{ apply eq_true_iff_eq. rewrite !andb_true_iff, !Nat.leb_le, !Nat.ltb_lt. lia. }
      destruct (_ && _)%bool; [|apply OTH; auto].
      unfold expected. rewrite (value_ext st S1 u); [|congruence|intros; apply OTH; auto]. rewrite OTH by auto. reflexivity.
Qed.
Lemma scene_ok : forall x y, (2 <= List.length x)%nat -> (1 <= List.length y)%nat -> exists s, infer_scene sc x y = Ok s /\ exists code, scene_code s = Ok code.
Proof.
  intros [|x0 [|x1 x]] [|y0 y] Hx Hy; cbn in Hx, Hy; try lia. unfold infer_scene.
  destruct (_ && _)%bool; [eexists; split; [reflexivity|eexists; reflexivity]|].
  destruct (_ && _)%bool; [eexists; split; [reflexivity|eexists; reflexivity]|].
  destruct (_ && _)%bool; [eexists; split; [reflexivity|eexists; reflexivity]|].
  destruct (allclose _ _); eexists; split; try reflexivity; eexists; reflexivity.
Qed.
Lemma frames_succeed : forall nows edges st t, (t + (List.length edges - 1) <= nt)%nat ->
  List.length (gd_names gd) = List.length st -> shaped st nx ny nt ->
  (2 <= List.length (slice_list xs (centers (gd_xedge gd))))%nat -> (1 <= List.length (slice_list ys (centers (gd_yedge gd))))%nat ->
  exists S files, write_frames gd xs ys scaled sc stamp nows st t edges = Ok (S, files).
Proof.
  intros nows edges. induction edges as [|e0 edges IH]; intros st t Ht HN HS Hx Hy; [exists st, []; reflexivity|].
  destruct edges as [|e1 edges]; [exists st, []; reflexivity|]. cbn [List.length] in Ht.
  change (write_frames gd xs ys scaled sc stamp nows st t (e0 :: e1 :: edges)) with
    (so <- write_frame gd xs ys scaled sc stamp (nows t) st t e0 e1 ;;
     r <- write_frames gd xs ys scaled sc stamp nows (fst so) (Datatypes.S t) (e1 :: edges) ;; Ok (fst r, snd so :: snd r)).
  destruct (scene_ok _ (rev (slice_list ys (centers (gd_yedge gd)))) Hx) as (s & Es & code & Ec); [rewrite rev_length; auto|].
  destruct (fields_loop gd xs ys scaled nx ny nt HD t st ltac:(lia) HN HS) as (S1 & E1 & A1).
  unfold write_frame at 1. rewrite Es. cbn [bind]. unfold dataset_name. rewrite Ec. cbn [bind]. unfold mode_code. cbn [String.eqb Ascii.eqb Bool.eqb bind].
  rewrite HN, Nat.min_id, E1. cbn [bind fst snd]. destruct A1 as (L1 & SH1 & _).
  destruct (IH S1 (Datatypes.S t)) as (S & files & E); [cbn [List.length]; lia|congruence|exact SH1|exact Hx|exact Hy|].
  rewrite E. cbn [bind fst snd]. eexists. eexists. reflexivity.
Qed.
End Frames.
