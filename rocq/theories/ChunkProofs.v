(** Lemmas about reading flashes in chunks. *)
From Coq Require Import String List ZArith QArith Bool Lia Permutation Sorting.Sorted.
From Verif Require Import Base BaseProofs Traversal TraversalSpec TraversalProofs TraversalProofs2 TraversalProofs3 TraversalProofs4 Glm GlmSpec GlmProofs GlmProofs2 GlmProofs3
  Lut LutSpec LutProofs PropGlm PropLut Accum Poly BBox Slice Regroup Pipeline ChunkSpec.
Import ListNotations.
Open Scope Z_scope.

Local Notation tbl := (table obs).

(** * array_split *)
Lemma take_parts_concat : forall A sizes (l : list A), list_sum sizes = List.length l -> List.concat (take_parts sizes l) = l.
Proof.
  induction sizes as [|n sizes IH]; intros l H; cbn [list_sum fold_right] in H; cbn [take_parts List.concat].
  - destruct l; [reflexivity|discriminate].
  - rewrite IH; [apply firstn_skipn|]. rewrite skipn_length. unfold list_sum in *. lia.
Qed.
Lemma take_parts_sizes : forall A sizes (l : list A), list_sum sizes = List.length l -> map (@List.length A) (take_parts sizes l) = sizes.
Proof.
  induction sizes as [|n sizes IH]; intros l H; cbn [list_sum fold_right] in H; cbn [take_parts map]; [reflexivity|].
  rewrite IH; [|rewrite skipn_length; unfold list_sum in *; lia]. f_equal. rewrite firstn_length. unfold list_sum in *. lia.
Qed.
Lemma sum_repeat : forall n k, list_sum (repeat n k) = (n * k)%nat.
Proof. induction k as [|k IH]; cbn [repeat list_sum fold_right]; [lia|]. unfold list_sum in IH. rewrite IH. lia. Qed.
Lemma split_sizes : forall A (l : list A) n, (0 < n)%nat ->
  let q := Nat.div (List.length l) n in let r := Nat.modulo (List.length l) n in
  list_sum (repeat (S q) r ++ repeat q (n - r)) = List.length l /\ (r < n)%nat.
Proof.
  intros A l n Hn q r. rewrite list_sum_app, !sum_repeat.
  pose proof (Nat.div_mod (List.length l) n ltac:(lia)) as D. pose proof (Nat.mod_upper_bound (List.length l) n ltac:(lia)) as U. fold q r in D, U. split; [nia|exact U].
Qed.
Lemma array_split_spec : forall A (l : list A) n, (0 < n)%nat ->
  List.concat (array_split l n) = l /\ List.length (array_split l n) = n /\ even (array_split l n) /\
  (forall p, In p (array_split l n) -> List.length p = Nat.div (List.length l) n \/ (List.length p = S (Nat.div (List.length l) n) /\ 0 < Nat.modulo (List.length l) n)%nat).
Proof.
  intros A l n Hn. destruct (split_sizes A l n Hn) as [S1 S2]. cbv zeta in S1. unfold array_split.
  set (q := Nat.div (List.length l) n) in *. set (r := Nat.modulo (List.length l) n) in *. set (sz := repeat (S q) r ++ repeat q (n - r)) in *.
  pose proof (take_parts_sizes A sz l S1) as TS.
  assert (SZ : forall p, In p (take_parts sz l) -> List.length p = q \/ (List.length p = S q /\ (0 < r)%nat)).
  { intros p Hp. assert (In (List.length p) sz) as K by (rewrite <- TS; apply in_map; auto). unfold sz in K. apply in_app_iff in K.
    destruct K as [K|K]; [right|left]; pose proof (repeat_spec _ _ _ K) as K'; [split; [exact K'|]|exact K']. destruct r; [destruct K|lia]. }
  split; [apply take_parts_concat; auto|]. split; [|split].
  - rewrite <- (map_length (@List.length A)), TS. unfold sz. rewrite app_length, !repeat_length. lia.
  - intros p p' Hp Hp'. destruct (SZ p Hp) as [->|[-> _]], (SZ p' Hp') as [->|[-> _]]; lia.
  - exact SZ.
Qed.
Lemma chunk_count : forall cs n, (0 < cs)%nat -> (0 < n)%nat -> let k := n_chunks cs n in
  (0 < k)%nat /\ (1 <= Nat.div n k)%nat /\ (Nat.div n k + (if Nat.eqb (Nat.modulo n k) 0 then 0 else 1) < 2 * cs)%nat.
Proof.
  intros cs n Hc Hn k. unfold n_chunks in k. pose proof (Nat.div_mod n cs ltac:(lia)) as D. pose proof (Nat.mod_upper_bound n cs ltac:(lia)) as U.
  assert (K : (k <= n)%nat) by (unfold k; assert (n / cs <= n)%nat by (apply Nat.div_le_upper_bound; nia); lia).
  assert (K0 : (0 < k)%nat) by (unfold k; lia).
  pose proof (Nat.div_mod n k ltac:(lia)) as D2. pose proof (Nat.mod_upper_bound n k ltac:(lia)) as U2.
  split; [exact K0|]. split; [apply Nat.div_le_lower_bound; lia|].
  set (a := Nat.div n k) in *. set (b := Nat.modulo n k) in *. 
  assert (KC : k = Nat.max (n / cs) 1) by reflexivity. clearbody k. set (c := Nat.div n cs) in *. set (d := Nat.modulo n cs) in *.
  destruct (Nat.eqb_spec b 0) as [B|B].
  - destruct (Nat.max_spec c 1) as [[M1 M2]|[M1 M2]]; rewrite M2 in KC; subst k; nia.
  - destruct (Nat.max_spec c 1) as [[M1 M2]|[M1 M2]]; rewrite M2 in KC; subst k; [nia|].
    assert (a <= cs + d)%nat by nia. destruct (Nat.eq_dec c 1) as [->|C1]; [lia|]. nia.
Qed.

(** * The levels of a chunk *)
Definition lev0 (F : tbl) ids := flat_map (with_id F) ids.
Definition lev1 (G : tbl) ids := flat_map (with_parent G) ids.
Definition lev2 (G E : tbl) ids := flat_map (fun q => with_parent E (rid q)) (lev1 G ids).
Lemma get_flashes_levels : forall (F G E : tbl) ids, F <> [] -> G <> [] -> E <> [] ->
  get_flashes [F; G; E] ids = Ok [lev0 F ids; lev1 G ids; lev2 G E ids].
Proof. intros. unfold get_flashes. rewrite init3. cbn [bind]. apply reduce3; auto. Qed.
Lemma flat_map_concat' : forall A B (f : A -> list B) ls, flat_map f (List.concat ls) = List.concat (map (flat_map f) ls).
Proof. induction ls as [|l ls IH]; [reflexivity|]. cbn [List.concat map]. rewrite flat_map_app, IH. reflexivity. Qed.
Lemma lev2_concat : forall G E parts, lev2 G E (List.concat parts) = List.concat (map (lev2 G E) parts).
Proof. intros. unfold lev2, lev1. rewrite flat_map_concat', flat_map_concat', map_map. reflexivity. Qed.
Lemma with_id_self : forall (F : tbl) r, NoDup (map rid F) -> In r F -> with_id F (rid r) = [r].
Proof. intros F r ND Hr. apply (filter_key_unique _ rid F r ND Hr). Qed.
Lemma lev0_sub : forall (F F2 : tbl), NoDup (map rid F) -> (forall f, In f F2 -> In f F) -> lev0 F (map rid F2) = F2.
Proof.
  intros F F2 ND. induction F2 as [|f F2 IH]; intros H; [reflexivity|]. unfold lev0 in *. cbn [map flat_map].
  rewrite IH by (intros; apply H; right; auto). rewrite with_id_self; auto. apply H; left; auto.
Qed.
Lemma lev1_perm : forall (G : tbl) ids, NoDup ids -> Permutation (lev1 G ids) (filter (fun g => zmem (rpid g) ids) G).
Proof. intros G ids ND. apply (perm_by_key _ rpid G ids ND). Qed.
Lemma lev2_perm : forall (G E : tbl) ids, NoDup ids -> NoDup (map rid G) ->
  Permutation (lev2 G E ids) (filter (fun e => zmem (rpid e) (map rid (lev1 G ids))) E).
Proof.
  intros G E ids ND NG. unfold lev2. rewrite <- (flat_map_map _ _ _ rid (with_parent E)). apply perm_by_key.
  eapply Permutation_NoDup; [apply Permutation_map, Permutation_sym, lev1_perm; auto|]. apply nodup_map_filter. auto.
Qed.

Lemma in_lev0 : forall (F : tbl) ids f, In f (lev0 F ids) <-> In f F /\ In (rid f) ids.
Proof.
  intros. unfold lev0. rewrite in_flat_map. split.
  - intros (i & Hi & Hf). apply in_with_id in Hf. destruct Hf as [Hf <-]. auto.
  - intros [Hf Hi]. exists (rid f). split; auto. apply in_with_id; auto.
Qed.
Lemma in_lev1 : forall (G : tbl) ids g, In g (lev1 G ids) <-> In g G /\ In (rpid g) ids.
Proof.
  intros. unfold lev1. rewrite in_flat_map. split.
  - intros (i & Hi & Hf). apply in_with_parent in Hf. destruct Hf as [Hf <-]. auto.
  - intros [Hf Hi]. exists (rpid g). split; auto. apply in_with_parent; auto.
Qed.
Lemma in_lev2 : forall (G E : tbl) ids e, In e (lev2 G E ids) <-> In e E /\ exists g, In g G /\ In (rpid g) ids /\ rid g = rpid e.
Proof.
  intros. unfold lev2. rewrite in_flat_map. split.
  - intros (g & Hg & He). apply in_with_parent in He. apply in_lev1 in Hg. destruct He as [He Ee]. split; [exact He|]. exists g. split; [tauto|]. split; [tauto|auto].
  - intros (He & g & Hg & Hi & Eg). exists g. split; [apply in_lev1; auto|apply in_with_parent; auto].
Qed.

Lemma levels_derived : forall (F G E : tbl) ids, derived_ok F G E -> F <> [] -> G <> [] -> E <> [] ->
  NoDup ids -> incl ids (map rid F) -> derived_ok (lev0 F ids) (lev1 G ids) (lev2 G E ids).
Proof.
  intros F G E ids Hd HF HG HE NI HI. destruct Hd as ((Hu & Ho) & DE & DG & DF).
  assert (Hu' := Hu). apply unique3 in Hu'. destruct Hu' as (NF & NG & NE).
  assert (Ho' := Ho). apply linked_no_orphans in Ho'. destruct Ho' as [LFG LGE].
  assert (Hne : Forall (fun T => T <> []) [F; G; E]) by (apply nonempty3; auto).
  destruct (reduce_consistent [F; G; E] entity_ids parent_ids (tv3 F G E) 0 "flash_id"%string ids
    (init3 F G E) nodup_eids eq_refl Hne (conj Hu Ho) NI) as [out [tv' [Eo [Hcons _]]]].
  rewrite reduce3 in Eo by auto. inversion Eo as [Eout]. clear Eo. rewrite <- Eout in Hcons.
  change (consistent [lev0 F ids; lev1 G ids; lev2 G E ids]) in Hcons. clear Eout.
  set (F2 := lev0 F ids) in *. set (G2 := lev1 G ids) in *. set (E2 := lev2 G E ids) in *.
  assert (HG2 : forall g, In g G2 <-> In g G /\ In (rpid g) ids) by (intros; apply in_lev1).
  assert (HE2 : forall e, In e E2 <-> In e E /\ exists g, In g G2 /\ rid g = rpid e).
  { intros e. unfold E2. rewrite in_lev2. split; intros (He & g & K); split; auto; exists g; rewrite HG2 in *; tauto. }
  assert (Hu2 : unique_ids [F2; G2; E2]) by apply Hcons.
  apply unique3 in Hu2. destruct Hu2 as (NF2 & NG2 & NE2).
  assert (PG2 : forall f, In f F2 -> Permutation (with_parent G2 (rid f)) (with_parent G (rid f))).
  { intros f Hf. apply NoDup_Permutation; [apply NoDup_filter; eapply nodup_of_map; eauto|apply NoDup_filter; eapply nodup_of_map; eauto|].
    intros g. rewrite !in_with_parent, HG2. split; [tauto|]. intros [Hg Eg]. apply in_lev0 in Hf. rewrite Eg. tauto. }
  assert (PE2 : forall g, In g G2 -> Permutation (with_parent E2 (rid g)) (with_parent E (rid g))).
  { intros g Hg. apply NoDup_Permutation; [apply NoDup_filter; eapply nodup_of_map; eauto|apply NoDup_filter; eapply nodup_of_map; eauto|].
    intros e. rewrite !in_with_parent, HE2. split; [tauto|]. intros [He Ee]. split; auto. split; auto. exists g. auto. }
  split; [exact Hcons|]. split; [|split].
  - intros e He. apply HE2 in He. destruct He as [He [g [Hg Eg]]]. exists g. split; auto. split; auto.
    destruct (DE e He) as (g' & Hg' & Eg' & Ef). rewrite Ef. f_equal. apply (nodup_map_inj_in _ _ _ _ g' g NG); [auto|apply HG2 in Hg; tauto|congruence].
  - intros g Hg. rewrite (Permutation_length (PE2 g Hg)). apply DG. apply HG2 in Hg. tauto.
  - intros f Hf. assert (HfF : In f F /\ In (rid f) ids) by (apply in_lev0; exact Hf). destruct (DF f (proj1 HfF)) as [D1 D2].
    split; [rewrite (Permutation_length (PG2 f Hf)); auto|]. rewrite D2.
    apply Permutation_length, NoDup_Permutation; [apply NoDup_filter; eapply nodup_of_map; eauto|apply NoDup_filter; eapply nodup_of_map; eauto|].
    intros e. rewrite !filter_In, HE2, Z.eqb_eq. split; [|tauto].
    intros [He Ee]. split; auto. split; auto. destruct (DE e He) as [g [Hg [Eg Eo]]]. exists g. split; auto. apply HG2. split; auto.
    rewrite <- Eo, Ee. tauto.
Qed.

(** * Sums over chunks *)
Lemma keyed_split : forall A (key : row obs -> Z) (a b : A -> tbl) ch,
  Forall (fun c => forall e, In e (b c) -> In (key e) (map rid (a c))) ch ->
  NoDup (map rid (flat_map a ch)) ->
  filter (fun f => existsb (fun e => key e =? rid f) (flat_map b ch)) (flat_map a ch) =
  flat_map (fun c => filter (fun f => existsb (fun e => key e =? rid f) (b c)) (a c)) ch.
Proof.
  intros A key a b ch H. induction H as [|c ch HK H IH]; intros ND; [reflexivity|].
  cbn [flat_map] in *. rewrite map_app in ND.
  assert (ND2 : NoDup (map rid (flat_map a ch))) by (clear -ND; induction (map rid (a c)); [exact ND|apply IHl; inversion ND; auto]).
  rewrite filter_app, <- (IH ND2).
  assert (DJ : forall z, In z (map rid (a c)) -> In z (map rid (flat_map a ch)) -> False).
  { clear -ND. intros z Ha Hb. induction (map rid (a c)) as [|x l IHl]; [destruct Ha|]. cbn in ND. inversion ND; subst. destruct Ha as [->|Ha]; [apply H1, in_or_app; auto|auto]. }
  assert (KC : forall e, In e (flat_map b ch) -> In (key e) (map rid (flat_map a ch))).
  { clear -H. intros e He. apply in_flat_map in He. destruct He as (d & Hd & He). rewrite Forall_forall in H. specialize (H d Hd e He).
    apply in_map_iff in H. destruct H as (f & <- & Hf). apply in_map. apply in_flat_map. eauto. }
  f_equal; apply filter_ext_in; intros f Hf; rewrite existsb_app.
  - destruct (existsb (fun e => key e =? rid f) (flat_map b ch)) eqn:B; [|apply orb_false_r]. exfalso. apply existsb_exists in B. destruct B as (e & He & Ee). apply Z.eqb_eq in Ee.
    apply (DJ (rid f)); [apply in_map; auto|]. rewrite <- Ee. auto.
  - destruct (existsb (fun e => key e =? rid f) (b c)) eqn:B; [|reflexivity]. exfalso. apply existsb_exists in B. destruct B as (e & He & Ee). apply Z.eqb_eq in Ee.
    apply (DJ (rid f)); [|apply in_map; auto]. rewrite <- Ee. auto.
Qed.
Lemma filter_perm : forall A (f : A -> bool) l l', Permutation l l' -> Permutation (filter f l) (filter f l').
Proof.
  induction 1 as [|x l l' P IH|x y l|l l' l'' P1 I1 P2 I2]; cbn; [constructor|destruct (f x); auto| |eapply perm_trans; eauto].
  destruct (f x), (f y); try apply Permutation_refl. apply perm_swap.
Qed.
Lemma existsb_perm : forall A (f : A -> bool) l l', Permutation l l' -> existsb f l = existsb f l'.
Proof. induction 1 as [|x l l' P IH|x y l|l l' l'' P1 I1 P2 I2]; cbn; [reflexivity|congruence|destruct (f x), (f y); reflexivity|congruence]. Qed.
Lemma keyed_perm : forall (key : row obs -> Z) X X' C C', Permutation X X' -> Permutation C C' ->
  Permutation (filter (fun f : row obs => existsb (fun e => key e =? rid f) C) X) (filter (fun f => existsb (fun e => key e =? rid f) C') X').
Proof.
  intros key X X' C C' PX PC. eapply perm_trans; [apply filter_perm; exact PX|]. erewrite filter_ext; [apply Permutation_refl|].
  intros f. cbv beta. apply existsb_perm. exact PC.
Qed.
Lemma cell_events_flat : forall A (p : row obs -> Z) k (b : A -> tbl) ch, cell_events p (flat_map b ch) k = flat_map (fun c => cell_events p (b c) k) ch.
Proof. intros. unfold cell_events. induction ch as [|c ch IH]; [reflexivity|]. cbn [flat_map]. rewrite filter_app, IH. reflexivity. Qed.

Lemma qnat_flat : forall A B (h : A -> list B) ch,
  (inject_Z (Z.of_nat (List.length (flat_map h ch))) == qsum (map (fun c => inject_Z (Z.of_nat (List.length (h c)))) ch))%Q.
Proof.
  induction ch as [|c ch IH]; [reflexivity|]. cbn [flat_map map]. rewrite app_length, Nat2Z.inj_add, inject_Z_plus.
  change (qsum (?x :: ?l)) with (x + qsum l)%Q. rewrite IH. reflexivity.
Qed.
Lemma total_flat : forall A (v : row obs -> fval) (h : A -> tbl) ch,
  (total (map v (flat_map h ch)) == qsum (map (fun c => total (map v (h c))) ch))%Q.
Proof.
  induction ch as [|c ch IH]; [reflexivity|]. cbn [flat_map map]. unfold total in *. rewrite !map_app, qsum_app.
  change (qsum (?x :: ?l)) with (x + qsum l)%Q. rewrite IH. reflexivity.
Qed.
Lemma pixel_sum_tables : forall f k tables, (pixel_sum f k tables == qsum (map (fun t => pixel_sum f k [t]) tables))%Q.
Proof.
  intros f k tables. induction tables as [|t tables IH]; [reflexivity|]. cbn [map]. change (qsum (?x :: ?l)) with (x + qsum l)%Q. rewrite <- IH.
  unfold pixel_sum, rows_at. cbn [List.concat]. rewrite app_nil_r, filter_app, map_app, qsum_app. reflexivity.
Qed.
