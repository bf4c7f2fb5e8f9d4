(** C99: the parallel map. *)
From Coq Require Import List ZArith Bool Permutation Lia Arith.
From Verif Require Import Base BaseProofs Pool.
Import ListNotations.
Open Scope nat_scope.

(** * Specification *)
(** [ys] are the results of [xs], in order. *)
Definition results_of {A B} (f : A -> res B) (xs : list A) (ys : list B) : Prop := Forall2 (fun x y => f x = Ok y) xs ys.
(** Argument [j] raises [e] and none before it raises. *)
Definition first_to_raise {A B} (f : A -> res B) (a : list A) (j : nat) (e : exn) : Prop :=
  (exists x, nth_error a j = Some x /\ f x = Err e) /\ forall i x, i < j -> nth_error a i = Some x -> exists y, f x = Ok y.

(** * Proofs *)
Section POOL.
Context {A B : Type}.
Variable f : A -> res B.

Lemma chunks_concat : forall n fuel (l : list A), n <> 0 -> length l <= fuel -> List.concat (get_chunks fuel n l) = l.
Proof using.
  intros n fuel. induction fuel as [|k IH]; intros l N L; [destruct l; [reflexivity|cbn in L; lia]|]. destruct l as [|x l]; [reflexivity|].
  cbn [get_chunks List.concat]. rewrite IH; [apply firstn_skipn|exact N|]. rewrite skipn_length. cbn [length] in *. lia.
Qed.
Lemma skip_skip : forall x y (l : list A), skipn x (skipn y l) = skipn (y + x) l.
Proof using. intros x y. induction y as [|y IH]; intros l; [reflexivity|]. destruct l as [|z l]; [cbn; rewrite !skipn_nil; reflexivity|]. cbn [skipn plus]. apply IH. Qed.
Lemma chunks_nth : forall n fuel (l : list A) m, n <> 0 -> length l <= fuel -> m < length (get_chunks fuel n l) ->
  m * n < length l /\ nth m (get_chunks fuel n l) [] = firstn n (skipn (m * n) l).
Proof using.
  intros n fuel. induction fuel as [|k IH]; intros l m N L M; [destruct l; cbn in M; lia|]. destruct l as [|x l]; [cbn in M; lia|].
  cbn [get_chunks length] in M. destruct m as [|m].
  - cbn [get_chunks nth Nat.mul skipn]. split; [cbn; lia|reflexivity].
  - assert (L' : length (skipn n (x :: l)) <= k) by (rewrite skipn_length; cbn [length] in *; lia).
    destruct (IH (skipn n (x :: l)) m N L' ltac:(lia)) as [I1 I2]. rewrite skipn_length in I1. split; [cbn [length] in *; lia|].
    cbn [get_chunks nth]. rewrite I2. f_equal. rewrite skip_skip. f_equal.
Qed.
Lemma chunks_firstn : forall n fuel (l : list A) m, n <> 0 -> length l <= fuel -> m <= length (get_chunks fuel n l) -> List.concat (firstn m (get_chunks fuel n l)) = firstn (m * n) l.
Proof using.
  intros n fuel. induction fuel as [|k IH]; intros l m N L M; [destruct l; cbn in M; replace m with 0 by lia; reflexivity|]. destruct l as [|x l]; [cbn in M; replace m with 0 by lia; reflexivity|].
  destruct m as [|m]; [reflexivity|]. cbn [get_chunks length] in M. cbn [get_chunks firstn List.concat].
  assert (L' : length (skipn n (x :: l)) <= k) by (rewrite skipn_length; cbn [length] in *; lia).
  rewrite (IH _ m N L' ltac:(lia)). replace (S m * n) with (n + m * n) by lia. set (r := x :: l) in *. clearbody r. clear.
  rewrite <- (firstn_skipn n r) at 3. rewrite firstn_app. destruct (Nat.le_ge_cases n (length r)) as [H|H].
  - rewrite (firstn_all2 (firstn n r)) by (rewrite firstn_length; lia). f_equal. f_equal. rewrite firstn_length. lia.
  - rewrite (firstn_all2 (firstn n r)) by (rewrite firstn_length; lia). rewrite (skipn_all2 r H). rewrite !firstn_nil. reflexivity.
Qed.
Lemma results_length : forall (xs : list A) ys, results_of f xs ys -> length ys = length xs.
Proof using. intros xs ys F. induction F; cbn [length]; congruence. Qed.
Lemma map_res_ok : forall (c : list A) ys, map_res f c = Ok ys -> results_of f c ys.
Proof using.
  induction c as [|x c IH]; intros ys H; cbn [map_res] in H; [injection H as <-; constructor|]. destruct (f x) as [y|e] eqn:E; [|discriminate H]. cbn [bind] in H.
  destruct (map_res f c) as [r|e]; [|discriminate H]. cbn [bind] in H. injection H as <-. constructor; [exact E|apply IH; reflexivity].
Qed.
Lemma map_res_err : forall (c : list A) e, map_res f c = Err e -> exists j, first_to_raise f c j e /\ j < length c.
Proof using.
  induction c as [|x c IH]; intros e H; cbn [map_res] in H; [discriminate H|]. destruct (f x) as [y|e'] eqn:E.
  - cbn [bind] in H. destruct (map_res f c) as [r|e'] eqn:R; [discriminate H|]. cbn [bind] in H. destruct (IH e H) as (j & (F1 & F2) & J).
    exists (S j). split; [|cbn; lia]. split; [exact F1|]. intros [|i] z I Z; [cbn in Z; injection Z as <-; exists y; exact E|]. apply (F2 i z); [lia|exact Z].
  - cbn [bind] in H. injection H as <-. exists 0. split; [|cbn; lia]. split; [exists x; auto|]. intros i z I. lia.
Qed.

(** What is known of chunk [i]. *)
Definition known (o : list (nat * outcome)) (i : nat) : @outcome B := match find (fun p => Nat.eqb (fst p) i) o with Some (_, x) => x | None => Lost end.
Definition result_of (c : list A) : @outcome B := match process_chunk f c with Ok l => Result l | Err e => Raised e end.
Lemma iterate_known : forall o is, iterate o is = match is with [] => ([], AtEnd) | i :: r =>
  match known o i with Result l => (l ++ fst (iterate o r), snd (iterate o r)) | Raised e => ([], Raises e) | Lost => ([], PoolBroken) end end.
Proof using.
  intros o [|i r]; [reflexivity|]. cbn [iterate]. unfold known. destruct (find (fun p => Nat.eqb (fst p) i) o) as [[j [l|e|]]|]; try reflexivity. destruct (iterate o r); reflexivity.
Qed.
Lemma iterate_prefix : forall o cs s, (forall j, j < length cs -> known o (s + j) = Lost \/ known o (s + j) = result_of (nth j cs [])) ->
  exists m, m <= length cs /\ results_of f (List.concat (firstn m cs)) (fst (iterate o (seq s (length cs)))) /\
    match snd (iterate o (seq s (length cs))) with
    | AtEnd => m = length cs
    | Raises e => m < length cs /\ map_res f (nth m cs []) = Err e
    | PoolBroken => m < length cs /\ known o (s + m) = Lost
    end.
Proof using.
  intros o cs. induction cs as [|c cs IH]; intros s H; [exists 0; repeat split; constructor|].
  cbn [length seq]. rewrite iterate_known. pose proof (H 0 ltac:(cbn; lia)) as H0. rewrite Nat.add_0_r in H0. cbn [nth] in H0.
  destruct H0 as [H0|H0]; rewrite H0.
  - exists 0. cbn [fst snd firstn List.concat]. split; [lia|]. split; [constructor|]. split; [lia|]. rewrite Nat.add_0_r. exact H0.
  - unfold result_of, process_chunk. destruct (map_res f c) as [ys|e] eqn:E.
    + destruct (IH (S s)) as (m & M1 & M2 & M3).
      { intros j J. replace (S s + j) with (s + S j) by lia. apply (H (S j)). cbn [length]. lia. }
      exists (S m). cbn [fst snd firstn List.concat]. split; [lia|]. split; [apply Forall2_app; [apply map_res_ok; exact E|exact M2]|].
      destruct (snd (iterate o (seq (S s) (length cs)))); [lia|split; [lia|apply M3]|split; [lia|]]. replace (s + S m) with (S s + m) by lia. apply M3.
    + exists 0. cbn [fst snd firstn List.concat nth]. split; [lia|]. split; [constructor|]. split; [lia|exact E].
Qed.

(** ** What every history of a pool keeps *)
Section INVARIANT.
Variable workers : nat.
Variable chunks : list (list A).
Definition kept (p : @pool B) : Prop :=
  Permutation (waiting p ++ running p ++ map fst (over p)) (seq 0 (length chunks)) /\
  (forall i x, In (i, x) (over p) -> x = result_of (nth i chunks []) \/ (x = Lost /\ broken p = true)) /\
  length (running p) <= workers /\ (broken p = true -> waiting p = [] /\ running p = []).
Lemma kept_first : kept (submitted chunks).
Proof using.
  split; [|split; [|split]]; cbn; [rewrite app_nil_r; apply Permutation_refl|intros i x []|lia|discriminate].
Qed.
Lemma kept_step : forall p q, kept p -> happens f workers chunks p q -> kept q.
Proof using.
  intros p q (K1 & K2 & K3 & K4) H. destruct H as [i w r o L|w r1 i r2 o|w r o L]; cbn [waiting running over broken] in *.
  - split; [|split; [|split]]; cbn [waiting running over broken]; [|exact K2|rewrite app_length; cbn; lia|discriminate].
    etransitivity; [|exact K1]. cbn [app]. rewrite <- !app_assoc. cbn [app]. symmetry.
    transitivity (w ++ i :: r ++ map fst o); [apply Permutation_middle|]. apply Permutation_app_head. apply Permutation_middle.
  - split; [|split; [|split]]; cbn [waiting running over broken].
    + etransitivity; [|exact K1]. apply Permutation_app_head. cbn [map fst]. rewrite <- !app_assoc. apply Permutation_app_head. cbn [app]. symmetry. apply Permutation_middle.
    + intros j x [E|H]; [injection E as <- <-; left; reflexivity|]. destruct (K2 j x H) as [H'|[_ H']]; [left; exact H'|discriminate H'].
    + rewrite app_length in *. cbn [length] in *. lia.
    + discriminate.
  - split; [|split; [|split]]; cbn [waiting running over broken].
    + etransitivity; [|exact K1]. cbn [app]. rewrite map_app, map_map. cbn [fst]. rewrite map_id, <- app_assoc. apply Permutation_app_swap_app.
    + intros j x H. apply in_app_or in H. destruct H as [H|H].
      * apply in_map_iff in H. destruct H as (k & E & _). injection E as <- <-. right. auto.
      * destruct (K2 j x H) as [H'|[_ H']]; [left; exact H'|discriminate H'].
    + cbn. lia.
    + auto.
Qed.
Lemma kept_reaches : forall p q, kept p -> reaches f workers chunks p q -> kept q.
Proof using. intros p q K R. induction R as [|p q r H R IH]; [exact K|]. apply IH. eapply kept_step; eauto. Qed.
Lemma known_over : forall p i, kept p -> all_over p -> i < length chunks -> known (over p) i = Lost /\ broken p = true \/ known (over p) i = result_of (nth i chunks []).
Proof using.
  intros p i (K1 & K2 & _ & _) (W & R) I. rewrite W, R in K1. cbn [app] in K1.
  assert (IN : In i (map fst (over p))) by (apply (Permutation_in i (Permutation_sym K1)); apply in_seq; lia).
  unfold known. destruct (find (fun q => Nat.eqb (fst q) i) (over p)) as [[j x]|] eqn:E.
  - destruct (find_some _ _ E) as [H1 H2]. apply Nat.eqb_eq in H2. cbn [fst] in H2. subst j. destruct (K2 i x H1) as [->|[-> H]]; auto.
  - exfalso. apply in_map_iff in IN. destruct IN as ([j x] & <- & H). pose proof (find_none _ _ E _ H) as N. cbn [fst] in N. rewrite Nat.eqb_refl in N. discriminate N.
Qed.
End INVARIANT.

(** Whatever the schedule and whichever workers die: what iterating gives are the results of
    the first [k] arguments in order, [k] a number of whole chunks or all.  It ends normally
    only with all results, with an exception only if it is that of the first argument that
    raises, and with a broken pool only if a worker died. *)
Theorem C99_every_history : forall (a : list A) workers n died ys e, run_pool_map f a workers n died (Ok (ys, e)) ->
  exists k, k <= length a /\ results_of f (firstn k a) ys /\
    match e with
    | AtEnd => k = length a
    | Raises x => exists j, first_to_raise f a j x /\ k = n * (j / n)
    | PoolBroken => died = true /\ k < length a /\ k = n * (k / n)
    end.
Proof using.
  intros a workers n died ys e H. remember (Ok (ys, e)) as out eqn:E2. destruct H as [|p W N R O]; [discriminate E2|].
  set (cs := get_chunks (length a) n a) in *.
  pose proof (kept_reaches workers cs _ _ (kept_first workers cs) R) as K.
  destruct (iterate_prefix (over p) cs 0) as (m & M1 & M2 & M3).
  { intros j J. cbn [plus]. destruct (known_over workers cs p j K O J) as [[U _]|U]; auto. }
  injection E2 as E3. rewrite E3 in M2, M3. cbn [fst snd] in M2, M3.
  assert (CF : List.concat (firstn m cs) = firstn (m * n) a) by (apply chunks_firstn; [exact N|lia|exact M1]).
  rewrite CF in M2. destruct e as [|x|].
  - exists (length a). split; [lia|]. rewrite firstn_all. split; [|reflexivity]. rewrite <- CF, M3, firstn_all in M2. unfold cs in M2. rewrite chunks_concat in M2 by (exact N || lia). exact M2.
  - destruct M3 as [M3 M4]. destruct (chunks_nth n (length a) a m N ltac:(lia) M3) as [M5 M6]. fold cs in M6. rewrite M6 in M4.
    destruct (map_res_err _ _ M4) as (j & ((z & Z1 & Z2) & F) & J). rewrite firstn_length, skipn_length in J.
    assert (NE : forall i, i < n -> nth_error (firstn n (skipn (m * n) a)) i = nth_error a (m * n + i)).
    { intros i I. rewrite <- (firstn_skipn (m * n) a) at 2. rewrite nth_error_app2 by (rewrite firstn_length; lia).
      rewrite firstn_length. replace (m * n + i - Nat.min (m * n) (length a)) with i by lia.
      rewrite <- (firstn_skipn n (skipn (m * n) a)) at 2. destruct (Nat.lt_ge_cases i (length (firstn n (skipn (m * n) a)))) as [Q|Q].
      - rewrite nth_error_app1 by exact Q. reflexivity.
      - assert (skipn n (skipn (m * n) a) = []) by (apply skipn_all2; rewrite firstn_length in Q; lia). rewrite H, app_nil_r. reflexivity. }
    exists (m * n). split; [lia|]. split; [exact M2|]. exists (m * n + j). split; [split|].
    + exists z. rewrite <- NE by lia. auto.
    + intros i y I Y. destruct (Nat.lt_ge_cases i (m * n)) as [Q|Q].
      * assert (Y' : nth_error (firstn (m * n) a) i = Some y).
        { rewrite <- (firstn_skipn (m * n) a) in Y. rewrite nth_error_app1 in Y by (rewrite firstn_length; lia). exact Y. }
        clear -M2 Y'. unfold results_of in M2. revert i Y'. induction M2 as [|x' y' l l' H F IH]; intros [|i] Y; try discriminate Y; cbn in Y; [injection Y as <-; eauto|eauto].
      * apply (F (i - m * n) y); [lia|]. rewrite NE by lia. replace (m * n + (i - m * n)) with i by lia. exact Y.
    + rewrite Nat.add_comm, Nat.div_add by exact N. rewrite Nat.div_small by lia. lia.
  - destruct M3 as [M3 M4]. destruct (chunks_nth n (length a) a m N ltac:(lia) M3) as [M5 _]. exists (m * n). split; [lia|]. split; [exact M2|].
    destruct (known_over workers cs p m K O M3) as [[_ U]|U].
    + split; [exact U|]. split; [exact M5|]. rewrite Nat.div_mul by exact N. lia.
    + cbn [plus] in M4. rewrite M4 in U. unfold result_of in U. destruct (process_chunk f (nth m cs [])); discriminate U.
Qed.

(** If no argument raises and no worker dies, every schedule gives the results of all
    arguments in order; number of workers and chunk size do not matter. *)
Theorem C99_every_schedule : forall (a : list A) workers n out, workers <> 0 -> n <> 0 -> (forall x, In x a -> exists y, f x = Ok y) ->
  run_pool_map f a workers n false out -> exists ys, out = Ok (ys, AtEnd) /\ results_of f a ys.
Proof using.
  intros a workers n out W N G H. remember false as d eqn:D. destruct H as [Z|p W' N' R O]; [destruct Z; contradiction|].
  destruct (iterate (over p) (seq 0 (length (get_chunks (length a) n a)))) as [ys e] eqn:I.
  assert (H : run_pool_map f a workers n (broken p) (Ok (ys, e))) by (rewrite <- I; apply pool_run; assumption).
  destruct (C99_every_history a workers n _ ys e H) as (k & K1 & K2 & K3). destruct e as [|x|].
  - subst k. rewrite firstn_all in K2. exists ys. auto.
  - destruct K3 as (j & ((z & Z1 & Z2) & _) & _). destruct (G z (nth_error_In _ _ Z1)) as [y Y]. congruence.
  - destruct K3 as [K3 _]. congruence.
Qed.

(** Chunks are never run by more workers than allowed, none is run twice, and each is over
    once in the end. *)
Theorem C99_each_chunk_once : forall workers (chunks : list (list A)) p, reaches f workers chunks (submitted chunks) p ->
  length (running p) <= workers /\ NoDup (waiting p ++ running p ++ map fst (over p)) /\
  (all_over p -> forall i, i < length chunks <-> In i (map fst (over p))).
Proof using.
  intros workers chunks p R. destruct (kept_reaches workers chunks _ _ (kept_first workers chunks) R) as (K1 & _ & K3 & _).
  split; [exact K3|]. split; [eapply Permutation_NoDup; [apply Permutation_sym; exact K1|apply seq_NoDup]|].
  intros [W Rn] i. rewrite W, Rn in K1. cbn [app] in K1. split; intros H.
  - apply (Permutation_in i (Permutation_sym K1)). apply in_seq. lia.
  - apply (Permutation_in i K1) in H. apply in_seq in H. lia.
Qed.

(** Every history ends: after at most twice as many steps as there are chunks; until then
    something can always happen without a worker dying. *)
Theorem C99_ends : forall workers (chunks : list (list A)), workers <> 0 ->
  (forall (h : nat -> pool) m, h 0 = submitted chunks -> (forall k, k < m -> happens f workers chunks (h k) (h (S k))) -> m <= 2 * length chunks) /\
  (forall p, reaches f workers chunks (submitted chunks) p -> ~ all_over p -> exists q, happens f workers chunks p q /\ broken q = false).
Proof using.
  intros workers chunks W. split.
  - intros h m H0 HS. set (left := fun p : @pool B => 2 * length (waiting p) + length (running p)).
    assert (D : forall p q, happens f workers chunks p q -> left q < left p).
    { intros p q S. destruct S as [i w r o L|w r1 i r2 o|w r o L]; unfold left; cbn [waiting running]; rewrite ?app_length; cbn [length]; try lia. destruct r; [contradiction|cbn [length]; lia]. }
    assert (G : forall k, k <= m -> left (h k) + k <= left (h 0)).
    { induction k as [|k IH]; intros K; [lia|]. pose proof (D _ _ (HS k ltac:(lia))). pose proof (IH ltac:(lia)). lia. }
    pose proof (G m (le_n m)) as E. rewrite H0 in E. unfold left at 2 in E. unfold submitted in E. cbn [waiting running length] in E. rewrite seq_length in E. lia.
  - intros p R N. destruct (kept_reaches workers chunks _ _ (kept_first workers chunks) R) as (_ & _ & _ & K4).
    destruct p as [w r o b]. cbn [broken waiting running] in *. destruct b; [exfalso; apply N; split; apply K4; reflexivity|].
    destruct r as [|i r].
    + destruct w as [|i w]; [exfalso; apply N; split; reflexivity|]. eexists. split; [apply begins; cbn; lia|reflexivity].
    + eexists. split; [apply (ends f workers chunks w [] i r o)|reflexivity].
Qed.

(** The call itself raises only for numbers below 1, never what [f] raises. *)
Theorem C99_call_raises_when : forall (a : list A) workers n died e, run_pool_map f a workers n died (Err e) <-> (workers = 0 \/ n = 0) /\ died = false /\ e = ValueError.
Proof using.
  intros a workers n died e. split.
  - intros H. inversion H; subst. auto.
  - intros (H & -> & ->). apply bad_arguments. exact H.
Qed.
End POOL.
Print Assumptions C99_every_history.
Print Assumptions C99_every_schedule.
Print Assumptions C99_each_chunk_once.
Print Assumptions C99_ends.
Print Assumptions C99_call_raises_when.

(** Mapping in one process gives all results before the argument that raises.  In the pool
    those in its chunk are lost: whenever the first argument to raise is not the first of its
    chunk, in every history. *)
Theorem C99_results_before_exception_refuted : forall {A B} (f : A -> res B) (a : list A) workers n died ys x j,
  run_pool_map f a workers n died (Ok (ys, Raises x)) -> first_to_raise f a j x -> j mod n <> 0 ->
  length ys < j /\ length ys = j - j mod n.
Proof.
  intros A B f a workers n died ys x j H ((z & Z1 & Z2) & F) M. destruct (C99_every_history f a workers n died ys _ H) as (k & K1 & K2 & j' & ((z' & Z1' & Z2') & F') & K3).
  assert (N : n <> 0) by (inversion H; assumption).
  assert (j = j').
  { destruct (Nat.lt_trichotomy j j') as [L|[E|L]]; [|exact E|].
    - destruct (F' j z L Z1) as [y Y]. congruence.
    - destruct (F j' z' L Z1') as [y Y]. congruence. }
  subst j'. assert (L : length ys = k). { rewrite (results_length f _ _ K2), firstn_length. lia. }
  pose proof (Nat.div_mod j n N). lia.
Qed.
Print Assumptions C99_results_before_exception_refuted.

(** Five arguments in chunks of two on two workers; the third raises. *)
Definition ex_f (x : nat) : res nat := if Nat.eqb x 3 then Err ValueError else Ok (x * x).
Lemma ex_begin : forall (g : nat -> res nat) w cs i rest r o p, length r < w -> reaches g w cs (mkPool rest (r ++ [i]) o false) p -> reaches g w cs (mkPool (i :: rest) r o false) p.
Proof. intros. eapply goes; [apply begins; assumption|assumption]. Qed.
Lemma ex_end : forall (g : nat -> res nat) w cs rest r1 i r2 o p,
  reaches g w cs (mkPool rest (r1 ++ r2) ((i, match process_chunk g (nth i cs []) with Ok l => Result l | Err e => Raised e end) :: o) false) p ->
  reaches g w cs (mkPool rest (r1 ++ i :: r2) o false) p.
Proof. intros. eapply goes; [apply ends|assumption]. Qed.
Example C99_hypotheses :
  (exists p, reaches ex_f 2 (get_chunks 5 2 [1; 2; 4; 5; 6]) (submitted (get_chunks 5 2 [1; 2; 4; 5; 6])) p /\ all_over p /\ map fst (over p) = [0; 2; 1] /\
     run_pool_map ex_f [1; 2; 4; 5; 6] 2 2 false (Ok ([1; 4; 16; 25; 36], AtEnd))) /\
  run_pool_map ex_f [1; 2; 4; 3; 6] 2 2 false (Ok ([1; 4], Raises ValueError)) /\ first_to_raise ex_f [1; 2; 4; 3; 6] 3 ValueError /\ 3 mod 2 <> 0 /\
  run_pool_map ex_f [1; 2; 4; 5; 6] 2 2 true (Ok ([1; 4], PoolBroken)).
Proof.
  split; [|split; [|split; [|split; [discriminate|]]]].
  - eexists. split; [|split; [|split]].
    + apply ex_begin; [cbn; lia|]. apply ex_begin; [cbn; lia|]. apply (ex_end ex_f 2 _ _ [0] 1 []). apply ex_begin; [cbn; lia|].
      apply (ex_end ex_f 2 _ _ [0] 2 []). apply (ex_end ex_f 2 _ _ [] 0 []). apply stays.
    + split; reflexivity.
    + reflexivity.
    + assert (R : exists p, reaches ex_f 2 (get_chunks 5 2 [1; 2; 4; 5; 6]) (submitted (get_chunks 5 2 [1; 2; 4; 5; 6])) p /\ all_over p /\ broken p = false /\ iterate (over p) (seq 0 3) = ([1; 4; 16; 25; 36], AtEnd)).
      { eexists. split; [|split; [|split]].
        - apply ex_begin; [cbn; lia|]. apply ex_begin; [cbn; lia|]. apply (ex_end ex_f 2 _ _ [0] 1 []). apply ex_begin; [cbn; lia|].
          apply (ex_end ex_f 2 _ _ [0] 2 []). apply (ex_end ex_f 2 _ _ [] 0 []). apply stays.
        - split; reflexivity.
        - reflexivity.
        - reflexivity. }
      destruct R as (p & R & O & Bp & I). rewrite <- Bp, <- I. apply (pool_run ex_f [1; 2; 4; 5; 6] 2 2 p); [discriminate|discriminate|exact R|exact O].
  - assert (R : exists p, reaches ex_f 2 (get_chunks 5 2 [1; 2; 4; 3; 6]) (submitted (get_chunks 5 2 [1; 2; 4; 3; 6])) p /\ all_over p /\ broken p = false /\ iterate (over p) (seq 0 3) = ([1; 4], Raises ValueError)).
    { eexists. split; [|split; [|split]].
      - apply ex_begin; [cbn; lia|]. apply ex_begin; [cbn; lia|]. apply (ex_end ex_f 2 _ _ [0] 1 []). apply ex_begin; [cbn; lia|].
        apply (ex_end ex_f 2 _ _ [] 0 [2]). apply (ex_end ex_f 2 _ _ [] 2 []). apply stays.
      - split; reflexivity.
      - reflexivity.
      - reflexivity. }
    destruct R as (p & R & O & Bp & I). rewrite <- Bp, <- I. apply (pool_run ex_f [1; 2; 4; 3; 6] 2 2 p); [discriminate|discriminate|exact R|exact O].
  - split; [exists 3; split; reflexivity|]. intros [|[|[|i]]] x I X; try lia; cbn in X; injection X as <-; eexists; reflexivity.
  - assert (R : exists p, reaches ex_f 2 (get_chunks 5 2 [1; 2; 4; 5; 6]) (submitted (get_chunks 5 2 [1; 2; 4; 5; 6])) p /\ all_over p /\ broken p = true /\ iterate (over p) (seq 0 3) = ([1; 4], PoolBroken)).
    { eexists. split; [|split; [|split]].
      - apply ex_begin; [cbn; lia|]. apply ex_begin; [cbn; lia|]. apply (ex_end ex_f 2 _ _ [] 0 [1]). apply ex_begin; [cbn; lia|].
        eapply goes; [apply dies; discriminate|]. apply stays.
      - split; reflexivity.
      - reflexivity.
      - reflexivity. }
    destruct R as (p & R & O & Bp & I). rewrite <- Bp, <- I. apply (pool_run ex_f [1; 2; 4; 5; 6] 2 2 p); [discriminate|discriminate|exact R|exact O].
Qed.
