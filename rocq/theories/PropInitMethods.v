(** C88: the three ways to get initiation points agree. *)
From Coq Require Import String List ZArith QArith Bool Lia Permutation Sorting.Sorted.
From Verif Require Import Base BaseProofs Traversal TraversalSpec TraversalProofs Glm GlmSpec GlmProofs GlmProofs2 GlmProofs3 PropGlm
  Pipeline ChunkSpec PropChunks Points PointsSpec PointsProofs PropPoints InitMethods.
Import ListNotations.
Open Scope Z_scope.
Local Notation tbl := (table obs).

(** The earliest group of a list is one group. *)
Lemma earliest_unique : forall t (l : tbl) g h, earliest t l g -> earliest t l h -> g = h.
Proof.
  intros t l g h (p1 & q1 & E1 & A1 & B1) (p2 & q2 & E2 & A2 & B2). subst l.
  assert (K : forall (p1 q1 p2 q2 : tbl) (g h : row obs), p1 ++ g :: q1 = p2 ++ h :: q2 -> p1 = p2 /\ g = h \/ In g p2 /\ In h q1 \/ In h p1 /\ In g q2).
  { clear. induction p1 as [|a p1 IH]; intros q1 [|b p2] q2 g h E; cbn in E.
    - injection E as -> ->. left. auto.
    - injection E as -> ->. right. left. split; [left; auto|apply in_or_app; right; left; auto].
    - injection E as -> <-. right. right. split; [left; auto|apply in_or_app; right; left; auto].
    - injection E as -> E. destruct (IH _ _ _ _ _ E) as [[-> ->]|[[A B]|[A B]]]; [left; auto|right; left; split; [right|]; auto|right; right; split; [right|]; auto]. }
  destruct (K _ _ _ _ _ _ E2) as [[_ H]|[[A B]|[A B]]]; [auto| |].
  - specialize (A2 g A). specialize (B1 h B). lia.
  - specialize (A1 h A). specialize (B2 g B). lia.
Qed.
Lemma first_earliest : forall t (l : tbl) g, first_group t l = Ok g -> earliest t l g.
Proof. intros t [|h r] g H; [discriminate|]. injection H as <-. apply (argmin_earliest t r [] h []); intros x []. Qed.
Lemma single : forall (F : tbl) f, NoDup (map rid F) -> In f F -> filter (fun x => rid x =? rid f) F = [f].
Proof.
  induction F as [|a F IH]; intros f ND H; [destruct H|]. inversion ND as [|? ? N ND']; subst. cbn. destruct H as [->|H].
  - rewrite Z.eqb_refl. f_equal. clear IH. revert N. clear. induction F as [|b F IH]; intros N; [reflexivity|]. cbn. destruct (Z.eqb_spec (rid b) (rid f)) as [E|E]; [exfalso; apply N; left; auto|]. apply IH. intros H. apply N. right. exact H.
  - destruct (Z.eqb_spec (rid a) (rid f)) as [E|E]; [exfalso; apply N; rewrite E; apply in_map; exact H|]. apply IH; auto.
Qed.

(** For every consistent file whose flashes all have groups: assigning by alignment and
    assigning flash by flash give the same, in the order of the flashes; the printed lines
    are the same points, ids ascending. *)
Theorem C88_methods_agree : forall t (F G E : tbl), consistent [F; G; E] -> fertile F G -> F <> [] ->
  (forall f, In f F -> - 2 ^ 31 <= rid f < 2 ^ 31) ->
  exists out lines, add_flash_init t F G = Ok out /\ calculate_init t F G = Ok out /\ init_lines t G = Ok lines /\
    map (fun o => fst (fst o)) out = map rid F /\
    Permutation (map (fun o => (fst (fst o), snd o, snd (fst o))) out) lines /\ StronglySorted Z.lt (map (fun o => fst (fst o)) lines).
Proof.
  intros t F G E CO FE NE RG. destruct (C72_flash_init t F G E CO FE RG) as (out & A & S). destruct CO as [U O]. apply linked_no_orphans in O. destruct O as [L _].
  assert (ND : NoDup (map rid F)) by (apply unique3 in U; apply U).
  set (d0 := mkRow 0 0 (mkObs None None None None None None 0 0 0)).
  set (row_of := fun i => match filter (fun g => rpid g =? i) G with [] => d0 | g :: r => argmin_row t g r end).
  assert (FG : forall f, In f F -> first_group t (filter (fun g => rpid g =? rid f) G) = Ok (row_of (rid f)) /\ filter (fun g => rpid g =? rid f) G <> []).
  { intros f Hf. destruct (FE f Hf) as (g & Hg & Eg). unfold row_of. destruct (filter (fun g => rpid g =? rid f) G) eqn:FI; [|split; [reflexivity|discriminate]].
    assert (X : In g []) by (rewrite <- FI; apply filter_In; rewrite Z.eqb_eq; auto). destruct X. }
  assert (OUT : out = map (fun f => (rid f, o_lon (rdat (row_of (rid f))), o_lat (rdat (row_of (rid f))))) F).
  { clear A. assert (INC : forall f, In f F -> In f F) by auto. revert S INC. generalize F at 1 2 4. intros l S. induction S as [|f o l out (I & g & EA & LO & LA) S IH]; intros INC; [reflexivity|]. cbn [map]. f_equal; [|apply IH; intros; apply INC; right; auto].
    destruct (FG f (INC f (or_introl eq_refl))) as [FI _]. apply first_earliest in FI. assert (g = row_of (rid f)) by (eapply earliest_unique; eauto). subst g.
    destruct o as [[i lo] la]. cbn in *. congruence. }
  set (lines := map (fun i => (i, o_lat (rdat (row_of i)), o_lon (rdat (row_of i)))) (zunique (map rpid G))).
  exists out, lines. split; [exact A|].
  assert (IDS : forall i, In i (map rpid G) <-> In i (map rid F)).
  { intros i. rewrite !in_map_iff. split; [intros (g & <- & Hg); destruct (L g Hg) as (f & Hf & Ef); exists f; auto|intros (f & <- & Hf); destruct (FE f Hf) as (g & Hg & Eg); exists g; auto]. }
  split; [|split; [|split; [|split]]].
  - unfold calculate_init. destruct F as [|f0 F0] eqn:EF; [congruence|]. rewrite <- EF in *.
    set (val := fun i => (i, o_lon (rdat (row_of i)), o_lat (rdat (row_of i)))).
    rewrite (map_res_ok _ _ _ val).
    + cbn [bind]. rewrite OUT. apply map_res_ok. intros f Hf. assert (IN : In (rid f) (zunique (map rid F))) by (apply zunique_in; apply in_map; exact Hf).
      assert (FI : find_init (map val (zunique (map rid F))) (rid f) = Some (val (rid f))).
      { clear -IN. unfold find_init. induction (zunique (map rid F)) as [|i l IH]; [destruct IN|]. cbn. destruct (Z.eqb_spec i (rid f)) as [->|N]; [reflexivity|]. apply IH. destruct IN; [congruence|auto]. }
      rewrite FI. reflexivity.
    + intros i Hi. apply (proj1 (zunique_in _ _)) in Hi. apply in_map_iff in Hi. destruct Hi as (f & <- & Hf). rewrite (single F f ND Hf). unfold assign_init. destruct (FG f Hf) as [E1 E2].
      revert E1 E2. destruct (filter (fun g => rpid g =? rid f) G); intros E1 E2; [congruence|]. rewrite E1. reflexivity.
  - unfold init_lines. apply map_res_ok. intros i Hi. apply (proj1 (zunique_in _ _)) in Hi. apply IDS in Hi. apply in_map_iff in Hi. destruct Hi as (f & <- & Hf). destruct (FG f Hf) as [-> _]. reflexivity.
  - rewrite OUT, map_map. reflexivity.
  - rewrite OUT, map_map. unfold lines. cbn [fst snd].
    replace (map (fun x : row obs => (rid x, o_lat (rdat (row_of (rid x))), o_lon (rdat (row_of (rid x))))) F) with (map (fun i => (i, o_lat (rdat (row_of i)), o_lon (rdat (row_of i)))) (map rid F)) by (rewrite map_map; reflexivity).
    apply Permutation_map. apply NoDup_Permutation; [exact ND|apply zunique_nodup|]. intros i. rewrite zunique_in. symmetry. apply IDS.
  - unfold lines. rewrite map_map. cbn [fst]. rewrite map_id. apply zunique_sorted.
Qed.
Print Assumptions C88_methods_agree.

(** A flash without groups: assigning flash by flash raises, and so does assigning by
    alignment (C72); the printed lines go on without the flash. *)
Theorem C88_without_groups_refuted : forall t (F G : tbl) f, NoDup (map rid F) -> In f F -> with_parent G (rid f) = [] ->
  calculate_init t F G = Err KeyError /\
  exists lines, init_lines t G = Ok lines /\ ~ In (rid f) (map (fun o => fst (fst o)) lines).
Proof.
  intros t F G f ND Hf NO. split.
  - unfold calculate_init. destruct F as [|f0 F0] eqn:EF; [destruct Hf|]. rewrite <- EF in *.
    assert (K : map_res (fun i => assign_init t G (filter (fun f => rid f =? i) F)) (zunique (map rid F)) = Err KeyError); [|rewrite K; reflexivity].
    assert (IN : In (rid f) (zunique (map rid F))) by (apply zunique_in; apply in_map; exact Hf).
    assert (SUB : forall i, In i (zunique (map rid F)) -> In i (map rid F)) by (intros i Hi; apply (proj1 (zunique_in _ _)) in Hi; exact Hi).
    revert IN SUB. generalize (zunique (map rid F)). induction l as [|i l IH]; intros IN SUB; [destruct IN|]. cbn [map_res].
    destruct (proj1 (in_map_iff _ _ _) (SUB i (or_introl eq_refl))) as (h & <- & Hh). rewrite (single F h ND Hh). unfold assign_init at 1.
    destruct (Z.eq_dec (rid h) (rid f)) as [EQ|NQ].
    + rewrite EQ. unfold with_parent in NO. rewrite NO. reflexivity.
    + destruct (filter (fun g => rpid g =? rid h) G) as [|g r]; [reflexivity|]. cbn [bind first_group]. rewrite IH; [reflexivity|destruct IN; [congruence|auto]|intros j Hj; apply SUB; right; exact Hj].
  - set (d0 := mkRow 0 0 (mkObs None None None None None None 0 0 0)). set (row_of := fun i => match filter (fun g => rpid g =? i) G with [] => d0 | g :: r => argmin_row t g r end).
    exists (map (fun i => (i, o_lat (rdat (row_of i)), o_lon (rdat (row_of i)))) (zunique (map rpid G))). split.
    + unfold init_lines. apply map_res_ok. intros i Hi. apply (proj1 (zunique_in _ _)) in Hi. apply in_map_iff in Hi. destruct Hi as (g & <- & Hg). unfold row_of.
      destruct (filter (fun g0 => rpid g0 =? rpid g) G) eqn:FI; [|reflexivity]. assert (X : In g []) by (rewrite <- FI; apply filter_In; rewrite Z.eqb_eq; auto). destruct X.
    + rewrite map_map. cbn [fst]. rewrite map_id. intros Hi. apply (proj1 (zunique_in _ _)) in Hi. apply in_map_iff in Hi. destruct Hi as (g & Eg & Hg).
      assert (X : In g (with_parent G (rid f))) by (apply filter_In; rewrite Z.eqb_eq; auto). rewrite NO in X. destruct X.
Qed.
Print Assumptions C88_without_groups_refuted.

(** Flashes 2 and 1 in this order; flash 2 begins with its second group. *)
Definition xF : tbl := [mkRow 2 0 (pob 0 0 0 0 0 0 0); mkRow 1 0 (pob 0 0 0 0 0 0 0)].
Example C88_ex : consistent [xF; iG; []] /\ fertile xF iG /\
  add_flash_init it xF iG = Ok [(2, Some 5%Q, Some 1%Q); (1, Some 1%Q, Some 1%Q)] /\ calculate_init it xF iG = Ok [(2, Some 5%Q, Some 1%Q); (1, Some 1%Q, Some 1%Q)] /\
  init_lines it iG = Ok [(1, Some 1%Q, Some 1%Q); (2, Some 1%Q, Some 5%Q)].
Proof.
  split; [split|].
  - apply unique3. repeat split; repeat constructor; cbn; intuition lia.
  - apply linked_no_orphans. split; intros s Hs; [|destruct Hs]. destruct Hs as [<-|[<-|[<-|[<-|[]]]]]; pick_row.
  - split. { intros r [<-|[<-|[]]]; pick_row. } split; [|split]; vm_compute; reflexivity.
Qed.
Example C88_without_ex : with_parent iG 5 = [] /\ calculate_init it (mkRow 5 0 (pob 0 0 0 0 0 0 0) :: xF) iG = Err KeyError.
Proof. split; vm_compute; reflexivity. Qed.
