(** Properties C01-C08: walking, counting, pruning and checking hierarchical
    datasets (glmtools/io/traversal.py).  [ds] is the list of tables from the top
    entity down, [evars] the entity id variables and [pvars] the parent id
    variables given to OneToManyTraversal. *)
From Coq Require Import List ZArith Bool String Lia Sorting.Sorted.
From Verif Require Import Base BaseProofs Traversal TraversalSpec TraversalProofs
  TraversalProofs2 TraversalProofs3 TraversalProofs4.
Import ListNotations.
Open Scope Z_scope.

(** * Sample data: the four-level dataset of glmtools/test/common.py. *)
Definition mk (l : list (Z * Z)) : table unit := map (fun '(i, p) => mkRow i p tt) l.
Definition storms := mk [(0, 0); (1, 0); (2, 0)].
Definition flashes := mk (combine [1;2;3;4;5;6;7;8] [0;0;0;2;2;2;2;2]).
Definition strokes := mk (combine [4;6;7;9;13;14;15;19;20;23;46] [1;1;2;3;4;4;4;6;8;8;8]).
Definition trigs := mk (combine [1;3;5;8;9;10;12;16;18;19;20;22;23;25;26;30;31;32]
  [4;4;4;4;6;7;7;9;13;13;14;14;15;19;20;20;23;46]).
Definition sample : list (table unit) := [storms; flashes; strokes; trigs].
Definition sevars := ["storm_id"; "flash_id"; "stroke_id"; "trig_id"]%string.
Definition spvars := ["flash_parent_storm_id"; "stroke_parent_flash_id"; "trig_parent_stroke_id"]%string.
Definition stv := mkTrav sevars (None :: map Some spvars) sample.

Ltac nodup := repeat (constructor; [simpl; intuition discriminate|]); try constructor.
Example sample_init : trav_init sample sevars spvars = Ok stv.
Proof. reflexivity. Qed.
Example sample_evars : NoDup sevars. Proof. nodup. Qed.
Example sample_pvars : NoDup spvars. Proof. nodup. Qed.
Example sample_nonempty : Forall (fun T => T <> []) sample.
Proof. repeat (constructor; [discriminate|]). constructor. Qed.
Example sample_unique : unique_ids sample.
Proof.
  intros j T H. do 4 (destruct j as [|j]; [simpl in H; inversion H; subst T; simpl; nodup; fail|]).
  destruct j; discriminate.
Qed.
Definition check_links (A B : table unit) : bool :=
  forallb (fun s => existsb (fun r => rid r =? rpid s) A) B.
Lemma check_links_ok : forall A B, check_links A B = true ->
  forall s, In s B -> exists r, In r A /\ rid r = rpid s.
Proof.
  intros A B H s Hs. unfold check_links in H. rewrite forallb_forall in H. specialize (H s Hs).
  apply existsb_exists in H. destruct H as [r [Hr E]]. apply Z.eqb_eq in E. eauto.
Qed.
Example sample_linked : no_orphans sample.
Proof.
  intros j A B HA HB. apply check_links_ok.
  destruct j as [|[|[|j]]]; simpl in HA, HB; try (inversion HA; inversion HB; subst; reflexivity).
  destruct j; discriminate.
Qed.

Section Props.
Context {P : Type}.
Implicit Types ds : list (table P).

(** * C01 Child counts are exact at every level *)
Theorem C01_count_children_exact : forall ds evars pvars tv m c e ch,
  trav_init ds evars pvars = Ok tv -> NoDup evars ->
  nth_error evars m = Some e -> nth_error evars c = Some ch -> (m < c)%nat ->
  (forall j, (m < j <= c)%nat -> nth_error ds j <> Some []) ->
  exists out, count_children tv e (Some ch) = Ok out /\ List.length out = (c - m)%nat /\
  forall k A B, (k < c - m)%nat -> nth_error ds (m + k) = Some A ->
    nth_error ds (S (m + k)) = Some B ->
    nth_error out k
    = Some (map (fun r => List.length (filter (fun s => rpid s =? rid r) B)) A).
Proof. exact count_children_spec. Qed.

Theorem C01_count_immediate_children : forall ds evars pvars tv m e,
  trav_init ds evars pvars = Ok tv -> NoDup evars -> nth_error evars m = Some e ->
  match nth_error ds m, nth_error ds (S m) with
  | Some A, Some [] => count_children tv e None = Err AttributeError
  | Some A, Some B => count_children tv e None
      = Ok [map (fun r => List.length (filter (fun s => rpid s =? rid r) B)) A]
  | _, _ => count_children tv e None = Ok []
  end.
Proof. exact count_children_immediate. Qed.

Theorem C01_counts_add_up : forall (A B : table P), NoDup (map rid A) ->
  list_sum (map (fun r => List.length (filter (fun s => rpid s =? rid r) B)) A)
  = List.length (filter (fun s => existsb (fun r => rid r =? rpid s) A) B).
Proof. exact count_sum. Qed.

Theorem C01_counts_add_up_to_rows : forall (A B : table P), NoDup (map rid A) ->
  (forall s, In s B -> exists r, In r A /\ rid r = rpid s) ->
  list_sum (map (fun r => List.length (filter (fun s => rpid s =? rid r) B)) A) = List.length B.
Proof. exact count_sum_consistent. Qed.

(** A child that is the entity itself, above it or unknown: every lower level is counted. *)
Theorem C01_count_all_levels_below : forall ds evars pvars tv m e ch,
  trav_init ds evars pvars = Ok tv -> NoDup evars -> nth_error evars m = Some e ->
  (forall c, nth_error evars c = Some ch -> (c <= m)%nat) ->
  (forall j, (m < j)%nat -> nth_error ds j <> Some []) ->
  exists out, count_children tv e (Some ch) = Ok out /\
  List.length out = (List.length ds - S m)%nat /\
  forall k A B, nth_error ds (m + k) = Some A -> nth_error ds (S (m + k)) = Some B ->
    nth_error out k
    = Some (map (fun r => List.length (filter (fun s => rpid s =? rid r) B)) A).
Proof. exact count_children_all_below. Qed.

Theorem C01_count_empty_level_raises : forall ds evars pvars tv m c j e ch,
  trav_init ds evars pvars = Ok tv -> NoDup evars ->
  nth_error evars m = Some e -> nth_error evars c = Some ch -> (m < j <= c)%nat ->
  nth_error ds j = Some [] -> count_children tv e (Some ch) = Err AttributeError.
Proof. exact count_children_empty. Qed.

(** * C02 Replicated ancestor ids name the true ancestor *)
Theorem C02_replicate_parent_ids : forall ds evars pvars tv m c e pv Tc,
  trav_init ds evars pvars = Ok tv -> NoDup evars -> NoDup pvars ->
  nth_error evars m = Some e -> nth_error pvars c = Some pv -> (m <= c)%nat ->
  nth_error ds (S c) = Some Tc ->
  unique_ids ds -> (Tc <> [] -> forall j, (m < j <= c)%nat -> nth_error ds j <> Some []) ->
  (exists l, replicate_parent_ids tv e pv = Ok l /\ List.length l = List.length Tc /\
     forall k r, nth_error Tc k = Some r ->
       exists a, nth_error l k = Some a /\ ancestor ds (S c) r m a) \/
  (replicate_parent_ids tv e pv = Err KeyError /\
   exists k r, nth_error Tc k = Some r /\ forall a, ~ ancestor ds (S c) r m a).
Proof. exact replicate_spec. Qed.

Theorem C02_ancestor_is_unique : forall ds c r m a b, unique_ids ds ->
  ancestor ds c r m a -> ancestor ds c r m b -> a = b.
Proof. exact ancestor_fun. Qed.

(** On a consistent tree the KeyError case cannot happen, and every id returned
    is the id of a row of the entity level. *)
Theorem C02_replicate_on_consistent_tree : forall ds evars pvars tv m c e pv Tc,
  trav_init ds evars pvars = Ok tv -> NoDup evars -> NoDup pvars ->
  nth_error evars m = Some e -> nth_error pvars c = Some pv -> (m <= c)%nat ->
  nth_error ds (S c) = Some Tc -> consistent ds ->
  exists l, replicate_parent_ids tv e pv = Ok l /\ List.length l = List.length Tc /\
     forall k r, nth_error Tc k = Some r ->
       exists a T, nth_error l k = Some a /\ ancestor ds (S c) r m a /\
                   nth_error ds m = Some T /\ In a (map rid T).
Proof. exact replicate_consistent. Qed.

(** * C03 Pruning keeps exactly the requested entities and their descendants *)
Theorem C03_prune_keeps_exactly_descendants : forall ds evars pvars tv m e ids,
  trav_init ds evars pvars = Ok tv -> NoDup evars ->
  nth_error evars m = Some e -> Forall (fun T => T <> []) ds ->
  exists out, reduce_to_entities tv e ids = Ok out /\ List.length out = List.length ds /\
    (forall j U, (m <= j)%nat -> nth_error out j = Some U ->
       forall r, In r U <-> reaches ds m ids j r) /\
    (forall j T U, nth_error ds j = Some T -> nth_error out j = Some U ->
       forall r, In r U -> In r T).
Proof. exact reduce_reaches. Qed.

Theorem C03_prune_empty_level_raises : forall ds evars pvars tv m e ids,
  trav_init ds evars pvars = Ok tv -> NoDup evars ->
  nth_error evars m = Some e -> In [] ds ->
  reduce_to_entities tv e ids = Err AttributeError.
Proof. exact reduce_empty. Qed.

(** * C04 Pruning keeps request order and replication *)
Theorem C04_prune_request_order : forall ds evars pvars tv m e ids T,
  trav_init ds evars pvars = Ok tv -> NoDup evars ->
  nth_error evars m = Some e -> Forall (fun T => T <> []) ds ->
  nth_error ds m = Some T -> NoDup (map rid T) ->
  exists out U, reduce_to_entities tv e ids = Ok out /\ nth_error out m = Some U /\
    map rid U = filter (fun i => existsb (fun r => rid r =? i) T) ids /\
    (forall r, In r U -> In r T).
Proof. exact reduce_order. Qed.

Theorem C04_prune_children_follow_parents : forall ds evars pvars tv m e ids,
  trav_init ds evars pvars = Ok tv -> NoDup evars ->
  nth_error evars m = Some e -> Forall (fun T => T <> []) ds -> consistent ds ->
  exists out, reduce_to_entities tv e ids = Ok out /\
    forall j U V T, (m <= j)%nat -> nth_error out j = Some U -> nth_error out (S j) = Some V ->
      nth_error ds (S j) = Some T ->
      V = flat_map (fun q => filter (fun s => rpid s =? rid q) T) U.
Proof. exact reduce_children_order. Qed.

(** * C05 Pruning keeps exactly the ancestors of what is kept *)
Theorem C05_prune_keeps_ancestors_once : forall ds evars pvars tv m e ids,
  trav_init ds evars pvars = Ok tv -> NoDup evars ->
  nth_error evars m = Some e -> Forall (fun T => T <> []) ds ->
  exists out, reduce_to_entities tv e ids = Ok out /\
    forall j T U V, (j < m)%nat ->
      nth_error ds j = Some T -> nth_error out j = Some U -> nth_error out (S j) = Some V ->
      (forall r, In r U <-> In r T /\ exists s, In s V /\ rpid s = rid r) /\
      (NoDup (map rid T) -> StronglySorted Z.lt (map rid U)).
Proof. exact reduce_ancestors. Qed.

(** * C06 Pruning a consistent tree gives a consistent tree *)
Theorem C06_prune_preserves_consistency : forall ds evars pvars tv m e ids,
  trav_init ds evars pvars = Ok tv -> NoDup evars ->
  nth_error evars m = Some e -> Forall (fun T => T <> []) ds ->
  consistent ds -> NoDup ids ->
  exists out tv', reduce_to_entities tv e ids = Ok out /\ consistent out /\
    trav_init out evars pvars = Ok tv'.
Proof. exact reduce_consistent. Qed.

(** Any chain of duplicate-free requests, at any levels. *)
Theorem C06_prune_chain_consistent : forall reqs ds evars pvars out,
  NoDup evars -> List.length ds = List.length evars ->
  List.length evars = S (List.length pvars) -> consistent ds ->
  Forall (fun q => In (fst q) evars /\ NoDup (snd q)) reqs ->
  fold_res (fun d q => tv <- trav_init d evars pvars ;; reduce_to_entities tv (fst q) (snd q)) reqs ds
    = Ok out ->
  consistent out.
Proof. exact reduce_chain_consistent. Qed.

(** * C07 Repeated pruning composes *)
Theorem C07_prune_composes : forall ds evars pvars tv m e A B o1 tv1 o2,
  trav_init ds evars pvars = Ok tv -> NoDup evars ->
  nth_error evars m = Some e -> unique_ids ds -> NoDup A -> (forall i, In i B -> In i A) ->
  reduce_to_entities tv e A = Ok o1 -> trav_init o1 evars pvars = Ok tv1 ->
  reduce_to_entities tv1 e B = Ok o2 ->
  reduce_to_entities tv e B = Ok o2.
Proof. exact reduce_compose. Qed.

Theorem C07_prune_idempotent : forall ds evars pvars tv m e A o1 tv1,
  trav_init ds evars pvars = Ok tv -> NoDup evars ->
  nth_error evars m = Some e -> unique_ids ds -> NoDup A ->
  reduce_to_entities tv e A = Ok o1 -> trav_init o1 evars pvars = Ok tv1 ->
  Forall (fun T => T <> []) o1 ->
  reduce_to_entities tv1 e A = Ok o1.
Proof. exact reduce_idempotent. Qed.

(** * C08 check_parent_child reports exactly the broken links *)
Theorem C08_check_parent_child_exact : forall ds evars pvars tv,
  trav_init ds evars pvars = Ok tv -> Forall (fun T => T <> []) ds ->
  exists ents pars, check_parent_child tv = Ok (ents, pars) /\
    List.length ents = List.length pvars /\ List.length pars = List.length pvars /\
    forall j A B e p, nth_error ds j = Some A -> nth_error ds (S j) = Some B ->
      nth_error evars j = Some e -> nth_error pvars j = Some p ->
      exists n1 l1 n2 l2,
        nth_error ents j = Some (e, (n1, List.length l1, l1)) /\
        nth_error pars j = Some (p, (n2, List.length l2, l2)) /\
        distinct_count n1 (map rid A) /\ distinct_count n2 (map rpid B) /\
        lists_set l1 (fun x => In x (map rid A) /\ ~ In x (map rpid B)) /\
        lists_set l2 (fun x => In x (map rpid B) /\ ~ In x (map rid A)).
Proof. exact check_exact. Qed.

Theorem C08_check_empty_level_raises : forall ds evars pvars tv,
  trav_init ds evars pvars = Ok tv -> pvars <> [] -> In [] ds ->
  check_parent_child tv = Err AttributeError.
Proof. exact check_empty. Qed.

(** The report is clean exactly for trees in which every link is there. *)
Theorem C08_check_clean_iff : forall ds evars pvars tv,
  trav_init ds evars pvars = Ok tv -> Forall (fun T => T <> []) ds ->
  exists ents pars, check_parent_child tv = Ok (ents, pars) /\
   ((forall x, In x ents \/ In x pars -> snd (snd x) = []) <->
    (no_orphans ds /\
     forall j A B, nth_error ds j = Some A -> nth_error ds (S j) = Some B ->
       forall r, In r A -> exists s, In s B /\ rpid s = rid r)).
Proof. exact check_clean. Qed.
End Props.

Print Assumptions C01_count_children_exact.
Print Assumptions C01_count_immediate_children.
Print Assumptions C01_counts_add_up.
Print Assumptions C01_counts_add_up_to_rows.
Print Assumptions C01_count_all_levels_below.
Print Assumptions C01_count_empty_level_raises.
Print Assumptions C02_replicate_parent_ids.
Print Assumptions C02_ancestor_is_unique.
Print Assumptions C02_replicate_on_consistent_tree.
Print Assumptions C03_prune_keeps_exactly_descendants.
Print Assumptions C03_prune_empty_level_raises.
Print Assumptions C04_prune_request_order.
Print Assumptions C04_prune_children_follow_parents.
Print Assumptions C05_prune_keeps_ancestors_once.
Print Assumptions C06_prune_preserves_consistency.
Print Assumptions C06_prune_chain_consistent.
Print Assumptions C07_prune_composes.
Print Assumptions C07_prune_idempotent.
Print Assumptions C08_check_parent_child_exact.
Print Assumptions C08_check_empty_level_raises.
Print Assumptions C08_check_clean_iff.

(** * The hypotheses are met, and the values are those of the test suite *)
Example C01_sample : count_children stv "storm_id" (Some "trig_id"%string)
  = Ok [[3;0;5]; [2;1;1;3;0;1;0;3]; [4;1;2;1;2;2;1;1;2;1;1]]%nat.
Proof. vm_compute. reflexivity. Qed.
Example C01_sample_immediate : count_children stv "flash_id" None = Ok [[2;1;1;3;0;1;0;3]]%nat.
Proof. vm_compute. reflexivity. Qed.
Example C02_sample : replicate_parent_ids stv "storm_id" "trig_parent_stroke_id"
  = Ok [0;0;0;0;0;0;0;0;2;2;2;2;2;2;2;2;2;2].
Proof. vm_compute. reflexivity. Qed.
(** A broken link gives KeyError. *)
Definition broken : list (table unit) := [storms; flashes; mk [(4, 1); (6, 99)]; mk [(1, 4); (2, 6)]].
Example C02_broken : replicate_parent_ids (mkTrav sevars (None :: map Some spvars) broken)
  "storm_id" "trig_parent_stroke_id" = Err KeyError.
Proof. vm_compute. reflexivity. Qed.
Example C03_sample : res_map (map (map rid)) (reduce_to_entities stv "stroke_id" [13; 15; 23])
  = Ok [[2]; [4; 8]; [13; 15; 23]; [18; 19; 23; 31]].
Proof. vm_compute. reflexivity. Qed.
Example C04_sample : res_map (map (map rid)) (reduce_to_entities stv "stroke_id" [23; 13; 99; 23])
  = Ok [[2]; [4; 8]; [23; 13; 23]; [31; 18; 19; 31]].
Proof. vm_compute. reflexivity. Qed.
Example C06_sample_consistent : consistent sample.
Proof. split; [exact sample_unique|exact sample_linked]. Qed.
Definition reduced : list (table unit) :=
  match reduce_to_entities stv "stroke_id" [13; 15; 23] with Ok o => o | Err _ => [] end.
Definition rtv := mkTrav sevars (None :: map Some spvars) reduced.
Example C07_sample_meets : reduce_to_entities stv "stroke_id" [13; 15; 23] = Ok reduced /\
  trav_init reduced sevars spvars = Ok rtv /\ Forall (fun T => T <> []) reduced /\
  NoDup [13; 15; 23] /\ (forall i, In i [23; 15] -> In i [13; 15; 23]) /\
  res_map (map (map rid)) (reduce_to_entities rtv "stroke_id" [23; 15])
  = Ok [[2]; [4; 8]; [23; 15]; [31; 23]].
Proof.
  split; [vm_compute; reflexivity|]. split; [vm_compute; reflexivity|].
  split; [vm_compute; repeat (constructor; [discriminate|]); constructor|].
  split; [nodup|]. split; [simpl; intuition|]. vm_compute. reflexivity.
Qed.
Example C08_sample : res_map fst (check_parent_child stv)
  = Ok [("storm_id"%string, (3%nat, 1%nat, [1])); ("flash_id"%string, (8%nat, 2%nat, [5; 7]));
        ("stroke_id"%string, (11%nat, 0%nat, []))].
Proof. vm_compute. reflexivity. Qed.
