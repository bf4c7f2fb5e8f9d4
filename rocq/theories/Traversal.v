(** Model of glmtools/io/traversal.py, class OneToManyTraversal. *)
From Coq Require Import List ZArith Bool String.
From Verif Require Import Base.
Import ListNotations.
Open Scope Z_scope.

Section Traversal.
(** Everything an entity carries besides its id and parent id. *)
Context {P : Type}.

(** One element along the dimension of an entity: the value of the entity id
    variable, of the parent id variable (meaningless at the top level) and of
    all other variables along that dimension.  xarray indexes all variables that
    share a dimension together, so a dimension is modelled as a list of rows.
    Simplification: each entity id variable has a dimension of its own, and
    parent id variable [k] lies along the dimension of entity [k]. *)
Record row := mkRow { rid : Z; rpid : Z; rdat : P }.
Local Notation table := (list row).

(** traversal.py 5-94.  The object holds the names and the dataset; the groupby
    dictionaries of lines 65-93 are recomputed from the dataset that was passed
    to the constructor, see [entity_groups] and [parent_groups]. *)
Record traversal := mkTrav
  { tv_evars : list string; tv_pvars : list (option string); tv_data : list table }.

(** traversal.py 53-61, 94: arity check, then [parent_id_vars] gets a leading
    None.  A dataset without one of the variables gives KeyError (line 75). *)
Definition trav_init (ds : list table) (evars pvars : list string) : res traversal :=
  if negb (Z.of_nat (List.length pvars) =? Z.of_nat (List.length evars) - 1)
  then Err ValueError
  else if negb (Nat.eqb (List.length ds) (List.length evars)) then Err KeyError
  else Ok (mkTrav evars (None :: map Some pvars) ds).

(** [self.entity_groups[var].groups] / [self.parent_groups[var].groups]:
    the grouper is None for an empty dimension (75-77, 84-86) and None has no
    attribute [groups]. *)
Definition grouper_groups (vals : list Z) : res (list Z) :=
  match vals with [] => Err AttributeError | _ => Ok vals end.
(** traversal.py 75-80, read at 179, 236, 260 and 338. *)
Definition entity_groups (T : table) : res (list Z) := grouper_groups (map rid T).
(** traversal.py 84-89, read at 127, 216 and 334. *)
Definition parent_groups (T : table) : res (list Z) := grouper_groups (map rpid T).

(** A step of [_descend] (96-98): position of the level, entity variable,
    parent variable and the dataset passed to the constructor at that level. *)
Definition level := (nat * string * option string * table)%type.
(** traversal.py 96-98: the zip of entity and parent variables, with the tables. *)
Fixpoint levels_from (k : nat) (es : list string) (ps : list (option string))
  (ds : list table) : list level :=
  match es, ps, ds with
  | e :: es', p :: ps', T :: ds' => (k, e, p, T) :: levels_from (S k) es' ps' ds'
  | _, _, _ => []
  end.
(** traversal.py 96-98: _descend. *)
Definition descend (tv : traversal) : list level :=
  levels_from 0 (tv_evars tv) (tv_pvars tv) (tv_data tv).
(** traversal.py 100-102 *)
Definition ascend (tv : traversal) : list level := rev (descend tv).

(* ------------------------------------------------------------------ *)
(** traversal.py 104-137, count_children. *)
Record cc_state := mkCC
  { cc_next : bool; cc_last : list Z; cc_all : list (list nat) }.

(** traversal.py 125-136: one turn of the loop of count_children. *)
Definition cc_step (entity : string) (child : option string)
  (st : cc_state) (lv : level) : res cc_state :=
  let '(_, e, _, T) := lv in
  st1 <- (if cc_next st then
            (* 127-131 *)
            g <- parent_groups T ;;
            Ok (mkCC (cc_next st) (map rid T)
                  (cc_all st ++
                   [map (fun eid => match groups_get g eid with
                                    | Some l => List.length l
                                    | None => 0%nat end) (cc_last st)]))
          else Ok st) ;;
  (* 132-133 *)
  let stop := match child with None => true | Some c => String.eqb e c end in
  let st2 := if stop then mkCC false (cc_last st1) (cc_all st1) else st1 in
  (* 134-136 *)
  Ok (if String.eqb e entity then mkCC true (map rid T) (cc_all st2) else st2).

(** traversal.py 104-137: count_children. *)
Definition count_children (tv : traversal) (entity : string) (child : option string)
  : res (list (list nat)) :=
  st <- fold_res (cc_step entity child) (descend tv) (mkCC false [] []) ;;
  Ok (cc_all st).

(* ------------------------------------------------------------------ *)
(** traversal.py 139-195, replicate_parent_ids.  [rp_last = None] is the unbound
    local variable [last_replicated_p_ids]. *)
Record rp_state := mkRP { rp_collect : bool; rp_last : option (list Z) }.

(** [np.asarray(e_idx).flatten()] (181): a list of lists of equal lengths is a
    matrix and is flattened; a ragged one cannot be used as an index. *)
Definition asarray_flatten (l : list (list nat)) : res (list nat) :=
  match l with
  | [] => Ok []
  | h :: _ => if forallb (fun x => Nat.eqb (List.length x) (List.length h)) l
              then Ok (List.concat l) else Err ValueError
  end.

(** traversal.py 170-194: one turn of the loop of replicate_parent_ids. *)
Definition rp_step (entity pvar : string) (st : rp_state) (lv : level)
  : res rp_state :=
  let '(_, e, p, T) := lv in
  (* 171-176 *)
  let collect := if String.eqb e entity then false else rp_collect st in
  st1 <- (if collect then
            match rp_last st with
            | None => Err UnboundLocalError
            | Some ids =>
                (* 179-181 *)
                g <- (match ids with [] => Ok [] | _ => entity_groups T end) ;;
                e_idx <- map_res (fun eid => match groups_get g eid with
                                             | Some l => Ok l
                                             | None => Err KeyError end) ids ;;
                flat <- asarray_flatten e_idx ;;
                (* 188-189; at the top level there is no parent variable *)
                rows <- gather T flat ;;
                match p with
                | None => Err KeyError
                | Some _ => Ok (mkRP collect (Some (map rpid rows)))
                end
            end
          else Ok (mkRP collect (rp_last st))) ;;
  (* 190-194 *)
  match p with
  | Some pv => if String.eqb pv pvar then Ok (mkRP true (Some (map rpid T))) else Ok st1
  | None => Ok st1
  end.

(** traversal.py 139-195: replicate_parent_ids. *)
Definition replicate_parent_ids (tv : traversal) (entity pvar : string)
  : res (list Z) :=
  st <- fold_res (rp_step entity pvar) (ascend tv) (mkRP false None) ;;
  match rp_last st with Some l => Ok l | None => Err UnboundLocalError end.

(* ------------------------------------------------------------------ *)
(** traversal.py 198-282, reduce_to_entities.  A dataset is the list of its
    tables, in the order of the entity variables; [indexer] maps level numbers
    (dimensions) to index lists.  An empty index list stands for [slice(0,0)]
    (220-222, 241-243, 264-266). *)
Definition indexer := list (nat * list nat).

(** [dataset[indexer]] *)
Definition isel1 (ds : list table) (ki : nat * list nat) : res (list table) :=
  let '(k, idx) := ki in
  match nth_error ds k with
  | None => Err KeyError
  | Some T => T' <- gather T idx ;; Ok (set_nth k T' ds)
  end.
(** traversal.py 224, 253, 268: [dataset[indexer]] over all dimensions of the indexer.
    *)
Definition isel (ds : list table) (ix : indexer) : res (list table) :=
  fold_res isel1 ix ds.

(** Local variables prune, last_entity_ids, indexer, dataset of traversal.py 202-282. *)
Record rd_state := mkRD
  { rd_prune : bool; rd_last : list Z; rd_idx : indexer; rd_ds : list table }.

(** 214-246, one turn of the descending loop. *)
Definition rd_down (entity : string) (ids : list Z) (st : rd_state) (lv : level)
  : res rd_state :=
  let '(k, e, _, T) := lv in
  st1 <- (if rd_prune st then
            g <- parent_groups T ;;
            let e_idx := groups_chain g (rd_last st) in
            ds <- isel (rd_ds st) (rd_idx st ++ [(k, e_idx)]) ;;
            match nth_error ds k with
            | None => Err KeyError
            | Some T' => Ok (mkRD (rd_prune st) (map rid T') (rd_idx st) ds)
            end
          else Ok st) ;;
  if String.eqb e entity then
    g <- entity_groups T ;;
    Ok (mkRD true ids [(k, groups_chain g ids)] (rd_ds st1))
  else Ok (mkRD (rd_prune st1) (rd_last st1) [] (rd_ds st1)).

(** 258-280, one turn of the ascending loop (the indexer is always {} on entry). *)
Definition rd_up (entity : string) (st : rd_state) (lv : level) : res rd_state :=
  let '(k, e, p, T) := lv in
  ds <- (if rd_prune st then
           g <- entity_groups T ;;
           isel (rd_ds st) (rd_idx st ++ [(k, groups_chain g (rd_last st))])
         else Ok (rd_ds st)) ;;
  match nth_error ds k with
  | None => Err KeyError
  | Some T' =>
      match p with
      | None => Ok (mkRD false (rd_last st) [] ds)
      | Some _ =>
          let parents := zunique (map rpid T') in
          Ok (mkRD (if String.eqb e entity then true else rd_prune st)
                parents [] ds)
      end
  end.

(** traversal.py 198-282: reduce_to_entities. *)
Definition reduce_to_entities (tv : traversal) (entity : string) (ids : list Z)
  : res (list table) :=
  st <- fold_res (rd_down entity ids) (descend tv) (mkRD false [] [] (tv_data tv)) ;;
  (* 247-253 *)
  ds <- isel (rd_ds st) (rd_idx st) ;;
  st' <- fold_res (rd_up entity) (ascend tv) (mkRD false (rd_last st) [] ds) ;;
  Ok (rd_ds st').

(* ------------------------------------------------------------------ *)
(** traversal.py 284-373, check_parent_child.  A statistics triple: number of
    unique ids, number of unmatched ids, the unmatched ids.  The two result
    dictionaries are association lists in insertion order. *)
Definition stats := (nat * nat * list Z)%type.
(** Local variables of traversal.py 317-320: the entity above and the two dictionaries.
    *)
Record cp_state := mkCP
  { cp_prev : option (string * table);
    cp_entity : list (string * stats); cp_parent : list (string * stats) }.

(** traversal.py 320-371: one turn of the loop of check_parent_child. *)
Definition cp_step (st : cp_state) (lv : level) : res cp_state :=
  let '(_, e, p, T) := lv in
  match p, cp_prev st with
  | None, _ => Ok (mkCP (Some (e, T)) (cp_entity st) (cp_parent st))
  | Some _, None => Err UnboundLocalError
  | Some pv, Some (pe, PT) =>
      pg <- parent_groups T ;;
      let parent_ids := zunique pg in
      eg <- entity_groups PT ;;
      let parent_entity_ids := zunique eg in
      let common := zset_inter parent_entity_ids parent_ids in
      let childless := zset_diff parent_entity_ids common in
      let orphan := zset_diff parent_ids common in
      Ok (mkCP (Some (e, T))
            (cp_entity st ++ [(pe, (List.length parent_entity_ids, List.length childless, childless))])
            (cp_parent st ++ [(pv, (List.length parent_ids, List.length orphan, orphan))]))
  end.

(** traversal.py 284-373: check_parent_child. *)
Definition check_parent_child (tv : traversal)
  : res (list (string * stats) * list (string * stats)) :=
  st <- fold_res cp_step (descend tv) (mkCP None [] []) ;;
  Ok (cp_entity st, cp_parent st).

End Traversal.
Arguments row : clear implicits.
(** The dimension of an entity: the list of its rows. *)
Notation table P := (list (row P)).
Arguments traversal : clear implicits.
Arguments level : clear implicits.
Arguments rd_state : clear implicits.
Arguments cp_state : clear implicits.
