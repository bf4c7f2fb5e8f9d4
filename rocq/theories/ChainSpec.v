(** Specification vocabulary for several selections. *)
From Coq Require Import List ZArith QArith Bool String Permutation.
From Verif Require Import Base Traversal TraversalSpec Glm GlmSpec.
Import ListNotations.
Open Scope Z_scope.

Local Notation tbl := (table obs).

(** [sel] is what is left of [F], [G], [E] for the flashes of which [keep] holds: these
    flashes with all their groups and events, each once. *)
Definition left_of (keep : row obs -> Prop) (F G E : tbl) (sel : list tbl) : Prop :=
  exists F' G' E', sel = [F'; G'; E'] /\ NoDup F' /\ NoDup G' /\ NoDup E' /\
    (forall f, In f F' <-> In f F /\ keep f) /\
    (forall g, In g G' <-> In g G /\ exists f, In f F /\ keep f /\ rid f = rpid g) /\
    (forall e, In e E' <-> In e E /\ exists g f, In g G /\ In f F /\ keep f /\ rid f = rpid g /\ rid g = rpid e).
(** The same flashes, groups and events. *)
Definition same_selection (a b : list tbl) : Prop := Forall2 (@Permutation (row obs)) a b.
(** Both ranges at once; a missing one allows everything. *)
Definition both_ranges (a b : option (Q * Q)) : option (Q * Q) :=
  match a, b with
  | None, r | r, None => r
  | Some (x, y), Some (x', y') => Some (if Qlt_le_dec x x' then x' else x, if Qlt_le_dec y y' then y else y')
  end.
Definition both_minima (a b : option Z) : option Z :=
  match a, b with None, m | m, None => m | Some x, Some y => Some (Z.max x y) end.
(** The two queries in one. *)
Definition both (q q' : query) : query :=
  mkQuery (both_ranges (q_lon q) (q_lon q')) (both_ranges (q_lat q) (q_lat q')) (both_ranges (q_x q) (q_x q')) (both_ranges (q_y q) (q_y q'))
    (q_check q && q_check q') (both_minima (q_min_events q) (q_min_events q')) (both_minima (q_min_groups q) (q_min_groups q')).
