(** Specification vocabulary for reading flashes in chunks. *)
From Coq Require Import List ZArith QArith Bool Permutation.
From Verif Require Import Base Traversal TraversalSpec Glm GlmSpec Lut LutSpec.
Import ListNotations.
Open Scope Z_scope.

Local Notation tbl := (table obs).

(** The flashes, groups and events that a call selects from an opened dataset. *)
Definition selection set_order (ds : list tbl) (q : option query) (sel : list tbl) : Prop :=
  match q with None => sel = ds | Some q => subset_flashes set_order ds q = Ok sel end.
(** [pieces] split [whole]: level by level, together they are the whole; flashes keep
    their order. *)
Definition splits (pieces : list (list tbl)) (whole : list tbl) : Prop :=
  exists F G E, whole = [F; G; E] /\
    Forall (fun p => List.length p = 3%nat) pieces /\
    List.concat (map (fun p => nth 0 p []) pieces) = F /\
    Permutation (List.concat (map (fun p => nth 1 p []) pieces)) G /\
    Permutation (List.concat (map (fun p => nth 2 p []) pieces)) E.
(** Sizes that differ by at most one. *)
Definition even {A} (parts : list (list A)) : Prop :=
  forall p p', In p parts -> In p' parts -> (List.length p <= S (List.length p'))%nat.
(** The rows for pixel [k] in the given tables, and the sum of a quantity over them. *)
Definition rows_at (k : Z) (tables : list (list lutrow)) : list lutrow := filter (fun r => lu_id r =? k) (List.concat tables).
Definition pixel_sum (f : lutrow -> Q) (k : Z) (tables : list (list lutrow)) : Q := qsum (map f (rows_at k tables)).

(** A dataset as it is after opening: either without events, or complete, with numbers
    where areas and energies are used. *)
Definition usable (ds : list tbl) : Prop :=
  nth_error ds 2 = Some [] \/
  exists F G E, ds = [F; G; E] /\ F <> [] /\ G <> [] /\ E <> [] /\ derived_ok F G E /\
    numbers (areas F) /\ numbers (areas G) /\ numbers (energies E).
(** [e] is the energy of all events of the flashes selected from a file. *)
Definition observed set_order (q : option query) (ds : list tbl) (e : Q) : Prop :=
  (nth_error ds 2 = Some [] /\ e = 0%Q) \/
  ((exists v E, nth_error ds 2 = Some (v :: E)) /\ exists F G E, selection set_order ds q [F; G; E] /\ e = total (energies E)).
