(** Specification vocabulary for files that hold the same rows in another order. *)
From Coq Require Import List ZArith QArith Bool Permutation.
From Verif Require Import Base Traversal Glm Lut LutSpec AccumSpec Poly ChunkSpec.
Import ListNotations.

(** The same flashes, groups and events, each level in any order. *)
Definition same_rows (ds ds' : list (table obs)) : Prop := Forall2 (@Permutation (row obs)) ds ds'.

(** Rows of an event lookup table with the same pixel and the same numbers. *)
Definition same_pixel (r r' : lutrow) : Prop :=
  lu_id r = lu_id r' /\ feq (lu_x r) (lu_x r') /\ feq (lu_y r) (lu_y r') /\ feq (lu_energy r) (lu_energy r') /\
  lu_count r = lu_count r' /\ lu_fcount r = lu_fcount r' /\ lu_gcount r = lu_gcount r' /\
  feq (lu_farea r) (lu_farea r') /\ feq (lu_garea r) (lu_garea r') /\ feq (lu_minarea r) (lu_minarea r').

(** The polygon of a pixel depends on its position only, not on how the fractions of the
    coordinates are written. *)
Definition by_position (quad : fval -> fval -> poly) : Prop :=
  forall x y x' y', feq x x' -> feq y y' -> quad x y = quad x' y'.

(** All flashes selected from the file are read in one chunk. *)
Definition one_chunk set_order (q : option query) (chunk_size : nat) (ds : list (table obs)) : Prop :=
  forall F G E, selection set_order ds q [F; G; E] -> (List.length F < 2 * chunk_size)%nat.
