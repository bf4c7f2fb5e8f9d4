(** Specification vocabulary for the flashes that reach a grid and for cells that two grids
    have in common. *)
From Coq Require Import List ZArith QArith Bool.
From Verif Require Import Base Traversal TraversalSpec Glm GlmSpec Lut LutSpec Poly PolySpec BBox BBoxSpec Slice SliceSpec Pipeline PipelineSpec.
Import ListNotations.

(** The selection takes flash [f] of a file with groups [G] and events [E]. *)
Definition takes (q : option query) (G E : table obs) (f : row obs) : Prop :=
  match q with None => True | Some q => wanted q G E f end.
(** The pixel of an event. *)
Definition pixel_of (weird : fval -> Z) (e : row obs) : Z := discretize weird lut_scale lut_range lut_range (o_x (rdat e)) (o_y (rdat e)).

(** Polygons with the same corners. *)
Definition same_corners (p p' : poly) : Prop := Forall2 (fun a b => fst a == fst b /\ snd a == snd b)%Q p p'.
(** What the clipping library returns depends on the corners, not on how the fractions are
    written: pieces of the same sizes. *)
Definition by_corners (clip : poly -> poly -> list poly) : Prop :=
  forall p c c', same_corners c c' -> Forall2 (fun a b => size a == size b)%Q (clip p c) (clip p c').
(** The cell number [kx] in x and [ky] in y of a grid with edges [xe] and [ye]. *)
Definition grid_cell (xe ye : list Q) (kx ky : nat) : poly := cell_quad (regular_xy xe ye) (ky, kx).
Definition is_cell (xe ye : list Q) (kx ky : nat) : Prop := (S kx < List.length xe)%nat /\ (S ky < List.length ye)%nat.
(** The polygon of the pixel of a row meets a polygon. *)
Definition meets (clip : poly -> poly -> list poly) (quad : fval -> fval -> poly) (c : poly) (r : lutrow) : Prop :=
  clip (quad (lu_x r) (lu_y r)) c <> [].
(** Every pixel of the tables that meets the cell is looked up there (C49). *)
Definition found clip tree quad (xe ye : list Q) (kx ky : nat) (tables : list (list lutrow)) : Prop :=
  forall r, In r (List.concat tables) -> meets clip quad (grid_cell xe ye kx ky) r ->
    In (ky, kx) (nearby tree (regular_xy xe ye) (quad (lu_x r) (lu_y r))).
(** Of the flashes with an event in a pixel that meets the cell, two selections take the same
    ones. *)
Definition agree weird clip quad (c : poly) (q q' : option query) (files : list (list (table obs))) (tables : list (list lutrow)) : Prop :=
  forall r F G E f e, In r (List.concat tables) -> meets clip quad c r -> In [F; G; E] files -> In f F ->
    In e (flash_events G E (rid f)) -> pixel_of weird e = lu_id r -> (takes q G E f <-> takes q' G E f).
