(** Model of what the files of several runs hold: the grids of a run, divided and stored
    without scaling, and the series of the files of consecutive runs. *)
From Coq Require Import List ZArith QArith Bool String.
From Verif Require Import Base Traversal Glm Lut Accum Pipeline Imagery Aggregate.
Import ListNotations.
Open Scope Z_scope.

(** imagery.py 533-552 with make_grids.py 313-323 and 596-597 (names of the fields,
    divide_grids) for one cell and scaling off: the value read from the file of a run.  The
    two densities of centroids are left out, since [grids] does not have them. *)
Definition pixel_value (g : grids) (name : string) (p : Z * Z) : fval :=
  let at_ (h : grids -> grid) := g_at (h g) (fst p) (snd p) in
  stored None
    (if String.eqb name "flash_extent_density" then at_ gr_fcount
     else if String.eqb name "average_flash_area" then divide (at_ gr_farea) (at_ gr_fcount)
     else if String.eqb name "total_energy" then at_ gr_energy
     else if String.eqb name "group_extent_density" then at_ gr_gcount
     else if String.eqb name "average_group_area" then divide (at_ gr_garea) (at_ gr_gcount)
     else if String.eqb name "minimum_flash_area" then at_ gr_minarea
     else None)%string.

(** make_grids.py 313-323: the fields of a file, without the densities of centroids. *)
Definition run_fields : list string :=
  ["flash_extent_density"; "average_flash_area"; "total_energy"; "group_extent_density";
   "average_group_area"; "minimum_flash_area"]%string.

(** imagery.py 663-694: the files of several runs opened as a series; each file begins at
    the start of its run. *)
Definition run_series (runs : list (Z * grids)) : series (Z * Z) :=
  mkSeries run_fields (map (fun r => mkFrame (fst r) (pixel_value (snd r))) runs).
