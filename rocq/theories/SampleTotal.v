(** Model of examples/grid/grid_sample_data.py (17-27): the energy in the L2 files, which
    the sample runs compare with the total of the gridded energy (92-100). *)
From Coq Require Import List ZArith QArith Bool String.
From Verif Require Import Base Traversal Glm.
Import ListNotations.
Open Scope Z_scope.

Local Notation tbl := (table obs).

(** [a.sum().data] of a float variable (26): xarray skips NaN.  Rounding is ignored. *)
Definition nansum (l : list fval) : Q :=
  fold_left (fun s v => match v with Some x => s + x | None => s end)%Q l 0%Q.

Section SampleTotal.
Variable set_order : list Z -> list Z.
Variable nav : fval -> fval -> fval * fval.

(** grid_sample_data.py 23-26: GLMDataset(sf), glm.py 154-155 with its default arguments,
    and the selection by longitude and latitude.  A file is its header and its rows. *)
Definition one_file (lon_range lat_range : Q * Q) (f : header * list tbl) : res Q :=
  glm <- glm_open set_order nav (mkOptions true true true true) (fst f) (snd f) ;;
  flashes_subset <- subset_flashes set_order (snd glm) (mkQuery (Some lon_range) (Some lat_range) None None true None None) ;;
  match flashes_subset with
  | [_; _; E] => Ok (nansum (map (fun e => o_energy (rdat e)) E))
  | _ => Err AttributeError
  end.
(** grid_sample_data.py 17-27: total_energy_in_L2. *)
Definition total_energy_in_L2 (lon_range lat_range : Q * Q) (files : list (header * list tbl)) : res Q :=
  fold_res (fun energy f => e <- one_file lon_range lat_range f ;; Ok (energy + e)%Q) files 0%Q.
End SampleTotal.
