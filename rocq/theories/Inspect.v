(** Model of what the repository offers for looking into files: plot_flash of
    glmtools/plot/locations.py 5-59, the script examples/check_glm_data.py and
    GLMDataset.fov_bounds of glmtools/io/glm.py 469-475. *)
From Coq Require Import List ZArith QArith Bool String.
From Verif Require Import Base Traversal Glm Points Times Plot.
Import ListNotations.
Open Scope list_scope.
Open Scope Z_scope.
Local Notation tbl := (table obs).

(** locations.py 37-52: what one call of scatter is given: longitudes, latitudes and, except
    for the flash, the energies that set the colour.  Markers and sizes are left out. *)
Record scatter := mkScatter { sc_lon : list fval; sc_lat : list fval; sc_energy : option (list fval) }.
(** locations.py 42-54: the three calls in order, and the id and the two times of the title. *)
Record picture := mkPicture { pc_groups : scatter; pc_events : scatter; pc_flash : scatter; pc_title : Z * Z * Z }.
(** [a[0]] of an array (locations.py 26-27, 53). *)
Definition first_of {A} (l : list A) : res A := match l with [] => Err IndexError | a :: _ => Ok a end.
(** locations.py 16-25: the columns of one table. *)
Definition columns (T : tbl) : scatter :=
  mkScatter (map (fun r => o_lon (rdat r)) T) (map (fun r => o_lat (rdat r)) T) (Some (map (fun r => o_energy (rdat r)) T)).
(** locations.py 5-59: plot_flash.  The colour scale (34) is a lookup in a constant table. *)
Definition plot_flash (ck : clock) (ds : list tbl) (flash_id : Z) : res picture :=
  sub <- get_flashes ds [flash_id] ;;
  match sub with
  | [F; G; E] =>
      first <- first_of (map (fun f => t_first ck (rid f)) F) ;;
      last <- first_of (map (fun f => t_last ck (rid f)) F) ;;
      _ <- lookup_params "total_energy" ;;
      i <- first_of (map rid F) ;;
      Ok (mkPicture (columns G) (columns E) (mkScatter (sc_lon (columns F)) (sc_lat (columns F)) None) (i, first, last))
  | _ => Err AttributeError
  end.

(** check_glm_data.py 15-21: the loop over the files of the command line; the names printed,
    and the exception that ends the script, if one does.  [opens] is what the constructor does
    with each file. *)
Fixpoint check_files {A} (opens : list (string * res A)) : list string * option exn :=
  match opens with
  | [] => ([], None)
  | (_, Ok _) :: rest => check_files rest
  | (name, Err KeyError) :: rest => let '(printed, stop) := check_files rest in (name :: printed, stop)
  | (_, Err e) :: _ => ([], Some e)
  end.
(** examples/check_glm_data.py 15-21 with the constructor GLMDataset of glm.py 188-252 and its
    default arguments. *)
Definition check_glm_data (set_order : list Z -> list Z) (nav : fval -> fval -> fval * fval) (files : list (string * (header * source)))
  : list string * option exn :=
  check_files (map (fun f => (fst f, glm_open_timed set_order nav (mkOptions true true true true) true (fst (snd f)) (snd (snd f)))) files).

(** [a.min()] of an xarray column (glm.py 473-474): missing values are skipped; NaN when all are
    missing; ValueError for none. *)
Definition col_min (l : list fval) : res fval :=
  match l with
  | [] => Err ValueError
  | _ => Ok (fold_left (fun m v => match m, v with None, v => v | m, None => m | Some a, Some b => Some (Qminb a b) end) l None)
  end.
(** [a.max()] of an xarray column (glm.py 473-474). *)
Definition col_max (l : list fval) : res fval :=
  match l with
  | [] => Err ValueError
  | _ => Ok (fold_left (fun m v => match m, v with None, v => v | m, None => m | Some a, Some b => Some (Qmaxb a b) end) l None)
  end.
(** glm.py 469-475: fov_bounds; ((west, east), (south, north)). *)
Definition fov_bounds (ds : list tbl) : res ((fval * fval) * (fval * fval)) :=
  match ds with
  | [_; _; E] =>
      let lat := map (fun e => o_lat (rdat e)) E in
      let lon := map (fun e => o_lon (rdat e)) E in
      s <- col_min lat ;; n <- col_max lat ;; w <- col_min lon ;; e <- col_max lon ;;
      Ok ((w, e), (s, n))
  | _ => Err AttributeError
  end.
