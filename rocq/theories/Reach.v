(** Model of the selection of flashes that a tile is made of: GLMGridder.process_flashes
    (glmtools/grid/make_grids.py 366-405) and the part of read_flashes
    (glmtools/io/mimic_lma.py 30-82) that decides what is selected. *)
From Coq Require Import List ZArith QArith Bool String.
From Verif Require Import Base Glm Lut FileName Imagery Aggregate Output Tiles Gridder Calls.
Import ListNotations.
Open Scope string_scope.
Open Scope list_scope.

(** make_grids.py 366-370: the keyword arguments of process_flashes. *)
Definition process_names : list string :=
  ["lat_bnd"; "lon_bnd"; "x_bnd"; "y_bnd"; "min_points_per_flash"; "min_groups_per_flash"; "clip_events"; "fixed_grid"; "nadir_lon"; "corner_pickle"].
(** A range as subset_flashes indexes it (glm.py 507-516); None if absent or None. *)
Definition range_of (v : option kval) : res (option (Q * Q)) :=
  match v with None | Some KNone => Ok None | Some (KRange r) => Ok (Some r) | Some _ => Err TypeError end.
(** A minimum as subset_flashes compares it (glm.py 517-520); only counts and None are
    modelled. *)
Definition count_of (v : option kval) : res (option Z) :=
  match v with None | Some KNone => Ok None | Some (KNat n) => Ok (Some (Z.of_nat n)) | Some _ => Err TypeError end.
(** mimic_lma.py 73-87: only subset if there is anything to select by; check_event_xy is
    left at its default, True (glm.py 479-481). *)
Definition select_by (lon lat x y : option (Q * Q)) (events groups : option Z) : option query :=
  match lon, lat, x, y, events, groups with
  | None, None, None, None, None, None => None
  | _, _, _, _, _, _ => Some (mkQuery lon lat x y true events groups)
  end.
(** make_grids.py 366-370, 398-405: what is selected for the given keyword arguments. *)
Definition process_flashes_query (proc : kwargs) : res (option query) :=
  if forallb (fun a => existsb (String.eqb (fst a)) process_names) proc then
    lon <- range_of (kget "lon_bnd" proc) ;;
    lat <- range_of (kget "lat_bnd" proc) ;;
    x <- range_of (kget "x_bnd" proc) ;;
    y <- range_of (kget "y_bnd" proc) ;;
    events <- count_of (kget "min_points_per_flash" proc) ;;
    groups <- count_of (kget "min_groups_per_flash" proc) ;;
    Ok (select_by lon lat x y events groups)
  else Err TypeError.
(** make_grids.py 387-396: the minima that the gridder notes. *)
Definition noted_minimum (v : option kval) : res Z :=
  n <- count_of v ;; Ok (match n with None => 1%Z | Some n => n end).
(** What process_flashes asks of read_flashes (make_grids.py 398-405, mimic_lma.py 30-34): the selection,
    clip_events, fixed_grid and nadir_lon, if given, and corner_pickle. *)
Record read_call := mkRead { rd_query : option query; rd_clip : option kval; rd_fixed : option kval; rd_nadir : option kval; rd_corners : kval }.
(** make_grids.py 366-405: the minima noted, and the call of read_flashes.  corner_pickle is
    not passed on (378: currently unused), so that read_flashes takes its default. *)
Definition process_flashes (proc : kwargs) : res (Z * Z * read_call) :=
  q <- process_flashes_query proc ;;
  points <- noted_minimum (kget "min_points_per_flash" proc) ;;
  groups <- noted_minimum (kget "min_groups_per_flash" proc) ;;
  Ok (points, groups, mkRead q (kget "clip_events" proc) (kget "fixed_grid" proc) (kget "nadir_lon" proc) KNone).
