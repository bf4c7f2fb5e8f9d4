(** Model of glmtools/io/imagery.py 572-659 (aggregate) and 663-694
    (open_glm_time_series). *)
From Coq Require Import List ZArith QArith Bool String.
From Verif Require Import Base Glm Lut.
Import ListNotations.
Open Scope Z_scope.

Section Aggregate.
(** Pixels of the images. *)
Variable P : Type.

(** A gridded dataset: the names of its variables and, in order, the frames.  Times in
    microseconds.  A missing value is NaN, that is None. *)
Record frame := mkFrame { fr_time : Z; fr_at : string -> P -> fval }.
(** The dataset passed to aggregate (imagery.py 572-659). *)
Record series := mkSeries { s_vars : list string; s_frames : list frame }.
(** [v in glm_grids]. *)
Definition has (g : series) (v : string) : bool := existsb (String.eqb v) (s_vars g).
(** One time bin of the result with its values. *)
Record interval := mkInt { iv_left : Z; iv_right : Z; iv_vars : list string; iv_at : string -> P -> fval }.

(** imagery.py 613-616 *)
Definition sum_vars : list string :=
  ["flash_extent_density"; "flash_centroid_density"; "total_energy"; "group_extent_density"; "group_centroid_density"]%string.
(** imagery.py 621-623 *)
Definition min_vars : list string :=
  ["minimum_flash_area"; "goes_imager_projection"; "nominal_satellite_subpoint_lat"; "nominal_satellite_subpoint_lon"]%string.
(** Elementwise product of arrays with NaN. *)
Definition fmul (a b : fval) : fval := match a, b with Some x, Some y => Some (x * y)%Q | _, _ => None end.
(** Division of floats; a zero divisor gives NaN or infinity, here None in both cases. *)
Definition fquot (a b : fval) : fval :=
  match a, b with Some x, Some y => if Qeq_bool y 0 then None else Some (x / y)%Q | _, _ => None end.
(** imagery.py 628-629: the variables added to the sums; both are made from the flash variables. *)
Definition summed (f : frame) (v : string) (p : P) : fval :=
  if (String.eqb v "total_flash_area" || String.eqb v "total_group_area")%bool
  then fmul (fr_at f "average_flash_area"%string p) (fr_at f "flash_extent_density"%string p)
  else fr_at f v p.
(** [.sum(skipna=True)] and [.min(skipna=True)] over the frames of one bin.  The sum of no
    values is zero, the minimum NaN. *)
Definition present (l : list fval) : list Q := flat_map (fun v => match v with Some q => [q] | None => [] end) l.
(** [.sum(skipna=True)] (imagery.py 635-644). *)
Definition nansum (l : list fval) : fval := Some (qsum (present l)).
(** [.min(skipna=True)] (imagery.py 635-644). *)
Definition nanmin (l : list fval) : fval :=
  match present l with
  | [] => None
  | q :: r => Some (fold_left (fun a b => if Qlt_bool b a then b else a) r q)
  end.
(** groupby_bins (pandas.cut with right=True): bins are open on the left and closed on
    the right. *)
Definition in_bin (l r : Z) (f : frame) : bool := ((l <? fr_time f) && (fr_time f <=? r))%bool.
(** imagery.py 635-644 for one bin.  Bins without frames are kept by xarray, with NaN everywhere. *)
Definition bin_value (fs : list frame) (v : string) (p : P) : fval :=
  match fs with
  | [] => None
  | _ =>
    if String.eqb v "average_flash_area" then
      fquot (nansum (map (fun f => summed f "total_flash_area" p) fs)) (nansum (map (fun f => summed f "flash_extent_density" p) fs))
    else if String.eqb v "average_group_area" then
      fquot (nansum (map (fun f => summed f "total_group_area" p) fs)) (nansum (map (fun f => summed f "group_extent_density" p) fs))
    else if existsb (String.eqb v) min_vars then nanmin (map (fun f => fr_at f v p) fs)
    else nansum (map (fun f => summed f v p) fs)
  end%string.
(** [min] of times; not called on an empty list. *)
Definition zmin_list (l : list Z) : Z := match l with [] => 0 | x :: r => fold_left Z.min r x end.
(** [max] of times; not called on an empty list. *)
Definition zmax_list (l : list Z) : Z := match l with [] => 0 | x :: r => fold_left Z.max r x end.
(** imagery.py 572-659; the number of minutes is an integer, as its documentation says.
    Attributes are left out.  No frame in any bin (or no bin): xarray raises ValueError;
    pandas raises ValueError for decreasing edges. *)
Definition aggregate (g : series) (minutes : Z) (start_end : option (Z * Z)) : res (list interval) :=
  let dt := 60000000 * minutes in
  se <- match start_end with
        | Some se => Ok se
        | None => match s_frames g with
                  | [] => Err ValueError
                  | _ => Ok (zmin_list (map fr_time (s_frames g)), zmax_list (map fr_time (s_frames g)) + dt)
                  end
        end ;;
  let start := fst se in let duration := snd se - fst se in
  if negb (has g "average_flash_area" && has g "flash_extent_density")%bool then Err AttributeError else
  if dt =? 0 then Err ZeroDivisionError else
  let n := Z.quot duration dt in
  let bins := map (fun i => (start + dt * Z.of_nat i, start + dt * Z.of_nat (S i))) (seq 0 (Z.to_nat n)) in
  if dt <? 0 then Err ValueError else
  if negb (existsb (fun b => existsb (in_bin (fst b) (snd b)) (s_frames g)) bins) then Err ValueError else
  if negb (has g "group_extent_density") then Err AttributeError else
  let vars := (filter (has g) sum_vars ++ ["total_flash_area"; "total_group_area"; "average_flash_area"; "average_group_area"]%string
               ++ filter (has g) min_vars)%list in
  Ok (map (fun b => mkInt (fst b) (snd b) vars (bin_value (filter (in_bin (fst b) (snd b)) (s_frames g)))) bins).

(** * open_glm_time_series *)
(** A file of one frame: start and end of its coverage (attributes), its variables. *)
Record imfile := mkFile { if_start : Z; if_end : Z; if_vars : list string; if_at : string -> P -> fval }.
(** imagery.py 663-694: frames in the order of the list; time is the start of each file; the result
    with the two attributes.  [min] of an empty list raises ValueError (open_mfdataset
    raises OSError before; both are failures).  The files have the same variables. *)
Definition open_series (files : list imfile) : res (series * Z * Z) :=
  match files with
  | [] => Err ValueError
  | f0 :: _ => Ok (mkSeries (if_vars f0) (map (fun f => mkFrame (if_start f) (if_at f)) files),
                   zmin_list (map if_start files), zmax_list (map if_end files))
  end.
End Aggregate.
Arguments mkFrame {P}. Arguments fr_time {P}. Arguments fr_at {P}.
Arguments mkSeries {P}. Arguments s_vars {P}. Arguments s_frames {P}.
Arguments mkInt {P}. Arguments iv_left {P}. Arguments iv_right {P}. Arguments iv_vars {P}. Arguments iv_at {P}.
Arguments has {P}. Arguments summed {P}. Arguments in_bin {P}. Arguments bin_value {P}. Arguments aggregate {P}.
Arguments mkFile {P}. Arguments if_start {P}. Arguments if_end {P}. Arguments if_vars {P}. Arguments if_at {P}. Arguments open_series {P}.
