(** Model of the variables that tell where the pixels of an image are: the projection, the
    satellite subpoint and the data quality flags (glmtools/io/imagery.py 88-163, 363-400,
    481-483) and of the angles that a data file is given when it is opened
    (glmtools/io/glm.py 545-576).  Exact real numbers for binary64. *)
From Coq Require Import List ZArith Bool String Reals.
From Verif Require Import Base FileName Ellipse.
Import ListNotations.
Open Scope string_scope.
Open Scope list_scope.
Open Scope R_scope.

(** imagery.py 120-129: the attributes of goes_imager_projection that are numbers, and the
    sweep axis; long_name and grid_mapping_name ("geostationary") are left out. *)
Record projection := mkProj
  { pr_height : R; pr_major : R; pr_minor : R; pr_inverse_flattening : R;
    pr_lat_origin : R; pr_lon_origin : R; pr_sweep : string }.
(** imagery.py 116-136 *)
Definition get_goes_imager_proj (nadir_lon : R) : projection :=
  mkProj 35786023 6378137 (635675231414 / 100000) (2982572221 / 10000000) 0 nadir_lon "x".
(** imagery.py 88-114: subpoint_lon, subpoint_lat. *)
Definition get_goes_imager_subpoint_vars (nadir_lon : R) : R * R := (nadir_lon, 0).
(** imagery.py 138-163: flag_values, number_of_qf_values and the flags, one for every pixel;
    the two numbers of [n] are rows and columns. *)
Record quality := mkQuality { q_number : Z; q_values : list Z; q_flags : list (list Z) }.
(** imagery.py 147-151: np.zeros. *)
Definition get_goes_imager_all_valid_dqf (rows cols : nat) : quality :=
  mkQuality 6 [0%Z; 1%Z] (repeat (repeat 0%Z cols) rows).

(** The variables that new_goes_imagery_dataset gives every file besides the fields. *)
Record georef := mkGeoref
  { gr_proj : projection; gr_subpoint : R * R; gr_quality : quality; gr_x : list R; gr_y : list R }.
(** imagery.py 363-400, without scene and resolution (Imagery.v, Output.v). *)
Definition new_goes_imagery_dataset (x y : list R) (nadir_lon : R) : georef :=
  mkGeoref (get_goes_imager_proj nadir_lon) (get_goes_imager_subpoint_vars nadir_lon)
    (get_goes_imager_all_valid_dqf (List.length y) (List.length x)) x y.
(** imagery.py 481-483, 507-508: the longitude comes from the coordinate systems of the
    gridder (lmatools): [subpoint lon] is the longitude that geoProj.fromECEF gives for the
    point (0, 0) of the fixed grid of a satellite at [lon]. *)
Definition image_georef (subpoint : R -> R) (run_nadir : R) (x y : list R) : georef :=
  new_goes_imagery_dataset x (rev y) (subpoint run_nadir).

(** What glm.py 545-576 reads from an opened file: longitude of the satellite
    (lon_field_of_view), time of the product, positions (longitude, latitude). *)
Record datafile := mkData
  { df_nadir : R; df_time : datetime; df_events : list (R * R); df_groups : list (R * R); df_flashes : list (R * R) }.
(** glm.py 560-576 with lightning_ellipse.py 68-133 on arrays: x and y of every position. *)
Definition navigate (nadir : R) (rev : Z) (places : list (R * R)) : res (list (R * R)) :=
  _ <- lightning_ellipse_rev rev ;;
  map_res (fun ll => ltg_ellps_lon_lat_to_fixed_grid (fst ll) (snd ll) nadir rev) places.
(** glm.py 545-576: x and y of events, groups and flashes. *)
Definition init_fixed_grid_data (ellipse_rev : Z) (f : datafile)
  : res (list (R * R) * list (R * R) * list (R * R)) :=
  let rev := dataset_ellipse_rev ellipse_rev (df_time f) in
  ev <- navigate (df_nadir f) rev (df_events f) ;;
  gr <- navigate (df_nadir f) rev (df_groups f) ;;
  fl <- navigate (df_nadir f) rev (df_flashes f) ;;
  Ok (ev, gr, fl).
