(** Model of glmtools/plot/grid.py 33-134 (plot_glm_grid) with the table of
    glmtools/plot/values.py 3-60, and of its earlier copy in examples/plot/plots.py 74-156
    (plot_glm).  The map decorations, colours and fonts are left out: a panel is where an image
    is put, the values given to imshow and the text beside it. *)
From Coq Require Import List ZArith QArith Bool String.
From Verif Require Import Base Glm Aggregate.
Import ListNotations.
Open Scope string_scope.
Open Scope list_scope.

(** values.py 5-60: one entry of display_params; the label, the limits of the colour scale and
    the tag for file names.  The format string is left out. *)
Record params := mkParams { p_label : string; p_vmin : Q; p_vmax : Q; p_tag : string }.
(** values.py 26-32: group_extent_density, also used for event_density. *)
Definition group_extent_params : params :=
  mkParams "GOES-16 GLM Group Extent Density (count)" 1 500 "group_extent".
(** values.py 3-60: display_params, in the order of the statements. *)
Definition display_params : list (string * params) :=
  [("flash_centroid_density", mkParams "GOES-16 GLM Flash Centroid Density (count)" 1 10 "flash_centroid");
   ("flash_extent_density", mkParams "GOES-16 GLM Flash Extent Density (count)" 1 50 "flash_extent");
   ("group_centroid_density", mkParams "GOES-16 GLM Group Centroid Density (count)" 1 10 "group_centroid");
   ("group_extent_density", group_extent_params);
   ("event_density", group_extent_params);
   ("total_energy", mkParams "GOES-16 GLM Total Energy (nJ)" (1 # 100000000) (1 # 1000) "total_energy");
   ("average_flash_area", mkParams "GOES-16 GLM Average Flash Area (km$^2$)" 50 5000 "flash_area");
   ("average_group_area", mkParams "GOES-16 GLM Average Group Area (km$^2$)" 50 5000 "group_area");
   ("minimum_flash_area", mkParams "GOES-16 GLM Minimum Flash Area (km$^2$)" 50 5000 "flash_area_min")].
(** grid.py 22: panel_labels. *)
Definition panel_labels : list string := ["a"; "b"; "c"; "d"; "e"; "f"; "g"; "h"; "i"; "j"; "k"; "l"].

(** The dataset given to plot_glm_grid: its coordinates (radians), the height of the satellite
    (attribute of goes_imager_projection) and its images by row and column. *)
Record gridded := mkGridded { gr_x : list Q; gr_y : list Q; gr_height : Q; gr_series : series (nat * nat) }.
(** One panel: the subplot (counted from one), the letter, the label with the time, the extent
    given to imshow (left, right, bottom, top), the shape and the values of the image with
    row 0 on top (origin='upper'), and the maximum printed in the label. *)
Record panel := mkPanel
  { pn_field : string; pn_position : nat; pn_letter : string; pn_label : string; pn_time : Z;
    pn_left : Q; pn_right : Q; pn_bottom : Q; pn_top : Q;
    pn_rows : nat; pn_cols : nat; pn_shown : nat -> nat -> Q; pn_max : Q; pn_vmin : Q; pn_vmax : Q }.

(** [a.min()] of an array (grid.py 41-42, 84-85); ValueError when it is empty. *)
Definition amin (l : list Q) : res Q := match l with [] => Err ValueError | q :: r => Ok (fold_left Qminb r q) end.
(** [a.max()] (grid.py 41-42, 84-85, 99). *)
Definition amax (l : list Q) : res Q := match l with [] => Err ValueError | q :: r => Ok (fold_left Qmaxb r q) end.
(** [display_params[f]] (grid.py 57-60). *)
Definition lookup_params (f : string) : res params := assoc f display_params.
(** [glm_grids[f].sel(time=tidx)] (grid.py 70): the frame of that very time; KeyError without
    the field or the time.  With several frames of that time xarray returns all of them and
    imshow raises TypeError for the third dimension (simplified: also when the image happens to
    be 3 or 4 pixels wide, which imshow takes for colours). *)
Definition select_time (g : series (nat * nat)) (f : string) (t : Z) : res (frame (nat * nat)) :=
  if has g f then
    match filter (fun fr => fr_time fr =? t)%Z (s_frames g) with
    | [] => Err KeyError
    | [fr] => Ok fr
    | _ => Err TypeError
    end
  else Err KeyError.
(** [glm[np.isnan(glm)] = 0] (grid.py 80) for one value. *)
Definition zero_nan (v : fval) : Q := match v with Some q => q | None => 0 end.
(** All values of an image of [rows] by [cols], row by row. *)
Definition image_values (rows cols : nat) (img : nat -> nat -> Q) : list Q :=
  flat_map (fun r => map (fun c => img r c) (seq 0 cols)) (seq 0 rows).

(** grid.py 55-111: the body of the loop for the [i]-th field.  [fig.add_subplot] raises ValueError when the
    layout has no rows, no columns or fewer than [i + 1] places. *)
Definition plot_field (g : gridded) (t : Z) (rows cols : Z) (i : nat) (f : string) : res panel :=
  x <- Ok (map (fun v => v * gr_height g) (gr_x g))%Q ;;
  y <- Ok (map (fun v => v * gr_height g) (gr_y g))%Q ;;
  x0 <- amin x ;; x1 <- amax x ;; y0 <- amin y ;; y1 <- amax y ;;
  p <- lookup_params f ;;
  if (Z.leb rows 0 || Z.leb cols 0 || Z.ltb (rows * cols) (Z.of_nat (S i)))%bool then Err ValueError else
  fr <- select_time (gr_series g) f t ;;
  let nr := List.length y in let nc := List.length x in
  let img := fun r c => zero_nan (fr_at fr f (r, c)) in
  m <- amax (image_values nr nc img) ;;
  match nth_error panel_labels i with
  | None => Err IndexError
  | Some l => Ok (mkPanel f (S i) l (p_label p) t x0 x1 y0 y1 nr nc img m (p_vmin p) (p_vmax p))
  end.
(** grid.py 55: enumerate(fields). *)
Definition enumerate {A} (l : list A) : list (nat * A) := combine (seq 0 (List.length l)) l.
(** grid.py 33-134: plot_glm_grid.  The image is a copy ([.compute().data.copy()]: a DataArray
    always has the method compute), so the dataset is not touched.  Without any field
    [mapax[0]] raises IndexError (grid.py 28, 133). *)
Definition plot_glm_grid (g : gridded) (t : Z) (fields : list string) (rows cols : Z) : res (gridded * list panel) :=
  _ <- amin (gr_x g) ;; _ <- amin (gr_y g) ;;
  ps <- map_res (fun jf => plot_field g t rows cols (fst jf) (snd jf)) (enumerate fields) ;;
  match ps with [] => Err IndexError | _ => Ok (g, ps) end.

(** plots.py 109-113: [glm = glm_grids[f].sel(time=tidx).data; glm[np.isnan(glm)] = 0].  For a
    dataset held in memory [.data] is a view of the variable, so the missing values of that
    image are overwritten in the dataset. *)
Definition fill_frame (t : Z) (f : string) (fr : frame (nat * nat)) : frame (nat * nat) :=
  if (fr_time fr =? t)%Z
  then mkFrame (fr_time fr) (fun v p => if String.eqb v f then Some (zero_nan (fr_at fr v p)) else fr_at fr v p)
  else fr.
(** plots.py 113: the dataset after the assignment for one field. *)
Definition fill_field (t : Z) (f : string) (g : gridded) : gridded :=
  mkGridded (gr_x g) (gr_y g) (gr_height g)
    (mkSeries (s_vars (gr_series g)) (map (fill_frame t f) (s_frames (gr_series g)))).
(** plots.py 96-137: the loop of plot_glm.  Its table (20-61) lacks minimum_flash_area and has other
    labels for the energy, and no letters: both are left out. *)
Definition plot_glm_step (t : Z) (rows cols : Z) (s : gridded * list panel) (jf : nat * string) : res (gridded * list panel) :=
  p <- plot_field (fst s) t rows cols (fst jf) (snd jf) ;;
  Ok (fill_field t (snd jf) (fst s), snd s ++ [p]).
(** plots.py 74-156: plot_glm on a dataset held in memory. *)
Definition plot_glm (g : gridded) (t : Z) (fields : list string) (rows cols : Z) : res (gridded * list panel) :=
  _ <- amin (gr_x g) ;; _ <- amin (gr_y g) ;;
  s <- fold_res (plot_glm_step t rows cols) (enumerate fields) (g, []) ;;
  match snd s with [] => Err IndexError | _ => Ok s end.
