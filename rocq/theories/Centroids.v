(** Model of the figure of flash locations of examples/glm-lasso-stats.py (167-199). *)
From Coq Require Import List ZArith QArith Bool String.
From Verif Require Import Base FileName Glm Points GridSetup Output PlotFiles LassoTable Spectra.
Import ListNotations.
Open Scope Z_scope.

(** [min] (193) *)
Definition least (l : list Q) : res Q :=
  match l with [] => Err ValueError | a :: r => Ok (fold_left (fun m x => if Qle_bool m x then m else x) r a) end.
(** [max] (194) *)
Definition greatest (l : list Q) : res Q :=
  match l with [] => Err ValueError | a :: r => Ok (fold_left (fun m x => if Qle_bool x m then m else x) r a) end.
(** The file, the ends of the color scale, and the points of every call of scatter (186): longitude,
    latitude, and the value that is shown as color.  Labels, title and sizes are left out. *)
Record centroid_figure := mkCentroids { cf_path : pystr; cf_low : Q; cf_high : Q; cf_points : list (list (fval * fval * fval)) }.
(** Lines 185-188 *)
Definition scatter (flashes : list parent) : list (fval * fval * fval) :=
  map (fun p => (p_init_lon p, p_init_lat p, p_start p)) flashes.
(** Lines 197-199 *)
Definition centroid_file (outdir : pystr) (t_start t_end : datetime) : pystr :=
  join outdir (lit "flash_ctr_" ++ compact_time t_start ++ lit "_" ++ compact_time t_end ++ lit ".png").

Section Script.
Variable set_order : list Z -> list Z.
Variable junk : nat -> child.
Variable disk : string -> res glmfile.
Variable parent_base : Z -> option Z -> Z.
(** glm-lasso-stats.py 104-165 and 193-199; see flash_table.  [t_start] and [t_end] are the first and the last
    edge of the polygons (111). *)
Definition flash_centroids (names : list string) (t_start t_end : datetime) (edges : list datetime) (lonr latr : Q * Q)
  (lasso : fval -> fval -> fval -> bool) (o : stat_options) (outdir : pystr) : res centroid_figure :=
  files <- subset_series set_order junk disk parent_base names (nanos t_start) None
             (collection_query (Some lonr) (Some latr) (from_two (so_events o)) (from_two (so_groups o))) ;;
  let base := parent_base (nanos t_start) None in
  let series := map (filtered (so_area o) (metres (so_alt o)) (so_energy o)) (event_flash_series lasso base edges files) in
  match series with
  | [] => Err ValueError
  | _ =>
    low <- least (map (edge_seconds base) edges) ;;
    high <- greatest (map (edge_seconds base) edges) ;;
    Ok (mkCentroids (centroid_file outdir t_start t_end) low high (map (fun w => scatter (snd w)) series))
  end.
End Script.
