(** Model of the table of flash statistics (flash_stats.csv) of examples/glm-lasso-stats.py
    (57-69, 104-165, 223-266): the flashes of some files within moving polygons, in windows of
    time. *)
From Coq Require Import List ZArith QArith Bool String Ascii.
From Verif Require Import Base FileName FileNameSpec Traversal Glm Points Output.
Import ListNotations.
Open Scope string_scope.
Open Scope list_scope.
Open Scope Z_scope.

(** Nanoseconds of a datetime, counted as the times in the files are. *)
Definition nanos (d : datetime) : Z := 1000 * instant d.
(** [(t - base_date).total_seconds()] (the t_edges_seconds of lmatools, used at
    glm-lasso-stats.py 193-194 and 282). *)
Definition edge_seconds (base : Z) (d : datetime) : Q := (inject_Z (nanos d - base) / inject_Z 1000000000)%Q.
(** lmatools (assumed, called at mimic_lma.py 1096): an element belongs to the window when its
    time is at or after the first edge and before the second. *)
Definition in_window (lo hi : Q) (t : fval) : bool :=
  match t with Some x => (Qle_bool lo x && negb (Qle_bool hi x))%bool | None => false end.
(** The windows between edges, [zip(t_edges[:-1], t_edges[1:])]. *)
Definition windows_of {A} (edges : list A) : list (A * A) := combine edges (tl edges).
(** mimic_lma.py 1094-1102, gen_chopped_events_flashes, for one file and one window. *)
Definition chopped (lasso : fval -> fval -> fval -> bool) (lo hi : Q) (w : list child * list parent) : list child * list parent :=
  lasso_window lasso (filter (fun c => in_window lo hi (c_time c)) (fst w), filter (fun p => in_window lo hi (p_start p)) (snd w)).
(** get_event_flash_time_series of lmatools (assumed, called at glm-lasso-stats.py 134): for
    every window the data of all files, joined. *)
Definition event_flash_series (lasso : fval -> fval -> fval -> bool) (base : Z) (edges : list datetime)
  (files : list (list child * list parent)) : list (list child * list parent) :=
  map (fun e => let ws := map (chopped lasso (edge_seconds base (fst e)) (edge_seconds base (snd e))) files in
         (List.concat (map fst ws), List.concat (map snd ws))) (windows_of edges).

(** glm-lasso-stats.py 64-69: a minimum below two is none. *)
Definition from_two (m : Z) : option Z := if m <? 2 then None else Some m.
(** The options of the script (57-69): minimum and maximum of area (km^2), altitude (km) and energy,
    minimum of events and of groups. *)
Record stat_options := mkOpts { so_area : Q * Q; so_alt : Q * Q; so_energy : Q * Q; so_events : Z; so_groups : Z }.
(** Lines 59-60: kilometres to metres. *)
Definition metres (r : Q * Q) : Q * Q := (fst r * 1000, snd r * 1000)%Q.

(** The fields of one record: texts by name, as [format] writes them. *)
Definition stat_record := list (string * pystr).
(** [stats[k]] *)
Fixpoint stat_field (k : string) (r : stat_record) : res pystr :=
  match r with [] => Err ValueError | (k', v) :: r' => if String.eqb k' k then Ok v else stat_field k r' end.
(** Line 244-245: [append_fields] with the ends of the window as texts. *)
Definition with_times (r : stat_record) (e : datetime * datetime) : stat_record :=
  r ++ [("start_isoformat", isoformat (fst e)); ("end_isoformat", isoformat (snd e))].
(** Lines 250-251 *)
Definition stat_keys : list string :=
  ["start_isoformat"; "end_isoformat"; "number"; "mean"; "variance"; "skewness"; "kurtosis"; "energy";
   "energy_per_flash"; "total_energy"; "specific_energy"].
(** Line 252 *)
Definition stat_header : pystr :=
  lit "# start_isoformat, end_isoformat, number, mean, variance, skewness, kurtosis, energy, energy_per_flash, total_energy, specific_energy" ++ ["010"%char].
(** Line 253: the template *)
Fixpoint comma_joined (l : list pystr) : pystr :=
  match l with [] => [] | [x] => x | x :: r => x ++ lit ", " ++ comma_joined r end.
(** Lines 258-260 *)
Definition stat_line (r : stat_record) : res pystr :=
  vs <- map_res (fun k => stat_field k r) stat_keys ;; Ok (comma_joined vs ++ ["010"%char]).
(** Lines 249-261: write_size_stat_data *)
Definition stat_text (rs : list stat_record) : res pystr :=
  ls <- map_res stat_line rs ;; Ok (stat_header ++ List.concat ls).

Section Script.
Variable set_order : list Z -> list Z.
Variable junk : nat -> child.
Variable disk : string -> res glmfile.
Variable parent_base : Z -> option Z -> Z.
(** flash_size_stats of lmatools: the statistics of the flashes of a window. *)
Variable size_stats : list parent -> stat_record.

(** glm-lasso-stats.py 104-266 for the polygons with vertices within [lonr] and [latr] (106-109) and
    mask [lasso]; [t_start] is the first edge of the polygons, [edges] those of the windows.
    Without windows the unpacking at 165 fails.  Left out: the drawing and the profiles by
    altitude. *)
Definition flash_table (names : list string) (t_start : datetime) (edges : list datetime) (lonr latr : Q * Q)
  (lasso : fval -> fval -> fval -> bool) (o : stat_options) : res pystr :=
  files <- subset_series set_order junk disk parent_base names (nanos t_start) None
             (collection_query (Some lonr) (Some latr) (from_two (so_events o)) (from_two (so_groups o))) ;;
  let base := parent_base (nanos t_start) None in
  let series := map (filtered (so_area o) (metres (so_alt o)) (so_energy o)) (event_flash_series lasso base edges files) in
  match series with
  | [] => Err ValueError
  | _ => stat_text (map (fun x => with_times (size_stats (snd (fst x))) (snd x)) (combine series (windows_of edges)))
  end.
End Script.
