(** Model of the energy spectra of examples/glm-lasso-stats.py (314-324): for every window of
    time a histogram of the flash areas, drawn in a file of its own. *)
From Coq Require Import List ZArith QArith Bool String Ascii.
From Verif Require Import Base FileName FileNameSpec Traversal Glm Points Output PlotFiles LassoTable.
Import ListNotations.
Open Scope string_scope.
Open Scope list_scope.
Open Scope Z_scope.

(** * numpy.histogram with given edges (called at glm-lasso-stats.py 318) *)
(** [sa.searchsorted(x, 'left')] for sorted values: how many are less.  NaN is sorted last. *)
Definition below (vs : list fval) (x : Q) : Z :=
  Z.of_nat (List.length (filter (fun v => match v with Some a => negb (Qle_bool x a) | None => false end) vs)).
(** [sa.searchsorted(x, 'right')]: how many are not greater. *)
Definition upto (vs : list fval) (x : Q) : Z :=
  Z.of_nat (List.length (filter (fun v => match v with Some a => Qle_bool a x | None => false end) vs)).
(** numpy _search_sorted_inclusive (318): 'left' for all edges but the last one. *)
Fixpoint cumulated (vs : list fval) (bins : list Q) : list Z :=
  match bins with [] => [] | [b] => [upto vs b] | b :: r => below vs b :: cumulated vs r end.
(** [np.diff] (318) *)
Fixpoint diffs (l : list Z) : list Z :=
  match l with a :: ((b :: _) as r) => b - a :: diffs r | _ => [] end.
(** [np.any(bin_edges[:-1] > bin_edges[1:])] raises (318). *)
Fixpoint monotone (bins : list Q) : bool :=
  match bins with a :: ((b :: _) as r) => (Qle_bool a b && monotone r)%bool | _ => true end.
(** [histo, edges = np.histogram(flashes['area'], bins=footprint_bin_edges)] (318). *)
Definition histogram (bins : list Q) (vs : list fval) : res (list Z) :=
  if monotone bins then Ok (diffs (cumulated vs bins)) else Err ValueError.

(** * The names *)
(** [t.strftime('%y%m%d%H%M%S')] (319-320) *)
Definition compact_time (d : datetime) : pystr := fmt_time d [Diry; Dirm; Dird; DirH; DirM; DirS].
(** [s.format(a, b)] (319-320).  Fields other than {0} and {1} are all taken to raise; most of
    them do, as KeyError, IndexError or ValueError. *)
Fixpoint format2 (a b s : pystr) : res pystr :=
  match s with
  | [] => Ok []
  | c :: r =>
      if Ascii.eqb c "{" then
        match r with
        | d :: r1 =>
            if Ascii.eqb d "{" then t <- format2 a b r1 ;; Ok ("{"%char :: t)
            else match r1 with
                 | e :: r2 =>
                     if Ascii.eqb e "}" then
                       if Ascii.eqb d "0" then t <- format2 a b r2 ;; Ok (a ++ t)
                       else if Ascii.eqb d "1" then t <- format2 a b r2 ;; Ok (b ++ t)
                       else Err IndexError
                     else Err KeyError
                 | [] => Err ValueError
                 end
        | [] => Err ValueError
        end
      else if Ascii.eqb c "}" then
        match r with
        | d :: r1 => if Ascii.eqb d "}" then t <- format2 a b r1 ;; Ok ("}"%char :: t) else Err ValueError
        | [] => Err ValueError
        end
      else t <- format2 a b r ;; Ok (c :: t)
  end.
(** Lines 316 and 319-320. *)
Definition spectrum_file (outdir : pystr) (e : datetime * datetime) : res pystr :=
  format2 (compact_time (fst e)) (compact_time (snd e)) (join outdir (lit "energy_spectrum_{0}_{1}.pdf")).

(** What plot_energy_from_area_histogram (lmatools) is asked to draw, and where (321-322). *)
Record drawing := mkDrawing { d_path : pystr; d_counts : list Z; d_bins : list Q; d_duration : Q }.

Section Script.
Variable set_order : list Z -> list Z.
Variable junk : nat -> child.
Variable disk : string -> res glmfile.
Variable parent_base : Z -> option Z -> Z.

(** Lines 317-322, one turn of the loop: flashes and the edges of their window. *)
Definition spectrum (outdir : pystr) (bins : list Q) (x : (list child * list parent) * (datetime * datetime)) : res drawing :=
  histo <- histogram bins (map p_area (snd (fst x))) ;;
  file <- spectrum_file outdir (snd x) ;;
  Ok (mkDrawing file histo bins (inject_Z (nanos (snd (snd x)) - nanos (fst (snd x))) / inject_Z 1000000000)%Q).
(** glm-lasso-stats.py 104-165 and 314-324 for the polygons with vertices within [lonr] and [latr]; see
    flash_table.  [bins] are the edges of get_energy_spectrum_bins (lmatools). *)
Definition flash_spectra (names : list string) (t_start : datetime) (edges : list datetime) (lonr latr : Q * Q)
  (lasso : fval -> fval -> fval -> bool) (o : stat_options) (outdir : pystr) (bins : list Q) : res (list drawing) :=
  files <- subset_series set_order junk disk parent_base names (nanos t_start) None
             (collection_query (Some lonr) (Some latr) (from_two (so_events o)) (from_two (so_groups o))) ;;
  let base := parent_base (nanos t_start) None in
  let series := map (filtered (so_area o) (metres (so_alt o)) (so_energy o)) (event_flash_series lasso base edges files) in
  match series with
  | [] => Err ValueError
  | _ => map_res (spectrum outdir bins) (combine series (windows_of edges))
  end.
End Script.
