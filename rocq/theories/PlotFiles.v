(** Model of examples/plot/plot_glm_file.py: the images of a series of gridded files, one for
    each time, and the files they are saved to. *)
From Coq Require Import List ZArith QArith Bool Ascii String.
From Verif Require Import Base Glm FileName GridSetup Aggregate Output Plot.
Import ListNotations.
Open Scope Z_scope.
Open Scope list_scope.

(** plot_glm_file.py 19-20: fields_6panel. *)
Definition fields_6panel : list string :=
  ["flash_extent_density"; "average_flash_area"; "total_energy"; "group_extent_density"; "average_group_area"; "group_centroid_density"]%string.

(** Directories and saved images by path; the root and the working directory always exist.  Other files are
    left out. *)
Record gallery := mkGallery { ga_dirs : list path; ga_files : list (path * list panel) }.
(** [os.path.isdir]. *)
Definition ga_is_dir (fs : gallery) (p : path) : bool := match snd p with [] => true | _ => existsb (path_eqb p) (ga_dirs fs) end.
(** The image at a path. *)
Definition ga_lookup (fs : gallery) (p : path) : option (list panel) :=
  match find (fun e => path_eqb p (fst e)) (ga_files fs) with Some e => Some (snd e) | None => None end.
(** [os.path.exists(s)] (plot_glm_file.py 36). *)
Definition ga_exists (fs : gallery) (s : pystr) : bool :=
  match s with [] => false | _ => (ga_is_dir fs (norm s) || match ga_lookup fs (norm s) with Some _ => true | None => false end)%bool end.
(** [os.makedirs(s)] (plot_glm_file.py 37) for a path that does not exist. *)
Definition ga_makedirs (fs : gallery) (s : pystr) : res gallery :=
  match s with
  | [] => Err FileNotFoundError
  | _ => if existsb (fun p => match ga_lookup fs p with Some _ => true | None => false end) (prefixes (norm s)) then Err NotADirectoryError
         else Ok (mkGallery (prefixes (norm s) ++ ga_dirs fs) (ga_files fs))
  end.
(** [fig.savefig(s)] (plot_glm_file.py 48): an existing file is replaced. *)
Definition ga_save (fs : gallery) (s : pystr) (image : list panel) : res gallery :=
  if ga_is_dir fs (norm s) then Err OSError else
  if negb (ga_is_dir fs (norm (dirname s))) then Err FileNotFoundError else
  Ok (mkGallery (ga_dirs fs) ((norm s, image) :: ga_files fs)).

(** [os.path.join(a, b)] for a [b] that does not start with a slash (plot_glm_file.py 35, 44). *)
Definition join (a b : pystr) : pystr :=
  match rev a with
  | [] => b
  | c :: _ => if Ascii.eqb c "/" then a ++ b else a ++ "/"%char :: b
  end.
(** [%b] in the C locale. *)
Definition month_abbr (m : Z) : pystr :=
  lit (nth (Z.to_nat (m - 1)) ["Jan"; "Feb"; "Mar"; "Apr"; "May"; "Jun"; "Jul"; "Aug"; "Sep"; "Oct"; "Nov"; "Dec"]%string ""%string).
(** ['20%s' % t.strftime('%y/%b/%d')] (plot_glm_file.py 35). *)
Definition day_text (d : datetime) : pystr :=
  lit "20" ++ pad 2 (dt_year d mod 100) ++ "/"%char :: month_abbr (fst (date_of d)) ++ "/"%char :: pad 2 (snd (date_of d)).
(** plot_glm_file.py 40-43. *)
Definition png_name (d : datetime) : pystr :=
  lit "satellite.GOES-16." ++ (pad 4 (dt_year d) ++ pad 2 (fst (date_of d)) ++ pad 2 (snd (date_of d)) ++ pad 2 (dt_hour d) ++ pad 2 (dt_min d))
  ++ lit ".GLM_fed_afa_toe_ged_aga_gcd.png".
(** [.replace(' ', '_').replace(':', '')] (plot_glm_file.py 45-46). *)
Definition tidy (s : pystr) : pystr :=
  filter (fun c => negb (Ascii.eqb c ":")) (map (fun c => if Ascii.eqb c " " then "_"%char else c) s).

(** [time_options.sort_values()] (plot_glm_file.py 27-28). *)
Fixpoint insert_time (t : Z) (l : list Z) : list Z :=
  match l with [] => [t] | u :: r => if t <=? u then t :: l else u :: insert_time t r end.
(** The times of the series in order. *)
Definition sorted_times (l : list Z) : list Z := fold_right insert_time [] l.

Section Script.
(** The date and time of an instant. *)
Variable stamp : Z -> datetime.
Variable outdir : pystr.
(** The body of the loop, plot_glm_file.py 32-48.  The data are taken as held in memory. *)
Definition save_one (g : gridded) (fs : gallery) (t : Z) : res (gridded * gallery * pystr) :=
  gp <- plot_glm g t fields_6panel 2 3 ;;
  let outpath := join outdir (day_text (stamp t)) in
  fs1 <- (if ga_exists fs outpath then Ok fs else ga_makedirs fs outpath) ;;
  let outfile := tidy (join outpath (png_name (stamp t))) in
  fs2 <- ga_save fs1 outfile (snd gp) ;;
  Ok (fst gp, fs2, outfile).
(** plot_glm_file.py 32-48: the loop. *)
Fixpoint save_all (g : gridded) (fs : gallery) (ts : list Z) : res (gridded * gallery * list pystr) :=
  match ts with
  | [] => Ok (g, fs, [])
  | t :: r =>
      s <- save_one g fs t ;;
      let '(g1, fs1, out) := s in
      s2 <- save_all g1 fs1 r ;;
      let '(g2, fs2, outs) := s2 in
      Ok (g2, fs2, out :: outs)
  end.
(** plot_glm_file.py 24-48, after the files are opened. *)
Definition plot_files (g : gridded) (fs : gallery) : res (gridded * gallery * list pystr) :=
  save_all g fs (sorted_times (map fr_time (s_frames (gr_series g)))).
End Script.
