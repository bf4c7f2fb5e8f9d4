(** Model of the metadata, the paths and the reading back of gridded imagery:
    glmtools/io/imagery.py 166-313 (coordinates, global attributes), 363-400
    (new_goes_imagery_dataset), 425-455 (infer_scene_from_dataset, resolution), 457-569
    (write_goes_imagery with its outpath) and 663-694 (open_glm_time_series).  The fields
    themselves are those of Imagery.v. *)
From Coq Require Import List ZArith QArith Qabs Bool Ascii String.
From Verif Require Import Base Glm Lut FileName FileNameSpec GridSetup Imagery Aggregate.
Import ListNotations.
Open Scope Z_scope.

(** * Coordinates *)
(** imagery.py 186-212: scale_factor and add_offset of x and y, the same for every scene
    and resolution; int16, _FillValue -999. *)
Definition x_enc : Q * Q := (56 # 1000000, -151844 # 1000000)%Q.
(** imagery.py 186-212: the same for y. *)
Definition y_enc : Q * Q := (-56 # 1000000, 151844 # 1000000)%Q.
(** Conversion to int16 keeps the low 16 bits. *)
Definition int16 (z : Z) : Z := (z + 32768) mod 65536 - 32768.
(** xarray's packing of a coordinate and its inverse; arithmetic is exact here. *)
Definition pack_coord (enc : Q * Q) (v : Q) : Z := int16 (round_even ((v - snd enc) / fst enc)).
(** The coordinate read for a code. *)
Definition unpack_coord (enc : Q * Q) (code : Z) : fval :=
  if code =? -999 then None else Some (inject_Z code * fst enc + snd enc)%Q.

(** * Text *)
(** [s.replace('.0', '')] *)
Fixpoint remove_dot0 (s : pystr) : pystr :=
  match s with
  | [] => []
  | c :: r => match r with
              | z :: r' => if (Ascii.eqb c "." && Ascii.eqb z "0")%bool then remove_dot0 r' else c :: remove_dot0 r
              | [] => [c]
              end
  end.
(** ['{:d}'.format(n)] for n >= 0; [fuel] is at least the number of digits. *)
Fixpoint dec (fuel : nat) (n : Z) : pystr :=
  match fuel with
  | O => []
  | S k => if n <? 10 then [digit n] else dec k (n / 10) ++ [digit (n mod 10)]
  end.
(** ['{:d}'.format(n)] (imagery.py 431-435). *)
Definition int_text (n : Z) : pystr := dec (S (Z.to_nat (Z.log2 n))) n.
(** Month and day of the month of a day of the year. *)
Fixpoint month_day (days : list Z) (m j : Z) : Z * Z :=
  match days with
  | [] => (m, j)
  | n :: r => if j <=? n then (m, j) else month_day r (m + 1) (j - n)
  end.
(** Month and day of a datetime. *)
Definition date_of (d : datetime) : Z * Z := month_day (month_days (dt_year d)) 1 (dt_yday d).
(** [d.isoformat()] *)
Definition isoformat (d : datetime) : pystr :=
  pad 4 (dt_year d) ++ lit "-" ++ pad 2 (fst (date_of d)) ++ lit "-" ++ pad 2 (snd (date_of d)) ++ lit "T"
  ++ pad 2 (dt_hour d) ++ lit ":" ++ pad 2 (dt_min d) ++ lit ":" ++ pad 2 (dt_sec d)
  ++ (if dt_us d =? 0 then [] else lit "." ++ pad 6 (dt_us d)).
(** [pd.Timestamp(s).tz_localize(None)] for the texts written here: as isoformat, with six
    or no decimals, and Z; others are rejected.  Years that do not fit in 64 bits of
    nanoseconds are out of bounds (the first and last year, which fit in part, are left
    out). *)
Definition timestamp (s : pystr) : res datetime :=
  d <- strptime_iso (firstn 19 s) ;;
  us <- match skipn 19 s with
        | [c] => if Ascii.eqb c "Z" then Ok 0 else Err ValueError
        | c :: r => if negb (Ascii.eqb c ".") then Err ValueError else
                    match match_alt [d09; d09; d09; d09; d09; d09] 0 r with
                    | Some (v, [z]) => if Ascii.eqb z "Z" then Ok v else Err ValueError
                    | _ => Err ValueError
                    end
        | [] => Err ValueError
        end ;;
  if (dt_year d <? 1678) || (2261 <? dt_year d) then Err ValueError
  else Ok (mkDT (dt_year d) (dt_yday d) (dt_hour d) (dt_min d) (dt_sec d) us).

(** * Paths *)
(** A path is the list of its components without "." and empty ones; whether it starts at
    the root.  ".." is not modelled. *)
Fixpoint split_slash (s : pystr) : list pystr :=
  match s with
  | [] => [[]]
  | c :: r => if Ascii.eqb c "/" then [] :: split_slash r
              else match split_slash r with [] => [[c]] | h :: t => (c :: h) :: t end
  end.
(** Components of a path that are dropped. *)
Definition trivial_part (p : pystr) : bool := match p with [] => true | [c] => Ascii.eqb c "." | _ => false end.
(** A normalised path (rooted or not, components). *)
Definition path := (bool * list pystr)%type.
(** What the operating system makes of the text of a path. *)
Definition norm (s : pystr) : path :=
  (match s with c :: _ => Ascii.eqb c "/" | [] => false end, filter (fun p => negb (trivial_part p)) (split_slash s)).
(** Equality of paths. *)
Definition path_dec : forall a b : path, {a = b} + {a <> b}.
Proof. decide equality; [apply list_eq_dec, list_eq_dec, Ascii.ascii_dec | apply Bool.bool_dec]. Defined.
(** The same as a boolean. *)
Definition path_eqb (a b : path) : bool := if path_dec a b then true else false.
(** [os.path.dirname]: up to the last slash, without the slashes at its end unless there
    is nothing else. *)
Fixpoint rstrip_slash (s : pystr) : pystr :=
  match s with
  | [] => []
  | c :: r => match rstrip_slash r with [] => if Ascii.eqb c "/" then [] else [c] | t => c :: t end
  end.
(** The text up to and including the last slash. *)
Fixpoint upto_slash (s : pystr) : pystr :=
  match s with
  | [] => []
  | c :: r => match upto_slash r with [] => if Ascii.eqb c "/" then [c] else [] | t => c :: t end
  end.
(** [os.path.dirname] (imagery.py 524). *)
Definition dirname (s : pystr) : pystr :=
  let h := upto_slash s in match rstrip_slash h with [] => h | t => t end.

(** Templates: str.format with the three names of imagery.py 522; the directives of
    strftime that are modelled. *)
Inductive directive := DirY | Diry | Dirm | Dirb | Dird | DirH | DirM | DirS | Dirj | DirText (s : pystr).
(** [%b] in the C locale. *)
Definition month_abbr (m : Z) : pystr :=
  nth (Z.to_nat (m - 1)) (map lit ["Jan"; "Feb"; "Mar"; "Apr"; "May"; "Jun"; "Jul"; "Aug"; "Sep"; "Oct"; "Nov"; "Dec"]%string) [].
(** Pieces of a template: text, {dataset_name}, {start_time:...}, {end_time:...}
    (imagery.py 522). *)
Inductive piece := PText (s : pystr) | PName | PStart (f : list directive) | PEnd (f : list directive).
(** One directive of strftime. *)
Definition fmt_directive (d : datetime) (x : directive) : pystr :=
  match x with
  | DirY => pad 4 (dt_year d) | Diry => pad 2 (dt_year d mod 100) | Dirb => month_abbr (fst (date_of d)) | Dirj => pad 3 (dt_yday d) | Dirm => pad 2 (fst (date_of d)) | Dird => pad 2 (snd (date_of d))
  | DirH => pad 2 (dt_hour d) | DirM => pad 2 (dt_min d) | DirS => pad 2 (dt_sec d) | DirText s => s
  end.
(** ['{:...}'.format(d)] of a datetime. *)
Definition fmt_time (d : datetime) (f : list directive) : pystr := flat_map (fmt_directive d) f.
(** [outpath.format(start_time=..., end_time=..., dataset_name=...)] (imagery.py 522).
    *)
Definition format_path (outpath : list piece) (start end_ : datetime) (name : pystr) : pystr :=
  flat_map (fun p => match p with PText s => s | PName => name | PStart f => fmt_time start f | PEnd f => fmt_time end_ f end) outpath.
(** The default, './{dataset_name}'. *)
Definition default_outpath : list piece := [PText (lit "./"); PName].

(** * Files *)
(** The global attributes that vary (imagery.py 267-313). *)
Record attrs := mkAttrs
  { at_name : pystr; at_created : pystr; at_instrument : pystr; at_slot : pystr; at_platform : pystr;
    at_scene : pystr; at_resolution : pystr; at_end : pystr; at_start : pystr }.
(** A written file: the content of Imagery.v, attributes, codes of the coordinates. *)
Record ncfile := mkNc { nc_out : outfile; nc_attrs : attrs; nc_x : list Z; nc_y : list Z }.
(** A file system: directories and files by path; the root and the working directory
    always exist. *)
Record fsys := mkFs { fs_dirs : list path; fs_files : list (path * ncfile) }.
(** [os.path.isdir]. *)
Definition is_dir (fs : fsys) (p : path) : bool := match snd p with [] => true | _ => existsb (path_eqb p) (fs_dirs fs) end.
(** The file at a path. *)
Definition lookup (fs : fsys) (p : path) : option ncfile :=
  match find (fun e => path_eqb p (fst e)) (fs_files fs) with Some e => Some (snd e) | None => None end.
(** [os.path.exists(s)]: false for the empty text. *)
Definition exists_ (fs : fsys) (s : pystr) : bool :=
  match s with [] => false | _ => is_dir fs (norm s) || match lookup fs (norm s) with Some _ => true | None => false end end.
(** [os.makedirs(s)] for a path that does not exist. *)
Definition prefixes (p : path) : list path := map (fun k => (fst p, firstn k (snd p))) (seq 1 (List.length (snd p))).
(** [os.makedirs(s)] (imagery.py 525-526). *)
Definition makedirs (fs : fsys) (s : pystr) : res fsys :=
  match s with
  | [] => Err FileNotFoundError
  | _ => if existsb (fun p => match lookup fs p with Some _ => true | None => false end) (prefixes (norm s)) then Err NotADirectoryError
         else Ok (mkFs (prefixes (norm s) ++ fs_dirs fs) (fs_files fs))
  end.
(** [dataset.to_netcdf(s)] *)
Definition to_netcdf (fs : fsys) (s : pystr) (f : ncfile) : res fsys :=
  if is_dir fs (norm s) then Err OSError else
  if negb (is_dir fs (norm (dirname s))) then Err OSError else
  Ok (mkFs (fs_dirs fs) ((norm s, f) :: fs_files fs)).

Section Write.
Variables (gd : gridder) (xs ys : pyslice) (scaled : bool) (sc : scenes).
(** lmatools' goesr_resolutions, in the order of the dictionary; the attributes of the
    first file of lightning data. *)
Variable resolutions : list (string * Q).
Variables (slot instrument : pystr).
Variable outpath : list piece.
Variable stamp : Q -> datetime.

(** imagery.py 431-435: the last match counts. *)
Definition resolution (x : list Q) : res pystr :=
  match x with
  | x0 :: x1 :: _ =>
      let dx := Qabs (x1 - x0) in
      Ok (fold_left (fun acc kr => if allclose (snd kr) dx then remove_dot0 (lit (fst kr)) ++ lit " at nadir" else acc)
            resolutions (int_text (round_even (dx * 1000000)) ++ lit "microradian at nadir"))
  | _ => Err IndexError
  end.
(** imagery.py 265-269 *)
Definition scene_name (scene : string) : res pystr :=
  if String.eqb scene "FULL" then Ok (lit "Full Disk")
  else if String.eqb scene "CONUS" then Ok (lit "CONUS")
  else if String.eqb scene "MESO1" then Ok (lit "Mesoscale")
  else if String.eqb scene "MESO2" then Ok (lit "Mesoscale")
  else if String.eqb scene "OTHER" then Ok (lit "Custom")
  else Err KeyError.
(** imagery.py 234-313; attributes that are the same in all files are left out. *)
Definition global_attrs (start end_ now : datetime) (scene : string) (res_text : pystr) : res attrs :=
  name <- dataset_name start end_ now (gd_platform gd) scene "ABI Mode 3"%string ;;
  sn <- scene_name scene ;;
  Ok (mkAttrs name (isoformat now ++ lit "Z") instrument slot (gd_platform gd) sn res_text
        (isoformat end_ ++ lit "Z") (isoformat start ++ lit "Z")).

(** Body of the loop, imagery.py 498-568. *)
Definition write_one (now : datetime) (st : list array3) (fs : fsys) (t : nat) (t0 t1 : Q) : res (list array3 * fsys * pystr) :=
  let x := slice_list xs (centers (gd_xedge gd)) in
  let y := rev (slice_list ys (centers (gd_yedge gd))) in
  let start := stamp t0 in let end_ := stamp t1 in
  rtext <- resolution x ;;
  scene <- infer_scene sc x y ;;
  a <- global_attrs start end_ now scene rtext ;;
  let outfile := format_path outpath start end_ (at_name a) in
  fs1 <- (if exists_ fs (dirname outfile) then Ok fs else makedirs fs (dirname outfile)) ;;
  let n := Nat.min (List.length st) (List.length (gd_names gd)) in
  st' <- fold_res (write_field gd xs ys scaled t) (seq 0 n) st ;;
  let content := mkOut (at_name a) x y
    (map (fun ng => (fst ng, map (map (stored (scaling_of scaled (fst ng)))) (image xs ys t (snd ng)))) (combine (gd_names gd) st')) in
  fs2 <- to_netcdf fs1 outfile (mkNc content a (map (pack_coord x_enc) x) (map (pack_coord y_enc) y)) ;;
  Ok (st', fs2, outfile).
(** The loop over consecutive time edges (imagery.py 498-569). *)
Fixpoint write_loop (nows : nat -> datetime) (st : list array3) (fs : fsys) (t : nat) (edges : list Q) : res (list array3 * fsys * list pystr) :=
  match edges with
  | t0 :: ((t1 :: _) as rest) =>
      so <- write_one (nows t) st fs t t0 t1 ;;
      r <- write_loop nows (fst (fst so)) (snd (fst so)) (S t) rest ;;
      Ok (fst r, snd so :: snd r)
  | _ => Ok (st, fs, [])
  end.
(** The call: arrays and file system afterwards, and the paths it returns. *)
Definition write_imagery (nows : nat -> datetime) (outgrids : list array3) (fs : fsys) : res (list array3 * fsys * list pystr) :=
  write_loop nows outgrids fs 0 (gd_tedges gd).
End Write.

(** * open_glm_time_series *)
(** [xr.open_dataset(s)] (imagery.py 663-668, 686). *)
Definition open_file (fs : fsys) (s : pystr) : res ncfile :=
  match lookup fs (norm s) with Some f => Ok f | None => Err FileNotFoundError end.
(** What is read of a field at row, column. *)
Definition field_at (f : ncfile) (v : string) (p : nat * nat) : fval :=
  match find (fun e => String.eqb (fst e) v) (of_fields (nc_out f)) with
  | Some e => nth (snd p) (nth (fst p) (snd e) []) None
  | None => None
  end.
(** Whether two files have the same coordinates. *)
Definition coords_eqb (f g : ncfile) : bool :=
  (if list_eq_dec Z.eq_dec (nc_x f) (nc_x g) then true else false) && (if list_eq_dec Z.eq_dec (nc_y f) (nc_y g) then true else false).
(** imagery.py 663-694.  Files with other coordinates than the first would be aligned by xarray; they
    are rejected here. *)
Definition open_glm_time_series (fs : fsys) (paths : list pystr) : res (series (nat * nat) * Z * Z) :=
  starts <- map_res (fun p => f <- open_file fs p ;; timestamp (at_start (nc_attrs f))) paths ;;
  ends <- map_res (fun p => f <- open_file fs p ;; timestamp (at_end (nc_attrs f))) paths ;;
  files <- map_res (open_file fs) paths ;;
  match files with
  | [] => Err OSError
  | f0 :: _ =>
      if negb (forallb (coords_eqb f0) files) then Err ValueError else
      open_series (map (fun fse => let '(f, s, e) := fse in mkFile (instant s) (instant e) (map fst (of_fields (nc_out f))) (field_at f))
                     (combine (combine files starts) ends))
  end.
