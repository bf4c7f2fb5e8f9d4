(** Model of the example driver examples/grid/make_GLM_grids.py for GLM files:
    nearest_resolution (137-146) and grid_setup (148-320) up to the arguments of the
    gridding function.  Not modelled: --lma, the names of writers and paths.  Numbers are
    exact. *)
From Coq Require Import List ZArith QArith Qround Qabs Bool Ascii String.
From Verif Require Import Base Glm Lut FileName Tiles.
Import ListNotations.
Open Scope Z_scope.

(** * Times *)
(** Character classes of the regular expressions of _strptime.py for
    '%Y-%m-%dT%H:%M:%S': a digit in a range, or a character whatever its case. *)
Inductive cls := Dig (lo hi : Z) | Chr (c : ascii).
(** Lower case of an ASCII letter (the expressions ignore case). *)
Definition lower (c : ascii) : ascii :=
  let n := N_of_ascii c in if ((65 <=? n) && (n <=? 90))%N then ascii_of_N (n + 32) else c.
(** Match of one alternative, with the number its digits make. *)
Fixpoint match_cls (a : list cls) (acc : Z) (s : pystr) : option (Z * pystr) :=
  match a with
  | [] => Some (acc, s)
  | k :: a' =>
      match s with
      | [] => None
      | c :: r =>
          match k with
          | Dig lo hi => match digit_val c with
                         | Some d => if (lo <=? d) && (d <=? hi) then match_cls a' (acc * 10 + d) r else None
                         | None => None
                         end
          | Chr x => if Ascii.eqb (lower x) (lower c) then match_cls a' acc r else None
          end
      end
  end.
(** As [re_match]: the first alternative for which the rest matches. *)
Fixpoint iso_match (re : list (list (list cls))) (s : pystr) : option (list Z * pystr) :=
  match re with
  | [] => Some ([], s)
  | alts :: re' =>
      first_some (fun a => match match_cls a 0 s with
                           | Some (v, r) => match iso_match re' r with
                                            | Some (vs, r') => Some (v :: vs, r')
                                            | None => None end
                           | None => None end) alts
  end.
(** Any digit. *)
Definition D09 := Dig 0 9.
(** %Y *)
Definition iso_Y := [[D09; D09; D09; D09]].
(** %m *)
Definition iso_m := [[Dig 1 1; Dig 0 2]; [Dig 0 0; Dig 1 9]; [Dig 1 9]].
(** %d *)
Definition iso_d := [[Dig 3 3; Dig 0 1]; [Dig 1 2; D09]; [Dig 0 0; Dig 1 9]; [Dig 1 9]; [Chr " "; Dig 1 9]].
(** %H *)
Definition iso_H := [[Dig 2 2; Dig 0 3]; [Dig 0 1; D09]; [D09]].
(** %M *)
Definition iso_M := [[Dig 0 5; D09]; [D09]].
(** %S *)
Definition iso_S := [[Dig 6 6; Dig 0 1]; [Dig 0 5; D09]; [D09]].
(** A literal character. *)
Definition iso_c (c : ascii) := [[Chr c]].
(** The whole format, '%Y-%m-%dT%H:%M:%S' (make_GLM_grids.py 187, 191). *)
Definition iso_re := [iso_Y; iso_c "-"; iso_m; iso_c "-"; iso_d; iso_c "T"; iso_H; iso_c ":"; iso_M; iso_c ":"; iso_S].

(** Days of the months and day of the year. *)
Definition month_days (y : Z) : list Z :=
  [31; (if leap y then 29 else 28); 31; 30; 31; 30; 31; 31; 30; 31; 30; 31].
(** Days of the year before a month. *)
Definition days_before_month (y m : Z) : Z := fold_left Z.add (firstn (Z.to_nat (m - 1)) (month_days y)) 0.
(** [datetime(y, m, d, h, mi, s)]: ValueError for a day the month does not have. *)
Definition make_datetime (y m d h mi s : Z) : res datetime :=
  if (y <? 1) || (9999 <? y) then Err ValueError
  else if d <=? nth (Z.to_nat (m - 1)) (month_days y) 0
       then if 59 <? s then Err ValueError else Ok (mkDT y (days_before_month y m + d) h mi s 0)
       else Err ValueError.
(** [datetime.strptime(s, '%Y-%m-%dT%H:%M:%S')] *)
Definition strptime_iso (s : pystr) : res datetime :=
  match iso_match iso_re s with
  | Some ([y; _; m; _; d; _; h; _; mi; _; sec], []) => make_datetime y m d h mi sec
  | _ => Err ValueError
  end.

(** [d + timedelta(0, 20)]: the carry from seconds to years (datetime.__add__). *)
Definition add20 (d : datetime) : res datetime :=
  let s := dt_sec d + 20 in
  let mi := dt_min d + s / 60 in
  let h := dt_hour d + mi / 60 in
  let j := dt_yday d + h / 24 in
  let '(y', j') := if days_in_year (dt_year d) <? j then (dt_year d + 1, j - days_in_year (dt_year d)) else (dt_year d, j) in
  if 9999 <? y' then Err OverflowError
  else Ok (mkDT y' j' (h mod 24) (mi mod 60) (s mod 60) (dt_us d)).
(** Order of datetimes: field by field. *)
Definition dt_fields (d : datetime) : list Z := [dt_year d; dt_yday d; dt_hour d; dt_min d; dt_sec d; dt_us d].
(** Lexicographic order. *)
Fixpoint lex_lt (a b : list Z) : bool :=
  match a, b with x :: a', y :: b' => if x <? y then true else if y <? x then false else lex_lt a' b' | _, _ => false end.
(** [a < b] of datetimes. *)
Definition dt_lt (a b : datetime) : bool := lex_lt (dt_fields a) (dt_fields b).
(** [min(l)], [max(l)]: the first of the equal ones; ValueError for an empty list. *)
Definition dt_min_list (l : list datetime) : res datetime :=
  match l with [] => Err ValueError | a :: r => Ok (fold_left (fun m d => if dt_lt d m then d else m) r a) end.
(** [max(l)] (make_GLM_grids.py 201). *)
Definition dt_max_list (l : list datetime) : res datetime :=
  match l with [] => Err ValueError | a :: r => Ok (fold_left (fun m d => if dt_lt m d then d else m) r a) end.

(** [os.path.basename]: what follows the last slash. *)
Fixpoint basename_acc (acc s : pystr) : pystr :=
  match s with [] => rev acc | c :: r => if Ascii.eqb c "/" then basename_acc [] r else basename_acc (c :: acc) r end.
(** [os.path.basename(p)] (make_GLM_grids.py 175). *)
Definition basename (p : pystr) : pystr := basename_acc [] p.

(** make_GLM_grids.py 175-183: [None] when a ValueError was caught, so that the names filename_starts
    and filename_ends are not bound; other exceptions are not caught. *)
Definition filename_starts (paths : list pystr) : res (option (list datetime)) :=
  match map_res (fun p => parse_filename (basename p)) paths with
  | Ok infos => Ok (Some (map (fun i => snd (fst (fst i))) infos))
  | Err ValueError => Ok None
  | Err e => Err e
  end.
(** make_GLM_grids.py 186-201 *)
Definition time_window (paths : list pystr) (start end_ : option pystr) : res (datetime * datetime) :=
  starts <- filename_starts paths ;;
  start_time <- match start with
                | Some s => strptime_iso (firstn 19 s)
                | None => match starts with Some l => dt_min_list l | None => Err UnboundLocalError end
                end ;;
  end_time <- match end_ with
              | Some s => strptime_iso (firstn 19 s)
              | None => match starts with Some l => m <- dt_max_list l ;; add20 m | None => Err UnboundLocalError end
              end ;;
  Ok (start_time, end_time).

(** * The grid *)
(** make_GLM_grids.py 137-146; the formatted string. *)
Definition resolutions : list (Q * string) :=
  [(1 # 2, "0.5km"%string); (1, "1.0km"%string); (2, "2.0km"%string); (4, "4.0km"%string); (8, "8.0km"%string); (10, "10.0km"%string)]%Q.
(** [np.argmin] keeps the first of the smallest. *)
Definition nearest_resolution (dx : Q) : string :=
  snd (fold_left (fun best o => if Qlt_bool (Qabs (fst o - dx)) (Qabs (fst best - dx)) then o else best)
         (tl resolutions) (1 # 2, "0.5km"%string)).

(** The dictionary returned by lmatools' get_GOESR_grid. *)
Record view := mkView { vw_nadir : Q; vw_res : Q; vw_ew : Z; vw_ns : Z; vw_ctr : option (Q * Q) }.

(** The command line; numbers as argparse converted them, dt, subdivide_grid,
    output_scale_and_offset and ellipse_rev are passed on. *)
Record cmdline := mkCmd
  { a_paths : list pystr; a_start : option pystr; a_end : option pystr;
    a_dx : Q; a_dy : Q; a_width : Q; a_height : Q; a_lon : Q; a_lat : Q; a_dt : Q;
    a_min_events : Z; a_min_groups : Z; a_fixed_grid : bool; a_subdivide : Z;
    a_position : string; a_sector : string; a_split : bool; a_scale : bool; a_rev : Z }.
(** The keyword arguments of the gridding function; a key that may be absent is an option
    or, for clip_events=True and fixed_grid=True, a boolean. *)
Record gridargs := mkArgs
  { g_proj : string; g_base : datetime; g_dt : Q; g_dx : Q; g_dy : Q; g_xbnd : Q * Q; g_ybnd : Q * Q;
    g_ctr : Q * Q; g_min_points : option Z; g_min_groups : option Z; g_subdivide : Z; g_scale : bool;
    g_fixed : bool; g_nadir : option Q; g_clip : bool; g_rev : Z }.

(** make_GLM_grids.py 250-257 for one axis, [n] before the increment; [min()] of an empty array
    raises. *)
Definition axis_edges (n : Z) (d ctr : Q) : list Q :=
  map (fun k => ((inject_Z (Z.of_nat k) - inject_Z (n + 1) / 2) * d + ctr + (1 # 2) * d)%Q) (seq 0 (Z.to_nat (n + 1))).
(** [x_bnd.min()] (make_GLM_grids.py 256-257). *)
Definition qmin_list (l : list Q) : res Q :=
  match l with [] => Err ValueError | a :: r => Ok (fold_left (fun m x => if Qlt_bool x m then x else m) r a) end.
(** [x_bnd.max()] (make_GLM_grids.py 256-257). *)
Definition qmax_list (l : list Q) : res Q :=
  match l with [] => Err ValueError | a :: r => Ok (fold_left (fun m x => if Qlt_bool m x then x else m) r a) end.
(** make_GLM_grids.py 250-257: bounds of one axis. *)
Definition axis_bnd (n : Z) (d ctr : Q) : res (Q * Q) :=
  let e := axis_edges n d ctr in
  lo <- qmin_list e ;; hi <- qmax_list e ;; Ok (lo, hi).
(** [int(w/d)] *)
Definition int_div (w d : Q) : res Z := if Qeq_bool d 0 then Err ZeroDivisionError else Ok (qint (w / d)).
(** make_GLM_grids.py 158-163 *)
Definition min_count (n : Z) : option Z := if n <=? 1 then None else Some n.

Section Setup.
(** lmatools' grid specifications; the fixed grid coordinates of a place on the ellipsoid
    seen from a longitude, and the place at such coordinates; dlonlat_at_grid_center. *)
Variable goes_grid : string -> string -> string -> res view.
Variable to_grid : Q -> Q * Q -> Q * Q.
Variable to_lonlat : Q -> Q * Q -> Q * Q.
Variable dlonlat : Q * Q -> Q * Q -> Q * Q -> Q * Q -> (Q * Q) * (Q * Q) * (Q * Q).

(** make_GLM_grids.py 210-247: spacing, numbers of cells, centre and longitude of nadir. *)
Definition fixed_spec (a : cmdline) : res ((Q * Q) * (Z * Z) * (Q * Q) * Q) :=
  if negb (String.eqb (a_position a) "none") && negb (String.eqb (a_sector a) "none") then
    v <- goes_grid (a_position a) (a_sector a) (nearest_resolution (a_dx a)) ;;
    ctr <- match vw_ctr v with
           | Some c => Ok c
           | None => if String.eqb (a_sector a) "meso" then Ok (to_grid (vw_nadir v) (a_lon a, a_lat a)) else Err UnboundLocalError
           end ;;
    Ok ((vw_res v, vw_res v), (vw_ew v, vw_ns v), ctr, vw_nadir v)
  else if negb (String.eqb (a_position a) "none") && String.eqb (a_sector a) "none" then
    v <- goes_grid (a_position a) "full"%string "1.0km"%string ;;
    nx <- int_div (a_width a) (a_dx a) ;;
    ny <- int_div (a_height a) (a_dy a) ;;
    Ok ((a_dx a * vw_res v, a_dy a * vw_res v)%Q, (nx, ny), to_grid (vw_nadir v) (a_lon a, a_lat a), vw_nadir v)
  else Err ValueError.

(** make_GLM_grids.py 203: the date of the start. *)
Definition midnight (d : datetime) : datetime := mkDT (dt_year d) (dt_yday d) 0 0 0 0.

(** make_GLM_grids.py 148-320: grid_setup; lines 266-279 are the branch without
    --fixed_grid. *)
Definition grid_setup (a : cmdline) : res (list pystr * datetime * datetime * gridargs) :=
  w <- time_window (a_paths a) (a_start a) (a_end a) ;;
  let mk proj dxy xb yb ctr nadir :=
    mkArgs proj (midnight (fst w)) (a_dt a) (fst dxy) (snd dxy) xb yb ctr (min_count (a_min_events a)) (min_count (a_min_groups a))
      (a_subdivide a) (a_scale a) (a_fixed_grid a) nadir (a_split a) (a_rev a) in
  if a_fixed_grid a then
    s <- fixed_spec a ;;
    let '(dxy, nxy, ctr, nadir) := s in
    xb <- axis_bnd (fst nxy) (fst dxy) (fst ctr) ;;
    yb <- axis_bnd (snd nxy) (snd dxy) (snd ctr) ;;
    Ok (a_paths a, fst w, snd w, mk "geos"%string dxy xb yb (to_lonlat nadir ctr) (Some nadir))
  else
    let wd := (1000 * a_width a)%Q in let ht := (1000 * a_height a)%Q in
    let '(dxy, xb, yb) := dlonlat (a_lat a, a_lon a) (1000 * a_dx a, 1000 * a_dy a)%Q (- wd / 2, wd / 2)%Q (- ht / 2, ht / 2)%Q in
    Ok (a_paths a, fst w, snd w, mk "latlong"%string dxy xb yb (a_lon a, a_lat a) None).
End Setup.
