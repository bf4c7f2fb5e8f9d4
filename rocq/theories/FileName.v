(** Model of the file name parser of glmtools/io/glm.py (16-46) and of the
    dataset name of glmtools/io/imagery.py (256-276).  Python strings are lists of
    ASCII characters. *)
From Coq Require Import List ZArith Bool Ascii String.
From Verif Require Import Base.
Import ListNotations.
Open Scope Z_scope.

Notation pystr := (list ascii).
(** A Python string literal. *)
Definition lit (s : string) : pystr := list_ascii_of_string s.

(** * Python's str and datetime *)
(** [s.replace('.nc', '')] *)
Fixpoint remove_nc (s : pystr) : pystr :=
  match s with
  | [] => []
  | c :: r =>
      match r with
      | n :: x :: r' => if (Ascii.eqb c "." && Ascii.eqb n "n" && Ascii.eqb x "c")%bool
                        then remove_nc r' else c :: remove_nc r
      | _ => c :: remove_nc r
      end
  end.
(** [s.split('_')] *)
Fixpoint split_us (s : pystr) : list pystr :=
  match s with
  | [] => [[]]
  | c :: r => if Ascii.eqb c "_" then [] :: split_us r
              else match split_us r with [] => [[c]] | h :: t => (c :: h) :: t end
  end.

(** Value of a decimal digit. *)
Definition digit_val (c : ascii) : option Z :=
  let n := Z.of_N (N_of_ascii c) in if (48 <=? n) && (n <=? 57) then Some (n - 48) else None.

(** A datetime: year, day of the year, hour, minute, second, microsecond.  Python
    stores month and day instead of the day of the year; the two determine each
    other within a year. *)
Record datetime := mkDT
  { dt_year : Z; dt_yday : Z; dt_hour : Z; dt_min : Z; dt_sec : Z; dt_us : Z }.
(** Leap years of the Gregorian calendar, as in the datetime module. *)
Definition leap (y : Z) : bool :=
  (y mod 4 =? 0) && (negb (y mod 100 =? 0) || (y mod 400 =? 0)).
(** Length of a year, as in the datetime module. *)
Definition days_in_year (y : Z) : Z := if leap y then 366 else 365.

(** Regular expressions that _strptime.py uses for %Y %j %H %M %S: a directive is
    a list of alternatives, an alternative a list of digit ranges. *)
Definition alt := list (Z * Z).
(** One alternative matched at the start of a string; gives the number read and the
    rest. *)
Fixpoint match_alt (a : alt) (acc : Z) (s : pystr) : option (Z * pystr) :=
  match a with
  | [] => Some (acc, s)
  | (lo, hi) :: a' =>
      match s with
      | [] => None
      | c :: r => match digit_val c with
                  | Some d => if (lo <=? d) && (d <=? hi) then match_alt a' (acc * 10 + d) r else None
                  | None => None
                  end
      end
  end.
(** The character class of any digit. *)
Definition d09 := (0, 9).
(** _strptime.py, %Y (directive of glm.py 26). *)
Definition re_Y : list alt := [[d09; d09; d09; d09]].
(** _strptime.py, %j (directive of glm.py 26). *)
Definition re_j : list alt :=
  [[(3, 3); (6, 6); (0, 6)]; [(3, 3); (0, 5); d09]; [(1, 2); d09; d09]; [(0, 0); (1, 9); d09];
   [(0, 0); (0, 0); (1, 9)]; [(1, 9); d09]; [(0, 0); (1, 9)]; [(1, 9)]].
(** _strptime.py, %H (directive of glm.py 26). *)
Definition re_H : list alt := [[(2, 2); (0, 3)]; [(0, 1); d09]; [d09]].
(** _strptime.py, %M (directive of glm.py 26). *)
Definition re_M : list alt := [[(0, 5); d09]; [d09]].
(** _strptime.py, %S (directive of glm.py 26). *)
Definition re_S : list alt := [[(6, 6); (0, 1)]; [(0, 5); d09]; [d09]].

(** Backtracking match: the first alternative for which the rest matches. *)
Fixpoint first_some {A B} (f : A -> option B) (l : list A) : option B :=
  match l with
  | [] => None
  | a :: l' => match f a with Some b => Some b | None => first_some f l' end
  end.
(** The directives of a format matched one after the other. *)
Fixpoint re_match (re : list (list alt)) (s : pystr) : option (list Z * pystr) :=
  match re with
  | [] => Some ([], s)
  | alts :: re' =>
      first_some (fun a => match match_alt a 0 s with
                           | Some (v, r) => match re_match re' r with
                                            | Some (vs, r') => Some (v :: vs, r')
                                            | None => None end
                           | None => None end) alts
  end.

(** [datetime.strptime(s, '%Y%j%H%M%S')]: ValueError when the pattern does not
    match, when data remains, for year 0, for seconds 60 and 61; day 366 of a common
    year is the first of January of the next year, out of range after 9999. *)
Definition strptime (s : pystr) : res datetime :=
  match re_match [re_Y; re_j; re_H; re_M; re_S] s with
  | Some ([y; j; h; m; sec], []) =>
      if (y <? 1) then Err ValueError
      else
        let '(y', j') := if days_in_year y <? j then (y + 1, j - days_in_year y) else (y, j) in
        if (9999 <? y') then Err ValueError
        else if (59 <? sec) then Err ValueError
        else Ok (mkDT y' j' h m sec 0)
  | _ => Err ValueError
  end.

(** Decimal digits; [strftime] of one field, zero padded to [k] places. *)
Definition digit (d : Z) : ascii := ascii_of_N (Z.to_N (48 + d)).
(** A number in [k] decimal places, as strftime writes it. *)
Fixpoint pad (k : nat) (n : Z) : pystr :=
  match k with O => [] | S k' => pad k' (n / 10) ++ [digit (n mod 10)] end.
(** [d.strftime('%Y%j%H%M%S')].  For years before 1000 the C library does not pad
    %Y to four places; theorems assume years from 1000 to 9999. *)
Definition strftime (d : datetime) : pystr :=
  pad 4 (dt_year d) ++ pad 3 (dt_yday d) ++ pad 2 (dt_hour d) ++ pad 2 (dt_min d) ++ pad 2 (dt_sec d).

(** * glm.py 16-29 *)
(** [s[1:-1]] *)
Definition middle (s : pystr) : pystr := removelast (tl s).
(** [datetime + timedelta(0, k/10.0)] for a datetime with zero microseconds and
    k < 10: k tenths of a second. *)
Definition add_tenths (d : datetime) (k : Z) : datetime :=
  mkDT (dt_year d) (dt_yday d) (dt_hour d) (dt_min d) (dt_sec d) (dt_us d + k * 100000).
(** glm.py 16-29: parse_glm_filename_time. *)
Definition parse_time (s : pystr) : res datetime :=
  start <- strptime (middle s) ;;
  match rev s with
  | [] => Err IndexError
  | c :: _ => match digit_val c with
              | None => Err ValueError
              | Some k => Ok (add_tenths start k)
              end
  end.

(** * glm.py 31-46 *)
Definition nth_res {A} (l : list A) (k : nat) : res A :=
  match nth_error l k with Some a => Ok a | None => Err IndexError end.
(** glm.py 31-46: parse_glm_filename. *)
Definition parse_filename (name : pystr)
  : res (pystr * pystr * pystr * datetime * datetime * datetime) :=
  let parts := split_us (remove_nc name) in
  ops_environment <- nth_res parts 0 ;;
  algorithm <- nth_res parts 1 ;;
  platform <- nth_res parts 2 ;;
  p3 <- nth_res parts 3 ;; start <- parse_time p3 ;;
  p4 <- nth_res parts 4 ;; end_ <- parse_time p4 ;;
  p5 <- nth_res parts 5 ;; created <- parse_time p5 ;;
  Ok (ops_environment, algorithm, platform, start, end_, created).

(** * imagery.py 256-276: the name of an output dataset *)
Definition scene_code (scene : string) : res string :=
  if String.eqb scene "FULL" then Ok "F"%string
  else if String.eqb scene "CONUS" then Ok "C"%string
  else if String.eqb scene "MESO1" then Ok "M1"%string
  else if String.eqb scene "MESO2" then Ok "M2"%string
  else if String.eqb scene "OTHER" then Ok "M1"%string
  else Err KeyError.
(** imagery.py 257: modes[timeline]. *)
Definition mode_code (timeline : string) : res string :=
  if String.eqb timeline "ABI Mode 3" then Ok "M3"%string else Err KeyError.
(** imagery.py 272-276; [created] is the clock read at 256. *)
Definition dataset_name (start end_ created : datetime) (platform : pystr) (scene timeline : string)
  : res pystr :=
  m <- mode_code timeline ;;
  s <- scene_code scene ;;
  Ok (lit "OR_GLM-L2-GLM" ++ lit s ++ lit "-" ++ lit m ++ lit "_" ++ platform
      ++ lit "_s" ++ (strftime start ++ lit "0") ++ lit "_e" ++ (strftime end_ ++ lit "0")
      ++ lit "_c" ++ (strftime created ++ lit "0") ++ lit ".nc").

(** Python's comparison of strings: by code point, shorter first. *)
Fixpoint str_compare (a b : pystr) : comparison :=
  match a, b with
  | [], [] => Eq
  | [], _ => Lt
  | _, [] => Gt
  | x :: a', y :: b' => match N.compare (N_of_ascii x) (N_of_ascii y) with
                        | Eq => str_compare a' b'
                        | c => c
                        end
  end.
