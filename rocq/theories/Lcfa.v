(** Model of glmtools/io/convert_lcfa.py 67-145: the readers of the ASCII listing of
    flashes, groups and events.  Text is ASCII; numbers are exact rationals where Python
    rounds to binary64; the literals "inf", "nan" and digits grouped with underscores,
    which float() and int() accept, are rejected here. *)
From Coq Require Import List ZArith QArith Bool Ascii String.
From Verif Require Import Base FileName.
Import ListNotations.
Open Scope Z_scope.

(** * Python's text files and strings *)
Definition NL : ascii := "010"%char.
(** Carriage return. *)
Definition CR : ascii := "013"%char.
(** Tabulator. *)
Definition TAB : ascii := "009"%char.

(** Universal newlines: [open(filename, 'r')] turns CR LF and CR into LF. *)
Fixpoint universal (s : pystr) : pystr :=
  match s with
  | [] => []
  | c :: r => if Ascii.eqb c CR then
                match r with
                | n :: r' => if Ascii.eqb n NL then NL :: universal r' else NL :: universal r
                | [] => [NL]
                end
              else c :: universal r
  end.
(** [for line in f]: lines keep their newline; the last one may have none. *)
Fixpoint lines (s : pystr) : list pystr :=
  match s with
  | [] => []
  | c :: r => if Ascii.eqb c NL then [c] :: lines r
              else match lines r with [] => [[c]] | h :: t => (c :: h) :: t end
  end.
(** [s.startswith(p)] *)
Fixpoint startswith (p s : pystr) : bool :=
  match p, s with
  | [], _ => true
  | a :: p', b :: s' => Ascii.eqb a b && startswith p' s'
  | _ :: _, [] => false
  end.
(** White space of [str.split()], among the ASCII characters. *)
Definition is_space (c : ascii) : bool :=
  let n := Z.of_N (N_of_ascii c) in ((9 <=? n) && (n <=? 13)) || ((28 <=? n) && (n <=? 32)).
(** [s.split()]: the maximal runs without white space; [cur] is the current one,
    backwards. *)
Fixpoint split_ws (cur : pystr) (s : pystr) : list pystr :=
  match s with
  | [] => match cur with [] => [] | _ => [rev cur] end
  | c :: r => if is_space c then match cur with [] => split_ws [] r | _ => rev cur :: split_ws [] r end
              else split_ws (c :: cur) r
  end.
(** [s.split(':')] *)
Fixpoint split_colon (s : pystr) : list pystr :=
  match s with
  | [] => [[]]
  | c :: r => if Ascii.eqb c ":" then [] :: split_colon r
              else match split_colon r with [] => [[c]] | h :: t => (c :: h) :: t end
  end.

(** Numbers: an optional sign, and the longest run of digits, most significant first. *)
Definition take_sign (s : pystr) : bool * pystr :=
  match s with
  | c :: r => if Ascii.eqb c "-" then (true, r) else if Ascii.eqb c "+" then (false, r) else (false, s)
  | [] => (false, [])
  end.
(** The longest run of digits. *)
Fixpoint take_digits (s : pystr) : list Z * pystr :=
  match s with
  | c :: r => match digit_val c with
              | Some d => let '(ds, t) := take_digits r in (d :: ds, t)
              | None => ([], s)
              end
  | [] => ([], [])
  end.
(** The number written by digits. *)
Definition number (ds : list Z) : Z := fold_left (fun acc d => acc * 10 + d) ds 0.
(** The number with its sign. *)
Definition signed (neg : bool) (v : Z) : Z := if neg then - v else v.
(** [int(s)]; the text has no white space around it here, as it comes from split(). *)
Definition parse_int (s : pystr) : res Z :=
  let '(neg, r) := take_sign s in
  match take_digits r with
  | (d :: ds, []) => Ok (signed neg (number (d :: ds)))
  | _ => Err ValueError
  end.
(** [float(s)] *)
Definition parse_float (s : pystr) : res Q :=
  let '(neg, s1) := take_sign s in
  let '(d1, s2) := take_digits s1 in
  let '(d2, s3) := match s2 with
                   | c :: t => if Ascii.eqb c "." then take_digits t else ([], s2)
                   | [] => ([], [])
                   end in
  match (d1 ++ d2)%list with
  | [] => Err ValueError
  | ds =>
      let mant := (inject_Z (signed neg (number ds)) / inject_Z (10 ^ Z.of_nat (List.length d2)))%Q in
      match s3 with
      | [] => Ok mant
      | c :: t =>
          if Ascii.eqb c "e" || Ascii.eqb c "E" then
            let '(n2, t1) := take_sign t in
            match take_digits t1 with
            | (d :: d3, []) => Ok (mant * Qpower (inject_Z 10) (signed n2 (number (d :: d3))))%Q
            | _ => Err ValueError
            end
          else Err ValueError
      end
  end.

(** * The readers *)
(** [int(cols[i][1:])], [float(cols[i].split(':')[1])], [int(cols[i].split(':')[1])] *)
Definition col_id (cols : list pystr) (i : nat) : res Z :=
  c <- nth_res cols i ;; parse_int (List.tl c).
(** [float(cols[i].split(':')[1])] *)
Definition col_float (cols : list pystr) (i : nat) : res Q :=
  c <- nth_res cols i ;; v <- nth_res (split_colon c) 1 ;; parse_float v.
(** [int(cols[i].split(':')[1])] *)
Definition col_int (cols : list pystr) (i : nat) : res Z :=
  c <- nth_res cols i ;; v <- nth_res (split_colon c) 1 ;; parse_int v.

(** A row of gen_flash_data (convert_lcfa.py 76-84). *)
Record flash := mkF
  { f_id : Z; f_first : Q; f_last : Q; f_lat : Q; f_lon : Q; f_energy : Q; f_area : Q; f_children : Z }.
(** A row of gen_group_data (convert_lcfa.py 96-104). *)
Record group := mkG
  { g_id : Z; g_time : Q; g_lat : Q; g_lon : Q; g_energy : Q; g_area : Q; g_parent : Z; g_children : Z }.
(** A row of gen_event_data (convert_lcfa.py 116-124). *)
Record event := mkE
  { e_id : Z; e_time : Q; e_x : Z; e_y : Z; e_lat : Q; e_lon : Q; e_energy : Q; e_parent : Z }.

(** convert_lcfa.py 75-85 *)
Definition flash_of (cols : list pystr) : res flash :=
  a <- col_id cols 2 ;; b <- col_float cols 4 ;; c <- col_float cols 6 ;; d <- col_float cols 8 ;;
  e <- col_float cols 10 ;; f <- col_float cols 11 ;; g <- col_float cols 12 ;; h <- col_int cols 13 ;;
  Ok (mkF a b c d e f g h).
(** convert_lcfa.py 95-105 *)
Definition group_of (cols : list pystr) : res group :=
  a <- col_id cols 2 ;; b <- col_float cols 6 ;; c <- col_float cols 10 ;; d <- col_float cols 12 ;;
  e <- col_float cols 13 ;; f <- col_float cols 14 ;; g <- col_int cols 15 ;; h <- col_int cols 16 ;;
  Ok (mkG a b c d e f g h).
(** convert_lcfa.py 115-125 *)
Definition event_of (cols : list pystr) : res event :=
  a <- col_id cols 1 ;; b <- col_float cols 4 ;; c <- col_int cols 5 ;; d <- col_int cols 6 ;;
  e <- col_float cols 7 ;; f <- col_float cols 8 ;; g <- col_float cols 9 ;; h <- col_int cols 10 ;;
  Ok (mkE a b c d e f g h).

(** The three generators, consumed to their end (67-85, 87-105, 107-125). *)
Definition gen {A} (prefix : pystr) (of : list pystr -> res A) (text : pystr) : res (list A) :=
  map_res (fun line => of (split_ws [] line)) (filter (startswith prefix) (lines (universal text))).
(** convert_lcfa.py 67-85 *)
Definition gen_flash_data := gen (lit "D Flash") flash_of.
(** convert_lcfa.py 87-105 *)
Definition gen_group_data := gen (TAB :: lit "D Group") group_of.
(** convert_lcfa.py 107-125 *)
Definition gen_event_data := gen (TAB :: TAB :: lit "Event") event_of.

(** convert_lcfa.py 128-145 (without the naming of the index) *)
Definition parse_LCFA_ASCII (text : pystr) : res (list flash * list group * list event) :=
  f <- gen_flash_data text ;; g <- gen_group_data text ;; e <- gen_event_data text ;; Ok (f, g, e).
