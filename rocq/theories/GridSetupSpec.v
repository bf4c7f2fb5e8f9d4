(** Specification vocabulary for the driver: calendar dates and paths of files. *)
From Coq Require Import List ZArith QArith Bool Ascii String.
From Verif Require Import Base FileName FileNameSpec.
Import ListNotations.
Open Scope Z_scope.

(** Length of a month, and the day of the year of a date. *)
Definition month_length (y m : Z) : Z :=
  if m =? 2 then days_in_year y - 337
  else if (m =? 4) || (m =? 6) || (m =? 9) || (m =? 11) then 30 else 31.
Definition day_of_year (y m d : Z) : Z :=
  fold_right (fun k acc => month_length y (Z.of_nat k) + acc) d (seq 1 (Z.to_nat (m - 1))).
(** A date and time of day of the Gregorian calendar. *)
Record civil := mkCivil { c_year : Z; c_month : Z; c_day : Z; c_hour : Z; c_min : Z; c_sec : Z }.
Definition civil_valid (c : civil) : Prop :=
  1 <= c_year c <= 9999 /\ 1 <= c_month c <= 12 /\ 1 <= c_day c <= month_length (c_year c) (c_month c) /\
  0 <= c_hour c < 24 /\ 0 <= c_min c < 60 /\ 0 <= c_sec c < 60.
(** YYYY-MM-DDTHH:MM:SS *)
Definition iso (c : civil) : pystr :=
  decimal 4 (c_year c) ++ lit "-" ++ decimal 2 (c_month c) ++ lit "-" ++ decimal 2 (c_day c) ++ lit "T"
  ++ decimal 2 (c_hour c) ++ lit ":" ++ decimal 2 (c_min c) ++ lit ":" ++ decimal 2 (c_sec c).
Definition civil_instant (c : civil) : Z :=
  ((((days_before_year (c_year c) + day_of_year (c_year c) (c_month c) (c_day c) - 1) * 24 + c_hour c) * 60 + c_min c) * 60
   + c_sec c) * 1000000.

(** A file of lightning data with a name that follows the convention, in some directory
    or none. *)
Record named := mkNamed { n_dir : option pystr; n_env : pystr; n_alg : pystr; n_plat : pystr; n_start : datetime; n_end : datetime; n_created : datetime }.
Definition plain (s : pystr) : Prop := component s /\ ~ In "/"%char s.
Definition named_ok (f : named) : Prop :=
  plain (n_env f) /\ plain (n_alg f) /\ plain (n_plat f) /\
  valid_from 1 (n_start f) /\ valid_from 1 (n_end f) /\ valid_from 1 (n_created f) /\
  in_tenths (n_start f) /\ in_tenths (n_end f) /\ in_tenths (n_created f) /\ dt_year (n_start f) < 9999.
Definition path_of (f : named) : pystr :=
  let name := standard_name (n_env f) (n_alg f) (n_plat f) (n_start f) (n_end f) (n_created f) in
  match n_dir f with None => name | Some d => d ++ lit "/" ++ name end.
Definition seconds (n : Z) : Z := n * 1000000.

(** A number below 100 in two digits or, when it has only one, in one. *)
Definition short (n : Z) (t : pystr) : Prop := t = decimal 2 n \/ n < 10 /\ t = decimal 1 n.
(** Texts that name a date and time: as [iso], with leading zeros optional (or a blank for the
    day) and a small t allowed. *)
Definition names_time (c : civil) (s : pystr) : Prop :=
  exists tm td sep th tmi ts, (sep = "T"%char \/ sep = "t"%char) /\
    short (c_month c) tm /\ (short (c_day c) td \/ c_day c < 10 /\ td = lit " " ++ decimal 1 (c_day c)) /\
    short (c_hour c) th /\ short (c_min c) tmi /\ short (c_sec c) ts /\
    s = decimal 4 (c_year c) ++ lit "-" ++ tm ++ lit "-" ++ td ++ [sep] ++ th ++ lit ":" ++ tmi ++ lit ":" ++ ts.
