(** Specification vocabulary for file names: valid instants and the naming
    convention (GOES-R PUG volume 5, appendix A). *)
From Coq Require Import List ZArith Bool Ascii String.
From Verif Require Import Base FileName.
Import ListNotations.
Open Scope Z_scope.

Definition is_leap (y : Z) : Prop := (4 | y) /\ (~ (100 | y) \/ (400 | y)).

(** Instants of the Gregorian calendar, years [lo] to 9999. *)
Record valid_from (lo : Z) (d : datetime) : Prop := mkValid
  { v_year : lo <= dt_year d <= 9999;
    v_yday : 1 <= dt_yday d <= 366;
    v_leap : dt_yday d = 366 -> is_leap (dt_year d);
    v_hour : 0 <= dt_hour d < 24;
    v_min : 0 <= dt_min d < 60;
    v_sec : 0 <= dt_sec d < 60;
    v_us : 0 <= dt_us d < 1000000 }.

(** A whole number of tenths of a second, or of seconds. *)
Definition in_tenths (d : datetime) : Prop := (100000 | dt_us d).
Definition to_second (d : datetime) : datetime :=
  mkDT (dt_year d) (dt_yday d) (dt_hour d) (dt_min d) (dt_sec d) 0.

(** Microseconds since the start of year 1. *)
Definition days_before_year (y : Z) : Z := 365 * (y - 1) + (y - 1) / 4 - (y - 1) / 100 + (y - 1) / 400.
Definition instant (d : datetime) : Z :=
  ((((days_before_year (dt_year d) + dt_yday d - 1) * 24 + dt_hour d) * 60 + dt_min d) * 60
   + dt_sec d) * 1000000 + dt_us d.

(** [n] written with [k] decimal digits. *)
Definition decimal (k : nat) (n : Z) : pystr :=
  map (fun i => nth (Z.to_nat (n / 10 ^ Z.of_nat i mod 10)) (lit "0123456789") "0"%char) (rev (seq 0 k)).
(** The time stamp YYYYDDDHHMMSSt after its prefix letter. *)
Definition time_stamp (c : ascii) (d : datetime) : pystr :=
  c :: decimal 4 (dt_year d) ++ decimal 3 (dt_yday d) ++ decimal 2 (dt_hour d) ++ decimal 2 (dt_min d)
    ++ decimal 2 (dt_sec d) ++ decimal 1 (dt_us d / 100000).
(** env_algorithm_platform_sT_eT_cT.nc *)
Definition standard_name (env alg plat : pystr) (s e c : datetime) : pystr :=
  env ++ lit "_" ++ alg ++ lit "_" ++ plat ++ lit "_" ++ time_stamp "s" s ++ lit "_" ++ time_stamp "e" e
  ++ lit "_" ++ time_stamp "c" c ++ lit ".nc".

(** A component of a file name: no underscore, and '.nc' does not occur in it. *)
Definition component (s : pystr) : Prop :=
  ~ In "_"%char s /\ forall a b, s <> a ++ lit ".nc" ++ b.
