(** Specification vocabulary for the templates of paths that the documentation shows. *)
From Coq Require Import List ZArith QArith Bool Ascii String.
From Verif Require Import Base FileName FileNameSpec GridSetup GridSetupSpec Imagery ImagerySpec Output OutputSpec.
Import ListNotations.
Open Scope nat_scope.

Definition slash : directive := DirText (lit "/").
(** [d]/{start_time:%Y/%b/%d}/{dataset_name} (make_GLM_grids.py 20-21). *)
Definition by_date (d : pystr) : list piece :=
  [PText (d ++ lit "/"); PStart [DirY; slash; Dirb; slash; Dird]; PText (lit "/"); PName].
(** [d]/{start_time:%y/%b/%d}/GLM_{start_time:%Y%m%d_%H%M%S}.nc (imagery.py 469,
    make_grids.py 787, there with [d] = "."). *)
Definition by_time (d : pystr) : list piece :=
  [PText (d ++ lit "/"); PStart [Diry; slash; Dirb; slash; Dird]; PText (lit "/GLM_");
   PStart [DirY; Dirm; Dird; DirText (lit "_"); DirH; DirM; DirS]; PText (lit ".nc")].
Definition documented (d : pystr) (template : list piece) : Prop := template = by_date d \/ template = by_time d.
(** Nothing is in the way of files that are put [n] directories below [D]: no file stands
    where a directory must be, and no directory where a file must be.  An empty file
    system is tidy, and so is one with files put there before in the same way. *)
Definition tidy (D : path) (n : nat) (fs : fsys) : Prop :=
  (forall p f, lookup fs p = Some f -> fst p = fst D ->
     (forall rest, snd D <> snd p ++ rest) /\ (forall rest, snd p = snd D ++ rest -> n < List.length rest)) /\
  (forall p rest, In p (fs_dirs fs) -> fst p = fst D -> snd p = snd D ++ rest -> List.length rest <= n).
(** The year, month and day of the start of a frame as names of directories; the year has
    four digits or two. *)
Definition day_dirs (digits : nat) (s : datetime) (y m d : pystr) : Prop :=
  exists month day name, (1 <= month <= 12)%Z /\ (1 <= day <= month_length (dt_year s) month)%Z /\ day_of_year (dt_year s) month day = dt_yday s /\
    month_name month name /\ y = decimal digits (dt_year s mod 10 ^ Z.of_nat digits)%Z /\ m = lit name /\ d = decimal 2 day.
(** GLM_yearmonthday_hourminutesecond.nc for the start of a frame. *)
Definition start_name (s : datetime) (base : pystr) : Prop :=
  exists month day, (1 <= month <= 12)%Z /\ (1 <= day <= month_length (dt_year s) month)%Z /\ day_of_year (dt_year s) month day = dt_yday s /\
    base = lit "GLM_" ++ decimal 4 (dt_year s) ++ decimal 2 month ++ decimal 2 day ++ lit "_" ++ decimal 2 (dt_hour s) ++ decimal 2 (dt_min s) ++ decimal 2 (dt_sec s) ++ lit ".nc".
(** Frame [k] of a call starts at [s] and its file gets the path [p]. *)
Definition frame_path (j : job) (paths : list pystr) (k : nat) (s : datetime) (p : pystr) : Prop :=
  nth_error paths k = Some p /\ exists e, frame_times j k s e.
