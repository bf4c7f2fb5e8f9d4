(** Specification vocabulary for the metadata, paths and coordinates of written files. *)
From Coq Require Import List ZArith QArith Qabs Bool Ascii String.
From Verif Require Import Base Lut FileName FileNameSpec GridSetup GridSetupSpec Imagery ImagerySpec Output.
Import ListNotations.
Open Scope Q_scope.

(** Distance between the first and the last of some places on an axis. *)
Definition span (l : list Q) (w : Q) : Prop := exists lo hi, In lo l /\ In hi l /\ (forall v, In v l -> lo <= v <= hi) /\ w == hi - lo.
(** Within one percent of [b], or ten nanoradians more. *)
Definition close (a b : Q) : Prop := Qabs (a - b) <= (1 # 100) * Qabs b + (1 # 100000000).
(** The extent of the image is that of a sector: EW and NS. *)
Definition fits (x y : list Q) (sector : Q * Q) : Prop := exists ew ns, span x ew /\ span y ns /\ close ew (fst sector) /\ close ns (snd sector).

(** One step of the stored coordinates: 56 microradians. *)
Definition step56 : Q := 56 # 1000000.
(** The stored coordinates are the odd multiples of half a step.  Multiples of a whole step
    are exactly in the middle between two of them. *)
Definition on_grid (v : Q) : Prop := exists k : Z, v == (inject_Z k + (1 # 2)) * step56.
Definition half_way (v : Q) : Prop := exists k : Z, v == inject_Z k * step56.
(** What a reader gets for the coordinate of column [c], of row [r]. *)
Definition read_x (f : ncfile) (c : nat) (v : Q) : Prop := exists code u, nth_error (nc_x f) c = Some code /\ unpack_coord x_enc code = Some u /\ u == v.
Definition read_y (f : ncfile) (r : nat) (v : Q) : Prop := exists code u, nth_error (nc_y f) r = Some code /\ unpack_coord y_enc code = Some u /\ u == v.

(** Everything that is given to one call of write_goes_imagery besides the arrays: the
    gridder with its padding and the numbers of cells inside it, the scale flag, the
    sectors and resolutions of lmatools, attributes of the lightning data, the template
    of the paths, the instant of each time edge and the times of writing. *)
Record job := mkJob
  { j_gd : gridder; j_pad : nat; j_mx : nat; j_my : nat; j_scaled : bool; j_scenes : scenes;
    j_resolutions : list (string * Q); j_slot : pystr; j_instrument : pystr; j_outpath : list piece;
    j_stamp : Q -> datetime; j_nows : nat -> datetime }.
(** Arguments that belong together. *)
Definition proper (j : job) (outgrids : list array3) : Prop :=
  let gd := j_gd j in
  ascending (gd_xedge gd) /\ ascending (gd_yedge gd) /\
  List.length (gd_xedge gd) = S (j_mx j + 2 * j_pad j) /\ List.length (gd_yedge gd) = S (j_my j + 2 * j_pad j) /\
  shaped outgrids (j_mx j + 2 * j_pad j) (j_my j + 2 * j_pad j) (List.length (gd_tedges gd) - 1) /\
  List.length (gd_names gd) = List.length outgrids /\ simple_divide (gd_divide gd).
Definition call (j : job) (outgrids : list array3) (fs : fsys) : res (list array3 * fsys * list pystr) :=
  write_imagery (j_gd j) (pad_slice (Z.of_nat (j_pad j))) (pad_slice (Z.of_nat (j_pad j))) (j_scaled j) (j_scenes j) (j_resolutions j)
    (j_slot j) (j_instrument j) (j_outpath j) (j_stamp j) (j_nows j) outgrids fs.
(** The call ended without exception. *)
Definition saves (j : job) (outgrids : list array3) (fs : fsys) (after : list array3) (fs' : fsys) (paths : list pystr) : Prop :=
  proper j outgrids /\ call j outgrids fs = Ok (after, fs', paths).
(** Start and end of frame [k]. *)
Definition frame_times (j : job) (k : nat) (s e : datetime) : Prop :=
  exists t0 t1, nth_error (gd_tedges (j_gd j)) k = Some t0 /\ nth_error (gd_tedges (j_gd j)) (S k) = Some t1 /\ s = j_stamp j t0 /\ e = j_stamp j t1.
(** Coordinates of the columns from the west, of the rows from the south. *)
Definition columns (j : job) : list Q := map (fun c => center (gd_xedge (j_gd j)) (j_pad j + c)) (seq 0 (j_mx j)).
Definition rows (j : job) : list Q := map (fun r => center (gd_yedge (j_gd j)) (j_pad j + r)) (seq 0 (j_my j)).
(** All times of the job are instants of these years. *)
Definition dated (lo hi : Z) (j : job) : Prop :=
  (forall t, In t (gd_tedges (j_gd j)) -> valid_from lo (j_stamp j t) /\ (dt_year (j_stamp j t) <= hi)%Z) /\ forall k, valid_from lo (j_nows j k).
(** The file found under a path. *)
Definition holds (fs : fsys) (p : pystr) (f : ncfile) : Prop := lookup fs (norm p) = Some f.
(** Two texts name the same file. *)
Definition same_path (p q : pystr) : Prop := norm p = norm q.

(** Names of the months. *)
Inductive month_name : Z -> string -> Prop :=
| MN_Jan : month_name 1 "Jan" | MN_Feb : month_name 2 "Feb" | MN_Mar : month_name 3 "Mar" | MN_Apr : month_name 4 "Apr" | MN_May : month_name 5 "May" | MN_Jun : month_name 6 "Jun"
| MN_Jul : month_name 7 "Jul" | MN_Aug : month_name 8 "Aug" | MN_Sep : month_name 9 "Sep" | MN_Oct : month_name 10 "Oct" | MN_Nov : month_name 11 "Nov" | MN_Dec : month_name 12 "Dec".
(** The text that a directive of strftime stands for. *)
Inductive directive_text (d : datetime) : directive -> pystr -> Prop :=
| DT_Y : directive_text d DirY (decimal 4 (dt_year d))
| DT_y : directive_text d Diry (decimal 2 (dt_year d mod 100))
| DT_b : forall m day name, (1 <= m <= 12)%Z -> (1 <= day <= month_length (dt_year d) m)%Z -> day_of_year (dt_year d) m day = dt_yday d -> month_name m name -> directive_text d Dirb (lit name)
| DT_j : directive_text d Dirj (decimal 3 (dt_yday d))
| DT_m : forall m day, (1 <= m <= 12)%Z -> (1 <= day <= month_length (dt_year d) m)%Z -> day_of_year (dt_year d) m day = dt_yday d -> directive_text d Dirm (decimal 2 m)
| DT_d : forall m day, (1 <= m <= 12)%Z -> (1 <= day <= month_length (dt_year d) m)%Z -> day_of_year (dt_year d) m day = dt_yday d -> directive_text d Dird (decimal 2 day)
| DT_H : directive_text d DirH (decimal 2 (dt_hour d))
| DT_M : directive_text d DirM (decimal 2 (dt_min d))
| DT_S : directive_text d DirS (decimal 2 (dt_sec d))
| DT_text : forall s, directive_text d (DirText s) s.
(** The template with the times and the name filled in. *)
Inductive filled (start end_ : datetime) (name : pystr) : list piece -> pystr -> Prop :=
| F_nil : filled start end_ name [] []
| F_text : forall s l p, filled start end_ name l p -> filled start end_ name (PText s :: l) (s ++ p)
| F_name : forall l p, filled start end_ name l p -> filled start end_ name (PName :: l) (name ++ p)
| F_start : forall f ts l p, Forall2 (directive_text start) f ts -> filled start end_ name l p -> filled start end_ name (PStart f :: l) (List.concat ts ++ p)
| F_end : forall f ts l p, Forall2 (directive_text end_) f ts -> filled start end_ name l p -> filled start end_ name (PEnd f :: l) (List.concat ts ++ p).

(** The ISO 8601 text of an instant in UTC. *)
Definition iso_text (d : datetime) (text : pystr) : Prop := exists c, civil_valid c /\ (civil_instant c + dt_us d)%Z = instant d /\
  text = iso c ++ (if Z.eqb (dt_us d) 0 then [] else lit "." ++ decimal 6 (dt_us d)) ++ lit "Z".

(** The code of the scene in the name of the file and its attribute scene_id, from the
    extent of the image; the sectors in the order in which they are tried. *)
Definition scene_is (sc : scenes) (x y : list Q) (code name : pystr) : Prop :=
  fits x y (sc_full sc) /\ code = lit "F" /\ name = lit "Full Disk" \/
  ~ fits x y (sc_full sc) /\
  (fits x y (sc_conus sc) /\ code = lit "C" /\ name = lit "CONUS" \/
   ~ fits x y (sc_conus sc) /\
   (fits x y (sc_meso sc) /\ code = lit "M1" /\ name = lit "Mesoscale" \/
    ~ fits x y (sc_meso sc) /\
    ((exists w, span x w /\ close w (172732 # 1000000)) /\ code = lit "C" /\ name = lit "CONUS" \/
     ~ (exists w, span x w /\ close w (172732 # 1000000)) /\ code = lit "M1" /\ name = lit "Custom"))).
(** The attribute spatial_resolution for columns [dx] apart: the last of the listed
    resolutions that is within one percent, written without ".0"; or whole microradians. *)
Definition resolution_is (listed : list (string * Q)) (dx : Q) (text : pystr) : Prop :=
  (exists before name r after short, listed = before ++ (name, r) :: after /\ close r dx /\ (forall n' r', In (n', r') after -> ~ close r' dx) /\
     text = short ++ lit " at nadir" /\
     (~ In "."%char (lit name) -> short = lit name) /\
     (forall a b, lit name = a ++ lit ".0" ++ b -> ~ In "."%char (a ++ b) -> short = a ++ b)) \/
  ((forall n' r', In (n', r') listed -> ~ close r' dx) /\
   exists k n, text = decimal k n ++ lit "microradian at nadir" /\ (0 <= n < 10 ^ Z.of_nat k)%Z /\ (k = 1%nat \/ (2 <= k)%nat /\ 10 ^ (Z.of_nat k - 1) <= n)%Z /\ Qabs (inject_Z n - dx * 1000000) <= 1 # 2).

(** A number that is stored without loss: any number, or a whole number of steps that fits. *)
Definition storable (s : option Q) (v : Q) : Prop :=
  match s with None => 0 <= v | Some s => exists m : Z, (0 <= m <= 65535)%Z /\ v == inject_Z m * s end.
(** The start of frame [k]. *)
Definition start_of (j : job) (k : nat) : Z := instant (j_stamp j (nth k (gd_tedges (j_gd j)) 0)).
