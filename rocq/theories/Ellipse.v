(** Model of glmtools/io/lightning_ellipse.py: the lightning ellipsoids and the
    navigation of longitude and latitude to fixed grid angles, over exact real
    numbers (the code uses binary64). *)
From Coq Require Import ZArith Bool Reals.
From Verif Require Import Base FileName.
Open Scope R_scope.

(** lightning_ellipse.py 5-15: equatorial and polar radii by revision; other
    keys raise KeyError. *)
Definition lightning_ellipse_rev (rev : Z) : res (R * R) :=
  match rev with
  | 0%Z => Ok (6394140, 6362755)
  | 1%Z => Ok (6378137 + 14000, 6362755)
  | _ => Err KeyError
  end.

(** The order of datetime objects: field by field.  The code's datetimes carry a
    month and day of the month where [datetime] carries the day of the year. *)
Definition dt_ltb (a b : datetime) : bool :=
  let key d := (dt_year d :: dt_yday d :: dt_hour d :: dt_min d :: dt_sec d :: dt_us d :: nil)%list in
  (fix lex (x y : list Z) : bool :=
     match x, y with
     | (p :: x')%list, (q :: y')%list => ((p <? q)%Z || ((p =? q)%Z && lex x' y'))%bool
     | nil, (_ :: _)%list => true
     | _, nil => false
     end) (key a) (key b).

(** lightning_ellipse.py 39-42: October 15 is day 288 of 2018. *)
Definition ltg_ellpse_rev (date : datetime) : Z :=
  if dt_ltb date (mkDT 2018 288 0 0 0 0) then 0%Z else 1%Z.

(** Names bound at module level of lightning_ellipse.py, as used in the body of
    ltg_ellps_radii: calling one that is not bound raises NameError. *)
Inductive fname := F_ltg_ellpse_rev | F_ltg_ellps_rev.
(** lightning_ellipse.py 17, 44, 68: only the name with "ellpse" is defined. *)
Definition module_function (f : fname) : option (datetime -> Z) :=
  match f with F_ltg_ellpse_rev => Some ltg_ellpse_rev | F_ltg_ellps_rev => None end.
(** lightning_ellipse.py 65-66 *)
Definition ltg_ellps_radii (date : datetime) : res (R * R) :=
  match module_function F_ltg_ellps_rev with
  | None => Err NameError
  | Some f => lightning_ellipse_rev (f date)
  end.

(** glm.py 551-557: the revision used for a dataset: the argument, or the one
    inferred from the product time, taken to the second. *)
Definition dataset_ellipse_rev (ellipse_rev : Z) (product_time : datetime) : Z :=
  if (ellipse_rev <? 0)%Z
  then ltg_ellpse_rev (mkDT (dt_year product_time) (dt_yday product_time) (dt_hour product_time)
                            (dt_min product_time) (dt_sec product_time) 0)
  else ellipse_rev.

(** np.radians *)
Definition radians (d : R) : R := d * PI / 180.

(** lightning_ellipse.py 68-70: default arguments *)
Definition re_grs80 : R := 6378137.
(** lightning_ellipse.py 69: polar radius. *)
Definition rp_grs80 : R := 635675231414 / 100000.
(** lightning_ellipse.py 70: height of the satellite. *)
Definition sat_grs80_height : R := 35786023.

(** lightning_ellipse.py 109-111: one element of the array of offsets *)
Definition wrap_offset (dlon : R) : R :=
  let d1 := if Rlt_dec dlon (-180) then dlon + 360 else dlon in
  if Rlt_dec 180 d1 then d1 - 360 else d1.

(** lightning_ellipse.py 100-133 for one element, with the radii looked up and the
    default arguments as parameters. *)
Definition fixed_grid_angles (re_ltg rp_ltg re_grs rp_grs height lon lat sat_lon : R) : R * R :=
  let ff_ltg := (re_ltg - rp_ltg) / re_ltg in
  let ff_grs := (re_grs - rp_grs) / re_grs in
  let sat_H := height + re_grs in
  let lon_rad := radians (wrap_offset (lon - sat_lon)) in
  let lat_rad := radians lat in
  let lat_geocent := atan ((1 - ff_grs) ^ 2 * tan lat_rad) in
  let cos_factor := cos lat_geocent in
  let sin_factor := sin lat_geocent in
  let Rr := re_ltg * (1 - ff_ltg) / sqrt (1 - ff_ltg * (2 - ff_ltg) * cos_factor * cos_factor) in
  let vx := Rr * cos_factor * cos lon_rad - sat_H in
  let vy := Rr * cos_factor * sin lon_rad in
  let vz := Rr * sin_factor in
  let vmag := sqrt (vx * vx + vy * vy + vz * vz) in
  let vx' := vx / - vmag in
  let vy' := vy / - vmag in
  let vz' := vz / vmag in
  (- asin vy', atan (vz' / vx')).

(** lightning_ellipse.py 68-133 *)
Definition ltg_ellps_lon_lat_to_fixed_grid (lon lat sat_lon : R) (ellipse_rev : Z) : res (R * R) :=
  match lightning_ellipse_rev ellipse_rev with
  | Err e => Err e
  | Ok (re_ltg, rp_ltg) =>
      Ok (fixed_grid_angles re_ltg rp_ltg re_grs80 rp_grs80 sat_grs80_height lon lat sat_lon)
  end.
