(** Model of the repair of unsigned 16 bit values (glmtools/io/glm.py 48-118), bit
    exact in binary64. *)
From Coq Require Import List ZArith Bool Floats.SpecFloat.
Import ListNotations.
Open Scope Z_scope.

(** IEEE 754 binary64, round to nearest even, from the standard library. *)
Notation f64 := spec_float.
(** Product of binary64 numbers. *)
Definition fmul : f64 -> f64 -> f64 := SFmul 53 1024.
(** Sum of binary64 numbers. *)
Definition fadd : f64 -> f64 -> f64 := SFadd 53 1024.
(** Difference of binary64 numbers. *)
Definition fsub : f64 -> f64 -> f64 := SFsub 53 1024.
(** Quotient of binary64 numbers. *)
Definition fdiv : f64 -> f64 -> f64 := SFdiv 53 1024.
(** Conversion of an integer to binary64. *)
Definition of_int (z : Z) : f64 := binary_normalize 53 1024 z 0 false.
(** numpy's conversion of a finite value to an integer: towards zero (values that do
    not fit, infinities and NaN, are outside the model: None). *)
Definition to_int (x : f64) : option Z :=
  match x with
  | S754_zero _ => Some 0
  | S754_finite s m e =>
      let k := if 0 <=? e then Zpos m * 2 ^ e else Zpos m / 2 ^ (- e) in
      Some (if s then - k else k)
  | _ => None
  end.

(** glm.py 93-96: the constants as the nearest binary64 numbers. *)
Definition scale_factor : f64 := S754_finite false 4683812787755592 (-61).
(** glm.py 93: lon_fov[0] = -156.06. *)
Definition lon_fov_0 : f64 := S754_finite true 5490873108183122 (-45).
(** glm.py 95: lat_fov[0] = -66.56. *)
Definition lat_fov_0 : f64 := S754_finite true 4683743612465316 (-46).

(** xarray's decoding of a stored integer code, for files without the unsigned
    attribute taken into account (scale, then offset, in binary64). *)
Definition decode (scale offset : f64) (code : Z) : f64 := fadd (fmul (of_int code) scale) offset.

(** glm.py 111-113: one element *)
Definition make_unsigned (code : Z) : Z := if code <? 0 then code + 65536 else code.

(** glm.py 99-104 (is_xarray=True), 111-116: one element of one of the two arrays *)
Definition fix_location_xarray (offset v : f64) : option f64 :=
  match to_int (fdiv (fsub v offset) scale_factor) with
  | Some k => Some (fadd (fmul (of_int (make_unsigned k)) scale_factor) offset)
  | None => None
  end.
(** glm.py 105-109 (netCDF variables, automatic scaling off), 111-116: one element,
    the stored signed code. *)
Definition fix_location_netcdf (offset : f64) (code : Z) : f64 :=
  fadd (fmul (of_int (make_unsigned code)) scale_factor) offset.

(** glm.py 61-66 for 16 bit data: one element.  The conversion of a negative number
    to uint16 keeps the low 16 bits (what the C compilers numpy is built with do). *)
Definition fix_unsigned (scale offset v : f64) : option f64 :=
  match to_int (fdiv (fsub v offset) scale) with
  | Some k => Some (fadd (fmul (of_int (k mod 65536)) scale) offset)
  | None => None
  end.
