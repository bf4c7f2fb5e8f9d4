(** Model of the pixel identifiers of glmtools/io/glm.py 712-735 in binary64, bit exact.
    Lut.v has the same code with exact numbers. *)
From Coq Require Import List ZArith Bool Floats.SpecFloat.
From Verif Require Import Base Unsigned.
Import ListNotations.
Open Scope Z_scope.

Section CAST.
(** Value of the C cast from double to uint64 for NaN and for numbers outside the range,
    which C leaves unspecified. *)
Variable weird : f64 -> Z.
(** [v.astype('uint64')] (glm.py 730-733): towards zero; -0.5 gives 0. *)
Definition cast64 (v : f64) : Z :=
  match to_int v with
  | Some t => if (0 <=? t) && (t <? 2 ^ 64) then t else weird v mod 2 ^ 64
  | None => weird v mod 2 ^ 64
  end.
(** glm.py 730, 732, 733: [((x - x_offset) / scale).astype(int_type)]. *)
Definition axis_index (scale off x : f64) : Z := cast64 (fdiv (fsub x off) scale).
(** glm.py 712-735: discretize_2d_location with int_type='uint64', for one location; line 731
    (discr_y_max) is not used.  Products and sums of uint64 wrap around. *)
Definition discretize64 (scale : f64) (x_range y_range : f64 * f64) (x y : f64) : Z :=
  let discr_x_max := axis_index scale (fst x_range) (snd x_range) in
  let x_discr := axis_index scale (fst x_range) x in
  let y_discr := axis_index scale (fst y_range) y in
  (x_discr + (y_discr * discr_x_max) mod 2 ^ 64) mod 2 ^ 64.
End CAST.

(** glm.py 589-590: [scale_factor=28e-6, x_range=(-.31, .31), y_range=(-.31, .31)]. *)
Definition lut_scale64 : f64 := S754_finite false 8264141345021879 (-68).
(** glm.py 590. *)
Definition lut_lo64 : f64 := S754_finite true 5584463537939415 (-54).
(** glm.py 590. *)
Definition lut_hi64 : f64 := S754_finite false 5584463537939415 (-54).
