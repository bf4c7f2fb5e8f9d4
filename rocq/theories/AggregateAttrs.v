(** Model of the attributes that aggregate gives its result (imagery.py 653-657). *)
From Coq Require Import List ZArith.
From Verif Require Import Base Lut Aggregate.
Import ListNotations.
Open Scope Z_scope.

(** imagery.py 653-657: [min] of the left and [max] of the right edges of the bins, as instants;
    the texts that isoformat makes of them are left out.  [min] of an empty list raises
    ValueError. *)
Definition coverage {P} (out : list (interval P)) : res (Z * Z) :=
  match out with
  | [] => Err ValueError
  | _ => Ok (zmin_list (map iv_left out), zmax_list (map iv_right out))
  end.
(** imagery.py 572-659 with the attributes. *)
Definition aggregate_attrs {P} (g : series P) (minutes : Z) (start_end : option (Z * Z)) : res (list (interval P) * (Z * Z)) :=
  out <- aggregate g minutes start_end ;;
  c <- coverage out ;;
  Ok (out, c).
