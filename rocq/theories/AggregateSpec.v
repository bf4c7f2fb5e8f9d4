(** Specification vocabulary for aggregated imagery. *)
From Coq Require Import List ZArith QArith Bool String.
From Verif Require Import Base Glm Lut Aggregate.
Import ListNotations.
Open Scope Z_scope.

Section Spec.
Variable P : Type.
(** A missing value counts nothing. *)
Definition or0 (v : fval) : Q := match v with Some q => q | None => 0%Q end.
(** Total over some frames of a quantity that each has. *)
Fixpoint total (h : frame P -> fval) (fs : list (frame P)) : Q :=
  match fs with [] => 0%Q | f :: r => (or0 (h f) + total h r)%Q end.
(** The frame falls in the interval. *)
Definition covers (iv : interval P) (f : frame P) : Prop := iv_left iv < fr_time f <= iv_right iv.
Definition coverb (lo hi : Z) (f : frame P) : bool := ((lo <? fr_time f) && (fr_time f <=? hi))%bool.
(** Consecutive intervals of [minutes] minutes from [lo] to [hi]. *)
Inductive consecutive (minutes : Z) : Z -> list (interval P) -> Z -> Prop :=
| cons_nil : forall lo, consecutive minutes lo [] lo
| cons_cons : forall iv ivs hi, iv_right iv = iv_left iv + 60 * 1000000 * minutes ->
    consecutive minutes (iv_right iv) ivs hi -> consecutive minutes (iv_left iv) (iv :: ivs) hi.
(** Names of the fields that are summed. *)
Definition summable (v : string) : Prop :=
  In v ["flash_extent_density"; "flash_centroid_density"; "total_energy"; "group_extent_density"; "group_centroid_density"]%string.
(** Least of the numbers that are not missing. *)
Definition least (vs : list fval) (m : fval) : Prop :=
  match m with
  | None => forall v, In v vs -> v = None
  | Some q => (exists q', In (Some q') vs /\ (q' == q)%Q) /\ forall q', In (Some q') vs -> (q <= q')%Q
  end.
End Spec.
Arguments total {P}. Arguments covers {P}. Arguments coverb {P}. Arguments consecutive {P}.
