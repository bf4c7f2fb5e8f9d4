(** Specification vocabulary for the energy spectra. *)
From Coq Require Import List ZArith QArith Bool String Ascii.
From Verif Require Import Base FileName FileNameSpec Glm Output OutputSpec.
Import ListNotations.
Open Scope list_scope.
Open Scope Z_scope.

(** The value lies in class [k] between the edges; only the last class includes its end. *)
Definition in_class (bins : list Q) (k : nat) (v : fval) : Prop :=
  exists x a b, v = Some x /\ nth_error bins k = Some a /\ nth_error bins (S k) = Some b /\
    (a <= x)%Q /\ ((x < b)%Q \/ S (S k) = List.length bins /\ (x <= b)%Q).
(** [n] is the number of those members of [l] with the property [P]. *)
Inductive number_of {A} (P : A -> Prop) : list A -> Z -> Prop :=
| No_nil : number_of P [] 0
| No_yes : forall x l n, P x -> number_of P l n -> number_of P (x :: l) (n + 1)
| No_no : forall x l n, ~ P x -> number_of P l n -> number_of P (x :: l) n.
(** Edges that do not decrease. *)
Definition ordered_bins (bins : list Q) : Prop := forall k a b, nth_error bins k = Some a -> nth_error bins (S k) = Some b -> (a <= b)%Q.

(** Year (two digits), month, day, hour, minute and second of a time, as text. *)
Definition time_text (d : datetime) (t : pystr) : Prop :=
  exists ts, Forall2 (directive_text d) [Diry; Dirm; Dird; DirH; DirM; DirS] ts /\ t = List.concat ts.
(** A file in a directory. *)
Definition in_directory (dir name p : pystr) : Prop :=
  p = dir ++ lit "/" ++ name \/ p = dir ++ name /\ (dir = [] \/ exists d, dir = d ++ lit "/").
Definition brace_free (s : pystr) : Prop := ~ In "{"%char s /\ ~ In "}"%char s.
(** A real date of the years [100 c] to [100 c + 99]. *)
Definition in_century (c : Z) (d : datetime) : Prop := valid_from 1 d /\ c * 100 <= dt_year d < c * 100 + 100.
