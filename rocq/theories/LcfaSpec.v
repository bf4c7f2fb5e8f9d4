(** Specification vocabulary for the ASCII listing of flashes, groups and events. *)
From Coq Require Import List ZArith QArith Bool Ascii String.
From Verif Require Import Base FileName Lcfa.
Import ListNotations.
Open Scope Z_scope.

(** * Literals *)
Definition digit_chars (ds : list Z) : pystr :=
  map (fun d => nth (Z.to_nat d) (lit "0123456789") "0"%char) ds.
Fixpoint place_value (ds : list Z) : Z :=
  match ds with [] => 0 | d :: r => d * 10 ^ Z.of_nat (List.length r) + place_value r end.
Definition all_digits (ds : list Z) : Prop := forall d, In d ds -> 0 <= d < 10.

(** An integer literal: minus sign or not, digits. *)
Record zlit := mkZ { z_neg : bool; z_digits : list Z }.
Definition zlit_ok (z : zlit) : Prop := all_digits (z_digits z) /\ z_digits z <> [].
Definition minus (b : bool) : pystr := if b then lit "-" else [].
Definition ztext (z : zlit) : pystr := minus (z_neg z) ++ digit_chars (z_digits z).
Definition zvalue (z : zlit) : Z := (if z_neg z then -1 else 1) * place_value (z_digits z).

(** A decimal literal: minus sign or not, digits before and after the point (with no
    point when there are none after it), exponent or not. *)
Record dlit := mkD { d_neg : bool; d_int : list Z; d_frac : list Z; d_exp : option zlit }.
Definition dlit_ok (d : dlit) : Prop :=
  all_digits (d_int d) /\ d_int d <> [] /\ all_digits (d_frac d) /\
  match d_exp d with Some e => zlit_ok e | None => True end.
Definition dtext (d : dlit) : pystr :=
  minus (d_neg d) ++ digit_chars (d_int d)
  ++ (match d_frac d with [] => [] | fs => lit "." ++ digit_chars fs end)
  ++ (match d_exp d with Some e => lit "e" ++ ztext e | None => [] end).
Definition dvalue (d : dlit) : Q :=
  ((if d_neg d then -1 else 1) *
   (inject_Z (place_value (d_int d)) + inject_Z (place_value (d_frac d)) / inject_Z (10 ^ Z.of_nat (List.length (d_frac d)))) *
   match d_exp d with Some e => Qpower (inject_Z 10) (zvalue e) | None => 1 end)%Q.

(** * Lines *)
Record lflash := mkLF { lf_id : zlit; lf_first : dlit; lf_last : dlit; lf_lat : dlit; lf_lon : dlit;
  lf_energy : dlit; lf_area : dlit; lf_children : zlit }.
Record lgroup := mkLG { lg_id : zlit; lg_nth : zlit; lg_first : dlit; lg_last : dlit; lg_lat : dlit; lg_lon : dlit;
  lg_energy : dlit; lg_area : dlit; lg_parent : zlit; lg_children : zlit }.
Record levent := mkLE { le_id : zlit; le_nth : zlit; le_time : dlit; le_x : zlit; le_y : zlit; le_lat : dlit;
  le_lon : dlit; le_energy : dlit; le_parent : zlit }.
Definition lflash_ok (l : lflash) : Prop :=
  zlit_ok (lf_id l) /\ dlit_ok (lf_first l) /\ dlit_ok (lf_last l) /\ dlit_ok (lf_lat l) /\ dlit_ok (lf_lon l) /\
  dlit_ok (lf_energy l) /\ dlit_ok (lf_area l) /\ zlit_ok (lf_children l).
Definition lgroup_ok (l : lgroup) : Prop :=
  zlit_ok (lg_id l) /\ zlit_ok (lg_nth l) /\ dlit_ok (lg_first l) /\ dlit_ok (lg_last l) /\ dlit_ok (lg_lat l) /\
  dlit_ok (lg_lon l) /\ dlit_ok (lg_energy l) /\ dlit_ok (lg_area l) /\ zlit_ok (lg_parent l) /\ zlit_ok (lg_children l).
Definition levent_ok (l : levent) : Prop :=
  zlit_ok (le_id l) /\ zlit_ok (le_nth l) /\ dlit_ok (le_time l) /\ zlit_ok (le_x l) /\ zlit_ok (le_y l) /\
  dlit_ok (le_lat l) /\ dlit_ok (le_lon l) /\ dlit_ok (le_energy l) /\ zlit_ok (le_parent l).

(** The lines of the format (its example is convert_lcfa.py 19-29). *)
Definition flash_line (l : lflash) : pystr :=
  lit "D Flash #" ++ ztext (lf_id l) ++ lit " Start Time:" ++ dtext (lf_first l)
  ++ lit " End Time:" ++ dtext (lf_last l) ++ lit " Centroid Lat:" ++ dtext (lf_lat l)
  ++ lit " Centroid Lon:" ++ dtext (lf_lon l) ++ lit " Energy:" ++ dtext (lf_energy l)
  ++ lit " Footprint:" ++ dtext (lf_area l) ++ lit " Child_Count:" ++ ztext (lf_children l).
Definition group_line (l : lgroup) : pystr :=
  [TAB] ++ lit "D Group #" ++ ztext (lg_id l) ++ lit " Child #" ++ ztext (lg_nth l)
  ++ lit " Start Time:" ++ dtext (lg_first l) ++ lit " End Time:" ++ dtext (lg_last l)
  ++ lit " Centroid Lat:" ++ dtext (lg_lat l) ++ lit " Centroid Lon:" ++ dtext (lg_lon l)
  ++ lit " Energy:" ++ dtext (lg_energy l) ++ lit " Footprint:" ++ dtext (lg_area l)
  ++ lit " Parent_ID:" ++ ztext (lg_parent l) ++ lit " Child_Count:" ++ ztext (lg_children l).
Definition event_line (l : levent) : pystr :=
  [TAB; TAB] ++ lit "Event #" ++ ztext (le_id l) ++ lit " Child #" ++ ztext (le_nth l)
  ++ lit " Time:" ++ dtext (le_time l) ++ lit " X_Pixel:" ++ ztext (le_x l) ++ lit " Y_Pixel:" ++ ztext (le_y l)
  ++ lit " Lat:" ++ dtext (le_lat l) ++ lit " Lon:" ++ dtext (le_lon l)
  ++ lit " Energy:" ++ dtext (le_energy l) ++ lit " Parent_ID:" ++ ztext (le_parent l).

(** A line of a file: one of the three, or any other one. *)
Inductive item := IFlash (l : lflash) | IGroup (l : lgroup) | IEvent (l : levent) | IOther (s : pystr).
Definition begins (p s : pystr) : Prop := exists t, s = p ++ t.
Definition item_ok (it : item) : Prop :=
  match it with
  | IFlash l => lflash_ok l
  | IGroup l => lgroup_ok l
  | IEvent l => levent_ok l
  | IOther s => ~ In NL s /\ ~ In CR s /\ ~ begins (lit "D Flash") s /\
                ~ begins ([TAB] ++ lit "D Group") s /\ ~ begins ([TAB; TAB] ++ lit "Event") s
  end.
Definition item_text (it : item) : pystr :=
  match it with IFlash l => flash_line l | IGroup l => group_line l | IEvent l => event_line l | IOther s => s end.
(** A file: lines ended by LF or CR LF, the last one possibly not ended. *)
Definition file_text (body : list (item * bool)) (last : pystr) : pystr :=
  List.concat (map (fun p => item_text (fst p) ++ (if snd p : bool then [CR; NL] else [NL])) body) ++ last.

Definition flashes_of (its : list item) : list lflash := flat_map (fun it => match it with IFlash l => [l] | _ => [] end) its.
Definition groups_of (its : list item) : list lgroup := flat_map (fun it => match it with IGroup l => [l] | _ => [] end) its.
Definition events_of (its : list item) : list levent := flat_map (fun it => match it with IEvent l => [l] | _ => [] end) its.

(** What a record says. *)
Definition flash_is (l : lflash) (f : flash) : Prop :=
  f_id f = zvalue (lf_id l) /\ (f_first f == dvalue (lf_first l))%Q /\ (f_last f == dvalue (lf_last l))%Q /\
  (f_lat f == dvalue (lf_lat l))%Q /\ (f_lon f == dvalue (lf_lon l))%Q /\ (f_energy f == dvalue (lf_energy l))%Q /\
  (f_area f == dvalue (lf_area l))%Q /\ f_children f = zvalue (lf_children l).
Definition group_is (l : lgroup) (g : group) : Prop :=
  g_id g = zvalue (lg_id l) /\ (g_time g == dvalue (lg_first l))%Q /\ (g_lat g == dvalue (lg_lat l))%Q /\
  (g_lon g == dvalue (lg_lon l))%Q /\ (g_energy g == dvalue (lg_energy l))%Q /\ (g_area g == dvalue (lg_area l))%Q /\
  g_parent g = zvalue (lg_parent l) /\ g_children g = zvalue (lg_children l).
Definition event_is (l : levent) (e : event) : Prop :=
  e_id e = zvalue (le_id l) /\ (e_time e == dvalue (le_time l))%Q /\ e_x e = zvalue (le_x l) /\
  e_y e = zvalue (le_y l) /\ (e_lat e == dvalue (le_lat l))%Q /\ (e_lon e == dvalue (le_lon l))%Q /\
  (e_energy e == dvalue (le_energy l))%Q /\ e_parent e = zvalue (le_parent l).

(** Equal but for the last column. *)
Definition flash_but_last (a b : flash) : Prop :=
  f_id a = f_id b /\ f_first a = f_first b /\ f_last a = f_last b /\ f_lat a = f_lat b /\ f_lon a = f_lon b /\
  f_energy a = f_energy b /\ f_area a = f_area b.
Definition group_but_last (a b : group) : Prop :=
  g_id a = g_id b /\ g_time a = g_time b /\ g_lat a = g_lat b /\ g_lon a = g_lon b /\
  g_energy a = g_energy b /\ g_area a = g_area b /\ g_parent a = g_parent b.
Definition event_but_last (a b : event) : Prop :=
  e_id a = e_id b /\ e_time a = e_time b /\ e_x a = e_x b /\ e_y a = e_y b /\ e_lat a = e_lat b /\
  e_lon a = e_lon b /\ e_energy a = e_energy b.
