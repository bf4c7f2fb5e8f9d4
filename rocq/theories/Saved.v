(** Model of the saved lookups of glmtools/io/ccd.py (219-266) and of the reader of pixel
    locations (152-170). *)
From Coq Require Import List ZArith QArith Bool Ascii String.
From Verif Require Import Base FileName Ccd.
Import ListNotations.
Open Scope Z_scope.

(** Files by name; the last entry written comes first. *)
Definition files := list (pystr * pystr).
(** Equality of names. *)
Definition same_name (a b : pystr) : bool := if list_eq_dec ascii_dec a b then true else false.
(** [open(filename, 'rb').read()]. *)
Definition read_bytes (fs : files) (n : pystr) : option pystr :=
  match find (fun p => same_name (fst p) n) fs with Some p => Some (snd p) | None => None end.
(** [open(filename, 'wb')] then writing [b]: the file is emptied or created first. *)
Definition write_bytes (fs : files) (n b : pystr) : files := (n, b) :: fs.

Section PICKLE.
(** The objects saved: the tree, index arrays, coordinate arrays, the table of corner
    offsets (ccd.py 219-257). *)
Variable obj : Type.
(** [pickle.dumps] and [pickle.loads] of a tuple ([None]: raises). *)
Variable dumps : list obj -> pystr.
Variable loads : pystr -> option (list obj).
(** Names that can be opened for writing. *)
Variable can_open : pystr -> bool.

(** ccd.py 224-230 and 252-257: [if filename:] is false for None and for the empty string. *)
Definition save_object (o : list obj) (filename : option pystr) (fs : files) : res (files * option pystr) :=
  match filename with
  | Some (c :: r) => if can_open (c :: r) then Ok (write_bytes fs (c :: r) (dumps o), None) else Err OSError
  | _ => Ok (fs, Some (dumps o))
  end.
(** ccd.py 219-230. *)
Definition save_pixel_corner_lookup (lons lats corners : obj) (filename : option pystr) (fs : files) : res (files * option pystr) :=
  save_object [lons; lats; corners] filename fs.
(** ccd.py 245-257. *)
Definition save_pixel_lookup (lookup X Y lons lats : obj) (filename : option pystr) (fs : files) : res (files * option pystr) :=
  save_object [lookup; X; Y; lons; lats] filename fs.
(** ccd.py 238-240 and 264-266.  Bytes that are no pickle raise (the kind of exception is
    simplified to ValueError). *)
Definition load_object (fs : files) (filename : pystr) : res (list obj) :=
  match read_bytes fs filename with
  | None => Err FileNotFoundError
  | Some b => match loads b with Some o => Ok o | None => Err ValueError end
  end.
(** ccd.py 232-240. *)
Definition load_pixel_corner_lookup (fs : files) (filename : pystr) : res (list obj) := load_object fs filename.
(** ccd.py 259-266. *)
Definition load_pixel_lookup (fs : files) (filename : pystr) : res (list obj) := load_object fs filename.
(** The files when the process ends while [f.write] has put [k] bytes of the pickle
    (ccd.py 226-227, 253-255). *)
Definition interrupted (o : list obj) (n : pystr) (k : nat) (fs : files) : files := write_bytes fs n (firstn k (dumps o)).

(** One call of a saving function. *)
Inductive save_call :=
| SaveCorners (lons lats corners : obj) (filename : option pystr)
| SaveLookup (lookup X Y lons lats : obj) (filename : option pystr).
(** The call on the files (ccd.py 219-257). *)
Definition do_save (c : save_call) (fs : files) : res (files * option pystr) :=
  match c with
  | SaveCorners lo la co n => save_pixel_corner_lookup lo la co n fs
  | SaveLookup t x y lo la n => save_pixel_lookup t x y lo la n fs
  end.
(** Calls one after the other. *)
Fixpoint do_saves (cs : list save_call) (fs : files) : res files :=
  match cs with [] => Ok fs | c :: r => s <- do_save c fs ;; do_saves r (fst s) end.
End PICKLE.

(** [a, b, c = t]. *)
Definition unpack3 {A} (l : list A) : res (A * A * A) := match l with [a; b; c] => Ok (a, b, c) | _ => Err ValueError end.
(** [a, b, c, d, e = t]. *)
Definition unpack5 {A} (l : list A) : res (A * A * A * A * A) := match l with [a; b; c; d; e] => Ok (a, b, c, d, e) | _ => Err ValueError end.

(** ccd.py 164-170: the two arrays as they are in the file, NaN masked, longitudes less
    360.  Under the mask the value 0 stands for NaN. *)
Definition masked_nan (a : arr2 fval) (shift : Q) : ndarray :=
  mkArr (map (map (fun v => match v with Some q => (q + shift)%Q | None => 0%Q end)) a)
    (Some (Mask (map (map (fun v => match v with Some _ => false | None => true end)) a))).
(** ccd.py 152-170. *)
Definition read_pixel_location_mat_file (lats lons : arr2 fval) : ndarray * ndarray := (masked_nan lons (-360), masked_nan lats 0).
