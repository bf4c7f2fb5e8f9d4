(** Model of the command line of examples/grid/make_GLM_grids.py: the parser (23-108), what
    argparse does with it (Python 3.8 to 3.11; texts of messages left out), and the step to
    grid_setup (GridSetup.v).  Arguments have ASCII characters without line ends. *)
From Coq Require Import List ZArith QArith Bool Ascii String.
From Verif Require Import Base FileName GridSetup.
Import ListNotations.
Open Scope Z_scope.

(** * The parser *)
(** Attributes of the namespace other than the file names (make_GLM_grids.py 26-106). *)
Inductive dest :=
| Outdir | CtrLat | CtrLon | Start | End_ | Dx | Dy | Dt | Width | Height | MinEvents | MinGroups
| FixedGrid | Subdivide | Position | Sector | CornerPoints | SplitEvents | EllipseRev | ScaleOffset | IsLma.
(** Equality of attributes. *)
Definition dest_eqb (a b : dest) : bool :=
  match a, b with
  | Outdir, Outdir | CtrLat, CtrLat | CtrLon, CtrLon | Start, Start | End_, End_ | Dx, Dx | Dy, Dy | Dt, Dt
  | Width, Width | Height, Height | MinEvents, MinEvents | MinGroups, MinGroups | FixedGrid, FixedGrid
  | Subdivide, Subdivide | Position, Position | Sector, Sector | CornerPoints, CornerPoints
  | SplitEvents, SplitEvents | EllipseRev, EllipseRev | ScaleOffset, ScaleOffset | IsLma, IsLma => true
  | _, _ => false
  end.
(** Values of attributes. *)
Inductive value := VNone | VText (s : pystr) | VFloat (q : Q) | VInt (z : Z) | VBool (b : bool).
(** [type=]: none, float or int. *)
Inductive kind := KText | KFloat | KInt.
(** [action='help'] (added by argparse), 'store', 'store_true' and 'store_false'. *)
Inductive action := Help | Store (k : kind) (d : dest) | Flag (d : dest) (b : bool).

(** make_GLM_grids.py 24-106: the option strings, in the order in which they are added. *)
Definition options : list (pystr * action) :=
  [(lit "-h", Help); (lit "--help", Help);
   (lit "-o", Store KText Outdir); (lit "--output_path", Store KText Outdir);
   (lit "--ctr_lat", Store KFloat CtrLat); (lit "--ctr_lon", Store KFloat CtrLon);
   (lit "--start", Store KText Start); (lit "--end", Store KText End_);
   (lit "--dx", Store KFloat Dx); (lit "--dy", Store KFloat Dy); (lit "--dt", Store KFloat Dt);
   (lit "--width", Store KFloat Width); (lit "--height", Store KFloat Height);
   (lit "--nevents", Store KInt MinEvents); (lit "--ngroups", Store KInt MinGroups);
   (lit "--fixed_grid", Flag FixedGrid true); (lit "--subdivide_grid", Store KInt Subdivide);
   (lit "--goes_position", Store KText Position); (lit "--goes_sector", Store KText Sector);
   (lit "--corner_points", Store KText CornerPoints); (lit "--split_events", Flag SplitEvents true);
   (lit "--ellipse", Store KInt EllipseRev); (lit "--float_output", Flag ScaleOffset false);
   (lit "--lma", Flag IsLma true)].
(** The namespace before parsing: the defaults (make_GLM_grids.py 26-106; False for
    'store_true', None where none is given). *)
Definition defaults : list (dest * value) :=
  [(Outdir, VText (lit "./{dataset_name}")); (CtrLat, VNone); (CtrLon, VNone); (Start, VNone); (End_, VNone);
   (Dx, VFloat 10); (Dy, VFloat 10); (Dt, VFloat 60); (Width, VFloat 400); (Height, VFloat 400);
   (MinEvents, VInt 1); (MinGroups, VInt 1); (FixedGrid, VBool false); (Subdivide, VInt 1);
   (Position, VText (lit "none")); (Sector, VText (lit "none")); (CornerPoints, VNone);
   (SplitEvents, VBool false); (EllipseRev, VInt (-1)); (ScaleOffset, VBool true); (IsLma, VBool false)].
(** [setattr(namespace, dest, v)]. *)
Definition set_attr (ns : list (dest * value)) (d : dest) (v : value) : list (dest * value) :=
  map (fun p => if dest_eqb (fst p) d then (d, v) else p) ns.
(** [getattr(namespace, dest)]. *)
Definition get_attr (ns : list (dest * value)) (d : dest) : value :=
  match find (fun p => dest_eqb (fst p) d) ns with Some p => snd p | None => VNone end.

(** * argparse *)
(** [s.startswith(p)]. *)
Fixpoint starts_with (p s : pystr) : bool :=
  match p, s with
  | [], _ => true
  | a :: p', b :: s' => Ascii.eqb a b && starts_with p' s'
  | _, _ => false
  end.
(** Equality of strings. *)
Definition str_eqb (a b : pystr) : bool := if list_eq_dec ascii_dec a b then true else false.
(** [s.split('=', 1)], None if there is no equals sign. *)
Fixpoint split_eq (s : pystr) : option (pystr * pystr) :=
  match s with
  | [] => None
  | c :: r => if Ascii.eqb c "=" then Some ([], r)
              else match split_eq r with Some (a, b) => Some (c :: a, b) | None => None end
  end.
(** [self._option_string_actions.get(s)]. *)
Definition find_option (s : pystr) : option action :=
  match find (fun o => str_eqb (fst o) s) options with Some o => Some (snd o) | None => None end.
(** A digit. *)
Definition is_digit (c : ascii) : bool := match digit_val c with Some _ => true | None => false end.
(** [^-\d+$|^-\d*\.\d+$] (argparse, _negative_number_matcher) after the minus sign. *)
Fixpoint after_minus (s : pystr) : bool :=
  match s with
  | [] => false
  | c :: r => if Ascii.eqb c "." then negb (Nat.eqb (List.length r) 0) && forallb is_digit r
              else is_digit c && (Nat.eqb (List.length r) 0 || after_minus r)
  end.
(** The same, with the minus sign. *)
Definition negative_number (s : pystr) : bool := match s with c :: r => Ascii.eqb c "-" && after_minus r | [] => false end.

(** Kinds of arguments: an option (None: unknown) with its string and the value given in the
    same argument; anything else; the two dashes.  Pattern letters O, A and - of argparse. *)
Inductive token := TOpt (a : option action) (name : pystr) (explicit : option pystr) | TArg | TDash.
(** argparse, _get_option_tuples, for an argument of two characters or more that begins with
    a dash. *)
Definition option_tuples (s : pystr) : list (action * pystr * option pystr) :=
  match s with
  | _ :: c :: r =>
      if Ascii.eqb c "-" then
        let (p, e) := match split_eq s with Some (a, b) => (a, Some b) | None => (s, None) end in
        map (fun o => (snd o, fst o, e)) (filter (fun o => starts_with p (fst o)) options)
      else
        flat_map (fun o => if str_eqb (fst o) (firstn 2 s) then [(snd o, fst o, Some r)]
                           else if starts_with s (fst o) then [(snd o, fst o, None)] else []) options
  | _ => []
  end.
(** argparse, _parse_optional; None: the error of an ambiguous option. *)
Definition parse_optional (s : pystr) : option token :=
  match s with
  | [] => Some TArg
  | c :: rest =>
      if negb (Ascii.eqb c "-") then Some TArg
      else match find_option s with
      | Some a => Some (TOpt (Some a) s None)
      | None =>
          if Nat.eqb (List.length rest) 0 then Some TArg
          else
            let direct := match split_eq s with
                          | Some (o, e) => match find_option o with Some a => Some (TOpt (Some a) o (Some e)) | None => None end
                          | None => None
                          end in
            match direct with
            | Some t => Some t
            | None =>
                match option_tuples s with
                | [(a, o, e)] => Some (TOpt (Some a) o e)
                | _ :: _ :: _ => None
                | [] => if negative_number s then Some TArg
                        else if existsb (Ascii.eqb " ") s then Some TArg
                        else Some (TOpt None s None)
                end
            end
      end
  end.
(** argparse, _parse_known_args, first loop: after two dashes everything is an argument. *)
Fixpoint classify (args : list pystr) : option (list (pystr * token)) :=
  match args with
  | [] => Some []
  | s :: r =>
      if str_eqb s (lit "--") then Some ((s, TDash) :: map (fun x => (x, TArg)) r)
      else match parse_optional s, classify r with
           | Some t, Some ts => Some ((s, t) :: ts)
           | _, _ => None
           end
  end.

(** End of parsing: the file names and the other attributes, an exit with a status, or an
    exception. *)
Inductive outcome := Parsed (files : list pystr) (ns : list (dest * value)) | Exits (code : Z) | Raises (e : exn).
(** The positional argument: not met, being matched, or already taken. *)
Inductive positional := Pending | Taking (l : list pystr) | Taken (l : list pystr).
(** [arg_strings.remove('--')]: the first one (argparse, _get_values). *)
Fixpoint remove_dashes (l : list pystr) : list pystr :=
  match l with [] => [] | s :: r => if str_eqb s (lit "--") then r else s :: remove_dashes r end.
(** An argument outside of options: '*' takes all consecutive ones the first time, later ones
    are left over (argparse, consume_positionals and the loop around it). *)
Definition positional_arg (p : positional) (s : pystr) (extras : bool) : positional * bool :=
  match p with
  | Pending => (Taking [s], extras)
  | Taking l => (Taking (l ++ [s]), extras)
  | Taken l => (Taken l, true)
  end.
(** An option ends the run of consecutive arguments. *)
Definition option_met (p : positional) : positional := match p with Taking l => Taken l | _ => p end.
(** -h with more letters in one argument (argparse, consume_optional): each letter is an
    option until one takes a value; then the help is shown. *)
Fixpoint help_letters (e : pystr) (arg_follows : bool) : outcome :=
  match e with
  | [] => Raises IndexError
  | c :: r =>
      if Ascii.eqb c "h" then match r with [] => Exits 0 | _ => help_letters r arg_follows end
      else if Ascii.eqb c "o" then match r with [] => if arg_follows then Exits 0 else Exits 2 | _ => Exits 0 end
      else Exits 2
  end.

Section Convert.
(** [float(s)] and [int(s)], None for ValueError.  Infinities and NaN are not modelled. *)
Variable py_float : pystr -> option Q.
Variable py_int : pystr -> option Z.
(** argparse, _get_value. *)
Definition convert (k : kind) (s : pystr) : option value :=
  match k with
  | KText => Some (VText s)
  | KFloat => option_map VFloat (py_float s)
  | KInt => option_map VInt (py_int s)
  end.
(** argparse, the loop of _parse_known_args with consume_optional and take_action, then
    parse_args: anything left over is an error (status 2). *)
Fixpoint run (toks : list (pystr * token)) (p : positional) (extras : bool) (ns : list (dest * value)) : outcome :=
  match toks with
  | [] => if extras then Exits 2
          else Parsed (match p with Pending => [] | Taking l | Taken l => remove_dashes l end) ns
  | (s, t) :: r =>
      match t with
      | TArg | TDash => let (p', e') := positional_arg p s extras in run r p' e' ns
      | TOpt None _ _ => run r (option_met p) true ns
      | TOpt (Some Help) name None => Exits 0
      | TOpt (Some Help) name (Some e) =>
          if starts_with (lit "--") name then Exits 2
          else help_letters e (match r with (_, TArg) :: _ => true | _ => false end)
      | TOpt (Some (Flag d b)) _ None => run r (option_met p) extras (set_attr ns d (VBool b))
      | TOpt (Some (Flag d b)) _ (Some _) => Exits 2
      | TOpt (Some (Store k d)) _ (Some e) =>
          if str_eqb e (lit "--") then Raises ValueError
          else match convert k e with
               | Some v => run r (option_met p) extras (set_attr ns d v)
               | None => Exits 2
               end
      | TOpt (Some (Store k d)) _ None =>
          match r with
          | (v, TArg) :: r' =>
              if str_eqb v (lit "--") then Raises ValueError
              else match convert k v with
                   | Some x => run r' (option_met p) extras (set_attr ns d x)
                   | None => Exits 2
                   end
          | _ => Exits 2
          end
      end
  end.
(** [parser.parse_args()] (make_GLM_grids.py 324-325). *)
Definition parse_args (argv : list pystr) : outcome :=
  match classify argv with Some toks => run toks Pending false defaults | None => Exits 2 end.

(** * The script *)
Section Script.
Variable goes_grid : string -> string -> string -> res view.
Variable to_grid : Q -> Q * Q -> Q * Q.
Variable to_lonlat : Q -> Q * Q -> Q * Q.
Variable dlonlat : Q * Q -> Q * Q -> Q * Q -> Q * Q -> (Q * Q) * (Q * Q) * (Q * Q).

(** Attributes as grid_setup reads them. *)
Definition num (v : value) : Q := match v with VFloat q => q | _ => 0%Q end.
(** An integer attribute. *)
Definition int (v : value) : Z := match v with VInt z => z | _ => 0 end.
(** A flag. *)
Definition flag (v : value) : bool := match v with VBool b => b | _ => false end.
(** A text. *)
Definition txt (v : value) : pystr := match v with VText s => s | _ => [] end.
(** A text or None. *)
Definition opt_txt (v : value) : option pystr := match v with VText s => Some s | _ => None end.
(** The namespace as the command line of GridSetup.v; no centre is 0, see below. *)
Definition cmd_of (files : list pystr) (ns : list (dest * value)) : cmdline :=
  let g := get_attr ns in
  mkCmd files (opt_txt (g Start)) (opt_txt (g End_)) (num (g Dx)) (num (g Dy)) (num (g Width)) (num (g Height))
    (num (g CtrLon)) (num (g CtrLat)) (num (g Dt)) (int (g MinEvents)) (int (g MinGroups)) (flag (g FixedGrid)) (int (g Subdivide))
    (string_of_list_ascii (txt (g Position))) (string_of_list_ascii (txt (g Sector))) (flag (g SplitEvents)) (flag (g ScaleOffset)) (int (g EllipseRev)).
(** A run of the script: the call of the gridding function (make_GLM_grids.py 323-330)
    with the template of the output path; --lma is not modelled (None). *)
Inductive script := Gridding (files : list pystr) (t0 t1 : datetime) (kw : gridargs) (outpath : pystr) | Fails (e : exn) | Stops (code : Z) | Lma.
(** Whether the centre is read: always without --fixed_grid (269-270), by toECEF for 'meso' and
    for free grids (224-240). *)
Definition centre_read (ns : list (dest * value)) : bool :=
  negb (flag (get_attr ns FixedGrid)) || str_eqb (txt (get_attr ns Sector)) (lit "none") ||
  (str_eqb (txt (get_attr ns Sector)) (lit "meso") &&
   match goes_grid (string_of_list_ascii (txt (get_attr ns Position))) "meso"%string (GridSetup.nearest_resolution (num (get_attr ns Dx))) with
   | Ok v => match vw_ctr v with None => true | Some _ => false end
   | Err _ => false
   end).
(** make_GLM_grids.py 323-330.  A missing centre that is read raises TypeError (if nothing
    else raises before). *)
Definition script_main (argv : list pystr) : script :=
  match parse_args argv with
  | Exits c => Stops c
  | Raises e => Fails e
  | Parsed files ns =>
      if flag (get_attr ns IsLma) then Lma
      else match GridSetup.grid_setup goes_grid to_grid to_lonlat dlonlat (cmd_of files ns) with
           | Err e => Fails e
           | Ok (fs, t0, t1, kw) =>
               match get_attr ns CtrLon, get_attr ns CtrLat with
               | VFloat _, VFloat _ => Gridding fs t0 t1 kw (txt (get_attr ns Outdir))
               | _, _ => if centre_read ns then Fails TypeError else Gridding fs t0 t1 kw (txt (get_attr ns Outdir))
               end
           end
  end.
End Script.
End Convert.
