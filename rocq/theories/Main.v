(* The command line: argparse as app.py 105-167 uses it. *)
From Coq Require Import ZArith String Ascii List Bool QArith_base.
From Verif Require Import Num Py Model Freq Normalize Fit Select Pi Forecast Plot App.
Import ListNotations.
Local Open Scope string_scope.
Local Open Scope list_scope.

(* the options, app.py 107-145; add_help=True adds -h and --help (107) *)
Inductive dest := DIn | DOut | DYears | DY | DDate | DWeight | DSource | DX | DFormat.
Inductive action := Store (d : dest) | StoreTrue | Help.
Definition option_table : list (string * action) :=
  [("-h", Help); ("--help", Help); ("--path_in", Store DIn); ("--path_out", Store DOut); ("--forecast_years", Store DYears);
   ("--col_name_y", Store DY); ("--col_name_date", Store DDate); ("--col_name_weight", Store DWeight);
   ("--col_name_source", Store DSource); ("--col_name_x", Store DX); ("--include_all_fits", StoreTrue);
   ("--output_format", Store DFormat)].

(* the namespace made by parse_args (147), with the defaults of app.py 107-145.  [type=float] (116) is
   the function [to_float] below; the number is kept as a fraction. *)
Record args := mkArgs { g_in : option string; g_out : option string; g_years : Q; g_y : string; g_date : string;
  g_weight : string; g_source : string; g_x : string; g_all : bool; g_format : string }.
Definition no_args : args := mkArgs None None 2 "y" "date" "weight" "source" "x" false "png".
(* parse_args returns, or leaves with sys.exit(2) after an error message, or sys.exit(0)
   after the help, or 1 with a traceback *)
Inductive parsed (A : Type) := Parsed (a : A) | Exit (code : Z).
Arguments Parsed {A}. Arguments Exit {A}.

(* s.split('=', 1) if '=' in s *)
Fixpoint split_eq (s : string) : option (string * string) :=
  match s with
  | "" => None
  | String c r => if Ascii.eqb c "=" then Some ("", r)
                  else match split_eq r with Some (a, b) => Some (String c a, b) | None => None end
  end.
Definition is_digit (c : ascii) : bool := Nat.leb 48 (nat_of_ascii c) && Nat.leb (nat_of_ascii c) 57.
Fixpoint all_digits (s : string) : bool :=
  match s with "" => true | String c r => is_digit c && all_digits r end.
Fixpoint point_digits (s : string) : bool :=
  match s with
  | "" => false
  | String c r => if Ascii.eqb c "." then negb (String.eqb r "") && all_digits r else is_digit c && point_digits r
  end.
(* the pattern of ArgumentParser for negative numbers: ^-\d+$|^-\d*\.\d+$ (without the newline that $ admits) *)
Definition negative_number (s : string) : bool :=
  match s with
  | String c r => Ascii.eqb c "-" && ((negb (String.eqb r "") && all_digits r) || point_digits r)
  | "" => false
  end.
Fixpoint has_space (s : string) : bool :=
  match s with "" => false | String c r => Ascii.eqb c " " || has_space r end.
Definition lookup (s : string) : option action := option_map snd (find (fun p => String.eqb (fst p) s) option_table).

(* ArgumentParser._parse_optional: a plain argument, an option with its attached value, an unknown
   option; None if the abbreviation is ambiguous.  Simplified: a lone '--', after which argparse takes
   every word for an argument, is treated as an ambiguous abbreviation (exit 2); the program has no
   positional arguments, so it is of use only in '--option -- value'. *)
Inductive token := TArg (s : string) | TOpt (a : action) (long : bool) (value : option string) | TUnknown.
Definition is_long (s : string) : bool := startswith s "--".
(* _get_option_tuples *)
Definition abbreviated (s : string) : list (action * bool * option string) :=
  if is_long s then
    let (p, v) := match split_eq s with Some (p, v) => (p, Some v) | None => (s, None) end in
    map (fun e => (snd e, true, v)) (filter (fun e => startswith (fst e) p) option_table)
  else
    flat_map (fun e => if String.eqb (fst e) (substring 0 2 s) then [(snd e, false, Some (substring 2 (String.length s - 2) s))]
                       else if startswith (fst e) s then [(snd e, false, None)] else []) option_table.
Definition classify (s : string) : option token :=
  if negb (startswith s "-") then Some (TArg s)
  else match lookup s with
       | Some a => Some (TOpt a (is_long s) None)
       | None =>
           if String.eqb s "-" then Some (TArg s)
           else
             match (match split_eq s with
                    | Some (p, v) => match lookup p with Some a => Some (TOpt a (is_long p) (Some v)) | None => None end
                    | None => None
                    end) with
             | Some t => Some t
             | None =>
                 match abbreviated s with
                 | [(a, l, v)] => Some (TOpt a l v)
                 | _ :: _ :: _ => None
                 | [] => if negative_number s then Some (TArg s) else if has_space s then Some (TArg s) else Some TUnknown
                 end
             end
       end.

Section Parse.
  (* float(s), None for ValueError *)
  Variable to_float : string -> option Q.
  (* the store action, app.py 108-145 *)
  Definition store (d : dest) (v : string) (a : args) : option args :=
    match a with mkArgs i o n y dt w s x al f =>
      match d with
      | DIn => Some (mkArgs (Some v) o n y dt w s x al f)
      | DOut => Some (mkArgs i (Some v) n y dt w s x al f)
      | DYears => option_map (fun q => mkArgs i o q y dt w s x al f) (to_float v)
      | DY => Some (mkArgs i o n v dt w s x al f)
      | DDate => Some (mkArgs i o n y v w s x al f)
      | DWeight => Some (mkArgs i o n y dt v s x al f)
      | DSource => Some (mkArgs i o n y dt w v x al f)
      | DX => Some (mkArgs i o n y dt w s v al f)
      | DFormat => Some (mkArgs i o n y dt w s x al v)
      end
    end.
  Definition set_all_fits (a : args) : args :=
    match a with mkArgs i o n y dt w s x _ f => mkArgs i o n y dt w s x true f end.
  (* letters attached to -h: all of them must be h; after '-h=' explicit_arg[0] raises IndexError *)
  Fixpoint only_h (s : string) : bool := match s with "" => true | String c r => Ascii.eqb c "h" && only_h r end.
  (* ArgumentParser._parse_known_args: arguments that belong to no option, and unknown options, are
     collected ([extra]) and reported at the end *)
  Fixpoint consume (l : list token) (extra : bool) (a : args) : parsed args :=
    match l with
    | [] => if extra then Exit 2 else Parsed a
    | TArg _ :: l' | TUnknown :: l' => consume l' true a
    | TOpt Help long v :: _ =>
        match v with
        | None => Exit 0
        | Some s => if long then Exit 2 else if String.eqb s "" then Exit 1 else if only_h s then Exit 0 else Exit 2
        end
    | TOpt StoreTrue _ v :: l' => match v with None => consume l' extra (set_all_fits a) | Some _ => Exit 2 end
    | TOpt (Store d) _ (Some v) :: l' => match store d v a with Some a' => consume l' extra a' | None => Exit 2 end
    | TOpt (Store d) _ None :: TArg v :: l' => match store d v a with Some a' => consume l' extra a' | None => Exit 2 end
    | TOpt (Store d) _ None :: _ => Exit 2
    end.
  (* parser.parse_args(), app.py 147: all arguments are classified first *)
  Fixpoint classify_all (l : list string) : option (list token) :=
    match l with
    | [] => Some []
    | s :: l' => match classify s, classify_all l' with Some t, Some ts => Some (t :: ts) | _, _ => None end
    end.
  Definition parse_args (argv : list string) : parsed args :=
    match classify_all argv with None => Exit 2 | Some ts => consume ts false no_args end.
End Parse.

(* The call of run_forecast_app in app.py 158-167.  [read] stands for read_csv and the parsing of dates
   under the given column names y, weight, x, date and source (app.py 74-85). *)
Definition main {T} `{NumOps T} (to_float : string -> option Q) (exists_ isdir : string -> bool) (W : string -> world T)
  (defaults : config T) (L : libs) (read : option string -> string -> string -> string -> string -> string -> raw T)
  (argv : list string) : parsed (res (outcome T)) :=
  match parse_args to_float argv with
  | Exit n => Exit n
  | Parsed a => Parsed (run_app exists_ isdir W defaults L (g_in a) (g_out a) (g_years a)
                          (read (g_in a) (g_y a) (g_weight a) (g_x a) (g_date a) (g_source a)) (g_all a) (g_format a))
  end.
