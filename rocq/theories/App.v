(* The command line application.  Models anticipy/app.py 38-102. *)
From Coq Require Import ZArith String Ascii List Bool QArith_base.
From Verif Require Import Num Py Model Freq Normalize Fit Select Pi Forecast Plot.
Import ListNotations.
Local Open Scope string_scope.
Local Open Scope list_scope.

Definition slash : ascii := "/"%char.
Definition dot : ascii := "."%char.
(* posixpath.split before stripping: the path up to and including the last slash, and the rest *)
Fixpoint split_path (s : string) : string * string :=
  match s with
  | "" => ("", "")
  | String c r =>
      let (h, t) := split_path r in
      match h with
      | "" => if Ascii.eqb c slash then (String c "", t) else ("", String c t)
      | _ => (String c h, t)
      end
  end.
(* s.rstrip('/') *)
Fixpoint rstrip (s : string) : string :=
  match s with
  | "" => ""
  | String c r => match rstrip r with
                  | "" => if Ascii.eqb c slash then "" else String c ""
                  | r' => String c r'
                  end
  end.
(* os.path.basename, app.py 50 (POSIX paths) *)
Definition basename (p : string) : string := snd (split_path p).
(* os.path.dirname, app.py 60: a head consisting of slashes only is kept *)
Definition dirname (p : string) : string :=
  let h := fst (split_path p) in match rstrip h with "" => h | d => d end.
(* file_name.split('.')[0], app.py 51 *)
Fixpoint stem (s : string) : string :=
  match s with "" => "" | String c r => if Ascii.eqb c dot then "" else String c (stem r) end.
Definition ends_with_slash (s : string) : bool :=
  match s with "" => false | _ => String.eqb (String.substring (String.length s - 1) 1 s) "/" end.
(* os.path.join(a, b), app.py 64-66 *)
Definition join (a b : string) : string :=
  if startswith b "/" then b
  else if String.eqb a "" || ends_with_slash a then (a ++ b)%string else (a ++ "/" ++ b)%string.

(* app.py 47-66.  [exists_] and [isdir] are os.path.exists and os.path.isdir. *)
Record paths := mkPaths { p_data : string; p_meta : string; p_plot : string }.
Definition app_paths (exists_ isdir : string -> bool) (path_in path_out : option string) : res paths :=
  match path_in with
  | None => Err AssertionError
  | Some i =>
      if negb (exists_ i) then Err AssertionError
      else if isdir i then Err AssertionError
      else
        let s := stem (basename i) in
        let o := match path_out with None => i | Some o => o end in
        if negb (exists_ o) then Err AssertionError
        else
          let d := dirname o in
          Ok (mkPaths (join d (s ++ "_fcast.csv")) (join d (s ++ "_metadata.csv")) (join d (s ++ "_fcast")))%string
  end.

Section App.
  Context {T : Type} `{NumOps T}.

  (* What a run leaves behind: the two csv files with their tables, and the plot, None if
     plot_forecast raised AssertionError. *)
  Record outcome := mkOut { out_data : string * list (drow T); out_meta : string * list (mrow T);
                            out_plot : option (plot T) }.
  (* app.py 98-99; dpi is at its default (forecast_plot.py 369) *)
  Definition app_size : size := mkSize (Some 1920%Z) (Some 1080%Z) 70.
  (* the arguments of run_forecast in app.py 87-91 that are not at their defaults (forecast.py
     804-824; the models of the defaults are parameters of the model) *)
  Definition app_config (c : config T) (years : Q) (all : bool) : config T :=
    mkCfg (c_trend c) (c_season c) (c_start c) years (c_mode c) all (c_outliers c)
      (c_yearly c) (c_weekly c) (c_naive c) (c_calendar c) (c_ncum c) (c_q1 c) (c_q2 c) (c_widen c) (c_cache c).
  (* app.py 38-102.  [t] is the table read by read_csv with parsed dates, under the given column
     names; [defaults] the default arguments of run_forecast.  normalize_df(None) raises AssertionError.
     (An exception of plot_forecast other than AssertionError leaves both csv files written.) *)
  Definition run_app (exists_ isdir : string -> bool) (W : string -> world T) (defaults : config T)
    (L : libs) (path_in path_out : option string) (years : Q) (t : raw T) (all : bool) (format : string)
    : res outcome :=
    let* p := app_paths exists_ isdir path_in path_out in
    let* o := normalize_df t in
    match o with
    | None => Err AssertionError
    | Some f =>
        let* r := run_forecast W (app_config defaults years all) "src" (raw_of f) in
        match r with
        | None => Err TypeError                  (* None['data'] *)
        | Some r =>
            let done g := Ok (mkOut (p_data p, rs_data r) (p_meta p, rs_meta r) g) in
            match plot_forecast L format (Some (p_plot p)) app_size true (rs_data r) with
            | Ok g => done (Some g)
            | Err AssertionError => done None
            | Err e => Err e
            end
        end
    end.
End App.
Arguments outcome : clear implicits.
