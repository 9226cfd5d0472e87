(* Inputs of a list of forecasts.  Models anticipy/forecast.py 45-50, 1432-1444, 1482-1512 and 1518-1562. *)
From Coq Require Import ZArith String List Bool QArith_base.
From Verif Require Import Num Py Cal Model Base Normalize Fit Select Forecast.
Import ListNotations.
Local Open Scope string_scope.
Local Open Scope list_scope.

Section Input.
  Context {T : Type} `{NumOps T}.
  Notation M := (fmodel T).

  (* forecast.py 45-50: names of a list of models, None for a missing list or entry *)
  Definition to_str_function_list (l : option (list (option M))) : option (list (option string)) :=
    match l with
    | None => None
    | Some l => Some (map (fun o => match o with Some m => Some (fm_name m) | None => None end) l)
    end.

  (* forecast.py 1518-1537: the attributes of ForecastInput.  The text representation (1539-1556)
     is not modelled. *)
  Record forecast_input := mkInput {
    in_id : string; in_table : raw T; in_trend : list M; in_season : option (list M);
    in_weights : T; in_start : option Z }.
  (* forecast.py 1523-1537: the constructor *)
  Definition new_input (id : string) (t : raw T) (trend season : option (list M)) (weights : T) (start : option Z)
    : forecast_input :=
    mkInput id t (match trend with Some l => l | None => [model_linear] end) season weights start.
  (* forecast.py 1559-1562: the class method create.  pd.Series(None) is an empty series, which is
     not None. *)
  Definition create_input (id : string) (t : raw T) (trend season : option (list M)) (weights : T) (start : option Z)
    : forecast_input :=
    new_input id t (Some (match trend with Some l => l | None => [] end)) season weights start.

  (* the arguments of run_l_forecast common to all inputs (forecast.py 1432-1441; the column names
     are those of the table) *)
  Record shared := mkShared { sh_years : Q; sh_mode : string; sh_all : bool; sh_outliers : bool; sh_cache : bool }.
  (* the call of run_forecast in forecast.py 1489-1506, other arguments by default (804-824) *)
  Definition input_config (sh : shared) (i : forecast_input) : config T :=
    mkCfg (Some (in_trend i)) (in_season i) (in_start i) (sh_years sh) (sh_mode sh) (sh_all sh) (sh_outliers sh)
      None None None None None 5 20 (Some "Y") (sh_cache sh).
  (* forecast.py 1482-1512: a list of inputs, or one input *)
  Definition run_inputs (W : nat -> string -> world T) (sh : shared) (l : list forecast_input) : res (result T) :=
    run_l_forecast W (map (fun i => (input_config sh i, in_id i, in_table i)) l).
  Definition run_input (W : nat -> string -> world T) (sh : shared) (i : forecast_input) : res (result T) :=
    run_inputs W sh [i].
End Input.
Arguments forecast_input : clear implicits.
