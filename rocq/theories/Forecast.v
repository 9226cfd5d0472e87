(* Forecasting one or several series.  Models anticipy/forecast.py 761-1019, 1085-1512. *)
From Coq Require Import ZArith String List Bool QArith_base DecimalString.
From Verif Require Import Num Py Cal Fmt Model Base Naive Freq Normalize Fit Interp Select Stats Outliers Pi.
Import ListNotations.
Local Open Scope string_scope.
Local Open Scope list_scope.
Local Open Scope Z_scope.

Section Forecast.
  Context {T : Type} `{NumOps T}.
  Notation M := (fmodel T).

  (* Arguments of run_forecast and run_forecast_single (forecast.py 804-824, 1085-1105). *)
  Record config := mkCfg {
    c_trend : option (list M); c_season : option (list M); c_start : option Z; c_years : Q;
    c_mode : string; c_all : bool; c_outliers : bool;
    c_yearly : option (list M); c_weekly : option (list M);
    c_naive : option (list M); c_calendar : option (list M);
    c_ncum : option Z; c_q1 : Z; c_q2 : Z; c_widen : option string; c_cache : bool }.

  (* Everything else the outcome depends on: the environment of the fits, the order
     sort_values('aic_c') gives to the fitted rows, random draws of the prediction interval. *)
  Record world := mkWorld {
    w_env : env T; w_sort : list (meta T) -> list (meta T);
    w_draw : nat -> nat -> nat }.

  Definition with_rows (f : frame T) (l : list (row T)) : frame T := mkFrame (has_date f) (has_src f) (has_w f) l.
  (* position of a sample in the output: date, or x *)
  Definition place (f : frame T) (r : row T) : Z := if has_date f then r_date r else r_x r.

  (* forecast.py 1194-1196 *)
  Definition start_filter (start : option Z) (f : frame T) : frame T :=
    match start with
    | Some d => if has_date f then with_rows f (filter (fun r => d <=? r_date r) (rows f)) else f
    | None => f
    end.
  (* forecast.py 1204-1211: (~mask).astype(float) *)
  Definition ignore_spikes (f : frame T) : res (frame T) :=
    let* (_, spikes) := model_outliers f in
    let keep (b : bool) := if b then n0 else n1 in
    Ok (mkFrame (has_date f) (has_src f) true
          (map (fun p => set_w (fst p) (if has_w f then nmul (r_w (fst p)) (keep (snd p)) else keep (snd p)))
             (combine (rows f) spikes))).
  (* forecast.py 1216-1220: label of the weights, and the weight column *)
  Definition input_weights (E : env T) (f : frame T) : string :=
    if has_w f then (e_num E (col_min (map r_w (rows f))) ++ "-" ++ e_num E (col_max (map r_w (rows f))))%string
    else "1".
  Definition with_weights (f : frame T) : frame T :=
    if has_w f then f
    else mkFrame (has_date f) (has_src f) true (map (fun r => set_w r n1) (rows f)).
  (* str(int) *)
  Definition fmt_int (z : Z) : string := NilZero.string_of_int (Z.to_int z).
  (* forecast.py 1198-1201 and 1223-1231.  The earliest date of an empty table is NaT, and
     NaT.date() raises ValueError; run_forecast never passes an empty table without dates. *)
  Definition input_range (f : frame T) : res string :=
    match zmin_opt (map (place f) (rows f)), zmax_opt (map (place f) (rows f)) with
    | Some lo, Some hi =>
        if has_date f then Ok (fmt_date lo ++ "::" ++ fmt_date hi)%string
        else Ok (fmt_int lo ++ "::" ++ fmt_int hi)%string
    | _, _ => Err ValueError
    end.

  (* forecast.py 761-788, on a table with weights *)
  Definition actuals_clean (f : frame T) (source long : string) : list (drow T) :=
    map (fun r => mkD (place f r) (r_w r) (r_y r) "actuals" source long true false) (rows f).
  (* forecast.py 791-801 *)
  Definition fcast_clean (l : list (Z * T)) (source long model : string) : list (drow T) :=
    map (fun p => mkD (fst p) n1 (snd p) model source long false false)
      (filter (fun p => negb (nisnan (snd p))) l).

  (* forecast.py 1236-1297: additive and multiplicative candidates *)
  Definition candidate_lists (c : config) (f : frame T) : list M * list M :=
    let trend := match c_trend c with Some l => l | None => default_trend f end in
    let auto mode := if has_date f then Some (auto_season mode (c_yearly c) (c_weekly c) (weighted_dates f))
                     else None in
    let season mode := match c_season c with Some l => Some l | None => auto mode end in
    let add := list_model (Some trend) (season "add") "add" in
    let mult := list_model (Some trend) (season "mult") "mult" in
    match c_calendar c with
    | Some cal => if use_calendar f
                  then (list_model (Some add) (Some cal) "add", list_model (Some mult) (Some cal) "mult")
                  else (add, mult)
    | None => (add, mult)
    end.
  (* forecast.py 1299-1301 *)
  Definition final_mode (W : world) (c : config) (f : frame T) : res string :=
    if String.eqb (c_mode c) "auto" then
      let* b := is_multiplicative (mult_corr (w_env W)) f in Ok (if b then "mult" else "add")
    else Ok (c_mode c).
  (* forecast.py 1303-1314 and 1346.  list(set(..)) has an unspecified order, which the sort by
     name removes; of two models with the same name the set keeps the first. *)
  Definition all_models (c : config) (mode : string) (freq : option string) (add mult : list M) : list M :=
    let l := if String.eqb mode "add" then add else if String.eqb mode "mult" then mult
             else dedup model_eqb (add ++ mult) in
    isort model_leb (match c_naive c with Some n => n | None => default_naive freq end ++ l).

  (* forecast.py 1317 *)
  Definition positive (f : frame T) : frame T := with_rows f (filter (fun r => nltb n0 (r_w r)) (rows f)).
  (* forecast.py 1322-1338: the actuals table for extrapolation and naive models.  A row is repeated
     for every usable sample of the same x (merge).  sort_values(['x']) leaves the order of rows
     that share an x open; the order of the table is kept here. *)
  Definition model_actuals (f usable : frame T) : res (frame T) :=
    let* g := interpolate_df false f in
    let l := isort (fun a b => r_x a <=? r_x b) (rows g) in
    let weights (r : row T) := match map r_w (filter (fun u => r_x u =? r_x r) (rows usable)) with
                               | [] => [n0] | ws => ws end in
    Ok (mkFrame (has_date f) (has_src f) true
          (flat_map (fun r => map (fun w => let w := if nisnan w then n0 else w in
                                            mkRow (r_date r) (r_src r) (r_x r) (if nltb n0 w then r_y r else nnan) w)
                                (weights r)) l)).

  (* one row of the metadata table with the columns added by forecast.py 1355-1358, 1402-1406 *)
  Record mrow := mkM { m_meta : meta T; m_label : string; m_best : bool }.
  Definition set_weights (w : string) (d : meta T) : meta T :=
    mkMeta (md_source d) (md_model d) w (md_range d) (md_freq d) (md_fit d) (md_cost d) (md_aicc d)
      (md_params d) (md_status d) (md_source_long d) (md_obj d).

  (* forecast.py 1347-1383, the body of the loop: metadata, label, forecast rows.  The original
     model is extrapolated with the parameters fitted to the simplified one. *)
  Definition fit_one (W : world) (c : config) (source mode : string) (freq : option string) (l_add : list M)
    (usable act : frame T) (o : origin) (x_start : Z) (m : M) : res (meta T * string * list (drow T)) :=
    let* d := fit_model (w_env W) m usable freq source (Some act) (c_cache c) in
    let label := add_mult_label m mode l_add in
    if md_fit d then
      let* g := extrapolate_model m (Some (md_params d)) o freq (c_years c) x_start (Some act) in
      Ok (d, label, fcast_clean g source (md_source_long d) (fm_name m))
    else Ok (d, label, []).

  (* forecast.py 1392-1404: the best fit, and which rows it is merged onto *)
  Definition best_fit (W : world) (l : list (meta T)) : option (meta T) :=
    match w_sort W (filter (fun d => md_fit d) l) with b :: _ => Some b | [] => None end.
  Definition is_best (b : option (meta T)) (source long model : string) : bool :=
    match b with
    | Some d => String.eqb (md_source d) source && String.eqb (md_source_long d) long && String.eqb (md_model d) model
    | None => false
    end.
  Definition flag_meta (b : option (meta T)) (weights : string) (d : meta T) (label : string) : mrow :=
    mkM (set_weights weights d) label (is_best b (md_source d) (md_source_long d) (md_model d)).
  Definition flag_data (b : option (meta T)) (r : drow T) : drow T :=
    mkD (d_date r) (d_w r) (d_y r) (d_model r) (d_src r) (d_long r) (d_actual r)
      (is_best b (d_src r) (d_long r) (d_model r)).

  Record result := mkResult { rs_forecast : list (prow T); rs_data : list (drow T); rs_meta : list mrow }.

  (* forecast.py 1385-1414 *)
  Definition assemble (W : world) (all : bool) (weights : string) (actuals : list (drow T))
    (fits : list (meta T * string * list (drow T))) : list (drow T) * list mrow :=
    let b := best_fit W (map (fun p => fst (fst p)) fits) in
    let data := map (flag_data b) (actuals ++ concat (map snd fits)) in
    let metas := map (fun p => flag_meta b weights (fst (fst p)) (snd (fst p))) fits in
    if all then (data, metas)
    else (filter (fun r => d_best r || d_actual r) data, filter (fun m => m_best m) metas).

  (* forecast.py 1186-1234: the table that is fitted, before dropping zero weights *)
  Definition prepared (c : config) (f : frame T) : res (frame T) :=
    let f0 := start_filter (c_start c) f in
    if c_outliers c then ignore_spikes f0 else Ok f0.

  (* forecast.py 1186-1383: label of the weights, clean actuals, and the outcome for every candidate.
     Without candidates pd.concat raises ValueError (1386-1387); without a sample of positive weight
     the first fit does. *)
  Definition run_fits (W : world) (c : config) (source : string) (f : frame T)
    : res (string * list (drow T) * list (meta T * string * list (drow T))) :=
    let freq := detect_freq_frame f in
    let* f1 := prepared c f in
    let weights := input_weights (w_env W) f1 in
    let f2 := with_weights f1 in
    let* range := input_range f2 in
    let actuals := actuals_clean f2 source (long_name source weights freq range) in
    let (add, mult) := candidate_lists c f2 in
    let* mode := final_mode W c f2 in
    let usable := positive f2 in
    let* act := model_actuals f usable in
    match zmin_opt (map (place usable) (rows usable)), zmax_opt (map (place f2) (rows f2)),
          zmin_opt (map r_x (rows usable)), all_models c mode freq add mult with
    | Some start, Some stop, Some x_start, (_ :: _) as models =>
        let o := if has_date f then ODate start stop else ONum start stop in
        let* fits := rmapM (fit_one W c source mode freq add usable act o x_start) models in
        Ok (weights, actuals, fits)
    | _, _, _, _ => Err ValueError
    end.
  (* forecast.py 1085-1428 *)
  Definition run_forecast_single (W : world) (c : config) (source : string) (f : frame T) : res result :=
    let* (weights, actuals, fits) := run_fits W c source f in
    let (data, metas) := assemble W (c_all c) weights actuals fits in
    let* pi := get_pi (fun _ => w_draw W) 100 (c_ncum c) (c_q1 c) (c_q2 c) (c_widen c)
                 (mkPT true true true (has_date f) data) in
    Ok (mkResult pi data metas).

  (* forecast.py 983-1019 *)
  Definition aggregate (l : list result) : result :=
    mkResult (concat (map rs_forecast l)) (concat (map rs_data l)) (concat (map rs_meta l)).

  (* forecast.py 804-980, on an input table in the sense of normalize_df.  [W] is given per source,
     as each series sees its own part of the random numbers.  With simplify_output only rs_forecast
     is returned. *)
  Definition run_forecast (W : string -> world) (c : config) (source_id : string) (t : raw T)
    : res (option result) :=
    let* o := normalize_df t in
    match o with
    | None => Ok None
    | Some f =>
        if negb (has_src f) then
          let* r := run_forecast_single (W source_id) c source_id f in Ok (Some r)
        else
          let* rs := rmapM (fun s => run_forecast_single (W s) c s
                              (with_rows f (filter (fun r => String.eqb (r_src r) s) (rows f))))
                       (dedup String.eqb (map r_src (rows f))) in
          Ok (Some (aggregate rs))
    end.

  (* forecast.py 1432-1512 (the ForecastInput objects are given by their configuration, source_id and
     table).  An empty input table makes run_forecast return None, and None['data'] raises TypeError;
     an empty list makes pd.concat raise ValueError. *)
  Definition run_l_forecast (W : nat -> string -> world) (l : list (config * string * raw T)) : res result :=
    let* os := rmapM (fun p => match p with (i, (c, s, t)) => run_forecast (W i) c s t end) (enumerate l) in
    match os with
    | [] => Err ValueError
    | _ => let* rs := rmapM (fun o => match o with Some r => Ok r | None => Err TypeError end) os in
           Ok (aggregate rs)
    end.
End Forecast.
Arguments config : clear implicits.
Arguments world : clear implicits.
Arguments mrow : clear implicits.
Arguments result : clear implicits.
