(* The table optimize_info.  Models anticipy/forecast.py 105-217, 220-296, 500-670, 983-1019 and 1346-1391,
   as far as that table is concerned. *)
From Coq Require Import ZArith String List Bool QArith_base.
From Verif Require Import Num Py Cal Fmt Model Fixed Freq Aic Normalize Fit Interp Select Outliers Pi Forecast.
Import ListNotations.
Local Open Scope string_scope.
Local Open Scope list_scope.

Section Info.
  Context {T : Type} `{NumOps T}.
  Notation M := (fmodel T).

  (* the remaining fields of the result object of scipy.optimize.least_squares (forecast.py 183-193) *)
  Record report := mkReport { so_optimality : T; so_nfev : Z; so_njev : Z; so_status : Z; so_message : string }.
  (* What the table shows besides the outcome of the fits: the report of the optimizer (given, like
     the optimizer itself, the residual function, the initial guess and the bounds), and
     np.array_str(params, precision=1). *)
  Record viewer := mkViewer {
    v_report : (list T -> res (list T)) -> list T -> bounds T -> report;
    v_arr : list T -> string }.

  (* the status column holds a text for models that were not fitted, a number for the others *)
  Inductive code := Text (s : string) | Num (z : Z).
  (* the params column: a list, None, or the text '-' *)
  Inductive shown := SList (l : list T) | SNone | SDash.
  (* one row of optimize_info (forecast.py 272-296, 594-618, 646-667); nothing in optimality,
     iterations and jac_evals is NaN *)
  Record info := mkInfo {
    io_source : string; io_model : M; io_success : bool; io_params_str : string; io_cost : T;
    io_optimality : option T; io_iterations : option Z; io_status : code; io_jac : option Z;
    io_message : string; io_long : string; io_params : shown }.

  (* forecast.py 264-296 *)
  Definition empty_info (source : string) (m : M) (status weights : string) (freq : option string) (range : string) : info :=
    mkInfo source m false "[]" nnan None None (Text status) None status (long_name source weights freq range) (SList []).

  (* forecast.py 105-217, the whole row *)
  Definition optimize_report (V : viewer) (E : env T) (m : M) (a_x a_y : list T)
    (a_date : option (list Z)) (a_w : option (list T)) (actuals : option (frame T)) (use_cache : bool)
    : res (bool * T * option (list T) * report) :=
    let* g := fm_init m (Some a_x) (Some a_y) None false (e_rnd E) in
    let* b := fm_bounds m (Some a_x) (Some a_y) None in
    let* inside := validate_initial_guess g b in
    if negb inside then Err AssertionError
    else
      let* cache := if use_cache then init_cache m a_x a_date else Ok [] in
      let residuals p := get_residuals (Some p) m a_x a_y a_date a_w actuals cache in
      match e_lsq E residuals g b with
      | LDone success cost x => Ok (success, cost, Some x, v_report V residuals g b)
      | LRaise LinAlgError => Ok (false, nnan, None, mkReport n0 0 0 0 "LinAlgError")
      | LRaise e => Err e
      end.

  (* forecast.py 407-670: both tables.  The texts of the metadata table are as in Fit.v. *)
  Definition fit_model_full (V : viewer) (E : env T) (m : M) (f : frame T) (freq : option string)
    (source : string) (actuals : option (frame T)) (use_cache : bool) : res (meta T * info) :=
    let n_params := fm_n m in
    let weights := weights_label E f in
    let df := fit_rows f in
    let a_y := map r_y (rows df) in
    let a_x := apply_a_x_scaling (map (fun r => nofZ (r_x r)) (rows df)) (Some m) in
    let a_w := if has_w df then Some (map r_w (rows df)) else None in
    let i_date := if has_date df then Some (map r_date (rows df)) else None in
    let size := length a_x in
    let* range := range_label E a_x i_date in
    let no_fit status := (df_fit_model source m weights range freq false nnan nnan None status,
                          empty_info source m status weights freq range) in
    if Nat.ltb size (n_params + 2) then Ok (no_fit "TS_TOO_SHORT")
    else
      let* valid := validate_input m a_x a_y i_date in
      if negb valid then Ok (no_fit "INPUT_ERR")
      else
        let* ms := simplify_model (e_arr E) m (Some a_x) (Some a_y) i_date in
        let info_of (d : meta T) (success : bool) (cost : T) (o : report) (p : shown) :=
          mkInfo source ms success (v_arr V (md_params d)) cost (Some (so_optimality o)) (Some (so_nfev o))
            (Num (so_status o)) (Some (so_njev o)) (so_message o) (md_source_long d) p in
        if Nat.eqb (fm_n ms) 0 then
          let* r := get_residuals None ms a_x a_y i_date a_w actuals [] in
          let cost := nmul (dec 5 10) (nansum (map (fun a => nmul a a) r)) in
          let* aicc := get_aic_c cost (Z.of_nat (length (rows df))) (Z.of_nat n_params) in
          let d := df_fit_model source ms weights range freq true cost aicc (Some []) "FIT" in
          Ok (d, info_of d true cost (mkReport n0 0 0 0 "Naive model fitted") SDash)
        else
          let* (success, cost, p, o) := optimize_report V E ms a_x a_y i_date a_w actuals use_cache in
          let* aicc := get_aic_c cost (Z.of_nat (length (rows df))) (Z.of_nat n_params) in
          let d := df_fit_model source ms weights range freq success cost aicc p (if success then "FIT" else "NO-FIT") in
          Ok (d, info_of d success cost o (match p with Some l => SList l | None => SNone end)).

  (* forecast.py 1186-1391: the table for one series, a row for every candidate.  The preparation is
     that of run_fits; the loop is gone through for this table alone. *)
  Definition single_info (V : viewer) (W : world T) (c : config T) (source : string) (f : frame T) : res (list info) :=
    let freq := detect_freq_frame f in
    let* f1 := prepared c f in
    let f2 := with_weights f1 in
    let (add, mult) := candidate_lists c f2 in
    let* mode := final_mode W c f2 in
    let usable := positive f2 in
    let* act := model_actuals f usable in
    rmapM (fun m => let* (_, i) := fit_model_full V (w_env W) m usable freq source (Some act) (c_cache c) in Ok i)
      (all_models c mode freq add mult).
  (* forecast.py 804-980 and 983-1019: the table of a whole forecast *)
  Definition forecast_info (V : viewer) (W : string -> world T) (c : config T) (source_id : string) (t : raw T)
    : res (option (list info)) :=
    let* o := normalize_df t in
    match o with
    | None => Ok None
    | Some f =>
        if negb (has_src f) then let* l := single_info V (W source_id) c source_id f in Ok (Some l)
        else
          let* ls := rmapM (fun s => single_info V (W s) c s
                              (with_rows f (filter (fun r => String.eqb (r_src r) s) (rows f))))
                       (dedup String.eqb (map r_src (rows f))) in
          Ok (Some (concat ls))
    end.
End Info.
Arguments report : clear implicits.
Arguments viewer : clear implicits.
Arguments shown : clear implicits.
Arguments info : clear implicits.
