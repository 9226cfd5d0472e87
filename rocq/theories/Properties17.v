(* Inputs of a list of forecasts and the table optimize_info: C76, C77. *)
From Coq Require Import ZArith String List Bool PrimFloat QArith_base Lia.
From Verif Require Import Num Py Cal Model Base Naive Freq Normalize Fit Interp Select Outliers Pi Forecast Input Info.
From Verif Require Import ListProofs NormalizeProofs ForecastProofs ForecastProofs2 InputProofs InfoProofs Ex Properties7.
Import ListNotations.
Local Open Scope string_scope.
Local Open Scope list_scope.

(* ================= C76 ================= *)
(* [input_alone W sh (i, x)]: run_forecast on the table of input x with its trend and season models,
   start date and source id, the arguments sh common to the list, and defaults otherwise. *)
Theorem C76_inputs : forall (T : Type) (N : NumOps T) (W : nat -> string -> world T) sh l r,
  run_inputs W sh l = Ok r <->
  l <> [] /\ exists rs, Forall2 (fun p x => input_alone W sh p = Ok (Some x)) (enumerate l) rs /\ r = aggregate rs.
Proof. exact @inputs_ok. Qed.
Print Assumptions C76_inputs.
(* one input instead of a list *)
Theorem C76_one : forall (T : Type) (N : NumOps T) (W : nat -> string -> world T) sh i,
  run_input W sh i = match input_alone W sh (0%nat, i) with
                     | Ok (Some r) => Ok r | Ok None => Err TypeError | Err e => Err e end.
Proof. exact @input_one. Qed.
Print Assumptions C76_one.
(* the weights given to an input have no effect *)
Theorem C76_weights : forall (T : Type) (N : NumOps T) (W : nat -> string -> world T) sh id t trend season start w w' l1 l2,
  run_inputs W sh (l1 ++ new_input id t trend season w start :: l2) =
  run_inputs W sh (l1 ++ new_input id t trend season w' start :: l2).
Proof.
  intros. apply weights_unused. apply Forall2_app; [|constructor; [reflexivity|]]; match goal with |- Forall2 _ ?l _ => induction l; constructor; auto end.
Qed.
Print Assumptions C76_weights.
(* an input without trend models is forecast as run_forecast would by default, if no series of its
   table is longer than two years of 365 days *)
Theorem C76_default : forall (T : Type) (N : NumOps T) (W : string -> world T) sh id t season w start, brief t ->
  let i := new_input id t None season w start in
  run_forecast W (input_config sh i) id t = run_forecast W (set_trend None (input_config sh i)) id t.
Proof. intros T N W sh id t season w start B i. symmetry. exact (default_brief W (input_config sh i) id t B). Qed.
Print Assumptions C76_default.
(* without trend models, create leaves only the season models as candidates *)
Theorem C76_create : forall (T : Type) (N : NumOps T) sh id t l w start (f : frame T),
  candidate_lists (input_config sh (create_input id t None (Some l) w start)) f = (dedup model_eqb l, dedup model_eqb l).
Proof. intros. now apply no_trend_lists. Qed.
Print Assumptions C76_create.

(* n samples, every k days from Monday 2018-01-01 *)
Definition c76_table (n : nat) (k : Z) : raw float :=
  mkTable true false false true false false
    (map (fun i => mkRaw 0 (mkRow (ts 2018 1 1 + Z.of_nat i * k * DAY) "" 0 (PrimFloat.of_uint63 (Uint63.of_Z (Z.of_nat i)) + 1)%float 1%float)) (seq 0 n)).
Definition c76_world : world float := let N := fops in ex_world (T := float) (LDone false 40%float [5%float]) (LDone false 1%float [2%float; 1%float]).
Definition c76_shared : shared := mkShared 1 "add" true false true.
Definition c76_names (r : res (option (result float))) : res (list (string * string)) :=
  match r with
  | Ok (Some r) => Ok (map (fun m => (md_model (m_meta m), md_status (m_meta m))) (rs_meta r))
  | Ok None => Err TypeError
  | Err e => Err e
  end.
(* 110 weeks: run_forecast also tries a piecewise linear trend, the list of inputs does not *)
Theorem C76_long_refuted : let N := fops in
  ~ (forall (W : string -> world float) sh id t season w start,
      let i := new_input id t None season w start in
      run_forecast W (input_config sh i) id t = run_forecast W (set_trend None (input_config sh i)) id t).
Proof.
  cbv zeta. intros K. specialize (K (fun _ => c76_world) c76_shared "s" (c76_table 110 7) (Some []) 1%float None).
  apply (f_equal c76_names) in K. vm_compute in K. discriminate.
Qed.
Print Assumptions C76_long_refuted.
Example C76_example : let N := fops in
  let i trend n := new_input "s" (c76_table n 7) trend (Some []) 1%float None in
  let names n := match run_inputs (fun _ _ => c76_world) c76_shared [i None n] with Ok r => c76_names (Ok (Some r)) | Err e => Err e end in
  let direct n := c76_names (run_forecast (fun _ => c76_world) (set_trend None (input_config c76_shared (i None n))) "s" (c76_table n 7)) in
  brief (c76_table 20 7) /\
  names 20%nat = Ok [("linear", "NO-FIT"); ("naive", "FIT")] /\ direct 20%nat = names 20%nat /\
  names 110%nat = Ok [("linear", "NO-FIT"); ("naive", "FIT")] /\
  direct 110%nat = Ok [("(linear+ramp)", "NO-FIT"); ("linear", "NO-FIT"); ("naive", "FIT")] /\
  (* create without a trend: no linear model either *)
  match run_inputs (fun _ _ => c76_world) c76_shared [create_input "s" (c76_table 20 7) None (Some []) 1%float None] with
  | Ok r => c76_names (Ok (Some r)) = Ok [("naive", "FIT")] | Err _ => False end /\
  to_str_function_list (Some [Some model_linear; None; Some (madd model_linear model_season_wday)]) =
    Some [Some "linear"; None; Some "(linear+season_wday)"] /\
  run_input (fun _ _ => c76_world) c76_shared (new_input "s" (c76_table 0 7) None None 1%float None) = Err TypeError.
Proof.
  split.
  - intros _ q q' I I' _. cbn [t_rows c76_table] in I, I'. apply in_map_iff in I as (a & <- & Ia), I' as (b & <- & Ib).
    apply in_seq in Ia, Ib. unfold qdate. cbn [c76_table t_date q_row r_date]. generalize (ts 2018 1 1). intros z. change DAY with 86400000000000%Z. lia.
  - vm_compute. repeat split; reflexivity.
Qed.

(* ================= C77 ================= *)
(* [fit_model_full]: both tables of fit_model.  [describes V E d i]: row i of optimize_info agrees
   with row d of the metadata table (source, long source name, model, success, cost), and its other
   columns tell the four kinds of attempts apart: not tried, nothing to fit, optimized, stopped by a
   singular matrix. *)
Theorem C77_tables : forall (T : Type) (N : NumOps T) V E m (f : frame T) freq source act uc,
  rbind (fit_model_full V E m f freq source act uc) (fun p => Ok (fst p)) = fit_model E m f freq source act uc.
Proof. exact @full_result. Qed.
Print Assumptions C77_tables.
Theorem C77_fit : forall (T : Type) (N : NumOps T) V E m (f : frame T) freq source act uc d i,
  fit_model_full V E m f freq source act uc = Ok (d, i) -> describes V E d i.
Proof. exact @full_describes. Qed.
Print Assumptions C77_fit.
(* with all fits, the two tables of a forecast go row by row *)
Theorem C77_rows : forall (T : Type) (N : NumOps T) V (W : string -> world T) c id t r,
  run_forecast W (set_all true c) id t = Ok (Some r) ->
  exists l, forecast_info V W c id t = Ok (Some l) /\
    Forall2 (fun m i => describes V (w_env (W (md_source (m_meta m)))) (m_meta m) i) (rs_meta r) l.
Proof. exact @forecast_described. Qed.
Print Assumptions C77_rows.
(* without, the metadata table is cut down to the best fit, optimize_info is not *)
Theorem C77_best_only : forall (T : Type) (N : NumOps T) V (W : string -> world T) c id t r,
  run_forecast W (set_all false c) id t = Ok (Some r) ->
  exists l, forecast_info V W (set_all false c) id t = Ok (Some l) /\
    exists all, Forall2 (fun m i => describes V (w_env (W (md_source (m_meta m)))) (m_meta m) i) all l /\
      rs_meta r = filter (fun m => m_best m) all.
Proof. exact @selected_described. Qed.
Print Assumptions C77_best_only.
Theorem C77_switch : forall (T : Type) (N : NumOps T) V (W : string -> world T) c id t b,
  forecast_info V W (set_all b c) id t = forecast_info V W c id t.
Proof. intros. exact (info_switch b V W c id t). Qed.
Print Assumptions C77_switch.

(* four candidates: a naive model, a constant, a line, and a line with weekly season for which there
   are too few samples; the line ends in a singular matrix *)
Definition c77_view : viewer float := mkViewer (fun _ g _ => mkReport 2%float (Z.of_nat (length g)) 3 1 "`ftol`") (fun l => match l with [] => "[]" | _ => "[..]" end).
Definition c77_world : world float := let N := fops in ex_world (T := float) (LDone true 40%float [5%float]) (LRaise LinAlgError).
Definition c77_cfg : config float := let N := fops in
  mkCfg (Some [model_constant; model_linear]) (Some [model_null; model_season_wday]) None (7 # 365)%Q "add" false false None None None None None 5 20 (Some "Y") true.
Definition c77_show (r : res (option (list (info float)))) :=
  match r with
  | Ok (Some l) => Ok (map (fun i => (fm_name (io_model i), io_success i, io_status i, io_iterations i, io_message i, io_params i)) l)
  | Ok None => Err TypeError
  | Err e => Err e
  end.
Example C77_example : let N := fops in
  let t := c76_table 5 1 in
  c76_names (run_forecast (fun _ => c77_world) c77_cfg "s" t) = Ok [("snaive_wday", "FIT")] /\
  c77_show (forecast_info c77_view (fun _ => c77_world) c77_cfg "s" t) =
    Ok [("(constant+season_wday)", false, Text "TS_TOO_SHORT", None, "TS_TOO_SHORT", SList []);
        ("(linear+season_wday)", false, Text "TS_TOO_SHORT", None, "TS_TOO_SHORT", SList []);
        ("constant", true, Num 1, Some 1%Z, "`ftol`", SList [5%float]);
        ("linear", false, Num 0, Some 0%Z, "LinAlgError", SNone);
        ("snaive_wday", true, Num 0, Some 0%Z, "Naive model fitted", SDash)].
Proof. vm_compute. split; reflexivity. Qed.
