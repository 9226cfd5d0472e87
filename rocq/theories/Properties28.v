(* The cache is invisible in fits and forecasts: C84. *)
From Coq Require Import ZArith String List Bool PrimFloat QArith_base.
From Verif Require Import Num Py Cal Fmt Model Base Dummy Fixed Naive Freq Normalize Aic Fit Select Pi Forecast.
From Verif Require Import CacheProofs CacheRunProofs Ex Properties7.
Import ListNotations.
Local Open Scope string_scope.
Local Open Scope list_scope.

(* ================= C84 ================= *)
(* [cache_safe m]: for any dated samples the cache of m can be prepared, and predictions with it equal
   predictions without.  Then fitting with and without the cache gives the same result, whatever the
   optimizer does. *)
Theorem C84_fit : forall (T : Type) (N : NumOps T) (E : env T) (m : fmodel T) f freq source act,
  has_date f = true -> cache_safe m -> fit_model E m f freq source act true = fit_model E m f freq source act false.
Proof. exact @fit_cache. Qed.
Print Assumptions C84_fit.

(* [cacheable c]: the models named by the configuration are built by + and * from shipped parts, and
   every name of a mask has one meaning; naive models only need to be safe by themselves.
   [set_cache b c] is c with use_cache = b. *)
Theorem C84_single : forall (T : Type) (N : NumOps T) b (W : world T) (c : config T) source f,
  has_date f = true -> cacheable c ->
  run_forecast_single W (set_cache b c) source f = run_forecast_single W c source f.
Proof. exact @single_cache. Qed.
Print Assumptions C84_single.
Theorem C84_forecast : forall (T : Type) (N : NumOps T) b (W : string -> world T) (c : config T) source t,
  has_date_after t = true -> cacheable c ->
  run_forecast W (set_cache b c) source t = run_forecast W c source t.
Proof. exact @forecast_cache. Qed.
Print Assumptions C84_forecast.

(* Which models are safe.  [mu] gives the mask that a registered name stands for. *)
Theorem C84_safe : forall (T : Type) (N : NumOps T) mu (m : fmodel T), composed mu m -> cache_safe m.
Proof. exact @composed_safe. Qed.
Print Assumptions C84_safe.
Theorem C84_closed : forall (T : Type) (N : NumOps T) mu (m1 m2 : fmodel T),
  composed mu m1 -> composed mu m2 -> composed mu (madd m1 m2) /\ composed mu (mmul m1 m2).
Proof. intros T N mu m1 m2 C1 C2. split; [now apply composed_madd|now apply composed_mmul]. Qed.
Print Assumptions C84_closed.
Theorem C84_shipped : forall (T : Type) (N : NumOps T) mu, Forall (composed mu)
  [model_null; model_constant; model_linear; model_linear_nondec; model_quasilinear; model_exp; model_decay; model_step;
   model_two_steps; model_sigmoid_step; model_sigmoid; model_ramp; model_spike; model_season_wday; model_season_month;
   model_season_month_old; model_season_fourier_yearly].
Proof. exact @composed_shipped. Qed.
Print Assumptions C84_shipped.
Theorem C84_dummy : forall (T : Type) (N : NumOps T) mu name (dm : dummy T) f m,
  get_f_dummy dm = Ok f -> (forall g, dm <> DFun g) \/ mask_total f -> mu name = Some f ->
  get_model_dummy name dm = Ok m -> composed mu m.
Proof. intros T N mu name dm f m Ef [Nf|Tf]; [|now apply composed_dummy]. apply composed_dummy; [exact Ef|now apply (listed_total dm)]. Qed.
Print Assumptions C84_dummy.
Theorem C84_calendars : forall (T : Type) (N : NumOps T) mu l name (m : fmodel T),
  (forall c f, In c l -> cal_rules c <> [] -> get_f_dummy (DCal c) = Ok f -> mu (cal_name c) = Some f) ->
  get_model_from_calendars l name = Ok m -> composed mu m.
Proof. exact @composed_calendars. Qed.
Print Assumptions C84_calendars.
(* date lists read masks called mask_model_dummy without registering any *)
Theorem C84_datelist : forall (T : Type) (N : NumOps T) mu name args (m : fmodel T),
  mu "model_dummy" = None -> get_model_from_datelist name args = Ok m -> composed mu m.
Proof. exact @composed_datelist. Qed.
Print Assumptions C84_datelist.
(* the naive models are safe by themselves *)
Theorem C84_naive : forall (T : Type) (N : NumOps T), cache_safe model_naive /\ cache_safe model_snaive_wday.
Proof. intros T N. split; [apply naive_safe|apply snaive_safe]. Qed.
Print Assumptions C84_naive.

(* Both conditions are needed.  The optimizer here evaluates the residuals once at the guess. *)
Definition probing : world float :=
  let N := fops in
  mkWorld (mkEnv (fun f g _ => match f g with Ok r => LDone true (nsum (map (fun a => nmul a a) r)) g | Err e => LRaise e end)
             (fun _ => 0.5%float) (fun _ => "[..]") (fun _ => "#")) by_score (fun a i => (a + i)%nat).
Definition two_weeks : frame float := let N := fops in dated false (map (fun i => (nofZ (Z.of_nat i), 1%float)) (seq 0 14)).
Definition outcome_of (r : res (meta float)) : res (bool * float) := Py.rmap (fun d => (md_fit d, md_cost d)) r.
(* a naive model that is part of a composition is handed the cache of the other part and refuses it *)
Theorem C84_naive_part_refuted : let N := fops in
  let fit := fun b => fit_model (w_env probing) (madd model_naive model_season_wday) two_weeks (Some "D") "s" (Some two_weeks) b in
  outcome_of (fit true) = Err TypeError /\ Py.rmap md_fit (fit false) = Ok true.
Proof. cbv zeta. split; vm_compute; reflexivity. Qed.
Print Assumptions C84_naive_part_refuted.
(* two masks under one name: with the cache both models see the mask of the second one *)
Theorem C84_same_name_refuted : let N := fops in
  let fit := fun b => let* m1 := get_model_dummy "d" (DDates [ts 2018 1 1]) in
                      let* m2 := get_model_dummy "d" (DDates [ts 2018 1 2; ts 2018 1 3]) in
                      fit_model (w_env probing) (madd m1 m2) two_weeks (Some "D") "s" None b in
  outcome_of (fit true) = Ok (true, 814.99800200000004)%float /\ outcome_of (fit false) = Ok (true, 816.74850074999995)%float.
Proof. cbv zeta. split; vm_compute; reflexivity. Qed.
Print Assumptions C84_same_name_refuted.

(* weekdays, a mask of days and a mask of numbers; the cache holds three variables *)
Definition c84_new_year : dummyfun float := let N := fops in fun _ d => match d with Some d => Ok (isin_dates d [ts 2018 1 1]) | None => Err TypeError end.
Definition c84_ninth : dummyfun float := let N := fops in fun x _ => Ok (isin_nums x [9]%float).
Definition c84_mu (n : string) : option (dummyfun float) :=
  if String.eqb n "new_year" then Some c84_new_year else if String.eqb n "ninth" then Some c84_ninth else None.
Definition c84_cfg (m1 m2 : fmodel float) (b : bool) : config float := let N := fops in
  mkCfg (Some [model_linear; madd model_linear m1]) (Some [model_season_wday; mmul model_season_wday m2]) None (7 # 365)%Q "add" true false None None None None None 5 20 (Some "Y") b.
Example C84_hypotheses_example : let N := fops in
  exists m1 m2, get_model_dummy "new_year" (DDates [ts 2018 1 1]) = Ok m1 /\ get_model_dummy "ninth" (DNums [9]%float) = Ok m2 /\
    forall b, cacheable (c84_cfg m1 m2 b).
Proof.
  intros N. exists (dummy_model_of "new_year" c84_new_year), (dummy_model_of "ninth" c84_ninth).
  assert (E1 : get_model_dummy "new_year" (DDates [ts 2018 1 1]) = Ok (dummy_model_of "new_year" c84_new_year)) by reflexivity.
  assert (E2 : get_model_dummy "ninth" (DNums [9]%float) = Ok (dummy_model_of "ninth" c84_ninth)) by reflexivity.
  split; [exact E1|]. split; [exact E2|]. intros b.
  pose proof (C84_shipped float N c84_mu) as Sh. rewrite Forall_forall in Sh.
  assert (Dl : composed c84_mu model_linear) by (apply Sh; cbn [In]; tauto).
  assert (Dw : composed c84_mu model_season_wday) by (apply Sh; cbn [In]; tauto).
  assert (D1 : composed c84_mu (dummy_model_of "new_year" c84_new_year)).
  { eapply C84_dummy; [| | |exact E1]; [reflexivity|left; discriminate|reflexivity]. }
  assert (D2 : composed c84_mu (dummy_model_of "ninth" c84_ninth)).
  { eapply C84_dummy; [| | |exact E2]; [reflexivity|left; discriminate|reflexivity]. }
  split; [exists c84_mu; repeat split|exact I].
  - constructor; [exact Dl|]. constructor; [now apply (C84_closed float N)|constructor].
  - constructor; [exact Dw|]. constructor; [now apply (C84_closed float N)|constructor].
Qed.
Definition c84_costs (b : bool) : res (list (string * float)) := let N := fops in
  let* m1 := get_model_dummy "new_year" (DDates [ts 2018 1 1]) in
  let* m2 := get_model_dummy "ninth" (DNums [9]%float) in
  let* r := run_forecast_single probing (c84_cfg m1 m2 b) "s" two_weeks in
  Ok (map (fun m => (md_model (m_meta m), md_cost (m_meta m))) (rs_meta r)).
Example C84_example : c84_costs true = c84_costs false /\
  Py.rmap (map fst) (c84_costs true) =
    Ok ["((linear+new_year)+(season_wday*ninth))"; "((linear+new_year)+season_wday)"; "(linear+(season_wday*ninth))"; "(linear+season_wday)"; "snaive_wday"] /\
  (let N := fops in Py.rmap (map fst) (let* m1 := get_model_dummy "new_year" (DDates [ts 2018 1 1]) in
     init_cache (madd (madd model_linear m1) model_season_wday) [0; 1]%float (Some [ts 2018 1 1; ts 2018 1 2])) = Ok ["a_weekday"; "mask_new_year"]).
Proof. split; [|split]; vm_compute; reflexivity. Qed.
