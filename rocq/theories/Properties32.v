(* A longer horizon: C88. *)
From Coq Require Import ZArith String List Bool Floats QArith.
From Verif Require Import Num Py Cal Fmt Model Base Naive Fixed Dummy Freq Normalize Fit Select Pi Forecast.
From Verif Require Import DummyProofs ForecastProofs HorizonProofs HorizonRunProofs NaiveProofs ForecastProofs2 TotalProofs2 NaiveHorizonProofs Ex Properties7.
Import ListNotations.
Local Open Scope string_scope.
Local Open Scope list_scope.
Local Open Scope Z_scope.

(* ================= C88 ================= *)
(* [causal m]: the values of m at the first k samples do not change when the later samples are left out.
   The shipped models are, except spike (which counts positions) and the two naive ones. *)
Theorem C88_models : forall (T : Type) (N : NumOps T),
  Forall causal [model_null; model_constant; model_linear; model_linear_nondec; model_quasilinear; model_exp; model_decay;
    model_step; model_two_steps; model_sigmoid_step; model_sigmoid; model_ramp; model_season_wday; model_season_month;
    model_season_month_old; model_season_fourier_yearly] /\
  (forall a b, causal (get_model_step_date a) /\ causal (get_model_spike_date a b)) /\
  (forall name dm m, causal_dummy dm -> get_model_dummy name dm = Ok m -> causal m) /\
  (forall name args m, get_model_from_datelist name args = Ok m -> causal m) /\
  (forall l name m, Forall (fun c => Forall local_rule (cal_rules c)) l -> get_model_from_calendars l name = Ok m -> causal m) /\
  (forall m fixed md m', causal m -> get_fixed_model m fixed md = Ok m' -> causal m') /\
  (forall m1 m2, causal m1 -> causal m2 -> causal (madd m1 m2) /\ causal (mmul m1 m2)).
Proof.
  intros T N. split.
  { repeat (apply Forall_cons; [first [exact null_causal|exact constant_causal|exact linear_causal|exact linear_nondec_causal|exact quasilinear_causal|
      exact exp_causal|exact decay_causal|exact step_causal|apply n_steps_causal|exact sigmoid_step_causal|exact sigmoid_causal|exact ramp_causal|
      exact season_wday_causal|exact season_month_causal|exact season_month_old_causal|exact fourier_causal]|]). apply Forall_nil. }
  split; [intros a b; split; [apply step_date_causal|apply spike_date_causal]|].
  split; [exact get_dummy_causal|]. split; [exact datelist_causal|]. split; [exact calendars_causal|]. split; [exact fixed_causal|].
  intros m1 m2 C1 C2. split; [now apply madd_causal|now apply mmul_causal].
Qed.
Print Assumptions C88_models.
(* the shipped dummies and calendars are covered *)
Theorem C88_shipped : forall (T : Type) (N : NumOps T) m,
  In (Ok m) [model_season_wday_2; model_dummy_christmas; model_dummy_month_start; model_calendar_uk; model_calendar_ita] -> causal m.
Proof.
  intros T N m I. destruct I as [E|[E|[E|[E|[E|[]]]]]].
  - exact (get_dummy_causal _ dummy_season_wday_2 _ (date_mask_causal _) E).
  - exact (get_dummy_causal _ dummy_christmas _ (date_mask_causal _) E).
  - exact (get_dummy_causal _ dummy_month_start _ (date_mask_causal _) E).
  - refine (calendars_causal _ _ _ _ E). pose proof shipped_local as F. rewrite !Forall_app in F. destruct F as (F1 & F2 & F3 & F4). apply Forall_cons; [exact F2|]. apply Forall_cons; [exact F1|]. apply Forall_nil.
  - refine (calendars_causal _ _ _ _ E). pose proof shipped_local as F. rewrite !Forall_app in F. destruct F as (F1 & F2 & F3 & F4). apply Forall_cons; [exact F4|]. apply Forall_cons; [exact F3|]. apply Forall_nil.
Qed.
Print Assumptions C88_shipped.
(* the extrapolation of a fitted model over more years starts with the one over fewer years, and what is
   added comes after the last sample *)
Theorem C88_extrapolation : forall (T : Type) (N : NumOps T) (m : fmodel T) p o freq (y y' : Q) x0 act l l', causal m -> (y <= y')%Q ->
  extrapolate_model m p o freq y x0 act = Ok l -> extrapolate_model m p o freq y' x0 act = Ok l' ->
  exists rest, l' = l ++ rest /\ ((0 < y)%Q -> Forall (fun q => stop_of o < fst q) rest).
Proof. exact @extrapolation_prefix. Qed.
Print Assumptions C88_extrapolation.
(* fits, scores, labels and the choice of the best fit do not depend on the horizon *)
Theorem C88_metadata : forall (T : Type) (N : NumOps T) (W : string -> world T) c id t (y y' : Q) r r',
  run_forecast W (set_years y c) id t = Ok (Some r) -> run_forecast W (set_years y' c) id t = Ok (Some r') -> rs_meta r' = rs_meta r.
Proof. exact @forecast_meta. Qed.
Print Assumptions C88_metadata.
(* the data table candidate by candidate *)
Theorem C88_candidates : forall (T : Type) (N : NumOps T) (W : world T) c s f (y y' : Q) r r', (y <= y')%Q ->
  run_forecast_single W (ForecastProofs.set_all true (set_years y c)) s f = Ok r ->
  run_forecast_single W (ForecastProofs.set_all true (set_years y' c)) s f = Ok r' ->
  exists f1 mode acts (es : list both),
    prepared c f = Ok f1 /\ final_mode W c (with_weights f1) = Ok mode /\
    map b_model es = all_models c mode (detect_freq_frame f) (fst (candidate_lists c (with_weights f1)))
                       (snd (candidate_lists c (with_weights f1))) /\
    rs_data r = acts ++ concat (map b_short es) /\ rs_data r' = acts ++ concat (map b_long es) /\
    Forall (fun d => d_actual d = true /\ d_src d = s) acts /\
    Forall (fun e => Forall (forecast_of s (b_model e)) (b_short e) /\ Forall (forecast_of s (b_model e)) (b_long e) /\
              (causal (b_model e) -> appended y acts (b_short e) (b_long e))) es.
Proof.
  intros T N W c s f y y' r r' L E E'. destruct (run_longer _ _ _ _ _ _ _ _ L E E') as (_ & f1 & mode & acts & es & best & E1 & E2 & E3 & E4 & E5 & E6 & E7 & _).
  exists f1, mode, acts, es. auto 10.
Qed.
Print Assumptions C88_candidates.
(* With candidates of different names and a best fit that is causal: the rows of the best fit and of the
   actuals are continued by later rows; in the forecast table all rows up to the last sample, with their
   intervals, are the same, and the later rows are the same apart from the percentiles. *)
Theorem C88_best : forall (T : Type) (N : NumOps T) (W : world T) c s f (y y' : Q) r r', (0 < y)%Q -> (y <= y')%Q ->
  run_forecast_single W (ForecastProofs.set_all true (set_years y c)) s f = Ok r ->
  run_forecast_single W (ForecastProofs.set_all true (set_years y' c)) s f = Ok r' ->
  exists f1 mode ms best, prepared c f = Ok f1 /\ final_mode W c (with_weights f1) = Ok mode /\
    ms = all_models c mode (detect_freq_frame f) (fst (candidate_lists c (with_weights f1))) (snd (candidate_lists c (with_weights f1))) /\
    (forall d, In d (rs_data r) -> d_best d = true -> d_actual d = false -> d_model d = best) /\
    (NoDup (map fm_name ms) -> (forall m, In m ms -> fm_name m = best -> causal m) ->
      (exists rest, shown_rows (rs_data r') = shown_rows (rs_data r) ++ rest /\
         forall d a, In d rest -> In a (rs_data r) -> d_actual a = true -> d_date a < d_date d) /\
      continued (rs_data r) (rs_forecast r) (rs_forecast r')).
Proof. exact @run_longer_pi. Qed.
Print Assumptions C88_best.

(* ---- examples ---- *)
Definition c88_run (y : Q) (trend naive : list (fmodel float)) : res (result float) :=
  let N := fops in
  run_forecast_single (ex_world (LDone true 40 [5]) (LDone true 1 [2; 1]))%float
    (set_years y (mkCfg (Some trend) (Some []) None 0%Q "add" true false None None (Some naive) None None 5 20 (Some "Y") true)) "s" (dated false ex_rows).
Definition c88_best (r : res (result float)) : list (Z * float) :=
  match r with Ok r => map (fun d => ((d_date d - ts 2018 1 1) / DAY, d_y d)) (filter (fun d => d_best d) (rs_data r)) | Err _ => [] end.
Definition c88_pi (r : res (result float)) : list (Z * bool * float * list (Z * float)) :=
  match r with Ok r => map (fun p => ((p_date p - ts 2018 1 1) / DAY, p_actual p, p_y p, p_q p)) (rs_forecast r) | Err _ => [] end.
Definition c88_q5 (r : res (result float)) : list float :=
  map (fun p => match snd p with (_, q) :: _ => q | [] => 0%float end) (filter (fun p => negb (snd (fst (fst p)))) (c88_pi r)).
Definition c88_models : list (fmodel float) := let N := fops in [model_linear; model_constant].
(* two days and four days ahead; the best fit is the linear model *)
Example C88_example :
  ((2 # 365) <= (4 # 365))%Q /\ map fm_name c88_models = ["linear"; "constant"] /\ Forall causal c88_models /\
  c88_best (c88_run (2 # 365) c88_models []) = map (fun i => (Z.of_nat i, (2 * PrimFloat.of_uint63 (Uint63.of_Z (Z.of_nat i)) + 1)%float)) (seq 0 10) /\
  c88_best (c88_run (4 # 365) c88_models []) = map (fun i => (Z.of_nat i, (2 * PrimFloat.of_uint63 (Uint63.of_Z (Z.of_nat i)) + 1)%float)) (seq 0 12) /\
  firstn 16 (c88_pi (c88_run (4 # 365) c88_models [])) = firstn 16 (c88_pi (c88_run (2 # 365) c88_models [])) /\
  length (c88_pi (c88_run (2 # 365) c88_models [])) = 18%nat /\ length (c88_pi (c88_run (4 # 365) c88_models [])) = 20%nat.
Proof.
  split; [discriminate|]. split; [vm_compute; reflexivity|].
  split; [apply Forall_cons; [exact (linear_causal (N := fops))|]; apply Forall_cons; [exact (constant_causal (N := fops))|]; apply Forall_nil|].
  split; [vm_compute; reflexivity|]. split; [vm_compute; reflexivity|]. split; [vm_compute; reflexivity|]. split; vm_compute; reflexivity.
Qed.
(* The intervals of the later rows are not kept: the simulated deviations are dealt out differently.  Lower
   limits of the days after the last sample: *)
Theorem C88_intervals_refuted :
  skipn 8 (c88_q5 (c88_run (2 # 365) c88_models [])) = [16.25; 17.25]%float /\
  skipn 8 (c88_q5 (c88_run (4 # 365) c88_models [])) = [16.25; 18.25; 20.25; 22.25]%float.
Proof. split; vm_compute; reflexivity. Qed.
Print Assumptions C88_intervals_refuted.
(* The naive models for daily and weekly series (positions count days from t0; [table]: the actuals are
   dated, sorted, on the steps of the series and their positions count days, values are numbers or
   null): the extrapolation over more years starts with the one over fewer, provided that some value has
   a later sample (naive), respectively that the shorter horizon is not empty and no sample is after its
   start (seasonal naive). *)
Definition steps_of (step : Z) (freq : string) (t0 : Z) : Prop := (step = DAY /\ freq = "D") \/ (step = 7 * DAY /\ freq = wday_name (weekday t0)).
Theorem C88_naive : forall step freq t0 (act : frame XR) start stop x0 (y y' : Q) p l l', steps_of step freq t0 ->
  table (on_step step t0) t0 act act -> on_step step t0 start -> x0 = x_of t0 start -> (y <= y')%Q ->
  (exists r r', In r (rows act) /\ In r' (rows act) /\ nn (r_y r) /\ r_date r < r_date r') ->
  extrapolate_model model_naive p (ODate start stop) (Some freq) y x0 (Some act) = Ok l ->
  extrapolate_model model_naive p (ODate start stop) (Some freq) y' x0 (Some act) = Ok l' ->
  exists rest, l' = l ++ rest /\ ((0 < y)%Q -> Forall (fun q => stop < fst q) rest).
Proof.
  intros step freq t0 act start stop x0 y y' p l l' S Tb On Ex Ly.
  exact (naive_extrapolation freq t0 _ act act start stop x0 y y' (steady_ground step freq t0 y S) (steady_ground step freq t0 y' S) Tb On Ex Ly p l l').
Qed.
Print Assumptions C88_naive.
Theorem C88_snaive : forall step freq t0 (act : frame XR) start stop x0 (y y' : Q) p l l', steps_of step freq t0 ->
  table (on_step step t0) t0 act act -> on_step step t0 start -> x0 = x_of t0 start -> (y <= y')%Q -> (0 < y)%Q ->
  (forall r, In r (rows act) -> r_date r <= stop) ->
  extrapolate_model model_snaive_wday p (ODate start stop) (Some freq) y x0 (Some act) = Ok l ->
  extrapolate_model model_snaive_wday p (ODate start stop) (Some freq) y' x0 (Some act) = Ok l' ->
  exists rest, l' = l ++ rest /\ Forall (fun q => stop < fst q) rest.
Proof.
  intros step freq t0 act start stop x0 y y' p l l' S Tb On Ex Ly.
  exact (snaive_extrapolation freq t0 _ act act start stop x0 y y' (steady_ground step freq t0 y S) (steady_ground step freq t0 y' S) Tb On Ex Ly p l l').
Qed.
Print Assumptions C88_snaive.
(* three days, the second without value *)
Definition c88_act {T} `{NumOps T} : frame T :=
  mkFrame true false false (map (fun q => mkRow (ts 2018 1 (1 + fst q)) "" (fst q) (snd q) n1) [(0, nofZ 5); (1, nnan); (2, nofZ 7)]).
Example C88_naive_example :
  table (on_step DAY (ts 2018 1 1)) (ts 2018 1 1) c88_act c88_act /\
  (exists r r', In r (rows (c88_act (T := XR))) /\ In r' (rows c88_act) /\ nn (r_y r) /\ r_date r < r_date r') /\
  (forall r, In r (rows (c88_act (T := XR))) -> r_date r <= ts 2018 1 3) /\
  let N := fops in
  let run m y := rmap (map (fun q => ((fst q - ts 2018 1 1) / DAY, snd q))) (extrapolate_model m None (ODate (ts 2018 1 1) (ts 2018 1 3)) (Some "D") y 0 (Some c88_act)) in
  run model_naive (2 # 365)%Q = Ok [(0, 5%float); (1, 5%float); (2, 5%float); (3, 7%float); (4, 7%float)] /\
  run model_naive (3 # 365)%Q = Ok [(0, 5%float); (1, 5%float); (2, 5%float); (3, 7%float); (4, 7%float); (5, 7%float)] /\
  run model_snaive_wday (5 # 365)%Q = Ok [(0, nan); (1, nan); (2, nan); (3, nan); (4, nan); (5, nan); (6, nan); (7, 5%float)] /\
  run model_snaive_wday (7 # 365)%Q = Ok [(0, nan); (1, nan); (2, nan); (3, nan); (4, nan); (5, nan); (6, nan); (7, 5%float); (8, nan); (9, 7%float)].
Proof.
  split.
  { constructor; [reflexivity| | | |].
    - change (map r_date (rows (c88_act (T := XR)))) with [ts 2018 1 1; ts 2018 1 2; ts 2018 1 3]. repeat (constructor; try reflexivity).
    - intros q [<-|[<-|[<-|[]]]]; vm_compute; reflexivity.
    - intros q [<-|[<-|[<-|[]]]]; vm_compute; reflexivity.
    - intros q I. right. exists q. auto. }
  split; [exists (mkRow (ts 2018 1 1) "" 0 (nofZ 5) n1), (mkRow (ts 2018 1 2) "" 1 nnan n1); split; [now left|split; [right; now left|split; [reflexivity|vm_compute; reflexivity]]]|].
  split; [intros r [<-|[<-|[<-|[]]]]; vm_compute; discriminate|].
  cbv zeta. split; [|split; [|split]]; vm_compute; reflexivity.
Qed.
(* The naive model is not causal: for a single sample its value at the sample is missing, unless a later
   sample is asked for as well. *)
Theorem C88_naive_refuted :
  let N := fops in
  let run y := extrapolate_model model_naive (Some []) (ODate (ts 2018 1 1) (ts 2018 1 1)) (Some "D") y 0 (Some (dated false [(3, 1)]%float)) in
  run 0%Q = Ok [(ts 2018 1 1, nan)] /\ run (1 # 365)%Q = Ok [(ts 2018 1 1, 3%float); (ts 2018 1 2, 3%float)].
Proof. split; vm_compute; reflexivity. Qed.
Print Assumptions C88_naive_refuted.
