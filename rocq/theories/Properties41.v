(* A longer horizon for whole forecasts with naive models: C88. *)
From Coq Require Import ZArith String List Bool Floats QArith Reals Lra.
From Verif Require Import Num Py Cal Fmt Model Base Naive Fixed Dummy Freq Normalize Fit Select Pi Forecast.
From Verif Require Import NumProofs FitProofs ForecastProofs HorizonProofs HorizonRunProofs NaiveProofs TotalProofs TotalProofs2 TotalProofs3 NaiveHorizonProofs NaiveRunProofs Ex Properties7 Properties14 Properties32.
Import ListNotations.
Local Open Scope string_scope.
Local Open Scope list_scope.
Local Open Scope Z_scope.

(* Daily and weekly series: the table of actuals and best fit is continued by later rows, and so is the
   forecast table, also if the best fit is one of the two naive models - the naive one provided that
   some usable sample is not the last sample. *)
Theorem C88_naive_best : forall (W : world XR) c s step freq t0 (f : frame XR) (y y' : Q) r r',
  steady step freq t0 f -> (forall r, In r (rows f) -> tame (r_y r)) -> (has_w f = true -> forall r, In r (rows f) -> tame (r_w r)) ->
  (0 < y)%Q -> (y <= y')%Q ->
  run_forecast_single W (ForecastProofs.set_all true (set_years y c)) s f = Ok r ->
  run_forecast_single W (ForecastProofs.set_all true (set_years y' c)) s f = Ok r' ->
  exists f1 mode ms best, prepared c f = Ok f1 /\ final_mode W c (with_weights f1) = Ok mode /\
    ms = all_models c mode (detect_freq_frame f) (fst (candidate_lists c (with_weights f1))) (snd (candidate_lists c (with_weights f1))) /\
    (forall d, In d (rs_data r) -> d_best d = true -> d_actual d = false -> d_model d = best) /\
    (NoDup (map fm_name ms) ->
      (forall m, In m ms -> fm_name m = best -> causal m \/ m = model_naive /\ before_last c f \/ m = model_snaive_wday) ->
      (exists rest, shown_rows (rs_data r') = shown_rows (rs_data r) ++ rest /\
         forall d a, In d rest -> In a (rs_data r) -> d_actual a = true -> d_date a < d_date d) /\
      continued (rs_data r) (rs_forecast r) (rs_forecast r')).
Proof.
  intros W c s step freq t0 f y y' r r' D Ty Tw Py Ly.
  apply (naive_run W c s freq t0 (on_step step t0) f y y' r r'); auto; [apply steady_ground|apply steady_ground|now apply steady_settled]; exact (sd_step _ _ _ _ D).
Qed.
Print Assumptions C88_naive_best.

(* the daily series (7, 5, 5, 7) with the naive models, a line and a constant meets the hypotheses *)
Definition c88_naives {T} `{NumOps T} : list (fmodel T) := [model_naive; model_snaive_wday].
Example C88_naive_best_meets :
  steady DAY "D" (ts 2018 1 1) (c73_frame 5 7) /\ (forall r, In r (rows (c73_frame 5 7)) -> tame (r_y r)) /\
  before_last (c73_cfg c88_naives) (c73_frame 5 7) /\
  NoDup (map fm_name (all_models (T := XR) (c73_cfg c88_naives) "add" (Some "D") [model_linear; model_constant] [])).
Proof.
  split; [apply c73_steady|]. split; [intros r H; cbn in H; decompose [or] H; try contradiction; subst r; left; eexists; reflexivity|]. split.
  - intros f1 E. assert (f1 = c73_frame 5 7) as -> by (revert E; cbv; congruence).
    exists (mkRow (ts 2018 1 1) "s" 0 (Fin 7) (Fin 1)), (mkRow (ts 2018 1 2) "s" 1 (Fin 5) (Fin 1)). split; [|split].
    + unfold usable_rows. apply filter_In. split; [now left|reflexivity].
    + right. now left.
    + vm_compute. reflexivity.
  - vm_compute. repeat (constructor; [cbn; intuition congruence|]). constructor.
Qed.
(* a run whose best fit is the naive model, two and four days ahead *)
Definition c88_label (r : res (result float)) : list string :=
  match r with Ok r => map d_model (filter (fun d => (d_best d && negb (d_actual d))%bool) (rs_data r)) | Err _ => [] end.
Example C88_naive_best_example :
  let trend := let N := fops in [model_constant] in
  let naive := let N := fops in [model_naive] in
  c88_label (c88_run (2 # 365) trend naive) = repeat "naive" 10 /\ c88_label (c88_run (4 # 365) trend naive) = repeat "naive" 12 /\
  c88_best (c88_run (2 # 365) trend naive) = combine (map Z.of_nat (seq 0 10)) [1; 1; 3; 5; 7; 9; 11; 12; 15; 15]%float /\
  c88_best (c88_run (4 # 365) trend naive) = combine (map Z.of_nat (seq 0 12)) [1; 1; 3; 5; 7; 9; 11; 12; 15; 15; 15; 15]%float /\
  firstn 16 (c88_pi (c88_run (4 # 365) trend naive)) = firstn 16 (c88_pi (c88_run (2 # 365) trend naive)).
Proof. cbv zeta. split; [|split; [|split; [|split]]]; vm_compute; reflexivity. Qed.
