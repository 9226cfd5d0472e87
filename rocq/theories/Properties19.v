(* Forecasts of monthly and yearly series complete: C79. *)
From Coq Require Import ZArith String List Bool Reals PrimFloat Sorted Permutation Lia Lra QArith_base.
From Verif Require Import Num Py Cal Fmt Model Base Naive Freq Normalize Fixed Fit Interp Select Outliers Pi Forecast.
From Verif Require Import ListProofs NumProofs NormalizeProofs GuessProofs FitProofs ForecastProofs ForecastProofs2 TotalProofs TotalProofs2 TotalProofs3 TotalProofs4 MonthProofs Ex Properties7 Properties12.
Import ListNotations.
Local Open Scope string_scope.
Local Open Scope list_scope.

(* ================= C79 ================= *)
(* [monthly freq d t0 f]: a normalised series with one row on the first (MS) or last (M) day of each of
   at least two consecutive months, or of at least two consecutive years (YS, Y).  [whole_periods freq
   years]: the horizon is a whole number of months (years).  The other conditions are those of C71. *)
Theorem C79_series : forall W c source freq d t0 (f : frame XR),
  monthly freq d t0 f -> whole_periods freq (c_years c) ->
  (forall r, In r (rows f) -> tame (r_y r)) -> (has_w f = true -> forall r, In r (rows f) -> tame (r_w r)) ->
  dependable (w_env W) -> draws (e_rnd (w_env W)) -> (Forecast.c_mode c = "auto" -> answers (w_env W)) ->
  settings c -> enough c f ->
  exists r, run_forecast_single W c source f = Ok r.
Proof. exact monthly_completes. Qed.
Print Assumptions C79_series.
(* a table whose sources are daily, weekly, monthly or yearly, each in any order *)
Theorem C79_table : forall (W : string -> world XR) c id (t : raw XR),
  t_rows t <> [] -> t_y t = true -> t_x t = false -> has_date_after t = true -> settings c ->
  (forall s, dependable (w_env (W s)) /\ draws (e_rnd (w_env (W s))) /\ (Forecast.c_mode c = "auto" -> answers (w_env (W s)))) ->
  (forall q, In q (t_rows t) -> calendar_series (c_years c) t (gkey t q) /\ series_enough c t (gkey t q)) ->
  exists r, run_forecast W c id t = Ok (Some r).
Proof. exact calendar_completes. Qed.
Print Assumptions C79_table.

(* a daily source, a monthly one out of order and a yearly one *)
Definition c79_row (y m d : Z) (s : string) (v : XR) : rawrow XR := mkRaw 0 (mkRow (ts y m d) s 0 v XNaN).
Definition c79_table : raw XR :=
  mkTable true false false true true false
    [c79_row 2018 3 1 "a" (Fin 3); c79_row 2018 1 1 "b" (Fin 7); c79_row 2018 1 1 "a" (Fin 1); c79_row 2018 2 1 "a" XNaN;
     c79_row 2018 1 2 "b" (Fin 5); c79_row 2018 1 5 "b" (Fin 6); c79_row 2016 12 31 "c" (Fin 2); c79_row 2017 12 31 "c" (Fin 9)].
Example C79_example : forall c, c = default_cfg \/ c = find_outliers default_cfg -> exists r, run_forecast (fun _ => c71_world) c "src" c79_table = Ok (Some r).
Proof.
  intros c Hc. assert (Hs : c_start c = None /\ c_years c = 1%Q) by (destruct Hc; subst c; split; reflexivity). destruct Hs as [Hs Hy].
  assert (We : forall q, weighed c79_table q) by (intros q C; discriminate).
  assert (Ka : calendar_series 1 c79_table "a" /\ series_enough c c79_table "a").
  { split; [constructor|].
    - right. exists "MS". split; [|reflexivity]. exists month_start, 0%Z, (12 * 2018)%Z, 3%nat. split; [constructor|]. split; [split; [lia|reflexivity]|]. split; [lia|].
      change (Permutation [ts 2018 3 1; ts 2018 1 1; ts 2018 2 1] [ts 2018 1 1; ts 2018 2 1; ts 2018 3 1]).
      eapply perm_trans; [apply perm_swap|]. apply perm_skip, perm_swap.
    - intros q I. cbn in I. decompose [or] I; try contradiction; subst q; cbn; first [left; eexists; reflexivity|right; reflexivity].
    - discriminate.
    - unfold series_enough, after_start. rewrite Hs. split.
      + exists (c79_row 2018 3 1 "a" (Fin 3)), (c79_row 2018 1 1 "a" (Fin 1)). cbn. repeat split; auto. discriminate.
      + exists (c79_row 2018 3 1 "a" (Fin 3)). split; [cbn; auto|]. split; [discriminate|]. split; [apply We|]. intros _. left. intros r _ _. apply We. }
  assert (Kb : calendar_series 1 c79_table "b" /\ series_enough c c79_table "b").
  { split; [constructor|].
    - left. exists DAY. constructor; [now left| | |].
      + cbv. repeat constructor; cbn; intuition discriminate.
      + intros a b I J. cbn in I, J. decompose [or] I; try contradiction; subst a; decompose [or] J; try contradiction; subst b; reflexivity.
      + exists (ts 2018 1 1). split; vm_compute; tauto.
    - intros q I. cbn in I. decompose [or] I; try contradiction; subst q; cbn; left; eauto.
    - discriminate.
    - unfold series_enough, after_start. rewrite Hs. split.
      + exists (c79_row 2018 1 1 "b" (Fin 7)), (c79_row 2018 1 5 "b" (Fin 6)). cbn. repeat split; auto 10. discriminate.
      + exists (c79_row 2018 1 1 "b" (Fin 7)). split; [cbn; auto|]. split; [discriminate|]. split; [apply We|]. intros _. left. intros r _ _. apply We. }
  assert (Kc : calendar_series 1 c79_table "c" /\ series_enough c c79_table "c").
  { split; [constructor|].
    - right. exists "Y". split; [|reflexivity]. exists (fun y => month_last (12 * y + 11))%Z, 0%Z, 2016%Z, 2%nat. split; [constructor|]. split; [split; [lia|reflexivity]|]. split; [lia|].
      change (Permutation [ts 2016 12 31; ts 2017 12 31] [ts 2016 12 31; ts 2017 12 31]). reflexivity.
    - intros q I. cbn in I. decompose [or] I; try contradiction; subst q; cbn; left; eauto.
    - discriminate.
    - unfold series_enough, after_start. rewrite Hs. split.
      + exists (c79_row 2016 12 31 "c" (Fin 2)), (c79_row 2017 12 31 "c" (Fin 9)). cbn. repeat split; auto 10. discriminate.
      + exists (c79_row 2016 12 31 "c" (Fin 2)). split; [cbn; auto|]. split; [discriminate|]. split; [apply We|]. intros _. left. intros r _ _. apply We. }
  apply C79_table; try reflexivity; try discriminate.
  - destruct Hc; subst c; [exact default_settings|apply find_settings, default_settings].
  - intros _. split; [|split].
    + intros F g b _ _ _ _ _ _. cbn. split; [exists 0%R; split; [reflexivity|lra]|apply repeat_length].
    + intros i. exists (1 / 2)%R. split; [reflexivity|lra].
    + intros _ F g b. cbn. eauto.
  - intros q I. rewrite Hy. cbn in I. decompose [or] I; try contradiction; subst q; cbn [gkey t_src c79_table q_row r_src]; first [exact Ka|exact Kb|exact Kc].
Qed.
(* half a year of forecasts from five months: six months after the last one; a fifth of a year is no whole
   number of months, and quarterly dates are refused *)
Definition c79_cfg {T} `{NumOps T} (years : Q) : config T :=
  mkCfg (Some [model_linear]) (Some []) None years "add" true false None None (Some [model_naive]) None None 5 20 (Some "Y") true.
Definition c79_run (years : Q) (months : list Z) : res (list (string * float)) :=
  let N := fops in
  let t k := (month_start (12 * 2018 + k) * DAY)%Z in
  rmap (fun r => map (fun d => (d_model d, d_y d)) (filter (fun d => (t 4 <=? d_date d)%Z) (rs_data r)))
    (run_forecast_single (ex_world (LDone true 40 [5]) (LDone true 1 [2; 1]))%float (c79_cfg years) "s"
      (mkFrame true false false (map (fun k => mkRow (t k) "s" (month_start (12 * 2018 + k) - month_start (12 * 2018)) (nofZ (100 + k)) 1%float) months))).
Example C79_conditions_needed :
  c79_run (1 # 2) [0; 1; 2; 3; 4]%Z = Ok ([("actuals", 104)] ++ [("linear", 241); ("linear", 303); ("linear", 363); ("linear", 425); ("linear", 487); ("linear", 547); ("linear", 609)] ++
                                          ("naive", 103) :: repeat ("naive", 104) 6)%float /\
  c79_run (1 # 5) [0; 1; 2; 3; 4]%Z = Err ValueError /\
  c79_run (1 # 2) [0; 3; 6; 9]%Z = Err ValueError.
Proof. vm_compute. repeat split; reflexivity. Qed.
