(* Forecasts complete: C71. *)
From Coq Require Import ZArith String List Bool Reals PrimFloat Sorted Permutation Lia Lra QArith_base.
From Verif Require Import Num Py Cal Fmt Model Base Dummy Naive Freq Normalize Fixed Fit Interp Select Outliers Pi Forecast.
From Verif Require Import ListProofs NumProofs NormalizeProofs GuessProofs FitProofs ForecastProofs ForecastProofs2 TotalProofs HardyProofs TotalProofs2 TotalProofs3 TotalProofs4 OutlierProofs SpareProofs Ex Properties7.
Import ListNotations.
Local Open Scope string_scope.
Local Open Scope list_scope.

(* ================= C71 ================= *)
(* [steady step freq t0 f]: a normalised daily or weekly series, possibly with gaps.  [tame]: a real
   number or NaN.  [dependable E]: the optimizer, started where the residuals are real, ends with as
   many parameters as it was given and a real cost, or raises LinAlgError.  [settings c]: candidates
   are the null, naive and weekly naive models and sums and products of hardy ones ([hardy], see
   C71_sturdy and C71_masks), percentiles lie between 0 and 100, and the widening of the interval is given.
   [enough c f]: two dates from the start date on, and a sample with a value and positive weight left
   by the outlier removal. *)
Theorem C71_series : forall W c source step freq t0 (f : frame XR),
  steady step freq t0 f -> (forall r, In r (rows f) -> tame (r_y r)) -> (has_w f = true -> forall r, In r (rows f) -> tame (r_w r)) ->
  dependable (w_env W) -> draws (e_rnd (w_env W)) -> (Forecast.c_mode c = "auto" -> answers (w_env W)) ->
  settings c -> enough c f ->
  exists r, run_forecast_single W c source f = Ok r.
Proof. exact forecast_completes. Qed.
Print Assumptions C71_series.
(* the same for an input table with any number of sources; [regular step ds]: distinct dates, all
   whole steps apart and two of them one step apart *)
Theorem C71_table : forall (W : string -> world XR) c id (t : raw XR),
  t_rows t <> [] -> t_y t = true -> t_x t = false -> has_date_after t = true -> settings c ->
  (forall s, dependable (w_env (W s)) /\ draws (e_rnd (w_env (W s))) /\ (Forecast.c_mode c = "auto" -> answers (w_env (W s)))) ->
  (forall q, In q (t_rows t) -> series_ok t (gkey t q) /\ series_enough c t (gkey t q)) ->
  exists r, run_forecast W c id t = Ok (Some r).
Proof. exact table_completes. Qed.
Print Assumptions C71_table.
Theorem C71_sturdy :
  Forall sturdy [model_constant; model_linear; model_linear_nondec; model_ramp; model_step; model_two_steps;
                 model_season_wday; model_season_month; model_season_month_old; model_season_fourier_yearly] /\
  (forall t, sturdy (get_model_step_date t)) /\ (forall t0 t1, sturdy (get_model_spike_date t0 t1)) /\
  forall a b, sturdy a -> sturdy b -> sturdy (madd a b) /\ sturdy (mmul a b).
Proof.
  split; [|split; [exact sturdy_step_date|split; [exact sturdy_spike_date|intros a b A B; split; [now apply sturdy_madd|now apply sturdy_mmul]]]].
  repeat (apply Forall_cons || apply Forall_nil).
  all: first [apply sturdy_constant|apply sturdy_linear|apply sturdy_linear_nondec|apply sturdy_ramp|apply sturdy_step|apply sturdy_two_steps|apply sturdy_wday|apply sturdy_month|apply sturdy_month_old|apply sturdy_fourier].
Qed.
Print Assumptions C71_sturdy.
(* the candidates may contain dummy variables, calendars and date lists, whatever their names, and
   their sums and products with sturdy models; they need a forecast of at least zero years *)
Theorem C71_masks :
  (forall ne m, sturdy m -> hardy ne m) /\
  (forall name dm m, name <> "null" -> user_mask dm -> get_model_dummy name dm = Ok m -> hardy true m) /\
  (forall l name m, Forall (fun c => cal_name c <> "null") l -> name <> Some "null" -> get_model_from_calendars l name = Ok m -> hardy true m) /\
  (forall name args m, name <> "null" -> get_model_from_datelist name args = Ok m -> hardy true m) /\
  forall ne a b, hardy ne a -> hardy ne b -> hardy ne (madd a b) /\ hardy ne (mmul a b).
Proof.
  split; [exact sturdy_hardy|]. split; [intros name dm m Nn U E; now apply (hardy_model_dummy name dm)|]. split; [exact hardy_calendars|]. split; [exact hardy_datelist|].
  intros ne a b A B. split; [now apply hardy_madd|now apply hardy_mmul].
Qed.
Print Assumptions C71_masks.
Theorem C71_shipped : forall r, In r [model_season_wday_2; model_dummy_christmas; model_dummy_month_start; model_calendar_uk; model_calendar_ita] ->
  exists m, r = Ok m /\ hardy true m.
Proof.
  intros r [<-|[<-|[<-|[<-|[<-|[]]]]]]; [apply shipped_dummy; discriminate..| |].
  all: apply shipped_calendar; [discriminate| |discriminate]; repeat constructor; discriminate.
Qed.
Print Assumptions C71_shipped.

(* the defaults of run_forecast with an extrapolation of a year and automatic composition *)
Definition default_cfg {T} : config T := mkCfg None None None (1 # 1) "auto" false false None None None None None 5 20 (Some "Y") true.
Lemma default_settings : settings default_cfg.
Proof.
  constructor.
  - constructor; intros l m C; discriminate.
  - intros l m C; discriminate.
  - discriminate.
  - cbv. auto.
  - right. discriminate.
Qed.
(* the same with bank holidays and a seasonal dummy among the candidates *)
Example C71_calendar_settings : exists cal wd, model_calendar_uk (T := XR) = Ok cal /\ model_season_wday_2 (T := XR) = Ok wd /\
  settings (mkCfg (Some [model_linear; madd model_linear cal]) (Some [wd; mmul wd model_season_month]) None (1 # 1) "mult" false false None None None
    (Some [cal]) None 5 20 (Some "Y") true).
Proof.
  destruct (C71_shipped model_calendar_uk) as (cal & Ec & Hc); [do 3 right; now left|]. destruct (C71_shipped model_season_wday_2) as (wd & Ew & Hw); [now left|].
  exists cal, wd. split; [exact Ec|]. split; [exact Ew|]. constructor.
  - constructor; intros l m C I; cbn [c_trend c_season c_yearly c_weekly c_calendar] in C; try discriminate C; injection C as <-; change (needs_date _) with true; left.
    + destruct I as [<-|[<-|[]]]; [apply sturdy_hardy, sturdy_linear|apply hardy_madd; [apply sturdy_hardy, sturdy_linear|exact Hc]].
    + destruct I as [<-|[<-|[]]]; [exact Hw|apply hardy_mmul; [exact Hw|apply sturdy_hardy, sturdy_month]].
    + destruct I as [<-|[]]. exact Hc.
  - intros l m C; discriminate.
  - discriminate.
  - cbv. auto.
  - right. discriminate.
Qed.
(* an optimizer that always answers zero *)
Definition c71_world : world XR :=
  mkWorld (mkEnv (fun _ g _ => LDone true (Fin 0) (repeat (Fin 0) (length g))) (fun _ => Fin (1 / 2)) (fun _ => "[..]") (fun _ => "#")) by_score (fun a i => (a + i)%nat).
(* a daily source with gaps and a missing value, and a weekly one, mixed *)
Definition c71_row (d : Z) (s : string) (y w : XR) : rawrow XR := mkRaw 0 (mkRow (ts 2018 1 d) s 0 y w).
Definition c71_table : raw XR :=
  mkTable true true false true true false
    [c71_row 4 "a" (Fin 3) (Fin 1); c71_row 8 "b" (Fin 7) (Fin 2); c71_row 1 "a" (Fin 1) (Fin 1); c71_row 2 "a" XNaN (Fin 1);
     c71_row 1 "b" (Fin 5) (Fin 1); c71_row 29 "b" (Fin 6) (Fin 0); c71_row 9 "a" (Fin 2) XNaN; c71_row 5 "a" (Fin 9) (Fin 3)].
Lemma find_settings c : settings c -> settings (find_outliers c).
Proof. intros [[A1 A2 A3 A4 A5] B C D E]. constructor; [constructor; assumption|assumption..]. Qed.
Example C71_example : forall c, c = default_cfg \/ c = find_outliers default_cfg -> exists r, run_forecast (fun _ => c71_world) c "src" c71_table = Ok (Some r).
Proof.
  intros c Hc. assert (Hs : c_start c = None) by (destruct Hc; subst c; reflexivity).
  assert (Ka : series_ok c71_table "a" /\ series_enough c c71_table "a").
  { split; [constructor|].
    - exists DAY. constructor; [now left| | |].
      + cbv. repeat constructor; cbn; intuition discriminate.
      + intros a b I J. cbn in I, J. decompose [or] I; try contradiction; subst a; decompose [or] J; try contradiction; subst b; reflexivity.
      + exists (ts 2018 1 1). split; vm_compute; tauto.
    - intros q I. cbn in I. decompose [or] I; try contradiction; subst q; cbn; first [left; eexists; reflexivity|right; reflexivity].
    - intros _ q I. cbn in I. decompose [or] I; try contradiction; subst q; cbn; first [left; eexists; reflexivity|right; reflexivity].
    - unfold series_enough, after_start. rewrite Hs. split.
      + exists (c71_row 4 "a" (Fin 3) (Fin 1)), (c71_row 1 "a" (Fin 1) (Fin 1)).
        cbn. repeat split; auto. discriminate.
      + exists (c71_row 1 "a" (Fin 1) (Fin 1)). split; [cbn; auto|]. split; [discriminate|]. split; [intros _; exists 1%R; split; [reflexivity|lra]|].
        intros _. right. left. intros r [I _]. cbn in I. decompose [or] I; try contradiction; subst r; discriminate. }
  assert (Kb : series_ok c71_table "b" /\ series_enough c c71_table "b").
  { split; [constructor|].
    - exists (7 * DAY)%Z. constructor; [now right| | |].
      + cbv. repeat constructor; cbn; intuition discriminate.
      + intros a b I J. cbn in I, J. decompose [or] I; try contradiction; subst a; decompose [or] J; try contradiction; subst b; reflexivity.
      + exists (ts 2018 1 1). split; vm_compute; tauto.
    - intros q I. cbn in I. decompose [or] I; try contradiction; subst q; cbn; left; eauto.
    - intros _ q I. cbn in I. decompose [or] I; try contradiction; subst q; cbn; left; eauto.
    - unfold series_enough, after_start. rewrite Hs. split.
      + exists (c71_row 8 "b" (Fin 7) (Fin 2)), (c71_row 1 "b" (Fin 5) (Fin 1)).
        cbn. repeat split; auto. discriminate.
      + exists (c71_row 1 "b" (Fin 5) (Fin 1)). split; [cbn; auto|]. split; [discriminate|]. split; [intros _; exists 1%R; split; [reflexivity|lra]|].
        intros _. right. left. intros r [I _]. cbn in I. decompose [or] I; try contradiction; subst r; discriminate. }
  apply C71_table; try reflexivity; try discriminate.
  - destruct Hc; subst c; [exact default_settings|apply find_settings, default_settings].
  - intros _. split; [|split].
    + intros F g b _ _ _ _ _ _. cbn. split; [exists 0%R; split; [reflexivity|lra]|apply repeat_length].
    + intros i. exists (1 / 2)%R. split; [reflexivity|lra].
    + intros _ F g b. cbn. eauto.
  - intros q I. cbn in I. decompose [or] I; try contradiction; subst q; cbn [gkey t_src c71_table q_row r_src]; first [exact Ka|exact Kb].
Qed.
(* one date left by the start date, or no sample with positive weight, or two dates twice with a gap *)
Definition c71_cfg {T} `{NumOps T} (start : option Z) : config T :=
  mkCfg (Some [model_linear]) (Some []) start (7 # 365)%Q "add" true false None None (Some []) None None 5 20 (Some "Y") true.
Definition c71_run (start : option Z) (l : list (Z * (float * float))) : res nat :=
  let N := fops in
  rmap (fun r => length (rs_data r)) (run_forecast_single (ex_world (LDone true 40 [5]) (LDone true 1 [2; 1]))%float (c71_cfg start) "s"
    (mkFrame true false true (map (fun p => mkRow (ts 2018 1 (1 + fst p)) "s" (fst p) (fst (snd p)) (snd (snd p))) l))).
Definition c71_rows (w : float) : list (Z * (float * float)) := [(0%Z, (1, w)); (1%Z, (3, w)); (2%Z, (5, w)); (3%Z, (7, w))]%float.
Example C71_conditions_needed :
  c71_run None (c71_rows 1) = Ok 15%nat /\ c71_run (Some (ts 2018 1 4)) (c71_rows 1) = Err AttributeError /\
  c71_run None (c71_rows 0) = Err ValueError /\
  c71_run None [(0%Z, (1, 1)); (1%Z, (3, 1)); (1%Z, (3, 1)); (3%Z, (7, 1))]%float = Err ValueError.
Proof. vm_compute. repeat split; reflexivity. Qed.
(* a calendar is asked for the holidays of an empty range if the forecast ends before it starts *)
Definition c71_cal (years : Q) : res nat :=
  let N := fops in
  let* cal := model_calendar_uk in
  rmap (fun r => length (rs_data r)) (run_forecast_single (ex_world (LDone true 40 [5]) (LDone true 1 [2; 1]))%float
    (mkCfg (Some [cal]) (Some []) None years "add" true false None None (Some []) None None 5 20 (Some "Y") true) "s"
    (mkFrame true false true (map (fun p => mkRow (ts 2018 1 (1 + fst p)) "s" (fst p) (fst (snd p)) (snd (snd p))) (c71_rows 1)))).
Example C71_years_needed : c71_cal (7 # 365) = Ok 15%nat /\ c71_cal (-7 # 365) = Err ValueError.
Proof. vm_compute. split; reflexivity. Qed.

(* ---- what the removal of spikes leaves (C44, C45) ---- *)
(* the earliest and the latest sample are never spikes *)
Theorem C44_ends : forall (f : frame XR) steps spikes i p, StronglySorted Z.lt (positions f) -> model_outliers f = Ok (steps, spikes) ->
  nth_error (positions f) i = Some p -> (forall p', In p' (positions f) -> p <= p')%Z \/ (forall p', In p' (positions f) -> p' <= p)%Z ->
  nth_error spikes i <> Some true.
Proof. exact ends_kept. Qed.
Print Assumptions C44_ends.
(* next to every spike, in its run, a changed sample is not a spike *)
Theorem C44_spared : forall (T : Type) (N : NumOps T) (f : frame T) steps spikes i, model_outliers f = Ok (steps, spikes) -> nth_error spikes i = Some true ->
  exists k, nth_error spikes k = Some false /\ change_at f k /\ same_run f i k.
Proof. exact @outliers_spared. Qed.
Print Assumptions C44_spared.
(* so a series with a usable sample keeps one, if all its samples with a value have positive weight or
   the usable one is the earliest or the latest *)
Theorem C45_left : forall (f f1 : frame XR), has_date f = true -> StronglySorted Z.lt (map r_date (rows f)) -> ignore_spikes f = Ok f1 ->
  (exists q, In q (rows f) /\ usable (has_w f) q = true /\
    ((forall r, In r (rows f) -> r_y r <> XNaN -> usable (has_w f) r = true) \/
     (forall r, In r (rows f) -> r_date q <= r_date r)%Z \/ (forall r, In r (rows f) -> r_date r <= r_date q)%Z)) ->
  exists q, In q (rows f1) /\ usable (has_w f1) q = true.
Proof.
  intros f f1 Hd St E1 Sp. pose proof (spikes_leave f f1 Hd St E1 Sp) as U. unfold usable_rows in U.
  destruct (filter (usable (has_w f1)) (rows f1)) as [|q l] eqn:F; [congruence|]. exists q. apply filter_In. rewrite F. now left.
Qed.
Print Assumptions C45_left.
(* a series whose only weighed sample is a spike loses it; the same series with weight at its ends
   keeps those samples *)
Definition c45_series (w0 : float) : list (float * float) :=
  [(1, w0); (2, 0); (3, 0); (4, 0); (25, 1); (6, 0); (7, 0); (8, 0); (9, 0); (10, w0)]%float.
Example C45_lost :
  let N := fops in
  let run w0 := rmap (fun r => length (rs_data r)) (run_forecast_single (ex_world (LDone true 40 [5]) (LDone true 1 [2; 1]))%float
    (find_outliers (ex_cfg [model_linear])) "s" (dated true (c45_series w0))) in
  rmap (fun f => map r_w (rows f)) (prepared (find_outliers (ex_cfg [model_linear])) (dated true (c45_series 0))) = Ok [0; 0; 0; 0; 0; 0; 0; 0; 0; 0]%float /\
  run 0%float = Err ValueError /\
  rmap (fun f => map r_w (rows f)) (prepared (find_outliers (ex_cfg [model_linear])) (dated true (c45_series 1))) = Ok [1; 0; 0; 0; 0; 0; 0; 0; 0; 1]%float /\
  run 1%float = Ok 10%nat.
Proof. vm_compute. repeat split; reflexivity. Qed.
