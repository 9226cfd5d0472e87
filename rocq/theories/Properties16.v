(* Moving the calendar: C75. *)
From Coq Require Import ZArith String List Bool Floats QArith_base Permutation.
From Verif Require Import Num Py Cal Fmt Model Base Dummy Fixed Naive Freq Normalize Fit Interp Select Stats Outliers Pi Forecast.
From Verif Require Import ListProofs NormalizeProofs ShiftProofs Ex.
From Verif Require Properties7.
Import ListNotations.
Local Open Scope string_scope.
Local Open Scope list_scope.
Local Open Scope Z_scope.

(* ================= C75 ================= *)
(* [mv k]: k weeks later.  [mraw k t]: the table with every date (column or index) k weeks later.
   [mc k c]: the arguments with date_start_actuals k weeks later.  [bare]: a result without the labels
   that spell out date ranges (C67).  [move k]: a result with every date k weeks later and nothing
   else changed.  [sorts_scores]: the sort by aic_c returns rows of the table and looks at nothing but
   the score.  [steady_table]: no series of the table has a month, quarter or year frequency.
   [portable k c]: every model named in the arguments is [stationary k], and the yearly season is not
   left to its default (which is a Fourier series). *)
Theorem C75_forecast : forall (k : Z) (T : Type) (N : NumOps T) (W : string -> world T) c s t,
  (forall s, sorts_scores (W s)) -> has_date_after t = true -> steady_table t -> Forecast.c_mode c <> "auto" -> portable k c ->
  rmap (option_map bare) (run_forecast W (mc k c) s (mraw k t)) = rmap (option_map (fun r => move k (bare r))) (run_forecast W c s t).
Proof. exact @run_forecast_mv. Qed.
Print Assumptions C75_forecast.

(* the same for one series, which may have been normalised elsewhere *)
Theorem C75_series : forall (k : Z) (T : Type) (N : NumOps T) (W : world T) c source f,
  sorts_scores W -> has_date f = true -> steady (detect_freq_frame f) -> Forecast.c_mode c <> "auto" -> portable k c ->
  rmap bare (run_forecast_single W (mc k c) source (mf k f)) = rmap (fun r => move k (bare r)) (run_forecast_single W c source f).
Proof. exact @single_mv. Qed.
Print Assumptions C75_series.

(* which models do not look at the calendar beyond weekdays *)
Theorem C75_models : forall (k : Z) (T : Type) (N : NumOps T),
  Forall (stationary k) [model_null; model_constant; model_linear; model_linear_nondec; model_quasilinear; model_exp; model_decay; model_step; model_two_steps; model_spike;
                         model_sigmoid; model_sigmoid_step; model_ramp; model_season_wday; model_naive; model_snaive_wday] /\
  (forall m, model_season_wday_2 = Ok m -> stationary k m).
Proof.
  intros k T N. split; [|exact (@stationary_wday_2 k T N)].
  repeat (constructor; [first [apply stationary_null|apply stationary_constant|apply stationary_linear|apply stationary_linear_nondec|apply stationary_quasilinear|apply stationary_exp|apply stationary_decay
    |apply stationary_step|apply stationary_two_steps|apply stationary_spike|apply stationary_sigmoid|apply stationary_sigmoid_step|apply stationary_ramp|apply stationary_wday|apply stationary_naive
    |apply stationary_snaive]|]). constructor.
Qed.
Print Assumptions C75_models.
Theorem C75_composed : forall (k : Z) (T : Type) (N : NumOps T) m1 m2, stationary k m1 -> stationary k m2 ->
  stationary k (madd m1 m2) /\ stationary k (mmul m1 m2) /\
  (forall fixed b m, get_fixed_model m1 fixed b = Ok m -> stationary k m) /\ (forall fmt fixed m, fix_params_fmodel fmt m1 fixed = Ok m -> stationary k m).
Proof.
  intros k T N m1 m2 S1 S2. split; [now apply stationary_madd|]. split; [now apply stationary_mmul|]. split.
  - intros fixed b m. now apply stationary_get_fixed.
  - intros fmt fixed m. now apply stationary_fix.
Qed.
Print Assumptions C75_composed.

(* months: the season of a month is not carried along *)
Theorem C75_month_refuted : exists (T : Type) (N : NumOps T), ~ stationary 5 model_season_month.
Proof.
  exists float, fops. intros S1. pose proof (st_f 5 _ S1 [0%float] [ts 2018 1 1] (Some (1 :: repeat 2 10)%float) None None []) as E. vm_compute in E.
  injection E as E. apply (f_equal (fun a => PrimFloat.eqb a 1%float)) in E. vm_compute in E. discriminate.
Qed.
Print Assumptions C75_month_refuted.
(* a monthly table does not stay one *)
Theorem C75_monthly_refuted : exists ds, detect_freq (map (mv 1) ds) <> detect_freq ds.
Proof. exists [ts 2018 1 1; ts 2018 2 1; ts 2018 3 1]. vm_compute. discriminate. Qed.
Print Assumptions C75_monthly_refuted.

(* ---- examples ---- *)
Lemma by_score_scores {T} {N : NumOps T} (E : env T) d : sorts_scores (mkWorld E Properties7.by_score d).
Proof.
  intros l. cbn. unfold Properties7.by_score. split.
  - intros a I. exact (Permutation_in _ (Permutation_sym (isort_perm _ l)) I).
  - intros h Hh. apply isort_map. intros a b. now rewrite !Hh.
Qed.
(* daily data with a gap and a spike, two sources, dates in the index *)
Definition c75_rows (s : string) (ys : list float) : list (rawrow float) :=
  map (fun p => mkRaw (ts 2018 1 (1 + Z.of_nat (fst p))) (mkRow 0 s 0 (snd p) 1%float)) (filter (fun p => negb (Nat.eqb (fst p) 9)) (enumerate ys)).
Definition c75_table : raw float :=
  mkTable true false false false true true
    (c75_rows "a" [1; 2; 3; 4; 5; 6; 7; 8; 9; 10; 11; 60; 13; 14; 15; 16; 17]%float ++ c75_rows "b" [3; 3; 3; 3; 3; 3; 5; 3; 3; 3; 3; 3; 3; 5; 3; 3; 3]%float).
Definition c75_world : world float :=
  mkWorld (mkEnv (fun _ g _ => LDone true 1%float (map (fun _ => 1%float) g)) (fun _ => 0.5%float) (fun _ => "[..]") (fun _ => "#")) (Properties7.by_score (H := fops)) (fun a i => (a + i)%nat).
Definition c75_cfg (start : option Z) : config float :=
  let N := fops in
  mkCfg None None start (7 # 365)%Q "add" true true (Some []) None None None None 5 20 (Some "Y") true.
Lemma c75_rows_src s' s ys : filter (fun q => String.eqb (gkey c75_table q) s) (c75_rows s' ys) = if String.eqb s' s then c75_rows s' ys else [].
Proof.
  unfold c75_rows. induction (filter _ (enumerate ys)) as [|p l IH]; [now destruct (String.eqb s' s)|]. cbn [map filter]. rewrite IH. unfold gkey. cbn [c75_table t_src q_row r_src].
  now destruct (String.eqb s' s).
Qed.
Lemma c75_steady : steady_table c75_table.
Proof.
  intros s. change (t_rows c75_table) with (c75_rows "a" [1; 2; 3; 4; 5; 6; 7; 8; 9; 10; 11; 60; 13; 14; 15; 16; 17]%float ++ c75_rows "b" [3; 3; 3; 3; 3; 3; 5; 3; 3; 3; 3; 3; 3; 5; 3; 3; 3]%float).
  rewrite filter_app, !c75_rows_src. destruct (String.eqb_spec "a" s) as [<-|Na]; [|destruct (String.eqb_spec "b" s) as [<-|Nb]]; vm_compute; intuition discriminate.
Qed.
Example C75_example : forall k,
  let N := fops in
  rmap (option_map bare) (run_forecast (fun _ => c75_world) (mc k (c75_cfg (Some (ts 2018 1 2)))) "src" (mraw k c75_table))
  = rmap (option_map (fun r => move k (bare r))) (run_forecast (fun _ => c75_world) (c75_cfg (Some (ts 2018 1 2))) "src" c75_table).
Proof.
  intros k N. apply (C75_forecast k float N).
  - intros s. apply by_score_scores.
  - reflexivity.
  - exact c75_steady.
  - discriminate.
  - repeat split; try exact I; try discriminate. constructor.
Qed.
(* the forecast itself: it exists, has a best fit for both sources, and all of its dates move *)
Definition c75_show (r : res (option (result float))) : res (option (list (string * string * bool * bool) * list (string * Z * bool))) :=
  rmap (option_map (fun r => (map (fun m => (md_source (m_meta m), md_model (m_meta m), md_fit (m_meta m), m_best m)) (rs_meta r),
                              map (fun p => (p_src p, (p_date p - ts 2018 1 1) / DAY, p_actual p)) (firstn 2 (rs_forecast r) ++ skipn (length (rs_forecast r) - 2) (rs_forecast r))))) r.
Example C75_values :
  let N := fops in
  c75_show (run_forecast (fun _ => c75_world) (c75_cfg (Some (ts 2018 1 2))) "src" c75_table) =
    Ok (Some ([("a", "(linear+season_wday)", true, false); ("a", "linear", true, true); ("a", "snaive_wday", true, false);
             ("b", "(linear+season_wday)", false, false); ("b", "linear", true, true); ("b", "snaive_wday", true, false)],
            [("a", 1, true); ("a", 2, true); ("b", 22, false); ("b", 23, false)])) /\
  c75_show (run_forecast (fun _ => c75_world) (mc 30 (c75_cfg (Some (ts 2018 1 2)))) "src" (mraw 30 c75_table)) =
    Ok (Some ([("a", "(linear+season_wday)", true, false); ("a", "linear", true, true); ("a", "snaive_wday", true, false);
             ("b", "(linear+season_wday)", false, false); ("b", "linear", true, true); ("b", "snaive_wday", true, false)],
            [("a", 211, true); ("a", 212, true); ("b", 232, false); ("b", 233, false)])).
Proof. vm_compute. split; reflexivity. Qed.
