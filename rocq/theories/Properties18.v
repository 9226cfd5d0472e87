(* Least-squares fits exist: C78. *)
From Coq Require Import ZArith String List Bool Reals Sorted Permutation Lia Lra QArith_base.
From Verif Require Import Num Py Cal Fmt Model Base Naive Freq Normalize Fixed Fit Interp Select Outliers Pi Forecast.
From Verif Require Import ListProofs NumProofs ModelProofs BaseProofs SeasonProofs GuessProofs FitProofs StatsProofs ForecastProofs ForecastProofs2 MetaProofs LsqProofs TotalProofs TotalProofs2 TotalProofs3 UniqueProofs ExistProofs Ex Properties7 Properties11 Properties13.
Import ListNotations.
Local Open Scope string_scope.
Local Open Scope list_scope.

(* ================= C78 ================= *)
(* For any samples with n coefficients each, also fewer than n of them or dependent ones, the normal
   equations have a solution, and with it the sum of the squared weighted errors is smallest. *)
Theorem C78_solvable : forall n l, Forall (fun s => length (s_phi s) = n) l ->
  exists th, length th = n /\ normal th l /\ forall th', length th' = n -> (loss th l <= loss th' l)%R.
Proof.
  intros n l F. destruct (normal_solvable n l F) as (th & L & N). exists th. split; [exact L|]. split; [exact N|].
  intros th' L'. apply normal_minimum; [exact N|congruence].
Qed.
Print Assumptions C78_solvable.
(* There is one optimizer, the same for all models and series, that meets what C65, C66, C72 and C73
   ([minimizes]) and C71 ([dependable], [answers]) assume, and that fits every regression (C72) which
   has two samples more than parameters and accepts the input. *)
Theorem C78_optimizer : forall rnd arr num, exists E : env XR, e_rnd E = rnd /\ e_arr E = arr /\ e_num E = num /\
  dependable E /\ answers E /\ (forall m f act, minimizes E m f act) /\
  (draws rnd -> forall m phi f freq src act uc, regression m phi -> has_date f = true -> finite_rows f -> increasing_x f ->
    (fm_n m + 2 <= length (usable_rows f))%nat -> accepts m (xs_of m f) (ys_of f) (dates_of f) ->
    exists d, fit_model E m f freq src act uc = Ok d /\ md_fit d = true /\ md_status d = "FIT").
Proof.
  intros rnd arr num. exists (ideal rnd arr num). do 3 (split; [reflexivity|]). split; [apply ideal_dependable|]. split; [apply ideal_answers|].
  split; [intros m f act; apply ideal_minimizes|]. intros Dr m phi f freq src act uc. now apply ideal_fit.
Qed.
Print Assumptions C78_optimizer.
(* With this optimizer a daily or weekly series that follows a regression is continued on the same
   curve, without any assumption about the run.  [follows phi t0 f th0]: every value present is the
   combination th0 of the coefficients phi at the number of days since t0 and the date. *)
Theorem C78_forecast : forall rnd arr num W c source step freq t0 (f : frame XR) th0 phi, w_env W = ideal rnd arr num -> draws rnd ->
  steady step freq t0 f -> (has_w f = true -> forall r, In r (rows f) -> tame (r_w r)) -> follows phi t0 f th0 ->
  settings c -> enough c f ->
  exists r f1 mode acts (es : list (@entry XR)), run_forecast_single W (ForecastProofs.set_all true c) source f = Ok r /\ prepared c f = Ok f1 /\
    rs_data r = acts ++ concat (map en_rows es) /\ rs_meta r = map en_meta es /\ Forall (fun d => d_actual d = true) acts /\
    final_mode W c (with_weights f1) = Ok mode /\
    map en_model es = all_models c mode (detect_freq_frame f) (fst (candidate_lists c (with_weights f1))) (snd (candidate_lists c (with_weights f1))) /\
    forall e, In e es -> regression (en_model e) phi -> length th0 = fm_n (en_model e) ->
      (fm_n (en_model e) + 2 <= length (usable_rows (to_fit f1)))%nat -> determined (en_model e) phi (to_fit f1) ->
      accepts (en_model e) (xs_of (en_model e) (to_fit f1)) (ys_of (to_fit f1)) (dates_of (to_fit f1)) ->
      md_fit (m_meta (en_meta e)) = true /\ md_params (m_meta (en_meta e)) = fins th0 /\ md_cost (m_meta (en_meta e)) = Fin 0 /\
      exists st sp grid, zmin_opt (map r_date (rows (to_fit f1))) = Some st /\ zmax_opt (map r_date (rows (start_filter (c_start c) f))) = Some sp /\
        s_x_dates st sp (Some (en_model e)) (Some freq) (c_years c) (x_of t0 st) = Ok grid /\
        map (fun d => (d_date d, d_y d)) (en_rows e) = map (fun t => (t, Fin (rdot th0 (phi (IZR (x_of t0 t)) t)))) (map fst grid).
Proof. exact ideal_continues. Qed.
Print Assumptions C78_forecast.

(* two weeks with one day missing, on a line plus weekday effects *)
Definition c78_phi : R -> Z -> list R := fun x t => [x; 1%R] ++ wday_phi t.
Definition c78_row (th : list R) (k : Z) : row XR :=
  mkRow (ts 2018 1 (1 + k)) "s" k (Fin (rdot th (c78_phi (IZR k) (ts 2018 1 (1 + k))))) (Fin 0).
Definition c78_days : list Z := [0; 1; 2; 3; 4; 6; 7; 8; 9; 10; 11; 12; 13]%Z.
Definition c78_frame (th : list R) : frame XR := mkFrame true false false (map (c78_row th) c78_days).
Definition c78_cfg : config XR :=
  mkCfg (Some [model_linear]) (Some [model_season_wday]) None (14 # 365)%Q "add" true false None None (Some []) None None 5 20 (Some "Y") true.
Definition c78_rnd (i : nat) : XR := Fin (1 / 2).
Definition c78_world : world XR := mkWorld (ideal c78_rnd (fun _ => "[..]") (fun _ => "#")) by_score (fun a i => (a + i)%nat).

Lemma c78_dates th : map r_date (rows (c78_frame th)) = map (fun k => ts 2018 1 (1 + k)) c78_days.
Proof. unfold c78_frame. cbn [rows]. rewrite map_map. reflexivity. Qed.
Lemma c78_steady th : steady DAY "D" (ts 2018 1 1) (c78_frame th).
Proof.
  constructor; [left; split; reflexivity|reflexivity| | | |]; rewrite ?c78_dates.
  - vm_compute. reflexivity.
  - vm_compute. repeat constructor.
  - intros q I. apply (in_map r_date) in I. rewrite c78_dates in I. revert I. generalize (r_date q). apply Forall_forall.
    unfold c78_days. cbn [map]. repeat (constructor; [vm_compute; reflexivity|]). constructor.
  - intros q I. cbn [rows c78_frame] in I. apply in_map_iff in I as (k & <- & I). cbn [c78_row r_x r_date]. symmetry. revert k I. apply Forall_forall.
    repeat (constructor; [vm_compute; reflexivity|]). constructor.
Qed.
Lemma c78_follows th : follows c78_phi (ts 2018 1 1) (c78_frame th) th.
Proof.
  intros q I. left. assert (X : r_x q = x_of (ts 2018 1 1) (r_date q)) by exact (sd_x _ _ _ _ (c78_steady th) q I).
  cbn [rows c78_frame] in I. apply in_map_iff in I as (k & <- & _). unfold c78_row in *. cbn [r_y r_x r_date] in *. now rewrite <- X.
Qed.
Lemma c78_settings : settings c78_cfg.
Proof.
  constructor.
  - constructor; intros ms m K I; try discriminate; injection K as <-; destruct I as [<-|[]]; left; apply sturdy_hardy; [apply sturdy_linear|apply sturdy_wday].
  - intros ms m K I. injection K as <-. destruct I.
  - discriminate.
  - cbv. auto.
  - right. discriminate.
Qed.
Definition one_weight (r : row XR) : row XR := mkRow (r_date r) (r_src r) (r_x r) (r_y r) (Fin 1).
Lemma c78_to_fit th : prepared c78_cfg (c78_frame th) = Ok (c78_frame th) /\
  usable_rows (to_fit (c78_frame th)) = map one_weight (rows (c78_frame th)).
Proof.
  split; [reflexivity|]. unfold usable_rows, to_fit, with_weights, positive, c78_frame, usable. cbn. destruct (Rltb_spec 0 1); [|lra]. cbn.
  destruct (Rltb_spec 0 1); [reflexivity|lra].
Qed.
Lemma c78_week th : full_week (to_fit (c78_frame th)).
Proof.
  unfold full_week. rewrite (proj2 (c78_to_fit th)). split.
  - intros k K. assert (C : (k = 0 \/ k = 1 \/ k = 2 \/ k = 3 \/ k = 4 \/ k = 5 \/ k = 6)%Z) by lia.
    assert (G : forall j, In j c78_days -> weekday (ts 2018 1 (1 + j)) = k -> exists r, In r (map one_weight (rows (c78_frame th))) /\ weekday (r_date r) = k).
    { intros j I E. exists (one_weight (c78_row th j)). split; [now apply in_map, in_map|exact E]. }
    destruct C as [->|[->|[->|[->|[->|[->| ->]]]]]]; [apply (G 0%Z)|apply (G 1%Z)|apply (G 2%Z)|apply (G 3%Z)|apply (G 4%Z)|apply (G 12%Z)|apply (G 6%Z)]; try reflexivity; cbn; tauto.
  - exists (one_weight (c78_row th 0)), (one_weight (c78_row th 7)). split; [now apply in_map, in_map; left|]. split; [apply in_map, in_map; cbn; tauto|]. split; [reflexivity|discriminate].
Qed.
Lemma c78_regression : regression (madd model_linear model_season_wday) c78_phi.
Proof. apply (regression_madd_plain _ _ (fun x _ => [x; 1%R]) (fun _ t => wday_phi t)); [left; apply sturdy_linear|apply regression_linear_trend|apply regression_wday]. Qed.
Lemma c78_fit_dates th : map r_date (rows (to_fit (c78_frame th))) = map (fun k => ts 2018 1 (1 + k)) c78_days.
Proof.
  unfold to_fit, with_weights, positive, c78_frame. cbn. destruct (Rltb_spec 0 1); [reflexivity|lra].
Qed.
Lemma grid_dates {T} (N : NumOps T) a b (m : option (fmodel T)) freq years x0 grid : s_x_dates a b m freq years x0 = Ok grid ->
  exists fr e, grid_freq a freq = Ok fr /\ forecast_end b fr years = Ok e /\ date_range a e fr = Ok (map fst grid).
Proof.
  unfold s_x_dates. destruct (grid_freq a freq) as [fr|]; [|discriminate]. cbn [rbind]. destruct (forecast_end b fr years) as [e|] eqn:E2; [|discriminate]. cbn [rbind].
  destruct (date_range a e fr) as [ds|] eqn:E3; [|discriminate]. cbn [rbind]. intros E. injection E as <-. exists fr, e. do 2 (split; [reflexivity || assumption|]).
  rewrite combine_fst_len; [exact E3|]. unfold apply_a_x_scaling. destruct (model_requires_scaling _); now rewrite ?map_length.
Qed.
Lemma c78_grid th st sp m grid : zmin_opt (map r_date (rows (to_fit (c78_frame th)))) = Some st -> zmax_opt (map r_date (rows (c78_frame th))) = Some sp ->
  s_x_dates st sp (Some m) (Some "D") (14 # 365) (x_of (ts 2018 1 1) st) = Ok grid -> map fst grid = map (fun k => ts 2018 1 (1 + k)) (zrange 0 27).
Proof.
  rewrite c78_fit_dates, c78_dates. intros Es Ep. assert (K : st = ts 2018 1 1 /\ sp = ts 2018 1 14).
  { vm_compute in Es, Ep. split; [injection Es as <-|injection Ep as <-]; reflexivity. }
  destruct K as [-> ->]. intros E. apply grid_dates in E as (fr & e & E1 & E2 & E3).
  vm_compute in E1. injection E1 as <-. vm_compute in E2. injection E2 as <-. revert E3. generalize (map fst grid). intros ds E3. vm_compute in E3. injection E3 as <-. vm_compute. reflexivity.
Qed.
(* whatever the line and the weekday effects are, they are found and continued *)
Example C78_example : forall a b e1 e2 e3 e4 e5 e6, let th := [a; b; e1; e2; e3; e4; e5; e6] in
  exists r m acts frows, run_forecast_single c78_world c78_cfg "s" (c78_frame th) = Ok r /\ rs_meta r = [m] /\ rs_data r = acts ++ frows /\
    md_params (m_meta m) = fins th /\
    map (fun d => (d_date d, d_y d)) frows =
      map (fun k => (ts 2018 1 (1 + k), Fin (rdot th (c78_phi (IZR k) (ts 2018 1 (1 + k)))))) (zrange 0 27).
Proof.
  intros a b e1 e2 e3 e4 e5 e6 th.
  destruct (C78_forecast c78_rnd (fun _ => "[..]") (fun _ => "#") c78_world c78_cfg "s" DAY "D" (ts 2018 1 1) (c78_frame th) th c78_phi)
    as (r & f1 & mode & acts & es & Er & Ep & Ed & Em & _ & Emo & Eml & K).
  - reflexivity.
  - intros i. exists (1 / 2)%R. split; [reflexivity|lra].
  - apply c78_steady.
  - discriminate.
  - apply c78_follows.
  - apply c78_settings.
  - split.
    + do 2 eexists. split; [left; reflexivity|]. split; [right; left; reflexivity|]. discriminate.
    + intros f1 E. rewrite (proj1 (c78_to_fit th)) in E. injection E as <-. discriminate.
  - rewrite (proj1 (c78_to_fit th)) in Ep. injection Ep as <-. injection Emo as <-.
    assert (El : map en_model es = [madd model_linear model_season_wday]) by (rewrite Eml; reflexivity).
    destruct es as [|e [|e' es]]; [discriminate El| |discriminate El]. injection El as El.
    destruct (K e (or_introl eq_refl)) as (_ & Pm & _ & Va).
    + rewrite El. apply c78_regression.
    + rewrite El. reflexivity.
    + rewrite El, (proj2 (c78_to_fit th)). cbn. lia.
    + rewrite El. apply week_determined, c78_week.
    + rewrite El. unfold dates_of. change (has_date (to_fit (c78_frame th))) with true. rewrite (proj2 (c78_to_fit th)).
      replace (map r_date (map one_weight (rows (c78_frame th)))) with (map (fun k => ts 2018 1 (1 + k)) c78_days) by (rewrite map_map; exact (eq_sym (c78_dates th))).
      generalize (xs_of (madd model_linear model_season_wday) (to_fit (c78_frame th))) (ys_of (to_fit (c78_frame th))). intros xs ys. unfold accepts. vm_compute. reflexivity.
    + destruct Va as (st & sp & grid & Est & Esp & Eg & Ev).
      exists r, (en_meta e), acts, (en_rows e). split; [exact Er|]. split; [exact Em|]. split; [rewrite Ed; cbn [map concat]; now rewrite app_nil_r|]. split; [exact Pm|].
      rewrite Ev, (c78_grid th st sp (en_model e) grid Est Esp Eg), map_map. apply map_ext_in. intros k I. cbn [fst snd]. do 5 f_equal. revert k I. apply Forall_forall.
      repeat (constructor; [vm_compute; reflexivity|]). constructor.
Qed.
