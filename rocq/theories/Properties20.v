(* Exact models are chosen and their forecasts carry no doubt: C80. *)
From Coq Require Import ZArith String List Bool Reals Sorted Permutation Lia Lra QArith_base Floats.
From Verif Require Import Num Py Cal Fmt Model Base Naive Freq Normalize Fixed Fit Interp Select Outliers Pi Forecast.
From Verif Require Import ListProofs NumProofs ModelProofs BaseProofs SeasonProofs GuessProofs FitProofs AicProofs StatsProofs PiProofs ForecastProofs ForecastProofs2 MetaProofs LsqProofs TotalProofs TotalProofs2 TotalProofs3 UniqueProofs ExistProofs ExactProofs Ex Properties7 Properties8 Properties11 Properties13 Properties18.
Import ListNotations.
Local Open Scope string_scope.
Local Open Scope list_scope.

(* ================= C80 ================= *)
(* [misses_alike t]: for every source, forecast and actual differ by the same amount wherever both
   have a value.  Then every percentile of a row is its value ([certain]): also a forecast that is
   always off by the same amount has intervals of width zero. *)
Theorem C80_intervals : forall draw s n_cum q1 q2 wd (t : ptable XR) out, (1 <= s)%nat -> misses_alike t ->
  get_pi draw s n_cum q1 q2 wd t = Ok out -> forall p, In p out -> certain p.
Proof. exact alike_certain. Qed.
Print Assumptions C80_intervals.

(* A daily or weekly series that follows a regression m among the candidates, and no other candidate
   comes up to m ([no_match], see below): m is the one that is chosen, with cost zero and the parameters
   of the series.  The forecast is the curve, and its intervals have width zero. *)
Theorem C80_forecast : forall rnd arr num W c source step freq t0 (f : frame XR) th0 phi m f1 mode,
  w_env W = ideal rnd arr num -> draws rnd -> sorts W ->
  steady step freq t0 f -> (has_w f = true -> forall r, In r (rows f) -> tame (r_w r)) -> follows phi t0 f th0 ->
  settings c -> enough c f -> prepared c f = Ok f1 -> final_mode W c (with_weights f1) = Ok mode ->
  let ms := all_models c mode (detect_freq_frame f) (fst (candidate_lists c (with_weights f1))) (snd (candidate_lists c (with_weights f1))) in
  In m ms -> NoDup (map fm_name ms) -> regression m phi -> length th0 = fm_n m -> (fm_n m + 2 <= length (usable_rows (to_fit f1)))%nat ->
  determined m phi (to_fit f1) -> accepts m (xs_of m (to_fit f1)) (ys_of (to_fit f1)) (dates_of (to_fit f1)) ->
  (forall m', In m' ms -> fm_name m' <> fm_name m -> no_match (w_env W) c source f f1 m m') ->
  exists r b acts frows st sp grid, run_forecast_single W (ForecastProofs.set_all false c) source f = Ok r /\
    rs_meta r = [b] /\ m_best b = true /\ md_model (m_meta b) = fm_name m /\ md_params (m_meta b) = fins th0 /\ md_cost (m_meta b) = Fin 0 /\
    rs_data r = acts ++ frows /\ Forall (fun d => d_actual d = true) acts /\ Forall (fun d => d_actual d = false /\ d_model d = fm_name m) frows /\
    zmin_opt (map r_date (rows (to_fit f1))) = Some st /\ zmax_opt (map r_date (rows (start_filter (c_start c) f))) = Some sp /\
    s_x_dates st sp (Some m) (Some freq) (c_years c) (x_of t0 st) = Ok grid /\
    map (fun d => (d_date d, d_y d)) frows = map (fun t => (t, Fin (rdot th0 (phi (IZR (x_of t0 t)) t)))) (map fst grid) /\
    (forall p, In p (forecasts (rs_forecast r)) -> p_y p = Fin (rdot th0 (phi (IZR (x_of t0 (p_date p))) (p_date p))) /\ certain p) /\
    ((0 <= Qnum (c_years c))%Z -> Permutation (map p_date (forecasts (rs_forecast r))) (map fst grid)).
Proof. exact exact_wins. Qed.
Print Assumptions C80_forecast.

(* Two kinds of candidates that do not come up to m: a regression with more parameters that is exact
   as well, *)
Theorem C80_longer_rival : forall rnd arr num c source (f f1 : frame XR) m m' phi' th', regression m' phi' -> has_date (to_fit f1) = true -> finite_rows (to_fit f1) ->
  (fm_n m < fm_n m')%nat -> length th' = fm_n m' -> (forall q, In q (usable_rows (to_fit f1)) -> rdot th' (coef phi' q) = real (r_y q)) ->
  no_match (ideal rnd arr num) c source f f1 m m'.
Proof. exact longer_rival. Qed.
Print Assumptions C80_longer_rival.
(* and a regression whose error has a lower bound q0 for all parameters, with a worse score for q0
   than that of m for 1e-320, which the code uses in place of a cost of zero. *)
Theorem C80_rough_rival : forall rnd arr num c source (f f1 : frame XR) m m' phi' q0, regression m' phi' -> has_date (to_fit f1) = true -> finite_rows (to_fit f1) ->
  (0 < q0)%R -> (forall th', length th' = fm_n m' -> (q0 <= loss th' (samples (to_fit f1) (coef phi')) / 2)%R) ->
  (fm_n m = 1%nat \/ (aicc (Rpower 10 (-320)) (INR (length (usable_rows (to_fit f1)))) (INR (fm_n m)) < aicc q0 (INR (length (usable_rows (to_fit f1)))) (INR (fm_n m')))%R) ->
  no_match (ideal rnd arr num) c source f f1 m m'.
Proof. exact rough_rival. Qed.
Print Assumptions C80_rough_rival.

(* a forecast that is always 3 below the actuals: intervals of width zero; when one of the actuals
   moves, they open *)
Definition c80_rows (u : float) : list (drow float) :=
  map (fun p => mkD (ts 2018 1 (1 + Z.of_nat (fst p))) 1%float (snd p) "actuals" "s" "s" true false) (enumerate [4; 5; u; 7]%float) ++
  map (fun i => mkD (ts 2018 1 (1 + Z.of_nat i)) 1%float (nofZ (NumOps := fops) (1 + Z.of_nat i)) "m" "s" "s" false true) (seq 0 9).
Definition c80_widths (r : res (list (prow float))) : res (list (list bool)) :=
  rmap (fun l => map (fun p => map (fun qv => PrimFloat.eqb (snd qv) (p_y p)) (p_q p)) (filter (fun p => negb (p_actual p)) l)) r.
Example C80_intervals_example : let N := fops in
  let out u := c80_widths (get_pi ex_draw 5 (Some 2%Z) 5 20 None (ex_pi_table (c80_rows u))) in
  out 6%float = Ok (repeat (repeat true 4) 9) /\ out 9%float <> Ok (repeat (repeat true 4) 9) /\ (exists l, out 9%float = Ok l).
Proof. vm_compute. split; [reflexivity|]. split; [discriminate|]. eexists. reflexivity. Qed.

(* the days of C78 on a line that rises by 1 or more a day (or falls), and four candidates: constant,
   linear, and both with weekday effects *)
Definition c80_cfg : config XR :=
  mkCfg (Some [model_constant; model_linear]) (Some [model_null; model_season_wday]) None (14 # 365)%Q "add" false false None None (Some []) None None 5 20 (Some "Y") true.
Definition c80_frame (a b : R) : frame XR := c78_frame [a; b; 0; 0; 0; 0; 0; 0]%R.
Definition c80_line : R -> Z -> list R := fun x _ => [x; 1%R].
Lemma dot_zeros a b c d (l : list R) : rdot [a; b; 0; 0; 0; 0; 0; 0]%R (c :: d :: l) = (a * c + b * d)%R.
Proof.
  unfold rdot. do 7 (destruct l as [|? l]; [cbn; ring|]). cbn. ring.
Qed.
Lemma c80_value a b k t : rdot [a; b; 0; 0; 0; 0; 0; 0]%R (c78_phi (IZR k) t) = (a * IZR k + b)%R.
Proof. unfold c78_phi. cbn [app]. rewrite dot_zeros. ring. Qed.
Lemma line_value a b x t : rdot [a; b] (c80_line x t) = (a * x + b)%R.
Proof. unfold rdot, c80_line. cbn. ring. Qed.
Lemma c80_follows a b : follows c80_line (ts 2018 1 1) (c80_frame a b) [a; b].
Proof.
  intros q I. destruct (c78_follows [a; b; 0; 0; 0; 0; 0; 0]%R q I) as [E|E]; [left|now right]. rewrite E, c80_value, line_value. reflexivity.
Qed.
Lemma c80_settings : settings c80_cfg.
Proof.
  constructor.
  - constructor; intros ms m K I; try discriminate; injection K as <-; destruct I as [<-|[<-|[]]];
      [left; apply sturdy_hardy, sturdy_constant|left; apply sturdy_hardy, sturdy_linear|right; reflexivity|left; apply sturdy_hardy, sturdy_wday].
  - intros ms m K I. injection K as <-. destruct I.
  - discriminate.
  - cbv. auto.
  - right. discriminate.
Qed.
Lemma c80_usable a b : usable_rows (to_fit (c80_frame a b)) = map (fun k => one_weight (c78_row [a; b; 0; 0; 0; 0; 0; 0]%R k)) c78_days.
Proof. unfold c80_frame. rewrite (proj2 (c78_to_fit _)). cbn [rows c78_frame]. now rewrite map_map. Qed.
Lemma c80_sample a b phi k : In k c78_days ->
  In (mkS (phi (IZR k) (ts 2018 1 (1 + k))) (a * IZR k + b) 1) (samples (to_fit (c80_frame a b)) (coef phi)).
Proof.
  intros I. unfold samples. rewrite c80_usable, map_map. apply in_map_iff. exists k. split; [|exact I].
  unfold coef. cbn [one_weight r_y r_x r_date c78_row real]. rewrite c80_value. f_equal. unfold share. rewrite c80_usable, count_x_one.
  - assert (W : has_w (to_fit (c80_frame a b)) = true) by reflexivity. rewrite W. cbn [one_weight r_w real]. field.
  - rewrite map_map. cbn [one_weight r_x c78_row]. reflexivity.
  - now apply (in_map (fun k => one_weight (c78_row [a; b; 0; 0; 0; 0; 0; 0]%R k))).
Qed.
(* days 0 and 7 are the same to a model that only looks at the weekday *)
Lemma c80_rough a b (phi : R -> Z -> list R) th : phi (IZR 0) (ts 2018 1 1) = phi (IZR 7) (ts 2018 1 8) -> (1 <= a * a)%R ->
  (12 <= loss th (samples (to_fit (c80_frame a b)) (coef phi)) / 2)%R.
Proof.
  intros P A. assert (I0 : In 0%Z c78_days) by (cbn; tauto). assert (I7 : In 7%Z c78_days) by (cbn; tauto).
  pose proof (loss_two th _ _ _ (c80_sample a b phi 0 I0) (c80_sample a b phi 7 I7) P) as L. cbn [s_y s_w s_phi] in L.
  assert (N : (a * 0 + b)%R <> (a * 7 + b)%R). { intros E. assert (a = 0)%R by lra. subst a. lra. }
  specialize (L N eq_refl eq_refl). nra.
Qed.
Lemma ln_tiny : (ln (Rpower 10 (-320)) <= -1)%R.
Proof.
  unfold Rpower. rewrite ln_exp. assert (1 <= ln 10)%R; [|lra]. rewrite <- (ln_exp 1).
  destruct (Req_dec (exp 1) 10) as [->|N]; [lra|]. left. apply ln_increasing; [apply exp_pos|]. pose proof exp_le_3. lra.
Qed.
Lemma c80_score k' : (1 <= k')%nat -> (k' + 2 <= 13)%nat -> (aicc (Rpower 10 (-320)) (INR 13) (INR 2) < aicc 12 (INR 13) (INR k'))%R.
Proof.
  intros L U. assert (P : (0 < Rpower 10 (-320))%R) by apply exp_pos. pose proof ln_tiny as T.
  apply Rlt_le_trans with (aicc 12 (INR 13) (INR 1)).
  - unfold aicc. replace (INR 13) with 13%R by (cbn; lra). replace (INR 2) with 2%R by (cbn; lra). replace (INR 1) with 1%R by reflexivity.
    assert (Q : forall x, (0 < x)%R -> ln (x / 13) = (ln x + ln (/ 13))%R). { intros x X. unfold Rdiv. apply ln_mult; [exact X|]. apply Rinv_0_lt_compat. lra. }
    rewrite !Q by (try exact P; lra). replace (2 * 2 * (2 + 1) / (13 - 2 - 1))%R with (12 / 10)%R by field. replace (2 * 1 * (1 + 1) / (13 - 1 - 1))%R with (4 / 11)%R by field.
    assert (0 <= ln 12)%R. { rewrite <- ln_1. left. apply ln_increasing; lra. } lra.
  - destruct (Nat.eq_dec k' 1) as [->|N]; [lra|]. left. apply aicc_mono_k.
    + split; [apply pos_INR|]. apply lt_INR. lia.
    + replace (INR k' + 1)%R with (INR (k' + 1)) by (rewrite plus_INR; reflexivity). apply lt_INR. lia.
Qed.
Lemma c80_candidates a b : all_models c80_cfg "add" (detect_freq_frame (c80_frame a b)) (fst (candidate_lists c80_cfg (with_weights (c80_frame a b)))) (snd (candidate_lists c80_cfg (with_weights (c80_frame a b)))) =
  [madd model_constant model_season_wday; madd model_linear model_season_wday; model_constant; model_linear].
Proof. reflexivity. Qed.
Example C80_example : forall a b, (1 <= a * a)%R ->
  exists r m acts frows, run_forecast_single c78_world c80_cfg "s" (c80_frame a b) = Ok r /\ rs_meta r = [m] /\ rs_data r = acts ++ frows /\
    md_model (m_meta m) = "linear" /\ md_params (m_meta m) = fins [a; b] /\
    map (fun d => (d_date d, d_y d)) frows = map (fun k => (ts 2018 1 (1 + k), Fin (a * IZR k + b))) (zrange 0 27) /\
    length (forecasts (rs_forecast r)) = 28%nat /\ forall p, In p (forecasts (rs_forecast r)) -> certain p.
Proof.
  intros a b A.
  destruct (steady_fitted c80_cfg DAY "D" (ts 2018 1 1) (c80_frame a b) (c80_frame a b)) as [Hd Fr].
  { apply c78_steady. } { intros q I. destruct (c80_follows a b q I) as [->| ->]; [left; eauto|now right]. } { discriminate. } { reflexivity. }
  assert (Ln : length (usable_rows (to_fit (c80_frame a b))) = 13%nat) by (rewrite c80_usable; reflexivity).
  destruct (C80_forecast c78_rnd (fun _ => "[..]") (fun _ => "#") c78_world c80_cfg "s" DAY "D" (ts 2018 1 1) (c80_frame a b) [a; b] c80_line model_linear (c80_frame a b) "add")
    as (r & m & acts & frows & st & sp & grid & Er & Em & _ & En & Epm & _ & Ed & _ & _ & Est & Esp & Eg & Ev & Ec & Ep).
  - reflexivity.
  - intros i. exists (1 / 2)%R. split; [reflexivity|lra].
  - now apply by_score_sorts.
  - apply c78_steady.
  - discriminate.
  - apply c80_follows.
  - apply c80_settings.
  - split.
    + do 2 eexists. split; [left; reflexivity|]. split; [right; left; reflexivity|]. discriminate.
    + intros f1 E. injection E as <-. discriminate.
  - reflexivity.
  - reflexivity.
  - rewrite c80_candidates. cbn [In]. tauto.
  - rewrite c80_candidates. cbn. repeat constructor; cbn; intuition discriminate.
  - apply regression_linear_trend.
  - reflexivity.
  - rewrite Ln. cbn. lia.
  - apply line_determined. unfold two_positions. rewrite c80_usable. do 2 eexists. split; [left; reflexivity|]. split; [right; left; reflexivity|]. discriminate.
  - unfold dates_of. rewrite Hd. generalize (xs_of model_linear (to_fit (c80_frame a b))) (ys_of (to_fit (c80_frame a b))) (map r_date (usable_rows (to_fit (c80_frame a b)))).
    intros xs ys ds. unfold accepts. reflexivity.
  - rewrite c80_candidates. intros m' I Nm.
    assert (Rc : regression (madd model_constant model_season_wday) (fun x t => [1%R] ++ wday_phi t)).
    { apply (regression_madd_plain _ _ (fun _ _ => [1%R]) (fun _ t => wday_phi t)); [left; apply sturdy_constant|apply regression_constant|apply regression_wday]. }
    destruct I as [<-|[<-|[<-|[<-|[]]]]].
    + eapply (C80_rough_rival _ _ _ _ _ _ _ _ _ _ 12); [exact Rc|exact Hd|exact Fr|lra| |right; rewrite Ln; apply c80_score; cbn; lia].
      intros th' _. apply c80_rough; [reflexivity|exact A].
    + eapply (C80_longer_rival _ _ _ _ _ _ _ _ _ c78_phi [a; b; 0; 0; 0; 0; 0; 0]%R); [apply c78_regression|exact Hd|exact Fr|cbn; lia|reflexivity|].
      intros q I. rewrite c80_usable in I. apply in_map_iff in I as (k & <- & _). reflexivity.
    + eapply (C80_rough_rival _ _ _ _ _ _ _ _ _ _ 12); [apply regression_constant|exact Hd|exact Fr|lra| |right; rewrite Ln; apply c80_score; cbn; lia].
      intros th' _. apply (c80_rough a b (fun _ _ => [1%R])); [reflexivity|exact A].
    + now destruct Nm.
  - pose proof (c78_grid [a; b; 0; 0; 0; 0; 0; 0]%R st sp model_linear grid Est Esp Eg) as G.
    exists r, m, acts, frows. split; [exact Er|]. split; [exact Em|]. split; [exact Ed|]. split; [exact En|]. split; [exact Epm|]. split; [|split].
    + rewrite Ev, G, map_map. apply map_ext_in. intros k I. cbn [fst snd]. rewrite line_value. do 4 f_equal. f_equal. revert k I. apply Forall_forall.
      repeat (constructor; [vm_compute; reflexivity|]). constructor.
    + rewrite <- (map_length p_date). rewrite (Permutation_length (Ep ltac:(cbn; lia))), G, map_length. reflexivity.
    + intros p I. apply (Ec p I).
Qed.
