(* Whole forecasts in other units: C73. *)
From Coq Require Import ZArith String List Bool Reals PrimFloat Sorted Permutation Lia Lra QArith_base.
From Verif Require Import Num Py Cal Fmt Model Base Naive Freq Normalize Aic Fixed Fit Interp Stats Select Outliers Pi Forecast.
From Verif Require Import ListProofs NumProofs AicProofs ModelProofs BaseProofs FixedProofs GuessProofs FitProofs SelectProofs SeasonProofs StatsProofs ForecastProofs ForecastProofs2 ExtendProofs MetaProofs LsqProofs OutlierReals RobustProofs TotalProofs TotalProofs2 TotalProofs3 UniqueProofs ScaleProofs Ex Properties7 Properties9 Properties11 Properties13.
Import ListNotations.
Local Open Scope string_scope.
Local Open Scope list_scope.

(* ================= C73 ================= *)
(* [map_y (fun y => nadd (nmul y (Fin k)) (Fin h)) f]: the series f in a unit k times smaller, counted
   from another zero.  [sd k h] and [spr k h] do this to the value, and for [spr k h] to the percentiles,
   of a row of 'data' and of the forecast.  [same_row k n]: two rows of the metadata with the same model,
   labels, status and best-fit flag, the cost times k^2 and the score moved by n ln k^2.
   [convertible k h]: a candidate is without parameters and predicts in the unit of the actuals
   ([homogeneous], e.g. the naive models), or it is a regression that can take the value h everywhere
   ([levels]), is determined by the samples and solved by the optimizers of both runs, with validation
   that does not look at the values. *)
Theorem C73_forecast : forall k h, (0 < k)%R -> forall W W' c source f f1 mode act w acts fits r r', has_date f = true ->
  e_num (w_env W') = e_num (w_env W) -> w_draw W' = w_draw W -> sorts W -> sorts W' ->
  prepared c f = Ok f1 -> final_mode W c (with_weights f1) = Ok mode ->
  (Forecast.c_mode c = "auto" ->
     h = 0%R /\ finite_rows (with_weights f1) /\ Forall (fun r => finite_or_null (r_y r)) (rows f1) /\ line_settled k (w_env W) (w_env W') (with_weights f1)) ->
  model_actuals f (to_fit f1) = Ok act -> finite_rows (to_fit f1) ->
  (forall m, In m (all_models c mode (detect_freq_frame f) (fst (candidate_lists c (with_weights f1))) (snd (candidate_lists c (with_weights f1)))) ->
     convertible k h (w_env W) (w_env W') (to_fit f1) act m) ->
  run_fits W c source f = Ok (w, acts, fits) ->
  (forall p, In p fits -> md_fit (fst (fst p)) = true -> exists q, (0 < q)%R /\ md_cost (fst (fst p)) = Fin q) ->
  (forall p q, In p fits -> In q fits -> md_fit (fst (fst p)) = true -> md_fit (fst (fst q)) = true ->
     md_aicc (fst (fst p)) = md_aicc (fst (fst q)) -> md_model (fst (fst p)) = md_model (fst (fst q))) ->
  run_forecast_single W c source f = Ok r -> run_forecast_single W' c source (map_y (fun y => nadd (nmul y (Fin k)) (Fin h)) f) = Ok r' ->
  rs_forecast r' = map (spr k h) (rs_forecast r) /\ rs_data r' = map (sd k h) (rs_data r) /\
  Forall2 (same_row k (length (usable_rows (to_fit f1)))) (rs_meta r) (rs_meta r').
Proof. exact forecast_units_auto. Qed.
Print Assumptions C73_forecast.
(* the automatic choice between sums and products, when the line it rests on is determined and found
   ([line_settled]) *)
Theorem C73_mode : forall k W W' c f mode mode', (0 < k)%R ->
  (Forecast.c_mode c = "auto" -> has_date f = true /\ finite_rows f /\ Forall (fun r => finite_or_null (r_y r)) (rows f) /\
     line_settled k (w_env W) (w_env W') f) ->
  final_mode W c f = Ok mode -> final_mode W' c (sf k 0 f) = Ok mode' -> mode' = mode.
Proof. exact mode_units. Qed.
Print Assumptions C73_mode.
(* prediction intervals alone, for every table of actuals and forecasts and every draw *)
Theorem C73_intervals : forall k, (0 < k)%R -> forall h draw n_sims n_cum q1 q2 widen a b c d l,
  get_pi draw n_sims n_cum q1 q2 widen (mkPT a b c d (map (sd k h) l)) = rmap (map (spr k h)) (get_pi draw n_sims n_cum q1 q2 widen (mkPT a b c d l)).
Proof. exact get_pi_sd. Qed.
Print Assumptions C73_intervals.
Theorem C73_candidates :
  (forall k h, (0 < k)%R -> (h = 0%R -> homogeneous k h model_null) /\ homogeneous k h model_naive /\ homogeneous k h model_snaive_wday) /\
  (forall k h, h <> 0%R -> ~ homogeneous k h model_null) /\
  Forall blind [model_constant; model_linear; model_season_wday; model_season_month_old; model_season_fourier_yearly] /\
  (forall t, blind (get_model_step_date t)) /\ (forall t0 t1, blind (get_model_spike_date t0 t1)) /\
  (forall m1 m2, blind m1 -> blind m2 -> blind (madd m1 m2)) /\
  ~ blind model_decay.
Proof.
  split; [intros k h Hk; split; [apply homogeneous_null|split; [now apply homogeneous_naive|now apply homogeneous_snaive]]|].
  split; [intros k h Hh Q; pose proof (hm_call _ _ _ Q [] None None (mkFrame false false false [])) as K; change (Ok (Sc (Fin 0)) = Ok (Sc (Fin (k * 0 + h)))) in K; injection K as K; lra|].
  split; [apply blind_leaves|]. split; [apply blind_leaves|]. split; [apply blind_leaves|]. split; [exact blind_madd|].
  intros B. inversion_clear B as [|? ? K _]. specialize (K [] [Fin 1] [Fin (-1)] None). cbn in K.
  destruct (Rltb_spec 0 1); [|lra]. destruct (Rltb_spec 0 (-1)); [lra|]. discriminate.
Qed.
Print Assumptions C73_candidates.
(* The level of the data: constants and lines reach every level, and so do sums with another regression.
   Without a trend a weekly season always gives zero on Mondays. *)
Theorem C73_levels :
  (forall m phi, levels 0 m phi (repeat 0%R (fm_n m))) /\
  (forall h, levels h model_constant (fun _ _ => [1%R]) [h] /\ levels h model_linear (fun x _ => [x; 1%R]) [0%R; h]) /\
  (forall h m1 m2 phi1 phi2 be, regression m1 phi1 -> regression m2 phi2 -> levels h m1 phi1 be ->
     levels h (madd m1 m2) (fun x t => phi1 x t ++ phi2 x t) (be ++ repeat 0%R (fm_n m2))) /\
  (forall h be, levels h model_season_wday (fun _ t => wday_phi t) be -> h = 0%R).
Proof.
  split; [exact levels_zero|]. split; [intros h; split; [apply levels_constant|apply levels_linear]|]. split; [exact levels_madd|exact levels_wday].
Qed.
Print Assumptions C73_levels.
(* A fit without any error is scored as if its cost were 10^-320, in every unit: with such a fit among
   the candidates the order of the scores depends on the unit. *)
Theorem C73_exact_refuted : exists k, (0 < k)%R /\ exists s0 s1 s1',
  @get_aic_c XR _ (Fin 0) 10 2 = Ok (Fin s0) /\ @get_aic_c XR _ (Fin 1) 10 0 = Ok (Fin s1) /\
  @get_aic_c XR _ (Fin (k * k * 1)) 10 0 = Ok (Fin s1') /\ (s0 < s1)%R /\ (s1' < s0)%R.
Proof. exact exact_changes_order. Qed.
Print Assumptions C73_exact_refuted.

(* (1, 0, 0, 1), (2, 0, 0, 2) and (7, 5, 5, 7), with a constant and a line as candidates *)
Definition c73_env (o h : R) : env XR :=
  mkEnv (fun F g _ => match F g with
                      | Ok _ => nth (length g) [LRaise LinAlgError; LDone true (Fin (h * h * 2)) [Fin (o + h)]; LDone true (Fin (h * h * 2)) [Fin 0; Fin (o + h)]] (LRaise LinAlgError)
                      | Err e => LRaise e
                      end)
    (fun _ => Fin (1 / 2)) (fun _ => "[..]") (fun _ => "#").
Definition c73_world (o h : R) : world XR := mkWorld (c73_env o h) by_score (fun a i => (a + i)%nat).
Definition c73_cfg {T} `{NumOps T} (naive : list (fmodel T)) : config T :=
  mkCfg (Some [model_linear; model_constant]) (Some []) None (3 # 365)%Q "add" true false None None (Some naive) None None 5 20 (Some "Y") true.
Definition c73_frame (o v : R) : frame XR := daily false [(v, 1); (o, 1); (o, 1); (v, 1)]%R.
Lemma c73_steady o v : steady DAY "D" (ts 2018 1 1) (c73_frame o v).
Proof.
  constructor; [left; split; reflexivity|reflexivity|reflexivity| | |].
  - cbv. repeat constructor.
  - intros q I. cbn in I. decompose [or] I; try contradiction; subst q; reflexivity.
  - intros q I. cbn in I. decompose [or] I; try contradiction; subst q; reflexivity.
Qed.
Lemma c73_settings : settings (c73_cfg []).
Proof.
  constructor.
  - constructor; intros ms m K I; try discriminate; injection K as <-; [|destruct I]. left. apply sturdy_hardy. destruct I as [<-|[<-|[]]]; [apply sturdy_linear|apply sturdy_constant].
  - intros ms m K I. injection K as <-. destruct I.
  - discriminate.
  - cbv. auto.
  - right. discriminate.
Qed.
Lemma c73_to_fit o v : prepared (c73_cfg []) (c73_frame o v) = Ok (c73_frame o v) /\ to_fit (c73_frame o v) = daily true [(v, 1); (o, 1); (o, 1); (v, 1)]%R.
Proof. split; [reflexivity|]. unfold to_fit, with_weights, positive, c73_frame, daily. cbn. destruct (Rltb_spec 0 1); [reflexivity|lra]. Qed.
Lemma c73_usable o v : usable_rows (daily true [(v, 1); (o, 1); (o, 1); (v, 1)])%R = rows (daily true [(v, 1); (o, 1); (o, 1); (v, 1)])%R.
Proof. unfold usable_rows, daily, usable. cbn. destruct (Rltb_spec 0 1); [reflexivity|lra]. Qed.
Lemma c73_finite o v : finite_rows (daily true [(v, 1); (o, 1); (o, 1); (v, 1)])%R.
Proof.
  unfold finite_rows. rewrite c73_usable. unfold daily. cbn [rows has_w enumerate enum_from map fst snd].
  repeat (constructor; [split; [reflexivity|intros _; reflexivity]|]). constructor.
Qed.
Definition c73_fit (o v : R) : frame XR := daily true [(v, 1); (o, 1); (o, 1); (v, 1)]%R.
Lemma c73_samples o v phi : samples (c73_fit o v) phi =
  [mkS (phi (mkRow (ts 2018 1 1) "s" 0 (Fin v) (Fin 1))) v 1; mkS (phi (mkRow (ts 2018 1 2) "s" 1 (Fin o) (Fin 1))) o 1;
   mkS (phi (mkRow (ts 2018 1 3) "s" 2 (Fin o) (Fin 1))) o 1; mkS (phi (mkRow (ts 2018 1 4) "s" 3 (Fin v) (Fin 1))) v 1].
Proof.
  unfold samples, share, c73_fit. rewrite c73_usable. unfold count_x. cbn.
  repeat (apply f_equal2; [f_equal; lra|]). reflexivity.
Qed.
Lemma c73_line o h v : v = (o + 2 * h)%R -> normal [0; o + h]%R (samples (c73_fit o v) (coef (fun x _ => [x; 1%R]))) /\
  loss [0; o + h]%R (samples (c73_fit o v) (coef (fun x _ => [x; 1%R]))) = (4 * h * h)%R.
Proof.
  intros ->. rewrite c73_samples. split.
  - intros de L. destruct (two_params de L) as (u & w & ->). unfold coef, err, rdot, x_in. cbn. lra.
  - unfold loss, coef, err, rdot, x_in. cbn. lra.
Qed.
Lemma c73_constant o h v : v = (o + 2 * h)%R -> normal [o + h]%R (samples (c73_fit o v) (coef (fun _ _ => [1%R]))) /\
  loss [o + h]%R (samples (c73_fit o v) (coef (fun _ _ => [1%R]))) = (4 * h * h)%R.
Proof.
  intros ->. rewrite c73_samples. split.
  - intros de L. destruct (one_param de L) as (u & ->). unfold coef, err, rdot, x_in. cbn. lra.
  - unfold loss, coef, err, rdot, x_in. cbn. lra.
Qed.
Lemma c73_solved o h v act m : v = (o + 2 * h)%R -> m = model_linear \/ m = model_constant -> solved (c73_env o h) m (c73_fit o v) act.
Proof.
  intros Ev Im. assert (K : exists phi n, regression m phi /\ fm_n m = S n /\ normal (nth n [[(o + h)%R]; [0; (o + h)%R]] []) (samples (c73_fit o v) (coef phi)) /\
    length (nth n [[(o + h)%R]; [0; (o + h)%R]] []) = S n /\
    loss (nth n [[(o + h)%R]; [0; (o + h)%R]] []) (samples (c73_fit o v) (coef phi)) = (4 * h * h)%R /\ (n < 2)%nat /\
    (forall p xs ys ds ws act cache rs, get_residuals (Some p) m xs ys ds ws act cache = Ok rs -> length p = S n) /\
    (forall xs ds p act cache, call m xs ds p false (mkKw act cache) = call m xs ds p false (mkKw act []))).
  { destruct Im as [-> | ->].
    - exists (fun x _ => [x; 1%R]), 1%nat. split; [apply regression_linear_trend|]. destruct (c73_line o h v Ev) as [A B]. split; [reflexivity|]. split; [exact A|]. split; [reflexivity|].
      split; [exact B|]. split; [lia|]. split; [|reflexivity]. intros th xs ys ds ws a cache rs K.
      destruct th as [|u [|w [|z th]]]; try reflexivity; exfalso; cbn in K; unfold get_residuals, call in K; cbn in K; discriminate.
    - exists (fun _ _ => [1%R]), 0%nat. split; [apply regression_constant|]. destruct (c73_constant o h v Ev) as [A B]. split; [reflexivity|]. split; [exact A|]. split; [reflexivity|].
      split; [exact B|]. split; [lia|]. split; [|reflexivity]. intros th xs ys ds ws a cache rs K.
      destruct th as [|u [|w th]]; try reflexivity; exfalso; cbn in K; unfold get_residuals, call in K; cbn in K; discriminate. }
  destruct K as (phi & n & R & En & Nm & Ln & Lo & Hn & Ar & Cn). split.
  - intros cache g b c x F K. 
    assert (Fa : forall th, length th = fm_n m -> F (fins th) = Ok (fins (map (fun s => Rabs (err th s * s_w s)) (samples (c73_fit o v) (coef phi))))).
    { intros th L. apply (residuals_linear m (c73_fit o v) act _ th cache (rows_fitted _ _ (c73_finite o v))). rewrite Cn. apply (regression_linear m phi); auto. unfold c73_fit. rewrite c73_usable. discriminate. }
    assert (Q : length g = S n /\ c = Fin (h * h * 2) /\ x = fins (nth n [[(o + h)%R]; [0%R; (o + h)%R]] [])).
    { cbn in K. destruct (F g) as [l|] eqn:Eg; [|discriminate]. pose proof (Ar _ _ _ _ _ _ _ _ Eg) as Lg. rewrite Lg in K.
      destruct n as [|[|n]]; [| |lia]; cbn in K; injection K as <- <-; auto. }
    destruct Q as (Lg & -> & ->). exists (nth n [[(o + h)%R]; [0%R; (o + h)%R]] []). eexists. split; [reflexivity|]. split; [congruence|]. split; [apply Fa; congruence|].
    rewrite ssq_loss, Lo. split; [f_equal; field|]. intros th' rs' _ K'. pose proof (Ar _ _ _ _ _ _ _ _ K') as L'. unfold fins in L'. rewrite map_length in L'. rewrite Fa in K' by congruence.
    injection K' as K'. apply fins_inj in K'. subst rs'. rewrite ssq_loss, <- Lo. apply normal_minimum; [exact Nm|congruence].
  - intros cache g b Lg _. unfold c73_env. cbn [e_lsq]. destruct (hd_calls _ _ (rg_hardy _ _ R) (xs_of m (c73_fit o v)) (map r_date (usable_rows (c73_fit o v))) [] act g false) as (l & El & Ll);
      [unfold xs_of; rewrite !map_length; reflexivity|intros _; unfold c73_fit; rewrite c73_usable; discriminate|apply in_order_nil|exact Lg|].
    destruct (residuals_total m (c73_fit o v) act g cache l) as (rs & ->); [rewrite Cn; exact El|rewrite Ll; unfold xs_of; apply map_length|].
    rewrite Lg, En. destruct n as [|[|n]]; [| |lia]; cbn [nth]; eauto.
Qed.
Lemma c73_scaled o : sf 2 o (c73_frame 0 1) = c73_frame o (o + 2) /\ sf 2 o (c73_fit 0 1) = c73_fit o (o + 2).
Proof. unfold sf, map_y, c73_frame, c73_fit, daily. cbn. unfold set_y. cbn. split; repeat (f_equal; try lra). Qed.
Lemma c73_completes o h v : exists r, run_forecast_single (c73_world o h) (c73_cfg []) "s" (c73_frame o v) = Ok r.
Proof.
  apply (forecast_completes _ _ _ DAY "D" (ts 2018 1 1)).
  - apply c73_steady.
  - intros q I. cbn in I. decompose [or] I; try contradiction; subst q; left; eexists; reflexivity.
  - discriminate.
  - intros F g b _ (rs & Er) _ _ _ _. cbn. rewrite Er. destruct (length g) as [|[|[|n]]] eqn:Lg; cbn; try reflexivity.
    + split; [exists (h * h * 2)%R; split; [reflexivity|nra]|reflexivity].
    + split; [exists (h * h * 2)%R; split; [reflexivity|nra]|reflexivity].
    + now destruct n.
  - intros i. exists (1 / 2)%R. split; [reflexivity|lra].
  - discriminate.
  - apply c73_settings.
  - split.
    + do 2 eexists. split; [left; reflexivity|]. split; [right; left; reflexivity|]. discriminate.
    + intros f1 K. rewrite (proj1 (c73_to_fit o v)) in K. injection K as <-. discriminate.
Qed.
Lemma c73_pair o : exists r r',
  run_forecast_single (c73_world 0 (1 / 2)) (c73_cfg []) "s" (c73_frame 0 1) = Ok r /\
  run_forecast_single (c73_world o 1) (c73_cfg []) "s" (c73_frame o (o + 2)) = Ok r' /\
  rs_forecast r' = map (spr 2 o) (rs_forecast r) /\ rs_data r' = map (sd 2 o) (rs_data r) /\
  Forall2 (same_row 2 4) (rs_meta r) (rs_meta r').
Proof.
  destruct (c73_completes 0 (1 / 2) 1) as (r & E). destruct (c73_completes o 1 (o + 2)) as (r' & E'). exists r, r'. split; [exact E|]. split; [exact E'|].
  destruct (run_inv _ _ _ _ _ E) as (w & acts & fits & Ef & _ & _).
  destruct (run_fits_inv _ _ _ _ _ _ _ Ef) as (f1 & range & mode & act & st & sp & x0 & Ep & _ & _ & _ & Em & Ea & _ & _ & _ & _ & F).
  destruct (c73_to_fit 0 1) as [Ep1 Et]. fold (c73_fit 0 1) in Et. rewrite Ep1 in Ep. injection Ep as <-. fold (to_fit (c73_frame 0 1)) in Ea, F.
  cbn in Em. injection Em as <-.
  assert (Mo : forall m, In m (all_models (c73_cfg []) "add" (detect_freq_frame (c73_frame 0 1)) (fst (candidate_lists (c73_cfg []) (with_weights (c73_frame 0 1)))) (snd (candidate_lists (c73_cfg []) (with_weights (c73_frame 0 1))))) ->
    m = model_linear \/ m = model_constant).
  { intros m I. unfold all_models in I. apply isort_in in I. cbn in I. intuition auto. }
  pose proof (proj2 (c73_scaled o)) as Two.
  assert (Us : length (usable_rows (c73_fit 0 1)) = 4%nat) by (unfold c73_fit; now rewrite c73_usable).
  assert (P : forall p, In p fits -> md_fit (fst (fst p)) = true -> exists m, (m = model_linear \/ m = model_constant) /\
    fit_model (c73_env 0 (1 / 2)) m (c73_fit 0 1) (detect_freq_frame (c73_frame 0 1)) "s" (Some act) true = Ok (fst (fst p))).
  { intros p I Fd. destruct (Forall2_in_r _ _ _ _ F I) as (m & Im & K). exists m. split; [now apply Mo|]. rewrite Et in K. unfold fit_one in K. cbn [c73_world w_env c73_cfg c_cache] in K.
    destruct (fit_model _ _ _ _ _ _ _) as [d|] eqn:Ed; [|discriminate]. cbn [rbind] in K. destruct (md_fit d) eqn:Ed2.
    - destruct (extrapolate_model _ _ _ _ _ _ _) as [g|]; [|discriminate]. injection K as <-. reflexivity.
    - injection K as <-. cbn in Fd. congruence. }
  assert (Cost : forall p, In p fits -> md_fit (fst (fst p)) = true -> md_cost (fst (fst p)) = Fin (1 / 2)).
  { intros p I Fd. destruct (P p I Fd) as (m & Im & Em). destruct (c73_solved 0 (1 / 2) 1 (Some act) m ltac:(lra) Im) as [Mn _]. destruct Im as [-> | ->].
    - destruct (regression_fit _ _ _ (c73_fit 0 1) _ _ _ _ _ regression_linear_trend eq_refl (c73_finite 0 1) Mn Em Fd) as (th & _ & L & C & Min & _). rewrite C. f_equal.
      destruct (c73_line 0 (1 / 2) 1 ltac:(lra)) as [Nm Lo]. pose proof (Min [0; 0 + 1 / 2]%R eq_refl). pose proof (normal_minimum _ _ Nm th L). fold (c73_fit 0 1) in *. lra.
    - destruct (regression_fit _ _ _ (c73_fit 0 1) _ _ _ _ _ regression_constant eq_refl (c73_finite 0 1) Mn Em Fd) as (th & _ & L & C & Min & _). rewrite C. f_equal.
      destruct (c73_constant 0 (1 / 2) 1 ltac:(lra)) as [Nm Lo]. pose proof (Min [0 + 1 / 2]%R eq_refl). pose proof (normal_minimum _ _ Nm th L). fold (c73_fit 0 1) in *. lra. }
  rewrite <- Us, <- Et.
  apply (C73_forecast 2 o ltac:(lra) (c73_world 0 (1 / 2)) (c73_world o 1) (c73_cfg []) "s" (c73_frame 0 1) (c73_frame 0 1) "add" act w acts fits); try assumption; try reflexivity.
  - now apply by_score_sorts.
  - now apply by_score_sorts.
  - discriminate.
  - rewrite Et. apply c73_finite.
  - intros m I. apply Mo in I. right. rewrite Et, Two. pose proof (c73_solved 0 (1 / 2) 1 (Some act) m ltac:(lra) I) as S1. pose proof (c73_solved o 1 (o + 2) (Some (sf 2 o act)) m ltac:(lra) I) as S2.
    destruct blind_leaves as [B _]. rewrite Forall_forall in B. destruct I as [-> | ->].
    + exists (fun x _ => [x; 1%R]), [0%R; o]. split; [apply regression_linear_trend|]. split; [apply levels_linear|]. split; [apply B; right; now left|]. split; [|split; assumption].
      apply line_determined. unfold two_positions, c73_fit. rewrite c73_usable. do 2 eexists. split; [left; reflexivity|]. split; [right; left; reflexivity|]. discriminate.
    + exists (fun _ _ => [1%R]), [o]. split; [apply regression_constant|]. split; [apply levels_constant|]. split; [apply B; now left|]. split; [|split; assumption].
      intros de L K. destruct (one_param de L) as (u & ->). specialize (K (mkRow (ts 2018 1 1) "s" 0 (Fin 1) (Fin 1))). unfold c73_fit in K. rewrite c73_usable in K.
      specialize (K (or_introl eq_refl)). unfold coef, rdot in K. cbn in K. cbn. f_equal. lra.
  - intros p I Fd. exists (1 / 2)%R. split; [lra|]. now apply Cost.
  - intros p q Ip Iq Fp Fq Eq. destruct (P p Ip Fp) as (m & Im & Em). destruct (P q Iq Fq) as (m' & Im' & Em').
    pose proof (Cost p Ip Fp) as Cp. pose proof (Cost q Iq Fq) as Cq.
    destruct (fit_score _ _ _ _ _ _ _ _ Em Fp) as [S1 L1]. destruct (fit_score _ _ _ _ _ _ _ _ Em' Fq) as [S2 L2]. rewrite Cp, Us in S1. rewrite Cq, Us in S2.
    rewrite Eq in S1. rewrite <- S2 in S1. rewrite Us in L1, L2. rewrite !score_pos in S1 by (try lia; lra). injection S1 as S1.
    assert (N : m = m').
    { assert (Mk := aicc_mono_k (1 / 2) (IZR (Z.of_nat 4)) 1 2 ltac:(lra) ltac:(cbn; lra)). destruct Im as [-> | ->], Im' as [-> | ->]; try reflexivity; cbn in S1, Mk; lra. }
    congruence.
  - rewrite sf_spec by lra. rewrite (proj1 (c73_scaled o)). exact E'.
Qed.
Example C73_example : forall o, o = 0%R \/ o = 5%R -> exists r r',
  run_forecast_single (c73_world 0 (1 / 2)) (c73_cfg []) "s" (c73_frame 0 1) = Ok r /\
  run_forecast_single (c73_world o 1) (c73_cfg []) "s" (c73_frame o (o + 2)) = Ok r' /\
  rs_forecast r' = map (spr 2 o) (rs_forecast r) /\ rs_data r' = map (sd 2 o) (rs_data r) /\
  Forall2 (same_row 2 4) (rs_meta r) (rs_meta r').
Proof. intros o _. apply c73_pair. Qed.
(* in binary64, where only the naive model can be fitted: 1, 3, 5, 8 and 2, 6, 10, 16 *)
Definition c73_run (v : float) (o1 o2 : lsq_out float) : res (list (Z * bool * float * list (Z * float)) * list (Z * string * float)) :=
  let N := fops in
  rmap (fun r => (map (fun q => (p_date q, p_actual q, p_y q, p_q q)) (rs_forecast r), map (fun q => (d_date q, d_model q, d_y q)) (rs_data r)))
    (run_forecast_single (ex_world o1 o2) (c73_cfg [model_naive]) "s"
      (mkFrame true false false (map (fun p => mkRow (ts 2018 1 (1 + fst p)) "s" (fst p) (snd p * v) 1) [(0%Z, 1); (1%Z, 3); (2%Z, 5); (3%Z, 8)])))%float.
Definition c73_twice (a : list (Z * bool * float * list (Z * float)) * list (Z * string * float)) :=
  (map (fun q => (fst (fst (fst q)), snd (fst (fst q)), (snd (fst q) * 2)%float, map (fun p => (fst p, (snd p * 2)%float)) (snd q))) (fst a),
   map (fun q => (fst q, (snd q * 2)%float)) (snd a)).
Example C73_float :
  c73_run 2 (LRaise LinAlgError) (LRaise LinAlgError) = rmap c73_twice (c73_run 1 (LRaise LinAlgError) (LRaise LinAlgError)) /\
  rmap (fun a => (nth 10 (map snd (fst a)) [], nth 10 (map (fun q => (snd (fst q), snd q)) (snd a)) ("", 0%float), length (snd a)))
    (c73_run 1 (LRaise LinAlgError) (LRaise LinAlgError)) =
  Ok ([(5%Z, 7.5%float); (95%Z, 8.5%float); (20%Z, 7.5%float); (80%Z, 8.5%float)], ("naive", 8%float), 11%nat).
Proof. vm_compute. split; reflexivity. Qed.
(* two days in January and two in April, with values h, h, 2h, 4h: the line behind the choice of the mode *)
Definition c73_sparse (h : R) : frame XR :=
  mkFrame true false true (map (fun p => mkRow (ts 2018 1 1 + fst p * DAY)%Z "s" (fst p) (Fin (snd p)) (Fin 1)) [(0%Z, h); (1%Z, h); (90%Z, 2 * h); (91%Z, 4 * h)]%R).
Definition c73_slope (h : R) : R := (181 / 8101 * h)%R.
Definition c73_height (h : R) : R := (2 * h - 91 / 2 * c73_slope h)%R.
Definition c73_line_world (h : R) : world XR :=
  mkWorld (mkEnv (fun F g _ => match F g, length g with
                               | Ok _, 2%nat => LDone true (Fin (line_loss (c73_sparse h) (c73_slope h) (c73_height h) / 2)) [Fin (c73_slope h); Fin (c73_height h)]
                               | _, n => LDone false (Fin 0) (repeat (Fin 0) n)
                               end) (fun _ => Fin (1 / 2)) (fun _ => "[..]") (fun _ => "#")) by_score (fun a i => (a + i)%nat).
Lemma c73_sparse_usable h : usable_rows (c73_sparse h) = rows (c73_sparse h).
Proof. unfold usable_rows, c73_sparse, usable. cbn. destruct (Rltb_spec 0 1); [reflexivity|lra]. Qed.
Lemma c73_sparse_finite h : finite_rows (c73_sparse h).
Proof.
  unfold finite_rows. rewrite c73_sparse_usable. unfold c73_sparse. cbn [rows has_w map fst snd].
  repeat (constructor; [split; [reflexivity|intros _; reflexivity]|]). constructor.
Qed.
Lemma c73_sparse_normal h : normal [c73_slope h; c73_height h] (samples (c73_sparse h) (fun r => [x_in r; 1%R])).
Proof.
  intros de L. destruct (two_params de L) as (u & v & ->). unfold samples, share. rewrite c73_sparse_usable. unfold count_x, err, rdot, x_in, c73_height, c73_slope. cbn. field.
Qed.
Lemma c73_sparse_solved h act : solved (w_env (c73_line_world h)) model_linear (c73_sparse h) act.
Proof.
  assert (Ar : forall p xs ys ds ws act cache rs, get_residuals (T := XR) (Some p) model_linear xs ys ds ws act cache = Ok rs -> length p = 2%nat).
  { intros th xs ys ds ws a cache rs K. destruct th as [|u [|w [|z th]]]; try reflexivity; exfalso; cbn in K; unfold get_residuals, call in K; cbn in K; discriminate. }
  split.
  - intros cache g b c x F K. unfold c73_line_world in K. cbn [w_env e_lsq] in K. destruct (F g) as [l|] eqn:Eg; [|discriminate]. pose proof (Ar _ _ _ _ _ _ _ _ Eg) as Lg.
    rewrite Lg in K. injection K as <- <-.
    assert (Fa : forall th, length th = 2%nat -> F (fins th) = Ok (fins (map (fun s => Rabs (err th s * s_w s)) (samples (c73_sparse h) (fun r => [x_in r; 1%R]))))).
    { intros th L. apply (residuals_linear model_linear (c73_sparse h) act _ th cache (rows_fitted _ _ (c73_sparse_finite h))). exact (linear_is_linear (c73_sparse h) act th L). }
    exists [c73_slope h; c73_height h]. eexists. split; [reflexivity|]. split; [now rewrite Lg|]. split; [exact (Fa [_; _] eq_refl)|]. rewrite ssq_loss. split; [reflexivity|].
    intros th' rs' _ K'. pose proof (Ar _ _ _ _ _ _ _ _ K') as L'. unfold fins in L'. rewrite map_length in L'. rewrite Fa in K' by exact L'.
    injection K' as K'. apply fins_inj in K'. subst rs'. rewrite ssq_loss. apply normal_minimum; [apply c73_sparse_normal|exact L'].
  - intros cache g b Lg _. unfold c73_line_world. cbn [w_env e_lsq]. cbn [fm_n model_linear mk_model] in Lg.
    destruct (st_calls _ sturdy_linear (xs_of model_linear (c73_sparse h)) (map r_date (usable_rows (c73_sparse h))) act g false) as (l & El & Ll);
      [unfold xs_of; rewrite !map_length; reflexivity|exact Lg|].
    destruct (residuals_total model_linear (c73_sparse h) act g cache l) as (rs & ->); [exact El|rewrite Ll; unfold xs_of; apply map_length|]. rewrite Lg. eauto.
Qed.
Lemma c73_sparse_scaled h : sf 3 0 (c73_sparse h) = c73_sparse (3 * h).
Proof. unfold sf, map_y, c73_sparse. cbn. unfold set_y. cbn. repeat (f_equal; try lra). Qed.
Definition c73_auto : config XR :=
  mkCfg (Some [model_linear]) (Some []) None (3 # 365)%Q "auto" true false None None (Some []) None None 5 20 (Some "Y") true.
Lemma c73_sparse_mode h : exists mode, final_mode (c73_line_world h) c73_auto (c73_sparse h) = Ok mode.
Proof.
  unfold final_mode. cbn [Forecast.c_mode c73_auto String.eqb Ascii.eqb Bool.eqb].
  destruct (mode_total (w_env (c73_line_world h)) (on_step DAY (ts 2018 1 1)) (ts 2018 1 1) (c73_sparse h)) as (b & ->); [intros t K; exact K| | | | | |cbn; eauto].
  - constructor; [reflexivity| | | | |].
    + cbv. repeat constructor.
    + intros q I. cbn in I. decompose [or] I; try contradiction; subst q; reflexivity.
    + intros q I. cbn in I. decompose [or] I; try contradiction; subst q; reflexivity.
    + intros q I. cbn in I. decompose [or] I; try contradiction; subst q; left; eexists; reflexivity.
    + intros _ q I. cbn in I. decompose [or] I; try contradiction; subst q; left; eexists; reflexivity.
  - reflexivity.
  - intros F g b _ (rs & Er) _ _ _ _. cbn [c73_line_world w_env e_lsq]. rewrite Er.
    destruct (length g) as [|[|[|n]]] eqn:Lg.
    1,2,4: split; [exists 0%R; split; [reflexivity|lra]|now rewrite repeat_length].
    split; [|reflexivity]. eexists. split; [reflexivity|]. unfold line_loss.
    pose proof (loss_nonneg [c73_slope h; c73_height h] (samples (c73_sparse h) (fun r => [x_in r; 1%R]))). lra.
  - intros i. exists (1 / 2)%R. split; [reflexivity|lra].
  - intros F g b. cbn [c73_line_world w_env e_lsq]. destruct (F g), (length g) as [|[|[|n]]]; eauto.
Qed.
Example C73_mode_example : exists mode, ~ must_add (c73_sparse 1) /\ line_settled 3 (w_env (c73_line_world 1)) (w_env (c73_line_world (3 * 1))) (c73_sparse 1) /\
  final_mode (c73_line_world 1) c73_auto (c73_sparse 1) = Ok mode /\ final_mode (c73_line_world (3 * 1)) c73_auto (sf 3 0 (c73_sparse 1)) = Ok mode.
Proof.
  destruct (c73_sparse_mode 1) as (mode & Em). destruct (c73_sparse_mode (3 * 1)) as (mode' & Em'). exists mode.
  assert (Ls : line_settled 3 (w_env (c73_line_world 1)) (w_env (c73_line_world (3 * 1))) (c73_sparse 1)).
  { split; [|split; [apply c73_sparse_solved|rewrite c73_sparse_scaled; apply c73_sparse_solved]].
    unfold two_positions. rewrite c73_sparse_usable. do 2 eexists. split; [left; reflexivity|]. split; [right; left; reflexivity|]. discriminate. }
  split.
  { intros [(r & I & K)|[K|[K|K]]]; [|discriminate| |].
    - cbn in I. decompose [or] I; try contradiction; subst r; cbn in K; unfold Rleb in K; destruct (Rle_dec _ _) in K; try lra; discriminate.
    - specialize (K (ts 2018 1 1) (ts 2018 1 1 + 91 * DAY)%Z). assert ((ts 2018 1 1 + 91 * DAY - ts 2018 1 1 < 60 * DAY)%Z); [apply K; cbn; auto|cbv in H; discriminate].
    - unfold usable_sample, c73_sparse in K. cbn in K. destruct (Rltb_spec 0 1) in K; [cbn in K; lia|lra]. }
  split; [exact Ls|]. split; [exact Em|]. rewrite c73_sparse_scaled, Em'. f_equal.
  apply (mode_units 3 (c73_line_world 1) (c73_line_world (3 * 1)) c73_auto (c73_sparse 1)); [lra| |exact Em|rewrite c73_sparse_scaled; exact Em'].
  intros _. split; [reflexivity|]. split; [apply c73_sparse_finite|]. split; [|exact Ls].
  unfold c73_sparse. cbn [rows map]. repeat (constructor; [right; eexists; reflexivity|]). constructor.
Qed.
(* The automatic choice does look at the level: the same swings twenty units lower are added. *)
Example C73_level_mode : let N := fops in
  is_multiplicative (mult_corr (c60_env (LDone true 1%float [0.375; 10]%float))) (c60_frame [8; 10; 12; 16; 20; 24; 24; 30; 36; 32; 40; 48]%float 1%float) = Ok true /\
  is_multiplicative (mult_corr (c60_env (LDone true 1%float [0.375; -10]%float))) (c60_frame [-12; -10; -8; -4; 0; 4; 4; 10; 16; 12; 20; 28]%float 1%float) = Ok false.
Proof. vm_compute. split; reflexivity. Qed.
