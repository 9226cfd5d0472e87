(* Only the ratios of the weights matter: C81. *)
From Coq Require Import ZArith String List Bool Reals Sorted Permutation Lia Lra QArith_base Floats.
From Verif Require Import Num Py Cal Fmt Model Base Naive Freq Aic Normalize Fixed Fit Interp Select Outliers Pi Forecast.
From Verif Require Import ListProofs NumProofs ModelProofs BaseProofs SeasonProofs GuessProofs FitProofs AicProofs StatsProofs PiProofs ForecastProofs ForecastProofs2 MetaProofs LsqProofs TotalProofs TotalProofs2 TotalProofs3 UniqueProofs ScaleProofs ExistProofs ExactProofs WeightProofs Ex Properties7 Properties8 Properties11 Properties13 Properties18.
Import ListNotations.
Local Open Scope string_scope.
Local Open Scope list_scope.

(* ================= C81 ================= *)
(* One fit, with every weight times k.  [settled_fit]: the model does not look at the weights of the
   actuals ([deaf]), has no fixed parameter, and one set of parameters is best, which both optimizers
   find.  Then the same parameters, status and labels are found.  The cost is k² times as large, and the
   score larger by n ln k², n the number of samples: the same for every model. *)
Theorem C81_fit : forall k, (0 < k)%R -> forall E E' (m : fmodel XR) (u : frame XR) freq src act uc d d',
  e_num E' = e_num E -> has_w u = true -> settled_fit k E E' u act uc m ->
  fit_model E m u freq src act uc = Ok d -> fit_model E' m (scale_w k u) freq src (option_map (scale_w k) act) uc = Ok d' ->
  found d' = found d /\
  (md_fit d = true -> forall c, (0 < c)%R -> md_cost d = Fin c ->
    exists v, md_cost d' = Fin (k * k * c) /\ md_aicc d = Fin v /\ md_aicc d' = Fin (v + INR (length (usable_rows u)) * ln (k * k))).
Proof.
  intros k Hk E E' m u freq src act uc d d' En Hw S0 F1 F2. apply (pair_fit k Hk E E' m u freq src act uc d d' En Hw S0 F1).
  rewrite <- F2. rewrite (wf_spec k Hk). destruct act as [a|]; cbn [option_map]; [now rewrite (wf_spec k Hk)|reflexivity].
Qed.
Print Assumptions C81_fit.

(* Intervals depend on which weights are zero only *)
Theorem C81_intervals : forall k, (0 < k)%R -> forall La Lf draw ns nc q1 q2 w a b c d (l : list (drow XR)),
  get_pi draw ns nc q1 q2 w (mkPT a b c d (map (wd k La Lf) l)) = get_pi draw ns nc q1 q2 w (mkPT a b c d l).
Proof. exact get_pi_wd. Qed.
Print Assumptions C81_intervals.

(* A whole forecast.  No fit is exact, and no two models have the same score ([told_apart]): the
   forecast with its intervals is the same, the data table differs in the weights of the actuals and in
   the labels that name the weights, and of every model the same is found ([same_choice]), whether
   chosen or not. *)
Theorem C81_forecast : forall k, (0 < k)%R -> forall W W' c source (f f1 : frame XR) mode act w acts fits r r',
  has_date f = true -> has_w f = true ->
  e_num (w_env W') = e_num (w_env W) -> w_draw W' = w_draw W -> sorts W -> sorts W' ->
  prepared c f = Ok f1 -> final_mode W c (with_weights f1) = Ok mode ->
  (Forecast.c_mode c = "auto" -> settled_fit k (w_env W) (w_env W') (with_weights f1) None true model_linear) ->
  model_actuals f (to_fit f1) = Ok act ->
  (forall m, In m (all_models c mode (detect_freq_frame f) (fst (candidate_lists c (with_weights f1))) (snd (candidate_lists c (with_weights f1)))) ->
     settled_fit k (w_env W) (w_env W') (to_fit f1) (Some act) (c_cache c) m /\ fm_name m <> "actuals") ->
  run_fits W c source f = Ok (w, acts, fits) -> told_apart fits ->
  run_forecast_single W c source f = Ok r -> run_forecast_single W' c source (scale_w k f) = Ok r' ->
  rs_forecast r' = rs_forecast r /\ (exists La Lf, rs_data r' = map (wd k La Lf) (rs_data r)) /\
  Forall2 (same_choice k (length (usable_rows (to_fit f1)))) (rs_meta r) (rs_meta r').
Proof.
  intros k Hk W W' c source f f1 mode act w acts fits r r' Hd Hw En Dr So So' Ep Em Au Ea Cv Ef (Pos & Tie).
  exact (forecast_weights_auto k Hk W W' c source f f1 mode act w acts fits r r' Hd Hw En Dr So So' Ep Em Au Ea Cv Ef Pos Tie).
Qed.
Print Assumptions C81_forecast.

(* Daily and weekly series, an optimizer that finds the best fit, and candidates that are regressions
   with determined parameters or have no parameters: both forecasts complete and agree. *)
Theorem C81_steady : forall k rnd arr num W c source step freq t0 (f f1 : frame XR) mode w acts fits, (0 < k)%R -> w_env W = ideal rnd arr num -> draws rnd -> sorts W ->
  steady step freq t0 f -> has_w f = true -> (forall r, In r (rows f) -> tame (r_y r)) -> (forall r, In r (rows f) -> tame (r_w r)) ->
  settings c -> enough c f -> prepared c f = Ok f1 -> final_mode W c (with_weights f1) = Ok mode ->
  (Forecast.c_mode c = "auto" -> two_positions (with_weights f1)) ->
  (forall m, In m (all_models c mode (detect_freq_frame f) (fst (candidate_lists c (with_weights f1))) (snd (candidate_lists c (with_weights f1)))) ->
     settled_model k (to_fit f1) m) ->
  run_fits W c source f = Ok (w, acts, fits) -> told_apart fits ->
  exists r r', run_forecast_single W c source f = Ok r /\ run_forecast_single W c source (scale_w k f) = Ok r' /\
    rs_forecast r' = rs_forecast r /\ (exists La Lf, rs_data r' = map (wd k La Lf) (rs_data r)) /\
    Forall2 (same_choice k (length (usable_rows (to_fit f1)))) (rs_meta r) (rs_meta r').
Proof. exact weights_steady. Qed.
Print Assumptions C81_steady.

(* The models: none of the package looks at the weights of the actuals, nor does a sum or product *)
Theorem C81_models : forall k,
  Forall (deaf k) [model_null; model_constant; model_naive; model_snaive_wday; model_linear; model_linear_nondec; model_quasilinear; model_exp; model_decay;
    model_step; model_two_steps; model_sigmoid_step; model_sigmoid; model_ramp; model_season_wday; model_season_month; model_season_month_old; model_season_fourier_yearly] /\
  (forall m1 m2, deaf k m1 -> deaf k m2 -> deaf k (madd m1 m2) /\ deaf k (mmul m1 m2)).
Proof. intros k. split; [exact (deaf_leaves k)|]. intros m1 m2 A B. split; [now apply deaf_madd|now apply deaf_mmul]. Qed.
Print Assumptions C81_models.

(* Seven days around the line 10 x + 5, one above or below, every second day with double weight; the
   candidates are a line and a constant. *)
Definition c81_list : list (Z * (R * R)) := [(0%Z, (6%R, 1%R)); (1%Z, (14%R, 2%R)); (2%Z, (26%R, 1%R)); (3%Z, (36%R, 2%R)); (4%Z, (46%R, 1%R)); (5%Z, (54%R, 2%R)); (6%Z, (66%R, 1%R))].
Definition c81_row (p : Z * (R * R)) : row XR := mkRow (ts 2018 1 (1 + fst p)) "s" (fst p) (Fin (fst (snd p))) (Fin (snd (snd p))).
Definition c81_frame : frame XR := mkFrame true false true (map c81_row c81_list).
Definition c81_cfg : config XR :=
  mkCfg (Some [model_linear; model_constant]) (Some []) None (14 # 365)%Q "add" true false None None (Some []) None None 5 20 (Some "Y") true.
Lemma c81_dates : map r_date (rows c81_frame) = map (fun k => ts 2018 1 (1 + k)) [0; 1; 2; 3; 4; 5; 6]%Z.
Proof. unfold c81_frame. cbn [rows]. rewrite map_map. reflexivity. Qed.
Lemma c81_steady : steady DAY "D" (ts 2018 1 1) c81_frame.
Proof.
  constructor; [left; split; reflexivity|reflexivity| | | |]; rewrite ?c81_dates.
  - vm_compute. reflexivity.
  - vm_compute. repeat constructor.
  - intros q I. apply (in_map r_date) in I. rewrite c81_dates in I. revert I. generalize (r_date q). apply Forall_forall.
    cbn [map]. repeat (constructor; [vm_compute; reflexivity|]). constructor.
  - intros q I. cbn [rows c81_frame] in I. apply in_map_iff in I as (k & <- & I). unfold c81_row. cbn [r_x r_date]. symmetry. revert k I. apply Forall_forall.
    unfold c81_list. repeat (constructor; [cbn [fst]; vm_compute; reflexivity|]). constructor.
Qed.
Lemma c81_settings : settings c81_cfg.
Proof.
  constructor.
  - constructor; intros ms m K I; try discriminate; injection K as <-; cbn in I.
    + destruct I as [<-|[<-|[]]]; left; apply sturdy_hardy; [apply sturdy_linear|apply sturdy_constant].
    + destruct I.
  - intros ms m K I. injection K as <-. destruct I.
  - discriminate.
  - cbv. auto.
  - right. discriminate.
Qed.
Lemma c81_positive p : In p c81_list -> (0 < snd (snd p))%R.
Proof. revert p. apply Forall_forall. unfold c81_list. repeat (constructor; [cbn; lra|]). constructor. Qed.
Lemma c81_all : filter (fun r => nltb n0 (r_w r)) (map c81_row c81_list) = map c81_row c81_list.
Proof.
  apply GroupProofs.filter_all. intros r I. apply in_map_iff in I as (p & <- & I). unfold c81_row. cbn [r_w]. rewrite NumProofs.n0_fin. cbn [nltb XROps xltb].
  pose proof (c81_positive p I). destruct (Rltb_spec 0 (snd (snd p))); [reflexivity|lra].
Qed.
Lemma c81_to_fit : prepared c81_cfg c81_frame = Ok c81_frame /\ to_fit c81_frame = c81_frame.
Proof.
  split; [reflexivity|]. unfold to_fit, with_weights, positive, with_rows, c81_frame. cbn [has_w has_date has_src rows]. now rewrite c81_all.
Qed.
Lemma c81_usable : usable_rows c81_frame = map c81_row c81_list.
Proof.
  unfold usable_rows. etransitivity; [|exact c81_all]. unfold c81_frame. cbn [rows]. apply filter_ext_in. intros r I. apply in_map_iff in I as (p & <- & I).
  unfold usable, c81_row. cbn [has_w r_y r_w]. cbn [nisnan XROps xisnan negb andb]. reflexivity.
Qed.
Lemma c81_samples phi : samples c81_frame (coef phi) =
  map (fun p => mkS (phi (IZR (fst p)) (ts 2018 1 (1 + fst p))) (fst (snd p)) (snd (snd p))) c81_list.
Proof.
  unfold samples. rewrite c81_usable, map_map. apply map_ext_in. intros p I. unfold coef, x_in, c81_row. cbn [r_y r_x r_date real]. f_equal.
  unfold share. rewrite c81_usable. change (has_w c81_frame) with true. cbv iota. rewrite count_x_one; [cbn [r_w real]; field| |].
  - rewrite map_map. reflexivity.
  - now apply (in_map c81_row).
Qed.
Lemma c81_line : normal [10; 5]%R (samples c81_frame (coef (fun x _ => [x; 1%R]))) /\ loss [10; 5]%R (samples c81_frame (coef (fun x _ => [x; 1%R]))) = 16%R.
Proof.
  rewrite c81_samples. split.
  - intros [|a [|b [|]]] L; try discriminate. unfold c81_list, err, rdot. cbn. ring.
  - unfold loss, c81_list, err, rdot. cbn. ring.
Qed.
Lemma c81_constant : normal [35]%R (samples c81_frame (coef (fun _ _ => [1%R]))) /\ loss [35]%R (samples c81_frame (coef (fun _ _ => [1%R]))) = 5216%R.
Proof.
  rewrite c81_samples. split.
  - intros [|a [|]] L; try discriminate. unfold c81_list, err, rdot. cbn. ring.
  - unfold loss, c81_list, err, rdot. cbn. ring.
Qed.
(* the best fit has the loss of any solution of the normal equations *)
Lemma c81_fit rnd arr num m phi th0 l freq src act uc d : regression m phi -> finite_rows c81_frame -> length th0 = fm_n m ->
  normal th0 (samples c81_frame (coef phi)) -> loss th0 (samples c81_frame (coef phi)) = l -> (0 < l)%R ->
  fit_model (ideal rnd arr num) m c81_frame freq src act uc = Ok d -> md_fit d = true ->
  md_cost d = Fin (l / 2) /\ md_aicc d = Fin (aicc (l / 2) 7 (IZR (Z.of_nat (fm_n m)))) /\ md_model d = fm_name m.
Proof.
  intros Rg Fr L0 Nm Lo Pl Ef Fd.
  destruct (regression_fit _ m phi c81_frame freq src act uc d Rg eq_refl Fr (ideal_minimizes rnd arr num m c81_frame act) Ef Fd) as (th & _ & Lt & Ec & Mn & Nt).
  assert (Ll : loss th (samples c81_frame (coef phi)) = l).
  { apply Rle_antisym; [rewrite <- Lo; now apply Mn|]. rewrite <- Lo. apply normal_minimum; [exact Nm|congruence]. }
  rewrite Ll in Ec. split; [exact Ec|]. destruct (fit_score _ _ _ _ _ _ _ _ Ef Fd) as [S1 K1]. rewrite Ec, c81_usable, map_length in *. split.
  - change (Z.of_nat (length c81_list)) with 7%Z in S1. change (length c81_list) with 7%nat in K1. rewrite score_pos in S1 by (try lia; lra). injection S1 as <-. reflexivity.
  - apply (fit_name_kept _ _ _ _ _ _ _ _ (fun a => unbounded_simplify (mkEnv ideal_lsq rnd a num) m c81_frame (rg_free _ _ Rg)) Ef).
Qed.
Lemma c81_scores : (aicc (16 / 2) 7 2 < aicc (5216 / 2) 7 1)%R.
Proof.
  unfold aicc. assert (Q : ln (5216 / 2 / 7) = (ln (16 / 2 / 7) + ln 326)%R). { rewrite <- ln_mult by lra. f_equal. field. }
  assert (1 < ln 326)%R. { rewrite <- (ln_exp 1). apply ln_increasing; [apply exp_pos|]. pose proof exp_le_3. lra. }
  rewrite Q. lra.
Qed.
Lemma c81_models k m : In m (all_models c81_cfg "add" (detect_freq_frame c81_frame) (fst (candidate_lists c81_cfg (with_weights c81_frame))) (snd (candidate_lists c81_cfg (with_weights c81_frame)))) ->
  (m = model_linear \/ m = model_constant) /\ settled_model k c81_frame m.
Proof.
  intros I. assert (K : m = model_linear \/ m = model_constant) by (cbn in I; intuition auto). split; [exact K|]. pose proof (deaf_leaves k) as Dl. rewrite Forall_forall in Dl.
  destruct K as [-> | ->]; (split; [apply Dl; cbn; tauto|split; [discriminate|left]]).
  - eexists. split; [apply regression_linear_trend|]. apply line_determined. unfold two_positions. rewrite c81_usable. do 2 eexists. split; [left; reflexivity|]. split; [right; left; reflexivity|]. discriminate.
  - eexists. split; [apply regression_constant|]. intros [|a [|]] L K; try discriminate. specialize (K (c81_row (0%Z, (6%R, 1%R)))). rewrite c81_usable in K. specialize (K (or_introl eq_refl)).
    unfold rdot, coef in K. cbn in K. cbn. f_equal. lra.
Qed.
Example C81_example : forall k, (0 < k)%R -> exists r r',
  run_forecast_single c78_world c81_cfg "s" c81_frame = Ok r /\ run_forecast_single c78_world c81_cfg "s" (scale_w k c81_frame) = Ok r' /\
  rs_forecast r' = rs_forecast r /\ Forall2 (same_choice k 7) (rs_meta r) (rs_meta r').
Proof.
  intros k Hk. destruct c81_to_fit as [Ep Et].
  assert (Ty : forall r, In r (rows c81_frame) -> tame (r_y r)). { intros r I. apply in_map_iff in I as (p & <- & _). left. eexists. reflexivity. }
  assert (Tw : forall r, In r (rows c81_frame) -> tame (r_w r)). { intros r I. apply in_map_iff in I as (p & <- & _). left. eexists. reflexivity. }
  assert (Dr : draws c78_rnd) by (intros i; exists (1 / 2)%R; split; [reflexivity|lra]).
  assert (En : enough c81_cfg c81_frame).
  { split.
    - do 2 eexists. split; [left; reflexivity|]. split; [right; left; reflexivity|]. discriminate.
    - intros f1 E. rewrite Ep in E. injection E as <-. rewrite c81_usable. discriminate. }
  destruct (steady_fitted c81_cfg DAY "D" (ts 2018 1 1) c81_frame c81_frame c81_steady Ty (fun _ => Tw) Ep) as [_ Fr]. rewrite Et in Fr.
  destruct (forecast_completes c78_world c81_cfg "s" DAY "D" (ts 2018 1 1) c81_frame c81_steady Ty (fun _ => Tw)) as (r0 & E0);
    [apply ideal_dependable|exact Dr|intros _; apply ideal_answers|apply c81_settings|exact En|].
  destruct (run_inv _ _ _ _ _ E0) as (w & acts & fits & Ef & _ & _).
  assert (Fits : forall p, In p fits -> md_fit (fst (fst p)) = true ->
    (md_model (fst (fst p)) = "linear" /\ md_cost (fst (fst p)) = Fin (16 / 2) /\ md_aicc (fst (fst p)) = Fin (aicc (16 / 2) 7 2)) \/
    (md_model (fst (fst p)) = "constant" /\ md_cost (fst (fst p)) = Fin (5216 / 2) /\ md_aicc (fst (fst p)) = Fin (aicc (5216 / 2) 7 1))).
  { destruct (run_fits_inv _ _ _ _ _ _ _ Ef) as (f1 & range & mode & act & st & sp & x0 & Ep1 & _ & _ & _ & Em & _ & _ & _ & _ & _ & F).
    rewrite Ep in Ep1. injection Ep1 as <-. injection Em as <-. intros p I Fd. destruct (Forall2_in_r _ _ _ _ F I) as (m & Im & Ho).
    apply fit_one_contributes in Ho as (_ & Ho & _). fold (to_fit c81_frame) in Ho. rewrite Et in Ho. destruct (c81_models k m Im) as [[-> | ->] _].
    - left. destruct (c81_fit _ _ _ _ (fun x _ => [x; 1%R]) [10; 5]%R 16%R _ _ _ _ _ regression_linear_trend Fr eq_refl (proj1 c81_line) (proj2 c81_line) ltac:(lra) Ho Fd) as (A & B & C). auto.
    - right. destruct (c81_fit _ _ _ _ (fun _ _ => [1%R]) [35]%R 5216%R _ _ _ _ _ regression_constant Fr eq_refl (proj1 c81_constant) (proj2 c81_constant) ltac:(lra) Ho Fd) as (A & B & C). auto. }
  destruct (C81_steady k c78_rnd (fun _ => "[..]") (fun _ => "#") c78_world c81_cfg "s" DAY "D" (ts 2018 1 1) c81_frame c81_frame "add" w acts fits)
    as (r & r' & Er & Er' & A & _ & B); auto.
  - now apply by_score_sorts.
  - apply c81_steady.
  - apply c81_settings.
  - discriminate.
  - intros m I. rewrite Et. apply (c81_models k m I).
  - split.
    + intros p I Fd. destruct (Fits p I Fd) as [(_ & -> & _)|(_ & -> & _)]; eexists; (split; [|reflexivity]); lra.
    + pose proof c81_scores as Sc. intros p q Ip Iq Fp Fq. destruct (Fits p Ip Fp) as [(-> & _ & ->)|(-> & _ & ->)]; destruct (Fits q Iq Fq) as [(-> & _ & ->)|(-> & _ & ->)]; intros K; try reflexivity; injection K as K; lra.
  - exists r, r'. split; [exact Er|]. split; [exact Er'|]. split; [exact A|]. rewrite Et, c81_usable in B. exact B.
Qed.
