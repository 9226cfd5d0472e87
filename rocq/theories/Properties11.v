(* Least squares, labels, forecasts at the sample dates, completion of fits: C65 to C68 and C70. *)
From Coq Require Import ZArith String List Bool Reals PrimFloat Sorted Permutation Lia Lra QArith_base.
From Verif Require Import Num Py Cal Fmt Model Base Naive Freq Normalize Fixed Fit Interp Select Stats Outliers Pi Forecast.
From Verif Require Import ListProofs NumProofs ModelProofs BaseProofs FixedProofs GuessProofs FitProofs SeasonProofs StatsProofs ForecastProofs ForecastProofs2 ExtendProofs MetaProofs LsqProofs RobustProofs Ex Properties7.
Import ListNotations.
Local Open Scope string_scope.
Local Open Scope list_scope.

(* An optimizer that answers by the number of parameters, and a daily series from Monday 2018-01-01. *)
Definition ex_env (o : list (lsq_out XR)) : env XR :=
  mkEnv (fun _ g _ => nth (length g) o (LRaise ValueError)) (fun _ => Fin (1 / 2)) (fun _ => "[..]") (fun _ => "#").
Definition daily (hw : bool) (yw : list (R * R)) : frame XR :=
  mkFrame true false hw (map (fun p => mkRow (ts 2018 1 (1 + Z.of_nat (fst p))) "s" (Z.of_nat (fst p)) (Fin (fst (snd p))) (Fin (snd (snd p)))) (enumerate yw)).
Lemma ex_draws o : draws (e_rnd (ex_env o)).
Proof. intros i. exists (1 / 2)%R. split; [reflexivity|lra]. Qed.

(* ================= C65 ================= *)
(* [minimizes E m f act]: whenever the optimizer reports success on the residuals of this fit, its
   answer is a minimum of their sum of squares, and the cost is half the sum.  [linear_in m f act l]:
   the prediction for sample i is the combination of the parameters with coefficients s_phi. *)
Theorem C65_exact : forall E (m : fmodel XR) f freq src act uc d l th0,
  minimizes E m f act -> (0 < fm_n m)%nat -> unbounded m -> fitted f l -> linear_in m f act l ->
  (uc = true -> cache_neutral m f act) -> length th0 = fm_n m -> (forall s, In s l -> rdot th0 (s_phi s) = s_y s) ->
  fit_model E m f freq src act uc = Ok d -> md_fit d = true ->
  exists th, md_params d = fins th /\ length th = fm_n m /\ md_cost d = Fin 0 /\
    forall s, In s l -> s_w s <> 0%R -> rdot th (s_phi s) = s_y s.
Proof. exact exact_fit. Qed.
Print Assumptions C65_exact.
Theorem C65_line : forall E f freq src act uc d a b,
  minimizes E model_linear f act -> on_line f a b -> finite_weights f -> two_positions f ->
  fit_model E model_linear f freq src act uc = Ok d -> md_fit d = true -> md_params d = [Fin a; Fin b] /\ md_cost d = Fin 0.
Proof. exact line_recovered. Qed.
Print Assumptions C65_line.
(* [straight t0 f a b]: every value present is a * x + b for the number x of days since t0 *)
Theorem C65_forecast : forall W c source (f : frame XR) r t0 a b, x_counts_days t0 f -> same_hour t0 f -> straight t0 f a b ->
  run_forecast_single W (set_all true c) source f = Ok r ->
  exists f1 act acts (es : list (@entry XR)), prepared c f = Ok f1 /\ model_actuals f (to_fit f1) = Ok act /\
    rs_data r = acts ++ concat (map en_rows es) /\ rs_meta r = map en_meta es /\ Forall (fun d => d_actual d = true) acts /\
    (two_positions (to_fit f1) -> minimizes (w_env W) model_linear (to_fit f1) (Some act) ->
     forall e, In e es -> en_model e = model_linear -> md_fit (m_meta (en_meta e)) = true ->
       md_params (m_meta (en_meta e)) = [Fin a; Fin b] /\
       forall d, In d (en_rows e) -> d_y d = Fin (a * IZR (x_of t0 (d_date d)) + b)).
Proof. exact line_continued. Qed.
Print Assumptions C65_forecast.

Definition c65_env : env XR := ex_env [LRaise ValueError; LRaise ValueError; LDone true (Fin 0) [Fin 2; Fin 1]].
Definition c65_frame : frame XR := daily true [(1, 1); (3, 2); (5, 1); (7, 3); (9, 1)]%R.
Lemma c65_on_line : on_line c65_frame 2 1.
Proof.
  intros r I. apply filter_In in I as [I _]. cbn in I.
  decompose [or] I; try contradiction; subst r; cbn [r_y r_x x_in]; f_equal; unfold x_in; cbn [r_x Z.of_nat Pos.of_succ_nat Pos.succ]; lra.
Qed.
Lemma c65_weights : finite_weights c65_frame.
Proof. intros _ r I. apply filter_In in I as [I _]. cbn in I. decompose [or] I; try contradiction; subst r; cbn; eauto. Qed.
Lemma c65_rows : length (usable_rows c65_frame) = 5%nat /\ map r_x (usable_rows c65_frame) = [0; 1; 2; 3; 4]%Z.
Proof. split; cbn; repeat match goal with |- context [Rltb ?a ?b] => destruct (Rltb_spec a b) as [_|C]; [|exfalso; lra]; cbn end; reflexivity. Qed.
Example C65_minimizes : minimizes c65_env model_linear c65_frame None.
Proof.
  intros cache g b c x F K. cbn in K.
  destruct g as [|g1 [|g2 [|g3 g]]]; cbn in K; try discriminate; [|now destruct g as [|? g]]. injection K as <- <-.
  pose proof (on_line_finite _ _ _ c65_on_line c65_weights) as Fr.
  exists [2; 1]%R, (map (fun s => Rabs (err [2; 1]%R s * s_w s)) (samples c65_frame (fun r => [x_in r; 1]%R))).
  split; [reflexivity|]. split; [reflexivity|].
  assert (Z0 : forall s, In s (samples c65_frame (fun r => [x_in r; 1]%R)) -> err [2; 1]%R s = 0%R).
  { intros s I. unfold samples in I. apply in_map_iff in I as (r & <- & I). unfold err. cbn [s_y s_phi]. rewrite (c65_on_line r I). unfold rdot. cbn. lra. }
  split; [|split].
  - apply (residuals_linear model_linear c65_frame None _ [2; 1]%R cache (rows_fitted _ _ Fr)).
    pose proof (linear_is_linear c65_frame None [2; 1]%R eq_refl) as Q. exact Q.
  - rewrite ssq_loss, loss_exact; [f_equal; lra|]. intros s I. specialize (Z0 s I). unfold err in Z0. lra.
  - intros th' rs' _ _. rewrite ssq_loss, loss_exact; [|intros s I; specialize (Z0 s I); unfold err in Z0; lra].
    unfold ssq. clear. induction rs' as [|r l IH]; cbn; [lra|]. nra.
Qed.
Example C65_fits : exists d, fit_model c65_env model_linear c65_frame (Some "D") "s" None true = Ok d /\ md_fit d = true.
Proof.
  destruct c65_rows as (L & X). pose proof (on_line_finite _ _ _ c65_on_line c65_weights) as Fr.
  destruct (tree_admissible c65_env (Leaf model_linear) c65_frame) as (g & b & A & Lg).
  - apply ex_draws.
  - eapply Forall_impl; [|exact Fr]. intros r K. apply K.
  - rewrite X. repeat constructor.
  - rewrite L. lia.
  - discriminate.
  - constructor; [|constructor]. left. right. now left.
  - pose proof (fit_completes c65_env model_linear c65_frame (Some "D") "s" None true g b []) as R.
    assert (Eg : e_lsq c65_env (fun p => get_residuals (Some p) model_linear (xs_of model_linear c65_frame) (ys_of c65_frame) (dates_of c65_frame) (ws_of c65_frame) None []) g b
                 = LDone true (Fin 0) [Fin 2; Fin 1]).
    { cbn. cbn in Lg. now rewrite Lg. }
    rewrite Eg in R. destruct R as (d & E & K & _); eauto.
    + cbn. lia.
    + rewrite L. cbn. lia.
    + reflexivity.
    + apply unbounded_unpinned. intros x y d. now exists false.
    + exists 0%R. split; [reflexivity|lra].
Qed.
Example C65_recovered : exists d, fit_model c65_env model_linear c65_frame (Some "D") "s" None true = Ok d /\
  md_params d = [Fin 2; Fin 1] /\ md_cost d = Fin 0.
Proof.
  destruct C65_fits as (d & E & K). exists d. split; [exact E|].
  apply (C65_line c65_env c65_frame (Some "D") "s" None true d 2 1 C65_minimizes c65_on_line c65_weights); auto.
  destruct c65_rows as (L & X). destruct (usable_rows c65_frame) as [|r1 [|r2 l]] eqn:E'; try discriminate. exists r1, r2. rewrite E'.
  split; [now left|]. split; [right; now left|]. cbn in X. injection X as X1 X2 _. rewrite X1, X2. discriminate.
Qed.

(* ================= C66 ================= *)
(* the parameters solve the weighted normal equations *)
Theorem C66_normal_equations : forall E (m : fmodel XR) f freq src act uc d l,
  minimizes E m f act -> (0 < fm_n m)%nat -> unbounded m -> fitted f l -> linear_in m f act l ->
  (uc = true -> cache_neutral m f act) ->
  fit_model E m f freq src act uc = Ok d -> md_fit d = true ->
  exists th, md_params d = fins th /\ length th = fm_n m /\ md_cost d = Fin (loss th l / 2) /\
    (forall th', length th' = fm_n m -> (loss th l <= loss th' l)%R) /\
    (forall de, length de = fm_n m -> rsum (map (fun s => s_w s * s_w s * err th s * rdot de (s_phi s))%R l) = 0%R).
Proof. exact normal_equations. Qed.
Print Assumptions C66_normal_equations.
(* [wsum f g]: sum over the usable rows of share^2 * g; [share f r]: the weight of the row divided by
   the number of usable rows at the same x *)
Theorem C66_constant : forall E f freq src act uc d, minimizes E model_constant f act -> finite_rows f ->
  fit_model E model_constant f freq src act uc = Ok d -> md_fit d = true ->
  exists a, md_params d = [Fin a] /\ (a * wsum f (fun _ => 1) = wsum f (fun r => real (r_y r)))%R.
Proof. exact constant_fit. Qed.
Print Assumptions C66_constant.
Theorem C66_line : forall E f freq src act uc d, minimizes E model_linear f act -> finite_rows f -> line_det f <> 0%R ->
  fit_model E model_linear f freq src act uc = Ok d -> md_fit d = true ->
  md_params d = [Fin ((wsum f (fun _ => 1) * wsum f (fun r => x_in r * real (r_y r)) - wsum f x_in * wsum f (fun r => real (r_y r))) / line_det f)%R;
                 Fin ((wsum f (fun r => x_in r * x_in r) * wsum f (fun r => real (r_y r)) - wsum f x_in * wsum f (fun r => x_in r * real (r_y r))) / line_det f)%R].
Proof. exact line_closed_form. Qed.
Print Assumptions C66_line.
Theorem C66_week : forall E f freq src act uc d, minimizes E (madd model_linear model_season_wday) f act -> finite_rows f -> has_date f = true ->
  fit_model E (madd model_linear model_season_wday) f freq src act uc = Ok d -> md_fit d = true ->
  exists a b ws, md_params d = fins (a :: b :: ws) /\ length ws = 6%nat /\
    let e := fun r => (real (r_y r) - (a * x_in r + b + (if Z.eqb (weekday (r_date r)) 0 then 0 else nth (Z.to_nat (weekday (r_date r)) - 1) ws 0)))%R in
    wsum f (fun r => (e r * x_in r)%R) = 0%R /\
    forall k, (0 <= k <= 6)%Z -> wsum f (fun r => (e r * (if Z.eqb (weekday (r_date r)) k then 1 else 0))%R) = 0%R.
Proof. exact week_fit. Qed.
Print Assumptions C66_week.
(* weights 2, 1, 1, 1: the square of the weight counts, (4 * 1 + 8 + 1 + 1) / (4 + 1 + 1 + 1) = 2 *)
Definition c66_env : env XR := ex_env [LRaise ValueError; LDone true (Fin 21) [Fin 2]].
Definition c66_frame : frame XR := daily true [(1, 2); (8, 1); (1, 1); (1, 1)]%R.
Lemma c66_usable : usable_rows c66_frame = rows c66_frame.
Proof. cbn. repeat match goal with |- context [Rltb ?a ?b] => destruct (Rltb_spec a b) as [_|C]; [|exfalso; lra]; cbn end. reflexivity. Qed.
Lemma c66_finite : finite_rows c66_frame.
Proof. unfold finite_rows. rewrite c66_usable. repeat constructor. Qed.
Lemma c66_loss a : loss [a] (samples c66_frame (fun _ => [1%R])) = (7 * (a - 2) * (a - 2) + 42)%R.
Proof.
  unfold loss, samples. rewrite c66_usable. unfold share, count_x. rewrite c66_usable. cbn. unfold err, rdot. cbn. lra.
Qed.
Example C66_minimizes : minimizes c66_env model_constant c66_frame None.
Proof.
  intros cache g b c x F K. cbn in K. destruct g as [|g1 [|g2 g]]; cbn in K; try discriminate; [|now destruct g as [|? g]]. injection K as <- <-.
  assert (Fa : forall a, F (fins [a]) = Ok (fins (map (fun s => Rabs (err [a] s * s_w s)) (samples c66_frame (fun _ => [1%R]))))).
  { intros a. apply (residuals_linear model_constant c66_frame None _ [a] cache (rows_fitted _ _ c66_finite)).
    pose proof (constant_is_linear c66_frame None [a] eq_refl) as Q. exact Q. }
  exists [2%R]. eexists. split; [reflexivity|]. split; [reflexivity|]. split; [apply Fa|]. split.
  - rewrite ssq_loss, c66_loss. f_equal. lra.
  - intros th' rs' _ K. destruct th' as [|a [|a2 th']]; try discriminate. rewrite Fa in K. injection K as K. apply fins_inj in K. subst rs'.
    rewrite !ssq_loss, !c66_loss. pose proof (Rle_0_sqr (a - 2)) as Q. unfold Rsqr in Q. lra.
Qed.
Example C66_fits : exists d, fit_model c66_env model_constant c66_frame (Some "D") "s" None true = Ok d /\ md_fit d = true.
Proof.
  destruct (tree_admissible c66_env (Leaf model_constant) c66_frame) as (g & b & A & Lg).
  - apply ex_draws.
  - eapply Forall_impl; [|exact c66_finite]. intros r K. apply K.
  - rewrite c66_usable. repeat constructor.
  - rewrite c66_usable. cbn. lia.
  - discriminate.
  - constructor; [|constructor]. left. now left.
  - pose proof (fit_completes c66_env model_constant c66_frame (Some "D") "s" None true g b []) as R.
    assert (Eg : e_lsq c66_env (fun p => get_residuals (Some p) model_constant (xs_of model_constant c66_frame) (ys_of c66_frame) (dates_of c66_frame) (ws_of c66_frame) None []) g b
                 = LDone true (Fin 21) [Fin 2]).
    { cbn. cbn in Lg. now rewrite Lg. }
    rewrite Eg in R. destruct R as (d & E & K & _); [..|eauto].
    + cbn. lia.
    + rewrite c66_usable. cbn. lia.
    + reflexivity.
    + apply unbounded_unpinned. intros x y d. now exists false.
    + exact A.
    + reflexivity.
    + exists 21%R. split; [reflexivity|lra].
Qed.

(* ================= C67 ================= *)
(* [reports w d d']: the metadata row d' agrees with d in every column except the weights column, which
   is w.  Every row of the result is the one fit_model returns for the rows of positive weight. *)
Theorem C67_metadata : forall (T : Type) (N : NumOps T) (W : world T) c source f r,
  run_forecast_single W (set_all true c) source f = Ok r ->
  exists f1 mode act acts (es : list entry),
    prepared c f = Ok f1 /\ final_mode W c (with_weights f1) = Ok mode /\ model_actuals f (to_fit f1) = Ok act /\
    rs_data r = acts ++ concat (map en_rows es) /\ rs_meta r = map en_meta es /\
    map en_model es = all_models c mode (detect_freq_frame f) (fst (candidate_lists c (with_weights f1))) (snd (candidate_lists c (with_weights f1))) /\
    Forall (fun e => (exists d, fit_model (w_env W) (en_model e) (to_fit f1) (detect_freq_frame f) source (Some act) (c_cache c) = Ok d /\
                                reports (input_weights (w_env W) f1) d (m_meta (en_meta e))) /\
                     m_label (en_meta e) = add_mult_label (en_model e) mode (fst (candidate_lists c (with_weights f1)))) es.
Proof.
  intros T N W c source f r E.
  destruct (fit_table _ _ _ _ _ E) as (f1 & range & mode & act & st & sp & x0 & acts & es & E1 & _ & E2 & E3 & _ & _ & _ & E4 & E5 & E6 & _ & E7).
  exists f1, mode, act, acts, es. do 6 (split; [assumption|]). eapply Forall_impl; [|exact E7]. intros e (K & L & _). split; [|exact L].
  destruct K as (d & Ed & ->). exists d. split; [exact Ed|apply weights_reports].
Qed.
Print Assumptions C67_metadata.
(* [spans l s]: s shows the first and the last date of the rows l *)
Theorem C67_labels : forall (T : Type) (N : NumOps T), zero_not_positive (T := T) -> forall (W : world T) c source f r,
  has_date f = true -> run_forecast_single W (set_all true c) source f = Ok r ->
  exists f1 fitted_range all_range acts (es : list entry),
    prepared c f = Ok f1 /\ rs_data r = acts ++ concat (map en_rows es) /\ rs_meta r = map en_meta es /\
    spans (usable_rows (to_fit f1)) fitted_range /\ spans (rows f1) all_range /\
    Forall (fun e => md_source_long (m_meta (en_meta e)) = long_name source (weights_label (w_env W) (to_fit f1)) (detect_freq_frame f) fitted_range /\
                     md_range (m_meta (en_meta e)) = fitted_range /\
                     md_weights (m_meta (en_meta e)) = input_weights (w_env W) f1 /\
                     md_source (m_meta (en_meta e)) = source /\ md_freq (m_meta (en_meta e)) = detect_freq_frame f) es /\
    Forall (fun d => d_actual d = true /\
              d_long d = long_name source (input_weights (w_env W) f1) (detect_freq_frame f) all_range) acts /\
    Forall (fun d => d_actual d = false /\
              d_long d = long_name source (weights_label (w_env W) (to_fit f1)) (detect_freq_frame f) fitted_range) (concat (map en_rows es)).
Proof. exact @labels. Qed.
Print Assumptions C67_labels.
Theorem C67_one_label_refuted : forall W c source (f : frame XR) r,
  has_date f = true -> has_w f = false -> c_outliers c = false -> e_num (w_env W) n1 = "1" ->
  run_forecast_single W (set_all true c) source f = Ok r ->
  forall a d, In a (rs_data r) -> In d (rs_data r) -> d_actual a = true -> d_actual d = false -> d_long a <> d_long d.
Proof. exact unweighted_labels. Qed.
Print Assumptions C67_one_label_refuted.
(* 1 is printed as '1', everything else as '#'; the second run ignores the first day *)
Definition c67_world : world float :=
  mkWorld (mkEnv (fun _ g _ => match g with [_] => LDone true 40 [5] | _ => LDone true 1 [2; 1] end)%float (fun _ => 0.5%float) (fun _ => "[..]")
             (fun v => if PrimFloat.eqb v 1 then "1" else "#")) (by_score (H := fops)) (fun a i => (a + i)%nat).
Example C67_example :
  let N := fops in
  let labels r := match r with Ok r => (map (fun m => (md_model (m_meta m), md_weights (m_meta m), md_range (m_meta m), m_label m)) (rs_meta r),
                                   dedup String.eqb (map (fun m => md_source_long (m_meta m)) (rs_meta r)),
                                   dedup String.eqb (map (fun d => d_long d) (filter (fun d => d_actual d) (rs_data r))),
                                   dedup String.eqb (map (fun d => d_long d) (filter (fun d => negb (d_actual d)) (rs_data r)))) | Err _ => ([], [], [], []) end in
  labels (run_forecast_single c67_world (set_all true (ex_cfg [model_constant; model_linear])) "s" (dated false ex_rows)) =
    ([("constant", "1", "2018-01-01::2018-01-08", "add"); ("linear", "1", "2018-01-01::2018-01-08", "add")],
     ["s:1-1:D:2018-01-01::2018-01-08"], ["s:1:D:2018-01-01::2018-01-08"], ["s:1-1:D:2018-01-01::2018-01-08"]) /\
  labels (run_forecast_single c67_world (set_all true (ex_cfg [model_constant; model_linear])) "s" (dated true ((7, 0)%float :: ex_rows))) =
    ([("constant", "#-1", "2018-01-02::2018-01-09", "add"); ("linear", "#-1", "2018-01-02::2018-01-09", "add")],
     ["s:1-1:D:2018-01-02::2018-01-09"], ["s:#-1:D:2018-01-01::2018-01-09"], ["s:1-1:D:2018-01-02::2018-01-09"]).
Proof. vm_compute. repeat split; reflexivity. Qed.

(* ================= C42, weights of the data table ================= *)
(* the actuals keep the weights of the prepared input (1 without a weight column), forecasts weigh 1 *)
Theorem C42_weights : forall (T : Type) (N : NumOps T) (W : world T) c source f r,
  run_forecast_single W (set_all true c) source f = Ok r ->
  exists f1, prepared c f = Ok f1 /\
    map d_w (filter (fun d => d_actual d) (rs_data r)) = (if has_w f1 then map r_w (rows f1) else map (fun _ => n1) (rows f1)) /\
    forall d, In d (rs_data r) -> d_actual d = false -> d_w d = n1.
Proof. exact @data_weights. Qed.
Print Assumptions C42_weights.
Example C42_weights_example :
  let N := fops in
  rmap (fun r => map d_w (filter (fun d => d_actual d) (rs_data r)))
    (run_forecast_single c67_world (set_all true (ex_cfg [model_constant])) "s" (dated true [(1, 2); (3, 0); (5, 1); (7, 3)]%float)) = Ok [2; 0; 1; 3]%float.
Proof. vm_compute. reflexivity. Qed.

(* ================= C60, in the whole forecast ================= *)
(* mode 'auto' is mode 'mult' if the prepared table calls for it and mode 'add' otherwise *)
Theorem C60_auto : forall (T : Type) (N : NumOps T) (W : world T) c source f f1 b,
  prepared c f = Ok f1 -> is_multiplicative (mult_corr (w_env W)) (with_weights f1) = Ok b ->
  run_forecast_single W (set_mode "auto" c) source f = run_forecast_single W (set_mode (if b then "mult" else "add") c) source f.
Proof. exact @auto_mode. Qed.
Print Assumptions C60_auto.
(* swings of the size of the level, and of constant size *)
Definition c60_frame11 (ys : list float) : frame float :=
  mkFrame true false false
    (map (fun p => let t := ts 2018 (1 + Z.of_nat (fst p) / 3) (1 + 10 * (Z.of_nat (fst p) mod 3)) in
                   mkRow t "s" ((t - ts 2018 1 1) / DAY) (snd p) 1%float) (enumerate ys))%Z.
Definition c60_models (mode : string) (ys : list float) : res (list string) :=
  let N := fops in
  let W := mkWorld (mkEnv (fun _ g _ => match g with [_; _] => LDone true 1 [0.375; 10] | _ => LDone true 1 (repeat 1 (length g)) end)%float
                      (fun _ => 0.5%float) (fun _ => "[..]") (fun _ => "#")) (by_score (H := fops)) (fun a i => (a + i)%nat) in
  rmap (fun r => map (fun m => md_model (m_meta m)) (rs_meta r))
    (run_forecast_single W (set_mode mode (mkCfg (Some [model_linear]) (Some [model_season_wday]) None (7 # 365)%Q "add" true false None None (Some []) None None 5 20 (Some "Y") true)) "s" (c60_frame11 ys)).
Example C60_auto_example :
  c60_models "auto" [8; 10; 12; 16; 20; 24; 24; 30; 36; 32; 40; 48]%float = Ok ["(linear*season_wday)"] /\
  c60_models "mult" [8; 10; 12; 16; 20; 24; 24; 30; 36; 32; 40; 48]%float = Ok ["(linear*season_wday)"] /\
  c60_models "auto" [8; 10; 12; 18; 20; 22; 28; 30; 32; 38; 40; 42]%float = Ok ["(linear+season_wday)"] /\
  c60_models "add" [8; 10; 12; 18; 20; 22; 28; 30; 32; 38; 40; 42]%float = Ok ["(linear+season_wday)"].
Proof. vm_compute. repeat split; reflexivity. Qed.

(* ================= C68 ================= *)
(* [pointwise m g]: the value for a sample is g of the mode, the parameters, its own x and its own date *)
Theorem C68_values : forall (T : Type) (N : NumOps T) (W : world T) c source f r t0, x_counts_days t0 f -> same_hour t0 f ->
  run_forecast_single W (set_all true c) source f = Ok r ->
  exists f1 act acts (es : list entry), prepared c f = Ok f1 /\ model_actuals f (to_fit f1) = Ok act /\
    rs_data r = acts ++ concat (map en_rows es) /\ rs_meta r = map en_meta es /\
    Forall (fun d => d_actual d = true) acts /\
    forall e g, In e es -> pointwise (en_model e) g -> length (md_params (m_meta (en_meta e))) = fm_n (en_model e) ->
      forall d, In d (en_rows e) ->
        d_y d = g false (md_params (m_meta (en_meta e))) (seen (en_model e) (x_of t0 (d_date d))) (d_date d).
Proof. exact @forecast_values. Qed.
Print Assumptions C68_values.
Theorem C68_in_sample : forall (T : Type) (N : NumOps T) (W : world T) c source f r t0, x_counts_days t0 f -> same_hour t0 f ->
  run_forecast_single W (set_all true c) source f = Ok r ->
  exists f1 act acts (es : list entry), prepared c f = Ok f1 /\ model_actuals f (to_fit f1) = Ok act /\
    rs_data r = acts ++ concat (map en_rows es) /\ rs_meta r = map en_meta es /\
    Forall (fun d => d_actual d = true) acts /\
    forall e g, In e es -> pointwise (en_model e) g -> length (md_params (m_meta (en_meta e))) = fm_n (en_model e) ->
      exists l, call (en_model e) (xs_of (en_model e) (to_fit f1)) (dates_of (to_fit f1)) (Some (md_params (m_meta (en_meta e)))) false
                  (mkKw (Some act) []) = Ok (Ar l) /\ length l = length (usable_rows (to_fit f1)) /\
        forall d i q, In d (en_rows e) -> nth_error (usable_rows (to_fit f1)) i = Some q -> r_date q = d_date d -> nth_error l i = Some (d_y d).
Proof. exact @in_sample. Qed.
Print Assumptions C68_in_sample.
Theorem C68_models : forall (T : Type) (N : NumOps T),
  pointwise (T := T) model_linear (fun _ p x _ => nadd (nmul (nth 0 p nnan) x) (nth 1 p nnan)) /\
  pointwise (T := T) model_constant (fun _ p _ _ => nth 0 p nnan) /\
  pointwise (T := T) model_season_wday (fun mult p _ t => wday_value mult p t) /\
  pointwise (T := T) model_season_month (fun mult p _ t => month_value mult p t) /\
  (forall (m1 m2 : fmodel T) g1 g2, fm_name m1 <> "null" -> fm_name m2 <> "null" -> pointwise m1 g1 -> pointwise m2 g2 ->
    pointwise (madd m1 m2) (fun _ p x t => nadd (g1 false (firstn (fm_n m1) p) x t) (g2 false (skipn (fm_n m1) p) x t)) /\
    pointwise (mmul m1 m2) (fun _ p x t => nmul (g1 true (firstn (fm_n m1) p) x t) (g2 true (skipn (fm_n m1) p) x t))).
Proof.
  intros T N. split; [exact linear_pointwise|]. split; [exact constant_pointwise|]. split; [exact wday_pointwise|]. split; [exact month_pointwise|].
  intros m1 m2 g1 g2 N1 N2 P1 P2. split; [now apply sum_pointwise|now apply product_pointwise].
Qed.
Print Assumptions C68_models.
(* the first day has weight 0, so the grid starts at x = 1; the line 2 x + 1 is sampled at x = 1, 2, ... *)
Example C68_example :
  let N := fops in
  let f := dated (T := float) true ((7, 0)%float :: ex_rows) in
  x_counts_days (ts 2018 1 1) f /\ detect_freq_frame f = Some "D" /\
  match run_forecast_single c67_world (set_all true (ex_cfg [model_linear])) "s" f with
  | Ok r => map (fun d => ((d_date d - ts 2018 1 1) / DAY, d_y d))%Z (firstn 4 (filter (fun d => negb (d_actual d)) (rs_data r))) =
              [(1, 3%float); (2, 5%float); (3, 7%float); (4, 9%float)]%Z
  | Err _ => False
  end.
Proof.
  cbv zeta. split; [|split; [vm_compute; reflexivity|vm_compute; reflexivity]]. split; [reflexivity|].
  intros q I. cbn in I. decompose [or] I; try contradiction; subst q; vm_compute; reflexivity.
Qed.

(* ================= C70 ================= *)
(* [reported o r]: an answer of the optimizer becomes the metadata row with that answer, a LinAlgError
   becomes the status NO-FIT, any other exception of the optimizer comes out unchanged.
   [admissible E m f g b]: the initial guess g and the bounds b can be computed and fit together.
   [unpinned m x y d]: the bounds leave every parameter room. *)
Theorem C70_fit : forall E (m : fmodel XR) f freq src act (uc : bool) g b c,
  (0 < fm_n m)%nat -> (fm_n m + 2 <= length (usable_rows f))%nat ->
  accepts m (xs_of m f) (ys_of f) (dates_of f) ->
  unpinned m (Some (xs_of m f)) (Some (ys_of f)) (dates_of f) ->
  admissible E m f g b ->
  (if uc then init_cache m (xs_of m f) (dates_of f) = Ok c else c = []) ->
  real_cost (e_lsq E (fun p => get_residuals (Some p) m (xs_of m f) (ys_of f) (dates_of f) (ws_of f) act c) g b) ->
  reported (e_lsq E (fun p => get_residuals (Some p) m (xs_of m f) (ys_of f) (dates_of f) (ws_of f) act c) g b)
    (fit_model E m f freq src act uc).
Proof. exact fit_completes. Qed.
Print Assumptions C70_fit.
(* any sum and product of the models with a well placed guess, on any daily series of finite values *)
Theorem C70_start : forall E (t : tree XR) f, draws (e_rnd E) -> finite_values f -> StronglySorted Z.lt (map r_x (usable_rows f)) ->
  (4 <= length (usable_rows f))%nat -> prune t <> None -> Forall (well_guessed (values f)) (leaves t) ->
  exists g b, admissible E (build t) f g b /\ length g = fm_n (build t).
Proof. exact tree_admissible. Qed.
Print Assumptions C70_start.
(* C65_fits uses both; here the optimizer cannot solve its equations, or raises *)
Example C70_example :
  (exists d, fit_model (ex_env [LRaise ValueError; LRaise ValueError; LRaise LinAlgError]) model_linear c65_frame (Some "D") "s" None true = Ok d /\ md_status d = "NO-FIT") /\
  fit_model (ex_env [LRaise ValueError; LRaise ValueError; LRaise TypeError]) model_linear c65_frame (Some "D") "s" None true = Err TypeError.
Proof.
  destruct c65_rows as (L & X). pose proof (on_line_finite _ _ _ c65_on_line c65_weights) as Fr.
  assert (K : forall e, reported (LRaise e) (fit_model (ex_env [LRaise ValueError; LRaise ValueError; LRaise e]) model_linear c65_frame (Some "D") "s" None true)).
  { intros e. set (E := ex_env _). destruct (tree_admissible E (Leaf model_linear) c65_frame) as (g & b & A & Lg).
    - apply ex_draws.
    - eapply Forall_impl; [|exact Fr]. intros r K. apply K.
    - rewrite X. repeat constructor.
    - rewrite L. lia.
    - discriminate.
    - constructor; [|constructor]. left. right. now left.
    - assert (Eg : e_lsq E (fun p => get_residuals (Some p) model_linear (xs_of model_linear c65_frame) (ys_of c65_frame) (dates_of c65_frame) (ws_of c65_frame) None []) g b
                   = LRaise e).
      { cbn. cbn in Lg. now rewrite Lg. }
      rewrite <- Eg. apply fit_completes; auto.
      + cbn. lia.
      + rewrite L. cbn. lia.
      + reflexivity.
      + apply unbounded_unpinned. intros x y d. now exists false.
      + rewrite Eg. exact I. }
  split; [|exact (K TypeError)]. destruct (K LinAlgError) as (d & K1 & _ & K2 & _). now exists d.
Qed.
