(* Least-squares fits are unique and linear in the data: C72. *)
From Coq Require Import ZArith String List Bool Reals PrimFloat Sorted Permutation Lia Lra QArith_base.
From Verif Require Import Num Py Cal Fmt Model Base Naive Freq Normalize Fixed Fit Interp Select Outliers Pi Forecast.
From Verif Require Import ListProofs NumProofs ModelProofs BaseProofs FixedProofs GuessProofs FitProofs SeasonProofs StatsProofs ForecastProofs ForecastProofs2 ExtendProofs MetaProofs LsqProofs RobustProofs TotalProofs UniqueProofs Ex Properties7 Properties11.
Import ListNotations.
Local Open Scope string_scope.
Local Open Scope list_scope.

(* ================= C72 ================= *)
(* [regression m phi]: m predicts the combination of its parameters with the coefficients phi x t at
   position x and date t, without bounds.  [determined m phi f]: no combination of parameters but zero
   vanishes on all samples.  [minimizes]: see C65. *)
(* Two fits of a model to the same samples agree, whatever the optimizers, their starting points,
   the random draws, the caches and the actuals: on the samples always, and everywhere if the samples
   determine the parameters. *)
Theorem C72_unique : forall m phi f E E' freq freq' s s' a a' u u' d d', regression m phi -> has_date f = true -> finite_rows f ->
  minimizes E m f a -> minimizes E' m f a' ->
  fit_model E m f freq s a u = Ok d -> md_fit d = true -> fit_model E' m f freq' s' a' u' = Ok d' -> md_fit d' = true ->
  exists th th', md_params d = fins th /\ md_params d' = fins th' /\
    (forall r, In r (usable_rows f) -> rdot th' (coef phi r) = rdot th (coef phi r)) /\ md_cost d' = md_cost d /\
    (determined m phi f -> md_params d' = md_params d).
Proof. exact fit_unique. Qed.
Print Assumptions C72_unique.
(* [mixture c1 c2 f1 f2 f]: the samples of f have c1 times the value in f1 plus c2 times that in f2 *)
Theorem C72_superposition : forall m phi c1 c2 f1 f2 f E1 E2 E freq1 freq2 freq s1 s2 s a1 a2 a u1 u2 u d1 d2 d, regression m phi ->
  mixture c1 c2 f1 f2 f -> finite_rows f1 -> finite_rows f2 -> finite_rows f ->
  minimizes E1 m f1 a1 -> minimizes E2 m f2 a2 -> minimizes E m f a ->
  fit_model E1 m f1 freq1 s1 a1 u1 = Ok d1 -> md_fit d1 = true ->
  fit_model E2 m f2 freq2 s2 a2 u2 = Ok d2 -> md_fit d2 = true ->
  fit_model E m f freq s a u = Ok d -> md_fit d = true ->
  exists th1 th2 th, md_params d1 = fins th1 /\ md_params d2 = fins th2 /\ md_params d = fins th /\
    length th1 = fm_n m /\ length th2 = fm_n m /\ length th = fm_n m /\
    (forall r, In r (usable_rows f) -> (rdot th (coef phi r) = c1 * rdot th1 (coef phi r) + c2 * rdot th2 (coef phi r))%R) /\
    (determined m phi f -> th = mix c1 c2 th1 th2).
Proof. exact superposition. Qed.
Print Assumptions C72_superposition.
(* what the mixed parameters predict, at any positions and dates *)
Theorem C72_predictions : forall m phi c1 c2 th1 th2 xs ds act, regression m phi ->
  length th1 = fm_n m -> length th2 = fm_n m -> length ds = length xs -> ds <> [] ->
  exists v1 v2, call m (fins xs) (Some ds) (Some (fins th1)) false (mkKw act []) = Ok (Ar (fins v1)) /\
    call m (fins xs) (Some ds) (Some (fins th2)) false (mkKw act []) = Ok (Ar (fins v2)) /\
    call m (fins xs) (Some ds) (Some (fins (mix c1 c2 th1 th2))) false (mkKw act []) = Ok (Ar (fins (mix c1 c2 v1 v2))).
Proof. exact regression_mix. Qed.
Print Assumptions C72_predictions.
(* [moved phi k th0 f f']: the samples of f' have k times the value in f plus the curve th0 *)
Theorem C72_units : forall m phi k th0 f f' E E' freq freq' s s' a a' u u' d d', regression m phi -> length th0 = fm_n m ->
  moved phi k th0 f f' -> finite_rows f -> finite_rows f' -> minimizes E m f a -> minimizes E' m f' a' ->
  fit_model E m f freq s a u = Ok d -> md_fit d = true -> fit_model E' m f' freq' s' a' u' = Ok d' -> md_fit d' = true ->
  exists th th' c, md_params d = fins th /\ md_params d' = fins th' /\ length th = fm_n m /\ length th' = fm_n m /\
    (forall r, In r (usable_rows f') -> (rdot th' (coef phi r) = k * rdot th (coef phi r) + rdot th0 (coef phi r))%R) /\
    md_cost d = Fin c /\ md_cost d' = Fin (k * k * c) /\
    (determined m phi f' -> th' = mix k 1 th th0).
Proof. exact moved_fit. Qed.
Print Assumptions C72_units.
(* ... and the score moves by n ln k^2 whatever the model, so that the order of the models stays *)
Theorem C72_score : forall m phi k th0 f f' E E' freq freq' s s' a a' u u' d d', regression m phi -> length th0 = fm_n m ->
  moved phi k th0 f f' -> finite_rows f -> finite_rows f' -> minimizes E m f a -> minimizes E' m f' a' ->
  fit_model E m f freq s a u = Ok d -> md_fit d = true -> fit_model E' m f' freq' s' a' u' = Ok d' -> md_fit d' = true ->
  k <> 0%R -> md_cost d <> Fin 0 ->
  exists v, md_aicc d = Fin v /\ md_aicc d' = Fin (v + INR (length (usable_rows f)) * ln (k * k)).
Proof. exact moved_score. Qed.
Print Assumptions C72_score.
Theorem C72_regressions :
  regression model_constant (fun _ _ => [1%R]) /\ regression model_linear (fun x _ => [x; 1%R]) /\
  regression model_season_wday (fun _ t => wday_phi t) /\
  regression model_season_month (fun _ t => month_phi t) /\ regression model_season_month_old (fun _ t => month_phi t) /\
  regression model_season_fourier_yearly (fun _ t => fourier_phi t) /\
  (forall t0, regression (get_model_step_date t0) (fun _ t => [if Z_lt_dec t t0 then 0%R else 1%R])) /\
  (forall t0 t1, regression (get_model_spike_date t0 t1) (fun _ t => [if Z_lt_dec t t0 then 0%R else if Z_lt_dec t t1 then 1%R else 0%R])) /\
  forall m1 m2 phi1 phi2, regression m1 phi1 -> regression m2 phi2 -> apart m1 m2 -> regression (madd m1 m2) (fun x t => phi1 x t ++ phi2 x t).
Proof.
  split; [exact regression_constant|]. split; [exact regression_linear_trend|]. split; [exact regression_wday|]. split; [exact regression_month|]. split; [exact regression_month_old|].
  split; [exact regression_fourier|]. split; [exact regression_step_date|]. split; [exact regression_spike_date|]. exact regression_madd.
Qed.
Print Assumptions C72_regressions.
Theorem C72_determined : forall f,
  (two_positions f -> determined model_linear (fun x _ => [x; 1%R]) f) /\
  (full_week f -> determined (madd model_linear model_season_wday) (fun x t => [x; 1%R] ++ wday_phi t) f).
Proof. intros f. split; [apply line_determined|apply week_determined]. Qed.
Print Assumptions C72_determined.

(* an optimizer that answers a line *)
Definition line_loss (f : frame XR) a b : R := loss [a; b] (samples f (fun r => [x_in r; 1%R])).
Definition line_env (f : frame XR) (a b : R) : env XR := ex_env [LRaise ValueError; LRaise ValueError; LDone true (Fin (line_loss f a b / 2)) [Fin a; Fin b]].
Lemma line_env_minimizes f a b : finite_rows f -> normal [a; b] (samples f (fun r => [x_in r; 1%R])) -> minimizes (line_env f a b) model_linear f None.
Proof.
  intros Fr Nm cache g bd c x F K. cbn in K. destruct g as [|g1 [|g2 [|g3 g]]]; cbn in K; try discriminate; [|now destruct g as [|? g]]. injection K as <- <-.
  assert (Fa : forall th, length th = 2%nat -> F (fins th) = Ok (fins (map (fun s => Rabs (err th s * s_w s)) (samples f (fun r => [x_in r; 1%R]))))).
  { intros th L. apply (residuals_linear model_linear f None _ th cache (rows_fitted _ _ Fr)). exact (linear_is_linear f None th L). }
  exists [a; b]. eexists. split; [reflexivity|]. split; [reflexivity|]. split; [exact (Fa [a; b] eq_refl)|]. split.
  - rewrite ssq_loss. reflexivity.
  - intros th' rs' _ K. assert (L : length th' = 2%nat).
    { destruct th' as [|u [|v [|w th']]]; try reflexivity; exfalso; cbn in K; unfold get_residuals, call in K; cbn in K; discriminate. }
    rewrite (Fa _ L) in K. injection K as K. apply fins_inj in K. subst rs'. rewrite !ssq_loss. now apply (normal_minimum [a; b]).
Qed.

(* 2 * (1, 0, 0, 1) + (0, 0, 0, 2) = (2, 0, 0, 4) *)
Definition c72_1 : frame XR := daily false [(1, 1); (0, 1); (0, 1); (1, 1)]%R.
Definition c72_2 : frame XR := daily false [(0, 1); (0, 1); (0, 1); (2, 1)]%R.
Definition c72_3 : frame XR := daily false [(2, 1); (0, 1); (0, 1); (4, 1)]%R.
Lemma c72_mixture : mixture 2 1 c72_1 c72_2 c72_3.
Proof.
  unfold mixture. do 5 (split; [reflexivity|]). split; [repeat constructor; discriminate|]. split; [repeat constructor; discriminate|].
  cbn. repeat (f_equal; try lra).
Qed.
Lemma c72_finite : finite_rows c72_1 /\ finite_rows c72_2 /\ finite_rows c72_3.
Proof. unfold finite_rows. cbn. repeat split; repeat constructor. Qed.
Ltac c72_normal := intros de L; destruct (two_params de L) as (u & v & ->); unfold samples, share, count_x, err, rdot, x_in; cbn; lra.
Lemma c72_normals : normal [0; 1 / 2]%R (samples c72_1 (fun r => [x_in r; 1%R])) /\ normal [3 / 5; - 2 / 5]%R (samples c72_2 (fun r => [x_in r; 1%R])) /\
  normal [3 / 5; 3 / 5]%R (samples c72_3 (fun r => [x_in r; 1%R])).
Proof. split; [|split]; c72_normal. Qed.
Lemma line_fits f a b : length (usable_rows f) = 4%nat -> finite_rows f -> map r_x (usable_rows f) = [0; 1; 2; 3]%Z ->
  exists d, fit_model (line_env f a b) model_linear f (Some "D") "s" None true = Ok d /\ md_fit d = true.
Proof.
  intros L Fr X. destruct (tree_admissible (line_env f a b) (Leaf model_linear) f) as (g & bd & A & Lg).
  - apply ex_draws.
  - eapply Forall_impl; [|exact Fr]. intros r K. apply K.
  - rewrite X. repeat constructor.
  - rewrite L. lia.
  - discriminate.
  - constructor; [|constructor]. left. right. now left.
  - pose proof (fit_completes (line_env f a b) model_linear f (Some "D") "s" None true g bd []) as R.
    assert (Eg : e_lsq (line_env f a b) (fun p => get_residuals (Some p) model_linear (xs_of model_linear f) (ys_of f) (dates_of f) (ws_of f) None []) g bd
                 = LDone true (Fin (line_loss f a b / 2)) [Fin a; Fin b]).
    { cbn. cbn in Lg. now rewrite Lg. }
    rewrite Eg in R. destruct R as (d & E & K & _); [..|eauto].
    + cbn. lia.
    + rewrite L. cbn. lia.
    + reflexivity.
    + apply unbounded_unpinned. intros x y d. now exists false.
    + exact A.
    + reflexivity.
    + exists (line_loss f a b / 2)%R. split; [reflexivity|]. pose proof (loss_nonneg [a; b] (samples f (fun r => [x_in r; 1%R]))). unfold line_loss. lra.
Qed.
Example C72_example : exists d1 d2 d3,
  fit_model (line_env c72_1 0 (1 / 2)) model_linear c72_1 (Some "D") "s" None true = Ok d1 /\ md_fit d1 = true /\
  fit_model (line_env c72_2 (3 / 5) (- 2 / 5)) model_linear c72_2 (Some "D") "s" None true = Ok d2 /\ md_fit d2 = true /\
  fit_model (line_env c72_3 (3 / 5) (3 / 5)) model_linear c72_3 (Some "D") "s" None true = Ok d3 /\ md_fit d3 = true /\
  minimizes (line_env c72_1 0 (1 / 2)) model_linear c72_1 None /\ minimizes (line_env c72_2 (3 / 5) (- 2 / 5)) model_linear c72_2 None /\
  minimizes (line_env c72_3 (3 / 5) (3 / 5)) model_linear c72_3 None /\ determined model_linear (fun x _ => [x; 1%R]) c72_3 /\
  exists th1 th2, md_params d1 = fins th1 /\ md_params d2 = fins th2 /\ md_params d3 = fins (mix 2 1 th1 th2).
Proof.
  destruct c72_finite as (F1 & F2 & F3). destruct c72_normals as (N1 & N2 & N3).
  destruct (line_fits c72_1 0 (1 / 2)%R eq_refl F1 eq_refl) as (d1 & E1 & K1). destruct (line_fits c72_2 (3 / 5)%R (- 2 / 5)%R eq_refl F2 eq_refl) as (d2 & E2 & K2).
  destruct (line_fits c72_3 (3 / 5)%R (3 / 5)%R eq_refl F3 eq_refl) as (d3 & E3 & K3). exists d1, d2, d3. do 6 (split; [assumption|]).
  pose proof (line_env_minimizes c72_1 _ _ F1 N1) as M1. pose proof (line_env_minimizes c72_2 _ _ F2 N2) as M2. pose proof (line_env_minimizes c72_3 _ _ F3 N3) as M3.
  do 3 (split; [assumption|]).
  assert (D : determined model_linear (fun x _ => [x; 1%R]) c72_3).
  { apply C72_determined. eexists _, _. split; [left; reflexivity|]. split; [right; left; reflexivity|]. discriminate. }
  split; [exact D|].
  destruct (C72_superposition _ _ _ _ _ _ _ _ _ _ _ _ _ _ _ _ _ _ _ _ _ _ _ _ _ (proj1 (proj2 C72_regressions)) c72_mixture F1 F2 F3 M1 M2 M3 E1 K1 E2 K2 E3 K3)
    as (th1 & th2 & th & P1 & P2 & P3 & _ & _ & _ & _ & Q).
  exists th1, th2. split; [exact P1|]. split; [exact P2|]. rewrite P3, (Q D). reflexivity.
Qed.
(* a line plus a constant is a regression that no samples determine *)
Example C72_undetermined : regression (madd model_linear model_constant) (fun x _ => [x; 1; 1]%R) /\
  forall f, ~ determined (madd model_linear model_constant) (fun x _ => [x; 1; 1]%R) f.
Proof.
  split; [exact (regression_madd_plain _ _ _ _ (or_introl sturdy_linear) regression_linear_trend regression_constant)|]. intros f D.
  specialize (D [0; 1; -1]%R eq_refl). assert (K : [0; 1; -1]%R = [0; 0; 0]%R); [|injection K; lra].
  apply D. intros r _. unfold coef, rdot. cbn. lra.
Qed.
