(* How fits react to changed values: C98. *)
From Coq Require Import ZArith String List Bool Reals Sorted Permutation Lia Lra.
From Verif Require Import Num Py Cal Fmt Model Base Naive Freq Normalize Fixed Fit Interp Select Outliers Pi Forecast.
From Verif Require Import ListProofs NumProofs ModelProofs BaseProofs FixedProofs SeasonProofs GuessProofs FitProofs AicProofs StatsProofs LsqProofs RobustProofs TotalProofs UniqueProofs RepeatProofs StableProofs Ex Properties11 Properties13.
Import ListNotations.
Local Open Scope string_scope.
Local Open Scope list_scope.
Local Open Scope R_scope.

(* ================= C98 ================= *)
(* [revalued f f']: the same samples with other values; [both f f']: the samples before and after;
   [size f f' g]: the sum of the squares of the change g, weighted as in the fit.
   The change of the values splits into the changes of the fitted values and of the residuals, as the sides
   of a right triangle: neither is larger than the change of the values. *)
Theorem C98_stable : forall m phi f f' E E' freq freq' s s' a a' u u' d d', regression m phi -> revalued f f' ->
  has_date f = true -> has_date f' = true -> finite_rows f -> finite_rows f' -> minimizes E m f a -> minimizes E' m f' a' ->
  fit_model E m f freq s a u = Ok d -> md_fit d = true -> fit_model E' m f' freq' s' a' u' = Ok d' -> md_fit d' = true ->
  exists th th', md_params d = fins th /\ md_params d' = fins th' /\
    size f f' value_change = size f f' (fitted_change phi th th') + size f f' (residual_change phi th th') /\
    0 <= size f f' (fitted_change phi th th') <= size f f' value_change /\ 0 <= size f f' (residual_change phi th th') <= size f f' value_change /\
    forall p, In p (both f f') -> (share f (fst p) * fitted_change phi th th' p) ^ 2 <= size f f' value_change.
Proof. exact stable_fit. Qed.
Print Assumptions C98_stable.
(* The roots of the costs, which are half sums of squares, differ by no more than the values. *)
Theorem C98_cost : forall m phi f f' E E' freq freq' s s' a a' u u' d d', regression m phi -> revalued f f' ->
  has_date f = true -> has_date f' = true -> finite_rows f -> finite_rows f' -> minimizes E m f a -> minimizes E' m f' a' ->
  fit_model E m f freq s a u = Ok d -> md_fit d = true -> fit_model E' m f' freq' s' a' u' = Ok d' -> md_fit d' = true ->
  exists c c', md_cost d = Fin c /\ md_cost d' = Fin c' /\ 0 <= c /\ 0 <= c' /\ (sqrt (2 * c') - sqrt (2 * c)) ^ 2 <= size f f' value_change.
Proof. exact stable_cost. Qed.
Print Assumptions C98_cost.
(* If one value changes, the fitted value there moves in the same direction and by no more. *)
Theorem C98_one_value : forall m phi f f' E E' freq freq' s s' a a' u u' d d', regression m phi -> revalued f f' ->
  has_date f = true -> has_date f' = true -> finite_rows f -> finite_rows f' -> minimizes E m f a -> minimizes E' m f' a' ->
  fit_model E m f freq s a u = Ok d -> md_fit d = true -> fit_model E' m f' freq' s' a' u' = Ok d' -> md_fit d' = true ->
  forall l1 p0 l2, both f f' = l1 ++ p0 :: l2 -> (forall p, In p (l1 ++ l2) -> value_change p = 0) ->
  exists th th', md_params d = fins th /\ md_params d' = fins th' /\
    exists k, 0 <= k <= 1 /\ fitted_change phi th th' p0 = k * value_change p0.
Proof. exact one_value. Qed.
Print Assumptions C98_one_value.

(* ---- examples ---- *)
(* the last of the values 0, 0, 6, 6 rises by 10: the line rises by 7 there *)
Definition c98_before : frame XR := daily false [(0, 1); (0, 1); (6, 1); (6, 1)].
Definition c98_after : frame XR := daily false [(0, 1); (0, 1); (6, 1); (16, 1)].
Definition c98_phi : R -> Z -> list R := fun x _ => [x; 1].
Definition c98_row : row XR := mkRow 0 "" 0 XNaN XNaN.
Lemma c98_revalued : revalued c98_before c98_after.
Proof. split; [reflexivity|]. cbn. repeat constructor; discriminate. Qed.
Lemma c98_finite : finite_rows c98_before /\ finite_rows c98_after.
Proof. split; unfold finite_rows; cbn; repeat constructor. Qed.
Lemma c98_normal : normal [12 / 5; - 3 / 5] (samples c98_before (coef c98_phi)) /\ normal [27 / 5; - 13 / 5] (samples c98_after (coef c98_phi)).
Proof. split; intros de L; destruct (two_params de L) as (u & v & ->); unfold samples, share, count_x, err, rdot, coef, c98_phi, x_in; cbn; lra. Qed.
Lemma c98_params f a b d : has_date f = true -> finite_rows f -> normal [a; b] (samples f (coef c98_phi)) -> determined model_linear c98_phi f ->
  fit_model (line_env f a b) model_linear f (Some "D") "s" None true = Ok d -> md_fit d = true -> md_params d = fins [a; b].
Proof.
  intros Hd Fr N0 Dt Ed Fd.
  destruct (regression_fit _ model_linear c98_phi f _ _ _ _ _ regression_linear_trend Hd Fr (line_env_minimizes f _ _ Fr N0) Ed Fd) as (th & P & L & C & M & Nm).
  rewrite P. f_equal. apply (predictions_params model_linear c98_phi f [a; b] th eq_refl L Dt). intros r I.
  refine (normal_unique [a; b] th _ ltac:(rewrite L; reflexivity) N0 Nm (mkS (coef c98_phi r) (real (r_y r)) (share f r)) _ _); cbn [s_w].
  - unfold samples. apply in_map_iff. eauto.
  - pose proof (share_pos f r Fr I). lra.
Qed.
Example C98_example : exists d d' th th' l1 p0,
  fit_model (line_env c98_before (12 / 5) (- 3 / 5)) model_linear c98_before (Some "D") "s" None true = Ok d /\ md_fit d = true /\
  fit_model (line_env c98_after (27 / 5) (- 13 / 5)) model_linear c98_after (Some "D") "s" None true = Ok d' /\ md_fit d' = true /\
  minimizes (line_env c98_before (12 / 5) (- 3 / 5)) model_linear c98_before None /\ minimizes (line_env c98_after (27 / 5) (- 13 / 5)) model_linear c98_after None /\
  md_params d = fins th /\ md_params d' = fins th' /\ both c98_before c98_after = l1 ++ [p0] /\ (forall p, In p (l1 ++ []) -> value_change p = 0) /\
  value_change p0 = 10 /\ fitted_change c98_phi th th' p0 = 7 /\
  size c98_before c98_after value_change = 100 /\ size c98_before c98_after (fitted_change c98_phi th th') = 70 /\ size c98_before c98_after (residual_change c98_phi th th') = 30.
Proof.
  destruct c98_finite as [F0 F1]. destruct c98_normal as [N0 N1].
  destruct (line_fits c98_before (12 / 5) (- 3 / 5) eq_refl F0 eq_refl) as (d & Ed & Fd). destruct (line_fits c98_after (27 / 5) (- 13 / 5) eq_refl F1 eq_refl) as (d' & Ed' & Fd').
  assert (D0 : determined model_linear c98_phi c98_before) by (apply C72_determined; eexists _, _; split; [left; reflexivity|]; split; [right; left; reflexivity|]; discriminate).
  assert (D1 : determined model_linear c98_phi c98_after) by (apply C72_determined; eexists _, _; split; [left; reflexivity|]; split; [right; left; reflexivity|]; discriminate).
  pose proof (c98_params c98_before _ _ d eq_refl F0 N0 D0 Ed Fd) as P0. pose proof (c98_params c98_after _ _ d' eq_refl F1 N1 D1 Ed' Fd') as P1.
  exists d, d', [12 / 5; - 3 / 5], [27 / 5; - 13 / 5], (firstn 3 (both c98_before c98_after)), (nth 3 (both c98_before c98_after) (c98_row, c98_row)).
  do 4 (split; [assumption|]). split; [exact (line_env_minimizes _ _ _ F0 N0)|]. split; [exact (line_env_minimizes _ _ _ F1 N1)|]. split; [exact P0|]. split; [exact P1|].
  split; [reflexivity|]. split.
  { intros p I. cbn in I. unfold value_change. destruct I as [<-|[<-|[<-|[]]]]; cbn; lra. }
  unfold size, residual_change, fitted_change, value_change, share, count_x, coef, c98_phi, rdot, x_in. cbn. repeat split; lra.
Qed.
