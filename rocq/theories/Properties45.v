(* Samples on the fitted curve and forecasts that come true: C97. *)
From Coq Require Import ZArith QArith_base String List Bool Reals Sorted Permutation Lia Lra.
From Verif Require Import Num Py Cal Fmt Model Base Naive Freq Normalize Fixed Fit Interp Select Outliers Pi Forecast.
From Verif Require Import ListProofs NumProofs ModelProofs BaseProofs FixedProofs SeasonProofs GuessProofs FitProofs AicProofs StatsProofs LsqProofs RobustProofs TotalProofs UniqueProofs RepeatProofs ExistProofs ConfirmProofs Ex Properties11 Properties13 Properties18.
Import ListNotations.
Local Open Scope string_scope.
Local Open Scope list_scope.
Local Open Scope R_scope.

(* ================= C97 ================= *)
(* [extended f extra f']: f' has the samples of f and, at other positions, the samples extra, in any order;
   [on_curve phi th extra]: the values of extra are those of the curve with parameters th.
   Further samples on the fitted curve change neither the cost nor the fitted values nor, where the samples
   determine them, the parameters. *)
Theorem C97_confirmed : forall m phi f f' extra E E' freq freq' s s' a a' u u' d d', regression m phi -> extended f extra f' ->
  has_date f = true -> has_date f' = true -> finite_rows f' -> minimizes E m f a -> minimizes E' m f' a' ->
  fit_model E m f freq s a u = Ok d -> md_fit d = true -> fit_model E' m f' freq' s' a' u' = Ok d' -> md_fit d' = true ->
  forall th, md_params d = fins th -> on_curve phi th extra ->
    md_cost d' = md_cost d /\ (exists th', md_params d' = fins th' /\ forall r, In r (usable_rows f') -> rdot th' (coef phi r) = rdot th (coef phi r)) /\
    (determined m phi f' -> md_params d' = md_params d).
Proof. exact confirmed_fit. Qed.
Print Assumptions C97_confirmed.
(* Samples that lie on the fitted curve can be taken away. *)
Theorem C97_dropped : forall m phi f f' extra E E' freq freq' s s' a a' u u' d d', regression m phi -> extended f extra f' ->
  has_date f = true -> has_date f' = true -> finite_rows f' -> minimizes E m f a -> minimizes E' m f' a' ->
  fit_model E m f freq s a u = Ok d -> md_fit d = true -> fit_model E' m f' freq' s' a' u' = Ok d' -> md_fit d' = true ->
  forall th', md_params d' = fins th' -> on_curve phi th' extra ->
    md_cost d = md_cost d' /\ (exists th, md_params d = fins th /\ forall r, In r (usable_rows f) -> rdot th (coef phi r) = rdot th' (coef phi r)) /\
    (determined m phi f -> md_params d = md_params d').
Proof. exact without_fitted. Qed.
Print Assumptions C97_dropped.
(* The values of a forecast that came true lie on the fitted curve.
   [come_true st x0 l extra]: the forecast l from date st at position x0 has the values of extra at their dates. *)
Theorem C97_forecast : forall m phi th st sp freq years x0 act l extra, regression m phi -> length th = fm_n m ->
  extrapolate_model m (Some (fins th)) (ODate st sp) freq years x0 act = Ok l -> come_true st x0 l extra -> on_curve phi th extra.
Proof. exact come_true_on_curve. Qed.
Print Assumptions C97_forecast.
(* The score becomes that of the same cost shared among more samples. *)
Theorem C97_score : forall m phi (f f' : frame XR) extra E E' freq freq' s s' a a' u u' (d d' : meta XR) th c,
  regression m phi -> extended f extra f' -> has_date f = true -> has_date f' = true -> finite_rows f' -> minimizes E m f a -> minimizes E' m f' a' ->
  fit_model E m f freq s a u = Ok d -> md_fit d = true -> fit_model E' m f' freq' s' a' u' = Ok d' -> md_fit d' = true ->
  md_params d = fins th -> on_curve phi th extra -> md_cost d = Fin c -> 0 < c ->
  md_aicc d = Fin (aicc c (INR (length (usable_rows f))) (INR (fm_n m))) /\
  md_aicc d' = Fin (aicc c (INR (length (usable_rows f) + length extra)) (INR (fm_n m))).
Proof. exact confirmed_score. Qed.
Print Assumptions C97_score.

(* ---- examples ---- *)
(* values 0, 0, 6, 6 on four days, fitted by the line 12 / 5 x - 3 / 5; the fifth day is forecast as 9 *)
Definition c97_frame : frame XR := daily false [(0, 1); (0, 1); (6, 1); (6, 1)].
Definition c97_next : row XR := mkRow (ts 2018 1 5) "s" 4 (Fin 9) (Fin 1).
Definition c97_frame' : frame XR := daily false [(0, 1); (0, 1); (6, 1); (6, 1); (9, 1)].
Definition c97_env : env XR := ideal c78_rnd (fun _ => "[..]") (fun _ => "#").
Definition c97_phi : R -> Z -> list R := fun x _ => [x; 1].
Lemma c97_finite : finite_rows c97_frame'.
Proof. unfold finite_rows. cbn. repeat constructor. Qed.
Lemma c97_extended : extended c97_frame [c97_next] c97_frame'.
Proof.
  split; [reflexivity|]. split; [apply Permutation_refl|]. intros a b Ia Ib. cbn in Ia, Ib. destruct Ib as [<-|[]].
  destruct Ia as [<-|[<-|[<-|[<-|[]]]]]; discriminate.
Qed.
Lemma c97_determined : determined model_linear c97_phi c97_frame /\ determined model_linear c97_phi c97_frame'.
Proof. split; (apply C72_determined; eexists _, _; split; [left; reflexivity|]; split; [right; left; reflexivity|]; discriminate). Qed.
Lemma c97_normal : normal [12 / 5; - 3 / 5] (samples c97_frame (coef c97_phi)).
Proof. intros de L. destruct (two_params de L) as (u & v & ->). unfold samples, share, count_x, err, rdot, coef, c97_phi, x_in. cbn. lra. Qed.
Lemma c97_draws : draws c78_rnd.
Proof. intros i. exists (1 / 2). split; [reflexivity|lra]. Qed.
Example C97_example : exists d d' l,
  fit_model c97_env model_linear c97_frame (Some "D") "s" None true = Ok d /\ md_fit d = true /\
  fit_model c97_env model_linear c97_frame' (Some "D") "s" None true = Ok d' /\ md_fit d' = true /\
  minimizes c97_env model_linear c97_frame None /\ minimizes c97_env model_linear c97_frame' None /\
  md_params d = fins [12 / 5; - 3 / 5] /\ extrapolate_model model_linear (Some (md_params d)) (ODate (ts 2018 1 1) (ts 2018 1 4)) (Some "D") (1 # 365)%Q 0 None = Ok l /\
  come_true (ts 2018 1 1) 0 l [c97_next] /\ on_curve c97_phi [12 / 5; - 3 / 5] [c97_next] /\
  md_params d' = md_params d /\ md_cost d' = md_cost d /\ md_cost d = Fin (18 / 5) /\
  md_aicc d = Fin (aicc (18 / 5) 4 2) /\ md_aicc d' = Fin (aicc (18 / 5) 5 2).
Proof.
  pose proof (finite_left _ _ _ c97_extended c97_finite) as F0. destruct c97_determined as [D0 D1].
  destruct (ideal_fit c78_rnd (fun _ => "[..]") (fun _ => "#") model_linear c97_phi c97_frame (Some "D") "s" None true c97_draws regression_linear_trend eq_refl F0) as (d & Ed & Fd & _);
    [unfold increasing_x; cbn; repeat constructor|cbn; lia|reflexivity|].
  destruct (ideal_fit c78_rnd (fun _ => "[..]") (fun _ => "#") model_linear c97_phi c97_frame' (Some "D") "s" None true c97_draws regression_linear_trend eq_refl c97_finite) as (d' & Ed' & Fd' & _);
    [unfold increasing_x; cbn; repeat constructor|cbn; lia|reflexivity|].
  pose proof (ideal_minimizes c78_rnd (fun _ => "[..]") (fun _ => "#") model_linear c97_frame None) as Mn.
  pose proof (ideal_minimizes c78_rnd (fun _ => "[..]") (fun _ => "#") model_linear c97_frame' None) as Mn'.
  destruct (regression_fit _ model_linear c97_phi c97_frame _ _ _ _ _ regression_linear_trend eq_refl F0 Mn Ed Fd) as (th & P & L & C & M & Nm).
  assert (th = [12 / 5; - 3 / 5]) as ->.
  { apply (predictions_params model_linear c97_phi c97_frame [12 / 5; - 3 / 5] th eq_refl L D0). intros r I.
    refine (normal_unique [12 / 5; - 3 / 5] th _ ltac:(rewrite L; reflexivity) c97_normal Nm (mkS (coef c97_phi r) (real (r_y r)) (share c97_frame r)) _ _); cbn [s_w].
    - unfold samples. apply in_map_iff. eauto.
    - pose proof (share_pos c97_frame r F0 I). lra. }
  assert (Cd : md_cost d = Fin (18 / 5)).
  { rewrite C. f_equal. unfold loss, samples, share, count_x, err, rdot, coef, c97_phi, x_in. cbn. lra. }
  assert (Ho : exists l, extrapolate_model model_linear (Some (md_params d)) (ODate (ts 2018 1 1) (ts 2018 1 4)) (Some "D") (1 # 365)%Q 0 None = Ok l /\ In (ts 2018 1 5, Fin 9) l).
  { rewrite P. unfold extrapolate_model. cbn [s_x_extrapolate]. unfold s_x_dates.
    change (grid_freq (ts 2018 1 1) (Some "D")) with (Ok (A := string) "D"). cbn [rbind].
    assert (Ee : forecast_end (ts 2018 1 4) "D" (1 # 365) = Ok (ts 2018 1 5)) by (vm_compute; reflexivity). rewrite Ee. cbn [rbind].
    assert (Er : date_range (ts 2018 1 1) (ts 2018 1 5) "D" = Ok [ts 2018 1 1; ts 2018 1 2; ts 2018 1 3; ts 2018 1 4; ts 2018 1 5]) by (vm_compute; reflexivity).
    rewrite Er. cbn [rbind]. eexists. split; [reflexivity|]. do 4 right. left. f_equal. cbn. f_equal. lra. }
  destruct Ho as (l & El & Il). exists d, d', l. do 8 (split; [assumption|]).
  assert (Ct : come_true (ts 2018 1 1) 0 l [c97_next]).
  { intros r [<-|[]]. split; [exact Il|vm_compute; reflexivity]. }
  rewrite P in El. pose proof (C97_forecast model_linear c97_phi [12 / 5; - 3 / 5] _ _ _ _ _ _ _ _ regression_linear_trend eq_refl El Ct) as Oc.
  split; [exact Ct|]. split; [exact Oc|].
  destruct (C97_confirmed model_linear c97_phi c97_frame c97_frame' _ _ _ _ _ _ _ _ _ _ _ _ _ regression_linear_trend c97_extended eq_refl eq_refl c97_finite Mn Mn' Ed Fd Ed' Fd' _ P Oc) as (Ec & _ & Ep).
  split; [exact (Ep D1)|]. split; [exact Ec|]. split; [exact Cd|].
  destruct (C97_score model_linear c97_phi c97_frame c97_frame' _ _ _ _ _ _ _ _ _ _ _ _ _ _ _ regression_linear_trend c97_extended eq_refl eq_refl c97_finite Mn Mn' Ed Fd Ed' Fd' P Oc Cd ltac:(lra)) as (S1 & S2).
  rewrite S1, S2. cbn. split; repeat (f_equal; try lra).
Qed.
