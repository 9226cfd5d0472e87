(* Fits with some parameters fixed: C96. *)
From Coq Require Import ZArith String List Bool Reals Sorted Permutation Lia Lra.
From Verif Require Import Num Py Cal Fmt Model Base Naive Freq Normalize Fixed Fit Interp Select Outliers Pi Forecast.
From Verif Require Import ListProofs NumProofs ModelProofs BaseProofs FixedProofs SeasonProofs GuessProofs FitProofs AicProofs StatsProofs LsqProofs RobustProofs TotalProofs UniqueProofs RepeatProofs FixFitProofs Ex Properties11 Properties13.
Import ListNotations.
Local Open Scope string_scope.
Local Open Scope list_scope.
Local Open Scope R_scope.

(* ================= C96 ================= *)
(* [numbers fixed]: every entry is a number or null; [agrees fixed th]: th has the numbers of fixed at
   their places; [fill fixed p]: the nulls of fixed replaced by p.  A model with some parameters fixed is
   fitted as the best among the curves of the original model with these parameters. *)
Theorem C96_constrained : forall fmt m phi m' fixed f E freq src act uc d, regression m phi -> fix_params_fmodel fmt m fixed = Ok m' -> numbers fixed -> (0 < n_free fixed)%nat ->
  has_date f = true -> finite_rows f -> minimizes E m' f act -> fit_model E m' f freq src act uc = Ok d -> md_fit d = true ->
  exists th, fill fixed (md_params d) = fins th /\ length th = fm_n m /\ agrees fixed th /\ length (md_params d) = n_free fixed /\
    md_cost d = Fin (loss th (samples f (coef phi)) / 2) /\
    forall th', agrees fixed th' -> loss th (samples f (coef phi)) <= loss th' (samples f (coef phi)).
Proof. exact fixed_fit. Qed.
Print Assumptions C96_constrained.
(* Beside the fit of the original model: the cost is not smaller; it is the same if the parameters are
   fixed at their fitted values, and then so are the fitted values and, where the samples determine them,
   the other parameters. *)
Theorem C96_at_fit : forall fmt m phi m' fixed f E E' freq freq' s s' a a' u u' d d', regression m phi -> fix_params_fmodel fmt m fixed = Ok m' -> numbers fixed -> (0 < n_free fixed)%nat ->
  has_date f = true -> finite_rows f -> minimizes E m f a -> minimizes E' m' f a' ->
  fit_model E m f freq s a u = Ok d -> md_fit d = true -> fit_model E' m' f freq' s' a' u' = Ok d' -> md_fit d' = true ->
  exists th th' c c', md_params d = fins th /\ fill fixed (md_params d') = fins th' /\ md_cost d = Fin c /\ md_cost d' = Fin c' /\ c <= c' /\
    (agrees fixed th -> c' = c) /\
    (c' = c -> forall r, In r (usable_rows f) -> rdot th' (coef phi r) = rdot th (coef phi r)) /\
    (c' = c -> determined m phi f -> th' = th).
Proof. exact fixed_and_free. Qed.
Print Assumptions C96_at_fit.
(* Fixed parameters are not counted: fixing some at their fitted values improves the score although the
   curve is the same. *)
Theorem C96_score : forall fmt m phi m' fixed f E E' freq freq' s s' a a' u u' d d' th, regression m phi -> fix_params_fmodel fmt m fixed = Ok m' -> (0 < n_free fixed < fm_n m)%nat ->
  has_date f = true -> finite_rows f -> minimizes E m f a -> minimizes E' m' f a' ->
  fit_model E m f freq s a u = Ok d -> md_fit d = true -> fit_model E' m' f freq' s' a' u' = Ok d' -> md_fit d' = true ->
  md_params d = fins th -> agrees fixed th -> md_cost d <> Fin 0 ->
  exists v v', md_aicc d = Fin v /\ md_aicc d' = Fin v' /\ v' < v.
Proof. exact fixed_score. Qed.
Print Assumptions C96_score.

(* ---- examples ---- *)
(* values 0, 0, 6, 6 on four days; a line with its intercept fixed at the fitted value - 3 / 5 *)
Definition c96_frame : frame XR := daily false [(0, 1); (0, 1); (6, 1); (6, 1)].
Definition c96_fixed : list XR := [XNaN; Fin (- 3 / 5)].
Definition c96_fmt (l : list XR) : string := "[: -0.6]".
Definition c96_model : fmodel XR := match fix_params_fmodel c96_fmt model_linear c96_fixed with Ok m => m | Err _ => model_linear end.
Lemma c96_ok : fix_params_fmodel c96_fmt model_linear c96_fixed = Ok c96_model.
Proof. reflexivity. Qed.
Definition c96_phi : R -> Z -> list R := fun x _ => [x; 1].
Lemma c96_finite : finite_rows c96_frame.
Proof. unfold finite_rows. cbn. repeat constructor. Qed.
Lemma c96_normal : normal [12 / 5; - 3 / 5] (samples c96_frame (coef c96_phi)).
Proof. intros de L. destruct (two_params de L) as (u & v & ->). unfold samples, share, count_x, err, rdot, coef, c96_phi, x_in. cbn. lra. Qed.
Lemma c96_loss : loss [12 / 5; - 3 / 5] (samples c96_frame (coef c96_phi)) = 36 / 5.
Proof. unfold loss, samples, share, count_x, err, rdot, coef, c96_phi, x_in. cbn. lra. Qed.
Definition c96_env : env XR := ex_env [LRaise ValueError; LDone true (Fin (18 / 5)) [Fin (12 / 5)]].
Lemma c96_minimizes : minimizes c96_env c96_model c96_frame None.
Proof.
  intros cache g bd c x F K. cbn in K. destruct g as [|g1 [|g2 g]]; cbn in K; try discriminate; [|now destruct g]. injection K as <- <-.
  assert (Fa : forall q, F (fins [q]) = Ok (fins (map (fun s => Rabs (err [q; - 3 / 5] s * s_w s)) (samples c96_frame (coef c96_phi))))).
  { intros q. apply (fixed_residuals c96_fmt model_linear c96_phi c96_model c96_fixed c96_frame None cache [q] [q; - 3 / 5] regression_linear_trend c96_ok eq_refl c96_finite);
      [discriminate|reflexivity|reflexivity|reflexivity]. }
  exists [12 / 5]. eexists. split; [reflexivity|]. split; [reflexivity|]. split; [exact (Fa (12 / 5))|]. split.
  - rewrite ssq_loss, c96_loss. f_equal. lra.
  - intros th' rs' _ K. assert (L : length th' = 1%nat).
    { destruct th' as [|u [|v th']]; try reflexivity; exfalso; cbn in K; unfold get_residuals, call in K; cbn in K; discriminate. }
    destruct (one_param th' L) as (q & ->). rewrite Fa in K. apply ok_inj, fins_inj in K. subst rs'. rewrite !ssq_loss. now apply (normal_minimum [12 / 5; - 3 / 5] _ c96_normal).
Qed.
Lemma c96_fits : exists d, fit_model c96_env c96_model c96_frame (Some "D") "s" None true = Ok d /\ md_fit d = true.
Proof.
  destruct (tree_admissible c96_env (Leaf model_linear) c96_frame) as (g & b & (Eg & Eb & Ev) & Lg).
  - apply ex_draws.
  - eapply Forall_impl; [|exact c96_finite]. intros r K. apply K.
  - cbn. repeat constructor.
  - cbn. lia.
  - discriminate.
  - constructor; [|constructor]. left. right. now left.
  - change (build (Leaf model_linear)) with (model_linear (T := XR)) in *. destruct g as [|g0 [|g1 [|]]]; try discriminate Lg.
    cbn in Eb. apply ok_inj in Eb. subst b.
    assert (Xs : xs_of c96_model c96_frame = xs_of model_linear c96_frame) by (rewrite !xs_unscaled by reflexivity; reflexivity).
    assert (Eg' : fm_init c96_model (Some (xs_of c96_model c96_frame)) (Some (ys_of c96_frame)) None false (e_rnd c96_env) = Ok [g0]).
    { rewrite Xs, (fixed_guess c96_fmt model_linear c96_model c96_fixed (Some (xs_of model_linear c96_frame)) _ _ _ _ [g0; g1] c96_ok ltac:(rewrite xs_unscaled by reflexivity; reflexivity) Eg eq_refl). reflexivity. }
    pose proof (fit_completes c96_env c96_model c96_frame (Some "D") "s" None true [g0] (mkBounds [XNInf] [XPInf] true) []) as Fc.
    destruct Fc as (d & Ed & Fd & _); [cbn; lia|cbn; lia|reflexivity| | |reflexivity| |eauto].
    + apply unbounded_unpinned. exact (fixed_unbounded c96_fmt model_linear c96_model c96_fixed c96_ok (rg_free _ _ regression_linear_trend)).
    + split; [exact Eg'|]. split; [reflexivity|]. apply validate_iff. apply validate_iff in Ev. destruct Ev as (_ & _ & Ev). split; [reflexivity|]. split; [reflexivity|].
      intros [|i] v lo hi I1 I2 I3; [|destruct i; discriminate]. exact (Ev 0%nat v lo hi I1 I2 I3).
    + exists (18 / 5). split; [reflexivity|lra].
Qed.
Example C96_example : exists d d' v v',
  fit_model (line_env c96_frame (12 / 5) (- 3 / 5)) model_linear c96_frame (Some "D") "s" None true = Ok d /\ md_fit d = true /\
  fit_model c96_env c96_model c96_frame (Some "D") "s" None true = Ok d' /\ md_fit d' = true /\
  minimizes (line_env c96_frame (12 / 5) (- 3 / 5)) model_linear c96_frame None /\ minimizes c96_env c96_model c96_frame None /\
  determined model_linear c96_phi c96_frame /\ md_params d = fins [12 / 5; - 3 / 5] /\ agrees c96_fixed [12 / 5; - 3 / 5] /\ (0 < n_free c96_fixed < fm_n (model_linear (T := XR)))%nat /\
  md_params d' = fins [12 / 5] /\ md_cost d = Fin (18 / 5) /\ md_cost d' = Fin (18 / 5) /\ md_aicc d = Fin v /\ md_aicc d' = Fin v' /\ v' < v.
Proof.
  destruct (line_fits c96_frame (12 / 5) (- 3 / 5) eq_refl c96_finite eq_refl) as (d & Ed & Fd). destruct c96_fits as (d' & Ed' & Fd').
  pose proof (line_env_minimizes c96_frame _ _ c96_finite c96_normal) as Mn. pose proof c96_minimizes as Mn'.
  assert (Dt : determined model_linear c96_phi c96_frame).
  { apply C72_determined. eexists _, _. split; [left; reflexivity|]. split; [right; left; reflexivity|]. discriminate. }
  assert (Ag : agrees c96_fixed [12 / 5; - 3 / 5]) by (repeat constructor).
  destruct (regression_fit _ model_linear c96_phi c96_frame _ _ _ _ _ regression_linear_trend eq_refl c96_finite Mn Ed Fd) as (th & P & L & C & M & Nm).
  assert (th = [12 / 5; - 3 / 5]) as ->.
  { apply (predictions_params model_linear c96_phi c96_frame [12 / 5; - 3 / 5] th eq_refl L Dt). intros r I.
    refine (normal_unique [12 / 5; - 3 / 5] th _ ltac:(rewrite L; reflexivity) c96_normal Nm (mkS (coef c96_phi r) (real (r_y r)) (share c96_frame r)) _ _); cbn [s_w].
    - unfold samples. apply in_map_iff. eauto.
    - pose proof (share_pos c96_frame r c96_finite I). lra. }
  assert (C0 : md_cost d = Fin (18 / 5)) by (rewrite C, c96_loss; f_equal; lra).
  destruct (C96_at_fit c96_fmt model_linear c96_phi c96_model c96_fixed c96_frame _ _ _ _ _ _ _ _ _ _ d d' regression_linear_trend c96_ok (agrees_numbers _ _ Ag) ltac:(cbn; lia)
              eq_refl c96_finite Mn Mn' Ed Fd Ed' Fd') as (th & th' & c & c' & P1 & P' & C1 & C' & _ & K & _ & Q).
  rewrite P in P1. apply fins_inj in P1. subst th. specialize (K Ag). subst c'. specialize (Q eq_refl Dt). subst th'. rewrite C0 in C1. injection C1 as <-.
  destruct (C96_score c96_fmt model_linear c96_phi c96_model c96_fixed c96_frame _ _ _ _ _ _ _ _ _ _ d d' _ regression_linear_trend c96_ok ltac:(cbn; lia)
              eq_refl c96_finite Mn Mn' Ed Fd Ed' Fd' P Ag) as (v & v' & V & V' & Lt).
  { rewrite C0. intros K'. injection K'. lra. }
  exists d, d', v, v'. do 9 (split; [assumption|]). split; [cbn; lia|]. split; [|do 4 (split; [assumption|])]; [|exact Lt].
  destruct (C96_constrained c96_fmt model_linear c96_phi c96_model c96_fixed c96_frame _ _ _ _ _ d' regression_linear_trend c96_ok (agrees_numbers _ _ Ag) ltac:(cbn; lia) eq_refl c96_finite Mn' Ed' Fd')
    as (_ & _ & _ & _ & L' & _).
  destruct (md_params d') as [|a [|]]; try discriminate L'. cbn in P'. exact (f_equal (fun l => [hd a l]) P').
Qed.
