(* Fits with some parameters fixed: proofs for C96. *)
From Coq Require Import ZArith String List Bool Lia Reals Lra.
From Verif Require Import Num Py Cal Fmt Model Base Fixed Naive Freq Aic Normalize Fit Interp Select Stats Outliers Pi Forecast.
From Verif Require Import NumProofs ListProofs StringProofs ModelProofs BaseProofs GuessProofs FixedProofs FitProofs SeasonProofs CacheProofs StatsProofs LsqProofs TotalProofs AicProofs UniqueProofs RepeatProofs.
From Verif Require ExistProofs.
Import ListNotations.
Local Open Scope string_scope.
Local Open Scope list_scope.
Local Open Scope R_scope.

(* ---- specification ---- *)
(* every entry is a number or null, a parameter to fit *)
Definition numbers (fixed : list XR) : Prop := Forall (fun v => v = XNaN \/ exists r, v = Fin r) fixed.
(* the parameters have the fixed values *)
Definition agrees (fixed : list XR) (th : list R) : Prop := Forall2 (fun v t => v = XNaN \/ v = Fin t) fixed th.

Lemma free_count fixed : n_free (XNaN :: fixed) = S (n_free fixed).
Proof. reflexivity. Qed.
Lemma fixed_count r fixed : n_free (Fin r :: fixed) = n_free fixed.
Proof. reflexivity. Qed.
Lemma filled fixed : numbers fixed -> forall p, length p = n_free fixed -> exists th, fill fixed (fins p) = fins th /\ length th = length fixed /\ agrees fixed th.
Proof.
  induction 1 as [|v l [->|(r & ->)] _ IH]; intros p L.
  - exists []. repeat split. constructor.
  - rewrite free_count in L. destruct p as [|a p]; [discriminate|]. destruct (IH p) as (th & E & Lt & A); [cbn in L; lia|].
    exists (a :: th). cbn. change (map Fin p) with (fins p). rewrite E. repeat split; [now rewrite Lt|]. constructor; auto.
  - rewrite fixed_count in L. destruct (IH p L) as (th & E & Lt & A). exists (r :: th). cbn. rewrite E. repeat split; [now rewrite Lt|]. constructor; auto.
Qed.
Lemma unfilled fixed th : agrees fixed th -> exists p, length p = n_free fixed /\ fill fixed (fins p) = fins th.
Proof.
  induction 1 as [|v t l th [->| ->] _ (p & L & E)].
  - exists []. auto.
  - exists (t :: p). split; [rewrite free_count; cbn; lia|]. cbn. change (map Fin p) with (fins p). now rewrite E.
  - exists p. split; [now rewrite fixed_count|]. cbn. now rewrite E.
Qed.
Lemma agrees_numbers fixed th : agrees fixed th -> numbers fixed.
Proof. unfold numbers. induction 1 as [|v t l th [->| ->] _ IH]; constructor; eauto. Qed.
Lemma pick_repeat (a : XR) fixed : pick fixed (repeat a (length fixed)) = repeat a (n_free fixed).
Proof.
  induction fixed as [|v l IH]; [reflexivity|]. cbn [length repeat pick]. unfold n_free in *. cbn [filter].
  destruct (nisnan v); cbn [length repeat]; now rewrite IH.
Qed.
Lemma fixed_unscaled s t : requires_scaling (s ++ "_fixed_" ++ t) = false.
Proof.
  unfold requires_scaling. apply orb_false_iff. split; apply String.eqb_neq; intros E;
    repeat (destruct s as [|? s]; cbn in E; [discriminate|injection E as _ E]); destruct s; discriminate E.
Qed.
Lemma fixed_unbounded fmt m m' fixed : fix_params_fmodel fmt m fixed = Ok m' -> unbounded m -> unbounded m'.
Proof.
  intros E U x y d. destruct (U x y d) as (nd & B). destruct (fix_ok _ _ _ _ E) as (L & Nn & _). exists true.
  rewrite (fixed_bounds fmt m m' fixed x y d _ E B) by (cbn; apply repeat_length). cbn [b_lo b_hi]. now rewrite <- L, !pick_repeat, Nn.
Qed.

(* what a successful fit of a model without bounds is *)
Lemma unbounded_fit E m f freq src act uc d : minimizes E m f act -> (0 < fm_n m)%nat -> unbounded m ->
  fit_model E m f freq src act uc = Ok d -> md_fit d = true ->
  exists cache th rs, let F := fun p => get_residuals (Some p) m (xs_of m f) (ys_of f) (dates_of f) (ws_of f) act cache in
    md_params d = fins th /\ length th = fm_n m /\ F (fins th) = Ok (fins rs) /\ md_cost d = Fin (ssq rs / 2) /\
    forall th' rs', length th' = fm_n m -> F (fins th') = Ok (fins rs') -> ssq rs <= ssq rs'.
Proof.
  intros Mn Np U Ef Fd. destruct (fit_status_cases zero_lt_XR _ _ _ _ _ _ _ _ _ Ef) as (_ & St & Iv & Ff & _).
  pose proof (proj2 Ff Fd) as S'. rewrite S' in St, Iv.
  assert (Hl : (fm_n m + 2 <= length (usable_rows f))%nat).
  { destruct (Nat.lt_ge_cases (length (usable_rows f)) (fm_n m + 2)) as [C|C]; [|exact C]. apply St in C. discriminate. }
  assert (Hv : validate_input m (xs_of m f) (ys_of f) (dates_of f) = Ok true).
  { destruct (validate_input m (xs_of m f) (ys_of f) (dates_of f)) as [[|]|e] eqn:Ev; [reflexivity| |].
    - assert (C : "FIT" = "INPUT_ERR") by (apply Iv; auto). discriminate.
    - unfold fit_model in Ef. rewrite (fit_validation_error zero_lt_XR _ _ _ _ _ _ _ _ _ Hl Ev) in Ef. discriminate. }
  destruct (fit_valid zero_lt_XR _ _ _ _ _ _ _ _ _ Hl Hv Ef) as (ms & Es & _ & _ & K).
  rewrite (unbounded_simplify E m f U) in Es. injection Es as <-.
  destruct (Nat.eqb_spec (fm_n m) 0) as [C|_]; [lia|]. destruct K as (cost & p & Eo & Ec & _ & Ep). rewrite Fd in Eo.
  unfold optimize_least_squares in Eo.
  destruct (fm_init m _ _ _ _ _) as [g|]; [|discriminate]. cbn [rbind] in Eo.
  destruct (U (Some (xs_of m f)) (Some (ys_of f)) None) as [nd Eb]. rewrite Eb in Eo. cbn [rbind] in Eo.
  destruct (validate_initial_guess g _) as [[|]|] eqn:Eg; cbn [rbind negb] in Eo; try discriminate.
  apply validate_iff in Eg. destruct Eg as [Lg _]. cbn [b_lo] in Lg. rewrite repeat_length in Lg.
  destruct (if uc then init_cache m (xs_of m f) (dates_of f) else Ok []) as [cache|] eqn:Eca; [|discriminate]. cbn [rbind] in Eo.
  match type of Eo with match ?e with _ => _ end = _ => destruct e as [s c x|e'] eqn:Eq' end; [|destruct e'; discriminate].
  injection Eo as -> <- <-. destruct (Mn cache g _ c x Eq') as (th & rs & -> & Lt & Er & -> & Min). rewrite Lg in Lt.
  exists cache, th, rs. cbv zeta. split; [now rewrite Ep|]. split; [exact Lt|]. split; [exact Er|]. split; [exact Ec|].
  intros th' rs' L' E'. apply (Min th'); [now apply unbounded_within|exact E'].
Qed.

Lemma fixed_residuals fmt m phi m' fixed f act cache q th : regression m phi -> fix_params_fmodel fmt m fixed = Ok m' -> has_date f = true -> finite_rows f ->
  usable_rows f <> [] -> length q = n_free fixed -> fill fixed (fins q) = fins th -> length th = fm_n m ->
  get_residuals (Some (fins q)) m' (xs_of m' f) (ys_of f) (dates_of f) (ws_of f) act cache = Ok (fins (map (fun s => Rabs (err th s * s_w s)) (samples f (coef phi)))).
Proof.
  intros Rg Ex Hd Fr Ne Lq Eq Lt. destruct (fix_ok _ _ _ _ Ex) as (Lf & Nn & Nm & _).
  assert (Xs : xs_of m' f = xs_of m f) by (rewrite (xs_unscaled m f (rg_scale _ _ Rg)); apply xs_unscaled; rewrite Nm; apply fixed_unscaled).
  unfold get_residuals. rewrite (fixed_prediction fmt m m' fixed _ _ _ _ _ Ex) by (unfold fins; now rewrite map_length).
  rewrite Eq, Xs. exact (residuals_linear m f None _ th [] (rows_fitted f (coef phi) Fr) (regression_linear m phi f None Rg Hd Ne th Lt)).
Qed.
(* the best among the parameters with the fixed values *)
Theorem fixed_fit fmt m phi m' fixed f E freq src act uc d : regression m phi -> fix_params_fmodel fmt m fixed = Ok m' -> numbers fixed -> (0 < n_free fixed)%nat ->
  has_date f = true -> finite_rows f -> minimizes E m' f act -> fit_model E m' f freq src act uc = Ok d -> md_fit d = true ->
  exists th, fill fixed (md_params d) = fins th /\ length th = fm_n m /\ agrees fixed th /\ length (md_params d) = n_free fixed /\
    md_cost d = Fin (loss th (samples f (coef phi)) / 2) /\
    forall th', agrees fixed th' -> loss th (samples f (coef phi)) <= loss th' (samples f (coef phi)).
Proof.
  intros Rg Ex Nb Np Hd Fr Mn Ef Fd. destruct (fix_ok _ _ _ _ Ex) as (Lf & Nn & Nm & _).
  destruct (fit_score _ _ _ _ _ _ _ _ Ef Fd) as [_ Ll].
  assert (Ne : usable_rows f <> []) by (destruct (usable_rows f); [cbn in Ll; lia|discriminate]).
  destruct (unbounded_fit E m' f freq src act uc d Mn ltac:(lia) (fixed_unbounded _ _ _ _ Ex (rg_free _ _ Rg)) Ef Fd) as (cache & p & rs & Ep & Lp & Er & Ec & Min).
  rewrite Nn in Lp, Min.
  assert (Res := fun q th => fixed_residuals fmt m phi m' fixed f act cache q th Rg Ex Hd Fr Ne).
  destruct (filled fixed Nb p Lp) as (th & Et & Lt & Ag). rewrite Lf in Lt. rewrite (Res p th Lp Et Lt) in Er. injection Er as Er. apply fins_inj in Er. subst rs.
  exists th. rewrite Ep. split; [exact Et|]. split; [exact Lt|]. split; [exact Ag|]. split; [unfold fins; now rewrite map_length|].
  split; [rewrite Ec; now rewrite ssq_loss|].
  intros th' Ag'. destruct (unfilled _ _ Ag') as (q & Lq & Eq). rewrite <- !ssq_loss. apply (Min q); [exact Lq|]. apply Res; [exact Lq|exact Eq|].
  rewrite <- Lf. symmetry. clear - Ag'; induction Ag'; cbn; congruence.
Qed.
(* Fixing parameters never improves the fit; at their fitted values it keeps cost and predictions. *)
Theorem fixed_and_free fmt m phi m' fixed f E E' freq freq' s s' a a' u u' d d' : regression m phi -> fix_params_fmodel fmt m fixed = Ok m' -> numbers fixed -> (0 < n_free fixed)%nat ->
  has_date f = true -> finite_rows f -> minimizes E m f a -> minimizes E' m' f a' ->
  fit_model E m f freq s a u = Ok d -> md_fit d = true -> fit_model E' m' f freq' s' a' u' = Ok d' -> md_fit d' = true ->
  exists th th' c c', md_params d = fins th /\ fill fixed (md_params d') = fins th' /\ md_cost d = Fin c /\ md_cost d' = Fin c' /\ c <= c' /\
    (agrees fixed th -> c' = c) /\
    (c' = c -> forall r, In r (usable_rows f) -> rdot th' (coef phi r) = rdot th (coef phi r)) /\
    (c' = c -> determined m phi f -> th' = th).
Proof.
  intros Rg Ex Nb Np Hd Fr Mn Mn' Ef Fd Ef' Fd'.
  destruct (regression_fit E m phi f _ _ _ _ _ Rg Hd Fr Mn Ef Fd) as (th & P & L & C & M & Nm).
  destruct (fixed_fit fmt m phi m' fixed f E' _ _ _ _ _ Rg Ex Nb Np Hd Fr Mn' Ef' Fd') as (th' & P' & L' & Ag & _ & C' & M').
  exists th, th', (loss th (samples f (coef phi)) / 2), (loss th' (samples f (coef phi)) / 2). do 4 (split; [assumption|]).
  pose proof (M th' L') as Le. split; [lra|]. split; [intros A; specialize (M' th A); lra|].
  assert (V : loss th' (samples f (coef phi)) / 2 = loss th (samples f (coef phi)) / 2 -> forall r, In r (usable_rows f) -> rdot th' (coef phi r) = rdot th (coef phi r)).
  { intros Eq r I. assert (N' : normal th' (samples f (coef phi))).
    { intros de Ld. apply minimum_gradient; [|exact Ld]. intros q Lq. specialize (M q ltac:(lia)). lra. }
    refine (normal_unique th th' _ ltac:(lia) Nm N' (mkS (coef phi r) (real (r_y r)) (share f r)) _ _); cbn [s_w].
    - unfold samples. apply in_map_iff. eauto.
    - pose proof (share_pos f r Fr I). lra. }
  split; [exact V|]. intros Eq Dt. exact (predictions_params m phi f th th' L L' Dt (V Eq)).
Qed.
(* fixed at the fitted values, a model is scored better: the fixed parameters are not counted *)
Theorem fixed_score fmt m phi m' fixed f E E' freq freq' s s' a a' u u' d d' th : regression m phi -> fix_params_fmodel fmt m fixed = Ok m' -> (0 < n_free fixed < fm_n m)%nat ->
  has_date f = true -> finite_rows f -> minimizes E m f a -> minimizes E' m' f a' ->
  fit_model E m f freq s a u = Ok d -> md_fit d = true -> fit_model E' m' f freq' s' a' u' = Ok d' -> md_fit d' = true ->
  md_params d = fins th -> agrees fixed th -> md_cost d <> Fin 0 ->
  exists v v', md_aicc d = Fin v /\ md_aicc d' = Fin v' /\ v' < v.
Proof.
  intros Rg Ex Np Hd Fr Mn Mn' Ef Fd Ef' Fd' P Ag Nz.
  destruct (fixed_and_free fmt m phi m' fixed f E E' _ _ _ _ _ _ _ _ _ _ Rg Ex (agrees_numbers _ _ Ag) ltac:(lia) Hd Fr Mn Mn' Ef Fd Ef' Fd') as (th0 & th' & c & c' & P0 & _ & C & C' & _ & K & _).
  rewrite P in P0. apply fins_inj in P0. subst th0. specialize (K Ag). subst c'.
  destruct (regression_fit E m phi f _ _ _ _ _ Rg Hd Fr Mn Ef Fd) as (th1 & _ & _ & C1 & _). rewrite C in C1. injection C1 as C1.
  pose proof (loss_nonneg th1 (samples f (coef phi))) as Nn. assert (Cp : 0 < c) by (destruct (Req_dec c 0) as [->|]; [contradiction|lra]).
  destruct (fit_score _ _ _ _ _ _ _ _ Ef Fd) as [S1 L1]. destruct (fit_score _ _ _ _ _ _ _ _ Ef' Fd') as [S2 L2].
  rewrite C in S1. rewrite C' in S2. rewrite score_pos in S1 by (try lia; lra). rewrite score_pos in S2 by (try lia; lra).
  injection S1 as S1. injection S2 as S2. rewrite <- S1, <- S2. do 2 eexists. split; [reflexivity|]. split; [reflexivity|].
  destruct (fix_ok _ _ _ _ Ex) as (_ & -> & _). apply aicc_mono_k; [split; [apply IZR_le|apply IZR_lt]; lia|]. rewrite <- plus_IZR. apply IZR_lt. lia.
Qed.
