(* Models that contain other models: C95. *)
From Coq Require Import ZArith String List Bool Reals Sorted Permutation Lia Lra QArith_base.
From Verif Require Import Num Py Cal Fmt Model Base Naive Freq Normalize Aic Fixed Fit Interp Stats Select Outliers Pi Forecast.
From Verif Require Import ListProofs NumProofs ModelProofs BaseProofs FixedProofs SeasonProofs GuessProofs FitProofs AicProofs StatsProofs ForecastProofs ForecastProofs2 MetaProofs LsqProofs TotalProofs TotalProofs2 TotalProofs3 UniqueProofs ExistProofs ExactProofs RepeatProofs NestProofs Ex Properties7 Properties11 Properties13 Properties18.
Import ListNotations.
Local Open Scope string_scope.
Local Open Scope list_scope.
Local Open Scope R_scope.

(* ================= C95 ================= *)
(* [contained m phi m' phi']: every curve of the regression m is a curve of the regression m'.  A sum
   contains its components. *)
Theorem C95_sums : forall m1 m2 phi1 phi2, regression m1 phi1 -> regression m2 phi2 ->
  let phi12 := fun x t => phi1 x t ++ phi2 x t in
  contained m1 phi1 (madd m1 m2) phi12 /\ contained m2 phi2 (madd m1 m2) phi12 /\
  contained (madd m1 m2) phi12 (madd m2 m1) (fun x t => phi2 x t ++ phi1 x t) /\ fm_n (madd m1 m2) = (fm_n m1 + fm_n m2)%nat.
Proof.
  intros m1 m2 phi1 phi2 A B. cbv zeta. split; [now apply contained_left|]. split; [now apply contained_right|]. split; [now apply contained_swap|].
  now apply (sum_n _ _ phi1 phi2).
Qed.
Print Assumptions C95_sums.
(* the larger model is never fitted worse *)
Theorem C95_cost : forall m phi m' phi' f E E' freq freq' s s' a a' u u' d d', regression m phi -> regression m' phi' -> contained m phi m' phi' ->
  has_date f = true -> finite_rows f -> minimizes E m f a -> minimizes E' m' f a' ->
  fit_model E m f freq s a u = Ok d -> md_fit d = true -> fit_model E' m' f freq' s' a' u' = Ok d' -> md_fit d' = true ->
  exists c c', md_cost d = Fin c /\ md_cost d' = Fin c' /\ 0 <= c' <= c.
Proof. exact contained_cost. Qed.
Print Assumptions C95_cost.
(* Its score changes by what its further parameters cost less n times the logarithm of the ratio of the
   costs, n the number of samples: it is better exactly when the second exceeds the first. *)
Theorem C95_choice : forall m phi m' phi' f E E' freq freq' s s' a a' u u' d d', regression m phi -> regression m' phi' -> contained m phi m' phi' ->
  has_date f = true -> finite_rows f -> minimizes E m f a -> minimizes E' m' f a' ->
  fit_model E m f freq s a u = Ok d -> md_fit d = true -> fit_model E' m' f freq' s' a' u' = Ok d' -> md_fit d' = true ->
  forall c c', md_cost d = Fin c -> md_cost d' = Fin c' -> 0 < c' ->
  exists v v', md_aicc d = Fin v /\ md_aicc d' = Fin v' /\
    let n := INR (length (usable_rows f)) in
    v' - v = penalty n (INR (fm_n m')) - penalty n (INR (fm_n m)) - n * ln (c / c').
Proof. exact contained_choice. Qed.
Print Assumptions C95_choice.
(* a model with the same curves and more parameters is scored worse, unless the fit is exact *)
Theorem C95_redundant : forall m phi m' phi' f E E' freq freq' s s' a a' u u' d d', regression m phi -> regression m' phi' ->
  contained m phi m' phi' -> contained m' phi' m phi -> (fm_n m < fm_n m')%nat -> has_date f = true -> finite_rows f -> minimizes E m f a -> minimizes E' m' f a' ->
  fit_model E m f freq s a u = Ok d -> md_fit d = true -> fit_model E' m' f freq' s' a' u' = Ok d' -> md_fit d' = true -> md_cost d <> Fin 0 ->
  exists v v', md_aicc d = Fin v /\ md_aicc d' = Fin v' /\ v < v'.
Proof. exact redundant_score. Qed.
Print Assumptions C95_redundant.
(* the order of the components of a sum does not change cost, score or fitted values *)
Theorem C95_order : forall m1 m2 phi1 phi2 f E E' freq freq' s s' a a' u u' d d', regression m1 phi1 -> regression m2 phi2 -> apart m1 m2 -> apart m2 m1 ->
  has_date f = true -> finite_rows f -> minimizes E (madd m1 m2) f a -> minimizes E' (madd m2 m1) f a' ->
  fit_model E (madd m1 m2) f freq s a u = Ok d -> md_fit d = true -> fit_model E' (madd m2 m1) f freq' s' a' u' = Ok d' -> md_fit d' = true ->
  md_cost d' = md_cost d /\ md_aicc d' = md_aicc d /\
  exists th th', md_params d = fins th /\ md_params d' = fins th' /\
    forall r, In r (usable_rows f) -> rdot th' (coef phi2 r ++ coef phi1 r) = rdot th (coef phi1 r ++ coef phi2 r).
Proof. exact swapped_fit. Qed.
Print Assumptions C95_order.
(* Among the candidates of a forecast: [price] is what the further parameters cost, [gain] what the fit
   gains.  [alone r d]: no other row of the metadata has the name and source_long of d, so that the
   best-fit flag on d is its own.  A chosen larger model has paid its price; a chosen smaller one shows
   that the larger one had not. *)
Theorem C95_chosen : forall (W : world XR) c source f r, sorts W -> (forall m g a, minimizes (w_env W) m g a) ->
  run_forecast_single W (ForecastProofs.set_all true c) source f = Ok r ->
  exists f1 mode (es : list (@entry XR)), prepared c f = Ok f1 /\ final_mode W c (with_weights f1) = Ok mode /\ rs_meta r = map en_meta es /\
    map en_model es = all_models c mode (detect_freq_frame f) (fst (candidate_lists c (with_weights f1))) (snd (candidate_lists c (with_weights f1))) /\
    forall e e' phi phi', In e es -> In e' es -> regression (en_model e) phi -> regression (en_model e') phi' -> contained (en_model e) phi (en_model e') phi' ->
      has_date (to_fit f1) = true -> finite_rows (to_fit f1) -> md_fit (m_meta (en_meta e)) = true -> md_fit (m_meta (en_meta e')) = true ->
      exists k k', md_cost (m_meta (en_meta e)) = Fin k /\ md_cost (m_meta (en_meta e')) = Fin k' /\ 0 <= k' <= k /\
        let n := INR (length (usable_rows (to_fit f1))) in
        let gain := n * ln (k / k') in
        let price := penalty n (INR (fm_n (en_model e'))) - penalty n (INR (fm_n (en_model e))) in
        (0 < k' -> m_best (en_meta e') = true -> alone r (en_meta e') -> price <= gain) /\
        (0 < k' -> m_best (en_meta e) = true -> alone r (en_meta e) -> gain <= price).
Proof. exact contained_chosen. Qed.
Print Assumptions C95_chosen.

(* ---- examples ---- *)
Example C95_line : contained model_constant (fun _ _ => [1]) model_linear (fun x _ => [x; 1]).
Proof. exact constant_in_line. Qed.
(* values 0, 0, 6, 6 on four days: a constant has the cost 18, a line 18/5 *)
Definition c95_row (i : Z) (y : R) : row XR := mkRow (ts 2018 1 (1 + i)) "s" i (Fin y) (Fin 1).
Definition c95_frame : frame XR := mkFrame true false false [c95_row 0 0; c95_row 1 0; c95_row 2 6; c95_row 3 6].
Definition c95_env : env XR := ideal c78_rnd (fun _ => "[..]") (fun _ => "#").
Lemma c95_usable : usable_rows (to_fit c95_frame) = rows c95_frame.
Proof.
  unfold usable_rows, to_fit, with_weights, positive, c95_frame, usable. cbn. destruct (Rltb_spec 0 1); [|lra]. cbn. destruct (Rltb_spec 0 1); [reflexivity|lra].
Qed.
Lemma c95_finite : finite_rows (to_fit c95_frame).
Proof. unfold finite_rows. rewrite c95_usable. cbn. repeat constructor; cbn; eauto. Qed.
Lemma c95_draws : draws c78_rnd.
Proof. intros i. exists (1 / 2). split; [reflexivity|lra]. Qed.
Lemma c95_fits m phi freq src act uc : regression m phi -> (fm_n m <= 2)%nat -> (forall xs ys ds, accepts m xs ys ds) ->
  exists d, fit_model c95_env m (to_fit c95_frame) freq src act uc = Ok d /\ md_fit d = true.
Proof.
  intros Rg L Ac. destruct (ideal_fit c78_rnd (fun _ => "[..]") (fun _ => "#") m phi (to_fit c95_frame) freq src act uc) as (d & Ed & Fd & _).
  - exact c95_draws.
  - exact Rg.
  - reflexivity.
  - exact c95_finite.
  - unfold increasing_x. rewrite c95_usable. cbn. repeat constructor.
  - rewrite c95_usable. cbn. lia.
  - apply Ac.
  - eauto.
Qed.
Lemma c95_samples phi : samples (to_fit c95_frame) (coef phi) =
  [mkS (phi 0 (ts 2018 1 1)) 0 1; mkS (phi 1 (ts 2018 1 2)) 0 1; mkS (phi 2 (ts 2018 1 3)) 6 1; mkS (phi 3 (ts 2018 1 4)) 6 1].
Proof.
  unfold samples, share. rewrite c95_usable. unfold coef, x_in, count_x. cbn. repeat (f_equal; try field).
Qed.
Lemma c95_cost m phi th0 l freq src act uc d : regression m phi -> length th0 = fm_n m -> normal th0 (samples (to_fit c95_frame) (coef phi)) ->
  loss th0 (samples (to_fit c95_frame) (coef phi)) = 2 * l ->
  fit_model c95_env m (to_fit c95_frame) freq src act uc = Ok d -> md_fit d = true -> md_cost d = Fin l.
Proof.
  intros Rg L0 Nm Lo Ef Fd. destruct (regression_fit c95_env m phi (to_fit c95_frame) _ _ _ _ _ Rg eq_refl c95_finite (ideal_minimizes _ _ _ _ _ _) Ef Fd) as (th & P & L & C & M & _).
  rewrite C. f_equal. pose proof (M th0 L0) as K. pose proof (normal_minimum th0 _ Nm th ltac:(lia)) as K'. lra.
Qed.
Lemma c95_constant freq src act uc d : fit_model c95_env model_constant (to_fit c95_frame) freq src act uc = Ok d -> md_fit d = true -> md_cost d = Fin 18.
Proof.
  apply (c95_cost model_constant (fun _ _ => [1]) [3]); [apply regression_constant|reflexivity| |]; rewrite c95_samples.
  - intros de L. destruct (one_param de L) as (u & ->). unfold err, rdot. cbn. lra.
  - unfold loss, err, rdot. cbn. lra.
Qed.
Lemma c95_linear freq src act uc d : fit_model c95_env model_linear (to_fit c95_frame) freq src act uc = Ok d -> md_fit d = true -> md_cost d = Fin (18 / 5).
Proof.
  apply (c95_cost model_linear (fun x _ => [x; 1]) [12 / 5; - 3 / 5]); [apply regression_linear_trend|reflexivity| |]; rewrite c95_samples.
  - intros de L. destruct (two_params de L) as (u & v & ->). unfold err, rdot. cbn. lra.
  - unfold loss, err, rdot. cbn. lra.
Qed.
Lemma ln5_small : ln (18 / (18 / 5)) < 3.
Proof.
  replace (18 / (18 / 5)) with 5 by field. rewrite <- (ln_exp 3). apply ln_increasing; [lra|].
  assert (2 < exp 1) by (pose proof (exp_ineq1 1 ltac:(lra)); lra). replace 3 with (1 + 1 + 1) by lra. rewrite !exp_plus. nra.
Qed.
Lemma c95_price : penalty 4 2 - penalty 4 1 = 12.
Proof. unfold penalty. field. Qed.
(* the line does not pay for its slope: 4 ln 5 < 12 *)
Example C95_choice_example : exists d d' v v', fit_model c95_env model_constant (to_fit c95_frame) (Some "D") "s" None true = Ok d /\ md_fit d = true /\
  fit_model c95_env model_linear (to_fit c95_frame) (Some "D") "s" None true = Ok d' /\ md_fit d' = true /\
  md_cost d = Fin 18 /\ md_cost d' = Fin (18 / 5) /\ md_aicc d = Fin v /\ md_aicc d' = Fin v' /\ v < v'.
Proof.
  destruct (c95_fits model_constant (fun _ _ => [1]) (Some "D") "s" None true regression_constant ltac:(cbn; lia) ltac:(reflexivity)) as (d & Ed & Fd).
  destruct (c95_fits model_linear (fun x _ => [x; 1]) (Some "D") "s" None true regression_linear_trend ltac:(cbn; lia) ltac:(reflexivity)) as (d' & Ed' & Fd').
  pose proof (c95_constant _ _ _ _ _ Ed Fd) as C. pose proof (c95_linear _ _ _ _ _ Ed' Fd') as C'.
  destruct (C95_choice _ _ _ _ (to_fit c95_frame) c95_env c95_env _ _ _ _ _ _ _ _ _ _ regression_constant regression_linear_trend constant_in_line eq_refl c95_finite
              (ideal_minimizes _ _ _ _ _ _) (ideal_minimizes _ _ _ _ _ _) Ed Fd Ed' Fd' 18 (18 / 5) C C' ltac:(lra)) as (v & v' & V & V' & D).
  exists d, d', v, v'. do 8 (split; [assumption|]). rewrite c95_usable in D. pose proof ln5_small as K. pose proof c95_price as P.
  change (INR (length (rows c95_frame))) with (INR 4) in D. change (fm_n model_linear) with 2%nat in D. change (fm_n model_constant) with 1%nat in D.
  replace (INR 4) with 4 in D by (cbn; lra). replace (INR 2) with 2 in D by (cbn; lra). replace (INR 1) with 1 in D by reflexivity. lra.
Qed.
(* two constants instead of one *)
Lemma c95_two : regression (madd model_constant model_constant) (fun _ _ => [1; 1]).
Proof. exact (regression_madd_plain _ _ _ _ (or_introl sturdy_constant) regression_constant regression_constant). Qed.
Lemma c95_two_in_one : contained (madd model_constant model_constant) (fun _ _ => [1; 1]) model_constant (fun _ _ => [1]).
Proof. intros th L. destruct (two_params th L) as (u & v & ->). exists [u + v]. split; [reflexivity|]. intros _ _. unfold rdot. cbn. ring. Qed.
Example C95_redundant_example : exists d d' v v', fit_model c95_env model_constant (to_fit c95_frame) (Some "D") "s" None true = Ok d /\ md_fit d = true /\
  fit_model c95_env (madd model_constant model_constant) (to_fit c95_frame) (Some "D") "s" None true = Ok d' /\ md_fit d' = true /\
  md_aicc d = Fin v /\ md_aicc d' = Fin v' /\ v < v'.
Proof.
  destruct (c95_fits model_constant (fun _ _ => [1]) (Some "D") "s" None true regression_constant ltac:(cbn; lia) ltac:(reflexivity)) as (d & Ed & Fd).
  destruct (c95_fits _ _ (Some "D") "s" None true c95_two ltac:(cbn; lia) ltac:(reflexivity)) as (d' & Ed' & Fd').
  destruct (C95_redundant _ _ _ _ (to_fit c95_frame) c95_env c95_env _ _ _ _ _ _ _ _ _ _ regression_constant c95_two
              (proj1 (C95_sums _ _ _ _ regression_constant regression_constant)) c95_two_in_one ltac:(cbn; lia) eq_refl c95_finite
              (ideal_minimizes _ _ _ _ _ _) (ideal_minimizes _ _ _ _ _ _) Ed Fd Ed' Fd') as (v & v' & V & V' & D).
  - rewrite (c95_constant _ _ _ _ _ Ed Fd). intros K. injection K. lra.
  - exists d, d', v, v'. auto 10.
Qed.
(* a line plus a constant, in both orders *)
Definition c95_five : frame XR := mkFrame true false true [c95_row 0 0; c95_row 1 0; c95_row 2 6; c95_row 3 6; c95_row 4 0].
Lemma c95_five_usable : usable_rows c95_five = rows c95_five.
Proof. unfold usable_rows, c95_five, usable. cbn. destruct (Rltb_spec 0 1); [reflexivity|lra]. Qed.
Example C95_order_example : let lc := madd model_linear model_constant in let cl := madd model_constant model_linear in
  apart model_linear model_constant /\ apart model_constant model_linear /\
  exists d d', fit_model c95_env lc c95_five (Some "D") "s" None true = Ok d /\ md_fit d = true /\
    fit_model c95_env cl c95_five (Some "D") "s" None true = Ok d' /\ md_fit d' = true /\ md_cost d' = md_cost d /\ md_aicc d' = md_aicc d.
Proof.
  cbv zeta. destruct (apart_plain model_linear model_constant _ sturdy_linear regression_constant) as [A1 A2]. split; [exact A1|]. split; [exact A2|].
  assert (Fr : finite_rows c95_five) by (unfold finite_rows; rewrite c95_five_usable; cbn; repeat constructor; cbn; eauto).
  assert (Fit : forall m phi, regression m phi -> fm_n m = 3%nat -> (forall xs ys ds, accepts m xs ys ds) ->
                exists d, fit_model c95_env m c95_five (Some "D") "s" None true = Ok d /\ md_fit d = true).
  { intros m phi Rg L Ac. destruct (ideal_fit c78_rnd (fun _ => "[..]") (fun _ => "#") m phi c95_five (Some "D") "s" None true c95_draws Rg eq_refl Fr) as (d & Ed & Fd & _).
    - unfold increasing_x. rewrite c95_five_usable. cbn. repeat constructor.
    - rewrite c95_five_usable, L. cbn. lia.
    - apply Ac.
    - eauto. }
  destruct (Fit _ _ (regression_madd _ _ _ _ regression_linear_trend regression_constant A1) eq_refl ltac:(reflexivity)) as (d & Ed & Fd).
  destruct (Fit _ _ (regression_madd _ _ _ _ regression_constant regression_linear_trend A2) eq_refl ltac:(reflexivity)) as (d' & Ed' & Fd').
  exists d, d'. do 4 (split; [assumption|]).
  destruct (C95_order _ _ _ _ c95_five c95_env c95_env _ _ _ _ _ _ _ _ _ _ regression_linear_trend regression_constant A1 A2 eq_refl Fr
              (ideal_minimizes _ _ _ _ _ _) (ideal_minimizes _ _ _ _ _ _) Ed Fd Ed' Fd') as (C & S & _). split; assumption.
Qed.
(* a forecast that chooses between both: the constant *)
Definition c95_cfg : config XR :=
  mkCfg (Some [model_constant; model_linear]) (Some [model_null]) None (14 # 365)%Q "add" true false None None (Some []) None None 5 20 (Some "Y") true.
Definition c95_phi (x : R) (t : Z) : list R := [if Z.ltb t (ts 2018 1 3) then 0 else 6].
Lemma c95_steady : steady DAY "D" (ts 2018 1 1) c95_frame.
Proof.
  constructor; [left; split; reflexivity|reflexivity| | | |].
  - vm_compute. reflexivity.
  - vm_compute. repeat constructor.
  - intros q Iq. cbn in Iq. destruct Iq as [<-|[<-|[<-|[<-|[]]]]]; vm_compute; reflexivity.
  - intros q Iq. cbn in Iq. destruct Iq as [<-|[<-|[<-|[<-|[]]]]]; vm_compute; reflexivity.
Qed.
Lemma c95_follows : follows c95_phi (ts 2018 1 1) c95_frame [1].
Proof.
  intros q Iq. left. destruct Iq as [<-|[<-|[<-|[<-|[]]]]]; cbn [r_y r_date c95_row]; f_equal; unfold rdot, c95_phi; cbn; lra.
Qed.
Lemma c95_settings : settings c95_cfg.
Proof.
  constructor.
  - constructor; intros ms m K Im; try discriminate; injection K as <-; [destruct Im as [<-|[<-|[]]]|destruct Im as [<-|[]]];
      [left; apply sturdy_hardy, sturdy_constant|left; apply sturdy_hardy, sturdy_linear|right; reflexivity].
  - intros ms m K I. injection K as <-. destruct I.
  - discriminate.
  - cbv. auto.
  - right. discriminate.
Qed.
Lemma c95_fitted m phi freq src act uc d : regression m phi -> (fm_n m <= 2)%nat -> (forall xs ys ds, accepts m xs ys ds) ->
  fit_model c95_env m (to_fit c95_frame) freq src act uc = Ok d -> md_fit d = true.
Proof. intros Rg L Ac Ed. destruct (c95_fits m phi freq src act uc Rg L Ac) as (q & Eq & Fq). rewrite Eq in Ed. apply ok_inj in Ed. now subst q. Qed.
Example C95_chosen_example : sorts c78_world /\ (forall m g a, minimizes (w_env c78_world) m g a) /\
  exists r e e', run_forecast_single c78_world c95_cfg "s" c95_frame = Ok r /\ rs_meta r = [en_meta e; en_meta e'] /\
    en_model e = model_constant /\ en_model e' = model_linear /\ alone r (en_meta e) /\ alone r (en_meta e') /\
    md_fit (m_meta (en_meta e)) = true /\ md_fit (m_meta (en_meta e')) = true /\
    m_best (en_meta e) = true /\ m_best (en_meta e') = false.
Proof.
  assert (So : sorts c78_world) by (now apply by_score_sorts). assert (Mn : forall m g a, minimizes (w_env c78_world) m g a) by (intros; apply ideal_minimizes).
  split; [exact So|]. split; [exact Mn|].
  destruct (C78_forecast c78_rnd (fun _ => "[..]") (fun _ => "#") c78_world c95_cfg "s" DAY "D" (ts 2018 1 1) c95_frame [1] c95_phi) as (r & _ & _ & _ & _ & Er & _).
  { reflexivity. } { exact c95_draws. } { exact c95_steady. } { discriminate. } { exact c95_follows. } { exact c95_settings. }
  { split; [do 2 eexists; split; [left; reflexivity|]; split; [right; left; reflexivity|]; discriminate|]. intros f1 E. injection E as <-. discriminate. }
  destruct (C95_chosen _ _ _ _ _ So Mn Er) as (f1 & mode & es & E1 & E2 & E5 & E6 & Ch).
  destruct (fit_table _ _ _ _ _ Er) as (f2 & range & mode2 & act & st & sp & x0 & acts & es' & E1' & _ & E2' & _ & _ & _ & _ & _ & E5' & E6' & _ & E7).
  assert (f1 = c95_frame) as -> by (now apply ok_inj in E1). assert (f2 = c95_frame) as -> by (now apply ok_inj in E1').
  assert (mode = "add") as -> by (now apply ok_inj in E2). assert (mode2 = "add") as -> by (now apply ok_inj in E2').
  change (map en_model es = [model_constant; model_linear]) in E6. change (map en_model es' = [model_constant; model_linear]) in E6'.
  destruct es as [|e [|e' [|]]]; try discriminate E6. destruct es' as [|i [|i' [|]]]; try discriminate E6'. cbn [map] in *.
  assert (M1 : en_model e = model_constant) by exact (f_equal (fun l => hd (en_model e) l) E6). assert (M2 : en_model e' = model_linear) by exact (f_equal (fun l => hd (en_model e) (tl l)) E6).
  assert (M1' : en_model i = model_constant) by exact (f_equal (fun l => hd (en_model e) l) E6'). assert (M2' : en_model i' = model_linear) by exact (f_equal (fun l => hd (en_model e) (tl l)) E6').
  assert (K1 : en_meta e = en_meta i) by (rewrite E5' in E5; symmetry; exact (f_equal (fun l => hd (en_meta e) l) E5)).
  assert (K2 : en_meta e' = en_meta i') by (rewrite E5' in E5; symmetry; exact (f_equal (fun l => hd (en_meta e) (tl l)) E5)).
  pose proof (Forall_inv E7) as ((d & Ed & Md) & _). pose proof (Forall_inv (Forall_inv_tail E7)) as ((d' & Ed' & Md') & _).
  rewrite M1' in Ed. rewrite M2' in Ed'. change (w_env c78_world) with c95_env in Ed, Ed'.
  pose proof (c95_fitted _ _ _ _ _ _ _ regression_constant ltac:(cbn; lia) ltac:(reflexivity) Ed) as Fd.
  pose proof (c95_fitted _ _ _ _ _ _ _ regression_linear_trend ltac:(cbn; lia) ltac:(reflexivity) Ed') as Fd'.
  assert (N1 : md_model (m_meta (en_meta e)) = "constant").
  { rewrite K1, Md. change (md_model d = "constant"). apply (fit_name _ model_constant _ _ _ _ _ _ ltac:(intros x y q; now exists false) Ed). }
  assert (N2 : md_model (m_meta (en_meta e')) = "linear").
  { rewrite K2, Md'. change (md_model d' = "linear"). apply (fit_name _ model_linear _ _ _ _ _ _ ltac:(intros x y q; now exists false) Ed'). }
  assert (A1 : alone r (en_meta e)).
  { intros m I [S _]. rewrite E5 in I. destruct I as [<-|[<-|[]]]; [reflexivity|]. rewrite N1, N2 in S. discriminate. }
  assert (A2 : alone r (en_meta e')).
  { intros m I [S _]. rewrite E5 in I. destruct I as [<-|[<-|[]]]; [|reflexivity]. rewrite N1, N2 in S. discriminate. }
  assert (F1 : md_fit (m_meta (en_meta e)) = true) by (rewrite K1, Md; exact Fd). assert (F2 : md_fit (m_meta (en_meta e')) = true) by (rewrite K2, Md'; exact Fd').
  assert (C1 : md_cost (m_meta (en_meta e)) = Fin 18) by (rewrite K1, Md; exact (c95_constant _ _ _ _ _ Ed Fd)).
  assert (C2 : md_cost (m_meta (en_meta e')) = Fin (18 / 5)) by (rewrite K2, Md'; exact (c95_linear _ _ _ _ _ Ed' Fd')).
  assert (B2 : m_best (en_meta e') = false).
  { destruct (m_best (en_meta e')) eqn:B; [|reflexivity]. exfalso.
    destruct (Ch e e' (fun _ _ => [1]) (fun x _ => [x; 1]) (or_introl eq_refl) (or_intror (or_introl eq_refl))) as (k & k' & Q & Q' & _ & G & _);
      rewrite ?M1, ?M2; [apply regression_constant|apply regression_linear_trend|apply constant_in_line|reflexivity|exact c95_finite|exact F1|exact F2|].
    rewrite C1 in Q. rewrite C2 in Q'. injection Q as <-. injection Q' as <-. specialize (G ltac:(lra) B A2). rewrite M1, M2, c95_usable in G.
    change (INR (length (rows c95_frame))) with (INR 4) in G. change (fm_n model_linear) with 2%nat in G. change (fm_n model_constant) with 1%nat in G.
    replace (INR 4) with 4 in G by (cbn; lra). replace (INR 2) with 2 in G by (cbn; lra). replace (INR 1) with 1 in G by reflexivity.
    pose proof ln5_small. pose proof c95_price. lra. }
  exists r, e, e'. split; [exact Er|]. do 7 (split; [assumption|]). split; [|exact B2].
  destruct (best_unique_minimal _ _ _ _ _ So Er) as [(Nf & _)|(b & Ib & _ & Bb & _)].
  - rewrite (Nf (en_meta e)) in F1; [discriminate|]. rewrite E5. now left.
  - rewrite E5 in Ib. destruct Ib as [<-|[<-|[]]]; [exact Bb|]. rewrite B2 in Bb. discriminate.
Qed.
