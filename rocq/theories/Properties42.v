(* Samples entered several times: C94. *)
From Coq Require Import ZArith String List Bool Reals Lra Lia Permutation.
From Verif Require Import Num Py Cal Fmt Model Base Naive Freq Normalize Aic Fixed Fit Interp Stats Select Outliers Pi Forecast.
From Verif Require Import NumProofs ModelProofs BaseProofs FixedProofs GuessProofs FitProofs SeasonProofs StatsProofs ForecastProofs ForecastProofs2 LsqProofs RobustProofs TotalProofs UniqueProofs ExistProofs RepeatProofs Ex Properties11 Properties18.
Import ListNotations.
Local Open Scope string_scope.
Local Open Scope list_scope.
Local Open Scope R_scope.

(* ================= C94 ================= *)
(* [times k f f']: f' has the samples of f, each of them k times, in any order.  The least-squares fit is
   the same, at a k-th of the cost. *)
Theorem C94_times : forall m phi k f f' E E' freq freq' s s' a a' u u' d d', regression m phi -> (0 < k)%nat -> times k f f' ->
  has_date f = true -> has_date f' = true -> finite_rows f -> minimizes E m f a -> minimizes E' m f' a' ->
  fit_model E m f freq s a u = Ok d -> md_fit d = true -> fit_model E' m f' freq' s' a' u' = Ok d' -> md_fit d' = true ->
  exists th th' c, md_params d = fins th /\ md_params d' = fins th' /\
    (forall r, In r (usable_rows f) -> rdot th' (coef phi r) = rdot th (coef phi r)) /\
    md_cost d = Fin c /\ md_cost d' = Fin (c / INR k) /\ (determined m phi f -> md_params d' = md_params d).
Proof. exact times_fit. Qed.
Print Assumptions C94_times.
(* [means f f']: f has no weights; f' has one sample for every position of f, the mean of the n values of
   f there with the weight 1 / sqrt n.  The least-squares fit is the same; its cost is larger by half the
   squared deviations from the means. *)
Theorem C94_means : forall m phi f f' E E' freq freq' s s' a a' u u' d d', regression m phi -> means f f' ->
  has_date f = true -> has_date f' = true -> finite_rows f -> minimizes E m f a -> minimizes E' m f' a' ->
  fit_model E m f freq s a u = Ok d -> md_fit d = true -> fit_model E' m f' freq' s' a' u' = Ok d' -> md_fit d' = true ->
  exists th th' c, md_params d = fins th /\ md_params d' = fins th' /\
    (forall r, In r (usable_rows f) -> rdot th' (coef phi r) = rdot th (coef phi r)) /\
    md_cost d' = Fin c /\ md_cost d = Fin (c + spread f f' / 2) /\ (determined m phi f -> md_params d' = md_params d).
Proof. intros. eapply averaged_fit; eauto using means_averaged, means_finite. Qed.
Print Assumptions C94_means.
(* the same for samples with weights: [averaged f f'] *)
Theorem C94_weighted_means : forall m phi f f' E E' freq freq' s s' a a' u u' d d', regression m phi -> averaged f f' ->
  has_date f = true -> has_date f' = true -> finite_rows f -> finite_rows f' -> minimizes E m f a -> minimizes E' m f' a' ->
  fit_model E m f freq s a u = Ok d -> md_fit d = true -> fit_model E' m f' freq' s' a' u' = Ok d' -> md_fit d' = true ->
  exists th th' c, md_params d = fins th /\ md_params d' = fins th' /\
    (forall r, In r (usable_rows f) -> rdot th' (coef phi r) = rdot th (coef phi r)) /\
    md_cost d' = Fin c /\ md_cost d = Fin (c + spread f f' / 2) /\ (determined m phi f -> md_params d' = md_params d).
Proof. exact averaged_fit. Qed.
Print Assumptions C94_weighted_means.

(* ---- examples ---- *)
(* constants are fitted to any three samples *)
Lemma ideal_constant f freq src uc : finite_rows f -> has_date f = true -> (3 <= length (usable_rows f))%nat ->
  exists d, fit_model (ideal c78_rnd (fun _ => "[..]") (fun _ => "#")) model_constant f freq src None uc = Ok d /\ md_fit d = true.
Proof.
  intros Fr Hd Ll. set (E := ideal c78_rnd (fun _ => "[..]") (fun _ => "#")).
  assert (Ne : usable_rows f <> []) by (destruct (usable_rows f); [cbn in Ll; lia|discriminate]).
  assert (Fv : finite_values f) by (unfold finite_values, finite_rows in *; eapply Forall_impl; [|exact Fr]; cbn; tauto).
  assert (Dr : draws c78_rnd) by (intros i; exists (1 / 2); split; [reflexivity|lra]).
  destruct (leaf_constant (map (position_of model_constant) (usable_rows f)) (values f) None) as (b & Eb & L1 & L2 & G); [unfold values; rewrite map_length; lia|].
  destruct (G false c78_rnd) as (g & Eg & Lg & Wg).
  assert (Adm : admissible E model_constant f g b).
  { unfold admissible. rewrite xs_positions, ys_values by exact Fv. split; [exact Eg|]. split; [exact Eb|]. apply validate_iff, Wg; [exact I|exact Dr]. }
  assert (Ac : accepts model_constant (xs_of model_constant f) (ys_of f) (dates_of f)) by reflexivity.
  assert (Un : unpinned model_constant (Some (xs_of model_constant f)) (Some (ys_of f)) (dates_of f)) by (apply unbounded_unpinned; intros x y d; now exists false).
  assert (Ca : if uc then init_cache model_constant (xs_of model_constant f) (dates_of f) = Ok [] else @nil (string * cval XR) = []) by (destruct uc; reflexivity).
  pose proof (fit_completes E model_constant f freq src None uc g b [] ltac:(cbn; lia) ltac:(cbn; lia) Ac Un Adm Ca) as Fc.
  set (F := fun p => get_residuals (Some p) model_constant (xs_of model_constant f) (ys_of f) (dates_of f) (ws_of f) None []) in Fc.
  change (e_lsq E F g b) with (ideal_lsq F g b) in Fc. destruct (ideal_cases F g b) as [(p & Bp & El)|[No _]].
  - rewrite El in Fc. destruct Fc as (d & Ed & Ok' & _); [exists (ssq (snd p) / 2); split; [reflexivity|]; pose proof (ssq_nonneg (snd p)); lra|]. eauto.
  - exfalso. destruct (regression_best model_constant (fun _ _ => [1]) f None [] b regression_constant Hd Fr Ne ltac:(reflexivity) L1) as (p & Bp). apply (No p). rewrite Lg. exact Bp.
Qed.
(* values 0, 0, 6 on three days; everything twice; the last day twice *)
Definition c94_row (i : Z) (y : R) : row XR := mkRow (ts 2018 1 (1 + i)) "s" i (Fin y) (Fin 1).
Definition c94_frame (l : list (row XR)) : frame XR := mkFrame true false false l.
Definition c94_once : frame XR := c94_frame [c94_row 0 0; c94_row 1 0; c94_row 2 6].
Definition c94_twice : frame XR := c94_frame (rows c94_once ++ rows c94_once).
Definition c94_again : frame XR := c94_frame (rows c94_once ++ [c94_row 2 6]).
Example C94_times_meets : times 2 c94_once c94_twice /\ finite_rows c94_once /\ regression model_constant (fun _ _ => [1]) /\
  let E := ideal c78_rnd (fun _ => "[..]") (fun _ => "#") in
  minimizes E model_constant c94_once None /\ minimizes E model_constant c94_twice None /\
  (exists d, fit_model E model_constant c94_once (Some "D") "s" None true = Ok d /\ md_fit d = true) /\
  (exists d, fit_model E model_constant c94_twice (Some "D") "s" None true = Ok d /\ md_fit d = true).
Proof.
  assert (Fo : finite_rows c94_once) by (unfold finite_rows; cbn; repeat constructor).
  assert (Tm : times 2 c94_once c94_twice).
  { split; [reflexivity|]. cbn. set (a := c94_row 0 0). set (b := c94_row 1 0). set (c := c94_row 2 6).
    apply perm_skip. change (Permutation ([b; c] ++ a :: [b; c]) (a :: [b; b; c; c])). symmetry. apply Permutation_cons_app. apply perm_skip. apply perm_swap. }
  split; [exact Tm|]. split; [exact Fo|]. split; [exact regression_constant|]. cbv zeta.
  split; [apply ideal_minimizes|]. split; [apply ideal_minimizes|].
  split; apply ideal_constant; [exact Fo|reflexivity|cbn; lia|exact (times_finite 2 _ _ ltac:(lia) Tm Fo)|reflexivity|cbn; lia].
Qed.
(* A sample that is entered twice counts half, not twice and not once: the mean moves away from it, from
   2 to 6/5. *)
Theorem C94_again_refuted : forall E freq s d d' u,
  minimizes E model_constant c94_once None -> minimizes E model_constant c94_again None ->
  fit_model E model_constant c94_once freq s None u = Ok d -> md_fit d = true ->
  fit_model E model_constant c94_again freq s None u = Ok d' -> md_fit d' = true ->
  md_params d = [Fin 2] /\ md_params d' = [Fin (6 / 5)].
Proof.
  intros E freq s d d' u M M' Ef Fd Ef' Fd'. split.
  - destruct (constant_fit _ _ _ _ _ _ _ M ltac:(unfold finite_rows; cbn; repeat constructor) Ef Fd) as (a & -> & K). do 2 f_equal.
    unfold wsum, share, count_x in K. cbn in K. lra.
  - destruct (constant_fit _ _ _ _ _ _ _ M' ltac:(unfold finite_rows; cbn; repeat constructor) Ef' Fd') as (a & -> & K). do 2 f_equal.
    unfold wsum, share, count_x in K. cbn in K. lra.
Qed.
Print Assumptions C94_again_refuted.
Example C94_again_fits : let E := ideal c78_rnd (fun _ => "[..]") (fun _ => "#") in
  exists d d', fit_model E model_constant c94_once (Some "D") "s" None true = Ok d /\ md_fit d = true /\
    fit_model E model_constant c94_again (Some "D") "s" None true = Ok d' /\ md_fit d' = true /\ md_params d = [Fin 2] /\ md_params d' = [Fin (6 / 5)].
Proof.
  cbv zeta. destruct (ideal_constant c94_once (Some "D") "s" true) as (d & Ed & Fd); [unfold finite_rows; cbn; repeat constructor|reflexivity|cbn; lia|].
  destruct (ideal_constant c94_again (Some "D") "s" true) as (d' & Ed' & Fd'); [unfold finite_rows; cbn; repeat constructor|reflexivity|cbn; lia|].
  exists d, d'. repeat (split; [assumption|]). eapply C94_again_refuted; eauto; apply ideal_minimizes.
Qed.
(* the values 5 and 7 on the third day act like a 6 with weight 1 / sqrt 2 *)
Definition c94_two : frame XR := c94_frame [c94_row 0 0; c94_row 1 0; c94_row 2 5; c94_row 2 7].
Definition c94_mean : frame XR := mkFrame true false true
  [mkRow (ts 2018 1 1) "s" 0 (Fin 0) (Fin (1 / sqrt 1)); mkRow (ts 2018 1 2) "s" 1 (Fin 0) (Fin (1 / sqrt 1)); mkRow (ts 2018 1 3) "s" 2 (Fin 6) (Fin (1 / sqrt 2))].
Lemma c94_mean_rows : usable_rows c94_mean = rows c94_mean.
Proof.
  assert (0 < sqrt 1) by (apply sqrt_lt_R0; lra). assert (0 < sqrt 2) by (apply sqrt_lt_R0; lra).
  assert (0 < 1 / sqrt 1) by (apply Rdiv_lt_0_compat; lra). assert (0 < 1 / sqrt 2) by (apply Rdiv_lt_0_compat; lra).
  unfold usable_rows. apply GroupProofs.filter_all. intros r I. unfold usable. cbn [rows c94_mean] in I.
  destruct I as [<-|[<-|[<-|[]]]]; cbn [has_w c94_mean r_y r_w]; rewrite n0_fin; cbn; (destruct (Rltb_spec 0 (1 / sqrt 1)) + destruct (Rltb_spec 0 (1 / sqrt 2))); (reflexivity + lra).
Qed.
Example C94_means_meets : means c94_two c94_mean /\ finite_rows c94_two /\
  exists d d', let E := ideal c78_rnd (fun _ => "[..]") (fun _ => "#") in
    fit_model E model_constant c94_two (Some "D") "s" None true = Ok d /\ md_fit d = true /\
    fit_model E model_constant c94_mean (Some "D") "s" None true = Ok d' /\ md_fit d' = true /\ md_params d = [Fin (6 / 5)] /\ md_params d' = md_params d.
Proof.
  assert (Fr : finite_rows c94_two) by (unfold finite_rows; cbn; repeat constructor).
  assert (Mn : means c94_two c94_mean).
  { constructor; rewrite ?c94_mean_rows; [reflexivity|reflexivity| | |].
    - cbn. repeat (constructor; [cbn; intuition discriminate|]). constructor.
    - intros r I. cbn in I. destruct I as [<-|[<-|[<-|[<-|[]]]]]; cbn [rows c94_mean].
      + eexists. split; [left; reflexivity|]. split; reflexivity.
      + eexists. split; [right; left; reflexivity|]. split; reflexivity.
      + eexists. split; [right; right; left; reflexivity|]. split; reflexivity.
      + eexists. split; [right; right; left; reflexivity|]. split; reflexivity.
    - intros r I. cbn [rows c94_mean] in I. destruct I as [<-|[<-|[<-|[]]]]; cbn; (split; [discriminate|]); (split; [f_equal; lra|]); reflexivity || (f_equal; f_equal; f_equal; lra). }
  split; [exact Mn|]. split; [exact Fr|].
  destruct (ideal_constant c94_two (Some "D") "s" true) as (d & Ed & Fd); [exact Fr|reflexivity|cbn; lia|].
  destruct (ideal_constant c94_mean (Some "D") "s" true) as (d' & Ed' & Fd'); [exact (means_finite _ _ Mn)|reflexivity|rewrite c94_mean_rows; cbn; lia|].
  exists d, d'. cbv zeta. repeat (split; [assumption|]).
  destruct (constant_fit _ _ _ _ _ _ _ (ideal_minimizes _ _ _ _ _ _) Fr Ed Fd) as (a & P & K).
  split; [rewrite P; do 2 f_equal; unfold wsum, share, count_x in K; cbn in K; lra|].
  destruct (C94_means model_constant (fun _ _ => [1]) c94_two c94_mean _ _ _ _ _ _ _ _ _ _ d d' regression_constant Mn eq_refl eq_refl Fr (ideal_minimizes _ _ _ _ _ _) (ideal_minimizes _ _ _ _ _ _) Ed Fd Ed' Fd')
    as (th & th' & c & _ & _ & _ & _ & _ & Dt).
  apply Dt. intros de L Z. destruct (one_param de L) as (b & ->). specialize (Z _ (or_introl eq_refl)). unfold rdot, coef in Z. cbn in Z. cbn. f_equal. lra.
Qed.
