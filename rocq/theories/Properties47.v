(* How samples pull a fit towards them: C99. *)
From Coq Require Import ZArith String List Bool Reals Sorted Permutation Lia Lra.
From Verif Require Import Num Py Cal Fmt Model Base Naive Freq Normalize Fixed Fit Interp Select Outliers Pi Forecast.
From Verif Require Import ListProofs NumProofs ModelProofs BaseProofs FixedProofs SeasonProofs GuessProofs FitProofs AicProofs StatsProofs LsqProofs RobustProofs TotalProofs UniqueProofs RepeatProofs ExistProofs ConfirmProofs PullProofs Ex Properties11 Properties13 Properties18.
Import ListNotations.
Local Open Scope string_scope.
Local Open Scope list_scope.
Local Open Scope R_scope.

(* ================= C99 ================= *)
(* [extended f [r0] f']: f' has one sample more, at a new position; [miss phi th r]: what the curve with
   parameters th misses the sample r by.  A fit that includes a sample misses it by no more, and in no other
   direction, than the fit without it; the cost grows by no more than the fit without it would pay. *)
Theorem C99_left_out : forall m phi f f' r0 E E' freq freq' s s' a a' u u' d d', regression m phi -> extended f [r0] f' ->
  has_date f = true -> has_date f' = true -> finite_rows f' -> minimizes E m f a -> minimizes E' m f' a' ->
  fit_model E m f freq s a u = Ok d -> md_fit d = true -> fit_model E' m f' freq' s' a' u' = Ok d' -> md_fit d' = true ->
  exists th th' c c' k, md_params d = fins th /\ md_params d' = fins th' /\ md_cost d = Fin c /\ md_cost d' = Fin c' /\
    0 <= k <= 1 /\ miss phi th' r0 = k * miss phi th r0 /\ c <= c' <= c + share f' r0 ^ 2 * miss phi th r0 ^ 2 / 2.
Proof. exact left_out. Qed.
Print Assumptions C99_left_out.
(* [weightier f f' r0 r0']: one sample has got a larger weight.  The fit then misses it by no more, and in no
   other direction, and fits the table with the old weights no better. *)
Theorem C99_more_weight : forall m phi f f' r0 r0' E E' freq freq' s s' a a' u u' d d', regression m phi -> weightier f f' r0 r0' ->
  has_date f = true -> has_date f' = true -> finite_rows f -> finite_rows f' -> minimizes E m f a -> minimizes E' m f' a' ->
  fit_model E m f freq s a u = Ok d -> md_fit d = true -> fit_model E' m f' freq' s' a' u' = Ok d' -> md_fit d' = true ->
  exists th th' k, md_params d = fins th /\ md_params d' = fins th' /\ 0 <= k <= 1 /\ miss phi th' r0 = k * miss phi th r0 /\
    loss th (samples f (coef phi)) <= loss th' (samples f (coef phi)).
Proof. exact more_weight. Qed.
Print Assumptions C99_more_weight.

(* ---- examples ---- *)
Definition c99_phi : R -> Z -> list R := fun x _ => [x; 1].
Definition c99_env : env XR := ideal c78_rnd (fun _ => "[..]") (fun _ => "#").
Lemma c99_draws : draws c78_rnd.
Proof. intros i. exists (1 / 2). split; [reflexivity|lra]. Qed.
Lemma c99_fit f a b : has_date f = true -> finite_rows f -> increasing_x f -> (4 <= length (usable_rows f))%nat -> normal [a; b] (samples f (coef c99_phi)) -> determined model_linear c99_phi f ->
  exists d, fit_model c99_env model_linear f (Some "D") "s" None true = Ok d /\ md_fit d = true /\ minimizes c99_env model_linear f None /\ md_params d = fins [a; b].
Proof.
  intros Hd Fr Ix Le N0 Dt.
  destruct (ideal_fit c78_rnd (fun _ => "[..]") (fun _ => "#") model_linear c99_phi f (Some "D") "s" None true c99_draws regression_linear_trend Hd Fr Ix Le eq_refl) as (d & Ed & Fd & _).
  pose proof (ideal_minimizes c78_rnd (fun _ => "[..]") (fun _ => "#") model_linear f None) as Mn.
  exists d. split; [exact Ed|]. split; [exact Fd|]. split; [exact Mn|].
  destruct (regression_fit _ model_linear c99_phi f _ _ _ _ _ regression_linear_trend Hd Fr Mn Ed Fd) as (th & P & L & C & M & Nm).
  rewrite P. f_equal. apply (predictions_params model_linear c99_phi f [a; b] th eq_refl L Dt). intros r I.
  refine (normal_unique [a; b] th _ ltac:(rewrite L; reflexivity) N0 Nm (mkS (coef c99_phi r) (real (r_y r)) (share f r)) _ _); cbn [s_w].
  - unfold samples. apply in_map_iff. eauto.
  - pose proof (share_pos f r Fr I). lra.
Qed.
(* values 0, 0, 6, 6 and then 4: the line through the first four misses the fifth by - 5, the line through
   all five by - 2 *)
Definition c99_four : frame XR := daily false [(0, 1); (0, 1); (6, 1); (6, 1)].
Definition c99_fifth : row XR := mkRow (ts 2018 1 5) "s" 4 (Fin 4) (Fin 1).
Definition c99_five : frame XR := daily false [(0, 1); (0, 1); (6, 1); (6, 1); (4, 1)].
Example C99_left_out_example : extended c99_four [c99_fifth] c99_five /\ exists d d',
  fit_model c99_env model_linear c99_four (Some "D") "s" None true = Ok d /\ md_fit d = true /\ minimizes c99_env model_linear c99_four None /\
  fit_model c99_env model_linear c99_five (Some "D") "s" None true = Ok d' /\ md_fit d' = true /\ minimizes c99_env model_linear c99_five None /\
  finite_rows c99_five /\ md_params d = fins [12 / 5; - 3 / 5] /\ md_params d' = fins [7 / 5; 2 / 5] /\
  miss c99_phi [12 / 5; - 3 / 5] c99_fifth = - 5 /\ miss c99_phi [7 / 5; 2 / 5] c99_fifth = - 2.
Proof.
  split.
  { split; [reflexivity|]. split; [apply Permutation_refl|]. intros a b Ia Ib. cbn in Ia, Ib. destruct Ib as [<-|[]]. destruct Ia as [<-|[<-|[<-|[<-|[]]]]]; discriminate. }
  assert (F5 : finite_rows c99_five) by (unfold finite_rows; cbn; repeat constructor). assert (F4 : finite_rows c99_four) by (unfold finite_rows; cbn; repeat constructor).
  assert (D4 : determined model_linear c99_phi c99_four) by (apply C72_determined; eexists _, _; split; [left; reflexivity|]; split; [right; left; reflexivity|]; discriminate).
  assert (D5 : determined model_linear c99_phi c99_five) by (apply C72_determined; eexists _, _; split; [left; reflexivity|]; split; [right; left; reflexivity|]; discriminate).
  destruct (c99_fit c99_four (12 / 5) (- 3 / 5) eq_refl F4) as (d & A1 & A2 & A3 & A4);
    [unfold increasing_x; cbn; repeat constructor|cbn; lia| |exact D4|].
  { intros de L. destruct (two_params de L) as (u & v & ->). unfold samples, share, count_x, err, rdot, coef, c99_phi, x_in. cbn. lra. }
  destruct (c99_fit c99_five (7 / 5) (2 / 5) eq_refl F5) as (d' & B1 & B2 & B3 & B4);
    [unfold increasing_x; cbn; repeat constructor|cbn; lia| |exact D5|].
  { intros de L. destruct (two_params de L) as (u & v & ->). unfold samples, share, count_x, err, rdot, coef, c99_phi, x_in. cbn. lra. }
  exists d, d'. repeat (split; [assumption|]). unfold miss, rdot, coef, c99_phi, x_in. cbn. split; lra.
Qed.
(* the last of the four values with weight 2 instead of 1: - 6 / 31 instead of - 3 / 5 *)
Definition c99_light : frame XR := daily true [(0, 1); (0, 1); (6, 1); (6, 1)].
Definition c99_heavy : frame XR := daily true [(0, 1); (0, 1); (6, 1); (6, 2)].
Definition c99_last (w : R) : row XR := mkRow (ts 2018 1 4) "s" 3 (Fin 6) (Fin w).
Lemma c99_usable : usable_rows c99_light = rows c99_light /\ usable_rows c99_heavy = rows c99_heavy.
Proof. unfold usable_rows, c99_light, c99_heavy, usable. cbn. destruct (Rltb_spec 0 1); [|lra]. destruct (Rltb_spec 0 2); [|lra]. split; reflexivity. Qed.
Example C99_more_weight_example : weightier c99_light c99_heavy (c99_last 1) (c99_last 2) /\ exists d d',
  fit_model c99_env model_linear c99_light (Some "D") "s" None true = Ok d /\ md_fit d = true /\ minimizes c99_env model_linear c99_light None /\
  fit_model c99_env model_linear c99_heavy (Some "D") "s" None true = Ok d' /\ md_fit d' = true /\ minimizes c99_env model_linear c99_heavy None /\
  finite_rows c99_light /\ finite_rows c99_heavy /\ md_params d = fins [12 / 5; - 3 / 5] /\ md_params d' = fins [69 / 31; - 15 / 31] /\
  miss c99_phi [12 / 5; - 3 / 5] (c99_last 1) = - 3 / 5 /\ miss c99_phi [69 / 31; - 15 / 31] (c99_last 1) = - 6 / 31.
Proof.
  destruct c99_usable as [U1 U2]. split.
  { do 5 (split; [reflexivity|]). split; [cbn; lra|]. exists (firstn 3 (rows c99_light)), []. rewrite U1, U2. split; reflexivity. }
  assert (F5 : finite_rows c99_heavy) by (unfold finite_rows; rewrite U2; cbn; repeat constructor). assert (F4 : finite_rows c99_light) by (unfold finite_rows; rewrite U1; cbn; repeat constructor).
  assert (D4 : determined model_linear c99_phi c99_light) by (apply C72_determined; unfold two_positions; rewrite U1; eexists _, _; split; [left; reflexivity|]; split; [right; left; reflexivity|]; discriminate).
  assert (D5 : determined model_linear c99_phi c99_heavy) by (apply C72_determined; unfold two_positions; rewrite U2; eexists _, _; split; [left; reflexivity|]; split; [right; left; reflexivity|]; discriminate).
  destruct (c99_fit c99_light (12 / 5) (- 3 / 5) eq_refl F4) as (d & A1 & A2 & A3 & A4);
    [unfold increasing_x; rewrite U1; cbn; repeat constructor|rewrite U1; cbn; lia| |exact D4|].
  { intros de L. destruct (two_params de L) as (u & v & ->). unfold samples, share. rewrite U1. unfold count_x, err, rdot, coef, c99_phi, x_in. cbn. lra. }
  destruct (c99_fit c99_heavy (69 / 31) (- 15 / 31) eq_refl F5) as (d' & B1 & B2 & B3 & B4);
    [unfold increasing_x; rewrite U2; cbn; repeat constructor|rewrite U2; cbn; lia| |exact D5|].
  { intros de L. destruct (two_params de L) as (u & v & ->). unfold samples, share. rewrite U2. unfold count_x, err, rdot, coef, c99_phi, x_in. cbn. lra. }
  exists d, d'. repeat (split; [assumption|]). unfold miss, rdot, coef, c99_phi, x_in. cbn. split; lra.
Qed.
