(* Groups of days: balanced residuals, levels and days of their own: C100. *)
From Coq Require Import ZArith String List Bool Reals Sorted Permutation Lia Lra.
From Verif Require Import Num Py Cal Fmt Model Base Dummy Naive Freq Normalize Fixed Fit Interp Select Outliers Pi Forecast.
From Verif Require Import ListProofs NumProofs ModelProofs BaseProofs FixedProofs SeasonProofs GuessProofs FitProofs DummyProofs AicProofs StatsProofs LsqProofs RobustProofs TotalProofs UniqueProofs RepeatProofs ExistProofs HolidayProofs PullProofs LevelProofs Ex Properties11 Properties18.
Import ListNotations.
Local Open Scope string_scope.
Local Open Scope list_scope.
Local Open Scope R_scope.

(* ================= C100 ================= *)
(* [tells m phi G]: the model has a curve that is 1 on the days of the group G and 0 on all others;
   [group_sum f G g]: the sum of g over the samples of the group, weighted as in the fit.
   What the fit misses adds up to nothing over such a group: fitted and actual values have the same sum. *)
Theorem C100_balance : forall m phi f E freq s a u d G, regression m phi -> tells m phi G -> has_date f = true -> finite_rows f ->
  minimizes E m f a -> fit_model E m f freq s a u = Ok d -> md_fit d = true ->
  exists th, md_params d = fins th /\ length th = fm_n m /\ group_sum f G (miss phi th) = 0 /\
    group_sum f G (fun r => rdot th (coef phi r)) = group_sum f G (fun r => real (r_y r)).
Proof. exact group_balance. Qed.
Print Assumptions C100_balance.
(* Where the curves are constant on the group, the fitted level is the weighted mean of the group. *)
Theorem C100_level : forall m phi f E freq s a u d G, regression m phi -> tells m phi G -> has_date f = true -> finite_rows f ->
  minimizes E m f a -> fit_model E m f freq s a u = Ok d -> md_fit d = true ->
  forall c0, (forall r, In r (usable_rows f) -> G (r_date r) = true -> coef phi r = c0) ->
  exists th, md_params d = fins th /\ (forall r, In r (usable_rows f) -> G (r_date r) = true -> rdot th (coef phi r) = rdot th c0) /\
    rdot th c0 * group_sum f G (fun _ => 1) = group_sum f G (fun r => real (r_y r)).
Proof. exact group_level. Qed.
Print Assumptions C100_level.
(* A single sample in a group of its own is fitted exactly, whatever its value. *)
Theorem C100_alone : forall m phi f E freq s a u d G, regression m phi -> tells m phi G -> has_date f = true -> finite_rows f ->
  minimizes E m f a -> fit_model E m f freq s a u = Ok d -> md_fit d = true ->
  forall l1 r0 l2, usable_rows f = l1 ++ r0 :: l2 -> G (r_date r0) = true -> (forall r, In r (l1 ++ l2) -> G (r_date r) = false) ->
  exists th, md_params d = fins th /\ r_y r0 = Fin (rdot th (coef phi r0)).
Proof. exact group_alone. Qed.
Print Assumptions C100_alone.
(* Groups told from the other days: all days by constants and lines, weekdays and months by seasons, the days
   after a step, in a spike, in a list of dates and of a calendar; sums of models tell what their parts tell. *)
Theorem C100_groups :
  tells model_constant (fun _ _ => [1]) (fun _ => true) /\ tells model_linear (fun x _ => [x; 1]) (fun _ => true) /\
  (forall k, (1 <= k <= 6)%Z -> tells model_season_wday (fun _ t => wday_phi t) (fun t => Z.eqb (weekday t) k)) /\
  (forall k, (2 <= k <= 12)%Z -> tells model_season_month (fun _ t => month_phi t) (fun t => Z.eqb (month t) k)) /\
  (forall t0, tells (get_model_step_date t0) (fun _ t => [if Z_lt_dec t t0 then 0 else 1]) (fun t => Z.leb t0 t)) /\
  (forall t0 t1, tells (get_model_spike_date t0 t1) (fun _ t => [if Z_lt_dec t t0 then 0 else if Z_lt_dec t t1 then 1 else 0]) (fun t => Z.leb t0 t && Z.ltb t t1)) /\
  (forall m ls i ds, fm_n m = length ls -> nth_error ls i = Some ds -> tells m (fun _ t => dates_phi ls t) (fun t => in_list_Z ds t)) /\
  (forall m cs i c, fm_n m = length cs -> nth_error cs i = Some c -> tells m (fun _ t => holiday_phi cs t) (fun t => marked (DCal c) 0 t)) /\
  (forall m1 m2 phi1 phi2 G, (forall x t, length (phi1 x t) = fm_n m1) -> fm_n (madd m1 m2) = (fm_n m1 + fm_n m2)%nat ->
     tells m1 phi1 G \/ tells m2 phi2 G -> tells (madd m1 m2) (fun x t => phi1 x t ++ phi2 x t) G) /\
  (forall m phi G H, (forall t, H t = true -> G t = true) -> tells m phi G -> tells m phi H -> tells m phi (fun t => G t && negb (H t))).
Proof.
  split; [exact tells_constant|]. split; [exact tells_linear|]. split; [exact tells_wday|]. split; [exact tells_month|]. split; [exact tells_step|]. split; [exact tells_spike|].
  split; [exact tells_dates|]. split; [exact tells_holidays|]. split; [|exact tells_others].
  intros m1 m2 phi1 phi2 G L1 Ln [T|T]; [now apply tells_left|now apply tells_right].
Qed.
Print Assumptions C100_groups.
(* A constant with weekday seasonality gives every weekday, at any date, the weighted mean of that weekday; with
   month seasonality every month the weighted mean of that month. *)
Theorem C100_weekdays : forall f E freq s a u d k, has_date f = true -> finite_rows f -> minimizes E (madd model_constant model_season_wday) f a ->
  fit_model E (madd model_constant model_season_wday) f freq s a u = Ok d -> md_fit d = true -> (0 <= k <= 6)%Z ->
  exists th, md_params d = fins th /\ forall t, weekday t = k ->
    rdot th ([1] ++ wday_phi t) * group_sum f (fun t => Z.eqb (weekday t) k) (fun _ => 1) = group_sum f (fun t => Z.eqb (weekday t) k) (fun r => real (r_y r)).
Proof. exact weekday_levels. Qed.
Print Assumptions C100_weekdays.
Theorem C100_months : forall f E freq s a u d k, has_date f = true -> finite_rows f -> minimizes E (madd model_constant model_season_month) f a ->
  fit_model E (madd model_constant model_season_month) f freq s a u = Ok d -> md_fit d = true -> (1 <= k <= 12)%Z ->
  exists th, md_params d = fins th /\ forall t, month t = k ->
    rdot th ([1] ++ month_phi t) * group_sum f (fun t => Z.eqb (month t) k) (fun _ => 1) = group_sum f (fun t => Z.eqb (month t) k) (fun r => real (r_y r)).
Proof. exact month_levels. Qed.
Print Assumptions C100_months.

(* ---- examples ---- *)
Definition c100_env : env XR := ideal c78_rnd (fun _ => "[..]") (fun _ => "#").
Lemma c100_draws : draws c78_rnd.
Proof. intros i. exists (1 / 2). split; [reflexivity|lra]. Qed.
(* two weeks with the values 1 to 14, from a Monday: Wednesdays, 3 and 10, are forecast as 13 / 2 *)
Definition c100_weeks : frame XR := daily false (map (fun i => (IZR i, 1)) [1; 2; 3; 4; 5; 6; 7; 8; 9; 10; 11; 12; 13; 14]%Z).
Definition c100_row (i : Z) : row XR := mkRow (ts 2018 1 i) "s" (i - 1) (Fin (IZR i)) (Fin 1).
Lemma c100_rows : usable_rows c100_weeks = map c100_row [1; 2; 3; 4; 5; 6; 7; 8; 9; 10; 11; 12; 13; 14]%Z.
Proof. reflexivity. Qed.
Lemma c100_finite : finite_rows c100_weeks.
Proof. unfold finite_rows. rewrite c100_rows. cbn [map]. repeat constructor. Qed.
Lemma c100_increasing : increasing_x c100_weeks.
Proof. unfold increasing_x. rewrite c100_rows. cbn. repeat constructor. Qed.
Example C100_weekdays_example : let m := madd model_constant model_season_wday in exists d th,
  fit_model c100_env m c100_weeks (Some "D") "s" None true = Ok d /\ md_fit d = true /\ minimizes c100_env m c100_weeks None /\
  md_params d = fins th /\ weekday (ts 2018 1 17) = 2%Z /\ rdot th ([1] ++ wday_phi (ts 2018 1 17)) = 13 / 2.
Proof.
  cbv zeta. pose proof (regression_madd_plain model_constant model_season_wday _ _ (or_introl sturdy_constant) regression_constant regression_wday) as Rg.
  destruct (ideal_fit c78_rnd (fun _ => "[..]") (fun _ => "#") _ _ c100_weeks (Some "D") "s" None true c100_draws Rg eq_refl c100_finite c100_increasing) as (d & Ed & Fd & _);
    [rewrite c100_rows; cbn; lia|reflexivity|].
  pose proof (ideal_minimizes c78_rnd (fun _ => "[..]") (fun _ => "#") (madd model_constant model_season_wday) c100_weeks None) as Mn.
  destruct (C100_weekdays c100_weeks c100_env _ _ _ _ d 2%Z eq_refl c100_finite Mn Ed Fd ltac:(lia)) as (th & P & K).
  exists d, th. split; [exact Ed|]. split; [exact Fd|]. split; [exact Mn|]. split; [exact P|]. assert (W : weekday (ts 2018 1 17) = 2%Z) by (vm_compute; reflexivity).
  split; [exact W|]. specialize (K _ W). set (v := rdot th ([1] ++ wday_phi (ts 2018 1 17))) in *.
  assert (Gs : forall g, group_sum c100_weeks (fun t => Z.eqb (weekday t) 2) g = g (c100_row 3) + g (c100_row 10)).
  { intros g. unfold group_sum, wsum, share. rewrite c100_rows. cbn [map rsum has_w c100_weeks daily r_date c100_row r_x].
    repeat match goal with |- context [weekday (ts ?y ?m ?d)] => let w := eval vm_compute in (weekday (ts y m d)) in change (weekday (ts y m d)) with w end.
    repeat match goal with |- context [count_x ?l ?x] => change (count_x l x) with 1%Z end. cbn [Z.eqb Pos.eqb mark]. unfold mark. cbn. field. }
  rewrite !Gs in K. cbn in K. lra.
Qed.
(* six days with a spike on the third: the line with the spike meets its value, 100, exactly *)
Definition c100_spike : frame XR := daily false [(1, 1); (4, 1); (100, 1); (6, 1); (7, 1); (13, 1)].
Example C100_alone_example : let m := madd model_linear (get_model_spike_date (ts 2018 1 3) (ts 2018 1 4)) in
  let phi := fun (x : R) t => [x; 1] ++ [if Z_lt_dec t (ts 2018 1 3) then 0 else if Z_lt_dec t (ts 2018 1 4) then 1 else 0] in
  regression m phi /\ tells m phi (fun t => Z.leb (ts 2018 1 3) t && Z.ltb t (ts 2018 1 4)) /\ exists d th,
  fit_model c100_env m c100_spike (Some "D") "s" None true = Ok d /\ md_fit d = true /\ minimizes c100_env m c100_spike None /\
  md_params d = fins th /\ Fin 100 = Fin (rdot th (phi 2 (ts 2018 1 3))).
Proof.
  cbv zeta. set (sp := get_model_spike_date (ts 2018 1 3) (ts 2018 1 4)).
  pose proof (regression_madd_plain model_linear sp _ _ (or_introl sturdy_linear) regression_linear_trend (regression_spike_date (ts 2018 1 3) (ts 2018 1 4))) as Rg.
  pose proof (tells_right model_linear sp (fun x _ => [x; 1]) _ _ (fun _ _ => eq_refl) eq_refl (tells_spike (ts 2018 1 3) (ts 2018 1 4))) as Tl.
  split; [exact Rg|]. split; [exact Tl|].
  assert (Fr : finite_rows c100_spike) by (unfold finite_rows; cbn; repeat constructor).
  destruct (ideal_fit c78_rnd (fun _ => "[..]") (fun _ => "#") _ _ c100_spike (Some "D") "s" None true c100_draws Rg eq_refl Fr) as (d & Ed & Fd & _);
    [unfold increasing_x; cbn; repeat constructor|cbn; lia|reflexivity|].
  pose proof (ideal_minimizes c78_rnd (fun _ => "[..]") (fun _ => "#") (madd model_linear sp) c100_spike None) as Mn.
  destruct (C100_alone _ _ c100_spike c100_env _ _ _ _ d _ Rg Tl eq_refl Fr Mn Ed Fd (firstn 2 (usable_rows c100_spike)) (mkRow (ts 2018 1 3) "s" 2 (Fin 100) (Fin 1)) (skipn 3 (usable_rows c100_spike)))
    as (th & P & K); [reflexivity|vm_compute; reflexivity| |exists d, th; repeat (split; [assumption|]); exact K].
  intros r I. cbn in I. destruct I as [<-|[<-|[<-|[<-|[<-|[]]]]]]; vm_compute; reflexivity.
Qed.
