(* Frequencies, grids and scores: C22-C30 (and the binary64 instance of C20, C21). *)
From Coq Require Import ZArith String List Bool Reals PrimFloat FloatOps SpecFloat Sorted QArith_base Lia.
From Verif Require Import Num Py Cal Model Naive Freq Aic NaiveProofs FreqProofs GridProofs FloatProofs AicProofs Ex.
Import ListNotations.
Local Open Scope string_scope.
Local Open Scope list_scope.

(* ================= C20 (continued) ================= *)
(* binary64 represents positions faithfully up to 2^53 *)
Theorem C20_doubles_faithful : forall (m : libm) zs, Forall (fun z => Z.abs z < 2 ^ 53)%Z zs ->
  exact_ints (N := floatOps m) zs /\ nisnan (NumOps := floatOps m) (nnan (NumOps := floatOps m)) = true.
Proof. intros m zs F. split; [exact (float_exact_ints m zs F)|reflexivity]. Qed.
Print Assumptions C20_doubles_faithful.
Example C20_doubles_example :
  Forall (fun z => Z.abs z < 2 ^ 53)%Z [-5; 0; 736330; 9007199254740991]%Z /\
  (* one position further two different integers are the same double *)
  float_ofZ 9007199254740993 = float_ofZ 9007199254740992.
Proof. split; [repeat constructor|vm_compute; reflexivity]. Qed.

Section Z_statements.
Local Open Scope Z_scope.

(* ================= C22 ================= *)
Theorem C22_set_only : forall ds ds', (forall t, In t ds <-> In t ds') -> detect_freq ds = detect_freq ds'.
Proof. exact detect_freq_set. Qed.
Print Assumptions C22_set_only.
(* min_gap ds g: g is the smallest difference between two distinct dates.  Every column has either
   at most one distinct date or a smallest gap. *)
Theorem C22_cases : forall ds, (forall a b, In a ds -> In b ds -> a = b) \/ exists g, min_gap ds g.
Proof. exact gap_cases. Qed.
Print Assumptions C22_cases.
Theorem C22_none : forall ds, (forall a b, In a ds -> In b ds -> a = b) -> detect_freq ds = None.
Proof. exact detect_none. Qed.
Print Assumptions C22_none.
Theorem C22_hour : forall ds g, min_gap ds g -> g = HOUR -> detect_freq ds = Some "H".
Proof. exact detect_hour. Qed.
Print Assumptions C22_hour.
Theorem C22_week : forall ds g, min_gap ds g -> forall t0, g = 7 * DAY -> In t0 ds -> (forall t, In t ds -> t0 <= t) ->
  detect_freq ds = Some (wday_name (weekday t0)).
Proof. exact detect_week. Qed.
Print Assumptions C22_week.
Theorem C22_month_start : forall ds g, min_gap ds g -> 28 * DAY <= g <= 31 * DAY -> (forall t, In t ds -> dom t = 1) ->
  detect_freq ds = Some "MS".
Proof. exact detect_month_start. Qed.
Print Assumptions C22_month_start.
Theorem C22_month : forall ds g, min_gap ds g -> forall t, 28 * DAY <= g <= 31 * DAY -> In t ds -> dom t <> 1 ->
  detect_freq ds = Some "M".
Proof. exact detect_month. Qed.
Print Assumptions C22_month.
Theorem C22_quarter : forall ds g, min_gap ds g -> 89 * DAY <= g <= 92 * DAY -> detect_freq ds = Some "Q".
Proof. exact detect_quarter. Qed.
Print Assumptions C22_quarter.
Theorem C22_year_start : forall ds g, min_gap ds g -> 365 * DAY <= g <= 366 * DAY ->
  (forall t, In t ds -> dom t = 1 /\ month t = 1) -> detect_freq ds = Some "YS".
Proof. exact detect_year_start. Qed.
Print Assumptions C22_year_start.
Theorem C22_year : forall ds g, min_gap ds g -> forall t, 365 * DAY <= g <= 366 * DAY -> In t ds ->
  dom t <> 1 \/ month t <> 1 -> detect_freq ds = Some "Y".
Proof. exact detect_year. Qed.
Print Assumptions C22_year.
(* any other smallest gap *)
Theorem C22_other : forall ds g, min_gap ds g ->
  ~ (g = HOUR \/ g = 7 * DAY \/ 28 * DAY <= g <= 31 * DAY \/ 89 * DAY <= g <= 92 * DAY \/ 365 * DAY <= g <= 366 * DAY) ->
  detect_freq ds = if 23 * HOUR <=? g then Some "D" else None.
Proof. exact detect_other. Qed.
Print Assumptions C22_other.
Example C22_example :
  (* shuffled weekly dates with a duplicate and a gap: the first date in time decides the weekday *)
  detect_freq [ts 2018 1 22; ts 2018 1 1; ts 2018 1 1; ts 2018 2 19; ts 2018 1 8] = Some "W-MON" /\
  min_gap [ts 2018 1 22; ts 2018 1 1; ts 2018 1 8] (7 * DAY) /\
  detect_freq [ts 2018 1 1; ts 2018 3 2] = Some "D" /\
  detect_freq [ts 2018 1 15; ts 2018 2 15] = Some "M" /\
  detect_freq [ts 2018 1 1; ts 2018 1 1 + 30 * 60 * 1000000000] = None /\
  detect_freq [ts 2018 1 1; ts 2018 1 1] = None.
Proof.
  split; [vm_compute; reflexivity|]. split; [|repeat split; vm_compute; reflexivity].
  split.
  - exists (ts 2018 1 1), (ts 2018 1 8). cbn [In]. repeat split; auto; vm_compute; reflexivity.
  - assert (ts 2018 1 22 = 1516579200000000000) as -> by (vm_compute; reflexivity).
    assert (ts 2018 1 1 = 1514764800000000000) as -> by (vm_compute; reflexivity).
    assert (ts 2018 1 8 = 1515369600000000000) as -> by (vm_compute; reflexivity).
    change (7 * DAY) with 604800000000000. cbn [In].
    intros a b Ha Hb Hlt. destruct Ha as [<-|[<-|[<-|[]]]]; destruct Hb as [<-|[<-|[<-|[]]]]; lia.
Qed.

(* ================= C23 ================= *)
(* series_of f n = [f 0; ...; f (n-1)]; month_start k and month_last k are the first and last day
   of month k (counted from January of year 0) *)
Theorem C23_month_days : forall k, civil_from_days (month_start k) = (k / 12, k mod 12 + 1, 1) /\
  month_last k + 1 = month_start (k + 1).
Proof. intros k. split; [apply month_start_civil|unfold month_last; ring]. Qed.
Print Assumptions C23_month_days.
Theorem C23_hourly : forall t0 n, (2 <= n)%nat -> detect_freq (series_of (fun i => t0 + i * HOUR) n) = Some "H".
Proof. exact regular_hour. Qed.
Print Assumptions C23_hourly.
Theorem C23_daily : forall t0 n, (2 <= n)%nat -> detect_freq (series_of (fun i => t0 + i * DAY) n) = Some "D".
Proof. exact regular_day. Qed.
Print Assumptions C23_daily.
Theorem C23_weekly : forall t0 n, (2 <= n)%nat ->
  detect_freq (series_of (fun i => t0 + i * (7 * DAY)) n) = Some (wday_name (weekday t0)).
Proof. exact regular_week. Qed.
Print Assumptions C23_weekly.
Theorem C23_month_starts : forall k n, (2 <= n)%nat ->
  detect_freq (series_of (fun i => month_start (k + i) * DAY) n) = Some "MS".
Proof. exact regular_month_start. Qed.
Print Assumptions C23_month_starts.
Theorem C23_month_ends : forall k n, (2 <= n)%nat ->
  detect_freq (series_of (fun i => month_last (k + i) * DAY) n) = Some "M".
Proof. exact regular_month_end. Qed.
Print Assumptions C23_month_ends.
Theorem C23_quarter_starts : forall k n, (2 <= n)%nat ->
  detect_freq (series_of (fun i => month_start (k + 3 * i) * DAY) n) = Some "Q".
Proof. exact regular_quarter_start. Qed.
Print Assumptions C23_quarter_starts.
Theorem C23_quarter_ends : forall k n, (2 <= n)%nat ->
  detect_freq (series_of (fun i => month_last (k + 3 * i) * DAY) n) = Some "Q".
Proof. exact regular_quarter_end. Qed.
Print Assumptions C23_quarter_ends.
Theorem C23_year_starts : forall y n, (2 <= n)%nat -> detect_freq (series_of (fun i => ts (y + i) 1 1) n) = Some "YS".
Proof. exact regular_year_start. Qed.
Print Assumptions C23_year_starts.
Theorem C23_year_ends : forall y n, (2 <= n)%nat -> detect_freq (series_of (fun i => ts (y + i) 12 31) n) = Some "Y".
Proof. exact regular_year_end. Qed.
Print Assumptions C23_year_ends.
Example C23_example :
  series_of (fun i => month_last (12 * 2019 + 11 + i) * DAY) 4 = [ts 2019 12 31; ts 2020 1 31; ts 2020 2 29; ts 2020 3 31] /\
  detect_freq [ts 2019 12 31; ts 2020 1 31; ts 2020 2 29; ts 2020 3 31] = Some "M" /\
  detect_freq [ts 2018 6 6; ts 2018 6 13] = Some "W-WED".
Proof. repeat split; vm_compute; reflexivity. Qed.

(* ================= C24 ================= *)
Theorem C24_normalized_x : forall t0 ds, midnight t0 = true ->
  exists xs, get_normalized_x_from_date (t0 :: ds) = Ok xs /\ hd_error xs = Some (weekday t0) /\
    Forall2 (fun t x => x = weekday t0 + (day_of t - day_of t0) /\ x mod 7 = weekday t) (t0 :: ds) xs.
Proof. exact normalized_x_ok. Qed.
Print Assumptions C24_normalized_x.
(* the origin is the Monday of the first row's week: a row dated before it gets a negative x *)
Theorem C24_negative_iff : forall t0 ds xs t x, midnight t0 = true ->
  get_normalized_x_from_date (t0 :: ds) = Ok xs -> In (t, x) (combine (t0 :: ds) xs) ->
  (x < 0 <-> day_of t < day_of t0 - weekday t0).
Proof.
  intros t0 ds xs t x M E I. rewrite normalized_x in E. injection E as E. subst xs.
  exact (normalized_x_negative t0 ds t x M I).
Qed.
Print Assumptions C24_negative_iff.
Example C24_example :
  get_normalized_x_from_date [ts 2018 1 3; ts 2018 1 4; ts 2018 1 1; ts 2017 12 30] = Ok [2; 3; 0; -2] /\
  midnight (ts 2018 1 3) = true /\ weekday (ts 2018 1 3) = 2.
Proof. repeat split; vm_compute; reflexivity. Qed.

(* ================= C25 ================= *)
(* fixed_freq start freq step per_year: freq is H, D, the weekday of start, or undetected (weekly);
   step is its length and per_year the number of nanoseconds per forecast year.  The grid g runs
   from start in steps up to an end e, which is stop + years (to the microsecond); it holds exactly
   the dates start + k * step up to e, in increasing order; x counts whole days from x0. *)
Theorem C25_fixed_grid : forall (T : Type) (N : NumOps T) start stop (m : option (fmodel T)) freq step per_year years x0,
  fixed_freq start freq step per_year ->
  exists e g, s_x_dates start stop m freq years x0 = Ok (map (fun t => (t, scaled m ((t - start) / DAY + x0))) g) /\
    2 * Z.abs ((e - stop) * Zpos (Qden years) - Qnum years * per_year) <= MICRO * Zpos (Qden years) /\
    (0 <= Qnum years -> stop <= e) /\
    StronglySorted Z.lt g /\
    (forall t, In t g <-> exists k, 0 <= k /\ t = start + k * step /\ t <= e) /\
    (start <= e -> In start g /\ (exists t, In t g /\ e - step < t <= e) /\ (forall t, In t g -> start <= t <= e)).
Proof.
  intros T N start stop m freq step per_year years x0 F.
  destruct (fixed_grid start stop m freq step per_year years x0 F) as (e & g & A & B & C & D & E).
  exists e, g. repeat (split; [assumption|]). intros Hle. apply (fixed_grid_covers start step e g); try assumption.
  exact (fixed_step_pos _ _ _ _ F).
Qed.
Print Assumptions C25_fixed_grid.
(* a length of the forecast half way between two microseconds goes to the even one *)
Theorem C25_ties : forall a b, 0 < b -> 2 * (a mod b) = b -> Z.even (round_half_even a b) = true.
Proof.
  intros a b Hb E. unfold round_half_even. destruct (Z.ltb_spec (2 * (a mod b)) b); [lia|]. destruct (Z.ltb_spec b (2 * (a mod b))); [lia|].
  destruct (Z.even (a / b)) eqn:Ev; [exact Ev|]. rewrite Z.even_add, Ev. reflexivity.
Qed.
Print Assumptions C25_ties.
Example C25_ties_example : round_half_even 5 2 = 2 /\ round_half_even 7 2 = 4 /\ round_half_even (-5) 2 = -2.
Proof. repeat split. Qed.
(* months and years: the first or last days of the selected months, at the time of day of start *)
Theorem C25_month_grid : forall (T : Type) (N : NumOps T) start stop (m : option (fmodel T)) f sel day mult years x0,
  month_freq f sel day mult ->
  (Qnum years * units_per_year (freq_short f)) mod Zpos (Qden years) = 0 ->
  let n := Qnum years * units_per_year (freq_short f) / Zpos (Qden years) in
  exists g, s_x_dates start stop m (Some f) years x0 = Ok (map (fun t => (t, scaled m ((t - start) / DAY + x0))) g) /\
    StronglySorted Z.lt g /\
    (forall t, In t g <-> exists k, sel k = true /\ t = day k * DAY + start mod DAY /\ start <= t <= add_months stop (mult * n)).
Proof. exact @month_grid. Qed.
Print Assumptions C25_month_grid.
(* the x of a grid date equals the x derived from the dates for fitting *)
Theorem C25_same_x : forall t0 start t, midnight t0 = true -> midnight start = true ->
  (t - start) / DAY + (start - x_origin t0) / DAY = (t - x_origin t0) / DAY.
Proof. exact fit_x_matches. Qed.
Print Assumptions C25_same_x.
Example C25_example :
  let _ := fops in
  s_x_dates (T:=float) (ts 2018 1 3) (ts 2018 1 10) None (Some "W-WED") (1 # 26) 2 =
    Ok [(ts 2018 1 3, 2%float); (ts 2018 1 10, 9%float); (ts 2018 1 17, 16%float); (ts 2018 1 24, 23%float)] /\
  s_x_dates (T:=float) (ts 2018 1 3) (ts 2018 1 4) None (Some "D") (3 # 365) 2 =
    Ok [(ts 2018 1 3, 2%float); (ts 2018 1 4, 3%float); (ts 2018 1 5, 4%float); (ts 2018 1 6, 5%float); (ts 2018 1 7, 6%float)] /\
  fixed_freq (ts 2018 1 3) (Some "W-WED") (7 * DAY) (52 * (7 * DAY)) /\
  s_x_dates (T:=float) (ts 2019 12 31) (ts 2020 1 31) None (Some "M") (1 # 6) 0 =
    Ok [(ts 2019 12 31, 0%float); (ts 2020 1 31, 31%float); (ts 2020 2 29, 60%float); (ts 2020 3 31, 91%float)].
Proof.
  cbv zeta. split; [vm_compute; reflexivity|]. split; [vm_compute; reflexivity|]. split; [|vm_compute; reflexivity].
  change (Some "W-WED") with (Some (wday_name (weekday (ts 2018 1 3)))). constructor.
Qed.
(* monthly data on the 15th: the grid holds month ends, so no actual date is predicted *)
Theorem C25_mid_month_refuted :
  let _ := fops in
  detect_freq [ts 2018 1 15; ts 2018 2 15; ts 2018 3 15] = Some "M" /\
  s_x_dates (T:=float) (ts 2018 1 15) (ts 2018 3 15) None (Some "M") (1 # 12) 0 =
    Ok [(ts 2018 1 31, 16%float); (ts 2018 2 28, 44%float); (ts 2018 3 31, 75%float)].
Proof. vm_compute. split; reflexivity. Qed.
Print Assumptions C25_mid_month_refuted.

(* ================= C26 ================= *)
Theorem C26_numeric_grid : forall (T : Type) (N : NumOps T) start stop (m : option (fmodel T)) years x0,
  s_x_numeric start stop m years x0 =
  map (fun i : nat => (start + Z.of_nat i, scaled m (x0 + Z.of_nat i + x0))) (seq 0 (numeric_size start stop years)).
Proof. exact @numeric_grid. Qed.
Print Assumptions C26_numeric_grid.
(* the index start + i is present iff it lies strictly below stop + 100 years *)
Theorem C26_size : forall start stop years (i : nat),
  (i < numeric_size start stop years)%nat <->
  (start + Z.of_nat i) * Zpos (Qden years) < stop * Zpos (Qden years) + 100 * Qnum years.
Proof. exact numeric_size_iff. Qed.
Print Assumptions C26_size.
(* run_forecast passes the first x both as start and as x_start: the x given to the model at index
   start + i is that of the fit only if the first x is 0 *)
Theorem C26_same_x_iff : forall start stop years (i : nat), (i < numeric_size start stop years)%nat ->
  (nth_error (s_x_numeric start stop None years start) i = Some (start + Z.of_nat i, Fin (IZR (start + Z.of_nat i)))
   <-> start = 0).
Proof.
  intros start stop years i Hi. rewrite numeric_grid, nth_error_map.
  assert (E : nth_error (seq 0 (numeric_size start stop years)) i = Some i).
  { rewrite (nth_error_nth' _ 0%nat) by (now rewrite seq_length). now rewrite seq_nth. }
  rewrite E. cbn [option_map scaled model_requires_scaling nofZ XROps]. split.
  - intros [= H]. apply eq_IZR in H. lia.
  - intros ->. do 3 f_equal. rewrite Z.add_0_r. reflexivity.
Qed.
Print Assumptions C26_same_x_iff.
Theorem C26_offset_refuted :
  let _ := fops in
  s_x_numeric (T:=float) 10 12 None (1 # 100) 10 = [(10, 20%float); (11, 21%float); (12, 22%float)].
Proof. vm_compute. reflexivity. Qed.
Print Assumptions C26_offset_refuted.
Theorem C26_last_actual_refuted :
  let _ := fops in s_x_numeric (T:=float) 0 3 None 0 0 = [(0, 0%float); (1, 1%float); (2, 2%float)].
Proof. vm_compute. reflexivity. Qed.
Print Assumptions C26_last_actual_refuted.

(* ================= C27 ================= *)
Theorem C27_weekday : forall (T : Type) (N : NumOps T) start stop (m : option (fmodel T)) freq years x0,
  s_x_dates start stop m freq years x0 = Err AssertionError <->
  exists f, freq = Some f /\ startswith f "W" = true /\ f <> wday_name (weekday start).
Proof. exact @weekday_mismatch. Qed.
Print Assumptions C27_weekday.
Theorem C27_quarter : forall (T : Type) (N : NumOps T) start stop (m : option (fmodel T)) years x0,
  s_x_dates start stop m (Some "Q") years x0 = Err TypeError.
Proof. exact @quarter_error. Qed.
Print Assumptions C27_quarter.
Theorem C27_type_error : forall (T : Type) (N : NumOps T) start stop (m : option (fmodel T)) f years x0,
  startswith f "W" = false ->
  (s_x_dates start stop m (Some f) years x0 = Err TypeError <->
   ~ In (freq_short f) ["Y"; "A"; "M"; "W"; "D"; "H"]).
Proof.
  intros T N start stop m f years x0 W. rewrite (type_error start stop m f years x0 W). unfold dateoffset_input.
  set (s := freq_short f). cbn [In].
  repeat match goal with |- context [String.eqb s ?b] => destruct (String.eqb_spec s b) as [->|] end;
    split; intros; try discriminate; try reflexivity; try (exfalso; tauto).
  intros H1. intuition congruence.
Qed.
Print Assumptions C27_type_error.
Theorem C27_fractional : forall (T : Type) (N : NumOps T) start stop (m : option (fmodel T)) f sel day mult years x0,
  month_freq f sel day mult ->
  (Qnum years * units_per_year (freq_short f)) mod Zpos (Qden years) <> 0 ->
  s_x_dates start stop m (Some f) years x0 = Err ValueError.
Proof. exact @fractional_error. Qed.
Print Assumptions C27_fractional.
Theorem C27_none_is_weekly : forall (T : Type) (N : NumOps T) start stop (m : option (fmodel T)) years x0,
  s_x_dates start stop m None years x0 = s_x_dates start stop m (Some (wday_name (weekday start))) years x0.
Proof. exact @none_is_weekly. Qed.
Print Assumptions C27_none_is_weekly.
Example C27_example :
  let _ := fops in
  s_x_dates (T:=float) (ts 2018 1 3) (ts 2018 1 10) None (Some "W-MON") 2 0 = Err AssertionError /\
  (* yearly data with the default horizon of 2.5 years of run_forecast *)
  s_x_dates (T:=float) (ts 2010 1 1) (ts 2018 1 1) None (Some "YS") (5 # 2) 0 = Err ValueError /\
  s_x_dates (T:=float) (ts 2010 1 1) (ts 2018 1 1) None (Some "MS") (1 # 10) 0 = Err ValueError /\
  s_x_dates (T:=float) (ts 2010 1 1) (ts 2018 1 1) None (Some "Q") 2 0 = Err TypeError /\
  month_freq "YS" january month_start 12.
Proof. repeat split; [vm_compute; reflexivity..|constructor]. Qed.
End Z_statements.

(* ================= C28 ================= *)
(* aicc E n k = n ln(E/n) + 2k + 2k(k+1)/(n-k-1); below: both are scores and the first compares
   less than the second *)
Theorem C28_domain : forall E n k, (0 <= k)%Z -> (0 <= E)%R ->
  (get_aic_c (Fin E) n k = Err ValueError <-> (n <= k + 1)%Z \/ n = 0%Z).
Proof. exact score_domain. Qed.
Print Assumptions C28_domain.
Theorem C28_formula : forall E n k, (0 <= k)%Z -> (k + 1 < n)%Z -> (0 < E)%R ->
  get_aic_c (Fin E) n k =
  Ok (Fin (IZR n * ln (E / IZR n) + 2 * IZR k + 2 * IZR k * (IZR k + 1) / (IZR n - IZR k - 1))%R).
Proof. exact score_pos. Qed.
Print Assumptions C28_formula.
Theorem C28_increasing_in_error : forall E E' n k, (0 <= k)%Z -> (k + 1 < n)%Z -> (0 < E < E')%R ->
  below (get_aic_c (Fin E) n k) (get_aic_c (Fin E') n k).
Proof. exact score_increasing_error. Qed.
Print Assumptions C28_increasing_in_error.
Theorem C28_increasing_in_params : forall E n k k', (0 <= k < k')%Z -> (k' + 1 < n)%Z -> (0 < E)%R ->
  below (get_aic_c (Fin E) n k) (get_aic_c (Fin E) n k').
Proof. exact score_increasing_params. Qed.
Print Assumptions C28_increasing_in_params.
Theorem C28_zero_one_param : forall n, (2 < n)%Z -> get_aic_c (Fin 0) n 1 = Ok XNInf.
Proof. exact score_zero_one. Qed.
Print Assumptions C28_zero_one_param.
Theorem C28_zero_finite : forall n k, (0 <= k)%Z -> (k + 1 < n)%Z -> k <> 1%Z ->
  get_aic_c (Fin 0) n k = get_aic_c (Fin (Rpower 10 (-320))) n k.
Proof. intros n k Hk Hn H1. rewrite score_zero, score_pos by (try apply tiny_pos; assumption). reflexivity. Qed.
Print Assumptions C28_zero_finite.
Theorem C28_zero_below : forall E n k, (0 <= k)%Z -> (k + 1 < n)%Z -> (Rpower 10 (-320) < E)%R ->
  below (get_aic_c (Fin 0) n k) (get_aic_c (Fin E) n k).
Proof. exact score_zero_below. Qed.
Print Assumptions C28_zero_below.
(* among perfect fits fewer parameters win, one parameter against none excepted *)
Theorem C28_zero_params : forall n k k', (0 <= k < k')%Z -> (k' + 1 < n)%Z -> k' <> 1%Z ->
  below (get_aic_c (Fin 0) n k) (get_aic_c (Fin 0) n k').
Proof. exact score_zero_params. Qed.
Print Assumptions C28_zero_params.
(* the exception: with a perfect fit, one parameter beats zero parameters *)
Theorem C28_zero_params_refuted : below (get_aic_c (Fin 0) 10 1) (get_aic_c (Fin 0) 10 0).
Proof.
  rewrite score_zero_one, score_zero by reflexivity || discriminate.
  do 2 eexists. split; [reflexivity|]. split; reflexivity.
Qed.
Print Assumptions C28_zero_params_refuted.
(* the hypotheses are met by tests/test_model_utils.py's call get_aic_c(0.1, 10, 1) *)
Example C28_example :
  get_aic_c (Fin (1 / 10)) 10 1 = Ok (Fin (10 * ln (1 / 10 / 10) + 2 * 1 + 2 * 1 * (1 + 1) / (10 - 1 - 1))%R) /\
  get_aic_c (Fin (1 / 10)) 10 9 = Err ValueError /\
  below (get_aic_c (Fin (1 / 10)) 10 1) (get_aic_c (Fin (1 / 10)) 10 2).
Proof.
  assert (0 < 1 / 10)%R by (apply Rdiv_lt_0_compat; [apply Rlt_0_1|now apply IZR_lt]).
  split; [|split].
  - rewrite C28_formula by (assumption || easy). reflexivity.
  - apply C28_domain; [easy|now apply Rlt_le|left; easy].
  - apply C28_increasing_in_params; easy.
Qed.

(* ================= C29 ================= *)
(* tiny64 = 2024 * 2^-1074, the binary64 number nearest to 10^-320 *)
Theorem C29_underflow : forall m : libm, lm_pow m (float_ofZ 10) (float_ofZ (-320)) = tiny64 ->
  forall n k, (4048 <= n < 2 ^ 53)%Z -> (k + 1 < n)%Z -> k <> 1%Z ->
    get_aic_c (H := floatOps m) 0%float n k = Err ValueError.
Proof. exact underflow_raises. Qed.
Print Assumptions C29_underflow.
Theorem C29_short_series_score : forall m : libm, lm_pow m (float_ofZ 10) (float_ofZ (-320)) = tiny64 ->
  forall n k, (0 < n < 4048)%Z -> (k + 1 < n)%Z -> k <> 1%Z ->
    exists v, get_aic_c (H := floatOps m) 0%float n k = Ok v.
Proof. exact short_scores. Qed.
Print Assumptions C29_short_series_score.
Example C29_example :
  let m := {| lm_exp := fun x => x; lm_ln := fun x => x; lm_sin := fun x => x; lm_cos := fun x => x;
              lm_pow := fun _ _ => tiny64 |} in
  lm_pow m (float_ofZ 10) (float_ofZ (-320)) = tiny64 /\
  get_aic_c (H := floatOps m) 0%float 5000 2 = Err ValueError /\
  (exists v, get_aic_c (H := floatOps m) 0%float 4047 2 = Ok v) /\
  (* tiny64 is closer to 10^-320 than its neighbours: |2024 - 10^-320 2^1074| < 1/2 *)
  (2 * Z.abs (2024 * 10 ^ 320 - 2 ^ 1074) < 10 ^ 320)%Z /\
  Prim2SF tiny64 = S754_finite false 2024 (-1074).
Proof.
  cbv zeta. split; [reflexivity|]. split; [vm_compute; reflexivity|].
  split; [eexists; vm_compute; reflexivity|]. split; vm_compute; reflexivity.
Qed.

(* ================= C30 ================= *)
Theorem C30_none_iff : forall s : list (Z * XR), best_result_key s = Ok None <-> (forall p, In p s -> snd p = XNaN).
Proof. exact best_none. Qed.
Print Assumptions C30_none_iff.
Theorem C30_one_ninf : forall a lab b, no_ninf a -> no_ninf b -> best_result_key (a ++ (lab, XNInf) :: b) = Ok (Some lab).
Proof. exact best_one. Qed.
Print Assumptions C30_one_ninf.
Theorem C30_two_ninf : forall a l1 b l2 c, best_result_key (a ++ (l1, XNInf) :: b ++ (l2, XNInf) :: c) = Err ValueError.
Proof. exact best_two. Qed.
Print Assumptions C30_two_ninf.
(* first_min l i: position i holds a non-null score, no score is smaller, and every earlier
   non-null score is larger *)
Theorem C30_first_minimum : forall s, no_ninf s -> (exists p, In p s /\ snd p <> XNaN /\ snd p <> XPInf) ->
  exists i, best_result_key s = Ok (Some (Z.of_nat i)) /\ first_min (map snd s) i.
Proof. exact best_min. Qed.
Print Assumptions C30_first_minimum.
(* only +inf and nulls *)
Theorem C30_only_pinf : forall s : list (Z * XR), (forall p, In p s -> snd p = XNaN \/ snd p = XPInf) ->
  (exists p, In p s /\ snd p = XPInf) -> best_result_key s = Ok (Some 0%Z).
Proof. exact best_pinf. Qed.
Print Assumptions C30_only_pinf.
Example C30_example :
  let _ := fops in
  best_result_key (T:=float) [(7%Z, nan); (8%Z, 3%float); (9%Z, 1%float); (10%Z, 1%float)] = Ok (Some 2%Z) /\
  best_result_key (T:=float) [(7%Z, nan); (8%Z, 3%float); (9%Z, neg_infinity)] = Ok (Some 9%Z) /\
  best_result_key (T:=float) [(7%Z, neg_infinity); (9%Z, neg_infinity)] = Err ValueError /\
  best_result_key (T:=float) [(7%Z, nan)] = Ok None.
Proof. vm_compute. repeat split. Qed.
(* the index label is returned in one case, the position in the other: on a series with a
   non-default index the result is not consistently a key *)
Theorem C30_label_refuted :
  let _ := fops in
  best_result_key (T:=float) [(5%Z, 3%float); (6%Z, 1%float)] = Ok (Some 1%Z) /\
  best_result_key (T:=float) [(5%Z, 3%float); (6%Z, neg_infinity)] = Ok (Some 6%Z).
Proof. vm_compute. split; reflexivity. Qed.
Print Assumptions C30_label_refuted.
