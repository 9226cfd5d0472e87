(* Names of models: C82; fixed models: C09. *)
From Coq Require Import ZArith String List Bool Reals Lia Lra Floats.
From Verif Require Import Num Py Cal Fmt Model Base Naive Dummy Fixed Fit.
From Verif Require Import NumProofs ListProofs StringProofs ModelProofs BaseProofs FixedProofs FitProofs NameProofs Ex.
Import ListNotations.
Local Open Scope string_scope.
Local Open Scope list_scope.
Local Open Scope Z_scope.

(* ================= C82 ================= *)
(* [written t]: the year of t has up to four digits.  Dates written as text compare like days: equal
   exactly on the same day, and in the order of the days. *)
Theorem C82_dates : forall a b, written a -> written b ->
  (fmt_date a = fmt_date b <-> day_of a = day_of b) /\ (str_leb (fmt_date a) (fmt_date b) = true <-> day_of a <= day_of b).
Proof.
  intros a b A B. split; [split; [now apply date_inj|apply date_day]|]. unfold str_leb. rewrite date_compare by assumption. unfold Z.le.
  destruct (day_of a ?= day_of b); split; congruence.
Qed.
Print Assumptions C82_dates.
(* Step and spike models built from dates *)
Theorem C82_steps : forall (T : Type) (N : NumOps T) a b, written a -> written b ->
  (model_eqb (get_model_step_date (T := T) a) (get_model_step_date b) = true <-> day_of a = day_of b) /\
  (model_leb (get_model_step_date (T := T) a) (get_model_step_date b) = true <-> day_of a <= day_of b).
Proof. exact @step_names. Qed.
Print Assumptions C82_steps.
Theorem C82_spikes : forall (T : Type) (N : NumOps T) a b a' b', written a -> written b -> written a' -> written b' ->
  (model_eqb (get_model_spike_date (T := T) a b) (get_model_spike_date a' b') = true <-> day_of a = day_of a' /\ day_of b = day_of b') /\
  (model_leb (get_model_spike_date (T := T) a b) (get_model_spike_date a' b') = true <->
     day_of a < day_of a' \/ (day_of a = day_of a' /\ day_of b <= day_of b')).
Proof. exact @spike_names. Qed.
Print Assumptions C82_spikes.
(* The names of the package: as written in the source, all different, without the characters that
   composite names are made of, and different from those of dated models. *)
Theorem C82_shipped : forall (T : Type) (N : NumOps T),
  map fm_name (shipped (T := T)) =
    ["null"; "constant"; "naive"; "snaive_wday"; "spike"; "linear"; "linear_nondec"; "quasilinear"; "exponential"; "decay";
     "step"; "two_steps"; "sigmoid_step"; "sigmoid"; "ramp"; "season_wday"; "season_month"; "season_month_old"; "season_fourier_yearly"] /\
  (forall m, (model_season_wday_2 (T := T) = Ok m -> fm_name m = "season_wday_2") /\ (model_dummy_christmas = Ok m -> fm_name m = "dummy_christmas") /\
     (model_dummy_month_start = Ok m -> fm_name m = "dummy_month_start") /\ (model_calendar_uk = Ok m -> fm_name m = "calendar_uk") /\
     (model_calendar_ita = Ok m -> fm_name m = "calendar_ita")) /\
  map cal_name [CalendarBankHolUK; CalendarChristmasUK; CalendarBankHolIta; CalendarChristmasIta] =
    ["CalendarBankHolUK"; "CalendarChristmasUK"; "CalendarBankHolIta"; "CalendarChristmasIta"] /\
  NoDup (shipped_names ++ ["season_wday_2"; "dummy_christmas"; "dummy_month_start"; "calendar_uk"; "calendar_ita"]) /\
  Forall plain (shipped_names ++ ["season_wday_2"; "dummy_christmas"; "dummy_month_start"; "calendar_uk"; "calendar_ita"]) /\
  (forall a b, plain (fm_name (get_model_step_date (T := T) a)) /\ plain (fm_name (get_model_spike_date (T := T) a b))) /\
  (forall a b c m, In m (shipped (T := T)) ->
     fm_name (get_model_step_date (T := T) a) <> fm_name m /\ fm_name (get_model_spike_date (T := T) b c) <> fm_name m /\
     fm_name (get_model_step_date (T := T) a) <> fm_name (get_model_spike_date (T := T) b c)).
Proof.
  intros T N. split; [apply shipped_named|]. split; [|split; [reflexivity|]].
  { intros m. repeat split; intros E; first [exact (dummy_named _ _ m E)|exact (calendars_named _ _ m E)]. }
  split; [apply names_plain|]. split; [apply names_plain|].
  split; [apply dated_plain|apply dated_apart].
Qed.
Print Assumptions C82_shipped.
(* The range in the metadata and in the long source names identifies the first and the last day *)
Theorem C82_ranges : forall (T : Type) (N : NumOps T) (E E' : env T) xs xs' ds ds' t0 t1 t0' t1',
  zmin_opt ds = Some t0 -> zmax_opt ds = Some t1 -> zmin_opt ds' = Some t0' -> zmax_opt ds' = Some t1' ->
  written t0 -> written t1 -> written t0' -> written t1' ->
  (range_label E xs (Some ds) = range_label E' xs' (Some ds') <-> day_of t0 = day_of t0' /\ day_of t1 = day_of t1').
Proof.
  intros T N E E' xs xs' ds ds' t0 t1 t0' t1' A B A' B' W0 W1 W0' W1'. cbn [range_label]. rewrite A, B, A', B'. rewrite <- range_inj by assumption.
  split; [intros K; exact (f_equal (fun r : res string => match r with Ok s => s | Err _ => ""%string end) K)|intros ->; reflexivity].
Qed.
Print Assumptions C82_ranges.
(* Two steps at different hours of a day have the same name, so they count as equal, though they
   predict different values. *)
Theorem C82_same_day_refuted : exists a b : Z, a <> b /\
  model_eqb (get_model_step_date (T := XR) a) (get_model_step_date b) = true /\
  call (get_model_step_date a) [Fin 0] (Some [a]) (Some [Fin 1]) false no_kw <> call (get_model_step_date b) [Fin 0] (Some [a]) (Some [Fin 1]) false no_kw.
Proof.
  exists (ts 2018 3 1), (ts 2018 3 1 + 3600000000000). split; [discriminate|]. split; [reflexivity|]. unfold call. cbn [fm_f get_model_step_date mk_model].
  intros K. vm_compute in K. injection K as K. lra.
Qed.
Print Assumptions C82_same_day_refuted.

Example C82_example : let N := fops in
  written (ts 2017 12 31) /\ written (ts 2018 1 1) /\ fm_name (get_model_step_date (T := float) (ts 2018 1 1)) = "step_date[2018-01-01]" /\
  model_leb (get_model_step_date (T := float) (ts 2017 12 31)) (get_model_step_date (ts 2018 1 1)) = true /\
  model_leb (get_model_step_date (T := float) (ts 2018 1 1)) (get_model_step_date (ts 2017 12 31)) = false /\
  fm_name (get_model_spike_date (T := float) (ts 2018 1 1) (ts 2018 1 10)) = "spike_date[2018-01-01,2018-01-10]" /\
  model_leb (get_model_spike_date (T := float) (ts 2018 1 1) (ts 2018 1 10)) (get_model_spike_date (ts 2018 1 1) (ts 2018 1 9)) = false /\
  ~ written (ts 10000 1 1) /\ str_leb (fmt_date (ts 9999 1 1)) (fmt_date (ts 10000 1 1)) = false.
Proof.
  cbv zeta. repeat split; try (vm_compute; reflexivity); try (vm_compute; discriminate). intros [_ K]. vm_compute in K. now apply K.
Qed.

(* ================= C09 ================= *)
(* Fixed steps and spikes: the composition mode of the call is used, and 'additive' without one.  A
   spike from sample i covers the given number of samples. *)
Theorem C09_fixed_step : forall (D A : R) xs, exists m, create_fixed_step (Fin D) (Fin A) = Ok m /\ fm_n m = 0%nat /\ fm_name m = "step_fixed" /\
  forall d p kw, (forall mult, call m (fins xs) d p mult kw = Ok (Ar (fins (map (step_spec mult A D) xs)))) /\
    fm_f m (fins xs) d p None kw = Ok (Ar (fins (map (step_spec false A D) xs))).
Proof.
  intros D A xs. destruct (fixed_model_spec (model_step (T := XR)) [Fin A; Fin D] false) as (_ & _ & K).
  destruct (K ltac:(discriminate) eq_refl) as (m & E & Nm & N0 & C1 & C2). exists m. split; [exact E|]. split; [exact N0|]. split; [exact Nm|].
  intros d p kw. split; [intros mult; rewrite C1|rewrite C2]; apply (step_formula xs d A D).
Qed.
Print Assumptions C09_fixed_step.
Theorem C09_fixed_spike : forall (D : R) (i n : nat) (xs : list XR), (i + n <= length xs)%nat ->
  exists m, create_fixed_spike (Fin D) (Fin (INR i)) (Fin (INR n)) = Ok m /\ fm_n m = 0%nat /\ fm_name m = "spike_fixed" /\
  forall d p kw, (forall mult, call m xs d p mult kw = Ok (Ar (fins (map (spike_spec mult i (i + n) D) (seq 0 (length xs)))))) /\
    fm_f m xs d p None kw = Ok (Ar (fins (map (spike_spec false i (i + n) D) (seq 0 (length xs))))).
Proof.
  intros D i n xs L. destruct (fixed_model_spec (model_spike (T := XR)) [Fin D; Fin (INR i); Fin (INR (i + n))] false) as (_ & _ & K).
  destruct (K ltac:(discriminate) eq_refl) as (m & E & Nm & N0 & C1 & C2). exists m. split.
  { unfold create_fixed_spike. rewrite add_fin, <- plus_INR. exact E. }
  split; [exact N0|]. split; [exact Nm|]. intros d p kw. split; [intros mult; rewrite C1|rewrite C2]; apply (spike_formula xs d D i (i + n)); lia.
Qed.
Print Assumptions C09_fixed_spike.
Example C09_fixed_example : let N := fops in
  rmap (fun m => fm_f m [0; 1; 2; 3]%float None None None no_kw) (create_fixed_step 10 2)%float = Ok (Ok (Ar [0; 0; 10; 10]%float)) /\
  rmap (fun m => fm_f m [0; 1; 2; 3]%float None None None no_kw) (create_fixed_spike 10 1 2)%float = Ok (Ok (Ar [0; 10; 10; 0]%float)) /\
  rmap (fun m => call m [0; 1; 2; 3]%float None None true no_kw) (create_fixed_spike 10 1 2)%float = Ok (Ok (Ar [1; 10; 10; 1]%float)).
Proof. vm_compute. auto. Qed.
