(* Gap filling, candidate models and outliers: C31, C39, C40, C44, C52, C55, C56. *)
From Coq Require Import ZArith String List Bool Reals PrimFloat Sorted Permutation Lia Lra.
From Verif Require Import Num Py Cal Fmt Model Base Naive Freq Normalize Fit Interp Select Outliers ListProofs NumProofs InterpProofs SelectProofs OutlierProofs OutlierReals QuantileProofs Ex.
Import ListNotations.
Local Open Scope string_scope.
Local Open Scope list_scope.

(* ================= C31 ================= *)
Theorem C31_complete_unchanged : forall (T : Type) (N : NumOps T) iy (f : frame T), complete f -> interpolate_df iy f = Ok f.
Proof. exact @interp_complete. Qed.
Print Assumptions C31_complete_unchanged.
Theorem C31_duplicates : forall (T : Type) (N : NumOps T) iy (f : frame T),
  ~ complete f -> ~ NoDup (map (pos f) (rows f)) -> interpolate_df iy f = Err ValueError.
Proof. exact @interp_duplicates. Qed.
Print Assumptions C31_duplicates.
(* [reindexed key orig grid rs]: rs has one row per grid point in order; rows of orig whose key is on
   the grid are in rs; every other row of rs lies between samples and is null *)
Theorem C31_numbers : forall (T : Type) (N : NumOps T) (f : frame T),
  has_date f = false -> ~ complete f -> NoDup (map r_x (rows f)) ->
  exists lo hi rs, interpolate_df false f = Ok (mkFrame false (has_src f) (has_w f) rs) /\
    In lo (map r_x (rows f)) /\ In hi (map r_x (rows f)) /\ reindexed r_x (rows f) (zrange lo hi) rs /\
    (forall r, In r (rows f) -> In r rs).
Proof. exact @interp_numbers. Qed.
Print Assumptions C31_numbers.
Theorem C31_dates : forall (T : Type) (N : NumOps T) (f f' : frame T),
  has_date f = true -> ~ complete f -> NoDup (map r_date (rows f)) ->
  (forall r, In r (rows f) -> exact_int (T := T) (r_x r)) ->
  interpolate_df false f = Ok f' ->
  exists lo hi grid rs, f' = mkFrame true (has_src f) (has_w f) rs /\
    In lo (map r_date (rows f)) /\ In hi (map r_date (rows f)) /\
    (forall t, In t (map r_date (rows f)) -> (lo <= t <= hi)%Z) /\
    asfreq_range lo hi (detect_freq (map r_date (rows f))) = Ok grid /\
    reindexed r_date (rows f) grid rs.
Proof. exact @interp_dates. Qed.
Print Assumptions C31_dates.
(* the x of the filled rows *)
Theorem C31_dates_x : forall (T : Type) (N : NumOps T) iy (f f' : frame T),
  has_date f = true -> ~ complete f -> NoDup (map r_date (rows f)) -> interpolate_df iy f = Ok f' ->
  exists grid, map r_date (rows f') = grid /\
    to_ints (interp (map (fun t => match lookup r_date (rows f) t with Some r => nofZ (r_x r) | None => nnan end) grid))
    = Ok (map r_x (rows f')).
Proof. exact @interp_dates_x. Qed.
Print Assumptions C31_dates_x.
(* no row is lost if all dates lie on the grid *)
Theorem C31_dates_kept : forall (f : frame XR) lo,
  has_date f = true -> ~ complete f -> NoDup (map r_date (rows f)) -> In lo (map r_date (rows f)) ->
  (forall t, In t (map r_date (rows f)) -> (lo <= t)%Z /\ on_grid lo (detect_freq (map r_date (rows f))) t) ->
  exists hi grid rs, interpolate_df false f = Ok (mkFrame true (has_src f) (has_w f) rs) /\
    In hi (map r_date (rows f)) /\ (forall t, In t (map r_date (rows f)) -> (lo <= t <= hi)%Z) /\
    asfreq_range lo hi (detect_freq (map r_date (rows f))) = Ok grid /\
    reindexed r_date (rows f) grid rs /\ (forall r, In r (rows f) -> In r rs).
Proof. exact interp_dates_ok. Qed.
Print Assumptions C31_dates_kept.
Theorem C31_grid : forall lo hi freq grid, (lo <= hi)%Z -> asfreq_range lo hi freq = Ok grid ->
  StronglySorted Z.lt grid /\ (forall t, In t grid -> (lo <= t <= hi)%Z).
Proof. exact asfreq_grid. Qed.
Print Assumptions C31_grid.
(* interpolate_y = True: the same rows, with y and weight interpolated *)
Theorem C31_interpolate_y : forall (T : Type) (N : NumOps T) (f : frame T), ~ complete f ->
  match interpolate_df false f with
  | Ok f0 => exists f1, interpolate_df true f = Ok f1 /\ y_interpolated f0 f1
  | Err e => interpolate_df true f = Err e
  end.
Proof. exact @interp_y. Qed.
Print Assumptions C31_interpolate_y.
(* interpolation of a column: values are kept; nulls before the first value stay; nulls between two
   values lie on the line through them; nulls after the last value repeat it *)
Theorem C31_interpolation : forall (l : list XR) j,
  (forall v, valid l j v -> nth_error (interp l) j = Some v) /\
  ((forall e, (e <= j)%nat -> null_at l e) -> nth_error (interp l) j = Some XNaN) /\
  (forall i k a b, (i < j < k)%nat -> valid l i (Fin a) -> valid l k (Fin b) -> (forall e, (i < e < k)%nat -> null_at l e) ->
     nth_error (interp l) j = Some (Fin (a + (b - a) * (INR j - INR i) / (INR k - INR i)))) /\
  (forall i a, (i < j < length l)%nat -> valid l i a -> (forall e, (i < e < length l)%nat -> null_at l e) ->
     nth_error (interp l) j = Some a).
Proof.
  intros l j. split; [|split; [|split]].
  - intros v. apply interp_keeps.
  - exact (interp_leading l j).
  - intros i k a b L Va Vb Hn. rewrite (interp_between l i j k (Fin a) (Fin b) L Va Vb Hn). f_equal. now apply between_line.
  - intros i a. apply interp_trailing.
Qed.
Print Assumptions C31_interpolation.

Definition ex_num (l : list (Z * float)) : frame float := mkFrame false false false (map (fun p => mkRow 0 "" (fst p) (snd p) 1%float) l).
Definition ex_dated (l : list (Z * (Z * float))) : frame float :=
  mkFrame true false false (map (fun p => mkRow (fst p) "" (fst (snd p)) (snd (snd p)) 1%float) l).
Definition show (r : res (frame float)) : res (list (Z * Z * option float)) :=
  rmap (fun f => map (fun r => (r_date r, r_x r, if PrimFloat.eqb (r_y r) (r_y r) then Some (r_y r) else None)) (rows f)) r.
Example C31_numbers_example :
  let N := fops in
  show (interpolate_df false (ex_num [(1, 10%float); (2, 20%float); (5, 50%float)]%Z)) =
    Ok [(0, 1, Some 10%float); (0, 2, Some 20%float); (0, 3, None); (0, 4, None); (0, 5, Some 50%float)]%Z /\
  show (interpolate_df true (ex_num [(1, 10%float); (2, 20%float); (5, 50%float)]%Z)) =
    Ok [(0, 1, Some 10%float); (0, 2, Some 20%float); (0, 3, Some 30%float); (0, 4, Some 40%float); (0, 5, Some 50%float)]%Z /\
  show (interpolate_df true (ex_num [(1, 10%float); (2, 20%float); (2, 30%float); (5, 50%float)]%Z)) = Err ValueError /\
  show (interpolate_df true (ex_num [(1, 10%float); (3, 20%float); (5, 50%float)]%Z)) =
    Ok [(0, 1, Some 10%float); (0, 3, Some 20%float); (0, 5, Some 50%float)]%Z.
Proof. repeat split; vm_compute; reflexivity. Qed.
Example C31_dates_example :
  let N := fops in
  show (interpolate_df false (ex_dated [(ts 2018 1 31, (0, 10%float)); (ts 2018 2 28, (1, 20%float)); (ts 2018 4 30, (3, 40%float))]%Z)) =
    Ok [(ts 2018 1 31, 0, Some 10%float); (ts 2018 2 28, 1, Some 20%float); (ts 2018 3 31, 2, None); (ts 2018 4 30, 3, Some 40%float)]%Z /\
  show (interpolate_df true (ex_dated [(ts 2018 1 1, (0, 10%float)); (ts 2018 1 2, (1, 20%float)); (ts 2018 1 4, (3, 40%float))]%Z)) =
    Ok [(ts 2018 1 1, 0, Some 10%float); (ts 2018 1 2, 1, Some 20%float); (ts 2018 1 3, 2, Some 30%float); (ts 2018 1 4, 3, Some 40%float)]%Z.
Proof. repeat split; vm_compute; reflexivity. Qed.
(* Samples are not always kept: month-middle dates make it fail, and a date off the month-end grid is
   dropped silently *)
Example C31_original_rows_kept_refuted :
  let N := fops in
  show (interpolate_df false (ex_dated [(ts 2018 1 15, (0, 10%float)); (ts 2018 2 15, (1, 20%float)); (ts 2018 4 15, (3, 40%float))]%Z)) = Err ValueError /\
  show (interpolate_df false (ex_dated [(ts 2018 1 1, (0, 10%float)); (ts 2018 1 31, (1, 20%float)); (ts 2018 4 30, (4, 40%float))]%Z)) =
    Ok [(ts 2018 1 31, 1, Some 20%float); (ts 2018 2 28, 2, None); (ts 2018 3 31, 3, None); (ts 2018 4 30, 4, Some 40%float)]%Z.
Proof. repeat split; vm_compute; reflexivity. Qed.

(* ================= C39 ================= *)
(* [first_of_each_name l r]: r is l without the later models of a name already seen *)
Theorem C39_combinations : forall (T : Type) (N : NumOps T) mode (ts ss : list (fmodel T)), ts <> [] -> ss <> [] ->
  first_of_each_name (candidates mode ts ss) (list_model (Some ts) (Some ss) mode).
Proof. exact @list_model_both. Qed.
Print Assumptions C39_combinations.
Theorem C39_one_side : forall (T : Type) (N : NumOps T) l mode (e : option (list (fmodel T))), missing e ->
  first_of_each_name (given l) (list_model l e mode) /\ first_of_each_name (given l) (list_model e l mode).
Proof. exact @list_model_one. Qed.
Print Assumptions C39_one_side.
Definition names {T} (l : list (fmodel T)) : list string := map fm_name l.
Example C39_example :
  let N := fops in
  names (list_model (Some [model_linear; model_ramp; model_linear]) (Some [model_null; model_season_wday]) "both") =
    ["linear"; "(linear+season_wday)"; "ramp"; "(ramp+season_wday)"; "(linear*season_wday)"; "(ramp*season_wday)"] /\
  names (list_model (Some [model_linear; model_ramp]) (Some [model_season_wday]) "mult") = ["(linear*season_wday)"; "(ramp*season_wday)"] /\
  names (list_model (Some [model_linear; model_linear]) None "mult") = ["linear"] /\
  names (list_model None (Some [model_linear; model_ramp]) "mult") = ["linear"; "ramp"].
Proof. repeat split; vm_compute; reflexivity. Qed.

(* ================= C40 ================= *)
Theorem C40_default : forall (T : Type) (N : NumOps T) (ds : list Z),
  (weekly_data ds -> yearly_data ds ->
     auto_season "add" None None ds = [madd model_season_wday model_season_fourier_yearly; model_null; model_season_fourier_yearly; model_season_wday] /\
     auto_season "mult" None None ds = [mmul model_season_wday model_season_fourier_yearly; model_null; model_season_fourier_yearly; model_season_wday]) /\
  (weekly_data ds -> ~ yearly_data ds -> forall mode, mode = "add" \/ mode = "mult" ->
     auto_season mode None None ds = [model_null; model_season_wday]) /\
  (~ weekly_data ds -> yearly_data ds -> forall mode, mode = "add" \/ mode = "mult" ->
     auto_season mode None None ds = [model_null; model_season_fourier_yearly]) /\
  (~ weekly_data ds -> ~ yearly_data ds -> forall mode, auto_season mode None None ds = [model_null]).
Proof. exact @auto_default. Qed.
Print Assumptions C40_default.
(* user lists: null model, then all non-null combinations; 'add' keeps repeated names, 'mult' drops them *)
Theorem C40_add : forall (T : Type) (N : NumOps T) ly lw (ds : list Z),
  exists cw cy, choice (weekly_data ds) [model_season_wday; model_null] lw cw /\
    choice (yearly_data ds) [model_season_fourier_yearly; model_null] ly cy /\
    StronglySorted name_le (auto_season (T := T) "add" ly lw ds) /\
    Permutation (auto_season "add" ly lw ds)
      (model_null :: filter (fun m => negb (String.eqb (fm_name m) "null")) (combinations madd cw cy)).
Proof. exact @auto_season_add. Qed.
Print Assumptions C40_add.
Theorem C40_mult : forall (T : Type) (N : NumOps T) ly lw (ds : list Z),
  exists cw cy, choice (weekly_data ds) [model_season_wday; model_null] lw cw /\
    choice (yearly_data ds) [model_season_fourier_yearly; model_null] ly cy /\
    StronglySorted name_le (auto_season (T := T) "mult" ly lw ds) /\
    exists l, first_of_each_name (model_null :: combinations mmul cw cy) l /\ Permutation (auto_season "mult" ly lw ds) l.
Proof. exact @auto_season_mult. Qed.
Print Assumptions C40_mult.
Theorem C40_other_mode : forall (T : Type) (N : NumOps T) mode ly lw (ds : list Z), mode <> "add" -> mode <> "mult" ->
  auto_season (T := T) mode ly lw ds = [model_null].
Proof. exact @auto_season_other. Qed.
Print Assumptions C40_other_mode.
Theorem C40_set : forall (T : Type) (N : NumOps T) mode ly lw (ds ds' : list Z), (forall t, In t ds <-> In t ds') ->
  auto_season (T := T) mode ly lw ds = auto_season mode ly lw ds'.
Proof. exact @auto_season_set. Qed.
Print Assumptions C40_set.
Definition days (n : nat) (step : Z) : list Z := map (fun i => ts 2018 1 1 + Z.of_nat i * step * DAY)%Z (seq 0 n).
Example C40_example :
  let N := fops in
  names (auto_season "add" None None (days 11 1)) = ["null"] /\
  names (auto_season "add" None None (days 12 1)) = ["null"; "season_wday"] /\
  names (auto_season "mult" None None (days 548 1)) = ["null"; "season_wday"] /\
  names (auto_season "mult" None None (days 549 1)) = ["(season_wday*season_fourier_yearly)"; "null"; "season_fourier_yearly"; "season_wday"] /\
  names (auto_season "add" None None (days 7 92)) = ["null"; "season_fourier_yearly"] /\
  names (auto_season "add" None None (days 7 93)) = ["null"] /\
  names (auto_season "add" None (Some []) (days 20 1)) = ["null"] /\
  names (auto_season "add" None (Some [model_season_wday; model_season_wday]) (days 20 1)) = ["null"; "season_wday"; "season_wday"].
Proof. repeat split; vm_compute; reflexivity. Qed.
Example C40_coverage_example : weekly_data (days 12 1) /\ ~ weekly_data (days 11 1) /\ ~ yearly_data (days 12 1).
Proof.
  assert (B : forall n t, In t (days n 1) -> (ts 2018 1 1 <= t <= ts 2018 1 1 + (Z.of_nat n - 1) * DAY)%Z).
  { intros n t I. apply in_map_iff in I as (i & <- & I). apply in_seq in I. assert (0 < DAY)%Z by reflexivity. nia. }
  split; [split|split].
  - exists (ts 2018 1 1), (ts 2018 1 12). split; [vm_compute; tauto|]. split; [vm_compute; tauto|reflexivity].
  - exists (ts 2018 1 1), (ts 2018 1 2). split; [vm_compute; tauto|]. split; [vm_compute; tauto|]. split; [reflexivity|discriminate].
  - intros [(a & b & Ia & Ib & L) _]. apply B in Ia, Ib. change (21 * DAY / 2)%Z with (10 * DAY + DAY / 2)%Z in L. assert (0 <= DAY / 2)%Z by discriminate. lia.
  - intros [(a & b & Ia & Ib & L) _]. apply B in Ia, Ib. change (1095 * DAY / 2)%Z with (547 * DAY + DAY / 2)%Z in L. assert (0 <= DAY / 2)%Z by discriminate. assert (0 < DAY)%Z by reflexivity. lia.
Qed.

(* ================= C44 ================= *)
Theorem C44_error : forall (T : Type) (N : NumOps T) (f : frame T), model_outliers f = Err ValueError <-> ~ NoDup (positions f).
Proof. exact @outliers_error. Qed.
Print Assumptions C44_error.
Theorem C44_shape : forall (T : Type) (N : NumOps T) (f : frame T), NoDup (positions f) ->
  exists steps spikes, model_outliers f = Ok (steps, spikes) /\ length steps = length (rows f) /\ length spikes = length (rows f).
Proof. exact @outliers_shape. Qed.
Print Assumptions C44_shape.
(* flags lie between changed samples of the same run; steps only inside change windows *)
Theorem C44_inside : forall (T : Type) (N : NumOps T) (f : frame T) steps spikes, model_outliers f = Ok (steps, spikes) ->
  (forall i, nth_error spikes i = Some true -> between_changes f i true) /\
  (forall i p, nth_error steps i = Some true -> nth_error (positions f) i = Some p -> has_date f = true \/ p <> 0%Z ->
     window_at f i /\ between_changes f i false).
Proof. exact @outliers_inside. Qed.
Print Assumptions C44_inside.
(* [change_at f i]: sample i lies, relative to the one before, beyond one and a half times the distance
   of the quartiles below the lower or above the upper quartile of all such differences *)
Theorem C44_fences : forall (f : frame XR) ys, values f ys -> (2 <= length ys)%nat ->
  exists q1 q3, quantile_of (1 / 4) (rdiff ys) q1 /\ quantile_of (3 / 4) (rdiff ys) q3 /\
    forall i, change_at f i <-> exists a b, (1 <= i)%nat /\ nth_error ys (i - 1) = Some a /\ nth_error ys i = Some b /\
                                (b - a < q1 - 3 / 2 * (q3 - q1) \/ q3 + 3 / 2 * (q3 - q1) < b - a)%R.
Proof. exact change_fences. Qed.
Print Assumptions C44_fences.
Theorem C44_quantile_unique : forall p l q q', quantile_of p l q -> quantile_of p l q' -> q = q'.
Proof. exact quantile_of_unique. Qed.
Print Assumptions C44_quantile_unique.
Example C44_quartiles : quantile_of (1 / 4) [7; 1; 5; 2]%R (7 / 4)%R /\ quantile_of (3 / 4) [7; 1; 5; 2]%R (11 / 2)%R.
Proof.
  assert (P : Permutation [7; 1; 5; 2]%R [1; 2; 5; 7]%R) by (apply perm_trans with (1 :: 7 :: 5 :: [2])%R; [constructor|constructor; apply perm_trans with (7 :: 2 :: [5])%R; [constructor; constructor|apply perm_trans with (2 :: 7 :: [5])%R; repeat constructor]]).
  assert (S : StronglySorted Rle [1; 2; 5; 7]%R) by (repeat constructor; lra).
  split; [exists [1; 2; 5; 7]%R, 0%nat|exists [1; 2; 5; 7]%R, 2%nat]; repeat split; auto; cbn; try lia; lra.
Qed.
Theorem C44_no_change : forall (T : Type) (N : NumOps T) (f : frame T), NoDup (positions f) -> (forall i, ~ change_at f i) ->
  model_outliers f = Ok (repeat false (length (rows f)), repeat false (length (rows f))).
Proof. exact @outliers_no_change. Qed.
Print Assumptions C44_no_change.
Theorem C44_constant_increments : forall (f : frame XR) ys d, NoDup (positions f) -> values f ys ->
  (forall x, In x (rdiff ys) -> x = d) ->
  model_outliers f = Ok (repeat false (length (rows f)), repeat false (length (rows f))).
Proof. exact constant_increments. Qed.
Print Assumptions C44_constant_increments.
Theorem C44_shift : forall (f : frame XR) c, model_outliers (map_y (fun y => nadd y (Fin c)) f) = model_outliers f.
Proof. exact outliers_shift. Qed.
Print Assumptions C44_shift.
Theorem C44_scale : forall k, (0 < k)%R -> forall f : frame XR, model_outliers (map_y (fun y => nmul y (Fin k)) f) = model_outliers f.
Proof. exact outliers_scale. Qed.
Print Assumptions C44_scale.
(* a jump of a straight line is reported, as a step, at the right sample and nowhere else *)
Theorem C44_step_found : forall (f : frame XR) a d s j n, NoDup (positions f) -> values f (step_series a d s j n) -> s <> 0%R ->
  (6 <= n)%nat -> (1 <= j)%nat -> (j + 1 < n)%nat ->
  model_outliers f = Ok (map (fun i => Nat.eqb i j) (seq 0 n), repeat false n).
Proof. exact step_found. Qed.
Print Assumptions C44_step_found.
(* so is a bump larger than the slope, as a spike *)
Theorem C44_spike_found : forall (f : frame XR) a d s j n, StronglySorted Z.lt (positions f) -> values f (spike_series a d s j n) ->
  (Rabs d < Rabs s)%R -> (6 <= n)%nat -> (1 <= j)%nat -> (j + 2 < n)%nat ->
  model_outliers f = Ok (repeat false n, map (fun i => Nat.eqb i j) (seq 0 n)).
Proof. exact spike_found. Qed.
Print Assumptions C44_spike_found.
Definition ex_series (ys : list float) : frame float :=
  mkFrame true false false (map (fun p => mkRow (fst p) "" 0 (snd p) 1%float) (combine (jan2018 (length ys)) ys)).
Definition marks (r : res (list bool * list bool)) : res (list nat * list nat) :=
  let pick l := map fst (filter snd (combine (seq 0 (length l)) l)) in
  rmap (fun p => (pick (fst p), pick (snd p))) r.
Example C44_example :
  let N := fops in
  marks (model_outliers (ex_series [0; 1; 2; 3; 14; 15; 16; 17]%float)) = Ok ([4], [])%nat /\
  marks (model_outliers (ex_series [0; 1; 2; 3; 14; 5; 6; 7]%float)) = Ok ([], [4])%nat /\
  marks (model_outliers (ex_series [0; 1; 2; 3; 4; 5; 6; 7]%float)) = Ok ([], [])%nat /\
  marks (model_outliers (mkFrame false false false [mkRow 0 "" 3 1 1; mkRow 0 "" 3 2 1]%float)) = Err ValueError.
Proof. repeat split; vm_compute; reflexivity. Qed.
(* limits of the detection: a change at the last sample is not seen, a bump at the last but one is a
   step, a bump not exceeding the slope is not seen *)
Example C44_missed :
  let N := fops in
  marks (model_outliers (ex_series [0; 1; 2; 3; 4; 5; 6; 17]%float)) = Ok ([], [])%nat /\
  marks (model_outliers (ex_series [0; 1; 2; 3; 4; 5; 16; 7]%float)) = Ok ([6], [])%nat /\
  marks (model_outliers (ex_series [0; 10; 20; 30; 45; 50; 60; 70]%float)) = Ok ([], [])%nat.
Proof. repeat split; vm_compute; reflexivity. Qed.
(* without dates, a regular sample at x = 0 next to a change at the last sample is reported as a step *)
Example C44_step_between_changes_refuted :
  let N := fops in
  let f := mkFrame false false false (map (fun p => mkRow 0 "" (fst p) (snd p) 1%float) (combine [-6; -5; -4; -3; -2; -1; 0; 1]%Z [0; 1; 2; 3; 4; 5; 6; 17]%float)) in
  marks (model_outliers f) = Ok ([6], [])%nat /\ iqr_thresholds (pd_diff (map r_y (rows f))) = (1, 1)%float.
Proof. repeat split; vm_compute; reflexivity. Qed.
Example C44_series_example :
  step_series 0 1 10 4 8 = [0 + 1 * 0 + 0; 0 + 1 * 1 + 0; 0 + 1 * (1 + 1) + 0; 0 + 1 * (1 + 1 + 1) + 0; 0 + 1 * (1 + 1 + 1 + 1) + 10;
     0 + 1 * (1 + 1 + 1 + 1 + 1) + 10; 0 + 1 * (1 + 1 + 1 + 1 + 1 + 1) + 10; 0 + 1 * (1 + 1 + 1 + 1 + 1 + 1 + 1) + 10]%R.
Proof. reflexivity. Qed.

(* ================= C52 ================= *)
Theorem C52_requested : forall (T : Type) (m : fmodel T) mode l, mode = "add" \/ mode = "mult" -> add_mult_label m mode l = mode.
Proof. exact @label_requested. Qed.
Print Assumptions C52_requested.
Theorem C52_both : forall (T : Type) (m : fmodel T) mode l, mode <> "add" -> mode <> "mult" ->
  (In (fm_name m) (map fm_name l) -> add_mult_label m mode l = "add") /\
  (~ In (fm_name m) (map fm_name l) -> add_mult_label m mode l = "mult").
Proof. exact @label_both. Qed.
Print Assumptions C52_both.
Example C52_example : let N := fops in
  let l := list_model (Some [model_linear]) (Some [model_null; model_season_wday]) "add" in
  map (fun m => add_mult_label m "both" l) (list_model (Some [model_linear]) (Some [model_null; model_season_wday]) "both") = ["add"; "add"; "mult"] /\
  map (fun m => add_mult_label m "mult" l) (list_model (Some [model_linear]) (Some [model_null; model_season_wday]) "mult") = ["mult"; "mult"].
Proof. split; vm_compute; reflexivity. Qed.

(* ================= C55 ================= *)
Theorem C55_ramp : forall (T : Type) (N : NumOps T) (f : frame T), use_ramp f = true <-> has_date f = true /\ two_years f.
Proof. exact @use_ramp_iff. Qed.
Print Assumptions C55_ramp.
Theorem C55_calendar : forall (T : Type) (N : NumOps T) (f : frame T), use_calendar f = true <-> has_date f = true /\ daily_year f.
Proof. exact @use_calendar_iff. Qed.
Print Assumptions C55_calendar.
Theorem C55_trend : forall (T : Type) (N : NumOps T) (f : frame T),
  (has_date f = true /\ two_years f -> default_trend f = [model_linear; madd model_linear model_ramp]) /\
  (~ (has_date f = true /\ two_years f) -> default_trend f = [model_linear]).
Proof. exact @default_trend_cases. Qed.
Print Assumptions C55_trend.
Theorem C55_naive : forall (T : Type) (N : NumOps T) freq,
  (freq = Some "D" -> default_naive (T := T) freq = [model_snaive_wday]) /\ (freq <> Some "D" -> default_naive (T := T) freq = [model_naive]).
Proof. exact @default_naive_cases. Qed.
Print Assumptions C55_naive.
Definition ex_weights (l : list (Z * float)) : frame float :=
  mkFrame true false true (map (fun p => mkRow (fst p) "" 0 1%float (snd p)) l).
Example C55_example :
  let N := fops in
  let ones l := map (fun t => (t, 1%float)) l in
  use_ramp (ex_weights (ones [ts 2018 1 1; ts 2020 1 1])) = false /\
  use_ramp (ex_weights (ones [ts 2018 1 1; ts 2020 1 2])) = true /\
  use_ramp (ex_weights (ones [ts 2018 1 1; ts 2018 1 2] ++ [(ts 2020 1 2, 0%float)])) = false /\
  use_calendar (ex_weights (ones [ts 2018 1 1; ts 2018 1 2; ts 2019 1 1])) = false /\
  use_calendar (ex_weights (ones [ts 2018 1 1; ts 2018 1 2; ts 2019 1 2])) = true /\
  use_calendar (ex_weights (ones [ts 2018 1 1; ts 2018 1 3; ts 2019 1 4])) = false /\
  map fm_name (default_trend (ex_weights (ones [ts 2018 1 1; ts 2020 1 2]))) = ["linear"; "(linear+ramp)"].
Proof. repeat split; vm_compute; reflexivity. Qed.

(* ================= C56 ================= *)
(* whatever the correlation would be, even an error *)
Theorem C56_exceptions : forall (T : Type) (N : NumOps T) (corr : frame T -> res T) f, must_add f -> is_multiplicative corr f = Ok false.
Proof. exact @is_mult_false. Qed.
Print Assumptions C56_exceptions.
Theorem C56_otherwise : forall (T : Type) (N : NumOps T) (corr : frame T -> res T) f, ~ must_add f ->
  is_multiplicative corr f = (let* c := corr f in Ok (nleb (dec 8 10) c)).
Proof. exact @is_mult_corr. Qed.
Print Assumptions C56_otherwise.
Definition ex_mult (ys : list (Z * float)) : frame float := mkFrame true false false (map (fun p => mkRow (fst p) "" 0 (snd p) 1%float) ys).
Example C56_example :
  let N := fops in
  let good := ex_mult [(ts 2018 1 1, 1%float); (ts 2018 2 1, 2%float); (ts 2018 3 1, 3%float); (ts 2018 3 2, 3%float)] in
  is_multiplicative (fun _ => Ok 0.875%float) good = Ok true /\
  is_multiplicative (fun _ => Ok 0.75%float) good = Ok false /\
  is_multiplicative (fun _ => Ok nan) good = Ok false /\
  is_multiplicative (fun _ => Err TypeError) good = Err TypeError /\
  is_multiplicative (fun _ => Err TypeError) (ex_mult [(ts 2018 1 1, 1%float); (ts 2018 2 1, 2%float); (ts 2018 3 1, 0%float); (ts 2018 3 2, 3%float)]) = Ok false /\
  is_multiplicative (fun _ => Err TypeError) (ex_mult [(ts 2018 1 1, 1%float); (ts 2018 2 1, 2%float); (ts 2018 2 2, 1%float); (ts 2018 3 1, 3%float)]) = Ok false /\
  is_multiplicative (fun _ => Err TypeError) (ex_mult [(ts 2018 1 1, 1%float); (ts 2018 2 1, 2%float); (ts 2018 3 2, 3%float)]) = Ok false.
Proof. repeat split; vm_compute; reflexivity. Qed.
