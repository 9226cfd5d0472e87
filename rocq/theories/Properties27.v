(* The mask of filled rows: C83. *)
From Coq Require Import ZArith String List Bool Reals PrimFloat Sorted Lia Lra.
From Verif Require Import Num Py Cal Fmt Model Freq Interp Mask NumProofs ListProofs GridProofs InterpProofs MaskProofs Ex.
Import ListNotations.
Local Open Scope string_scope.
Local Open Scope list_scope.

(* ================= C04 ================= *)
(* the test of forecast.py finds exactly the models that disappear from sums and products *)
Theorem C04_null_test : forall (T : Type) (N : NumOps T) (m : fmodel T),
  (is_null_model m = true <-> forall m', madd m m' = m') /\ (is_null_model m = true <-> forall m', mmul m m' = m').
Proof. exact @null_test. Qed.
Print Assumptions C04_null_test.
Example C04_null_test_example :
  let N := fops in is_null_model model_null = true /\ is_null_model model_constant = false /\
  fm_name (madd model_constant model_constant) = "(constant+constant)".
Proof. repeat split; vm_compute; reflexivity. Qed.

(* ================= C83 ================= *)
(* the option adds a column: the table itself and the exceptions are those without it *)
Theorem C83_table : forall (T : Type) (N : NumOps T) iy (f : frame T),
  Py.rmap fst (interpolate_df_mask iy f) = interpolate_df iy f.
Proof. exact @mask_table. Qed.
Print Assumptions C83_table.
(* a table without gaps gets no mask *)
Theorem C83_complete : forall (T : Type) (N : NumOps T) iy (f : frame T), complete f -> interpolate_df_mask iy f = Ok (f, None).
Proof. exact @mask_complete. Qed.
Print Assumptions C83_complete.
(* [marks f g key mask]: one entry per row of g, true exactly at the keys that f does not have; as many
   entries are true as g has more rows than f *)
Theorem C83_numbers : forall iy (f : frame XR), has_date f = false -> ~ complete f -> NoDup (map r_x (rows f)) ->
  exists g mask, interpolate_df_mask iy f = Ok (g, Some mask) /\ interpolate_df iy f = Ok g /\ marks f g r_x mask.
Proof. exact mask_numbers. Qed.
Print Assumptions C83_numbers.
(* dates: x counts days, the dates lie on the grid of a frequency other than hours *)
Theorem C83_dates : forall iy (f : frame XR) o lo, has_date f = true -> ~ complete f -> NoDup (map r_date (rows f)) ->
  In lo (map r_date (rows f)) ->
  (forall t, In t (map r_date (rows f)) -> (lo <= t)%Z /\ on_grid lo (detect_freq (map r_date (rows f))) t) ->
  detect_freq (map r_date (rows f)) <> Some "H" -> counts_days o f ->
  exists g mask, interpolate_df_mask iy f = Ok (g, Some mask) /\ interpolate_df iy f = Ok g /\ marks f g r_date mask.
Proof. exact mask_dates. Qed.
Print Assumptions C83_dates.
(* every day or every week: the filled rows, too, have the x of their day *)
Theorem C83_days : forall (f g : frame XR) o lo iy, has_date f = true -> ~ complete f -> NoDup (map r_date (rows f)) ->
  In lo (map r_date (rows f)) -> counts_days o f ->
  (detect_freq (map r_date (rows f)) = Some "D" /\ (forall t, In t (map r_date (rows f)) -> lo <= t /\ (t - lo) mod DAY = 0)%Z) \/
  (detect_freq (map r_date (rows f)) = Some (wday_name (weekday lo)) /\ (forall t, In t (map r_date (rows f)) -> lo <= t /\ (t - lo) mod (7 * DAY) = 0)%Z) ->
  interpolate_df iy f = Ok g -> counts_days o g.
Proof. exact days_x. Qed.
Print Assumptions C83_days.

Definition c83_show {T} (r : res (frame T * option (list bool))) : res (list (Z * Z) * option (list bool)) :=
  Py.rmap (fun p => (map (fun q => (r_date q, r_x q)) (rows (fst p)), snd p)) r.
Definition c83_num (l : list Z) : frame float := mkFrame false false false (map (fun x => mkRow 0 "" x 1%float 1%float) l).
Definition c83_dated {T} (v : T) (l : list (Z * Z)) : frame T := mkFrame true false false (map (fun p => mkRow (fst p) "" (snd p) v v) l).
Example C83_example :
  let N := fops in
  c83_show (interpolate_df_mask true (c83_num [1; 2; 5]%Z)) = Ok ([(0, 1); (0, 2); (0, 3); (0, 4); (0, 5)], Some [false; false; true; true; false])%Z /\
  c83_show (interpolate_df_mask true (c83_num [1; 3; 5]%Z)) = Ok ([(0, 1); (0, 3); (0, 5)], None)%Z /\
  c83_show (interpolate_df_mask true (c83_num [1; 3; 3; 6]%Z)) = Err ValueError /\
  c83_show (interpolate_df_mask false (c83_dated 1%float [(ts 2018 1 1, 0); (ts 2018 1 2, 1); (ts 2018 1 4, 3)]%Z)) =
    Ok ([(ts 2018 1 1, 0); (ts 2018 1 2, 1); (ts 2018 1 3, 2); (ts 2018 1 4, 3)], Some [false; false; true; false])%Z.
Proof. repeat split; vm_compute; reflexivity. Qed.
(* months: the row of March is marked, but its x is not that of its day (89) *)
Example C83_days_months_refuted :
  let N := fops in
  c83_show (interpolate_df_mask false (c83_dated 1%float [(ts 2018 1 31, 30); (ts 2018 2 28, 58); (ts 2018 4 30, 119)]%Z)) =
    Ok ([(ts 2018 1 31, 30); (ts 2018 2 28, 58); (ts 2018 3 31, 88); (ts 2018 4 30, 119)], Some [false; false; true; false])%Z /\
  ((ts 2018 3 31 - ts 2018 1 1) / DAY = 89)%Z.
Proof. repeat split; vm_compute; reflexivity. Qed.
(* hours: x counts days, so the row that was added at 02:00 is not marked *)
Example C83_hours_refuted :
  let N := fops in
  let t := ts 2018 1 1 in
  c83_show (interpolate_df_mask false (c83_dated 1%float [(t, 0); (t + HOUR, 0); (t + 3 * HOUR, 0)]%Z)) =
    Ok ([(t, 0); (t + HOUR, 0); (t + 2 * HOUR, 0); (t + 3 * HOUR, 0)], Some [false; false; false; false])%Z.
Proof. vm_compute. reflexivity. Qed.
(* the hypotheses can be met: months with a gap, days with a gap *)
Example C83_hypotheses_example :
  let f := c83_dated (Fin 1) [(ts 2018 1 31, 30); (ts 2018 2 28, 58); (ts 2018 4 30, 119)]%Z in
  let d := c83_dated (Fin 1) [(ts 2018 1 1, 0); (ts 2018 1 2, 1); (ts 2018 1 4, 3)]%Z in
  (has_date f = true /\ ~ complete f /\ NoDup (map r_date (rows f)) /\ In (ts 2018 1 31) (map r_date (rows f)) /\
   (forall t, In t (map r_date (rows f)) -> (ts 2018 1 31 <= t)%Z /\ on_grid (ts 2018 1 31) (detect_freq (map r_date (rows f))) t) /\
   detect_freq (map r_date (rows f)) <> Some "H" /\ counts_days (ts 2018 1 1) f) /\
  (has_date d = true /\ ~ complete d /\ NoDup (map r_date (rows d)) /\ In (ts 2018 1 1) (map r_date (rows d)) /\
   counts_days (ts 2018 1 1) d /\ detect_freq (map r_date (rows d)) = Some "D" /\
   (forall t, In t (map r_date (rows d)) -> ts 2018 1 1 <= t /\ (t - ts 2018 1 1) mod DAY = 0)%Z) /\
  (let n := mkFrame false false false (map (fun x => mkRow 0%Z "" x (Fin 1) (Fin 1)) [1; 2; 5]%Z) in
   ~ complete n /\ NoDup (map r_x (rows n))).
Proof.
  assert (Dates : map r_date (rows (c83_dated (Fin 1) [(ts 2018 1 31, 30); (ts 2018 2 28, 58); (ts 2018 4 30, 119)]%Z)) = [ts 2018 1 31; ts 2018 2 28; ts 2018 4 30]) by reflexivity.
  assert (Freq : detect_freq [ts 2018 1 31; ts 2018 2 28; ts 2018 4 30] = Some "M") by (vm_compute; reflexivity).
  assert (Dates' : map r_date (rows (c83_dated (Fin 1) [(ts 2018 1 1, 0); (ts 2018 1 2, 1); (ts 2018 1 4, 3)]%Z)) = [ts 2018 1 1; ts 2018 1 2; ts 2018 1 4]) by reflexivity.
  cbv zeta. rewrite Dates, Dates', Freq. split; [|split].
  - split; [reflexivity|]. split; [intros C; apply no_gaps_iff in C; vm_compute in C; discriminate|].
    split; [repeat constructor; vm_compute; intuition discriminate|]. split; [now left|]. split; [|split; [discriminate|]].
    + assert (G : forall t k, (ts 2018 1 31 <= t)%Z -> (t = month_last k * DAY + ts 2018 1 31 mod DAY)%Z ->
        (ts 2018 1 31 <= t)%Z /\ on_grid (ts 2018 1 31) (Some "M") t).
      { intros t k L E. split; [exact L|]. cbn [on_grid]. right. right. right. right. left. split; [reflexivity|]. exists k. exact E. }
      intros t [<-|[<-|[<-|[]]]].
      * apply (G _ (12 * 2018)%Z); vm_compute; congruence.
      * apply (G _ (12 * 2018 + 1)%Z); vm_compute; congruence.
      * apply (G _ (12 * 2018 + 3)%Z); vm_compute; congruence.
    + intros r [<-|[<-|[<-|[]]]]; vm_compute; reflexivity.
  - split; [reflexivity|]. split; [intros C; apply no_gaps_iff in C; vm_compute in C; discriminate|].
    split; [repeat constructor; vm_compute; intuition discriminate|]. split; [now left|]. split; [|split; [vm_compute; reflexivity|]].
    + intros r [<-|[<-|[<-|[]]]]; vm_compute; reflexivity.
    + intros t [<-|[<-|[<-|[]]]]; vm_compute; split; congruence.
  - split; [intros C; apply no_gaps_iff in C; vm_compute in C; discriminate|].
    repeat constructor; vm_compute; intuition discriminate.
Qed.
