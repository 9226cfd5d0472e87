(* Filling gaps twice: C93. *)
From Coq Require Import ZArith String List Bool Reals PrimFloat Sorted.
From Verif Require Import Num Py Cal Model Freq Interp Mask NumProofs InterpProofs IdemProofs Ex Properties6.
Import ListNotations.
Local Open Scope string_scope.
Local Open Scope list_scope.
Local Open Scope Z_scope.

(* [tame a]: a is a finite number or null. *)
Theorem C93_twice : forall iy (f g : frame XR), (iy = true -> forall r, In r (rows f) -> tame (r_y r) /\ tame (r_w r)) ->
  interpolate_df iy f = Ok g -> interpolate_df iy g = Ok g.
Proof. exact fill_twice. Qed.
Print Assumptions C93_twice.
(* any kind of numbers that represents the x of the filled table exactly; the values are not looked at *)
Theorem C93_positions : forall (T : Type) (N : NumOps T) iy (f g : frame T), interpolate_df iy f = Ok g ->
  (forall r, In r (rows g) -> exact_int (T := T) (r_x r)) -> interpolate_df false g = Ok g.
Proof. intros T N iy f g. exact (fill_again f g iy). Qed.
Print Assumptions C93_positions.
(* the mask of the second pass marks nothing *)
Theorem C93_mask : forall iy (f g : frame XR) m, (iy = true -> forall r, In r (rows f) -> tame (r_y r) /\ tame (r_w r)) ->
  interpolate_df_mask iy f = Ok (g, m) -> exists m', interpolate_df_mask iy g = Ok (g, m') /\ forall l, m' = Some l -> Forall (eq false) l.
Proof. exact mask_twice. Qed.
Print Assumptions C93_mask.
(* the grid of any frequency between any two dates is equally spaced, or the same grid is found again
   from its own dates *)
Theorem C93_grid : forall lo hi fr grid, asfreq_range lo hi fr = Ok grid ->
  equally_spaced grid \/
  (StronglySorted Z.lt grid /\
   forall a b, In a grid -> In b grid -> (forall t, In t grid -> a <= t <= b) -> asfreq_range a b (detect_freq grid) = Ok grid).
Proof. intros lo hi fr grid E. destruct (grid_again lo hi fr grid E) as [[S _]|S]; auto. Qed.
Print Assumptions C93_grid.
(* columns: interpolated once is enough *)
Theorem C93_columns : forall l : list XR, (forall a, In a l -> tame a) -> interp (interp l) = interp l.
Proof. exact interp_twice. Qed.
Print Assumptions C93_columns.

(* month ends, first days of years and days, each with a gap *)
Definition c93_months : frame float :=
  ex_dated [(ts 2018 1 31, (0, 10%float)); (ts 2018 2 28, (1, 20%float)); (ts 2018 4 30, (3, 40%float))]%Z.
Definition c93_years : frame float :=
  ex_dated [(ts 2015 1 1, (0, 10%float)); (ts 2016 1 1, (1, 20%float)); (ts 2019 1 1, (4, 50%float))]%Z.
Definition c93_days : frame float :=
  ex_dated [(ts 2018 1 1, (0, 10%float)); (ts 2018 1 2, (1, 20%float)); (ts 2018 1 4, (3, 40%float))]%Z.
Definition c93_two (iy iy' : bool) (f : frame float) : res (frame float) :=
  let N := fops in rbind (interpolate_df iy f) (interpolate_df iy').
Example C93_example :
  let N := fops in
  show (c93_two true true c93_months) = show (interpolate_df true c93_months) /\
  show (interpolate_df true c93_months) =
    Ok [(ts 2018 1 31, 0, Some 10%float); (ts 2018 2 28, 1, Some 20%float); (ts 2018 3 31, 2, Some 30%float); (ts 2018 4 30, 3, Some 40%float)]%Z /\
  show (c93_two true true c93_years) = show (interpolate_df true c93_years) /\
  show (interpolate_df true c93_years) =
    Ok [(ts 2015 1 1, 0, Some 10%float); (ts 2016 1 1, 1, Some 20%float); (ts 2017 1 1, 2, Some 30%float); (ts 2018 1 1, 3, Some 40%float); (ts 2019 1 1, 4, Some 50%float)]%Z /\
  show (c93_two false false c93_days) = show (interpolate_df false c93_days) /\
  show (interpolate_df false c93_days) =
    Ok [(ts 2018 1 1, 0, Some 10%float); (ts 2018 1 2, 1, Some 20%float); (ts 2018 1 3, 2, None); (ts 2018 1 4, 3, Some 40%float)]%Z.
Proof. cbv zeta. split; [|split; [|split; [|split; [|split]]]]; vm_compute; reflexivity. Qed.
(* The two steps cannot be taken one after the other: filling the gaps first and interpolating the values
   in a second pass leaves the values null on equally spaced grids, and interpolates them on months *)
Theorem C93_separate_steps_refuted :
  let N := fops in
  show (c93_two false true c93_days) <> show (interpolate_df true c93_days) /\
  show (c93_two false true c93_days) = show (interpolate_df false c93_days) /\
  show (c93_two false true c93_months) = show (interpolate_df true c93_months).
Proof. cbv zeta. split; [vm_compute; discriminate|split; vm_compute; reflexivity]. Qed.
Print Assumptions C93_separate_steps_refuted.
