(* Frequencies, date-derived x and forecast grids.  Models anticipy/model_utils.py 61-221, 300-339. *)
From Coq Require Import ZArith String List Bool QArith_base.
From Verif Require Import Num Py Cal Model.
Import ListNotations.
Local Open Scope string_scope.
Local Open Scope list_scope.
Local Open Scope Z_scope.

(* model_utils.py 30-38: dict_wday_name, with the default of dict.get in line 316 *)
Definition wday_name (w : Z) : string :=
  if w =? 0 then "W-MON" else if w =? 1 then "W-TUE" else if w =? 2 then "W-WED"
  else if w =? 3 then "W-THU" else if w =? 4 then "W-FRI" else if w =? 5 then "W-SAT"
  else if w =? 6 then "W-SUN" else "W".

(* model_utils.py 300-339, on a column of dates (a frame without a date column gives None, see
   detect_freq_frame).  s_date.min(), .day.max(), .month.max() are only reached with two or more
   dates; the value for an empty column is irrelevant. *)
Definition detect_freq (ds : list Z) : option string :=
  let s := sort_uniq ds in
  match zmin_opt (zdiff s) with
  | None => None
  | Some d =>
      if d =? HOUR then Some "H"
      else if d =? 7 * DAY then
        Some (match zmin_opt s with Some t => wday_name (weekday t) | None => "W" end)
      else if (28 * DAY <=? d) && (d <=? 31 * DAY) then
        match zmax_opt (map dom s) with
        | Some 1 => Some "MS"
        | _ => Some "M"
        end
      else if (89 * DAY <=? d) && (d <=? 92 * DAY) then Some "Q"
      else if (365 * DAY <=? d) && (d <=? 366 * DAY) then
        match zmax_opt (map dom s), zmax_opt (map month s) with
        | Some 1, Some 1 => Some "YS"
        | _, _ => Some "Y"
        end
      else if 23 * HOUR <=? d then Some "D"
      else None
  end.

(* model_utils.py 301-305 *)
Definition detect_freq_frame {T} (df : frame T) : option string :=
  if has_date df then detect_freq (map r_date (rows df)) else None.

(* model_utils.py 118-124: days since Monday of the first date's week; (s_date - date_start).dt.days
   rounds down.  iloc[0] of an empty column raises IndexError. *)
Definition x_origin (t0 : Z) : Z := t0 - weekday t0 * DAY.
Definition get_normalized_x_from_date (ds : list Z) : res (list Z) :=
  match ds with
  | [] => Err IndexError
  | t0 :: _ => Ok (map (fun t => (t - x_origin t0) / DAY) ds)
  end.

(* model_utils.py 61-78 and 81-95; scaling_factor is never overridden in the code *)
Definition requires_scaling (name : string) : bool := String.eqb name "logistic" || String.eqb name "sigmoid".
Definition model_requires_scaling {T} (m : option (fmodel T)) : bool :=
  match m with Some m => requires_scaling (fm_name m) | None => false end.
Definition apply_a_x_scaling {T} `{NumOps T} (a_x : list T) (m : option (fmodel T)) : list T :=
  if model_requires_scaling m then map (fun x => ndiv x (nofZ 100)) a_x else a_x.

(* model_utils.py 98-106, with the default 365.0 of line 191 *)
Definition units_per_year (f : string) : Z :=
  if String.eqb f "A" then 1 else if String.eqb f "Y" then 1 else if String.eqb f "D" then 365
  else if String.eqb f "W" then 52 else if String.eqb f "M" then 12 else if String.eqb f "Q" then 4
  else if String.eqb f "H" then 24 * 365 else 365.
(* model_utils.py 108-115; None for a missing key *)
Inductive offset_unit := OYears | OMonths | OWeeks | ODays | OHours.
Definition dateoffset_input (f : string) : option offset_unit :=
  if String.eqb f "Y" then Some OYears else if String.eqb f "A" then Some OYears
  else if String.eqb f "M" then Some OMonths else if String.eqb f "W" then Some OWeeks
  else if String.eqb f "D" then Some ODays else if String.eqb f "H" then Some OHours else None.

(* rounding to nearest, ties to even, of a/b with b > 0 *)
Definition round_half_even (a b : Z) : Z :=
  let q := a / b in
  let r := a mod b in
  if 2 * r <? b then q else if b <? 2 * r then q + 1 else if Z.even q then q else q + 1.
(* timedelta(days=..), timedelta(hours=..): microsecond resolution.  The number of units is an
   exact rational here (a float product in the code). *)
Definition MICRO : Z := 1000.
Definition timedelta_ns (units : Q) (unit_ns : Z) : Z :=
  round_half_even (Qnum units * (unit_ns / MICRO)) (Zpos (Qden units)) * MICRO.

(* month number counted from January of year 0, and its first day *)
Definition month_start (k : Z) : Z := days_from_civil (k / 12) (k mod 12 + 1) 1.
Definition month_index (d : Z) : Z := 12 * year_of_day d + (month_of_day d - 1).
Definition month_last (k : Z) : Z := month_start (k + 1) - 1.
(* dateutil relativedelta(months=n): same day of month, clipped to the end of the month; time of
   day kept *)
Definition add_months (t n : Z) : Z :=
  let k := month_index (day_of t) + n in
  Z.min (month_start k + (dom t - 1)) (month_last k) * DAY + t mod DAY.

(* date + pd.DateOffset(unit=units), model_utils.py 193-196.  An unknown frequency letter
   gives the keyword None (TypeError); relativedelta refuses fractional months and years
   (ValueError). *)
Definition add_dateoffset (t : Z) (u : option offset_unit) (units : Q) : res Z :=
  match u with
  | None => Err TypeError
  | Some ODays => Ok (t + timedelta_ns units DAY)
  | Some OHours => Ok (t + timedelta_ns units HOUR)
  | Some OWeeks => Ok (t + timedelta_ns units (7 * DAY))
  | Some OMonths => if Qnum units mod Zpos (Qden units) =? 0
                    then Ok (add_months t (Qnum units / Zpos (Qden units))) else Err ValueError
  | Some OYears => if Qnum units mod Zpos (Qden units) =? 0
                   then Ok (add_months t (12 * (Qnum units / Zpos (Qden units)))) else Err ValueError
  end.

(* pd.date_range(start, stop, freq), model_utils.py 198-202.  Fixed step for H, D and for a week
   frequency anchored on the weekday of start (checked before by the caller); month and year
   frequencies: first / last days of months (of January / December), at the time of day of start.
   Other pandas frequency strings are not modelled (Err ValueError). *)
Definition fixed_range (start step stop : Z) : list Z :=
  if stop <? start then []
  else map (fun i => start + Z.of_nat i * step) (seq 0 (Z.to_nat ((stop - start) / step) + 1)).
Definition zrange (a b : Z) : list Z := map (fun i => a + Z.of_nat i) (seq 0 (Z.to_nat (b - a + 1))).
Definition month_range (start stop : Z) (sel : Z -> bool) (day : Z -> Z) : list Z :=
  filter (fun t => (start <=? t) && (t <=? stop))
    (map (fun k => day k * DAY + start mod DAY)
       (filter sel (zrange (month_index (day_of start)) (month_index (day_of stop))))).
Definition any_month (k : Z) : bool := true.
Definition january (k : Z) : bool := k mod 12 =? 0.
Definition december (k : Z) : bool := k mod 12 =? 11.
Definition date_range (start stop : Z) (freq : string) : res (list Z) :=
  if String.eqb freq "H" then Ok (fixed_range start HOUR stop)
  else if String.eqb freq "D" then Ok (fixed_range start DAY stop)
  else if String.eqb freq (wday_name (weekday start)) then Ok (fixed_range start (7 * DAY) stop)
  else if String.eqb freq "MS" then Ok (month_range start stop any_month month_start)
  else if String.eqb freq "M" then Ok (month_range start stop any_month month_last)
  else if String.eqb freq "YS" || String.eqb freq "AS" then Ok (month_range start stop january month_start)
  else if String.eqb freq "Y" || String.eqb freq "A" then Ok (month_range start stop december month_last)
  else Err ValueError.

(* model_utils.py 175-196: frequency check and end of the forecast *)
Definition grid_freq (start : Z) (freq : option string) : res string :=
  let expected := wday_name (weekday start) in
  match freq with
  | None => Ok expected
  | Some f => if startswith f "W" then (if String.eqb expected f then Ok f else Err AssertionError)
              else Ok f
  end.
Definition freq_short (f : string) : string := substring 0 1 f.
Definition forecast_end (stop : Z) (f : string) (years : Q) : res Z :=
  add_dateoffset stop (dateoffset_input (freq_short f))
    (Qmake (Qnum years * units_per_year (freq_short f)) (Qden years)).

Section Grid.
  Context {T : Type} `{NumOps T}.
  (* model_utils.py 205-207, 219-220: the grid as (date, x) pairs *)
  Definition s_x_dates (start stop : Z) (m : option (fmodel T)) (freq : option string) (years : Q)
    (x_start : Z) : res (list (Z * T)) :=
    let* f := grid_freq start freq in
    let* e := forecast_end stop f years in
    let* ds := date_range start e f in
    Ok (combine ds (apply_a_x_scaling (map (fun t => nofZ ((t - start) / DAY + x_start)) ds) m)).

  (* model_utils.py 208-220: numeric index.  np.arange(a, b) has ceil(b - a) entries.  The index
     is returned as integers. *)
  Definition ceil_div (a b : Z) : Z := - ((- a) / b).
  Definition numeric_size (start stop : Z) (years : Q) : nat :=
    Z.to_nat (ceil_div ((stop - start) * Zpos (Qden years) + 100 * Qnum years) (Zpos (Qden years))).
  Definition s_x_numeric (start stop : Z) (m : option (fmodel T)) (years : Q) (x_start : Z)
    : list (Z * T) :=
    let n := numeric_size start stop years in
    combine (map (fun i => start + Z.of_nat i) (seq 0 n))
      (apply_a_x_scaling (map (fun i => nofZ (x_start + Z.of_nat i + x_start)) (seq 0 n)) m).
End Grid.
