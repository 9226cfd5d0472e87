(* Timestamps and the proleptic Gregorian calendar used by numpy/pandas (datetime64[ns]).
   A timestamp is a number of nanoseconds since 1970-01-01T00:00.  The calendar accessors model
   DatetimeIndex.weekday / .month / .day / .days as used in
   anticipy/forecast_models.py 159-172, 1152-1210, 1623-1635 and anticipy/model_utils.py 118-124,
   300-339.  Not modelled: NaT, time zones, the range limit of int64 nanoseconds. *)
From Coq Require Import ZArith List Bool.
Import ListNotations.
Open Scope Z_scope.

(* pd.Timedelta(1, unit='h') and pd.Timedelta(1, unit='D') in ns *)
Definition HOUR : Z := 3600 * 1000000000.
Definition DAY : Z := 24 * HOUR.

(* (t - epoch).days : floor division, as Timedelta.days *)
Definition day_of (t : Z) : Z := t / DAY.
Definition midnight (t : Z) : bool := t mod DAY =? 0.

(* weekday(): Monday = 0; 1970-01-01 was a Thursday *)
Definition weekday_of_day (d : Z) : Z := (d + 3) mod 7.
Definition weekday (t : Z) : Z := weekday_of_day (day_of t).

(* civil date -> day number (algorithm days_from_civil) *)
Definition days_from_civil (y m d : Z) : Z :=
  let y' := if m <=? 2 then y - 1 else y in
  let era := y' / 400 in
  let yoe := y' - era * 400 in
  let mp := if 2 <? m then m - 3 else m + 9 in
  let doy := (153 * mp + 2) / 5 + d - 1 in
  let doe := yoe * 365 + yoe / 4 - yoe / 100 + doy in
  era * 146097 + doe - 719468.

(* day number -> civil date (algorithm civil_from_days) *)
Definition civil_from_days (z0 : Z) : Z * Z * Z :=
  let z := z0 + 719468 in
  let era := z / 146097 in
  let doe := z - era * 146097 in
  let yoe := (doe - doe / 1460 + doe / 36524 - doe / 146096) / 365 in
  let doy := doe - (365 * yoe + yoe / 4 - yoe / 100) in
  let mp := (5 * doy + 2) / 153 in
  let d := doy - (153 * mp + 2) / 5 + 1 in
  let m := if mp <? 10 then mp + 3 else mp - 9 in
  let y := yoe + era * 400 in
  ((if m <=? 2 then y + 1 else y), m, d).

Definition year_of_day (n : Z) : Z := let '(y, _, _) := civil_from_days n in y.
Definition month_of_day (n : Z) : Z := let '(_, m, _) := civil_from_days n in m.
Definition dom_of_day (n : Z) : Z := let '(_, _, d) := civil_from_days n in d.
(* .month (1..12), .day (1..31), .year *)
Definition month (t : Z) : Z := month_of_day (day_of t).
Definition dom (t : Z) : Z := dom_of_day (day_of t).
Definition year (t : Z) : Z := year_of_day (day_of t).

(* timestamp of midnight of a civil date, pd.Timestamp(y, m, d) *)
Definition ts (y m d : Z) : Z := days_from_civil y m d * DAY.
