(* Dummy-variable models, holiday calendars and date lists.
   Models anticipy/forecast_models.py 1452-1812 and the parts of pandas.tseries.holiday (and
   dateutil.easter) it relies on. *)
From Coq Require Import ZArith String List Bool.
From Verif Require Import Num Py Cal Fmt Model Base.
Import ListNotations.
Local Open Scope string_scope.

(* ---- holiday rules on day numbers ---- *)

(* pandas.tseries.holiday.next_monday: Saturday and Sunday move to the following Monday *)
Definition next_monday (d : Z) : Z :=
  (let w := weekday_of_day d in
   if w =? 5 then d + 2 else if w =? 6 then d + 1 else d)%Z.
(* pandas.tseries.holiday.next_monday_or_tuesday, for the second of two adjacent holidays *)
Definition next_monday_or_tuesday (d : Z) : Z :=
  (let w := weekday_of_day d in
   if (w =? 5) || (w =? 6) then d + 2 else if w =? 0 then d + 1 else d)%Z.
(* DateOffset(weekday=MO(1)): the first Monday on or after d *)
Definition mo_first (d : Z) : Z := (d + (7 - weekday_of_day d) mod 7)%Z.
(* DateOffset(weekday=MO(-1)): the last Monday on or before d *)
Definition mo_last (d : Z) : Z := (d - weekday_of_day d)%Z.

(* dateutil.easter.easter(y), western method: day number of Easter Sunday *)
Definition easter_day (y : Z) : Z :=
  (let g := y mod 19 in
   let c := y / 100 in
   let h := (c - c / 4 - (8 * c + 13) / 25 + 19 * g + 15) mod 30 in
   let i := h - (h / 28) * (1 - (h / 28) * (29 / (h + 1)) * ((21 - g) / 11)) in
   let j := (y + y / 4 + i + 2 - c + c / 4) mod 7 in
   let p := i - j in
   let d := 1 + (p + 27 + (p + 6) / 40) mod 31 in
   let m := 3 + (p + 26) / 30 in
   days_from_civil y m d)%Z.

(* pandas.tseries.holiday.Holiday: reference month and day, and the observance / offset applied to
   the reference day.  Simplification: fixed-year holidays and start/end validity dates are not
   modelled (the shipped calendars of forecast_models.py 1638-1686 have none). *)
Record holiday := mkHol { h_name : string; h_month : Z; h_day : Z; h_apply : Z -> Z }.

(* day number of the holiday whose reference date lies in year y *)
Definition holiday_in_year (h : holiday) (y : Z) : Z :=
  h_apply h (days_from_civil y (h_month h) (h_day h)).

(* GoodFriday, EasterMonday: 1 January plus Easter() plus Day(-2) / Day(1) *)
Definition good_friday : holiday :=
  mkHol "Good Friday" 1 1 (fun d => (easter_day (year_of_day d) - 2)%Z).
Definition easter_monday : holiday :=
  mkHol "Easter Monday" 1 1 (fun d => (easter_day (year_of_day d) + 1)%Z).

(* range(a, b+1) *)
Definition zrange (a b : Z) : list Z :=
  map (fun i => (a + Z.of_nat i)%Z) (seq 0 (Z.to_nat (b - a + 1))).

(* Holiday.dates(start, end): reference dates from the year before start to the year after end,
   rule applied, filtered to [start, end] *)
Definition holiday_dates (h : holiday) (t0 t1 : Z) : list Z :=
  filter (fun t => (t0 <=? t)%Z && (t <=? t1)%Z)
    (map (fun y => (holiday_in_year h y * DAY)%Z) (zrange (year t0 - 1) (year t1 + 1))).

(* AbstractHolidayCalendar; holidays(start, end).  The internal result cache of pandas is not
   modelled. *)
Record calendar := mkCal { cal_name : string; cal_rules : list holiday }.
Definition calendar_holidays (c : calendar) (t0 t1 : Z) : list Z :=
  zsort (flat_map (fun h => holiday_dates h t0 t1) (cal_rules c)).

(* forecast_models.py 1638-1654 *)
Definition hol_early_may := mkHol "Early May Bank Holiday" 5 1 mo_first.
Definition hol_spring := mkHol "Spring Bank Holiday" 5 31 mo_last.
Definition hol_august := mkHol "August Bank Holiday" 8 30 mo_last.
Definition CalendarBankHolUK := mkCal "CalendarBankHolUK"
  [good_friday; easter_monday; hol_early_may; hol_spring; hol_august].

(* forecast_models.py 1657-1663 *)
Definition hol_new_year := mkHol "New Year's Day" 1 1 next_monday.
Definition hol_christmas := mkHol "Christmas" 12 25 next_monday.
Definition hol_boxing_day := mkHol "Boxing Day" 12 26 next_monday_or_tuesday.
Definition CalendarChristmasUK := mkCal "CalendarChristmasUK"
  [hol_new_year; hol_christmas; hol_boxing_day].

(* forecast_models.py 1667-1676 *)
Definition fixed_holiday (name : string) (m d : Z) : holiday := mkHol name m d (fun x => x).
Definition CalendarBankHolIta := mkCal "CalendarBankHolIta"
  [easter_monday;
   fixed_holiday "Festa della Liberazione" 4 25;
   fixed_holiday "Festa del lavoro" 5 1;
   fixed_holiday "Festa della Repubblica" 6 2;
   fixed_holiday "Ferragosto" 8 15;
   fixed_holiday "Tutti i Santi" 11 1;
   fixed_holiday "Immacolata Concezione" 12 8].

(* forecast_models.py 1679-1686 *)
Definition hol_santo_stefano := mkHol "Santo Stefano" 12 26 next_monday_or_tuesday.
Definition hol_epiphany := mkHol "Epiphany" 1 6 next_monday.
Definition CalendarChristmasIta := mkCal "CalendarChristmasIta"
  [hol_new_year; hol_christmas; hol_santo_stefano; hol_epiphany].

Section Dummy.
  Context {T : Type} `{NumOps T}.

  (* f_dummy(a_x, a_date): mask with one 0./1. per sample *)
  Definition dummyfun := list T -> option (list Z) -> res (list T).

  (* What a user may pass as a dummy variable (forecast_models.py 1469-1488) *)
  Inductive dummy :=
  | DFun (f : dummyfun)
  | DHoliday (h : holiday)
  | DCal (c : calendar)
  | DNums (l : list T)
  | DDates (l : list Z).

  Definition isin_dates (d : list Z) (l : list Z) : list T :=
    map (fun t => nofbool (existsb (Z.eqb t) l)) d.
  Definition isin_nums (x : list T) (l : list T) : list T :=
    map (fun t => nofbool (existsb (neqb t) l)) x.

  (* a_date.min(), a_date.max(): AttributeError on None; a NaT range (no samples) is refused *)
  Definition date_range_of (a_date : option (list Z)) : res (list Z * Z * Z) :=
    match a_date with
    | None => Err AttributeError
    | Some d => match zmin_opt d, zmax_opt d with
                | Some a, Some b => Ok (d, a, b)
                | _, _ => Err ValueError
                end
    end.

  (* forecast_models.py 1469-1556: _get_f_dummy and the generators it selects.  A date list applied
     to a series without dates is modelled as TypeError. *)
  Definition get_f_dummy (dm : dummy) : res dummyfun :=
    match dm with
    | DFun f => Ok f
    | DHoliday h =>
        Ok (fun _ a_date => let* (d, a, b) := date_range_of a_date in
                            Ok (isin_dates d (holiday_dates h a b)))
    | DCal c =>
        Ok (fun _ a_date => let* (d, a, b) := date_range_of a_date in
                            Ok (isin_dates d (calendar_holidays c a b)))
    | DNums [] | DDates [] => Err AssertionError
    | DNums l => Ok (fun a_x _ => Ok (isin_nums a_x l))
    | DDates l => Ok (fun _ a_date => match a_date with
                                      | Some d => Ok (isin_dates d l)
                                      | None => Err TypeError
                                      end)
    end.

  (* forecast_models.py 1452-1466: the mask of ten fixed samples must consist of 0. and 1. *)
  Definition probe_x : list T := map (fun i => nofZ (Z.of_nat i)) (seq 0 10).
  Definition probe_dates : list Z := map (fun i => ts 2018 1 (1 + Z.of_nat i)) (seq 0 10).
  Definition validate_f_dummy (f : dummyfun) : res unit :=
    let* m := f probe_x (Some probe_dates) in
    if forallb (fun v => neqb v n0 || neqb v n1) m then Ok tt else Err AssertionError.

  (* forecast_models.py 1559-1584: _get_f_model_dummy *)
  Definition f_model_dummy (f : dummyfun) (mask_name : string) : mfun T :=
    fun a_x a_date p mode kw =>
      let* v := match dict_get (kw_cache kw) mask_name with
                | Some v => Ok v
                | None => rmap CMask (f a_x a_date)
                end in
      match v with
      | CMask mask =>
          let* a := unpack1 p in
          Ok (Ar (if mode_of false mode
                  then map (fun m => nadd (nmul a m) n1) mask
                  else map (nmul a) mask))
      | _ => Err TypeError
      end.

  (* forecast_models.py 1587-1620 (without the pass-through keyword arguments) *)
  Definition mask_name (name : string) : string := "mask_" ++ name.
  Definition dummy_model_of (name : string) (f : dummyfun) : fmodel T :=
    mk_model name 1 (f_model_dummy f (mask_name name)) None None None None
      (Some [(mask_name name, fun a_x a_date => rmap CMask (f a_x a_date))]).
  Definition get_model_dummy (name : string) (dm : dummy) : res (fmodel T) :=
    let* f := get_f_dummy dm in
    let* _ := validate_f_dummy f in
    Ok (dummy_model_of name f).

  (* forecast_models.py 1623-1635: shipped dummies *)
  Definition date_mask (test : Z -> bool) : dummyfun :=
    fun _ a_date => let* d := need_dates a_date in Ok (map (fun t => nofbool (test t)) d).
  Definition dummy_season_wday_2 : dummy := DFun (date_mask (fun t => (weekday t <? 5)%Z)).
  Definition dummy_christmas : dummy :=
    DFun (date_mask (fun t => (month t =? 12)%Z && (dom t =? 25)%Z)).
  Definition dummy_month_start : dummy := DFun (date_mask (fun t => (dom t =? 1)%Z)).
  Definition model_season_wday_2 : res (fmodel T) :=
    get_model_dummy "season_wday_2" dummy_season_wday_2.
  Definition model_dummy_christmas : res (fmodel T) :=
    get_model_dummy "dummy_christmas" dummy_christmas.
  Definition model_dummy_month_start : res (fmodel T) :=
    get_model_dummy "dummy_month_start" dummy_month_start.

  (* np.sum / np.prod over a non-empty object array: left fold of + / * *)
  Definition reduce (op : fmodel T -> fmodel T -> fmodel T) (l : list (fmodel T)) : fmodel T :=
    match l with [] => model_null | m :: l' => fold_left op l' m end.

  (* shared tail of get_model_from_calendars and get_model_from_datelist *)
  Definition init_neutral (n : nat) : initfun T :=
    fun _ _ _ is_mult _ => Ok (repeat (nofbool is_mult) n).
  Definition f_all_dummies (f_sum f_prod : fmodel T) : mfun T :=
    fun a_x a_date p mode kw =>
      let is_mult := mode_of false mode in
      call (if is_mult then f_prod else f_sum) a_x a_date p is_mult kw.

  (* forecast_models.py 1689-1762 *)
  Definition get_model_from_calendars (l_calendar : list calendar) (name : option string)
    : res (fmodel T) :=
    let l := filter (fun c => match cal_rules c with [] => false | _ => true end) l_calendar in
    match l with
    | [] => Err AssertionError
    | c0 :: _ =>
        let name := match name with Some s => s | None => cal_name c0 end in
        let* dummies := rmapM (fun c => get_model_dummy (cal_name c) (DCal c)) l in
        let f_sum := reduce madd dummies in
        let f_prod := reduce mmul dummies in
        Ok (mk_model name (length dummies) (f_all_dummies f_sum f_prod)
              (Some (init_neutral (length dummies))) None None
              (Some (fm_cvars f_sum)) (Some (fm_dcache f_sum)))
    end.

  Definition model_calendar_uk : res (fmodel T) :=
    get_model_from_calendars [CalendarChristmasUK; CalendarBankHolUK] (Some "calendar_uk").
  Definition model_calendar_ita : res (fmodel T) :=
    get_model_from_calendars [CalendarChristmasIta; CalendarBankHolIta] (Some "calendar_ita").

  (* forecast_models.py 1764-1812: all dummies share the name 'model_dummy' and the resulting
     model has no cache variables *)
  Definition get_model_from_datelist (name : string) (args : list (list Z)) : res (fmodel T) :=
    let* dummies := rmapM (fun l => get_model_dummy "model_dummy" (DDates l)) args in
    match dummies with
    | [] => Err AssertionError
    | _ =>
        let f_sum := reduce madd dummies in
        let f_prod := reduce mmul dummies in
        Ok (mk_model name (length dummies) (f_all_dummies f_sum f_prod)
              (Some (init_neutral (length dummies))) None None None None)
    end.
End Dummy.
Arguments dummy : clear implicits.
Arguments dummyfun : clear implicits.
