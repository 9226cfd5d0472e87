(* The ForecastModel class: evaluation, composition, input validation, cache variables.
   Models anticipy/forecast_models.py 57-560. *)
From Coq Require Import ZArith String List Bool.
From Verif Require Import Num Py Cal.
Import ListNotations.
Local Open Scope string_scope.

Section Model.
  Context {T : Type} `{NumOps T}.

  (* A row of an input table.  Columns documented at anticipy/forecast.py 810-835 (run_forecast)
     and 299-404 (normalize_df).  [r_date] is meaningful only if the frame has a date column,
     and so on; a null y or weight is a NaN.  Simplifications: x is an integer, dates are never
     NaT, the 'model' column is not represented. *)
  Record row := mkRow { r_date : Z; r_src : string; r_x : Z; r_y : T; r_w : T }.
  Record frame := mkFrame { has_date : bool; has_src : bool; has_w : bool; rows : list row }.

  (* Values of cache variables (forecast_models.py 154-183, 1452-1500): integer index arrays,
     the fourier matrix, 0/1 masks. *)
  Inductive cval := CInts (l : list Z) | CMat (m : list (list T)) | CMask (l : list T).

  (* Keyword arguments forwarded to a model function: df_actuals and the cache variables
     (forecast.py 58-102).  The a_weights argument is consumed by get_residuals. *)
  Record kwargs := mkKw { kw_actuals : option frame; kw_cache : dict cval }.
  Definition no_kw : kwargs := mkKw None [].

  (* params: a list of numbers, or Python None (fit_model passes None when n_params = 0,
     forecast.py 520-545). *)
  Definition params := option (list T).

  (* f_model(a_x, a_date, params, is_mult, **kwargs).  a_date is None or a DatetimeIndex; the mode
     is [None] when the caller does not pass is_mult, so that the default of the function
     applies. *)
  Definition mfun := list T -> option (list Z) -> params -> option bool -> kwargs -> res (nval T).

  Definition mode_of (dflt : bool) (m : option bool) : bool :=
    match m with Some b => b | None => dflt end.

  (* f_init_params(a_x, a_y, a_date, is_mult).  [rnd] supplies the draws of np.random.uniform,
     already scaled to [0,1). *)
  Definition initfun :=
    option (list T) -> option (list T) -> option (list Z) -> bool -> (nat -> T) -> res (list T).

  (* f_bounds(a_x, a_y, a_date): lower and upper bounds; [b_nd] tells a numpy array of shape
     (2, n) from a tuple of lists. *)
  Record bounds := mkBounds { b_lo : list T; b_hi : list T; b_nd : bool }.
  Definition boundsfun :=
    option (list T) -> option (list T) -> option (list Z) -> res bounds.

  (* An input validation function; [v_id] is the identity of the Python function object, which is
     what set() compares. *)
  Record validator := mkVal {
    v_id : string;
    v_run : list T -> list T -> option (list Z) -> res bool }.

  Definition cachefun := list T -> option (list Z) -> res cval.

  Record fmodel := mkModel {
    fm_name : string;
    fm_n : nat;
    fm_f : mfun;
    fm_init : initfun;
    fm_bounds : boundsfun;
    fm_val : list validator;
    fm_cvars : list string;
    fm_dcache : dict cachefun }.

  (* forecast_models.py 57-61: uniform draws between 0.001 and 1 *)
  Definition uniform (lo hi : T) (rnd : nat -> T) (i : nat) : T :=
    nadd lo (nmul (nsub hi lo) (rnd i)).
  Definition uniforms (lo hi : T) (rnd : nat -> T) (n : nat) : list T :=
    map (uniform lo hi rnd) (seq 0 n).
  Definition init_default (n : nat) : initfun :=
    fun _ _ _ _ rnd => Ok (uniforms (dec 1 1000) n1 rnd n).

  (* forecast_models.py 64-68 *)
  Definition bounds_default (n : nat) : boundsfun :=
    fun _ _ _ => Ok (mkBounds (repeat nninf n) (repeat npinf n) false).

  (* Draws seen by the two halves of a composition.  Any joint outcome of the two can be obtained
     by a choice of [rnd]. *)
  Definition rnd_l (rnd : nat -> T) : nat -> T := fun i => rnd (2 * i)%nat.
  Definition rnd_r (rnd : nat -> T) : nat -> T := fun i => rnd (2 * i + 1)%nat.

  (* params[0:n] and params[n:] *)
  Definition p_slice (n : nat) (p : params) : res (list T * list T) :=
    match p with
    | None => Err TypeError          (* 'NoneType' object is not subscriptable *)
    | Some l => Ok (firstn n l, skipn n l)
    end.

  (* forecast_models.py 71-109: _get_f_add_2_f_models / _get_f_mult_2_f_models *)
  Definition f_combine (op : T -> T -> T) (mode : bool) (m1 m2 : fmodel) : mfun :=
    fun a_x a_date p _ kw =>
      let* (p1, p2) := p_slice (fm_n m1) p in
      let* v1 := fm_f m1 a_x a_date (Some p1) (Some mode) kw in
      let* v2 := fm_f m2 a_x a_date (Some p2) (Some mode) kw in
      bcast2 op v1 v2.

  (* forecast_models.py 112-131 *)
  Definition init_combine (mode : bool) (i1 i2 : initfun) : initfun :=
    fun a_x a_y a_date _ rnd =>
      let* p1 := i1 a_x a_y a_date mode (rnd_l rnd) in
      let* p2 := i2 a_x a_y a_date mode (rnd_r rnd) in
      Ok (p1 ++ p2)%list.

  (* forecast_models.py 134-142: np.concatenate(..., axis=1) *)
  Definition bounds_concat (b1 b2 : bounds) : res bounds :=
    if Nat.eqb (length (b_lo b1)) (length (b_hi b1)) &&
       Nat.eqb (length (b_lo b2)) (length (b_hi b2))
    then Ok (mkBounds (b_lo b1 ++ b_lo b2) (b_hi b1 ++ b_hi b2) true)
    else Err ValueError.
  Definition bounds_combine (f1 f2 : boundsfun) : boundsfun :=
    fun a_x a_y a_date =>
      let* b1 := f1 a_x a_y a_date in
      let* b2 := f2 a_x a_y a_date in
      bounds_concat b1 b2.

  (* forecast_models.py 145-148 *)
  Definition val_default : validator :=
    mkVal "_f_validate_input_default" (fun _ _ _ => Ok true).

  (* forecast_models.py 398-408: the wrapper that __init__ adds around f_init_params *)
  Definition init_validated (i : initfun) : initfun :=
    fun a_x a_y a_date is_mult rnd =>
      match a_x with
      | Some l => if existsb nisnan l then Err ValueError else i a_x a_y a_date is_mult rnd
      | None => i a_x a_y a_date is_mult rnd
      end.

  (* forecast_models.py 347-410: ForecastModel.__init__ *)
  Definition mk_model (name : string) (n : nat) (f : mfun) (init : option initfun)
    (bnds : option boundsfun) (vals : option (list validator)) (cvars : option (list string))
    (dcache : option (dict cachefun)) : fmodel :=
    {| fm_name := name;
       fm_n := n;
       fm_f := f;
       fm_init := init_validated (match init with Some i => i | None => init_default n end);
       fm_bounds := match bnds with Some b => b | None => bounds_default n end;
       fm_val := match vals with Some v => v | None => [val_default] end;
       fm_cvars := match cvars with Some c => c | None => [] end;
       fm_dcache := match dcache with Some d => d | None => [] end |}.

  (* forecast_models.py 412-414: __call__ passes is_mult (default False) on *)
  Definition call (m : fmodel) (a_x : list T) (a_date : option (list Z)) (p : params)
    (is_mult : bool) (kw : kwargs) : res (nval T) :=
    fm_f m a_x a_date p (Some is_mult) kw.

  (* list(set(l1 + l2)).  The iteration order of a Python set is unspecified; the order of first
     occurrence is used here. *)
  Definition val_eqb (a b : validator) : bool := String.eqb (v_id a) (v_id b).
  Definition set_vals (l : list validator) : list validator := dedup val_eqb l.
  Definition set_strs (l : list string) : list string := dedup String.eqb l.

  (* forecast_models.py 422-449 (__add__) and 454-480 (__mul__): the part after the null checks *)
  Definition combine_models (sep : string) (op : T -> T -> T) (mode : bool) (m1 m2 : fmodel)
    : fmodel :=
    mk_model ("(" ++ fm_name m1 ++ sep ++ fm_name m2 ++ ")")
      (fm_n m1 + fm_n m2)
      (f_combine op mode m1 m2)
      (Some (init_combine mode (fm_init m1) (fm_init m2)))
      (Some (bounds_combine (fm_bounds m1) (fm_bounds m2)))
      (Some (set_vals (fm_val m1 ++ fm_val m2)))
      (Some (set_strs (fm_cvars m1 ++ fm_cvars m2)))
      (Some (dict_update (fm_dcache m1) (fm_dcache m2))).

  Definition is_null (m : fmodel) : bool := String.eqb (fm_name m) "null".

  (* forecast_models.py 422-449 *)
  Definition madd (m1 m2 : fmodel) : fmodel :=
    if is_null m1 then m2 else if is_null m2 then m1
    else combine_models "+" nadd false m1 m2.

  (* forecast_models.py 454-480 *)
  Definition mmul (m1 m2 : fmodel) : fmodel :=
    if is_null m1 then m2 else if is_null m2 then m1
    else combine_models "*" nmul true m1 m2.

  (* forecast_models.py 485-501: __eq__, __hash__ and __lt__ go by name only *)
  Definition model_eqb (m1 m2 : fmodel) : bool := String.eqb (fm_name m1) (fm_name m2).
  Definition model_leb (m1 m2 : fmodel) : bool := str_leb (fm_name m1) (fm_name m2).

  (* forecast_models.py 503-509: the list of results is built but never looked at; only an
     AssertionError makes the answer False *)
  Definition validate_input (m : fmodel) (a_x a_y : list T) (a_date : option (list Z))
    : res bool :=
    match rmapM (fun v => v_run v a_x a_y a_date) (fm_val m) with
    | Ok _ => Ok true
    | Err AssertionError => Ok false
    | Err e => Err e
    end.

  (* ---- cache variables: forecast_models.py 159-183 ---- *)

  (* a_date.month, a_date.weekday on None raise AttributeError *)
  Definition need_dates (a_date : option (list Z)) : res (list Z) :=
    match a_date with Some d => Ok d | None => Err AttributeError end.

  (* forecast_models.py 159-160: months numbered 0..11 *)
  Definition months (d : list Z) : list Z := map (fun t => (month t - 1)%Z) d.
  Definition cache_a_month : cachefun :=
    fun _ a_date => let* d := need_dates a_date in Ok (CInts (months d)).

  (* forecast_models.py 163-164 *)
  Definition cache_a_weekday : cachefun :=
    fun _ a_date => let* d := need_dates a_date in Ok (CInts (map weekday d)).

  (* forecast_models.py 36-45, 167-173.  None - datetime raises TypeError. *)
  Definition FOURIER_HARMONICS : nat := 10.
  Definition fourier_k : T := ndiv (nmul (nofZ 2) npi) (dec 36525 100).
  Definition fourier_arg (i : nat) (day : Z) : T :=
    nmul (nmul fourier_k (nofZ (Z.of_nat i))) (nofZ day).
  Definition fourier_matrix (d : list Z) : list (list T) :=
    (map (fun i => map (fun t => nsin (fourier_arg i (day_of t))) d) (seq 1 FOURIER_HARMONICS)
     ++ map (fun i => map (fun t => ncos (fourier_arg i (day_of t))) d)
          (seq 1 FOURIER_HARMONICS))%list.
  Definition cache_a_t_fourier : cachefun :=
    fun _ a_date =>
      match a_date with
      | Some d => Ok (CMat (fourier_matrix d))
      | None => Err TypeError
      end.

  (* forecast_models.py 176-183 *)
  Definition dict_f_cache : dict cachefun :=
    [("a_month", cache_a_month); ("a_weekday", cache_a_weekday);
     ("a_t_fourier", cache_a_t_fourier)].

  (* forecast_models.py 511-528 *)
  Fixpoint init_cache_vars (ks : list string) (a_x : list T) (a_date : option (list Z))
    (acc : dict cval) : res (dict cval) :=
    match ks with
    | [] => Ok acc
    | k :: ks' =>
        match dict_get dict_f_cache k with
        | Some f => let* v := f a_x a_date in init_cache_vars ks' a_x a_date (dict_set acc k v)
        | None => init_cache_vars ks' a_x a_date acc        (* warning only *)
        end
    end.
  Fixpoint init_cache_dict (fs : dict cachefun) (a_x : list T) (a_date : option (list Z))
    (acc : dict cval) : res (dict cval) :=
    match fs with
    | [] => Ok acc
    | (k, f) :: fs' =>
        let* v := f a_x a_date in init_cache_dict fs' a_x a_date (dict_set acc k v)
    end.
  Definition init_cache (m : fmodel) (a_x : list T) (a_date : option (list Z))
    : res (dict cval) :=
    let* d := init_cache_vars (fm_cvars m) a_x a_date [] in
    init_cache_dict (fm_dcache m) a_x a_date d.

  (* ---- forecast_models.py 536-560: null and constant models ---- *)

  Definition f_null : mfun := fun _ _ _ mode _ => Ok (Sc (nofbool (mode_of false mode))).
  Definition model_null : fmodel := mk_model "null" 0 f_null None None None None None.

  (* [A] = params: TypeError on None, ValueError on a wrong number of values *)
  Definition unpack1 (p : params) : res T :=
    match p with None => Err TypeError | Some [a] => Ok a | Some _ => Err ValueError end.
  Definition unpack2 (p : params) : res (T * T) :=
    match p with None => Err TypeError | Some [a; b] => Ok (a, b) | Some _ => Err ValueError end.
  Definition unpack3 (p : params) : res (T * T * T) :=
    match p with
    | None => Err TypeError | Some [a; b; c] => Ok (a, b, c) | Some _ => Err ValueError
    end.

  Definition f_constant : mfun :=
    fun a_x _ p _ _ => let* a := unpack1 p in Ok (Ar (repeat a (length a_x))).

  (* np.nanmean: mean of the non-null entries; NaN if there is none *)
  Definition nanmean (l : list T) : T :=
    let l' := filter (fun a => negb (nisnan a)) l in
    ndiv (nsum l') (nofZ (Z.of_nat (length l'))).

  Definition init_constant : initfun :=
    fun _ a_y _ _ rnd =>
      match a_y with
      | None => Ok (uniforms n0 n1 rnd 1)
      | Some y => Ok [nadd (nanmean y) (uniform n0 n1 rnd 0)]
      end.

  Definition model_constant : fmodel :=
    mk_model "constant" 1 f_constant (Some init_constant) None None None None.
End Model.

Arguments row : clear implicits.
Arguments frame : clear implicits.
Arguments cval : clear implicits.
Arguments kwargs : clear implicits.
Arguments params : clear implicits.
Arguments mfun : clear implicits.
Arguments initfun : clear implicits.
Arguments bounds : clear implicits.
Arguments boundsfun : clear implicits.
Arguments validator : clear implicits.
Arguments cachefun : clear implicits.
Arguments fmodel : clear implicits.
