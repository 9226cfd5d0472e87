(* Fitting one model to one series.  Models anticipy/forecast.py 58-258 and 407-722. *)
From Coq Require Import ZArith String List Bool QArith_base.
From Verif Require Import Num Py Cal Fmt Model Fixed Freq Aic.
Import ListNotations.
Local Open Scope string_scope.

Section Fit.
  Context {T : Type} `{NumOps T}.

  (* Outcome of scipy.optimize.least_squares (forecast.py 166-186): a result object, of which the
     fields success, cost and x are used, or an exception. *)
  Inductive lsq_out := LDone (success : bool) (cost : T) (x : list T) | LRaise (e : exn).

  (* Everything a fit depends on besides its arguments.  [e_lsq] is the optimizer: it is given the
     residual function, the initial guess and the bounds, and may return anything.  [e_rnd] are the
     random draws of the initial guess.  [e_arr] and [e_num] format an array and a number for names
     and labels.  The theorems hold for every choice. *)
  Record env := mkEnv {
    e_lsq : (list T -> res (list T)) -> list T -> bounds T -> lsq_out;
    e_rnd : nat -> T;
    e_arr : list T -> string;
    e_num : T -> string }.

  Definition nval_list (v : nval T) : list T := match v with Sc t => [t] | Ar l => l end.

  (* forecast.py 58-102.  The optional weights; [actuals] and [cache] are the keyword arguments
     forwarded to the model. *)
  Definition get_residuals (p : params T) (m : fmodel T) (a_x a_y : list T) (a_date : option (list Z))
    (a_w : option (list T)) (actuals : option (frame T)) (cache : dict (cval T)) : res (list T) :=
    let* v := call m a_x a_date p false (mkKw actuals cache) in
    let* r := bcast2 nsub (Ar a_y) v in
    let* r' := match a_w with None => Ok r | Some w => bcast2 nmul r (Ar w) end in
    Ok (map nabs (nval_list r')).

  (* forecast.py 105-217: success, cost and parameters.  Initial guess and bounds are requested
     without dates (149-151).  LinAlgError is caught (196-207), other exceptions are not. *)
  Definition optimize_least_squares (E : env) (m : fmodel T) (a_x a_y : list T)
    (a_date : option (list Z)) (a_w : option (list T)) (actuals : option (frame T)) (use_cache : bool)
    : res (bool * T * option (list T)) :=
    let* g := fm_init m (Some a_x) (Some a_y) None false (e_rnd E) in
    let* b := fm_bounds m (Some a_x) (Some a_y) None in
    let* inside := validate_initial_guess g b in
    if negb inside then Err AssertionError
    else
      let* cache := if use_cache then init_cache m a_x a_date else Ok [] in
      match e_lsq E (fun p => get_residuals (Some p) m a_x a_y a_date a_w actuals cache) g b with
      | LDone success cost x => Ok (success, cost, Some x)
      | LRaise LinAlgError => Ok (false, nnan, None)
      | LRaise e => Err e
      end.

  (* forecast.py 220-258: one row of the metadata table.  The columns fit_time and params_str are
     not modelled; for the optimize_info table (260-296) see Info.v. *)
  Record meta := mkMeta {
    md_source : string; md_model : string; md_weights : string; md_range : string;
    md_freq : option string; md_fit : bool; md_cost : T; md_aicc : T; md_params : list T;
    md_status : string; md_source_long : string; md_obj : fmodel T }.

  Definition fmt_freq (f : option string) : string := match f with Some s => s | None => "None" end.
  (* '{}:{}:{}:{}'.format(source, weights, freq, actuals_x_range), forecast.py 254-255 *)
  Definition long_name (source weights : string) (freq : option string) (range : string) : string :=
    source ++ ":" ++ weights ++ ":" ++ fmt_freq freq ++ ":" ++ range.
  Definition df_fit_model (source : string) (m : fmodel T) (weights range : string)
    (freq : option string) (is_fit : bool) (cost aicc : T) (p : option (list T)) (status : string)
    : meta :=
    mkMeta source (fm_name m) weights range freq is_fit cost aicc
      (match p with Some l => l | None => [] end) status (long_name source weights freq range) m.

  (* ---- fit_model, forecast.py 407-670 ---- *)

  Definition set_w (r : row T) (w : T) : row T := mkRow (r_date r) (r_src r) (r_x r) (r_y r) w.
  (* forecast.py 452: rows with a value *)
  Definition with_y (l : list (row T)) : list (row T) := filter (fun r => negb (nisnan (r_y r))) l.
  (* min / max of a column, null entries skipped *)
  Definition col_min (l : list T) : T :=
    match filter (fun a => negb (nisnan a)) l with [] => nnan | a :: l' => nmin a l' end.
  Definition col_max (l : list T) : T :=
    match filter (fun a => negb (nisnan a)) l with [] => nnan | a :: l' => nmax a l' end.
  (* forecast.py 455-459 *)
  Definition weights_label (E : env) (f : frame T) : string :=
    if has_w f then
      e_num E (col_min (map r_w (with_y (rows f)))) ++ "-" ++
      e_num E (col_max (map r_w (with_y (rows f))))
    else "1".
  (* forecast.py 462-464 *)
  Definition with_weight (hw : bool) (l : list (row T)) : list (row T) :=
    if hw then
      filter (fun r => nltb n0 (r_w r))
        (map (fun r => set_w r (if nisnan (r_w r) then n0 else r_w r)) l)
    else l.
  (* groupby('x').size() *)
  Definition count_x (l : list (row T)) (x : Z) : Z :=
    Z.of_nat (length (filter (fun r => Z.eqb (r_x r) x) l)).
  (* forecast.py 452-477: the rows that are fitted, with their residual weights *)
  Definition fit_rows (f : frame T) : frame T :=
    let l := with_weight (has_w f) (with_y (rows f)) in
    if has_dup Z.eqb (map r_x l) then
      mkFrame (has_date f) (has_src f) true
        (map (fun r => set_w r (ndiv (if has_w f then r_w r else n1) (nofZ (count_x l (r_x r))))) l)
    else mkFrame (has_date f) (has_src f) (has_w f) l.

  (* forecast.py 492-498.  min() of an empty index is NaT, whose date() raises ValueError;
     np.min of an empty array raises ValueError. *)
  Definition range_label (E : env) (a_x : list T) (a_date : option (list Z)) : res string :=
    match a_date with
    | Some d =>
        match zmin_opt d, zmax_opt d with
        | Some t0, Some t1 => Ok (fmt_date t0 ++ "::" ++ fmt_date t1)
        | _, _ => Err ValueError
        end
    | None =>
        match a_x with
        | [] => Err ValueError
        | x :: l => Ok (e_num E (nmin x l) ++ "::" ++ e_num E (nmax x l))
        end
    end.

  Definition nansum (l : list T) : T := nsum (filter (fun a => negb (nisnan a)) l).

  (* forecast.py 452-670, with the scoring function as a parameter (the code uses get_aic_c).  The
     branch for an empty series (500-514) is unreachable after range_label.  n_params is read
     before the model is simplified (449) and used for the score (577, 630). *)
  Definition fit_model_with (score : T -> Z -> Z -> res T) (E : env) (m : fmodel T) (f : frame T)
    (freq : option string) (source : string) (actuals : option (frame T)) (use_cache : bool)
    : res meta :=
    let n_params := fm_n m in
    let weights := weights_label E f in
    let df := fit_rows f in
    let a_y := map r_y (rows df) in
    let a_x := apply_a_x_scaling (map (fun r => nofZ (r_x r)) (rows df)) (Some m) in
    let a_w := if has_w df then Some (map r_w (rows df)) else None in
    let i_date := if has_date df then Some (map r_date (rows df)) else None in
    let size := length a_x in
    let* range := range_label E a_x i_date in
    let no_fit status := df_fit_model source m weights range freq false nnan nnan None status in
    if Nat.ltb size (n_params + 2) then Ok (no_fit "TS_TOO_SHORT")
    else
      let* valid := validate_input m a_x a_y i_date in
      if negb valid then Ok (no_fit "INPUT_ERR")
      else
        let* ms := simplify_model (e_arr E) m (Some a_x) (Some a_y) i_date in
        if Nat.eqb (fm_n ms) 0 then
          let* r := get_residuals None ms a_x a_y i_date a_w actuals [] in
          let cost := nmul (dec 5 10) (nansum (map (fun a => nmul a a) r)) in
          let* aicc := score cost (Z.of_nat (length (rows df))) (Z.of_nat n_params) in
          Ok (df_fit_model source ms weights range freq true cost aicc (Some []) "FIT")
        else
          let* (success, cost, p) :=
            optimize_least_squares E ms a_x a_y i_date a_w actuals use_cache in
          let* aicc := score cost (Z.of_nat (length (rows df))) (Z.of_nat n_params) in
          Ok (df_fit_model source ms weights range freq success cost aicc p
                (if success then "FIT" else "NO-FIT")).
  Definition fit_model := fit_model_with get_aic_c.

  (* forecast.py 673-722.  The grid is indexed by dates or by integers; the model receives the
     index.  A numeric index is modelled by passing no dates: the month, weekday, fourier and
     seasonal naive models raise the same exception class in both cases.  (Dummies over dates would
     see no match instead of raising; they are outside this simplification.) *)
  Inductive origin := ODate (start stop : Z) | ONum (start stop : Z).
  Definition s_x_extrapolate (o : origin) (m : option (fmodel T)) (freq : option string) (years : Q)
    (x_start : Z) : res (list (Z * T)) :=
    match o with
    | ODate a b => s_x_dates a b m freq years x_start
    | ONum a b => Ok (s_x_numeric a b m years x_start)
    end.
  Definition extrapolate_model (m : fmodel T) (p : params T) (o : origin) (freq : option string)
    (years : Q) (x_start : Z) (actuals : option (frame T)) : res (list (Z * T)) :=
    let* g := s_x_extrapolate o (Some m) freq years x_start in
    let idx := map fst g in
    let* v := call m (map snd g) (match o with ODate _ _ => Some idx | ONum _ _ => None end) p false
                (mkKw actuals []) in
    (* pd.Series(data, index): a scalar is repeated, an array must match the index *)
    match v with
    | Sc t => Ok (map (fun i => (i, t)) idx)
    | Ar l => if Nat.eqb (length l) (length idx) then Ok (combine idx l) else Err ValueError
    end.
End Fit.
Arguments lsq_out : clear implicits.
Arguments env : clear implicits.
Arguments meta : clear implicits.
