(* Models with fixed parameters and bound checks.
   Models anticipy/forecast_models.py 1279-1290, 1432-1447 and 1817-1916. *)
From Coq Require Import ZArith String List Bool.
From Verif Require Import Num Py Cal Model Base.
Import ListNotations.
Local Open Scope string_scope.

Section Fixed.
  Context {T : Type} `{NumOps T}.

  (* forecast_models.py 1279-1290: keyword arguments (df_actuals, cache variables) are dropped and
     the default mode is the one given at construction *)
  Definition get_fixed_model (m : fmodel T) (fixed : list T) (is_mult : bool) : res (fmodel T) :=
    if Nat.eqb (fm_n m) 0 then Ok m
    else if negb (Nat.eqb (length fixed) (fm_n m)) then Err ValueError
    else Ok (mk_model (fm_name m ++ "_fixed") 0
               (fun a_x a_date _ mode _ =>
                  fm_f m a_x a_date (Some fixed) (Some (mode_of is_mult mode)) no_kw)
               None None None None None).

  (* forecast_models.py 1432-1447 *)
  Definition create_fixed_step (diff x : T) : res (fmodel T) :=
    get_fixed_model model_step [x; diff] false.
  Definition create_fixed_spike (diff x duration : T) : res (fmodel T) :=
    get_fixed_model model_spike [diff; x; nadd x duration] false.
  Definition create_fixed_spike_ignored (x duration : T) : res (fmodel T) :=
    get_fixed_model model_spike [n0; x; nadd x duration] true.

  (* ---- fix_params_fmodel, forecast_models.py 1819-1875 ---- *)

  (* np.nonzero(np.isnan(l)) *)
  Definition null_positions (l : list T) : list nat :=
    map fst (filter (fun p => nisnan (snd p)) (enumerate l)).
  Fixpoint set_nth (i : nat) (v : T) (l : list T) : list T :=
    match l, i with
    | [], _ => []
    | _ :: l', O => v :: l'
    | a :: l', S i' => a :: set_nth i' v l'
    end.
  Definition set_all (idx : list nat) (vals : list T) (l : list T) : list T :=
    fold_left (fun acc p => set_nth (fst p) (snd p) acc) (combine idx vals) l.
  (* a[idx] = params: None is converted to NaN, a single value is broadcast, other length
     mismatches raise ValueError *)
  Definition assign (idx : list nat) (p : params T) (l : list T) : res (list T) :=
    match p with
    | None => Ok (set_all idx (repeat nnan (length idx)) l)
    | Some [v] => Ok (set_all idx (repeat v (length idx)) l)
    | Some vs => if Nat.eqb (length vs) (length idx) then Ok (set_all idx vs l) else Err ValueError
    end.
  (* a[idx]: IndexError when out of range *)
  Definition fancy_get (idx : list nat) (l : list T) : res (list T) := rmapM (at_pos l) idx.

  (* f_model_fixed, 1851-1854.  The vector l_params_fixed lives in the closure and every call
     writes into it; [st] is its content before the call, the first component of the result its
     content afterwards. *)
  Definition fixed_step (m : fmodel T) (idx : list nat) (st : list T)
    (a_x : list T) (a_date : option (list Z)) (p : params T) (mode : option bool)
    : list T * res (nval T) :=
    match assign idx p st with
    | Err e => (st, Err e)
    | Ok st' => (st', fm_f m a_x a_date (Some st') (Some (mode_of false mode)) no_kw)
    end.

  (* The model returned, seen at its first call.  [fmt] is str() of a numpy array with 'nan'
     replaced by ':'; the theorems hold for any such function. *)
  Definition fix_params_fmodel (fmt : list T -> string) (m : fmodel T) (fixed : list T)
    : res (fmodel T) :=
    if negb (Nat.eqb (length fixed) (fm_n m)) then Err AssertionError
    else
      let idx := null_positions fixed in
      Ok (mk_model (fm_name m ++ "_fixed_" ++ fmt fixed) (length idx)
            (fun a_x a_date p mode _ => snd (fixed_step m idx fixed a_x a_date p mode))
            (Some (fun a_x a_y a_date is_mult rnd =>
                     let* l := fm_init m a_x a_y a_date is_mult rnd in fancy_get idx l))
            (Some (fun a_x a_y a_date =>
                     let* b := fm_bounds m a_x a_y a_date in
                     let* lo := fancy_get idx (b_lo b) in
                     let* hi := fancy_get idx (b_hi b) in
                     Ok (mkBounds lo hi true)))
            None None None).

  (* ---- simplify_model, forecast_models.py 1878-1907 ---- *)
  (* np.nonzero(bounds_max - bounds_min == 0): equal infinite bounds give NaN and do not count *)
  Definition equal_bounds (b : bounds T) : list nat :=
    map fst (filter (fun p => neqb (snd p) n0) (enumerate (map2 nsub (b_hi b) (b_lo b)))).
  (* list indices must be integers: a tuple index into a plain list raises TypeError; an index
     beyond n_params raises IndexError.  Bounds of unequal lengths raise ValueError. *)
  Definition simplify_model (fmt : list T -> string) (m : fmodel T) (a_x a_y : option (list T))
    (a_date : option (list Z)) : res (fmodel T) :=
    let* b := fm_bounds m a_x a_y a_date in
    if negb (Nat.eqb (length (b_lo b)) (length (b_hi b))) then Err ValueError
    else
      let idx := equal_bounds b in
      match idx with
      | [] => Ok m
      | _ =>
          if negb (b_nd b) then Err TypeError
          else if existsb (fun i => Nat.leb (fm_n m) i) idx then Err IndexError
          else
            let* vals := fancy_get idx (b_hi b) in
            fix_params_fmodel fmt m (set_all idx vals (repeat nnan (fm_n m)))
      end.

  (* forecast_models.py 1910-1916.  Guess and bounds of different lengths raise ValueError
     (broadcasting of a single value is not modelled). *)
  Definition validate_initial_guess (guess : list T) (b : bounds T) : res bool :=
    if Nat.eqb (length guess) (length (b_lo b)) && Nat.eqb (length guess) (length (b_hi b)) then
      Ok (forallb (fun p => nleb (snd p) (fst p)) (combine guess (b_lo b)) &&
          forallb (fun p => nleb (fst p) (snd p)) (combine guess (b_hi b)))
    else Err ValueError.
End Fixed.
