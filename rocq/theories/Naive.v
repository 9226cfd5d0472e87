(* Naive models.  Models anticipy/forecast_models.py 567-667. *)
From Coq Require Import ZArith String List Bool.
From Verif Require Import Num Py Cal Model.
Import ListNotations.
Local Open Scope string_scope.
Local Open Scope list_scope.

Section Naive.
  Context {T : Type} `{NumOps T}.

  (* pd.DataFrame({'date': a_date, 'x': a_x}), forecast_models.py 575 and 643: a missing a_date
     becomes a column of None; arrays of different length raise ValueError *)
  Definition request := (option Z * T)%type.
  Definition requests (a_x : list T) (a_date : option (list Z)) : res (list request) :=
    match a_date with
    | None => Ok (map (fun x => (None, x)) a_x)
    | Some d => if Nat.eqb (length d) (length a_x) then Ok (combine (map Some d) a_x)
                else Err ValueError
    end.

  (* row and request agree on the columns both tables have: x, and date if the actuals have one *)
  Definition same_key (with_date : bool) (r : row T) (q : request) : bool :=
    neqb (nofZ (r_x r)) (snd q) &&
    (if with_date then match fst q with Some t => (r_date r =? t)%Z | None => false end else true).

  (* forecast_models.py 576-581: df_actuals.drop_duplicates('x').merge(df_out_tmp, how='outer'),
     as pairs (x, y).  A row matched by k requests appears k times, requests without a row get a
     null y.  The row order of the merge does not matter, as the table is sorted afterwards. *)
  Definition outer_merge (with_date : bool) (rs : list (row T)) (qs : list request) : list (T * T) :=
    flat_map (fun r => repeat (nofZ (r_x r), r_y r)
                         (Nat.max 1 (length (filter (same_key with_date r) qs)))) rs
    ++ map (fun q => (snd q, nnan))
         (filter (fun q => negb (existsb (fun r => same_key with_date r q) rs)) qs).

  (* forecast_models.py 572-591.  sort_values('x') is not stable: with repeated x the order among
     equal x is not determined; the model keeps the merge order.  A dated actuals table merged with
     a None date column raises ValueError.  The function accepts no cache variables. *)
  Definition f_naive : mfun T :=
    fun a_x a_date _ _ kw =>
      match kw_cache kw with
      | _ :: _ => Err TypeError
      | [] =>
          match kw_actuals kw with
          | None => Err ValueError
          | Some df =>
              let* qs := requests a_x a_date in
              match has_date df, a_date with
              | true, None => Err ValueError
              | _, _ =>
                  let rs := dedup_key Z.eqb r_x (rows df) in
                  let m := isort (fun a b => nleb (fst a) (fst b)) (outer_merge (has_date df) rs qs) in
                  let y := bfill (ffill (shift1 (map snd m))) in
                  Ok (Ar (map snd (filter (fun p => existsb (neqb (fst p)) a_x)
                                     (combine (map fst m) y))))
              end
          end
      end.
  (* forecast_models.py 594 *)
  Definition model_naive : fmodel T := mk_model "naive" 0 f_naive None None None None None.

  (* forecast_models.py 602-619, _fillna_wday: per weekday, the previous value, gaps filled
     forward; rows paired with y_out, sorted by x *)
  Definition wday_group (w : Z) (rs : list (row T)) : list (row T * T) :=
    let g := filter (fun r => (weekday (r_date r) =? w)%Z) rs in
    combine g (ffill (shift1 (map r_y g))).
  Definition fillna_wday (rs : list (row T)) : list (row T * T) :=
    isort (fun a b => (r_x (fst a) <=? r_x (fst b))%Z)
      (flat_map (fun w => wday_group (Z.of_nat w) rs) (seq 0 7)).

  (* forecast_models.py 631-640: value per weekday used beyond the actuals: y of the last row of
     that weekday, or its y_out where y is null; null for weekdays without a row *)
  Definition last_week (m : list (row T * T)) (w : Z) : T :=
    match find (fun p => (weekday (r_date (fst p)) =? w)%Z) (rev m) with
    | Some (r, y_out) => if nisnan (r_y r) then y_out else r_y r
    | None => nnan
    end.

  (* forecast_models.py 622-664.  The actuals must have dates (AttributeError otherwise). *)
  Definition f_snaive_wday : mfun T :=
    fun a_x a_date _ _ kw =>
      match kw_cache kw with
      | _ :: _ => Err TypeError
      | [] =>
          match kw_actuals kw with
          | None => Err ValueError
          | Some df =>
              if negb (has_date df) then Err AttributeError
              else
                match a_date with
                | None => Err AttributeError
                | Some d =>
                    let* qs := requests a_x a_date in
                    let m := fillna_wday (dedup_key Z.eqb r_x (rows df)) in
                    let ts := map (fun p => r_date (fst p)) m in
                    let qz := combine d a_x in
                    let ext := isort (fun a b => nleb (snd a) (snd b))
                                 (filter (fun q => negb (existsb (Z.eqb (fst q)) ts)) qz) in
                    let inner := flat_map (fun p => repeat (snd p)
                                   (length (filter (same_key true (fst p)) qs))) m in
                    Ok (Ar (inner ++ map (fun q => last_week m (weekday (fst q))) ext))
                end
          end
      end.
  (* forecast_models.py 667 *)
  Definition model_snaive_wday : fmodel T :=
    mk_model "snaive_wday" 0 f_snaive_wday None None None None None.
End Naive.
