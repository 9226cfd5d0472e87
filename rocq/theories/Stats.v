(* Statistics behind the automatic choice of the composition.  Models anticipy/model_utils.py
   399-448. *)
From Coq Require Import ZArith String List Bool QArith_base.
From Verif Require Import Num Py Cal Model Base Naive Freq Normalize Fit.
Import ListNotations.
Local Open Scope string_scope.
Local Open Scope list_scope.
Local Open Scope Z_scope.

Section Stats.
  Context {T : Type} `{NumOps T}.

  (* model_utils.py 414-421: left merge with the predictions, whose index has no duplicates *)
  Definition predicted (pred : list (Z * T)) (r : row T) : T :=
    match find (fun p => fst p =? r_x r) pred with Some p => snd p | None => nnan end.
  (* model_utils.py 400-422.  The grid is numeric: df.x is an integer column, so the minimum is
     neither a string nor a datetime.  The x values passed to the model start at
     x_start_actuals = 0, its default, and not at df.x.min(). *)
  Definition fit_linear (E : env T) (f : frame T) : res (list (row T * T)) :=
    if Nat.ltb (length (rows f)) 4 then Err AssertionError
    else
      let* d := fit_model E model_linear f (Some "W") "test" None true in
      match zmin_opt (map r_x (rows f)), zmax_opt (map r_x (rows f)) with
      | Some lo, Some hi =>
          let* pred := extrapolate_model model_linear (Some (md_params d)) (ONum lo (hi + 1)) (Some "W") 0 0 None in
          Ok (map (fun r => (r, predicted pred r)) (rows f))
      | _, _ => Err ValueError
      end.

  (* number of the calendar month: resample('M') makes one bin for every month from that of the
     earliest to that of the latest date, model_utils.py 436-445 *)
  Definition month_no (t : Z) : Z := year t * 12 + month t.
  Definition month_range_of (l : list Z) : list Z :=
    match zmin_opt l, zmax_opt l with
    | Some lo, Some hi => map (fun i => lo + Z.of_nat i) (seq 0 (Z.to_nat (hi - lo + 1)))
    | _, _ => []
    end.
  Definition valid_values (l : list T) : list T := filter (fun a => negb (nisnan a)) l.
  (* mean of a bin, null entries skipped; NaN if there is none (0 / 0) *)
  Definition bin_mean (l : list T) : T := np_mean (valid_values l).
  (* np.var in agg is the sample variance (ddof = 1): NaN below two entries.  Computed in two
     passes; the rounding of pandas' one-pass algorithm is not modelled. *)
  Definition square (a : T) : T := nmul a a.
  Definition bin_var (l : list T) : T :=
    let v := valid_values l in
    if Nat.ltb (length v) 2 then nnan
    else ndiv (nsum (map (fun a => square (nsub a (np_mean v))) v)) (nofZ (Z.of_nat (length v) - 1)).

  (* Series.corr (nanops.nancorr, np.corrcoef) of pairs: pairs with a null are dropped, no pair
     gives NaN; covariances over n - 1, divided by both standard deviations, clipped to [-1, 1]. *)
  Definition clip1 (a : T) : T :=
    if nltb a (nopp n1) then nopp n1 else if nltb n1 a then n1 else a.
  Definition cov (l : list (T * T)) : T :=
    let ma := np_mean (map fst l) in
    let mb := np_mean (map snd l) in
    ndiv (nsum (map (fun p => nmul (nsub (fst p) ma) (nsub (snd p) mb)) l))
         (nofZ (Z.of_nat (length l) - 1)).
  Definition corr (l : list (T * T)) : T :=
    match filter (fun p => negb (nisnan (fst p)) && negb (nisnan (snd p))) l with
    | [] => nnan
    | v =>
        let sd l := nsqrt (cov (map (fun a => (a, a)) l)) in
        clip1 (ndiv (ndiv (cov v) (sd (map fst v))) (sd (map snd v)))
    end.

  (* model_utils.py 433-447: one (res_var, y_mean) pair for each month; residuals are y_pred - y *)
  Definition monthly (l : list (row T * T)) : list (T * T) :=
    map (fun k =>
           let bin := filter (fun p => month_no (r_date (fst p)) =? k) l in
           (bin_var (map (fun p => nsub (snd p) (r_y (fst p))) bin), bin_mean (map (fun p => r_y (fst p)) bin)))
      (month_range_of (map (fun p => month_no (r_date (fst p))) l)).
  (* model_utils.py 425-448: the entry corr_mean_to_var, the same in all rows *)
  Definition mult_corr (E : env T) (f : frame T) : res T :=
    let* l := fit_linear E f in Ok (corr (monthly l)).
End Stats.
