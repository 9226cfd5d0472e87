(* Prediction intervals.  Models anticipy/forecast.py 1565-1805. *)
From Coq Require Import ZArith String List Bool.
From Verif Require Import Num Py Cal Model Freq Outliers.
Import ListNotations.
Local Open Scope string_scope.
Local Open Scope list_scope.

(* forecast.py 1565-1573; None.startswith raises AttributeError *)
Definition days_from_freq (f : option string) : res Z :=
  match f with
  | None => Err AttributeError
  | Some f => Ok (if startswith f "Y" then 365 else if startswith f "M" then 30
                  else if startswith f "W" then 7 else 1)%Z
  end.
(* forecast.py 1687-1691: int() rounds towards zero *)
Definition widening_step (n_cum freq_days : Z) : nat := Z.to_nat (Z.max 1 (Z.quot n_cum freq_days)).
(* int(np.ceil(a / b)), forecast.py 1754 *)
Definition ceil_nat (a b : nat) : nat := Z.to_nat (- ((- Z.of_nat a) / Z.of_nat b)).

Section Pi.
  Context {T : Type} `{NumOps T}.

  (* One row of the forecast table ('data' in forecast.py 1385-1408): d_date is a date, or x for
     input without dates; d_actual and d_best are is_actuals and is_best_fit. *)
  Record drow := mkD { d_date : Z; d_w : T; d_y : T; d_model : string; d_src : string;
                       d_long : string; d_actual : bool; d_best : bool }.
  (* The table given to get_pi: which optional columns exist, and whether dates are datetimes.
     The columns date, model, y and is_actuals always exist. *)
  Record ptable := mkPT { pt_src : bool; pt_w : bool; pt_best : bool; pt_dates : bool;
                          pt_rows : list drow }.
  (* One row of the result; p_q holds the percentile columns of a forecast row, nothing for actuals *)
  Record prow := mkP { p_date : Z; p_src : string; p_model : string; p_actual : bool; p_y : T;
                       p_q : list (Z * T) }.

  (* np.percentile(a, q), forecast.py 1647: null if some entry is *)
  Definition percentile (q : Z) (l : list T) : T :=
    if existsb nisnan l then nnan else quantile q 100 l.
  (* forecast.py 1645-1648: the keys of the dict *)
  Definition percentiles (q1 q2 : Z) : list Z := dedup Z.eqb [q1; 100 - q1; q2; 100 - q2]%Z.

  (* Series.sample(k, replace=True), forecast.py 1759, 1771, 1790: [d i] is the i-th draw *)
  Definition sample (vals : list T) (d : nat -> nat) (k : nat) : list T :=
    map (fun i => nth (d i mod length vals)%nat vals nnan) (seq 0 k).
  (* .values.reshape(m, n) *)
  Definition reshape (m n : nat) (l : list T) : list (list T) :=
    map (fun i => firstn n (skipn (i * n)%nat l)) (seq 0 m).
  (* np.cumsum(a, axis=1), forecast.py 1762, one row *)
  Fixpoint cumsum_from (acc : option T) (l : list T) : list T :=
    match l with
    | [] => []
    | a :: l' => let s := match acc with None => a | Some b => nadd b a end in s :: cumsum_from (Some s) l'
    end.
  (* np.repeat(a, n_cum, axis=1)[:, :n], forecast.py 1764-1767, one row *)
  Definition expand (n_cum n : nat) (l : list T) : list T := firstn n (flat_map (fun v => repeat v n_cum) l).
  Definition add_rows (a b : list T) : list T := map (fun p => nadd (fst p) (snd p)) (combine a b).
  Definition col (j : nat) (m : list (list T)) : list T := map (fun r => nth j r nnan) m.

  (* forecast.py 1752-1774: n_sims simulated deviations for n future samples *)
  Definition future_sample (draw : nat -> nat -> nat) (n_sims n_cum n : nat) (res : list T) : list (list T) :=
    let short := ceil_nat n n_cum in
    let cum := map (fun r => expand n_cum n (cumsum_from None r))
                 (reshape n_sims short (sample res (draw 0%nat) (short * n_sims)%nat)) in
    let base := reshape n_sims n (sample res (draw 1%nat) (n * n_sims)%nat) in
    map (fun p => add_rows (fst p) (snd p)) (combine base cum).
  (* forecast.py 1787-1792 *)
  Definition past_sample (draw : nat -> nat -> nat) (n_sims n : nat) (res : list T) : list (list T) :=
    reshape n_sims n (sample res (draw 2%nat) (n * n_sims)%nat).

  (* forecast.py 1628-1653: forecast rows with percentile columns *)
  Definition add_percentiles (l : list drow) (a_sample : list (list T)) (q1 q2 : Z) : res (list prow) :=
    if (0 <? q1)%Z && (q1 <? 100)%Z && (0 <? q2)%Z && (q2 <? 100)%Z then
      Ok (map (fun p => mkP (d_date (snd p)) (d_src (snd p)) (d_model (snd p)) false (d_y (snd p))
                         (map (fun q => (q, nadd (d_y (snd p)) (percentile q (col (fst p) a_sample))))
                            (percentiles q1 q2)))
            (enumerate l))
    else Err AssertionError.

  Definition actual_row (r : drow) : prow := mkP (d_date r) (d_src r) (d_model r) true (d_y r) [].
  Definition with_value (r : drow) : bool := negb (nisnan (d_y r)).
  (* forecast.py 1700-1713: each actual once for every usable actual of the same date.  (The source
     is the same in all rows.) *)
  Definition usable_actuals (l : list drow) : list (Z * T) :=
    let dates := map d_date (filter (fun r => nltb n0 (d_w r) && d_actual r) l) in
    flat_map (fun r => repeat (d_date r, d_y r) (length (filter (Z.eqb (d_date r)) dates)))
      (filter (fun r => d_actual r && with_value r) l).
  (* forecast.py 1723-1731 *)
  Definition residuals (actuals : list (Z * T)) (l : list drow) : list T :=
    filter (fun a => negb (nisnan a))
      (flat_map (fun r => map (fun a => nsub (snd a) (d_y r)) (filter (fun a => (fst a =? d_date r)%Z) actuals))
         (filter (fun r => negb (d_actual r) && with_value r) l)).
  Definition centred (l : list T) : list T :=
    let m := ndiv (nsum l) (nofZ (Z.of_nat (length l))) in map (fun a => nsub a m) l.

  (* forecast.py 1656-1805.  All rows have the same source. *)
  Definition pi_single (draw : nat -> nat -> nat) (n_sims : nat) (n_cum : Z) (q1 q2 : Z) (t : ptable)
    : res (list prow) :=
    let l := if pt_best t then filter (fun r => d_actual r || d_best r) (pt_rows t) else pt_rows t in
    let* freq_days := if pt_dates t then days_from_freq (detect_freq (map d_date l)) else Ok 1%Z in
    let step := widening_step n_cum freq_days in
    let unfiltered := filter (fun r => d_actual r && with_value r) l in
    let* actuals :=
      if pt_w t && existsb (fun r => neqb (d_w r) n0) l then
        (if pt_src t then Ok (usable_actuals l) else Err KeyError)
      else Ok (map (fun r => (d_date r, d_y r)) unfiltered) in
    let res := residuals actuals l in
    match res with
    | [] => if negb (pt_src t) then Err AttributeError
            else match l with [] => Err IndexError | _ => Ok (map actual_row unfiltered) end
    | _ =>
        match zmax_opt (map fst actuals) with
        | None => Err ValueError          (* unreachable: a residual needs an actual *)
        | Some last =>
            let res := centred res in
            let future := filter (fun r => negb (d_actual r) && (last <? d_date r)%Z) l in
            let past := filter (fun r => negb (d_actual r) && (d_date r <=? last)%Z) l in
            let* fut := add_percentiles future (future_sample draw n_sims step (length future) res) q1 q2 in
            let* pas := add_percentiles past (past_sample draw n_sims (length past) res) q1 q2 in
            Ok (map actual_row unfiltered ++ pas ++ fut)
        end
    end.

  (* sort_values(['source', 'is_actuals', 'date']), forecast.py 1619 *)
  Definition prow_leb (a b : prow) : bool :=
    match String.compare (p_src a) (p_src b) with
    | Lt => true | Gt => false
    | Eq => if Bool.eqb (p_actual a) (p_actual b) then (p_date a <=? p_date b)%Z else p_actual b
    end.
  (* forecast.py 1576-1625.  [draw] supplies the draws per source. *)
  Definition get_pi (draw : string -> nat -> nat -> nat) (n_sims : nat) (n_cum : option Z) (q1 q2 : Z)
    (widening : option string) (t : ptable) : res (list prow) :=
    let* n_cum := match n_cum with Some n => Ok n | None => days_from_freq widening end in
    let srcs := isort str_leb (dedup String.eqb (map d_src (pt_rows t))) in
    if pt_src t && Nat.ltb 1 (length srcs) then
      let* gs := rmapM (fun s => pi_single (draw s) n_sims n_cum q1 q2
                          (mkPT true (pt_w t) (pt_best t) (pt_dates t)
                             (filter (fun r => String.eqb (d_src r) s) (pt_rows t)))) srcs in
      Ok (isort prow_leb (concat gs))
    else pi_single (draw (match pt_rows t with r :: _ => d_src r | [] => "" end)) n_sims n_cum q1 q2 t.
End Pi.
Arguments drow : clear implicits.
Arguments ptable : clear implicits.
Arguments prow : clear implicits.
