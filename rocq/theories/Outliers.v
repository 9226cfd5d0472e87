(* Outlier detection.  Models anticipy/forecast_models.py 1293-1429. *)
From Coq Require Import ZArith String List Bool.
From Verif Require Import Num Py Cal Model.
Import ListNotations.
Local Open Scope list_scope.

Section Outliers.
  Context {T : Type} `{NumOps T}.

  Definition non_null (l : list T) : list T := filter (fun a => negb (nisnan a)) l.
  (* Series.quantile(a/b) and np.percentile: null entries dropped, values sorted, linear
     interpolation at position (n - 1) * a / b; null for no values.  The position is computed
     exactly here. *)
  Definition quantile (a b : Z) (l : list T) : T :=
    let s := isort nleb (non_null l) in
    match s with
    | [] => nnan
    | v :: _ =>
        let p := (Z.of_nat (length s - 1) * a)%Z in
        let i := Z.to_nat (p / b) in
        let v0 := nth i s v in
        let v1 := nth (S i) s v0 in
        nadd v0 (nmul (ndiv (nofZ (p mod b)) (nofZ b)) (nsub v1 v0))
    end.
  (* forecast_models.py 1293-1300 with the default quartiles *)
  Definition iqr_thresholds (l : list T) : T * T :=
    let q1 := quantile 1 4 l in
    let q3 := quantile 3 4 l in
    let m := nmul (dec 15 10) (nsub q3 q1) in
    (nsub q1 m, nadd q3 m).

  (* rolling(3, center=True).max().fillna(0): the two ends have no full window
     (forecast_models.py 1343-1346, the only window used) *)
  Fixpoint roll_from (before : bool) (l : list bool) : list bool :=
    match l with
    | [] => []
    | [a] => [false]
    | a :: ((b :: _) as l') => (before || a || b) :: roll_from a l'
    end.
  Definition rolling3 (l : list bool) : list bool :=
    match l with
    | [] => []
    | [a] => [false]
    | a :: l' => false :: roll_from a l'
    end.
  (* diff().abs().fillna(0).cumsum() of a 0/1 column, forecast_models.py 1356-1357 *)
  Fixpoint group_from (g : nat) (before : bool) (l : list bool) : list nat :=
    match l with
    | [] => []
    | a :: l' => let g' := if Bool.eqb a before then g else S g in g' :: group_from g' a l'
    end.
  Definition groups (l : list bool) : list nat :=
    match l with [] => [] | a :: l' => O :: group_from O a l' end.

  (* one sample: position, difference to the sample before, changed, in a change window, group *)
  Record osample := mkO { o_pos : Z; o_dif : T; o_chg : bool; o_win : bool; o_grp : nat }.
  Definition osamples (lo hi : T) (pos : list Z) (dif : list T) : list osample :=
    let chg := map (fun d => nltb d lo || nltb hi d) dif in
    let win := rolling3 chg in
    let grp := groups win in
    map (fun p => match p with ((((x, d), c), w), g) => mkO x d c w g end)
      (combine (combine (combine (combine pos dif) chg) win) grp).
  (* the changed samples of a group *)
  Definition changed (l : list osample) (g : nat) : list osample :=
    filter (fun s => Nat.eqb (o_grp s) g && o_chg s) l.
  Definition omean (l : list T) : T :=
    match l with [] => n0 | _ => ndiv (nsum l) (nofZ (Z.of_nat (length l))) end.

  (* forecast_models.py 1306-1429.  Returns (mask_step, mask_spike). *)
  Definition step_at (with_dates : bool) (lo hi : T) (l : list osample) (s : osample) : bool :=
    let ch := changed l (o_grp s) in
    let mean := omean (map o_dif ch) in
    o_win s && (nltb mean lo || nltb hi mean) &&
    match ch with
    | [] => negb with_dates && (0 <=? o_pos s)%Z && (o_pos s <=? 0)%Z
    | c :: _ => (o_pos c <=? o_pos s)%Z && (o_pos s <=? o_pos (last ch c))%Z
    end.
  Definition spike_at (with_dates : bool) (lo hi : T) (l : list osample) (s : osample) : bool :=
    let ch := changed l (o_grp s) in
    let mean := omean (map o_dif ch) in
    let mean_abs := omean (map (fun c => nabs (o_dif c)) ch) in
    nltb (ndiv (nsub hi lo) (nofZ 2)) (nsub mean_abs (nabs mean)) &&
    match ch with
    | [] => negb with_dates && (0 <=? o_pos s)%Z && (o_pos s <? 0)%Z
    | c :: _ => (o_pos c <=? o_pos s)%Z && (o_pos s <? o_pos (last ch c))%Z
    end.
  Definition model_outliers (f : frame T) : res (list bool * list bool) :=
    let pos := map (fun r => if has_date f then r_date r else r_x r) (rows f) in
    if has_dup Z.eqb pos then Err ValueError
    else
      let dif := pd_diff (map r_y (rows f)) in
      let (lo, hi) := iqr_thresholds dif in
      let l := osamples lo hi pos dif in
      if existsb o_chg l then
        Ok (map (step_at (has_date f) lo hi l) l, map (spike_at (has_date f) lo hi l) l)
      else Ok (repeat false (length (rows f)), repeat false (length (rows f))).
End Outliers.
Arguments osample : clear implicits.
