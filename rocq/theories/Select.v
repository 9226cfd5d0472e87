(* Choice of candidate models.  Models anticipy/forecast_models.py 1919-1996,
   anticipy/forecast.py 725-758 and 1022-1082, anticipy/model_utils.py 439-484. *)
From Coq Require Import ZArith String List Bool.
From Verif Require Import Num Py Cal Model Base Naive.
Import ListNotations.
Local Open Scope string_scope.
Local Open Scope list_scope.
Local Open Scope Z_scope.

Section Select.
  Context {T : Type} `{NumOps T}.
  Notation M := (fmodel T).

  (* s_date.sort_values().drop_duplicates(): smallest step and length; None if pandas gives NaT
     (forecast_models.py 1935-1940, forecast.py 1031-1032 and 1057-1061) *)
  Definition date_span (ds : list Z) : option Z :=
    match zmax_opt (sort_uniq ds), zmin_opt (sort_uniq ds) with
    | Some hi, Some lo => Some (hi - lo)
    | _, _ => None
    end.
  Definition date_gap (ds : list Z) : option Z := zmin_opt (zdiff (sort_uniq ds)).

  (* forecast_models.py 1961-1977: the default list, the null model for an empty list *)
  Definition season_list (use : bool) (dflt : list M) (l : option (list M)) : list M :=
    if use then match l with None => dflt | Some [] => [model_null] | Some l => l end
    else [model_null].

  (* forecast_models.py 1919-1996, with the default min_periods = 1.5 (no caller passes another) *)
  Definition auto_season (mode : string) (l_yearly l_weekly : option (list M)) (ds : list Z)
    : list M :=
    match date_gap ds, date_span ds with
    | Some gap, Some span =>
        let use_yearly := (1095 * DAY / 2 <? span) && (gap <=? 92 * DAY) in
        let use_weekly := (21 * DAY / 2 <? span) && (gap <=? DAY) in
        let lw := season_list use_weekly [model_season_wday; model_null] l_weekly in
        let ly := season_list use_yearly [model_season_fourier_yearly; model_null] l_yearly in
        let step acc p :=
          let a := madd (fst p) (snd p) in
          let m := mmul (fst p) (snd p) in
          let acc1 := if String.eqb mode "add" && negb (model_eqb a model_null) then acc ++ [a] else acc in
          if String.eqb mode "mult" && negb (model_eqb m model_null) && negb (existsb (model_eqb m) acc1)
          then acc1 ++ [m] else acc1 in
        isort model_leb (fold_left step (product lw ly) [model_null])
    | _, _ => [model_null]
    end.

  (* forecast.py 725-758; pd.Series(...).drop_duplicates() goes by __eq__ and __hash__ *)
  Definition list_model (l_trend l_season : option (list M)) (mode : string) : list M :=
    dedup model_eqb
      match l_season with
      | None | Some [] => match l_trend with Some t => t | None => [] end
      | Some s =>
          match l_trend with
          | None | Some [] => s
          | Some t =>
              (if String.eqb mode "mult" then [] else map (fun p => madd (fst p) (snd p)) (product t s))
              ++ (if String.eqb mode "add" then [] else map (fun p => mmul (fst p) (snd p)) (product t s))
          end
      end.

  (* dates of the rows with positive weight: forecast.py 1027-1029, 1052-1054 *)
  Definition weighted_dates (f : frame T) : list Z :=
    map r_date (if has_w f then filter (fun r => nltb n0 (r_w r)) (rows f) else rows f).
  (* forecast.py 1022-1043 *)
  Definition use_ramp (f : frame T) : bool :=
    has_date f &&
    match date_span (weighted_dates f) with Some d => 730 * DAY <? d | None => false end.
  (* forecast.py 1046-1070; the same code is repeated in 1247-1269 *)
  Definition use_calendar (f : frame T) : bool :=
    has_date f &&
    match date_gap (weighted_dates f), date_span (weighted_dates f) with
    | Some g, Some d => (365 * DAY <? d) && (g <=? DAY)
    | _, _ => false
    end.
  (* forecast.py 1207-1214 and 1286-1290: default trends and naive models *)
  Definition default_trend (f : frame T) : list M :=
    if use_ramp f then [model_linear; madd model_linear model_ramp] else [model_linear].
  Definition default_naive (freq : option string) : list M :=
    match freq with
    | Some f => if String.eqb f "D" then [model_snaive_wday] else [model_naive]
    | None => [model_naive]
    end.

  (* forecast.py 1073-1082 *)
  Definition add_mult_label (m : M) (mode : string) (l_add : list M) : string :=
    if String.eqb mode "add" || String.eqb mode "mult" then mode
    else if existsb (model_eqb m) l_add then "add" else "mult".

  (* model_utils.py 451-484.  [corr] stands for _get_mult_sum_stats(df)['corr_mean_to_var']
     (425-448), the correlation of monthly means and residual variances of a linear fit; it is
     [mult_corr] of Stats.v. *)
  Definition is_multiplicative (corr : frame T -> res T) (f : frame T) : res bool :=
    if existsb (fun r => nleb (r_y r) n0) (rows f) then Ok false
    else if negb (has_date f) then Ok false
    else if match zmax_opt (map r_date (rows f)), zmin_opt (map r_date (rows f)) with
            | Some hi, Some lo => hi - lo <? 60 * DAY
            | _, _ => false
            end then Ok false
    else
      let l := filter (fun r => negb (nisnan (r_y r))) (rows f) in
      let l' := if has_w f then filter (fun r => nltb n0 (r_w r)) l else l in
      if Nat.ltb (length l') 4 then Ok false
      else let* c := corr f in Ok (nleb (dec 8 10) c).
End Select.
