(* The mask of filled rows: the option include_mask of anticipy/model_utils.py 342-396.  Also the
   test for the null model, anticipy/forecast.py 53-55. *)
From Coq Require Import ZArith String List Bool.
From Verif Require Import Num Py Cal Model Freq Interp.
Import ListNotations.
Local Open Scope string_scope.
Local Open Scope list_scope.
Local Open Scope Z_scope.

Section Mask.
  Context {T : Type} `{NumOps T}.

  (* model_utils.py 344-346 and 361-378: the table is returned as it is, before the mask is added *)
  Definition no_gaps (f : frame T) : bool :=
    if has_date f then
      let ds := map r_date (rows f) in
      regular ds &&
      negb (match detect_freq ds, zdiff (zuniq ds) with
            | Some q, d :: _ => String.eqb q "D" && (DAY <? d)
            | _, _ => false
            end)
    else regular (map r_x (rows f)).

  (* model_utils.py 342-396 with include_mask = True: the column is_gap_filled is added after
     filling, ~df_result.x.isin(df.x); the early returns do not add it.  The table always has a
     column x here (line 392). *)
  Definition interpolate_df_mask (interpolate_y : bool) (f : frame T)
    : res (frame T * option (list bool)) :=
    let* g := interpolate_df interpolate_y f in
    Ok (g, if no_gaps f then None
           else Some (map (fun r => negb (existsb (Z.eqb (r_x r)) (map r_x (rows f)))) (rows g))).

  (* forecast.py 53-55 *)
  Definition is_null_model (m : fmodel T) : bool := String.eqb (fm_name m) "null".
End Mask.
