(* Scores.  Models anticipy/model_utils.py 226-297. *)
From Coq Require Import ZArith List Bool.
From Verif Require Import Num Py.
Import ListNotations.
Local Open Scope Z_scope.

Section Aic.
  Context {T : Type} `{NumOps T}.

  (* model_utils.py 276-277 and 281-282 (Python 3 division).  math.log raises ValueError on
     arguments <= 0. *)
  Definition aic_formula (fit_error : T) (n k : Z) : res T :=
    let* l := py_log (ndiv fit_error (nofZ n)) in
    Ok (nadd (nadd (nmul (nofZ n) l) (nofZ (2 * k)))
             (ndiv (nofZ (2 * k * (k + 1))) (nofZ (n - k - 1)))).
  (* 10 ** -320, model_utils.py 275 *)
  Definition tiny_error : T := npow (nofZ 10) (nofZ (-320)).
  (* model_utils.py 226-284 *)
  Definition get_aic_c (fit_error : T) (n k : Z) : res T :=
    if (n <=? k + 1) || (n =? 0) then Err ValueError
    else if neqb fit_error n0 then
      (if k =? 1 then Ok nninf else aic_formula tiny_error n k)
    else aic_formula fit_error n k.

  (* np.nanargmin: nulls replaced by +inf, then the first position of the minimum *)
  Fixpoint argmin_from (i : Z) (best : T) (besti : Z) (l : list T) : Z :=
    match l with
    | [] => besti
    | a :: l' => if nltb a best then argmin_from (i + 1) a i l' else argmin_from (i + 1) best besti l'
    end.
  Definition argmin (l : list T) : Z :=
    match map (fun a => if nisnan a then npinf else a) l with
    | [] => 0
    | a :: l' => argmin_from 1 a 0 l'
    end.

  (* model_utils.py 287-297, on a series given as (index label, score) pairs.  The -inf branch
     returns an index label, the other branch (Series.argmin) a position.  With two or more -inf
     scores the unpacking "(key_best_result,) = ..." raises ValueError. *)
  Definition is_ninf (a : T) : bool := neqb a nninf.
  Definition best_result_key (s : list (Z * T)) : res (option Z) :=
    if forallb (fun p => nisnan (snd p)) s then Ok None
    else match filter (fun p => is_ninf (snd p)) s with
         | [p] => Ok (Some (fst p))
         | [] => Ok (Some (argmin (map snd s)))
         | _ => Err ValueError
         end.
End Aic.
