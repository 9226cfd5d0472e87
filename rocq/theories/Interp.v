(* Filling gaps in a series.  Models anticipy/model_utils.py 342-396. *)
From Coq Require Import ZArith String List Bool.
From Verif Require Import Num Py Cal Model Freq Normalize Fit.
Import ListNotations.
Local Open Scope string_scope.
Local Open Scope list_scope.
Local Open Scope Z_scope.

(* s.drop_duplicates().diff().nunique() <= 1, model_utils.py 345 and 361 to 375 *)
Definition regular (l : list Z) : bool := nunique_le1 (zdiff (zuniq l)).

(* date_range of DataFrame.asfreq(freq) between the earliest and the latest date (model_utils.py 387;
   releases of pandas that take the first and the last row instead agree on tables sorted by date,
   which normalize_df returns).
   Without a frequency pandas uses days; 'Q' are the last days of March, June, September and
   December. *)
Definition quarter (k : Z) : bool := k mod 3 =? 2.
Definition asfreq_range (start stop : Z) (freq : option string) : res (list Z) :=
  match freq with
  | None => Ok (fixed_range start DAY stop)
  | Some f => if String.eqb f "Q" then Ok (month_range start stop quarter month_last)
              else date_range start stop f
  end.

Section Interp.
  Context {T : Type} `{NumOps T}.

  (* Series.interpolate(): linear in the position (np.interp: slope * distance + left value),
     nothing before the first value, the last value repeated after the last *)
  Fixpoint next_valid (i : nat) (l : list T) : option (nat * T) :=
    match l with
    | [] => None
    | a :: l' => if nisnan a then next_valid (S i) l' else Some (i, a)
    end.
  Definition between (p q : nat * T) (i : nat) : T :=
    nadd (nmul (ndiv (nsub (snd q) (snd p)) (nofZ (Z.of_nat (fst q - fst p))))
               (nofZ (Z.of_nat (i - fst p)))) (snd p).
  Fixpoint interp_from (prev : option (nat * T)) (i : nat) (l : list T) : list T :=
    match l with
    | [] => []
    | a :: l' =>
        if nisnan a then
          (match prev with
           | None => nnan
           | Some p => match next_valid (S i) l' with
                       | None => snd p
                       | Some q => between p q i
                       end
           end) :: interp_from prev (S i) l'
        else a :: interp_from (Some (i, a)) (S i) l'
    end.
  Definition interp (l : list T) : list T := interp_from None 0 l.

  (* .astype(int): ValueError on null or infinite entries *)
  Definition to_ints (l : list T) : res (list Z) :=
    rmapM (fun a => match ntrunc a with Some z => Ok z | None => Err ValueError end) l.

  Definition lookup (key : row T -> Z) (rs : list (row T)) (t : Z) : option (row T) :=
    find (fun r => key r =? t) rs.
  (* a column of the re-indexed table: null at grid points without a row *)
  Definition column (get : row T -> T) (found : list (option (row T))) : list T :=
    map (fun o => match o with Some r => get r | None => nnan end) found.
  (* source of a filled row is null, represented by the empty string *)
  Definition src_column (found : list (option (row T))) : list string :=
    map (fun o => match o with Some r => r_src r | None => "" end) found.
  Definition mk_rows (ds : list Z) (ss : list string) (xs : list Z) (ys ws : list T) : list (row T) :=
    map (fun p => match p with ((((d, s), x), y), w) => mkRow d s x y w end)
      (combine (combine (combine (combine ds ss) xs) ys) ws).

  (* model_utils.py 342-396, include_mask = False (for True see Mask.v).  x is an integer
     column.  With interpolate_y the interpolation also runs over the weight column. *)
  Definition interpolate_df (interpolate_y : bool) (f : frame T) : res (frame T) :=
    let fill l := if interpolate_y then interp l else l in
    let rs := rows f in
    if negb (has_date f) then
      let xs := map r_x rs in
      if regular xs then Ok f
      else if has_dup Z.eqb xs then Err ValueError
      else
        match zmin_opt xs, zmax_opt xs with
        | Some lo, Some hi =>
            let grid := zrange lo hi in
            let found := map (lookup r_x rs) grid in
            Ok (mkFrame false (has_src f) (has_w f)
                  (mk_rows (map (fun o => match o with Some r => r_date r | None => 0 end) found)
                     (src_column found) grid (fill (column r_y found)) (fill (column r_w found))))
        | _, _ => Err ValueError       (* unreachable: an irregular column is not empty *)
        end
    else
      let ds := map r_date rs in
      let freq := detect_freq ds in
      (* model_utils.py 360-378: the first difference is positive or negative, as the table is *)
      let sparse := match freq, zdiff (zuniq ds) with
                    | Some f, d :: _ => String.eqb f "D" && (DAY <? d)
                    | _, _ => false
                    end in
      if regular ds && negb sparse then Ok f
      else if has_dup Z.eqb ds then Err ValueError
      else
        match zmin_opt ds, zmax_opt ds with
        | Some lo, Some hi =>
            let* grid := asfreq_range lo hi freq in
            let found := map (lookup r_date rs) grid in
            let* xs := to_ints (interp (column (fun r => nofZ (r_x r)) found)) in
            Ok (mkFrame true (has_src f) (has_w f)
                  (mk_rows grid (src_column found) xs (fill (column r_y found)) (fill (column r_w found))))
        | _, _ => Err ValueError
        end.
End Interp.
