(* Input normalisation.  Models anticipy/forecast.py 299-404. *)
From Coq Require Import ZArith String List Bool.
From Verif Require Import Num Py Cal Model Freq.
Import ListNotations.
Local Open Scope Z_scope.

Section Normalize.
  Context {T : Type} `{NumOps T}.

  (* The table given to normalize_df (forecast.py 299-325): which columns exist under the names
     passed in col_name_*, and whether the index is a DatetimeIndex.  [q_idx] is the index entry of
     a row, meaningful only in that case; [q_row] its other columns.  Simplifications: the renaming
     of lines 341-350 does not make two columns coincide; y has been cast to float; dates have been
     parsed; sources are not null. *)
  Record rawrow := mkRaw { q_idx : Z; q_row : row T }.
  Record raw := mkTable {
    t_y : bool; t_w : bool; t_x : bool; t_date : bool; t_src : bool; t_dtindex : bool;
    t_rows : list rawrow }.

  Definition set_date (r : row T) (d : Z) : row T := mkRow d (r_src r) (r_x r) (r_y r) (r_w r).
  Definition set_x (r : row T) (x : Z) : row T := mkRow (r_date r) (r_src r) x (r_y r) (r_w r).

  (* a date column exists after forecast.py 366-372 *)
  Definition has_date_after (t : raw) : bool := t_date t || t_dtindex t.

  (* forecast.py 364-387, the body of the loop, for the rows of one source *)
  Definition prepare (t : raw) (qs : list rawrow) : res (list (row T)) :=
    let rs := map (fun q => if t_date t then q_row q
                            else if t_dtindex t then set_date (q_row q) (q_idx q) else q_row q) qs in
    if t_x t then Ok rs
    else if has_date_after t then
      let* xs := get_normalized_x_from_date (map r_date rs) in
      Ok (map (fun p => set_x (fst p) (snd p)) (combine rs xs))
    else Ok (map (fun p => set_x (snd p) (Z.of_nat (fst p))) (enumerate rs)).

  (* forecast.py 358-361: the sources in order of first occurrence; without a source column a
     single pass over all rows *)
  Definition sources_of (l : list (row T)) : list string := dedup String.eqb (map r_src l).
  Definition groups_of (t : raw) : list (list rawrow) :=
    if t_src t then
      map (fun s => filter (fun q => String.eqb (r_src (q_row q)) s) (t_rows t))
        (sources_of (map q_row (t_rows t)))
    else [t_rows t].

  (* forecast.py 402-403: sort_values(['source', 'x']) or sort_values(['x']).  The order of ties is
     unspecified for a single sort column; a stable sort is used here. *)
  Definition row_leb (by_src : bool) (a b : row T) : bool :=
    if by_src then
      match String.compare (r_src a) (r_src b) with
      | Lt => true | Gt => false | Eq => r_x a <=? r_x b
      end
    else r_x a <=? r_x b.

  (* forecast.py 327-404.  None for an empty table (line 328-329), AssertionError without a y
     column (line 334). *)
  Definition normalize_df (t : raw) : res (option (frame T)) :=
    match t_rows t with
    | [] => Ok None
    | _ =>
        if negb (t_y t) then Err AssertionError
        else
          let* gs := rmapM (prepare t) (groups_of t) in
          Ok (Some (mkFrame (has_date_after t) (t_src t) (t_w t)
                      (isort (row_leb (t_src t)) (concat gs))))
    end.

  (* a normalised frame seen as an input table: default column names, RangeIndex *)
  Definition raw_of (f : frame T) : raw :=
    mkTable true (has_w f) true (has_date f) (has_src f) false (map (mkRaw 0) (rows f)).
End Normalize.
Arguments rawrow : clear implicits.
Arguments raw : clear implicits.
