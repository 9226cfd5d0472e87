(* Shaded prediction intervals of plots.  Models anticipy/forecast_plot.py 126-147, 288-322.  The table
   is one with percentile columns, as get_pi returns it (Pi.v). *)
From Coq Require Import ZArith String List Bool.
From Verif Require Import Num Py Model Pi.
Import ListNotations.
Local Open Scope string_scope.
Local Open Scope list_scope.
Local Open Scope Z_scope.

(* Axes.fill_between(.., where=..), forecast_plot.py 133-135 and 145-147: one polygon over each stretch
   of consecutive rows of the table for which the condition holds *)
Fixpoint stretches {A} (w : A -> bool) (l : list A) : list (list A) :=
  match l with
  | [] => []
  | a :: l' =>
      if w a then
        match l' with
        | b :: _ => if w b then match stretches w l' with s :: ss => (a :: s) :: ss | [] => [[a]] end
                    else [a] :: stretches w l'
        | [] => [[a]]
        end
      else stretches w l'
  end.

Section Bands.
  Context {T : Type} `{NumOps T}.
  (* The percentile columns: 'q5' is column 5.  Tables of several series are concatenated, so that
     a column exists if some row has an entry (in a table without forecast rows there is nothing to
     draw either way). *)
  Definition columns_of (l : list (prow T)) : list Z := dedup Z.eqb (flat_map (fun r => map fst (p_q r)) l).
  Definition has_column (q : Z) (l : list (prow T)) : bool := existsb (Z.eqb q) (columns_of l).
  (* an entry of a column; null in rows without *)
  Definition entry (q : Z) (r : prow T) : T :=
    match find (fun p => fst p =? q) (p_q r) with Some p => snd p | None => nnan end.
  (* forecast_plot.py 113-116 and 247-252 *)
  Definition own_row (subplots : bool) (src : string) (r : prow T) : bool :=
    if subplots then String.eqb (p_src r) src else true.
  Definition corner (lo hi : Z) (r : prow T) : Z * T * T := (p_date r, entry lo r, entry hi r).
  (* forecast_plot.py 129-132 and 141-144 *)
  Definition to_fill (subplots : bool) (src : string) (lo hi : Z) (r : prow T) : bool :=
    own_row subplots src r && negb (p_actual r) && negb (nisnan (entry lo r)) && negb (nisnan (entry hi r)).

  (* forecast_plot.py 99 and 126-147: the polygons of the two bands of one cell.  The percentiles are
     fixed. *)
  Definition mpl_bands (interval subplots : bool) (src : string) (l : list (prow T)) : list (list (list (Z * T * T))) :=
    let shown := filter (fun r => negb (String.eqb (p_model r) "weight")) l in
    flat_map (fun p => match p with (lo, hi) =>
                if interval && has_column lo l && has_column hi l
                then [map (map (corner lo hi)) (stretches (to_fill subplots src lo hi) shown)] else []
              end) [(5, 95); (20, 80)].
  (* forecast_plot.py 288-322: the lower and the upper line of the bands of one cell *)
  Definition plotly_bands (interval subplots : bool) (q1 q2 : Z) (src : string) (l : list (prow T))
    : list (list (Z * T) * list (Z * T)) :=
    let rs := filter (fun r => own_row subplots src r && negb (p_actual r)) l in
    flat_map (fun q => if interval && has_column q l && has_column (100 - q) l
                       then [(map (fun r => (p_date r, entry q r)) rs, map (fun r => (p_date r, entry (100 - q) r)) rs)]
                       else []) [q1; q2].
End Bands.
