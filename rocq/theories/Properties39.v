(* The shaded prediction intervals of plots: C92. *)
From Coq Require Import ZArith String List Bool Reals PrimFloat.
From Verif Require Import Num Py Cal Model Pi Plot.
From Verif Require Import NumProofs ListProofs OutlierReals PiProofs Ex Properties7 Properties8 Bands BandProofs.
Import ListNotations.
Local Open Scope string_scope.
Local Open Scope list_scope.
Local Open Scope Z_scope.

(* [in_cell subplots src r]: r is a forecast row of the series shown in the cell.  [not_weight r]: it
   is not of model "weight".  [corner lo hi r]: its date and its entries in columns q{lo} and q{hi}.
   [nested q1 q2 r]: its four entries are finite and in the order q1, q2, 100 - q2, 100 - q1.
   [several t]: there is a panel for every series. *)
Theorem C92_png : forall draw s n_cum wd (t : ptable XR) out src, finite_table t -> (1 <= s)%nat -> get_pi draw s n_cum 5 20 wd t = Ok out ->
  let rs := filter (fun r => in_cell (several t) src r && not_weight r) out in
  (forall r, In r rs -> nisnan (p_y r) = false) -> rs <> [] ->
  mpl_bands true (several t) src out = [[map (corner 5 95) rs]; [map (corner 20 80) rs]] /\ Forall (nested 5 20) rs.
Proof. exact png_intervals. Qed.
Print Assumptions C92_png.
Theorem C92_html : forall draw s n_cum q1 q2 wd (t : ptable XR) out src, finite_table t -> (1 <= s)%nat -> q1 <= q2 <= 50 ->
  get_pi draw s n_cum q1 q2 wd t = Ok out ->
  let rs := filter (in_cell (several t) src) out in
  (forall r, In r rs -> nisnan (p_y r) = false) -> rs <> [] ->
  plotly_bands true (several t) q1 q2 src out =
    map (fun q => (map (fun r => (p_date r, entry q r)) rs, map (fun r => (p_date r, entry (100 - q) r)) rs)) [q1; q2] /\ Forall (nested q1 q2) rs.
Proof. exact html_intervals. Qed.
Print Assumptions C92_html.
(* for any table: the corners of the polygons are the forecast rows with both bounds, once each and in
   their order, and no polygon is empty *)
Theorem C92_png_rows : forall (T : Type) (N : NumOps T) interval subplots src (l : list (prow T)) band, In band (mpl_bands interval subplots src l) ->
  exists lo hi, In (lo, hi) [(5, 95); (20, 80)] /\ interval = true /\ has_column lo l = true /\ has_column hi l = true /\
    concat band = map (corner lo hi) (filter (shaded subplots src lo hi) l) /\ Forall (fun poly => poly <> []) band.
Proof. exact @png_bands. Qed.
Print Assumptions C92_png_rows.
Theorem C92_png_count : forall (T : Type) (N : NumOps T) subplots src (l : list (prow T)), length (mpl_bands true subplots src l) =
  ((if has_column 5 l && has_column 95 l then 1 else 0) + (if has_column 20 l && has_column 80 l then 1 else 0))%nat.
Proof. exact @png_band_count. Qed.
Print Assumptions C92_png_count.
Theorem C92_html_rows : forall (T : Type) (N : NumOps T) interval subplots q1 q2 src (l : list (prow T)) band,
  In band (plotly_bands interval subplots q1 q2 src l) <->
  exists q, (q = q1 \/ q = q2) /\ interval = true /\ has_column q l = true /\ has_column (100 - q) l = true /\
    band = (map (fun r => (p_date r, entry q r)) (filter (in_cell subplots src) l), map (fun r => (p_date r, entry (100 - q) r)) (filter (in_cell subplots src) l)).
Proof. exact @html_bands. Qed.
Print Assumptions C92_html_rows.
Theorem C92_column : forall (T : Type) q (l : list (prow T)), has_column q l = true <-> exists r v, In r l /\ In (q, v) (p_q r).
Proof. exact @has_column_iff. Qed.
Print Assumptions C92_column.
Theorem C92_none : forall (T : Type) (N : NumOps T) interval subplots q1 q2 src (l : list (prow T)), interval = false \/ (forall r, In r l -> p_q r = []) ->
  mpl_bands interval subplots src l = [] /\ plotly_bands interval subplots q1 q2 src l = [].
Proof. exact @no_bands. Qed.
Print Assumptions C92_none.
(* a corner is the date of the row, its entry in the lower column and its entry in the upper one; a
   missing entry is null *)
Theorem C92_corner : forall (T : Type) (N : NumOps T) lo hi (r : prow T),
  corner lo hi r = (p_date r, entry lo r, entry hi r) /\
  (forall q v, NoDup (map fst (p_q r)) -> In (q, v) (p_q r) -> entry q r = v) /\
  (forall q, (forall v, ~ In (q, v) (p_q r)) -> entry q r = nnan).
Proof.
  intros T N lo hi r. split; [reflexivity|]. split; [|exact (fun q => entry_absent q r)]. unfold entry. intros q v. induction (p_q r) as [|[q' v'] l IH]; intros D I; [destruct I|].
  cbn [find fst]. inversion D as [|? ? D1 D2]; subst. destruct (Z.eqb_spec q' q) as [E|E].
  - destruct I as [I|I]; [now injection I|]. exfalso. apply D1. cbn [fst]. rewrite E. change q with (fst (q, v)). now apply in_map.
  - destruct I as [I|I]; [now injection I|]. now apply IH.
Qed.
Print Assumptions C92_corner.
Theorem C92_panels : forall (T : Type) (t : ptable T) b ss g, layout (pt_src t) (pt_rows t) = Ok (b, ss, g) -> b = several t.
Proof.
  intros T t b ss g. unfold layout, several, pi_sources. rewrite (Permutation.Permutation_length (isort_perm str_leb _)).
  destruct (_ && _); [|congruence]. destruct (grid _); cbn [rbind]; congruence.
Qed.
Print Assumptions C92_panels.

(* six daily actuals, one of them null, and a forecast of nine days; days counted from 2018-01-01 *)
Definition ex_bands (q1 q2 : Z) (l : list (drow float)) : list (prow float) :=
  let N := fops in match get_pi ex_draw 5 (Some 2) q1 q2 None (ex_pi_table l) with Ok l => l | Err _ => [] end.
Definition ex_day (d : Z) : Z := (d - ts 2018 1 1) / DAY.
Definition ex_other (s : string) : list (drow float) :=
  map (fun r => mkD (d_date r) (d_w r) (d_y r) (d_model r) s s (d_actual r) (d_best r)) ex_pi_rows.
(* a forecast value that is null splits the polygons *)
Definition ex_gap : list (drow float) :=
  map (fun r => if (d_date r =? ts 2018 1 8) && negb (d_actual r) then mkD (d_date r) (d_w r) nan (d_model r) (d_src r) (d_src r) (d_actual r) (d_best r) else r) ex_pi_rows.
Definition ex_polygons (b : bool) (src : string) (l : list (prow float)) : list (list (list Z)) :=
  let N := fops in map (map (map (fun c => ex_day (fst (fst c))))) (mpl_bands true b src l).
Example C92_example :
  let N := fops in
  (* one series: both bands over all nine days, null actual or not *)
  ex_polygons false "y" (ex_bands 5 20 ex_pi_rows) = [[[0; 1; 2; 3; 4; 5; 6; 7; 8]]; [[0; 1; 2; 3; 4; 5; 6; 7; 8]]] /\
  (* two series: one panel each *)
  several (ex_pi_table (ex_pi_rows ++ ex_other "r")) = true /\
  ex_polygons true "r" (ex_bands 5 20 (ex_pi_rows ++ ex_other "r")) = [[[0; 1; 2; 3; 4; 5; 6; 7; 8]]; [[0; 1; 2; 3; 4; 5; 6; 7; 8]]] /\
  length (ex_bands 5 20 (ex_pi_rows ++ ex_other "r")) = 28%nat /\
  (* a null forecast *)
  ex_polygons false "y" (ex_bands 5 20 ex_gap) = [[[0; 1; 2; 3; 4; 5; 6]; [8]]; [[0; 1; 2; 3; 4; 5; 6]; [8]]] /\
  (* the bounds of the first day of the future *)
  map (fun b => firstn 1 (skipn 6 (fst b))) (plotly_bands true false 5 20 "y" (ex_bands 5 20 ex_pi_rows)) =
    map (fun q => map (fun r => (p_date r, entry q r)) (firstn 1 (skipn 11 (ex_bands 5 20 ex_pi_rows)))) [5; 20] /\
  length (plotly_bands true false 10 30 "y" (ex_bands 10 30 ex_pi_rows)) = 2%nat /\
  plotly_bands true false 5 20 "y" (ex_bands 10 30 ex_pi_rows) = [].
Proof. cbv zeta. split; [|split; [|split; [|split; [|split; [|split; [|split]]]]]]; vm_compute; reflexivity. Qed.
(* A png is drawn with percentiles 5 and 20 whatever percentiles the table has: no interval is shown for
   others, or the wrong one *)
Theorem C92_percentiles_refuted :
  let N := fops in
  (* 10 and 30: html shows two intervals, png none *)
  length (plotly_bands true false 10 30 "y" (ex_bands 10 30 ex_pi_rows)) = 2%nat /\ mpl_bands true false "y" (ex_bands 10 30 ex_pi_rows) = [] /\
  (* 20 and 40: html shows two, png only the first *)
  length (plotly_bands true false 20 40 "y" (ex_bands 20 40 ex_pi_rows)) = 2%nat /\ length (mpl_bands true false "y" (ex_bands 20 40 ex_pi_rows)) = 1%nat.
Proof. cbv zeta. split; [|split; [|split]]; vm_compute; reflexivity. Qed.
Print Assumptions C92_percentiles_refuted.
