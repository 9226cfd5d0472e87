(* Layout of plots.  Models anticipy/forecast_plot.py 90-171, 239-328, 410-480.  Colours and
   legends are not modelled; for the shaded prediction intervals see Bands.v. *)
From Coq Require Import ZArith String List Bool Arith.
From Verif Require Import Num Py Model Pi.
Import ListNotations.
Local Open Scope string_scope.
Local Open Scope list_scope.

(* forecast_plot.py 417-419: rows and columns of the grid for n plots.  The square root is computed
   exactly here; 1. * 0 / 0 raises ZeroDivisionError. *)
Definition grid (n : nat) : res (nat * nat) :=
  let nrows := Nat.sqrt_up n in
  if Nat.eqb nrows 0 then Err ZeroDivisionError else Ok (nrows, ceil_nat n nrows).

(* forecast_plot.py 105-107, 110-159: the loop over the sources, starting at axes[x, y]; the result
   holds the cell of each source and the next free cell.  axes[x, y] outside the grid raises IndexError. *)
Fixpoint mpl_cells {A} (nrows ncols x y : nat) (l : list A) : res (list (A * (nat * nat)) * (nat * nat)) :=
  match l with
  | [] => Ok ([], (x, y))
  | a :: l' =>
      if Nat.ltb x nrows && Nat.ltb y ncols then
        let* (cells, next) := if Nat.leb ncols (S y) then mpl_cells nrows ncols (S x) 0 l'
                              else mpl_cells nrows ncols x (S y) l' in
        Ok ((a, (x, y)) :: cells, next)
      else Err IndexError
  end.
(* forecast_plot.py 163-169: the hidden axes; [k] bounds the number of rows left *)
Fixpoint mpl_hidden (k nrows ncols x y : nat) : list (nat * nat) :=
  match k with
  | O => []
  | S k' => if Nat.ltb x nrows then map (fun j => (x, j)) (seq y (ncols - y)) ++ mpl_hidden k' nrows ncols (S x) 0
            else []
  end.
(* forecast_plot.py 239-240, 245-326: plotly counts rows and columns from 1; add_trace outside the
   grid raises an exception (the class is plotly's; IndexError here) *)
Fixpoint plotly_cells {A} (nrows ncols x y : nat) (l : list A) : res (list (A * (nat * nat))) :=
  match l with
  | [] => Ok []
  | a :: l' =>
      if Nat.leb x nrows && Nat.leb y ncols then
        let* cells := if Nat.ltb ncols (S y) then plotly_cells nrows ncols (S x) 1 l'
                      else plotly_cells nrows ncols x (S y) l' in
        Ok ((a, (x, y)) :: cells)
      else Err IndexError
  end.

(* width, height and dpi of plot_forecast, forecast_plot.py 368-369.  (That the libraries refuse some
   sizes themselves is not modelled.) *)
Record size := mkSize { z_width : option Z; z_height : option Z; z_dpi : Z }.
(* forecast_plot.py 96: (width / dpi, height / dpi); None / dpi raises TypeError *)
Definition mpl_size (z : size) : res unit :=
  match z_width z with
  | None => Err TypeError
  | Some _ => if Z.eqb (z_dpi z) 0 then Err ZeroDivisionError
              else match z_height z with None => Err TypeError | Some _ => Ok tt end
  end.
(* forecast_plot.py 222: 50. / height *)
Definition plotly_size (z : size) : res unit :=
  match z_height z with
  | Some h => if Z.eqb h 0 then Err ZeroDivisionError else Ok tt
  | None => Ok tt
  end.

Section Plot.
  Context {T : Type}.

  (* A plotted cell: title (subplots only), plotted actuals and forecast rows *)
  Record panel := mkPanel { pl_cell : nat * nat; pl_title : option string;
                            pl_actuals : list (drow T); pl_forecast : list (drow T) }.
  (* forecast_plot.py 412-425: subplots, sources, grid *)
  Definition layout (has_source : bool) (l : list (drow T)) : res (bool * list string * (nat * nat)) :=
    if has_source && Nat.ltb 1 (length (dedup String.eqb (map d_src l))) then
      let sources := dedup String.eqb (map d_src (filter (fun r => d_actual r) l)) in
      let* g := grid (length sources) in Ok (true, sources, g)
    else Ok (false, ["y"], (1, 1)).
  (* forecast_plot.py 112-124 and 247-287: what one cell shows *)
  Definition panel_of (subplots : bool) (l : list (drow T)) (p : string * (nat * nat)) : panel :=
    let own (r : drow T) := if subplots then String.eqb (d_src r) (fst p) else true in
    mkPanel (snd p) (if subplots then Some (fst p) else None)
      (filter (fun r => own r && d_actual r) l) (filter (fun r => own r && negb (d_actual r)) l).
  (* forecast_plot.py 90-171: panels and hidden cells.  Rows of model 'weight' are left out (line 99). *)
  Definition matplotlib_create (subplots : bool) (sources : list string) (g : nat * nat) (l : list (drow T))
    : res (list panel * list (nat * nat)) :=
    let (nrows, ncols) := g in
    let l := filter (fun r => negb (String.eqb (d_model r) "weight")) l in
    let* (cells, next) := mpl_cells nrows ncols 0 0 sources in
    let (x, y) := (next : nat * nat) in
    Ok (map (panel_of subplots l) cells, mpl_hidden (nrows - x) nrows ncols x y).
  (* forecast_plot.py 216-328 *)
  Definition plotly_create (subplots : bool) (sources : list string) (g : nat * nat) (l : list (drow T))
    : res (list panel) :=
    let (nrows, ncols) := g in
    let* cells := plotly_cells nrows ncols 1 1 sources in Ok (map (panel_of subplots l) cells).

  (* Which libraries could be imported *)
  Record libs := mkLibs { has_mpl : bool; has_plotly : bool; has_ipython : bool }.
  (* Outcome of plot_forecast: return code (None when the result of iplot is returned) and what was
     drawn: the file, if any, and the panels *)
  Record plot := mkPlot { pt_code : option Z; pt_drawn : option (option string * list panel) }.
  (* forecast_plot.py 403-480.  [path] is None or a string; both None and "" count as missing. *)
  Definition plot_forecast (L : libs) (output : string) (path : option string) (z : size) (has_source : bool)
    (l : list (drow T)) : res plot :=
    let missing := match path with None | Some "" => true | _ => false end in
    let file ext := match path with Some p => Some (p ++ ext)%string | None => None end in
    if missing && (String.eqb output "html" || String.eqb output "png") then Ok (mkPlot (Some 1%Z) None)
    else
      let* (a, g) := layout has_source l in
      let (subplots, sources) := (a : bool * list string) in
      if String.eqb output "png" then
        if has_mpl L then
          let* _ := mpl_size z in
          let* (ps, _) := matplotlib_create subplots sources g l in
          Ok (mkPlot (Some 0%Z) (Some (file ".png", ps)))
        else Ok (mkPlot (Some 0%Z) None)
      else if String.eqb output "html" then
        if has_plotly L then
          let* _ := plotly_size z in
          let* ps := plotly_create subplots sources g l in
          Ok (mkPlot (Some 0%Z) (Some (file ".html", ps)))
        else Ok (mkPlot (Some 0%Z) None)
      else if String.eqb output "jupyter" then
        if has_plotly L && has_ipython L then
          let* _ := plotly_size z in
          let* ps := plotly_create subplots sources g l in Ok (mkPlot None (Some (None, ps)))
        else Ok (mkPlot (Some 0%Z) None)
      else Ok (mkPlot (Some 1%Z) None).
End Plot.
Arguments panel : clear implicits.
Arguments plot : clear implicits.
