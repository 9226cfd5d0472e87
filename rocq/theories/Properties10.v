(* Composed extrapolation, lists of forecasts, row order, dates of a forecast, candidate lists: C61 to C64 and C69. *)
From Coq Require Import ZArith String List Bool Reals PrimFloat Sorted Permutation Lia Lra QArith_base.
From Verif Require Import Num Py Cal Fmt Model Base Naive Freq Normalize Fixed Fit Interp Select Outliers Pi Forecast.
From Verif Require Import ListProofs NumProofs BaseProofs FixedProofs GridProofs NormalizeProofs FitProofs ForecastProofs ForecastProofs2 ExtendProofs OrderProofs Ex Properties7.
Import ListNotations.
Local Open Scope string_scope.
Local Open Scope list_scope.

(* ================= C61 ================= *)
(* [entrywise op l1 l2 l]: same index, values combined entry by entry.  [in_mult m]: m evaluated in
   multiplicative mode.  [unscaled m]: m is neither sigmoid nor logistic. *)
Theorem C61_sum : forall (T : Type) (N : NumOps T) (m1 m2 : fmodel T) p1 p2 o freq years x0 act l1 l2,
  fm_name m1 <> "null" -> fm_name m2 <> "null" -> unscaled m1 -> unscaled m2 -> length p1 = fm_n m1 ->
  extrapolate_model m1 (Some p1) o freq years x0 act = Ok l1 ->
  extrapolate_model m2 (Some p2) o freq years x0 act = Ok l2 ->
  exists l, extrapolate_model (madd m1 m2) (Some (p1 ++ p2)) o freq years x0 act = Ok l /\ entrywise nadd l1 l2 l.
Proof. exact @extrapolated_sum. Qed.
Print Assumptions C61_sum.
Theorem C61_product : forall (T : Type) (N : NumOps T) (m1 m2 : fmodel T) p1 p2 o freq years x0 act l1 l2,
  fm_name m1 <> "null" -> fm_name m2 <> "null" -> unscaled m1 -> unscaled m2 -> length p1 = fm_n m1 ->
  extrapolate_model (in_mult m1) (Some p1) o freq years x0 act = Ok l1 ->
  extrapolate_model (in_mult m2) (Some p2) o freq years x0 act = Ok l2 ->
  exists l, extrapolate_model (mmul m1 m2) (Some (p1 ++ p2)) o freq years x0 act = Ok l /\ entrywise nmul l1 l2 l.
Proof. exact @extrapolated_product. Qed.
Print Assumptions C61_product.
(* the sigmoid alone sees x / 100, inside a sum it sees x: with centre 1, x = 100 is the centre for
   the first and far to the right of it for the second *)
Theorem C61_scaled_refuted : exists l1 l2 l : list (Z * XR),
  extrapolate_model model_constant (Some [Fin 0]) (ONum 50 50) None (1 # 100)%Q 50 None = Ok l1 /\
  extrapolate_model model_sigmoid (Some [Fin 2; Fin 1; Fin 1]) (ONum 50 50) None (1 # 100)%Q 50 None = Ok l2 /\
  extrapolate_model (madd model_constant model_sigmoid) (Some ([Fin 0] ++ [Fin 2; Fin 1; Fin 1])) (ONum 50 50) None (1 # 100)%Q 50 None = Ok l /\
  ~ entrywise nadd l1 l2 l.
Proof.
  exists [(50%Z, Fin 0)], [(50%Z, Fin (sigmoid_spec false 2 1 1 (100 / 100)))], [(50%Z, Fin (0 + sigmoid_spec false 2 1 1 100))].
  assert (G : forall m : fmodel XR, requires_scaling (fm_name m) = false -> s_x_extrapolate (ONum 50 50) (Some m) None (1 # 100)%Q 50 = Ok [(50%Z, Fin 100)]).
  { intros m R0. cbn [s_x_extrapolate]. unfold s_x_numeric, apply_a_x_scaling, model_requires_scaling. rewrite R0. reflexivity. }
  assert (D : ndiv (Fin 100) (Fin 100) = Fin (100 / 100)) by (apply div_fin; lra).
  split; [|split; [|split]].
  - rewrite extrapolate_series, G by reflexivity. reflexivity.
  - rewrite extrapolate_series.
    assert (G2 : s_x_extrapolate (ONum 50 50) (Some model_sigmoid) None (1 # 100)%Q 50 = Ok [(50%Z, Fin (100 / 100))]).
    { cbn [s_x_extrapolate]. unfold s_x_numeric, apply_a_x_scaling. change (model_requires_scaling (Some model_sigmoid)) with true. rewrite <- D. reflexivity. }
    rewrite G2. cbn [rbind map fst snd].
    change [Fin (100 / 100)] with (fins [100 / 100]%R). change [Fin 2; Fin 1; Fin 1] with (fins [2; 1; 1]%R). rewrite (proj1 (sigmoid_formula _ _ _ _ _ _ _)). reflexivity.
  - rewrite extrapolate_series, G by reflexivity. cbn [rbind map fst snd].
    pose proof (proj1 (sigmoid_formula [100]%R None 2 1 1 false (mkKw None []))) as Q.
    match goal with |- rbind ?c ?k = _ => replace c with (rbind (call model_sigmoid (fins [100]%R) None (Some (fins [2; 1; 1]%R)) false (mkKw None [])) (fun v2 => bcast2 nadd (Ar [Fin 0]) v2)) by reflexivity end.
    rewrite Q. reflexivity.
  - intros (_ & _ & K). destruct (proj1 (K 0%nat 50%Z (Fin (0 + sigmoid_spec false 2 1 1 100))) eq_refl) as (u & v & [= <-] & [= <-] & E).
    cbn in E. injection E as E. unfold sigmoid_spec, neutral in E.
    replace (- (1) * (100 / 100 - 1))%R with 0%R in E by lra. rewrite exp_0 in E.
    assert (P : (exp (- (1) * (100 - 1)) < 1)%R). { apply Rlt_le_trans with (exp 0); [apply exp_increasing; lra|rewrite exp_0; lra]. }
    pose proof (exp_pos (- (1) * (100 - 1))) as P0. set (z := exp _) in *.
    assert (Q : ((2 - 0) / (1 + z) > (2 - 0) / (1 + 1))%R). { apply Rmult_lt_compat_l; [lra|]. apply Rinv_lt_contravar; [nra|lra]. }
    lra.
Qed.
Print Assumptions C61_scaled_refuted.
(* Monday 2018-01-01 at x = 0; a line, and one for Tuesdays *)
Definition c61_line : list (Z * float) := map (fun p => (ts 2018 1 (1 + Z.of_nat (fst p)), snd p)) (enumerate [1; 3; 5; 7; 9; 11; 13; 15; 17]%float).
Definition c61_wday (b u : float) : list (Z * float) := map (fun p => (ts 2018 1 (1 + Z.of_nat (fst p)), snd p)) (enumerate [b; u; b; b; b; b; b; b; u]%float).
Example C61_example :
  let N := fops in
  let o := ODate (ts 2018 1 1) (ts 2018 1 8) in
  let ext m p := extrapolate_model (T := float) m (Some p) o (Some "D") (1 # 365)%Q 0 None in
  let pw := [4; 0; 0; 0; 0; 0]%float in let pm := [4; 1; 1; 1; 1; 1]%float in
  ext model_linear [2; 1]%float = Ok c61_line /\ ext model_season_wday pw = Ok (c61_wday 0 4) /\
  ext (in_mult model_season_wday) pm = Ok (c61_wday 1 4) /\
  rbind (ext (madd model_linear model_season_wday) ([2; 1]%float ++ pw)) (fun l => Ok (map snd l)) = Ok [1; 7; 5; 7; 9; 11; 13; 15; 21]%float /\
  rbind (ext (mmul model_linear model_season_wday) ([2; 1]%float ++ pm)) (fun l => Ok (map snd l)) = Ok [1; 12; 5; 7; 9; 11; 13; 15; 68]%float.
Proof. vm_compute. repeat split; reflexivity. Qed.

(* ================= C62 ================= *)
(* [runs W (i, (config, source_id, table))]: the forecast of the i-th input *)
Theorem C62_results : forall (T : Type) (N : NumOps T) (W : nat -> string -> world T) l r,
  run_l_forecast W l = Ok r <->
  l <> [] /\ exists rs, Forall2 (fun p x => runs W p = Ok (Some x)) (enumerate l) rs /\ r = aggregate rs.
Proof. exact @list_ok. Qed.
Print Assumptions C62_results.
Theorem C62_errors : forall (T : Type) (N : NumOps T) (W : nat -> string -> world T) l e, l <> [] ->
  (run_l_forecast W l = Err e <->
   (exists l1 p l2, enumerate l = l1 ++ p :: l2 /\ runs W p = Err e /\ forall q, In q l1 -> exists o, runs W q = Ok o) \/
   (e = TypeError /\ (forall q, In q (enumerate l) -> exists o, runs W q = Ok o) /\ exists q, In q (enumerate l) /\ runs W q = Ok None)).
Proof. exact @list_err. Qed.
Print Assumptions C62_errors.
Theorem C62_nothing : forall (T : Type) (N : NumOps T) (W : nat -> string -> world T), run_l_forecast W [] = Err ValueError.
Proof. exact @list_nil. Qed.
Print Assumptions C62_nothing.
(* the tables of the result are those of the inputs, one after the other *)
Theorem C62_tables : forall (T : Type) (rs : list (result T)),
  rs_data (aggregate rs) = flat_map (@rs_data T) rs /\ rs_meta (aggregate rs) = flat_map (@rs_meta T) rs /\
  rs_forecast (aggregate rs) = flat_map (@rs_forecast T) rs.
Proof. intros T rs. unfold aggregate. cbn. rewrite !flat_map_concat_map. auto. Qed.
Print Assumptions C62_tables.
(* several sources in one table, or one table per source *)
Theorem C62_sources : forall (T : Type) (N : NumOps T) (W : string -> world T) c id t f, t_src t = true -> normalize_df t = Ok (Some f) ->
  run_forecast W c id t =
  rbind (run_l_forecast (fun _ => W) (map (fun s => (c, id, restrict t s)) (sorted_sources t))) (fun r => Ok (Some r)).
Proof. exact @list_sources. Qed.
Print Assumptions C62_sources.
Example C62_example :
  let N := fops in
  let W (_ : nat) (s : string) := ex_world (T := float) (LDone true 40%float [5%float]) (LDone true 1%float [if String.eqb s "a" then 2%float else 3%float; 1%float]) in
  let c := ex_cfg (T := float) [model_linear] in
  let t := ex_two [1; 3; 5; 7; 9; 11]%float [1; 4; 7; 10; 13; 16]%float in
  let nothing := mkTable (T := float) true false false true true false [] in
  let no_y := mkTable false false false true true false (t_rows t) in
  let show (r : res (result float)) := match r with Ok r => Ok (map (fun d => d_y d) (rs_data r)) | Err e => Err e end in
  (exists a b, show (run_l_forecast W [(c, "x", restrict t "b")]) = Ok b /\ show (run_l_forecast W [(c, "x", restrict t "a")]) = Ok a /\
     length a = 19%nat /\ length b = 19%nat /\ nth_error a 1 = Some 3%float /\ nth_error b 1 = Some 4%float /\
     show (run_l_forecast W [(c, "x", restrict t "b"); (c, "x", restrict t "a")]) = Ok (b ++ a) /\
     show (run_l_forecast W [(c, "x", restrict t "a"); (c, "x", restrict t "b")]) = Ok (a ++ b) /\
     match run_forecast (W 0%nat) c "x" t with Ok (Some r) => map (fun d => d_y d) (rs_data r) = a ++ b | _ => False end) /\
  show (run_l_forecast W [(c, "x", t); (c, "y", nothing)]) = Err TypeError /\
  show (run_l_forecast W [(c, "x", nothing); (c, "y", no_y)]) = Err AssertionError.
Proof. vm_compute. split; [eexists _, _; repeat split; reflexivity|]. split; reflexivity. Qed.

(* ================= C63 ================= *)
(* [reorder t qs]: t with rows qs.  [distinct f]: no two rows of a series at the same x.
   [same_weeks t qs]: the first row of every series is dated in the same week (Monday origin) in
   both orders.  [weeks_moved k f]: x of series s moved by 7 * k s. *)
Theorem C63_order : forall (T : Type) (t : raw T) qs f, Permutation (t_rows t) qs -> normalize_df t = Ok (Some f) -> distinct f ->
  t_x t = true \/ (has_date_after t = true /\ same_weeks t qs) -> normalize_df (reorder t qs) = Ok (Some f).
Proof. exact @order_irrelevant. Qed.
Print Assumptions C63_order.
Theorem C63_forecast : forall (T : Type) (N : NumOps T) (W : string -> world T) c id t qs f,
  Permutation (t_rows t) qs -> normalize_df t = Ok (Some f) -> distinct f ->
  t_x t = true \/ (has_date_after t = true /\ same_weeks t qs) ->
  run_forecast W c id (reorder t qs) = run_forecast W c id t.
Proof. exact @forecast_order. Qed.
Print Assumptions C63_forecast.
Theorem C63_dates : forall (T : Type) (t : raw T) qs f, Permutation (t_rows t) qs -> normalize_df t = Ok (Some f) -> distinct f ->
  t_x t = false -> has_date_after t = true -> (forall q, In q (t_rows t) -> midnight (qdate t q) = true) ->
  exists k, normalize_df (reorder t qs) = Ok (Some (weeks_moved k f)).
Proof. exact @order_of_dates. Qed.
Print Assumptions C63_dates.
Definition c63_rows (l : list (Z * string * float)) : list (rawrow float) :=
  map (fun p => mkRaw 0 (mkRow (ts 2018 1 (fst (fst p))) (snd (fst p)) 0 (snd p) 1%float)) l.
Definition c63_table (dates : bool) (l : list (Z * string * float)) : raw float := mkTable true false false dates true false (c63_rows l).
Definition c63_show (r : res (option (frame float))) : list (string * Z * float) :=
  match r with Ok (Some f) => map (fun r => (r_src r, r_x r, r_y r)) (rows f) | _ => [] end.
(* the same week first: the same table; another week first: x moved by a week; no dates: x is the
   row number, which follows the order *)
Example C63_example :
  let t := c63_table true [(3, "b", 1%float); (9, "b", 2%float); (4, "a", 3%float); (1, "b", 4%float); (16, "a", 5%float)]%Z in
  let q1 := c63_rows [(1, "b", 4%float); (4, "a", 3%float); (9, "b", 2%float); (16, "a", 5%float); (3, "b", 1%float)]%Z in
  let q2 := c63_rows [(9, "b", 2%float); (16, "a", 5%float); (1, "b", 4%float); (4, "a", 3%float); (3, "b", 1%float)]%Z in
  c63_show (normalize_df t) = [("a", 3, 3%float); ("a", 15, 5%float); ("b", 0, 4%float); ("b", 2, 1%float); ("b", 8, 2%float)]%Z /\
  c63_show (normalize_df (reorder t q1)) = c63_show (normalize_df t) /\
  c63_show (normalize_df (reorder t q2)) = [("a", -11, 3%float); ("a", 1, 5%float); ("b", -7, 4%float); ("b", -5, 1%float); ("b", 1, 2%float)]%Z.
Proof. vm_compute. repeat split; reflexivity. Qed.
Example C63_hypotheses :
  let t := c63_table true [(3, "b", 1%float); (9, "b", 2%float); (4, "a", 3%float); (1, "b", 4%float); (16, "a", 5%float)]%Z in
  let q1 := c63_rows [(1, "b", 4%float); (4, "a", 3%float); (9, "b", 2%float); (16, "a", 5%float); (3, "b", 1%float)]%Z in
  Permutation (t_rows t) q1 /\ same_weeks t q1 /\ (exists f, normalize_df t = Ok (Some f) /\ distinct f) /\
  (forall q, In q (t_rows t) -> midnight (qdate t q) = true).
Proof.
  cbv zeta. split; [|split; [|split]].
  - unfold c63_table, c63_rows. cbn [t_rows map]. apply NoDup_Permutation_bis; [| |].
    + repeat constructor; cbn; intros K; decompose [or] K; try discriminate; auto.
    + cbn. lia.
    + intros q I. cbn in I. cbn. tauto.
  - intros q I. cbn in I. decompose [or] I; try subst q; try contradiction; vm_compute; reflexivity.
  - eexists. split; [reflexivity|]. apply (has_dup_iff (fun a b : string * Z => String.eqb (fst a) (fst b) && Z.eqb (snd a) (snd b))).
    + intros [a b] [c d]. cbn. rewrite andb_true_iff, String.eqb_eq, Z.eqb_eq. split; [intros [-> ->]; reflexivity|intros [= -> ->]; auto].
    + vm_compute. reflexivity.
  - intros q I. cbn in I. decompose [or] I; try subst q; try contradiction; vm_compute; reflexivity.
Qed.
Example C63_numbers_refuted :
  let t := c63_table false [(0, "b", 1%float); (0, "b", 2%float); (0, "a", 3%float)]%Z in
  let qs := c63_rows [(0, "b", 2%float); (0, "a", 3%float); (0, "b", 1%float)]%Z in
  c63_show (normalize_df t) = [("a", 0, 3%float); ("b", 0, 1%float); ("b", 1, 2%float)]%Z /\
  c63_show (normalize_df (reorder t qs)) = [("a", 0, 3%float); ("b", 0, 2%float); ("b", 1, 1%float)]%Z.
Proof. vm_compute. repeat split; reflexivity. Qed.
(* rows at the same x keep the order of the input *)
Example C63_ties_refuted :
  let t := c63_table true [(3, "b", 1%float); (3, "b", 2%float)]%Z in
  let qs := c63_rows [(3, "b", 2%float); (3, "b", 1%float)]%Z in
  c63_show (normalize_df t) = [("b", 2, 1%float); ("b", 2, 2%float)]%Z /\
  c63_show (normalize_df (reorder t qs)) = [("b", 2, 2%float); ("b", 2, 1%float)]%Z.
Proof. vm_compute. repeat split; reflexivity. Qed.

(* ================= C64 ================= *)
(* [dates_ordered start l]: strictly increasing dates, none before start.  An [entry] is a candidate
   with its metadata row and its forecast rows (C42). *)
Theorem C64_dates : forall (T : Type) (N : NumOps T) (W : world T) c source f r,
  run_forecast_single W (set_all true c) source f = Ok r ->
  exists acts (es : list entry) f1 start,
    rs_data r = acts ++ concat (map en_rows es) /\ rs_meta r = map en_meta es /\
    Forall (fun d => d_actual d = true) acts /\
    prepared c f = Ok f1 /\ zmin_opt (map (place f) (rows (positive (with_weights f1)))) = Some start /\
    Forall (fun e => dates_ordered start (en_rows e) /\
              Forall (fun d => d_model d = fm_name (en_model e) /\ d_actual d = false) (en_rows e)) es.
Proof. exact @forecast_dates. Qed.
Print Assumptions C64_dates.
Theorem C64_one_value : forall (T : Type) (N : NumOps T) (W : world T) c source f r,
  run_forecast_single W (set_all true c) source f = Ok r ->
  exists es : list entry, rs_meta r = map en_meta es /\
    (NoDup (map (fun e => fm_name (en_model e)) es) ->
     NoDup (map (fun d => (d_model d, d_date d)) (filter (fun d => negb (d_actual d)) (rs_data r)))).
Proof. exact @forecast_key. Qed.
Print Assumptions C64_one_value.
(* the first day is ignored, the fifth is missing: the forecasts have one row per day,
   from the first usable sample on *)
Definition c64_frame : frame float :=
  mkFrame true false true (map (fun p => mkRow (ts 2018 1 (1 + fst (fst p))) "s" (fst (fst p)) (snd (fst p)) (snd p))
    [(0, 7%float, 0%float); (1, 3%float, 1%float); (2, 5%float, 1%float); (3, 7%float, 1%float); (5, 11%float, 1%float)]%Z).
Example C64_example :
  let N := fops in
  match run_forecast_single (ex_world (LDone true 40 [5]) (LDone true 1 [2; 1]))%float (set_all true (ex_cfg [model_constant; model_linear])) "s" c64_frame with
  | Ok r => map (fun d => (d_model d, (d_date d - ts 2018 1 1) / DAY)%Z) (filter (fun d => negb (d_actual d)) (rs_data r)) =
      map (fun i => ("constant", Z.of_nat i)) (seq 1 12) ++ map (fun i => ("linear", Z.of_nat i)) (seq 1 12)
  | Err _ => False
  end.
Proof. vm_compute. reflexivity. Qed.

(* ================= C69 ================= *)
(* [candidates_of c f mode out]: the trend list of the configuration (or the default one), joined with
   the season list (or the automatic one), and, for a year of daily samples, joined with the calendar
   list.  [joined mode ts ss out]: every model of ts combined with every model of ss, duplicates
   removed by name; an empty list leaves the other as it is. *)
Theorem C69_lists : forall (T : Type) (N : NumOps T) c (f : frame T),
  candidates_of c f "add" (fst (candidate_lists c f)) /\ candidates_of c f "mult" (snd (candidate_lists c f)).
Proof. exact @candidate_lists_ok. Qed.
Print Assumptions C69_lists.
Example C69_example :
  let N := fops in
  let c cal := mkCfg (T := float) (Some [model_constant; model_linear]) None None (7 # 365)%Q "add" true false None None (Some []) cal None 5 20 (Some "Y") true in
  let f l := mkFrame (T := float) true false true (map (fun t => mkRow t "" 0 1%float 1%float) l) in
  let cal := Some [model_season_fourier_yearly; model_null] in
  let year := [ts 2018 1 1; ts 2018 1 2; ts 2019 1 2] in
  let show p := (map fm_name (fst p), map fm_name (snd p)) : list string * list string in
  show (candidate_lists (c None) (f year)) =
    (["constant"; "(constant+season_wday)"; "linear"; "(linear+season_wday)"],
     ["constant"; "(constant*season_wday)"; "linear"; "(linear*season_wday)"]) /\
  show (candidate_lists (c cal) (f year)) =
    (["(constant+season_fourier_yearly)"; "constant"; "((constant+season_wday)+season_fourier_yearly)"; "(constant+season_wday)";
      "(linear+season_fourier_yearly)"; "linear"; "((linear+season_wday)+season_fourier_yearly)"; "(linear+season_wday)"],
     ["(constant*season_fourier_yearly)"; "constant"; "((constant*season_wday)*season_fourier_yearly)"; "(constant*season_wday)";
      "(linear*season_fourier_yearly)"; "linear"; "((linear*season_wday)*season_fourier_yearly)"; "(linear*season_wday)"]) /\
  show (candidate_lists (c cal) (f [ts 2018 1 1; ts 2018 1 2; ts 2018 1 4])) = (["constant"; "linear"], ["constant"; "linear"]).
Proof. vm_compute. repeat split; reflexivity. Qed.
