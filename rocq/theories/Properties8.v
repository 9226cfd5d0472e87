(* Prediction intervals, plots and the command line application: C46 to C51, C59. *)
From Coq Require Import ZArith String List Bool Reals PrimFloat Sorted Permutation Lia Lra QArith_base.
From Verif Require Import Num Py Cal Fmt Model Base Naive Freq Normalize Fixed Fit Interp Select Outliers Pi Forecast Plot App.
From Verif Require Import ListProofs NumProofs OutlierReals ForecastProofs ForecastProofs2 PiProofs PlotProofs AppProofs Ex Properties7.
Import ListNotations.
Local Open Scope string_scope.
Local Open Scope list_scope.

(* ================= C46 ================= *)
(* [finite_table t]: every y is a real number or null.  [bounds_for q1 q2 p]: the row has exactly the
   columns q1, 100 - q1, q2, 100 - q2 (none for actuals).  [bounds_ordered p]: its columns grow with
   the percentile; all are null if y is. *)
Theorem C46_ordered : forall draw s n_cum q1 q2 wd (t : ptable XR) out, finite_table t -> (1 <= s)%nat ->
  get_pi draw s n_cum q1 q2 wd t = Ok out -> forall p, In p out -> bounds_ordered p /\ bounds_for q1 q2 p.
Proof. exact get_pi_ordered. Qed.
Print Assumptions C46_ordered.
Theorem C46_statement : forall draw s n_cum q1 q2 wd (t : ptable XR) out p, finite_table t -> (1 <= s)%nat -> (q1 <= q2 <= 50)%Z ->
  get_pi draw s n_cum q1 q2 wd t = Ok out -> In p out -> p_actual p = false -> nisnan (p_y p) = false ->
  exists a b c d, In (q1, Fin a) (p_q p) /\ In (q2, Fin b) (p_q p) /\ In ((100 - q2)%Z, Fin c) (p_q p) /\ In ((100 - q1)%Z, Fin d) (p_q p) /\
    (a <= b <= c)%R /\ (c <= d)%R.
Proof.
  intros draw s n_cum q1 q2 wd t out p F Hs Q E Hp A Ny. destruct (get_pi_ordered _ _ _ _ _ _ _ _ F Hs E p Hp) as [O B].
  unfold bounds_for in B. rewrite A in B.
  assert (G : forall q, q = q1 \/ q = (100 - q1)%Z \/ q = q2 \/ q = (100 - q2)%Z -> exists v, In (q, v) (p_q p)).
  { intros q Hq. apply B in Hq. apply in_map_iff in Hq as ([q' v] & <- & Hv). now exists v. }
  destruct (G q1) as (va & Ia); [auto|]. destruct (G q2) as (vb & Ib); [auto|]. destruct (G (100 - q2)%Z) as (vc & Ic); [auto|]. destruct (G (100 - q1)%Z) as (vd & Id); [auto|].
  pose proof (O _ _ _ _ Ia Ib ltac:(lia)) as H1. pose proof (O _ _ _ _ Ib Ic ltac:(lia)) as H2. pose proof (O _ _ _ _ Ic Id ltac:(lia)) as H3. rewrite Ny in H1, H2, H3.
  destruct H1 as (a & b & -> & -> & L1), H2 as (b' & c & Eb & -> & L2), H3 as (c' & d & Ec & -> & L3). injection Eb as <-. injection Ec as <-.
  exists a, b, c, d. repeat split; auto.
Qed.
Print Assumptions C46_statement.
(* a column is the forecast plus an empirical percentile: at most a share q of the simulated
   deviations lies below it and at most a share 100 - q above *)
Theorem C46_percentile : forall l q, l <> [] -> (0 <= q <= 100)%Z ->
  exists a, quantile q 100 (map Fin l) = Fin a /\
    (100 * Z.of_nat (count (fun x => Rltb x a) l) < Z.of_nat (length l - 1) * q + 100)%Z /\
    (100 * Z.of_nat (count (fun x => Rltb a x) l) < Z.of_nat (length l - 1) * (100 - q) + 100)%Z.
Proof. exact percentile_rank. Qed.
Print Assumptions C46_percentile.
Theorem C46_refused : forall (T : Type) (N : NumOps T) draw s n_cum q1 q2 (t : ptable T) step, pt_src t = true -> step_of t n_cum = Ok step ->
  residuals (actuals_of t) (kept t) <> [] -> ~ in_range q1 q2 -> pi_single draw s n_cum q1 q2 t = Err AssertionError.
Proof. exact @pi_bad_percentiles. Qed.
Print Assumptions C46_refused.

(* six daily actuals and a forecast of eight days of the model "m"; "other" is not the best fit *)
Definition ex_pi_rows : list (drow float) :=
  map (fun p => mkD (ts 2018 1 (1 + Z.of_nat (fst p))) 1%float (snd p) "actuals" "s" "s" true false) (enumerate [1; 2; 4; 4; nan; 6]%float) ++
  map (fun i => mkD (ts 2018 1 (1 + Z.of_nat i)) 1%float 0%float "other" "s" "s" false false) (seq 0 9) ++
  map (fun i => mkD (ts 2018 1 (1 + Z.of_nat i)) 1%float (nofZ (NumOps := fops) (1 + Z.of_nat i)) "m" "s" "s" false true) (seq 0 9).
Definition ex_pi_table (l : list (drow float)) : ptable float := mkPT true true true true l.
Definition ex_draw (_ : string) (a i : nat) : nat := (a + i)%nat.
Definition show_pi (r : res (list (prow float))) : res (list (Z * string * float * list (Z * float))) :=
  rmap (map (fun p => ((p_date p - ts 2018 1 1) / DAY, p_model p, p_y p, p_q p)%Z)) r.
Example C46_example :
  let N := fops in
  let out q1 q2 := get_pi ex_draw 5 (Some 2%Z) q1 q2 None (ex_pi_table ex_pi_rows) in
  match out 5%Z 20%Z with
  | Ok l => length l = 14%nat /\ forallb (fun p : prow float =>
      match p_q p with
      | [] => p_actual p
      | [(5, a); (95, d); (20, b); (80, c)]%Z => negb (p_actual p) && PrimFloat.leb a b && PrimFloat.leb b c && PrimFloat.leb c d && PrimFloat.ltb a d
      | _ => false end) l = true
  | Err _ => False
  end /\ out 0%Z 20%Z = Err AssertionError /\ out 5%Z 100%Z = Err AssertionError.
Proof. vm_compute. repeat split; reflexivity. Qed.

(* ================= C47 ================= *)
(* [kept t]: without the rows of other fits than the best; [shown_actuals t]: actuals with a value;
   [actuals_of t]: the usable ones; [shape], [dshape]: date, source, model, is_actuals, y *)
Theorem C47_partition : forall (T : Type) (N : NumOps T) draw s n_cum q1 q2 (t : ptable T) out, pi_single draw s n_cum q1 q2 t = Ok out ->
  (residuals (actuals_of t) (kept t) = [] /\ map shape out = map dshape (shown_actuals t)) \/
  (exists last, zmax_opt (map fst (actuals_of t)) = Some last /\
     map shape out = map dshape (shown_actuals t) ++ map dshape (past_rows t last) ++ map dshape (future_rows t last)).
Proof. exact @pi_partition. Qed.
Print Assumptions C47_partition.
Theorem C47_past_or_future : forall (T : Type) (t : ptable T) last,
  Permutation (past_rows t last ++ future_rows t last) (filter (fun r => negb (d_actual r)) (kept t)) /\
  (forall r, In r (past_rows t last) -> (d_date r <= last)%Z) /\ (forall r, In r (future_rows t last) -> (last < d_date r)%Z).
Proof.
  intros T t last. split; [apply past_future|]. split; intros r Hr; apply filter_In in Hr as [_ Hr]; apply andb_prop in Hr as [_ Hr].
  - now apply Z.leb_le.
  - now apply Z.ltb_lt.
Qed.
Print Assumptions C47_past_or_future.
Theorem C47_usable_dates : forall (T : Type) (N : NumOps T) (t : ptable T) d, In d (map fst (actuals_of t)) <->
  exists r, In r (kept t) /\ d_actual r = true /\ nisnan (d_y r) = false /\ d_date r = d /\
    (some_zero_weight t = true -> exists r', In r' (kept t) /\ d_actual r' = true /\ nltb n0 (d_w r') = true /\ d_date r' = d).
Proof. exact @actual_dates. Qed.
Print Assumptions C47_usable_dates.
Theorem C47_sources : forall (T : Type) (N : NumOps T) draw s n_cum q1 q2 wd (t : ptable T) out, pt_src t = true -> (1 < length (pi_sources t))%nat ->
  get_pi draw s n_cum q1 q2 wd t = Ok out ->
  exists k parts, (match n_cum with Some n => Ok n | None => days_from_freq wd end) = Ok k /\
    Forall2 (fun u p => pi_single (draw u) s k q1 q2 (source_table t u) = Ok p) (pi_sources t) parts /\
    Permutation out (concat parts) /\ StronglySorted prow_le out.
Proof. exact @get_pi_several. Qed.
Print Assumptions C47_sources.
Theorem C47_one_source : forall (T : Type) (N : NumOps T) draw s n q1 q2 wd (t : ptable T), (pt_src t = false \/ (length (pi_sources t) <= 1)%nat) ->
  get_pi draw s (Some n) q1 q2 wd t = pi_single (draw (match pt_rows t with r :: _ => d_src r | [] => "" end)) s n q1 q2 t.
Proof. exact @get_pi_one. Qed.
Print Assumptions C47_one_source.
Definition shapes (r : res (list (prow float))) : res (list (Z * string * bool)) :=
  rmap (map (fun p => ((p_date p - ts 2018 1 1) / DAY, p_model p, p_actual p)%Z)) r.
Example C47_example :
  let N := fops in
  let out l := shapes (get_pi ex_draw 5 (Some 2%Z) 5 20 None (ex_pi_table l)) in
  (* the null actual of day 4 and the model "other" are gone *)
  out ex_pi_rows = Ok (map (fun i => (i, "actuals", true)) [0; 1; 2; 3; 5]%Z ++ map (fun i => (i, "m", false)) [0; 1; 2; 3; 4; 5; 6; 7; 8]%Z) /\
  (* several sources: sorted, forecast before actuals *)
  out (ex_pi_rows ++ map (fun r => mkD (d_date r) (d_w r) (d_y r) (d_model r) "r" "r" (d_actual r) (d_best r)) ex_pi_rows) =
    Ok (concat (repeat (map (fun i => (i, "m", false)) [0; 1; 2; 3; 4; 5; 6; 7; 8]%Z ++ map (fun i => (i, "actuals", true)) [0; 1; 2; 3; 5]%Z) 2)).
Proof. vm_compute. repeat split; reflexivity. Qed.
(* a forecast of dates without actuals only: the whole forecast is dropped *)
Example C47_no_row_lost_refuted :
  let N := fops in
  shapes (get_pi ex_draw 5 (Some 2%Z) 5 20 None (ex_pi_table (firstn 6 ex_pi_rows ++ skipn 21 ex_pi_rows))) =
    Ok (map (fun i => (i, "actuals", true)) [0; 1; 2; 3; 5]%Z).
Proof. vm_compute. reflexivity. Qed.

(* ================= C48 ================= *)
(* [future_deviation draw c n res k i]: one residual drawn plus the sum of the first i / c + 1
   cumulative residuals drawn in simulation k *)
Theorem C48_rows : forall (T : Type) (N : NumOps T) draw s n_cum q1 q2 (t : ptable T) out, pi_single draw s n_cum q1 q2 t = Ok out ->
  exists step, step_of t n_cum = Ok step /\
  ((residuals (actuals_of t) (kept t) = [] /\ kept t <> [] /\ out = map actual_row (shown_actuals t)) \/
   (exists last, in_range q1 q2 /\ zmax_opt (map fst (actuals_of t)) = Some last /\ residuals (actuals_of t) (kept t) <> [] /\
      let res := centred (residuals (actuals_of t) (kept t)) in
      out = map actual_row (shown_actuals t) ++
            map (with_quantiles q1 q2 (past_deviation draw (length (past_rows t last)) res) s) (enumerate (past_rows t last)) ++
            map (with_quantiles q1 q2 (future_deviation draw step (length (future_rows t last)) res) s) (enumerate (future_rows t last)))).
Proof. exact @pi_single_rows. Qed.
Print Assumptions C48_rows.
Theorem C48_deviation : forall (T : Type) (N : NumOps T) draw s c n (res : list T) k i, (0 < c)%nat -> (k < s)%nat -> (i < n)%nat ->
  nth i (nth k (future_sample draw s c n res) []) nnan = future_deviation draw c n res k i.
Proof. exact @future_nth. Qed.
Print Assumptions C48_deviation.
(* two rows less than a step apart differ in their own residual only; the next step adds one more *)
Theorem C48_step : forall (T : Type) (N : NumOps T) (f : nat -> T) c i, (0 < c)%nat ->
  prefix_sum f ((i + c) / c) = nadd (prefix_sum f (i / c)) (f (Datatypes.S (i / c))) /\
  (forall j, (i / c = j / c)%nat -> prefix_sum f (i / c) = prefix_sum f (j / c)).
Proof.
  intros T N f c i C. split; [|now intros j ->]. replace ((i + c) / c)%nat with (Datatypes.S (i / c)); [reflexivity|].
  replace (i + c)%nat with (i + 1 * c)%nat by lia. rewrite Nat.div_add by lia. lia.
Qed.
Print Assumptions C48_step.
Theorem C48_enough : forall n c i, (0 < c)%nat -> (i < n)%nat -> (i / c < ceil_nat n c)%nat.
Proof. exact enough_drawn. Qed.
Print Assumptions C48_enough.
(* only residuals are drawn, and they are the differences of usable actuals and forecasts, centred *)
Theorem C48_drawn : forall (T : Type) (N : NumOps T) (vals : list T) d i, vals <> [] -> In (drawn vals d i) vals.
Proof. exact @drawn_in. Qed.
Print Assumptions C48_drawn.
Theorem C48_residuals : forall (T : Type) (N : NumOps T) (t : ptable T) a, In a (residuals (actuals_of t) (kept t)) <->
  nisnan a = false /\ exists r d y, In r (kept t) /\ d_actual r = false /\ nisnan (d_y r) = false /\
    In (d, y) (actuals_of t) /\ d = d_date r /\ a = nsub y (d_y r).
Proof.
  intros T N t a. unfold residuals. rewrite filter_In, negb_true_iff, in_flat_map. split.
  - intros [(r & Hr & Ha) Hn]. split; [exact Hn|]. apply filter_In in Hr as [Hr Hb]. apply andb_prop in Hb as [B1 B2].
    apply in_map_iff in Ha as ([d y] & <- & Hd). apply filter_In in Hd as [Hd He]. apply Z.eqb_eq in He. cbn [fst snd] in *.
    exists r, d, y. unfold with_value in B2. apply negb_true_iff in B1. apply negb_true_iff in B2. auto 10.
  - intros [Hn (r & d & y & Hr & B1 & B2 & Hd & -> & ->)]. split; [|exact Hn]. exists r. split.
    + apply filter_In. unfold with_value. now rewrite B1, B2.
    + apply in_map_iff. exists (d_date r, y). split; [reflexivity|]. apply filter_In. split; [exact Hd|]. cbn. apply Z.eqb_refl.
Qed.
Print Assumptions C48_residuals.
Theorem C48_centred : forall rs, rs <> [] -> exists ds, centred (map Fin rs) = map Fin ds /\ length ds = length rs /\ rsum ds = 0%R /\
  (forall i j d, (i < length rs)%nat -> (j < length rs)%nat -> (nth i ds d - nth j ds d = nth i rs d - nth j rs d)%R).
Proof. exact centred_zero. Qed.
Print Assumptions C48_centred.
Example C48_example :
  let N := fops in
  (* residuals 0 0 1 0 0, mean 0.2; five simulations of three future rows, a step every two rows *)
  residuals (actuals_of (ex_pi_table ex_pi_rows)) (kept (ex_pi_table ex_pi_rows)) = [0; 0; 1; 0; 0]%float /\
  step_of (ex_pi_table ex_pi_rows) 2 = Ok 2%nat /\
  future_sample (fun a i => (a + i)%nat) 2 2 3 [10; 20; 30]%float = [[20 + 10; 30 + 10; 10 + (10 + 20)]; [20 + 30; 30 + 30; 10 + (30 + 10)]]%float /\
  length (future_sample (T := float) (fun a i => (a + i)%nat) 2 2 3 [10; 20; 30]%float) = 2%nat.
Proof. vm_compute. repeat split; reflexivity. Qed.

(* ================= C49 ================= *)
Theorem C49_days : forall s f,
  days_from_freq (Some ("Y" ++ s)%string) = Ok 365%Z /\ days_from_freq (Some ("M" ++ s)%string) = Ok 30%Z /\
  days_from_freq (Some ("W" ++ s)%string) = Ok 7%Z /\
  ((forall s, f <> ("Y" ++ s)%string) -> (forall s, f <> ("M" ++ s)%string) -> (forall s, f <> ("W" ++ s)%string) -> days_from_freq (Some f) = Ok 1%Z).
Proof. intros s f. split; [apply days_year|]. split; [apply days_month|]. split; [apply days_week|apply days_other]. Qed.
Print Assumptions C49_days.
Theorem C49_step : forall n d, (0 < d)%Z -> (0 <= n)%Z -> Z.of_nat (widening_step n d) = Z.max 1 (n / d).
Proof. exact widening_floor. Qed.
Print Assumptions C49_step.
Theorem C49_step_of : forall (T : Type) (N : NumOps T) (t : ptable T) n f d, pt_dates t = true -> detect_freq (map d_date (kept t)) = Some f ->
  days_from_freq (Some f) = Ok d -> (0 <= n)%Z ->
  exists step, step_of t n = Ok step /\ Z.of_nat step = Z.max 1 (n / d).
Proof.
  intros T N t n f d D F Ed Hn. exists (widening_step n d). unfold step_of. rewrite D, F, Ed. split; [reflexivity|].
  apply widening_floor; [now apply (days_positive (Some f))|exact Hn].
Qed.
Print Assumptions C49_step_of.
Theorem C49_period : forall (T : Type) (N : NumOps T) draw s q1 q2 wd (t : ptable T) n, days_from_freq wd = Ok n ->
  get_pi draw s None q1 q2 wd t = get_pi draw s (Some n) q1 q2 wd t.
Proof. exact @get_pi_widening. Qed.
Print Assumptions C49_period.
Theorem C49_no_frequency : forall (T : Type) (N : NumOps T) draw s n q1 q2 wd (t : ptable T), pt_dates t = true ->
  (pt_src t = false \/ (length (pi_sources t) <= 1)%nat) ->
  detect_freq (map d_date (kept t)) = None -> get_pi draw s (Some n) q1 q2 wd t = Err AttributeError.
Proof. exact @get_pi_no_freq. Qed.
Print Assumptions C49_no_frequency.
(* one source without frequency fails all *)
Theorem C49_no_frequency_several : forall (T : Type) (N : NumOps T) draw s n q1 q2 wd (t : ptable T) u, pt_dates t = true -> pt_src t = true ->
  (1 < length (pi_sources t))%nat -> In u (pi_sources t) -> detect_freq (map d_date (kept (source_table t u))) = None ->
  forall out, get_pi draw s n q1 q2 wd t <> Ok out.
Proof. exact @get_pi_no_freq_several. Qed.
Print Assumptions C49_no_frequency_several.
Theorem C49_no_period : forall (T : Type) (N : NumOps T) draw s q1 q2 (t : ptable T), get_pi draw s None q1 q2 None t = Err AttributeError.
Proof. exact @get_pi_no_widening. Qed.
Print Assumptions C49_no_period.
Example C49_example :
  let N := fops in
  let t step n := ex_pi_table (map (fun i => mkD (ts 2018 1 1 + Z.of_nat i * step)%Z 1%float 1%float "actuals" "s" "s" true false) (seq 0 n)) in
  map (fun f => days_from_freq (Some f)) ["YS"; "MS"; "W-MON"; "D"; "H"; "QS"] = map Ok [365; 30; 7; 1; 1; 1]%Z /\
  step_of (t DAY 5%nat) 365 = Ok 365%nat /\ step_of (t (7 * DAY)%Z 5%nat) 365 = Ok 52%nat /\
  (* hourly data: a year's widening after 365 hours *)
  step_of (t (DAY / 24)%Z 30%nat) 365 = Ok 365%nat /\
  get_pi ex_draw 5 (Some 2%Z) 5 20 None (t DAY 1%nat) = Err AttributeError.
Proof. vm_compute. repeat split; reflexivity. Qed.

(* ================= C50 ================= *)
(* [ceil_of a b q]: q is a / b rounded up.  r is the square root of n rounded up *)
Theorem C50_grid : forall n, (1 <= n)%nat -> exists r c, grid n = Ok (r, c) /\
  (1 <= r)%nat /\ (1 <= c)%nat /\ (n <= r * r)%nat /\ ((r - 1) * (r - 1) < n)%nat /\ ceil_of n r c /\
  (n <= r * c)%nat /\ ((r - 1) * c < n)%nat.
Proof. exact grid_ok. Qed.
Print Assumptions C50_grid.
(* [cells_from c 0 n]: the first n cells of a grid with c columns in row-major order *)
Theorem C50_matplotlib : forall (T : Type) b (sources : list string) r c (l : list (drow T)), sources <> [] -> grid (length sources) = Ok (r, c) ->
  exists ps hidden, matplotlib_create b sources (r, c) l = Ok (ps, hidden) /\
    map (pl_cell (T := T)) ps = cells_from c 0 (length sources) /\
    NoDup (map (pl_cell (T := T)) ps ++ hidden) /\
    (forall p q, In (p, q) (map (pl_cell (T := T)) ps ++ hidden) <-> (p < r /\ q < c)%nat).
Proof. exact @matplotlib_cells. Qed.
Print Assumptions C50_matplotlib.
Theorem C50_plotly : forall (T : Type) b (sources : list string) r c (l : list (drow T)), sources <> [] -> grid (length sources) = Ok (r, c) ->
  exists ps, plotly_create b sources (r, c) l = Ok ps /\
    map (pl_cell (T := T)) ps = map (fun p => (Datatypes.S (fst p), Datatypes.S (snd p))) (cells_from c 0 (length sources)).
Proof. exact @plotly_cells_grid. Qed.
Print Assumptions C50_plotly.
(* every row but the last is full, and the last is not empty *)
Theorem C50_rows : forall n r c p q, (1 <= n)%nat -> grid n = Ok (r, c) -> (p < r)%nat -> (q < c)%nat ->
  (In (p, q) (cells_from c 0 n) <-> (p * c + q < n)%nat) /\ ((p < r - 1)%nat -> In (p, q) (cells_from c 0 n)) /\ In ((r - 1)%nat, 0%nat) (cells_from c 0 n).
Proof.
  intros n r c p q Hn G Hp Hq. destruct (grid_ok n Hn) as (r' & c' & G' & R1 & C1 & _ & _ & _ & U & L). rewrite G in G'. injection G' as <- <-.
  assert (K : forall p q, (q < c)%nat -> In (p, q) (cells_from c 0 n) <-> (p * c + q < n)%nat).
  { intros p0 q0 H0. unfold cells_from. rewrite in_map_iff. split.
    - intros (i & E & Hi). apply in_seq in Hi. rewrite <- (cell_onto c p0 q0 H0) in E. apply cell_inj in E; lia.
    - intros Hi. exists (p0 * c + q0)%nat. split; [now apply cell_onto|]. apply in_seq. lia. }
  split; [now apply K|]. split.
  - intros Hp'. apply K; [exact Hq|]. nia.
  - apply K; nia.
Qed.
Print Assumptions C50_rows.
Theorem C50_sources : forall (T : Type) b (l : list (drow T)) sub srcs g, layout b l = Ok (sub, srcs, g) ->
  (sub = true /\ b = true /\ (forall s, In s srcs <-> exists r, In r l /\ d_actual r = true /\ d_src r = s) /\ NoDup srcs /\ srcs <> [] /\ grid (length srcs) = Ok g) \/
  (sub = false /\ srcs = ["y"] /\ g = (1, 1)%nat /\ (b = true -> forall r r', In r l -> In r' l -> d_src r = d_src r')).
Proof. exact @layout_sources. Qed.
Print Assumptions C50_sources.
Theorem C50_content : forall (T : Type) b (l : list (drow T)) cs p, In p (map (panel_of b l) cs) ->
  exists s, In s (map fst cs) /\ pl_title p = (if b then Some s else None) /\
    (forall r, In r (pl_actuals p) <-> In r l /\ d_actual r = true /\ (b = true -> d_src r = s)) /\
    (forall r, In r (pl_forecast p) <-> In r l /\ d_actual r = false /\ (b = true -> d_src r = s)).
Proof. exact @panels_content. Qed.
Print Assumptions C50_content.
(* sources without actuals have no cell; if no source has any, an error *)
Theorem C50_fails : forall (T : Type) b (l : list (drow T)), (exists e, layout b l = Err e) <->
  b = true /\ (exists r r', In r l /\ In r' l /\ d_src r <> d_src r') /\ (forall r, In r l -> d_actual r = false).
Proof. exact @layout_fails. Qed.
Print Assumptions C50_fails.
Definition ex_sources (l : list (string * bool)) : list (drow float) :=
  map (fun p => mkD 0 1%float 1%float "m" (fst p) (fst p) (snd p) false) l.
Example C50_example :
  map grid [1; 2; 3; 4; 5; 7; 10; 12; 13]%nat = map Ok [(1, 1); (2, 1); (2, 2); (2, 2); (3, 2); (3, 3); (4, 3); (4, 3); (4, 4)]%nat /\
  (match matplotlib_create true ["a"; "b"; "c"; "d"; "e"] (3, 2)%nat (ex_sources [("b", true); ("b", false)]) with
   | Ok (ps, hidden) => map (fun p => (pl_title p, pl_cell p, length (pl_actuals p), length (pl_forecast p))) ps =
        [(Some "a", (0, 0), 0, 0); (Some "b", (0, 1), 1, 1); (Some "c", (1, 0), 0, 0); (Some "d", (1, 1), 0, 0); (Some "e", (2, 0), 0, 0)]%nat /\ hidden = [(2, 1)]%nat
   | Err _ => False end) /\
  layout true (ex_sources [("b", true); ("a", false); ("c", true)]) = Ok (true, ["b"; "c"], (2, 1)%nat) /\
  layout true (ex_sources [("b", false); ("a", false)]) = Err ZeroDivisionError.
Proof. vm_compute. repeat split; reflexivity. Qed.

(* ================= C51 ================= *)
(* [named i s]: i is a path whose file name is s (without dot) followed by nothing or by a dot and more.
   [beside dest f q]: q is the file f in the folder that holds dest. *)
Theorem C51_names : forall ex dir i o s p, named i s -> app_paths ex dir (Some i) o = Ok p ->
  let dest := match o with Some o => o | None => i end in
  (forall q, beside dest (s ++ "_fcast.csv") q -> p_data p = q) /\
  (forall q, beside dest (s ++ "_metadata.csv") q -> p_meta p = q) /\
  (forall q, beside dest (s ++ "_fcast") q -> p_plot p = q).
Proof. exact paths_names. Qed.
Print Assumptions C51_names.
Theorem C51_every_path_named : forall i, exists s, named i s.
Proof. exact named_exists. Qed.
Print Assumptions C51_every_path_named.
Theorem C51_refused : forall ex dir i o, app_paths ex dir i o = Err AssertionError <->
  (i = None \/ exists p, i = Some p /\ (ex p = false \/ dir p = true \/ exists q, o = Some q /\ ex q = false)).
Proof. exact paths_refused. Qed.
Print Assumptions C51_refused.
Theorem C51_accepted : forall ex dir i o, ex i = true -> dir i = false -> ex (match o with Some o => o | None => i end) = true ->
  exists p, app_paths ex dir (Some i) o = Ok p.
Proof. exact paths_ok. Qed.
Print Assumptions C51_accepted.
(* the input is never overwritten, and the outputs of one run differ *)
Theorem C51_distinct : forall ex dir i o p, app_paths ex dir (Some i) o = Ok p ->
  p_data p <> i /\ p_meta p <> i /\ p_plot p <> i /\ p_data p <> p_meta p /\
  (forall ext, (p_plot p ++ ext)%string = p_meta p -> False) /\ (p_plot p ++ ".csv")%string = p_data p.
Proof. exact paths_distinct. Qed.
Print Assumptions C51_distinct.
(* a run that completes has written the tables of run_forecast on the input, normalised once, with the
   given length of the forecast and the given choice of rows, and the defaults otherwise *)
Definition same_but_years_and_all {T} (c c0 : config T) : Prop :=
  (c_trend c, c_season c, c_start c, Forecast.c_mode c, c_outliers c, c_yearly c, c_weekly c, c_naive c, c_calendar c, c_ncum c, c_q1 c, c_q2 c, c_widen c, c_cache c) =
  (c_trend c0, c_season c0, c_start c0, Forecast.c_mode c0, c_outliers c0, c_yearly c0, c_weekly c0, c_naive c0, c_calendar c0, c_ncum c0, c_q1 c0, c_q2 c0, c_widen c0, c_cache c0).
Theorem C51_contents : forall (T : Type) (N : NumOps T) ex dir W (c : config T) L i o years (t : raw T) all fmt out,
  run_app ex dir W c L i o years t all fmt = Ok out ->
  exists p r cfg, app_paths ex dir i o = Ok p /\ run_forecast W cfg "src" t = Ok (Some r) /\
    c_years cfg = years /\ c_all cfg = all /\ same_but_years_and_all cfg c /\
    out_data out = (p_data p, rs_data r) /\ out_meta out = (p_meta p, rs_meta r) /\
    (forall g, out_plot out = Some g -> plot_forecast L fmt (Some (p_plot p)) app_size true (rs_data r) = Ok g).
Proof.
  intros T N ex dir W c L i o years t all fmt out K. destruct (app_writes ex dir W c L i o years t all fmt out K) as (p & r & A & B & C).
  exists p, r, (app_config c years all). repeat split; assumption || apply C.
Qed.
Print Assumptions C51_contents.
Theorem C51_rejected_input : forall (T : Type) (N : NumOps T) ex dir W (c : config T) L i o years (t : raw T) all fmt,
  (app_paths ex dir i o = Err AssertionError \/ ((exists p, app_paths ex dir i o = Ok p) /\ t_rows t = [])) ->
  run_app ex dir W c L i o years t all fmt = Err AssertionError.
Proof. exact @app_refuses. Qed.
Print Assumptions C51_rejected_input.
Definition all_exist (_ : string) : bool := true.
Definition no_dir (_ : string) : bool := false.
Example C51_example :
  app_paths all_exist no_dir (Some "/data/in/sales.2018.csv") None =
    Ok (mkPaths "/data/in/sales_fcast.csv" "/data/in/sales_metadata.csv" "/data/in/sales_fcast") /\
  app_paths all_exist no_dir (Some "sales.csv") (Some "/out/") = Ok (mkPaths "/out/sales_fcast.csv" "/out/sales_metadata.csv" "/out/sales_fcast") /\
  app_paths all_exist no_dir (Some "sales.csv") None = Ok (mkPaths "sales_fcast.csv" "sales_metadata.csv" "sales_fcast") /\
  app_paths all_exist no_dir None None = Err AssertionError.
Proof. vm_compute. repeat split; reflexivity. Qed.
(* a folder without trailing slash is not where the output goes; inputs with a common stem collide *)
Example C51_folder_refuted :
  app_paths all_exist no_dir (Some "sales.csv") (Some "/results/out") = Ok (mkPaths "/results/sales_fcast.csv" "/results/sales_metadata.csv" "/results/sales_fcast") /\
  app_paths all_exist no_dir (Some "sales.2018.csv") None = app_paths all_exist no_dir (Some "sales.2019.csv") None.
Proof. vm_compute. repeat split; reflexivity. Qed.
Example C51_run :
  let N := fops in
  let W (s : string) := ex_world (T := float) (LDone true 40%float [5%float]) (LDone true 1%float [2; 1]%float) in
  let t := ex_two [1; 3; 5; 7; 9; 11]%float [1; 4; 7; 10; 13; 16]%float in
  match run_app all_exist no_dir W (ex_cfg [model_linear]) (mkLibs true false false) (Some "/d/in.csv") None (7 # 365)%Q t true "png" with
  | Ok o => fst (out_data o) = "/d/in_fcast.csv" /\ length (snd (out_data o)) = 38%nat /\ fst (out_meta o) = "/d/in_metadata.csv" /\
            map (fun m => (md_source (m_meta m), m_best m)) (snd (out_meta o)) = [("a", true); ("b", true)] /\
            match out_plot o with
            | Some g => pt_code g = Some 0%Z /\ option_map (fun d => (fst d, map (fun p => (pl_title p, length (pl_forecast p))) (snd d))) (pt_drawn g) =
                          Some (Some "/d/in_fcast.png", [(Some "a", 13%nat); (Some "b", 13%nat)])
            | None => False end
  | Err _ => False
  end.
Proof. vm_compute. repeat split; reflexivity. Qed.

(* ================= C59 ================= *)
(* [library_for L output]: what the output needs could be imported *)
Theorem C59_no_path : forall (T : Type) L output path z b (l : list (drow T)), no_path path -> (output = "html" \/ output = "png") ->
  plot_forecast L output path z b l = Ok (mkPlot (Some 1%Z) None).
Proof. exact @plot_refused. Qed.
Print Assumptions C59_no_path.
Theorem C59_codes : forall (T : Type) L output path z b (l : list (drow T)) x, layout b l = Ok x -> ~ (no_path path /\ (output = "html" \/ output = "png")) -> sized output z ->
  exists g, plot_forecast L output path z b l = Ok g /\
    ((pt_code g = Some 1%Z <-> output <> "png" /\ output <> "html" /\ output <> "jupyter") /\
     ((exists d, pt_drawn g = Some d) <-> library_for L output = true) /\
     (pt_code g <> Some 1%Z -> pt_code g = (if library_for L output && String.eqb output "jupyter" then None else Some 0%Z)) /\
     (forall f ps, pt_drawn g = Some (f, ps) -> f = match path with
        | Some p => if String.eqb output "jupyter" then None else Some (p ++ (if String.eqb output "png" then ".png" else ".html"))%string
        | None => None end)).
Proof. exact @plot_code. Qed.
Print Assumptions C59_codes.
(* [sized]: a png needs width, height and a dpi other than zero, the other outputs a height other than
   zero, if any.  Without, nothing is drawn and no code is returned. *)
Theorem C59_sizes : forall (T : Type) L output path z b (l : list (drow T)) x, layout b l = Ok x -> ~ (no_path path /\ (output = "html" \/ output = "png")) ->
  library_for L output = true -> ~ sized output z ->
  plot_forecast L output path z b l =
  Err (if String.eqb output "png" then match z_width z with None => TypeError | Some _ => if Z.eqb (z_dpi z) 0 then ZeroDivisionError else TypeError end else ZeroDivisionError).
Proof. exact @plot_unsized. Qed.
Print Assumptions C59_sizes.
(* a png in the default size (width and height None) is never drawn *)
Theorem C59_default_size_refuted :
  let run o z := match plot_forecast (mkLibs true true true) o (Some "p") z true (ex_sources [("a", true)]) with Ok g => Ok (pt_code g) | Err e => Err e end in
  run "png" (mkSize None None 70) = Err TypeError /\ run "png" (mkSize (Some 800) None 70)%Z = Err TypeError /\
  run "html" (mkSize None None 70) = Ok (Some 0%Z) /\ run "html" (mkSize None (Some 0) 70)%Z = Err ZeroDivisionError /\
  run "png" app_size = Ok (Some 0%Z).
Proof. vm_compute. repeat split; reflexivity. Qed.
(* no library: success is reported and nothing is drawn *)
Example C59_success_without_output_refuted :
  plot_forecast (mkLibs false false false) "png" (Some "p") (mkSize None None 70) true (ex_sources [("a", true)]) = Ok (mkPlot (Some 0%Z) None).
Proof. vm_compute. reflexivity. Qed.
Example C59_example :
  let run L o p := match plot_forecast L o p app_size true (ex_sources [("a", true); ("b", true)]) with
                   | Ok g => Some (pt_code g, option_map (fun d => (fst d, length (snd d))) (pt_drawn g)) | Err _ => None end in
  run (mkLibs true true true) "png" (Some "p") = Some (Some 0%Z, Some (Some "p.png", 2%nat)) /\
  run (mkLibs true true true) "html" (Some "p") = Some (Some 0%Z, Some (Some "p.html", 2%nat)) /\
  run (mkLibs true true true) "jupyter" None = Some (None, Some (None, 2%nat)) /\
  run (mkLibs true true true) "png" None = Some (Some 1%Z, None) /\
  run (mkLibs true true true) "pdf" (Some "p") = Some (Some 1%Z, None).
Proof. vm_compute. repeat split; reflexivity. Qed.
