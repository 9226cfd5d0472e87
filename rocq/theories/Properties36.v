(* How far intervals can be from the forecast: C90. *)
From Coq Require Import ZArith String List Bool Lia Reals Lra Floats.
From Verif Require Import Num Py Cal Fmt Model Base Naive Freq Normalize Fixed Fit Interp Select Outliers Pi Forecast.
From Verif Require Import NumProofs ListProofs BaseProofs OutlierReals InterpProofs PiProofs BoundProofs.
From Verif Require Import Ex Properties7 Properties8.
Import ListNotations.
Local Open Scope string_scope.
Local Open Scope list_scope.

(* ================= C90 ================= *)
(* [kept t]: without the rows of other fits than the best; [errors_within lo hi t]: sample minus forecast of the
   same date is between lo and hi; [layout]: dates, sources, models and values of the rows are those of the table;
   [reach lo hi k p]: the bounds of p are between p_y p + k lo and p_y p + k hi *)
Theorem C90_errors : forall draw s n_cum q1 q2 (t : ptable XR) out lo hi, finite_table t -> (1 <= s)%nat ->
  pi_single draw s n_cum q1 q2 t = Ok out -> has_error t -> errors_within lo hi t ->
  exists step last acts pas fut, step_of t n_cum = Ok step /\ zmax_opt (map fst (actuals_of t)) = Some last /\
    out = acts ++ pas ++ fut /\ layout t last acts pas fut /\
    (forall p, In p acts -> p_q p = []) /\
    (forall p, In p pas -> reach (lo - hi) (hi - lo) 1 p) /\
    (forall i p, nth_error fut i = Some p -> reach (lo - hi) (hi - lo) (i / step + 2) p).
Proof. exact pi_single_errors. Qed.
Print Assumptions C90_errors.
(* the same with the residuals that are drawn from *)
Theorem C90_residuals : forall draw s n_cum q1 q2 (t : ptable XR) out lo hi, finite_table t -> (1 <= s)%nat ->
  pi_single draw s n_cum q1 q2 t = Ok out -> residuals (actuals_of t) (kept t) <> [] ->
  (forall x, In x (centred (residuals (actuals_of t) (kept t))) -> between lo hi x) ->
  exists step last acts pas fut, step_of t n_cum = Ok step /\ zmax_opt (map fst (actuals_of t)) = Some last /\
    out = acts ++ pas ++ fut /\ layout t last acts pas fut /\
    (forall p, In p acts -> p_q p = []) /\
    (forall p, In p pas -> reach lo hi 1 p) /\
    (forall i p, nth_error fut i = Some p -> reach lo hi (i / step + 2) p).
Proof. exact pi_single_reach. Qed.
Print Assumptions C90_residuals.
(* the intervals of a run, against the table of fits and samples it returns *)
Theorem C90_run : forall (W : world XR) c source f r lo hi, run_forecast_single W c source f = Ok r ->
  finite_table (interval_table f r) -> has_error (interval_table f r) -> errors_within lo hi (interval_table f r) ->
  exists n_cum step last acts pas fut,
    match c_ncum c with Some n => Ok n | None => days_from_freq (c_widen c) end = Ok n_cum /\
    step_of (interval_table f r) n_cum = Ok step /\ zmax_opt (map fst (actuals_of (interval_table f r))) = Some last /\
    rs_forecast r = acts ++ pas ++ fut /\ layout (interval_table f r) last acts pas fut /\
    (forall p, In p acts -> p_q p = []) /\
    (forall p, In p pas -> reach (lo - hi) (hi - lo) 1 p) /\
    (forall i p, nth_error fut i = Some p -> reach (lo - hi) (hi - lo) (i / step + 2) p).
Proof. exact run_errors. Qed.
Print Assumptions C90_run.
(* a percentile lies between the least and the greatest value *)
Theorem C90_percentile : forall (l : list XR) q lo hi, l <> [] -> (0 <= q <= 100)%Z -> (forall x, In x l -> between lo hi x) ->
  between lo hi (percentile q l).
Proof. exact percentile_between. Qed.
Print Assumptions C90_percentile.

(* four samples; the forecast is right three times and 4 too low once *)
Definition c90_rows {T : Type} `{NumOps T} : list (drow T) :=
  map (fun p => mkD (ts 2018 1 (1 + Z.of_nat (fst p))) n1 (nofZ (snd p)) "actuals" "s" "s" true false) (enumerate [1; 2; 3; 8]%Z) ++
  map (fun i => mkD (ts 2018 1 (1 + Z.of_nat i)) n1 (nofZ (1 + Z.of_nat i)) "m" "s" "s" false true) (seq 0 8).
Definition c90_table {T : Type} `{NumOps T} : ptable T := mkPT true true true true c90_rows.
Lemma c90_weights : some_zero_weight (T := XR) c90_table = false.
Proof.
  unfold some_zero_weight. apply andb_false_intro2. apply not_true_iff_false. intros C. apply existsb_exists in C as (r & Hr & C).
  assert (E : d_w r = n1). { cbn in Hr. repeat destruct Hr as [<-|Hr]; try reflexivity. destruct Hr. }
  rewrite E in C. cbn in C. unfold Reqb in C. destruct (Req_EM_T 1 0); [lra|discriminate].
Qed.
Lemma c90_actuals : actuals_of (T := XR) c90_table = map (fun r => (d_date r, d_y r)) (shown_actuals c90_table).
Proof. unfold actuals_of. now rewrite c90_weights. Qed.
Example C90_met : forall draw, finite_table c90_table /\ has_error c90_table /\ errors_within 0 4 c90_table /\
  (exists out, pi_single draw 5 2 5 20 (T := XR) c90_table = Ok out) /\ step_of (T := XR) c90_table 2 = Ok 2%nat.
Proof.
  intros draw. assert (S : step_of (T := XR) c90_table 2 = Ok 2%nat) by reflexivity.
  split; [|split; [|split; [|split; [|exact S]]]].
  - intros r Hr. cbn in Hr. repeat destruct Hr as [<-|Hr]; try (right; eexists; reflexivity). destruct Hr.
  - unfold has_error. rewrite c90_actuals. intros C. vm_compute in C. discriminate C.
  - intros a f ya yf Ia If Aa Af D Ya Yf. cbn in Ia, If.
    repeat destruct Ia as [<-|Ia]; try discriminate Aa; try (destruct Ia; fail);
    repeat destruct If as [<-|If]; try discriminate Af; try discriminate D; try (destruct If; fail);
    cbn in Ya, Yf; injection Ya as <-; injection Yf as <-; lra.
  - rewrite pi_single_eq by reflexivity. rewrite S. cbn [rbind]. rewrite c90_actuals.
    destruct (residuals _ _) as [|x l] eqn:E; [vm_compute in E; discriminate E|]. rewrite <- E.
    destruct (zmax_opt _) as [last|] eqn:El; [|vm_compute in El; discriminate El]. cbv zeta. unfold add_percentiles.
    change ((0 <? 5)%Z && (5 <? 100)%Z && (0 <? 20)%Z && (20 <? 100)%Z) with true. cbn [rbind]. eexists. reflexivity.
Qed.
(* If the greatest residual, 3 after the mean is taken away, is always the one drawn, the bounds are exactly
   1 and i / 2 + 2 times 3 above the forecast: the theorem can not be improved.  No row has its forecast inside its
   interval. *)
Definition c90_shift (r : res (list (prow float))) : res (list (list float)) :=
  rmap (map (fun p : prow float => map (fun qv => PrimFloat.sub (snd qv) (p_y p)) (p_q p))) r.
Example C90_attained :
  let N := fops in
  let out k := c90_shift (get_pi (fun _ _ _ => k) 5 (Some 2%Z) 5 20 None c90_table) in
  let all v := [v; v; v; v] in
  out 3%nat = Ok ([[]; []; []; []] ++ map all [3; 3; 3; 3; 2 * 3; 2 * 3; 3 * 3; 3 * 3]%float) /\
  out 0%nat = Ok ([[]; []; []; []] ++ map all [- 1; - 1; - 1; - 1; 2 * - 1; 2 * - 1; 3 * - 1; 3 * - 1]%float).
Proof. split; vm_compute; reflexivity. Qed.
(* The forecast itself may be outside its interval. *)
Definition c90_outside (p : prow float) : bool :=
  match p_q p with (_, a) :: (_, b) :: _ => PrimFloat.ltb (p_y p) a && PrimFloat.leb a b | _ => false end.
Example C90_inside_refuted :
  let N := fops in
  Py.rmap (fun l => length (filter c90_outside l)) (get_pi (fun _ _ _ => 3%nat) 5 (Some 2%Z) 5 20 None c90_table) = Ok 8%nat.
Proof. vm_compute. reflexivity. Qed.
(* a run: the errors of the line are 0, once -1; the bounds of the past rows are within 1 of the forecast, those
   of the future rows within 2, as the step is longer than the forecast *)
Definition c90_farthest (r : result float) : list (float * nat) :=
  map (fun k => (k, length (filter (fun p : prow float => existsb (fun qv => PrimFloat.ltb k (PrimFloat.abs (PrimFloat.sub (snd qv) (p_y p)))) (p_q p)) (rs_forecast r))))
    [0; 0.5; 1; 2]%float.
Example C90_run_example :
  let N := fops in
  Py.rmap c90_farthest (run_forecast_single (ex_world (LDone true 40 [5]) (LDone true 1 [2; 1]))%float (ex_cfg [model_constant; model_linear]) "s" (dated false ex_rows)) =
    Ok [(0%float, 15%nat); (0.5%float, 8%nat); (1%float, 1%nat); (2%float, 0%nat)].
Proof. vm_compute. reflexivity. Qed.
