(* Whole forecasts: C41, C42, C43, C45, C53, C54, C57, C58. *)
From Coq Require Import ZArith String List Bool Reals PrimFloat Sorted Permutation Lia Lra QArith_base.
From Verif Require Import Num Py Cal Fmt Model Base Naive Freq Normalize Fixed Fit Interp Select Outliers Pi Forecast.
From Verif Require Import ListProofs NumProofs BaseProofs FixedProofs InterpProofs NormalizeProofs FitProofs ForecastProofs ForecastProofs2 Ex.
Import ListNotations.
Local Open Scope string_scope.
Local Open Scope list_scope.

(* ================= C41 ================= *)
(* [sorts W]: sort_values('aic_c') returns a permutation in ascending order, null scores last, ties
   in any order.  [no_worse a b]: a's score is equal or not above b's, or b's is null.  [same_fit]:
   same model name and source_long, the columns the best-fit flag is merged on. *)
Theorem C41_best : forall (T : Type) (N : NumOps T) (W : world T) c source f r, sorts W ->
  run_forecast_single W (set_all true c) source f = Ok r ->
  ((forall m, In m (rs_meta r) -> md_fit (m_meta m) = false) /\
   (forall m, In m (rs_meta r) -> m_best m = false) /\ (forall d, In d (rs_data r) -> d_best d = false))
  \/
  (exists b, In b (rs_meta r) /\ md_fit (m_meta b) = true /\ m_best b = true /\
     (forall m, In m (rs_meta r) -> md_fit (m_meta m) = true -> no_worse (m_meta b) (m_meta m)) /\
     (forall m, In m (rs_meta r) -> (m_best m = true <-> same_fit (m_meta m) (m_meta b))) /\
     (forall d, In d (rs_data r) -> (d_best d = true <-> belongs d (m_meta b)))).
Proof. exact @best_unique_minimal. Qed.
Print Assumptions C41_best.

(* a sort by score *)
Definition by_score {T} `{NumOps T} (l : list (meta T)) : list (meta T) :=
  isort (fun a b => nisnan (md_aicc b) || nleb (md_aicc a) (md_aicc b)) l.
Lemma by_score_sorts (W : world XR) : w_sort W = by_score -> sorts W.
Proof.
  intros E l. rewrite E. split; [symmetry; apply isort_perm|]. unfold by_score.
  set (lebm := fun a b : meta XR => (nisnan (md_aicc b) || nleb (md_aicc a) (md_aicc b))%bool).
  assert (S : StronglySorted (fun a b => lebm a b = true) (isort lebm l)).
  { apply isort_sorted.
    - intros a b. unfold lebm. destruct (md_aicc a) as [| | |x], (md_aicc b) as [| | |y]; cbn; auto. unfold Rleb. destruct (Rle_dec x y), (Rle_dec y x); auto. exfalso. lra.
    - intros a b c'. unfold lebm. destruct (md_aicc a) as [| | |x], (md_aicc b) as [| | |y], (md_aicc c') as [| | |z]; cbn; auto; try discriminate.
      unfold Rleb. destruct (Rle_dec x y), (Rle_dec y z), (Rle_dec x z); auto; try discriminate. intros. exfalso. lra. }
  induction S as [|a l' S IH F]; constructor; auto. eapply Forall_impl; [|exact F]. intros b K. unfold lebm in K. apply orb_prop in K. exact K.
Qed.

(* a world with fixed answers of the optimizer for one and for two parameters *)
Definition ex_world {T} `{NumOps T} (o1 o2 : lsq_out T) : world T :=
  mkWorld (mkEnv (fun _ g _ => match g with [_] => o1 | _ => o2 end) (fun _ => dec 1 2) (fun _ => "[..]") (fun _ => "#"))
    by_score (fun a i => (a + i)%nat).
Definition ex_cfg {T} (trend : list (fmodel T)) : config T :=
  mkCfg (Some trend) (Some []) None (7 # 365)%Q "add" true false None None (Some []) None None 5 20 (Some "Y") true.
Definition dated {T} `{NumOps T} (hw : bool) (yw : list (T * T)) : frame T :=
  mkFrame true false hw (map (fun p => mkRow (ts 2018 1 (1 + Z.of_nat (fst p))) "s" (Z.of_nat (fst p)) (fst (snd p)) (snd (snd p))) (enumerate yw)).
Definition show_meta {T} (r : res (result T)) : res (list (string * bool * bool)) :=
  rmap (fun r => map (fun m => (md_model (m_meta m), md_fit (m_meta m), m_best m)) (rs_meta r)) r.
Definition show_data {T} (r : res (result T)) : res (list (string * Z * T * bool)) :=
  rmap (fun r => map (fun d => (d_model d, (d_date d - ts 2018 1 1) / DAY, d_y d, d_best d))%Z (rs_data r)) r.
Definition ex_rows : list (float * float) := [(1, 1); (3, 1); (5, 1); (7, 1); (9, 1); (11, 1); (12, 1); (15, 1)]%float.
Example C41_sorts_exists : sorts (ex_world (T := XR) (LRaise ValueError) (LRaise ValueError)).
Proof. now apply by_score_sorts. Qed.
Example C41_example :
  let N := fops in
  (* the linear model has the lower cost, hence (with the placeholder logarithm) the better score *)
  show_meta (run_forecast_single (ex_world (LDone true 40 [5]) (LDone true 1 [2; 1]))%float (ex_cfg [model_constant; model_linear]) "s" (dated false ex_rows)) =
    Ok [("constant", true, false); ("linear", true, true)] /\
  show_meta (run_forecast_single (ex_world (LDone true 40 [5]) (LDone false 1 [2; 1]))%float (ex_cfg [model_constant; model_linear]) "s" (dated false ex_rows)) =
    Ok [("constant", true, true); ("linear", false, false)] /\
  show_meta (run_forecast_single (ex_world (LDone false 40 [5]) (LDone false 1 [2; 1]))%float (ex_cfg [model_constant; model_linear]) "s" (dated false ex_rows)) =
    Ok [("constant", false, false); ("linear", false, false)].
Proof. repeat split; vm_compute; reflexivity. Qed.

(* ================= C42 ================= *)
(* with include_all_fits: actuals, then one entry per candidate *)
Theorem C42_table : forall (T : Type) (N : NumOps T) (W : world T) c source f r,
  run_forecast_single W (set_all true c) source f = Ok r ->
  exists acts es f1 mode act start stop x0,
    rs_data r = acts ++ concat (map en_rows es) /\
    rs_meta r = map en_meta es /\
    map (fun d => (d_date d, d_y d)) acts = map (fun q => (place f q, r_y q)) (rows (start_filter (c_start c) f)) /\
    Forall (fun d => d_src d = source /\ d_model d = "actuals" /\ d_actual d = true) acts /\
    prepared c f = Ok f1 /\ final_mode W c (with_weights f1) = Ok mode /\
    map en_model es = all_models c mode (detect_freq_frame f) (fst (candidate_lists c (with_weights f1)))
                        (snd (candidate_lists c (with_weights f1))) /\
    model_actuals f (positive (with_weights f1)) = Ok act /\
    zmin_opt (map (place f) (rows (positive (with_weights f1)))) = Some start /\
    zmax_opt (map (place f) (rows (start_filter (c_start c) f))) = Some stop /\
    zmin_opt (map r_x (rows (positive (with_weights f1)))) = Some x0 /\
    Forall (entry_ok source (fun m ps => extrapolate_model m (Some ps) (start_of f start stop) (detect_freq_frame f)
                                            (c_years c) x0 (Some act))) es.
Proof. exact @data_table. Qed.
Print Assumptions C42_table.
(* the candidates, in name order: the naive models and the additive or multiplicative list; in mode
   'both' one model per name *)
Theorem C42_order : forall (T : Type) (N : NumOps T) (c : config T) mode freq la lm,
  StronglySorted name_le (all_models c mode freq la lm).
Proof. exact @all_models_sorted. Qed.
Print Assumptions C42_order.
Theorem C42_candidates : forall (T : Type) (N : NumOps T) (c : config T) mode freq la lm, exists l,
  Permutation (all_models c mode freq la lm) (match c_naive c with Some n => n | None => default_naive freq end ++ l) /\
  (mode = "add" -> l = la) /\ (mode = "mult" -> l = lm) /\
  (mode <> "add" -> mode <> "mult" ->
     (forall m, In m l -> In m (la ++ lm)) /\
     (forall m, In m (la ++ lm) -> exists k, In k l /\ fm_name k = fm_name m) /\ NoDup (map fm_name l)).
Proof. exact @all_models_perm. Qed.
Print Assumptions C42_candidates.
(* without include_all_fits: the same forecast, with only the flagged rows and the actuals *)
Theorem C42_only_best : forall (T : Type) (N : NumOps T) (W : world T) c source f,
  run_forecast_single W (set_all false c) source f = ForecastProofs.rmap only_best (run_forecast_single W (set_all true c) source f).
Proof. exact @all_fits_switch. Qed.
Print Assumptions C42_only_best.
Example C42_example :
  let N := fops in
  let W := ex_world (T := float) (LDone true 40%float [5%float]) (LDone true 1%float [2; 1]%float) in
  let c := ex_cfg (T := float) [model_linear; model_constant] in
  let f := dated false [(1, 1); (3, 1); (5, 1); (nan, 1); (9, 1); (11, 1)]%float in
  let acts := [("actuals", 0, 1%float, false); ("actuals", 1, 3%float, false); ("actuals", 2, 5%float, false)]%Z in
  let days := map (fun i => Z.of_nat i) (seq 0 13) in
  match show_data (run_forecast_single W (set_all true c) "s" f) with
  | Ok l => firstn 3 l = acts /\ skipn 4 l = [("actuals", 4, 9%float, false); ("actuals", 5, 11%float, false)]%Z ++
              map (fun i => ("constant", i, 5%float, false)) days ++ map (fun i => ("linear", i, nadd (nmul 2%float (nofZ i)) 1%float, true)) days
  | Err _ => False
  end /\
  match show_data (run_forecast_single W (set_all false c) "s" f) with
  | Ok l => firstn 3 l = acts /\ skipn 4 l = [("actuals", 4, 9%float, false); ("actuals", 5, 11%float, false)]%Z ++
              map (fun i => ("linear", i, nadd (nmul 2%float (nofZ i)) 1%float, true)) days
  | Err _ => False
  end.
Proof. vm_compute. repeat split; reflexivity. Qed.

(* ================= C43 ================= *)
(* [sorted_sources t]: the sources of the table in alphabetical order; [restrict t s]: its rows of
   source s *)
Theorem C43_sources_alone : forall (T : Type) (N : NumOps T) (W : string -> world T) c id t f,
  t_src t = true -> normalize_df t = Ok (Some f) ->
  run_forecast W c id t =
  rbind (rmapM (fun s => run_forecast W c id (restrict t s)) (sorted_sources t)) (fun os => Ok (Some (aggregate (somes os)))).
Proof. exact @sources_alone. Qed.
Print Assumptions C43_sources_alone.
Theorem C43_one_source : forall (T : Type) (N : NumOps T) (W : string -> world T) c id t f r s,
  t_src t = true -> normalize_df t = Ok (Some f) -> run_forecast W c id t = Ok (Some r) -> In s (sorted_sources t) ->
  exists rs, run_forecast W c id (restrict t s) = Ok (Some rs) /\
    filter (fun d => String.eqb (d_src d) s) (rs_data r) = rs_data rs /\
    filter (fun m => String.eqb (md_source (m_meta m)) s) (rs_meta r) = rs_meta rs.
Proof. exact @pick_source. Qed.
Print Assumptions C43_one_source.
Theorem C43_no_interference : forall (T : Type) (N : NumOps T) (W : string -> world T) c id t t' f f' r r' s,
  t_src t = true -> t_src t' = true -> normalize_df t = Ok (Some f) -> normalize_df t' = Ok (Some f') ->
  run_forecast W c id t = Ok (Some r) -> run_forecast W c id t' = Ok (Some r') ->
  In s (sorted_sources t) -> In s (sorted_sources t') -> restrict t s = restrict t' s ->
  filter (fun d => String.eqb (d_src d) s) (rs_data r) = filter (fun d => String.eqb (d_src d) s) (rs_data r') /\
  filter (fun m => String.eqb (md_source (m_meta m)) s) (rs_meta r) = filter (fun m => String.eqb (md_source (m_meta m)) s) (rs_meta r').
Proof. exact @sources_do_not_interfere. Qed.
Print Assumptions C43_no_interference.
Theorem C43_empty : forall (T : Type) (N : NumOps T) (W : string -> world T) c id t, t_rows t = [] -> run_forecast W c id t = Ok None.
Proof. exact @run_empty. Qed.
Print Assumptions C43_empty.
(* one failing source fails the whole run *)
Theorem C43_failure : forall (T : Type) (N : NumOps T) (W : string -> world T) c id t f s e,
  t_src t = true -> normalize_df t = Ok (Some f) -> In s (sorted_sources t) -> run_forecast W c id (restrict t s) = Err e ->
  exists e', run_forecast W c id t = Err e'.
Proof.
  intros T N W c id t f s e Hs En Hi Ee. rewrite (sources_alone W c id t f Hs En).
  destruct (rmapM (fun s0 => run_forecast W c id (restrict t s0)) (sorted_sources t)) as [os|e'] eqn:Em; [|now exists e'].
  exfalso. destruct (rmapM_in_ok _ _ _ s Em Hi) as (o & _ & Eo). congruence.
Qed.
Print Assumptions C43_failure.
Definition ex_two (ya yb : list float) : raw float :=
  mkTable true false false true true false
    (map (fun p => mkRaw 0 (mkRow (ts 2018 1 (1 + Z.of_nat (fst p))) "b" 0 (snd p) 1%float)) (enumerate yb) ++
     map (fun p => mkRaw 0 (mkRow (ts 2018 1 (1 + Z.of_nat (fst p))) "a" 0 (snd p) 1%float)) (enumerate ya)).
Example C43_example :
  let N := fops in
  let W (s : string) := ex_world (T := float) (LDone true 40%float [5%float]) (LDone true 1%float [if String.eqb s "a" then 2%float else 3%float; 1%float]) in
  let c := ex_cfg (T := float) [model_linear] in
  let srcs (r : res (option (result float))) := match r with Ok (Some r) => Some (dedup String.eqb (map d_src (rs_data r)), length (rs_data r)) | _ => None end in
  let ys s (r : res (option (result float))) := match r with Ok (Some r) => Some (map (fun d => d_y d) (filter (fun d => String.eqb (d_src d) s) (rs_data r))) | _ => None end in
  let t := ex_two [1; 3; 5; 7; 9; 11]%float [1; 4; 7; 10; 13; 16]%float in
  let t' := ex_two [1; 3; 5; 7; 9; 11]%float [1; 4; 7; 10; 13]%float in
  sorted_sources t = ["a"; "b"] /\ restrict t "a" = restrict t' "a" /\ restrict t "b" <> restrict t' "b" /\
  srcs (run_forecast W c "x" t) = Some (["a"; "b"], 38%nat) /\
  srcs (run_forecast W c "x" t') = Some (["a"; "b"], 36%nat) /\
  ys "a" (run_forecast W c "x" t) = ys "a" (run_forecast W c "x" t') /\
  ys "a" (run_forecast W c "x" t) = ys "a" (run_forecast W c "x" (restrict t "a")) /\
  run_forecast W c "x" (ex_two [] []) = Ok None /\
  (* too few samples of one source: the other's forecast is lost *)
  run_forecast W c "x" (ex_two [1; 3; 5; 7; 9; 11]%float [nan]) = Err ValueError.
Proof. vm_compute. repeat split; try reflexivity; try discriminate. Qed.

(* ================= C45 ================= *)
Theorem C45_weights : forall (T : Type) (N : NumOps T) (c : config T) f f1, c_outliers c = true -> prepared c f = Ok f1 ->
  exists steps spikes, model_outliers (start_filter (c_start c) f) = Ok (steps, spikes) /\
    length spikes = length (rows (start_filter (c_start c) f)) /\ length (rows f1) = length spikes /\
    forall i q sp, nth_error (rows (start_filter (c_start c) f)) i = Some q -> nth_error spikes i = Some sp ->
      nth_error (rows f1) i = Some (set_w q (if has_w f then nmul (r_w q) (if sp : bool then n0 else n1)
                                             else if sp then n0 else n1)).
Proof. exact @spikes_weighted. Qed.
Print Assumptions C45_weights.
(* in real arithmetic: the weight is kept outside spikes, and exactly the spikes and the samples
   without positive weight are not fitted *)
Theorem C45_fitted : forall (c : config XR) (f f1 : frame XR), c_outliers c = true -> prepared c f = Ok f1 ->
  exists steps spikes, model_outliers (start_filter (c_start c) f) = Ok (steps, spikes) /\
    length (rows f1) = length (rows (start_filter (c_start c) f)) /\ has_w f1 = true /\
    forall i q, nth_error (rows (start_filter (c_start c) f)) i = Some q ->
      exists q1, nth_error (rows f1) i = Some q1 /\ same_sample q1 q /\
        (nth i spikes false = false -> r_w q1 = weight_or_one f q) /\
        (nltb n0 (r_w q1) = true <-> nth i spikes false = false /\ nltb n0 (weight_or_one f q) = true).
Proof. exact spikes_not_fitted. Qed.
Print Assumptions C45_fitted.
Theorem C45_switched_off : forall (T : Type) (N : NumOps T) (c : config T) f f1, c_outliers c = false -> prepared c f = Ok f1 -> f1 = start_filter (c_start c) f.
Proof. exact @no_outliers. Qed.
Print Assumptions C45_switched_off.
Definition find_outliers {T} (c : config T) : config T :=
  mkCfg (c_trend c) (c_season c) (c_start c) (c_years c) (Forecast.c_mode c) (c_all c) true (c_yearly c) (c_weekly c)
    (c_naive c) (c_calendar c) (c_ncum c) (c_q1 c) (c_q2 c) (c_widen c) (c_cache c).
Definition show_w (r : res (frame float)) : res (list (float * float)) := rmap (fun f => map (fun q => (r_y q, r_w q)) (rows f)) r.
Example C45_example :
  let N := fops in
  let ys := [1; 2; 3; 4; 25; 6; 7; 8; 9; 10; 11; 12]%float in
  show_w (prepared (find_outliers (ex_cfg [model_linear])) (dated false (map (fun y => (y, 1%float)) ys))) =
    Ok (map (fun y => (y, if PrimFloat.eqb y 25 then 0 else 1)%float) ys) /\
  show_w (prepared (find_outliers (ex_cfg [model_linear])) (dated true (map (fun y => (y, 2%float)) ys))) =
    Ok (map (fun y => (y, if PrimFloat.eqb y 25 then 0 else 2)%float) ys) /\
  show_w (prepared (ex_cfg [model_linear]) (dated true (map (fun y => (y, 2%float)) ys))) = Ok (map (fun y => (y, 2%float)) ys).
Proof. vm_compute. repeat split; reflexivity. Qed.

(* ================= C53 ================= *)
(* [model_actuals f u]: the table handed to naive models, for input f with usable rows u *)
Theorem C53_hidden : forall (T : Type) (N : NumOps T) (f u act : frame T) r, zero_not_positive (T := T) ->
  model_actuals f u = Ok act -> In r (rows act) -> (forall k, In k (rows u) -> r_x k <> r_x r) -> r_y r = nnan.
Proof. exact @hidden_without_usable. Qed.
Print Assumptions C53_hidden.
(* if positions are not shared, every value shown is that of a usable sample *)
Theorem C53_shown : forall (T : Type) (N : NumOps T) (f u act : frame T) r, zero_not_positive (T := T) ->
  (forall q, In q (rows f) -> exact_int (T := T) (r_x q)) ->
  (forall k, In k (rows u) -> exists q, In q (rows f) /\ same_sample k q) ->
  NoDup (map r_x (rows f)) -> model_actuals f u = Ok act -> In r (rows act) ->
  r_y r = nnan \/ exists k, In k (rows u) /\ r_x k = r_x r /\ r_y k = r_y r.
Proof. exact @shown_values_usable. Qed.
Print Assumptions C53_shown.
(* every interpolated row at the position of a usable sample is shown, whichever sample it is *)
Theorem C53_shared : forall (T : Type) (N : NumOps T) (f u act g : frame T) q k,
  model_actuals f u = Ok act -> interpolate_df false f = Ok g -> In q (rows g) ->
  In k (rows u) -> r_x k = r_x q -> nisnan (r_w k) = false -> nltb n0 (r_w k) = true ->
  In (mkRow (r_date q) (r_src q) (r_x q) (r_y q) (r_w k)) (rows act).
Proof. exact @usable_shown. Qed.
Print Assumptions C53_shared.
Definition ex_flat (l : list (Z * (float * float))) : frame float :=
  mkFrame false false true (map (fun p => mkRow 0 "" (fst p) (fst (snd p)) (snd (snd p))) l).
Definition show_act (r : res (frame float)) : res (list (Z * option float * float)) :=
  rmap (fun f => map (fun q => (r_x q, if PrimFloat.eqb (r_y q) (r_y q) then Some (r_y q) else None, r_w q)) (rows f)) r.
Example C53_example :
  let N := fops in
  let f := ex_flat [(0%Z, (10, 1)%float); (1%Z, (20, 0)%float); (2%Z, (30, 1)%float); (3%Z, (40, 2)%float)] in
  show_act (model_actuals f (positive f)) = Ok [(0%Z, Some 10%float, 1%float); (1%Z, None, 0%float); (2%Z, Some 30%float, 1%float); (3%Z, Some 40%float, 2%float)].
Proof. vm_compute. reflexivity. Qed.
(* an ignored sample sharing its position with a usable one is shown *)
Example C53_ignored_hidden_refuted :
  let N := fops in
  let f := ex_flat [(0%Z, (10, 1)%float); (1%Z, (99, 0)%float); (1%Z, (20, 1)%float); (2%Z, (30, 1)%float)] in
  show_act (model_actuals f (positive f)) = Ok [(0%Z, Some 10%float, 1%float); (1%Z, Some 99%float, 1%float); (1%Z, Some 20%float, 1%float); (2%Z, Some 30%float, 1%float)].
Proof. vm_compute. reflexivity. Qed.

(* ================= C54 ================= *)
Lemma set_all_same {T} (c : config T) : set_all (c_all c) c = c.
Proof. now destruct c. Qed.
(* the actuals of the result are exactly the samples from the start date on *)
Theorem C54_actuals : forall (T : Type) (N : NumOps T) (W : world T) c source f r d,
  has_date f = true -> c_start c = Some d -> run_forecast_single W c source f = Ok r ->
  (forall a, In a (rs_data r) -> d_actual a = true ->
     exists q, In q (rows f) /\ (d <= r_date q)%Z /\ d_date a = r_date q /\ d_y a = r_y q) /\
  (forall q, In q (rows f) -> (d <= r_date q)%Z ->
     exists a, In a (rs_data r) /\ d_actual a = true /\ d_date a = r_date q /\ d_y a = r_y q).
Proof.
  intros T N W c source f r d D Es E.
  assert (exists r', run_forecast_single W (set_all true c) source f = Ok r' /\
                     forall a, d_actual a = true -> (In a (rs_data r) <-> In a (rs_data r'))) as (r' & E' & Hd).
  { rewrite <- (set_all_same c) in E. destruct (c_all c); [exists r; split; [exact E|tauto]|].
    rewrite all_fits_switch in E. destruct (run_forecast_single W (set_all true c) source f) as [r'|]; [|discriminate]. cbn in E. injection E as <-.
    exists r'. split; [reflexivity|]. intros a Ha. cbn. rewrite filter_In, Ha, orb_true_r. tauto. }
  destruct (data_table _ _ _ _ _ E') as (acts & es & f1 & mode & act & st & sp & x0 & Ed & _ & Ea & Fa & _ & _ & _ & _ & _ & _ & _ & Fe). rewrite Es in Ea.
  assert (P : forall q, place f q = r_date q) by (intros q; unfold place; now rewrite D).
  split.
  - intros a Ha A. apply Hd in Ha; [|exact A]. rewrite Ed in Ha. apply in_app_iff in Ha as [Ha|Ha].
    + apply (in_map (fun d => (d_date d, d_y d))) in Ha. rewrite Ea in Ha. apply in_map_iff in Ha as (q & Eq & Hq).
      apply start_filter_in in Hq as [Hq Hl]; [|exact D]. injection Eq as E1 E2. exists q. rewrite P in E1. auto.
    + exfalso. apply in_concat in Ha as (l & Hl & Ha). apply in_map_iff in Hl as (e & <- & He). rewrite Forall_forall in Fe.
      destruct (Fe e He) as [_ _ Fl]. rewrite Forall_forall in Fl. destruct (Fl a Ha) as (_ & _ & _ & C). congruence.
  - intros q Hq Hl. assert (Hq' : In q (rows (start_filter (Some d) f))) by (apply start_filter_in; auto).
    apply (in_map (fun q => (place f q, r_y q))) in Hq'. rewrite <- Ea in Hq'. apply in_map_iff in Hq' as (a & Eq & Ha). injection Eq as E1 E2.
    rewrite Forall_forall in Fa. destruct (Fa a Ha) as (_ & _ & A). rewrite P in E1. exists a.
    split; [apply Hd; [exact A|]; rewrite Ed; apply in_app_iff; auto|auto].
Qed.
Print Assumptions C54_actuals.
(* every metadata row is that of a fit to samples from the start date on *)
Theorem C54_fitted : forall (T : Type) (N : NumOps T) (W : world T) c source f r d,
  has_date f = true -> c_start c = Some d -> run_forecast_single W (set_all true c) source f = Ok r ->
  exists (u act : frame T) w,
    (forall q, In q (rows u) -> exists q0, In q0 (rows f) /\ (d <= r_date q0)%Z /\ same_sample q q0) /\
    (forall m, In m (rs_meta r) -> exists k md, fit_model (w_env W) k u (detect_freq_frame f) source (Some act) (c_cache c) = Ok md /\
                                            reports w md (m_meta m)).
Proof.
  intros T N W c source f r d D Es E. destruct (single_result _ _ _ _ _ E) as (w & acts & fits & Ef & Ea & _).
  destruct (run_fits_inv _ _ _ _ _ _ _ Ef) as (f1 & range & mode & act & st & sp & x0 & Ep & _ & _ & _ & _ & _ & _ & _ & _ & _ & F).
  exists (positive (with_weights f1)), act, w. split.
  - intros q Hq. destruct (fitted_from c f f1 q Ep Hq) as (q0 & H0 & S0). rewrite Es in H0. apply start_filter_in in H0 as [H0 L0]; [|exact D].
    exists q0. auto.
  - intros m Hm. unfold assemble in Ea. injection Ea as _ Em. rewrite <- Em in Hm. apply in_map_iff in Hm as (p & <- & Hp).
    destruct (Forall2_in_r _ _ _ _ F Hp) as (k & _ & Ek). apply fit_one_contributes in Ek as (_ & Ek & _). exists k, (fst (fst p)). split; [exact Ek|apply weights_reports].
Qed.
Print Assumptions C54_fitted.
Theorem C54_ignored_without_dates : forall (T : Type) (N : NumOps T) (W : world T) c source f d, has_date f = false ->
  run_forecast_single W (set_start d c) source f = run_forecast_single W (set_start None c) source f.
Proof. exact @start_ignored. Qed.
Print Assumptions C54_ignored_without_dates.
Theorem C54_nothing_left : forall (T : Type) (N : NumOps T) (W : world T) c source f d,
  has_date f = true -> c_start c = Some d -> (forall q, In q (rows f) -> (r_date q < d)%Z) ->
  run_forecast_single W c source f = Err ValueError.
Proof. exact @start_error. Qed.
Print Assumptions C54_nothing_left.
Definition actuals_only (r : res (result float)) : res (list (Z * float)) :=
  rmap (fun r => map (fun d => ((d_date d - ts 2018 1 1) / DAY, d_y d)%Z) (filter (fun d => d_actual d) (rs_data r))) r.
Example C54_example :
  let N := fops in
  let W := ex_world (T := float) (LDone true 40%float [5%float]) (LDone true 1%float [2; 1]%float) in
  let run d := actuals_only (run_forecast_single W (set_start d (ex_cfg (T := float) [model_linear])) "s" (dated false ex_rows)) in
  run (Some (ts 2018 1 4)) = Ok [(3%Z, 7%float); (4%Z, 9%float); (5%Z, 11%float); (6%Z, 12%float); (7%Z, 15%float)] /\
  run None = Ok [(0%Z, 1%float); (1%Z, 3%float); (2%Z, 5%float); (3%Z, 7%float); (4%Z, 9%float); (5%Z, 11%float); (6%Z, 12%float); (7%Z, 15%float)] /\
  run (Some (ts 2019 1 1)) = Err ValueError.
Proof. vm_compute. repeat split; reflexivity. Qed.

(* ================= C57 ================= *)
(* [seen m z]: z, or z / 100 for the models named sigmoid and logistic.  [x_of t0 t]: days from the
   first sample at t0 (floored).  The x seen when fitting: *)
Theorem C57_fitting : forall (T : Type) (N : NumOps T) (m : fmodel T) (l : list (row T)),
  apply_a_x_scaling (map (fun r => nofZ (r_x r)) l) (Some m) = map (fun r => seen m (r_x r)) l.
Proof. exact @fit_seen. Qed.
Print Assumptions C57_fitting.
Theorem C57_composites : forall (T : Type) (N : NumOps T) sep op mode (m1 m2 : fmodel T) z, seen (combine_models sep op mode m1 m2) z = nofZ z.
Proof. exact @composite_not_scaled. Qed.
Print Assumptions C57_composites.
(* when extrapolating dates, unless the data is hourly and the first usable sample is not at the time
   of day of the first sample *)
Theorem C57_dates : forall (T : Type) (N : NumOps T) (m : fmodel T) (l : list (row T)) t0 start stop freq years x0 g t v,
  (forall q, In q l -> r_x q = x_of t0 (r_date q)) ->
  zmin_opt (map r_date l) = Some start -> zmin_opt (map r_x l) = Some x0 ->
  s_x_dates start stop (Some m) freq years x0 = Ok g -> In (t, v) g ->
  freq <> Some "H" \/ aligned start t0 -> v = seen m (x_of t0 t).
Proof. exact @extrapolation_x. Qed.
Print Assumptions C57_dates.
(* when extrapolating numbers the first x is added twice *)
Theorem C57_numbers : forall (T : Type) (N : NumOps T) (m : fmodel T) start stop years x0 i v,
  In (i, v) (s_x_numeric start stop (Some m) years x0) -> v = seen m (x0 + (i - start) + x0)%Z.
Proof. exact @extrapolation_x_numeric. Qed.
Print Assumptions C57_numbers.
Theorem C57_numbers_from_zero : forall (T : Type) (N : NumOps T) (m : fmodel T) stop years i v,
  In (i, v) (s_x_numeric 0 stop (Some m) years 0) -> v = seen m i.
Proof. intros T N m stop years i v I. apply extrapolation_x_numeric in I. subst v. f_equal. lia. Qed.
Print Assumptions C57_numbers_from_zero.
Example C57_example :
  let N := fops in
  let l := map (fun t => mkRow t "" (x_of (ts 2018 1 1) t) 0%float 1%float) (jan2018 5) in
  zmin_opt (map r_date (skipn 2 l)) = Some (ts 2018 1 3) /\ zmin_opt (map r_x (skipn 2 l)) = Some 2%Z /\
  s_x_dates (ts 2018 1 3) (ts 2018 1 5) (Some (model_sigmoid (T := float))) (Some "D") (2 # 365)%Q 2 =
    Ok (map (fun p => (ts 2018 1 (fst p), snd p)) [(3%Z, (2 / 100)%float); (4%Z, (3 / 100)%float); (5%Z, (4 / 100)%float); (6%Z, (5 / 100)%float); (7%Z, (6 / 100)%float)]) /\
  s_x_dates (ts 2018 1 3) (ts 2018 1 5) (Some (model_linear (T := float))) (Some "D") (2 # 365)%Q 2 =
    Ok (map (fun p => (ts 2018 1 (fst p), snd p)) [(3%Z, 2%float); (4%Z, 3%float); (5%Z, 4%float); (6%Z, 5%float); (7%Z, 6%float)]).
Proof. vm_compute. repeat split; reflexivity. Qed.
(* hourly samples from midnight, the first 12 of them ignored: 06:00 of the second day is at x = 1
   when fitting and at x = 0 when extrapolating *)
Example C57_hourly_refuted :
  let N := fops in
  let t0 := ts 2018 1 1 in let hour := (DAY / 24)%Z in
  x_of t0 (t0 + 30 * hour)%Z = 1%Z /\
  match s_x_dates (t0 + 12 * hour) (t0 + 40 * hour) (Some (model_linear (T := float))) (Some "H") (1 # 365)%Q (x_of t0 (t0 + 12 * hour)) with
  | Ok g => nth_error g 18 = Some ((t0 + 30 * hour)%Z, 0%float)
  | Err _ => False
  end.
Proof. vm_compute. repeat split; reflexivity. Qed.
(* samples at x = 10, 11, ...: the forecast at x = 12 is computed with 22 *)
Example C57_numbers_refuted :
  let N := fops in
  nth_error (s_x_numeric 10 14 (Some (model_linear (T := float))) (2 # 1)%Q 10) 2 = Some (12%Z, 22%float).
Proof. vm_compute. reflexivity. Qed.

(* ================= C58 ================= *)
(* [pinned b i]: lower and upper bound i coincide; [keeps_size E]: the optimizer returns as many
   values as it was given *)
Theorem C58_short : forall E (m : fmodel XR) f freq src act uc d b i, keeps_size E ->
  fit_model E m f freq src act uc = Ok d -> md_fit d = true ->
  fm_bounds m (Some (xs_of m f)) (Some (ys_of f)) (dates_of f) = Ok b ->
  length (b_lo b) = fm_n m -> length (b_hi b) = fm_n m -> pinned b i ->
  (length (md_params d) < fm_n m)%nat.
Proof. exact pinned_short. Qed.
Print Assumptions C58_short.
(* models that cannot be evaluated with too few parameters *)
Theorem C58_models : forall (T : Type) (N : NumOps T),
  rejects_short (T := T) model_linear /\ rejects_short (T := T) model_ramp /\ rejects_short (T := T) model_exp /\
  rejects_short (T := T) model_decay /\ rejects_short (T := T) model_step /\ rejects_short (T := T) model_sigmoid /\
  rejects_short (T := T) model_constant /\
  (forall sep op mode (m1 m2 : fmodel T), rejects_short m1 -> rejects_short m2 -> rejects_short (combine_models sep op mode m1 m2)).
Proof.
  intros T N. repeat split; intros.
  - apply rejects_linear. - apply rejects_ramp. - apply rejects_exp. - apply rejects_decay. - apply rejects_step. - apply rejects_sigmoid.
  - apply rejects_constant. - now apply rejects_composite.
Qed.
Print Assumptions C58_models.
(* such a candidate with a pinned parameter either is not fitted or its loop iteration raises *)
Theorem C58_candidate : forall W c source mode freq la (u : frame XR) act o x0 m b i,
  keeps_size (w_env W) -> rejects_short m ->
  fm_bounds m (Some (xs_of m u)) (Some (ys_of u)) (dates_of u) = Ok b ->
  length (b_lo b) = fm_n m -> length (b_hi b) = fm_n m -> pinned b i ->
  match fit_one W c source mode freq la u act o x0 m with
  | Ok (d, _, l) => md_fit d = false /\ l = []
  | Err _ => True
  end.
Proof. exact pinned_candidate_fails. Qed.
Print Assumptions C58_candidate.
(* a forecast that completes: metadata rows correspond to candidates, and those with a pinned
   parameter are not fitted *)
Theorem C58_forecast : forall W c source f r, keeps_size (w_env W) -> run_forecast_single W (set_all true c) source f = Ok r ->
  exists (f1 : frame XR) mode, prepared c f = Ok f1 /\ final_mode W c (with_weights f1) = Ok mode /\
    let u := positive (with_weights f1) in let lists := candidate_lists c (with_weights f1) in
    Forall2 (fun m mr => forall b i, rejects_short m -> fm_bounds m (Some (xs_of m u)) (Some (ys_of u)) (dates_of u) = Ok b ->
                       length (b_lo b) = fm_n m -> length (b_hi b) = fm_n m -> pinned b i -> md_fit (m_meta mr) = false)
      (all_models c mode (detect_freq_frame f) (fst lists) (snd lists)) (rs_meta r).
Proof.
  intros W c source f r K E. destruct (single_result _ _ _ _ _ E) as (w & acts & fits & Ef & Ea & _).
  destruct (run_fits_inv _ _ _ _ _ _ _ Ef) as (f1 & range & mode & act & st & sp & x0 & Ep & _ & _ & _ & Em & _ & _ & _ & _ & _ & F).
  exists f1, mode. split; [exact Ep|]. split; [exact Em|]. cbv zeta. unfold assemble in Ea. injection Ea as _ Er. rewrite <- Er.
  remember (best_fit W (map (fun p => fst (fst p)) fits)) as bf eqn:Eb. clear Eb Er Ef E. induction F as [|m p l l' Hp F IH]; [constructor|].
  cbn [map]. constructor; [|exact IH]. intros b i Rj Bd L1 L2 Pn.
  pose proof (pinned_candidate_fails W c source mode (detect_freq_frame f) (fst (candidate_lists c (with_weights f1))) (positive (with_weights f1)) act
                (start_of f st sp) x0 m b i K Rj Bd L1 L2 Pn) as Q.
  rewrite Hp in Q. destruct p as [[d n] rows']. exact (proj1 Q).
Qed.
Print Assumptions C58_forecast.
(* a linear model with the slope pinned to 2 by equal bounds in an array *)
Definition linear_slope2 {T} `{NumOps T} : fmodel T :=
  mkModel "linear2" (fm_n model_linear) (fm_f model_linear) (fm_init model_linear)
    (fun _ _ _ => Ok (mkBounds [nofZ 2; nninf] [nofZ 2; npinf] true)) (fm_val model_linear) (fm_cvars model_linear) (fm_dcache model_linear).
Example C58_example :
  let N := fops in
  (* the offset is found, then the slope is missing when extrapolating *)
  show_meta (run_forecast_single (ex_world (LDone true 1 [1]) (LDone true 1 [2; 1]))%float (ex_cfg [linear_slope2]) "s" (dated false ex_rows)) =
    Err ValueError /\
  (* the fit fails: no forecast, no error *)
  show_meta (run_forecast_single (ex_world (LDone false 1 [1]) (LDone true 1 [2; 1]))%float (ex_cfg [linear_slope2]) "s" (dated false ex_rows)) =
    Ok [("linear2_fixed_[..]", false, false)] /\
  (* the same model without pinning *)
  show_meta (run_forecast_single (ex_world (LDone true 1 [1]) (LDone true 1 [2; 1]))%float (ex_cfg [model_linear]) "s" (dated false ex_rows)) =
    Ok [("linear", true, true)].
Proof. vm_compute. repeat split; reflexivity. Qed.
Example C58_hypotheses : let m := linear_slope2 (T := XR) in
  rejects_short m /\ (forall x y d, exists b, fm_bounds m x y d = Ok b /\ length (b_lo b) = fm_n m /\ length (b_hi b) = fm_n m /\ pinned b 0) /\
  keeps_size (mkEnv (T := XR) (fun _ g _ => LDone true n1 (map (fun _ => n1) g)) (fun _ => n0) (fun _ => "") (fun _ => "")).
Proof.
  split; [exact (rejects_linear (T := XR))|split].
  - intros x y d. eexists. split; [reflexivity|]. cbn. repeat split. exists (Fin 2), (Fin 2). cbn. repeat split.
    unfold Reqb. destruct (Req_EM_T (2 + - (2)) 0) as [|K]; [reflexivity|exfalso; apply K; lra].
  - intros f g b s c x E. cbn in E. injection E as <- <- <-. now rewrite map_length.
Qed.
