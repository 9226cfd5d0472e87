(* Tables of several series in units and with weights of their own: C73, C81; the decay model: C06. *)
From Coq Require Import ZArith String List Bool Reals PrimFloat Sorted Permutation Lia Lra QArith_base.
From Verif Require Import Num Py Cal Fmt Model Base Naive Freq Normalize Aic Fixed Fit Interp Stats Select Outliers Pi Forecast.
From Verif Require Import ListProofs NumProofs AicProofs ModelProofs BaseProofs FixedProofs GuessProofs FitProofs SelectProofs SeasonProofs StatsProofs ForecastProofs ForecastProofs2 ExtendProofs MetaProofs LsqProofs OutlierReals RobustProofs TotalProofs TotalProofs2 TotalProofs3 UniqueProofs ScaleProofs Ex Properties7 Properties9 Properties11 Properties13 WeightProofs NormalizeProofs SourceProofs PartProofs Properties14 Properties21 Properties37.
Import ListNotations.
Local Open Scope string_scope.
Local Open Scope list_scope.

(* ================= C73 ================= *)
(* [change_raw (revalued_by g) t]: the table with the values v of series s replaced by g s v *)
Definition revalued_by {T} (g : string -> T -> T) (r : row T) : row T := set_y r (g (r_src r) (r_y r)).
Lemma revalued_series {T} (g : string -> T -> T) (f : frame T) s : change_rows (revalued_by g) (series_of f s) = map_y (g s) (series_of f s).
Proof.
  unfold change_rows, map_y. f_equal. apply map_ext_in. intros r I. cbn in I. apply filter_In in I as [_ I]. apply String.eqb_eq in I. unfold revalued_by. now rewrite I.
Qed.
(* The forecast of a table whose series are given in units of their own is, for every series, the forecast
   of that series in its unit: the other series and their units do not matter. *)
Theorem C73_tables : forall (T : Type) (N : NumOps T) (g : string -> T -> T) (W : string -> world T) c id t f r s,
  t_src t = true -> normalize_df t = Ok (Some f) -> run_forecast W c id (change_raw (revalued_by g) t) = Ok (Some r) -> In s (sorted_sources t) ->
  run_forecast_single (W s) c s (map_y (g s) (series_of f s)) = Ok (part s r).
Proof.
  intros T N g W c id t f r s Hs En Er Hi. rewrite <- revalued_series. now apply (part_change (revalued_by g)) with (id := id) (t := t).
Qed.
Print Assumptions C73_tables.
(* With [C73_forecast]: the rows of every series that meets its conditions are the rows in the old unit,
   converted. *)
Theorem C73_sources : forall (k h : string -> R) W W' c id t f r r' s,
  let unit s y := nadd (nmul y (Fin (k s))) (Fin (h s)) in
  t_src t = true -> normalize_df t = Ok (Some f) -> In s (sorted_sources t) ->
  run_forecast W c id t = Ok (Some r) -> run_forecast W' c id (change_raw (revalued_by unit) t) = Ok (Some r') ->
  forall f1 mode act w acts fits, (0 < k s)%R -> has_date f = true ->
  e_num (w_env (W' s)) = e_num (w_env (W s)) -> w_draw (W' s) = w_draw (W s) -> sorts (W s) -> sorts (W' s) ->
  prepared c (series_of f s) = Ok f1 -> final_mode (W s) c (with_weights f1) = Ok mode ->
  (Forecast.c_mode c = "auto" ->
     h s = 0%R /\ finite_rows (with_weights f1) /\ Forall (fun r => finite_or_null (r_y r)) (rows f1) /\ line_settled (k s) (w_env (W s)) (w_env (W' s)) (with_weights f1)) ->
  model_actuals (series_of f s) (to_fit f1) = Ok act -> finite_rows (to_fit f1) ->
  (forall m, In m (all_models c mode (detect_freq_frame (series_of f s)) (fst (candidate_lists c (with_weights f1))) (snd (candidate_lists c (with_weights f1)))) ->
     convertible (k s) (h s) (w_env (W s)) (w_env (W' s)) (to_fit f1) act m) ->
  run_fits (W s) c s (series_of f s) = Ok (w, acts, fits) ->
  (forall p, In p fits -> md_fit (fst (fst p)) = true -> exists q, (0 < q)%R /\ md_cost (fst (fst p)) = Fin q) ->
  (forall p q, In p fits -> In q fits -> md_fit (fst (fst p)) = true -> md_fit (fst (fst q)) = true ->
     md_aicc (fst (fst p)) = md_aicc (fst (fst q)) -> md_model (fst (fst p)) = md_model (fst (fst q))) ->
  rs_forecast (part s r') = map (spr (k s) (h s)) (rs_forecast (part s r)) /\ rs_data (part s r') = map (sd (k s) (h s)) (rs_data (part s r)) /\
  Forall2 (same_row (k s) (length (usable_rows (to_fit f1)))) (rs_meta (part s r)) (rs_meta (part s r')).
Proof.
  intros k h W W' c id t f r r' s unit Hs En Hi Er Er' f1 mode act w acts fits Hk Hd Nu Dr So So' Ep Em Au Ea Fi Cv Ef Pos Tie.
  apply (C73_forecast (k s) (h s) Hk (W s) (W' s) c s (series_of f s) f1 mode act w acts fits); try assumption.
  - exact (C43_single _ _ W c id t f r s Hs En Er Hi).
  - exact (C73_tables _ _ unit W' c id t f r' s Hs En Er' Hi).
Qed.
Print Assumptions C73_sources.

(* ================= C81 ================= *)
Definition reweighted_by {T} (g : string -> T -> T) (r : row T) : row T := set_w r (g (r_src r) (r_w r)).
Definition map_w {T} (g : T -> T) (f : frame T) : frame T := mkFrame (has_date f) (has_src f) (has_w f) (map (fun r => set_w r (g (r_w r))) (rows f)).
Lemma reweighted_series {T} (g : string -> T -> T) (f : frame T) s : change_rows (reweighted_by g) (series_of f s) = map_w (g s) (series_of f s).
Proof.
  unfold change_rows, map_w. f_equal. apply map_ext_in. intros r I. cbn in I. apply filter_In in I as [_ I]. apply String.eqb_eq in I. unfold reweighted_by. now rewrite I.
Qed.
Theorem C81_tables : forall (T : Type) (N : NumOps T) (g : string -> T -> T) (W : string -> world T) c id t f r s,
  t_src t = true -> normalize_df t = Ok (Some f) -> run_forecast W c id (change_raw (reweighted_by g) t) = Ok (Some r) -> In s (sorted_sources t) ->
  run_forecast_single (W s) c s (map_w (g s) (series_of f s)) = Ok (part s r).
Proof.
  intros T N g W c id t f r s Hs En Er Hi. rewrite <- reweighted_series. now apply (part_change (reweighted_by g)) with (id := id) (t := t).
Qed.
Print Assumptions C81_tables.
(* With [C81_forecast]: only the ratios of the weights within a series matter, not those between series. *)
Theorem C81_sources : forall (k : string -> R) W W' c id t (f : frame XR) r r' s,
  t_src t = true -> normalize_df t = Ok (Some f) -> In s (sorted_sources t) ->
  run_forecast W c id t = Ok (Some r) -> run_forecast W' c id (change_raw (reweighted_by (fun s => nmul (Fin (k s)))) t) = Ok (Some r') ->
  forall f1 mode act w acts fits, (0 < k s)%R -> has_date f = true -> has_w f = true ->
  e_num (w_env (W' s)) = e_num (w_env (W s)) -> w_draw (W' s) = w_draw (W s) -> sorts (W s) -> sorts (W' s) ->
  prepared c (series_of f s) = Ok f1 -> final_mode (W s) c (with_weights f1) = Ok mode ->
  (Forecast.c_mode c = "auto" -> settled_fit (k s) (w_env (W s)) (w_env (W' s)) (with_weights f1) None true model_linear) ->
  model_actuals (series_of f s) (to_fit f1) = Ok act ->
  (forall m, In m (all_models c mode (detect_freq_frame (series_of f s)) (fst (candidate_lists c (with_weights f1))) (snd (candidate_lists c (with_weights f1)))) ->
     settled_fit (k s) (w_env (W s)) (w_env (W' s)) (to_fit f1) (Some act) (c_cache c) m /\ fm_name m <> "actuals") ->
  run_fits (W s) c s (series_of f s) = Ok (w, acts, fits) -> told_apart fits ->
  rs_forecast (part s r') = rs_forecast (part s r) /\ (exists La Lf, rs_data (part s r') = map (wd (k s) La Lf) (rs_data (part s r))) /\
  Forall2 (same_choice (k s) (length (usable_rows (to_fit f1)))) (rs_meta (part s r)) (rs_meta (part s r')).
Proof.
  intros k W W' c id t f r r' s Hs En Hi Er Er' f1 mode act w acts fits Hk Hd Hw Nu Dr So So' Ep Em Au Ea Cv Ef Ta.
  apply (C81_forecast (k s) Hk (W s) (W' s) c s (series_of f s) f1 mode act w acts fits); try assumption.
  - exact (C43_single _ _ W c id t f r s Hs En Er Hi).
  - exact (C81_tables _ _ (fun s => nmul (Fin (k s))) W' c id t f r' s Hs En Er' Hi).
Qed.
Print Assumptions C81_sources.

(* two series with interleaved rows, the first in halves and the second in quarters of the unit *)
Definition c73_two (g : string -> float -> float) (u : string -> float -> float) : raw float :=
  change_raw (revalued_by g) (change_raw (reweighted_by u)
    (mkTable true true false true true false
      (map (fun p => mkRaw 0 (mkRow (ts 2018 1 (1 + fst (fst p))) (snd (fst p)) 0 (nofZ (NumOps := fops) (snd p)) 1%float))
        [(0, "b", 1); (0, "a", 2); (1, "b", 3); (1, "a", 2); (2, "a", 7); (2, "b", 5); (3, "b", 8); (3, "a", 4)]%Z))).
Definition c73_out (s : string) (t : raw float) :=
  let N := fops in
  match run_forecast (fun _ => ex_world (LRaise LinAlgError) (LRaise LinAlgError)) (c73_cfg [model_naive]) "id" t with
  | Ok (Some r) => Some (map (fun q => (p_date q, p_actual q, p_y q, p_q q)) (rs_forecast (part s r)))
  | _ => None
  end.
Definition c73_times (k : float) (o : option (list (Z * bool * float * list (Z * float)))) :=
  option_map (map (fun q => (fst (fst (fst q)), snd (fst (fst q)), (snd (fst q) * k)%float, map (fun p => (fst p, (snd p * k)%float)) (snd q)))) o.
Example C73_sources_example :
  let same (_ : string) (a : float) := a in
  let t := c73_two same same in
  let t' := c73_two (fun s a => if String.eqb s "a" then a * 2 else a * 4)%float same in
  let t'' := c73_two same (fun s a => if String.eqb s "a" then a * 2 else a * 4)%float in
  c73_out "a" t' = c73_times 2 (c73_out "a" t) /\ c73_out "b" t' = c73_times 4 (c73_out "b" t) /\
  c73_out "a" t'' = c73_out "a" t /\ c73_out "b" t'' = c73_out "b" t /\
  option_map (@length _) (c73_out "a" t) = Some 11%nat.
Proof. cbv zeta. repeat split; vm_compute; reflexivity. Qed.

(* ================= C06 ================= *)
(* The decay model accepts a series iff all its values are positive; a null value is not. *)
Theorem C06_decay : forall (T : Type) (N : NumOps T) xs ys d,
  (validate_input model_decay xs ys d = Ok true <-> Forall (fun y => nltb n0 y = true) ys) /\
  (validate_input model_decay xs ys d = Ok false <-> Exists (fun y => nltb n0 y = false) ys).
Proof.
  intros T N xs ys d. assert (E : validate_input model_decay xs ys d = Ok (forallb (fun y => nltb n0 y) ys)).
  { unfold validate_input, model_decay, val_decay, mk_model. cbn. destruct (forallb _ ys); reflexivity. }
  rewrite E. split; split; intros K.
  - injection K as K. apply Forall_forall. now apply forallb_forall.
  - f_equal. apply forallb_forall. now apply Forall_forall.
  - injection K as K. clear E. induction ys as [|y ys IH]; [discriminate|]. cbn in K. destruct (nltb n0 y) eqn:Ey; [right; now apply IH|now left].
  - f_equal. clear E. induction K as [y ys Ey|y ys _ IH]; cbn; [now rewrite Ey|rewrite IH; apply andb_false_r].
Qed.
Print Assumptions C06_decay.
Theorem C06_decay_reals : forall xs (ys : list XR) d, Forall finite_or_null ys ->
  (validate_input model_decay xs ys d = Ok true <-> Forall (fun y => exists r, y = Fin r /\ (0 < r)%R) ys).
Proof.
  intros xs ys d F. rewrite (proj1 (C06_decay XR _ xs ys d)). split; intros K; rewrite Forall_forall in *.
  - intros y I. specialize (K y I). destruct (F y I) as [->|[r ->]]; [discriminate K|].
    exists r. split; [reflexivity|]. cbn in K. now destruct (Rltb_spec 0 r).
  - intros y I. destruct (K y I) as (r & -> & P). cbn. destruct (Rltb_spec 0 r); [reflexivity|contradiction].
Qed.
Print Assumptions C06_decay_reals.
Example C06_decay_example :
  let N := fops in
  map (fun ys => validate_input model_decay [0; 1; 2]%float ys None) [[4; 2; 1]; [4; 0; 1]; [4; -1; 1]; [4; nan; 1]]%float =
  [Ok true; Ok false; Ok false; Ok false].
Proof. vm_compute. reflexivity. Qed.
