(* Values of samples with weight zero do not matter (C89). *)
From Coq Require Import ZArith String List Bool QArith_base Lia Permutation.
From Verif Require Import Num Py Cal Fmt Model ModelProofs ListProofs Base Dummy Fixed Naive Freq Normalize Aic Fit Interp Select Stats Outliers Pi Forecast.
From Verif Require Import InterpProofs NormalizeProofs ForecastProofs ForecastProofs2 ShiftProofs CacheRunProofs RenameProofs.
Import ListNotations.
Local Open Scope string_scope.
Local Open Scope list_scope.
Local Open Scope Z_scope.

Section Ignored.
  Context {T : Type} {N : NumOps T}.
  (* a sample counts if its weight is positive *)
  Definition counts (w : T) : bool := nltb n0 w.
  (* the row without its value, if it does not count *)
  Definition hide (r : row T) : row T := if counts (r_w r) then r else mkRow (r_date r) (r_src r) (r_x r) nnan (r_w r).
  Definition hide_frame (f : frame T) : frame T := if has_w f then with_rows f (map hide (rows f)) else f.
  Definition hide_raw (t : raw T) : raw T :=
    if t_w t then mkTable (t_y t) (t_w t) (t_x t) (t_date t) (t_src t) (t_dtindex t) (map (fun q => mkRaw (q_idx q) (hide (q_row q))) (t_rows t)) else t.
  (* rows of the tables of results *)
  Definition hide_data (d : drow T) : drow T :=
    if d_actual d && negb (counts (d_w d)) then mkD (d_date d) (d_w d) nnan (d_model d) (d_src d) (d_long d) (d_actual d) (d_best d) else d.
  (* what a result tells besides the values that do not count: forecasts with their intervals, both
     tables, the metadata *)
  Definition view (r : result T) : list (prow T) * list (drow T) * list (mrow T) :=
    (filter (fun p => negb (p_actual p)) (rs_forecast r), map hide_data (rs_data r), rs_meta r).
  (* samples that count and samples that do not are at different places *)
  Definition apart (f : frame T) : Prop := forall a b, In a (rows f) -> In b (rows f) -> counts (r_w a) = true -> counts (r_w b) = false ->
    r_x a <> r_x b /\ place f a <> place f b.
  Definition exact_x (f : frame T) : Prop := forall r, In r (rows f) -> exact_int (T := T) (r_x r).

  Lemma hide_date r : r_date (hide r) = r_date r. Proof. unfold hide. now destruct (counts _). Qed.
  Lemma hide_src r : r_src (hide r) = r_src r. Proof. unfold hide. now destruct (counts _). Qed.
  Lemma hide_x r : r_x (hide r) = r_x r. Proof. unfold hide. now destruct (counts _). Qed.
  Lemma hide_w r : r_w (hide r) = r_w r. Proof. unfold hide. now destruct (counts _). Qed.
  Lemma hide_idem r : hide (hide r) = hide r. Proof. unfold hide. destruct (counts (r_w r)) eqn:E; cbn; now rewrite E. Qed.
  Lemma dates_hide l : map r_date (map hide l) = map r_date l. Proof. rewrite map_map. apply map_ext, hide_date. Qed.
  Lemma xs_hide l : map r_x (map hide l) = map r_x l. Proof. rewrite map_map. apply map_ext, hide_x. Qed.
  Lemma ws_hide l : map r_w (map hide l) = map r_w l. Proof. rewrite map_map. apply map_ext, hide_w. Qed.
  Lemma counted_hide l : filter (fun r => nltb n0 (r_w r)) (map hide l) = filter (fun r => nltb n0 (r_w r)) l.
  Proof.
    induction l as [|r l IH]; [reflexivity|]. cbn [map filter]. rewrite hide_w, IH. unfold hide, counts. now destruct (nltb n0 (r_w r)).
  Qed.

  Section Frame.
  (* frames with a weight column *)
  Notation hf f := (with_rows f (map hide (rows f))).
  Lemma place_hf f l : map (place (hf f)) (map hide l) = map (place f) l.
  Proof. rewrite map_map. apply map_ext. intros r. unfold place. cbn [with_rows has_date]. now rewrite hide_date, hide_x. Qed.
  Lemma detect_hf f : detect_freq_frame (hf f) = detect_freq_frame f.
  Proof. unfold detect_freq_frame. cbn [with_rows has_date rows]. now rewrite dates_hide. Qed.
  Lemma start_hf d f : start_filter d (hf f) = hf (start_filter d f).
  Proof.
    destruct d as [d|]; [|reflexivity]. unfold start_filter. cbn [with_rows has_date]. destruct (has_date f) eqn:D; [|reflexivity]. unfold with_rows. cbn [has_date has_src has_w rows]. rewrite ?D. f_equal.
    apply filter_maps. intros r. now rewrite hide_date.
  Qed.
  Lemma range_hf f : input_range (hf f) = input_range f.
  Proof. unfold input_range. cbn [rows with_rows]. change (mkFrame (has_date f) (has_src f) (has_w f) (map hide (rows f))) with (hf f). rewrite place_hf. reflexivity. Qed.
  Lemma input_weights_hf E f : input_weights E (hf f) = input_weights E f.
  Proof. unfold input_weights. cbn [with_rows has_w rows]. now rewrite ws_hide. Qed.
  Lemma weighted_hf f : has_w f = true -> weighted_dates (hf f) = weighted_dates f.
  Proof. intros W. unfold weighted_dates. cbn [with_rows has_w rows]. rewrite W. now rewrite counted_hide. Qed.
  Lemma candidates_hf c f : has_w f = true -> candidate_lists c (hf f) = candidate_lists c f.
  Proof. intros W. unfold candidate_lists, default_trend, use_ramp, use_calendar. change (has_date (hf f)) with (has_date f). now rewrite weighted_hf. Qed.
  Lemma positive_hf f : positive (hf f) = positive f.
  Proof. unfold positive, with_rows. cbn [has_date has_src has_w rows]. now rewrite counted_hide. Qed.
  Lemma actuals_hf f s l : actuals_clean (hf f) s l = map hide_data (actuals_clean f s l).
  Proof.
    unfold actuals_clean. cbn [with_rows rows]. rewrite !map_map. apply map_ext. intros r. unfold hide_data. cbn [d_actual d_w andb d_date d_model d_src d_long d_best].
    unfold place. cbn [has_date]. rewrite hide_date, hide_x, hide_w. unfold hide. destruct (counts (r_w r)); reflexivity.
  Qed.

  Lemma lookup_hide key rs t : (forall r, key (hide r) = key r) -> Interp.lookup key (map hide rs) t = option_map hide (Interp.lookup key rs t).
  Proof. intros K. apply find_map. intros r. now rewrite K. Qed.
  Lemma column_hide (get : row T -> T) key rs grid : (forall r, key (hide r) = key r) -> (forall r, get (hide r) = get r) ->
    Interp.column get (map (Interp.lookup key (map hide rs)) grid) = Interp.column get (map (Interp.lookup key rs) grid).
  Proof. intros K E. unfold Interp.column. rewrite !map_map. apply map_ext. intros t. rewrite lookup_hide by exact K. destruct (Interp.lookup key rs t); [apply E|reflexivity]. Qed.
  Lemma src_column_hide key rs grid : (forall r, key (hide r) = key r) ->
    src_column (map (Interp.lookup key (map hide rs)) grid) = src_column (map (Interp.lookup key rs) grid).
  Proof. intros K. unfold src_column. rewrite !map_map. apply map_ext. intros t. rewrite lookup_hide by exact K. destruct (Interp.lookup key rs t); [apply hide_src|reflexivity]. Qed.
  (* rows of the filled table, the value missing where the weight does not count *)
  Lemma mk_rows_hide ds ss xs found : 
    mk_rows ds ss xs (Interp.column r_y (map (option_map hide) found)) (Interp.column r_w found) = map hide (mk_rows ds ss xs (Interp.column r_y found) (Interp.column r_w found)).
  Proof.
    unfold mk_rows, Interp.column. revert ss xs found. induction ds as [|d ds IH]; intros [|u ss] [|x xs] [|o found]; try reflexivity. cbn [map combine]. f_equal; [|apply IH].
    destruct o as [r|]; cbn [option_map].
    - unfold hide. cbn [r_w r_date r_src r_x r_y]. destruct (counts (r_w r)); reflexivity.
    - unfold hide. cbn [r_w]. now destruct (counts nnan).
  Qed.
  Lemma interpolate_hf f : interpolate_df false (hf f) = Py.rmap (fun g => hf g) (interpolate_df false f).
  Proof.
    unfold interpolate_df. change (has_date (hf f)) with (has_date f). change (has_src (hf f)) with (has_src f). change (has_w (hf f)) with (has_w f). change (rows (hf f)) with (map hide (rows f)).
    rewrite xs_hide, dates_hide. destruct (negb (has_date f)).
    - destruct (regular (map r_x (rows f))); [reflexivity|]. destruct (has_dup Z.eqb (map r_x (rows f))); [reflexivity|].
      destruct (zmin_opt (map r_x (rows f))) as [lo|], (zmax_opt (map r_x (rows f))) as [hi|]; try reflexivity. cbn [Py.rmap rbind]. unfold with_rows. cbn [has_date has_src has_w rows].
      rewrite (column_hide r_w r_x) by (apply hide_x || apply hide_w). rewrite src_column_hide by apply hide_x. do 2 f_equal. rewrite <- mk_rows_hide. f_equal.
      + rewrite !map_map. apply map_ext. intros t. rewrite lookup_hide by apply hide_x. destruct (Interp.lookup r_x (rows f) t); [apply hide_date|reflexivity].
      + f_equal. rewrite map_map. apply map_ext. intros t. apply lookup_hide, hide_x.
    - match goal with |- context [if ?b then Ok _ else _] => destruct b end; [reflexivity|]. destruct (has_dup Z.eqb (map r_date (rows f))); [reflexivity|].
      destruct (zmin_opt (map r_date (rows f))) as [lo|], (zmax_opt (map r_date (rows f))) as [hi|]; try reflexivity.
      destruct (asfreq_range lo hi (detect_freq (map r_date (rows f)))) as [grid|e]; cbn [Py.rmap rbind]; [|reflexivity].
      rewrite (column_hide (fun r => nofZ (r_x r)) r_date) by (apply hide_date || (intros r; now rewrite hide_x)). rewrite (column_hide r_w r_date) by (apply hide_date || apply hide_w).
      rewrite src_column_hide by apply hide_date.
      destruct (to_ints _) as [xs|e]; cbn [Py.rmap rbind]; [|reflexivity]. unfold with_rows. cbn [has_date has_src has_w rows]. do 2 f_equal. rewrite <- mk_rows_hide. f_equal.
      f_equal. rewrite map_map. apply map_ext. intros t. apply lookup_hide, hide_date.
  Qed.
  Lemma model_actuals_hf f u : zero_not_positive (T := T) -> exact_x f -> (forall r k, In r (rows f) -> In k (rows u) -> counts (r_w r) = false -> r_x k <> r_x r) ->
    model_actuals (hf f) u = model_actuals f u.
  Proof.
    intros Z X A. unfold model_actuals. rewrite interpolate_hf. destruct (interpolate_df false f) as [g|e] eqn:Eg; cbn [Py.rmap rbind]; [|reflexivity]. f_equal. f_equal.
    cbn [rows with_rows]. rewrite (isort_map hide _ (fun a b => r_x a <=? r_x b)) by (intros a b; now rewrite !hide_x).
    match goal with |- flat_map ?F _ = _ => set (G := F) end.
    assert (Q : forall l, (forall r, In r l -> In r (rows g)) -> flat_map G (map hide l) = flat_map G l).
    { induction l as [|r l IH]; intros Il; [reflexivity|]. change (G (hide r) ++ flat_map G (map hide l) = G r ++ flat_map G l). rewrite IH by (intros q Iq; apply Il; now right). f_equal.
      unfold G. rewrite hide_date, hide_src, hide_x.
      destruct (filter (fun u0 => r_x u0 =? r_x r) (rows u)) as [|k ks] eqn:Ek.
      - cbn [map]. do 2 f_equal. cbv zeta. unfold zero_not_positive in Z. destruct (nisnan n0); now rewrite Z.
      - destruct (counts (r_w r)) eqn:Cr; [unfold hide; now rewrite Cr|]. assert (Y : r_y r = nnan); [|apply map_ext; intros w; cbv zeta; unfold hide; rewrite Cr; cbn [r_y]; now rewrite Y].
        destruct (interpolated_rows f g r X Eg (Il r (or_introl eq_refl))) as [I|Y]; [exfalso|exact Y].
        assert (Ik : In k (filter (fun u0 => r_x u0 =? r_x r) (rows u))) by (rewrite Ek; now left). apply filter_In in Ik as [Ik Exk]. apply Z.eqb_eq in Exk.
        exact (A r k I Ik Cr Exk). }
    apply Q. intros r Ir. now apply isort_in in Ir.
  Qed.
  Lemma run_fits_hf W c s f : zero_not_positive (T := T) -> exact_x f -> apart f -> has_w f = true -> c_outliers c = false -> Forecast.c_mode c <> "auto" ->
    run_fits W c s (hf f) = Py.rmap (fun p => (fst (fst p), map hide_data (snd (fst p)), snd p)) (run_fits W c s f).
  Proof.
    intros Z X A Hw Ho Hm. unfold run_fits, prepared. rewrite detect_hf, Ho, start_hf. cbn [rbind]. set (f1 := start_filter (c_start c) f).
    assert (W1 : has_w f1 = true) by (unfold f1, start_filter; destruct (c_start c); [destruct (has_date f); exact Hw|exact Hw]).
    assert (D1 : has_date f1 = has_date f) by (unfold f1, start_filter; destruct (c_start c); [destruct (has_date f) eqn:D; cbn; now rewrite ?D|reflexivity]).
    assert (R1 : forall r, In r (rows f1) -> In r (rows f)).
    { unfold f1, start_filter. intros r. destruct (c_start c); [destruct (has_date f)|]; auto. cbn [with_rows rows]. intros I. now apply filter_In in I. }
    assert (Ew : with_weights f1 = f1) by (unfold with_weights; now rewrite W1).
    assert (Ew' : with_weights (hf f1) = hf f1) by (unfold with_weights; cbn [with_rows has_w]; now rewrite W1).
    rewrite input_weights_hf, Ew, Ew', range_hf. destruct (input_range f1) as [rg|e]; cbn [Py.rmap rbind]; [|reflexivity].
    rewrite candidates_hf by exact W1. destruct (candidate_lists c f1) as [add mult].
    assert (Fm : final_mode W c (hf f1) = final_mode W c f1) by (unfold final_mode; apply String.eqb_neq in Hm; now rewrite Hm). rewrite Fm.
    destruct (final_mode W c f1) as [mode|e]; cbn [Py.rmap rbind]; [|reflexivity]. rewrite positive_hf, model_actuals_hf; auto.
    2:{ intros r k Ir Ik Cr. unfold positive in Ik. cbn [with_rows rows] in Ik. apply filter_In in Ik as [Ik Ck]. exact (proj1 (A k r (R1 k Ik) Ir Ck Cr)). }
    destruct (model_actuals f (positive f1)) as [act|e]; cbn [Py.rmap rbind]; [|reflexivity].
    destruct (zmin_opt (map (place (positive f1)) (rows (positive f1)))) as [st|]; [|reflexivity].
    change (rows (hf f1)) with (map hide (rows f1)). rewrite place_hf.
    destruct (zmax_opt (map (place f1) (rows f1))) as [sp|]; [|reflexivity].
    destruct (zmin_opt (map r_x (rows (positive f1)))) as [x0|]; [|reflexivity]. destruct (all_models c mode (detect_freq_frame f) add mult) as [|m0 ms]; [reflexivity|].
    change (has_date (hf f)) with (has_date f). destruct (rmapM _ _) as [fits|e]; cbn [Py.rmap rbind]; [|reflexivity]. cbn [fst snd]. do 3 f_equal. apply actuals_hf.
  Qed.
  End Frame.

  (* ---- prediction intervals ---- *)
  Definition apart_data (l : list (drow T)) : Prop := forall a b, In a l -> In b l -> d_actual a = true -> d_actual b = true ->
    counts (d_w a) = true -> counts (d_w b) = false -> d_date a <> d_date b.
  Lemma hd_date d : d_date (hide_data d) = d_date d. Proof. unfold hide_data. now destruct (_ && _). Qed.
  Lemma hd_w d : d_w (hide_data d) = d_w d. Proof. unfold hide_data. now destruct (_ && _). Qed.
  Lemma hd_src d : d_src (hide_data d) = d_src d. Proof. unfold hide_data. now destruct (_ && _). Qed.
  Lemma hd_actual d : d_actual (hide_data d) = d_actual d. Proof. unfold hide_data. now destruct (_ && _). Qed.
  Lemma hd_best d : d_best (hide_data d) = d_best d. Proof. unfold hide_data. now destruct (_ && _). Qed.
  Lemma hd_forecast d : d_actual d = false -> hide_data d = d. Proof. intros E. unfold hide_data. now rewrite E. Qed.
  (* rows of the forecast are as they were *)
  Lemma forecasts_hd (h : drow T -> bool) l : filter (fun r => negb (d_actual r) && h r) (map hide_data l) = filter (fun r => negb (d_actual r) && h r) l.
  Proof.
    induction l as [|d l IH]; [reflexivity|]. cbn [map filter]. rewrite hd_actual, IH. destruct (d_actual d) eqn:A; [reflexivity|]. now rewrite hd_forecast.
  Qed.
  Lemma usable_hd l : apart_data l -> usable_actuals (map hide_data l) = usable_actuals l.
  Proof.
    intros A. unfold usable_actuals. rewrite (filter_maps hide_data _ (fun r => nltb n0 (d_w r) && d_actual r)) by (intros r; now rewrite hd_w, hd_actual).
    rewrite map_map. rewrite (map_ext (fun x => d_date (hide_data x)) d_date) by (intros r; apply hd_date). set (ds := map d_date _).
    assert (K : forall b, In b l -> hide_data b = b \/ (d_actual b = true /\ filter (Z.eqb (d_date b)) ds = [])).
    { intros b Ib. destruct (d_actual b) eqn:Ab; [|left; now apply hd_forecast]. destruct (counts (d_w b)) eqn:Cb; [left; unfold hide_data; now rewrite Ab, Cb|right]. split; [reflexivity|].
      destruct (filter (Z.eqb (d_date b)) ds) as [|z zs] eqn:Ez; [reflexivity|exfalso].
      assert (Iz : In z (filter (Z.eqb (d_date b)) ds)) by (rewrite Ez; now left). apply filter_In in Iz as [Iz Eq]. apply Z.eqb_eq in Eq. unfold ds in Iz. apply in_map_iff in Iz as (a & Ea & Ia).
      apply filter_In in Ia as [Ia Ca]. apply andb_true_iff in Ca as [Ca Aa]. apply (A a b Ia Ib Aa Ab Ca Cb). congruence. }
    clearbody ds. clear A. induction l as [|b l IH]; [reflexivity|]. cbn [map filter]. rewrite hd_actual.
    specialize (IH (fun x Ix => K x (or_intror Ix))). destruct (K b (or_introl eq_refl)) as [->|[Ab E]].
    - destruct (d_actual b && with_value b); [|exact IH]. cbn [flat_map]. now rewrite IH.
    - destruct (d_actual b && with_value (hide_data b)), (d_actual b && with_value b); cbn [flat_map]; rewrite ?hd_date, ?E; cbn [length repeat app]; exact IH.
  Qed.
  Lemma residuals_hd acts l : residuals (T := T) acts (map hide_data l) = residuals acts l.
  Proof. unfold residuals. now rewrite forecasts_hd. Qed.
  Definition guesses (p : prow T) : bool := negb (p_actual p).
  Lemma guesses_actual (l : list (drow T)) : filter guesses (map actual_row l) = [].
  Proof. induction l as [|d l IH]; [reflexivity|exact IH]. Qed.
  Definition plain_weight (w : T) : Prop := counts w = false -> neqb w n0 = true.
  Lemma pi_hd draw n k q1 q2 dt l : apart_data l -> Forall (fun d => d_actual d = true -> plain_weight (d_w d)) l ->
    Py.rmap (filter guesses) (pi_single draw n k q1 q2 (mkPT true true true dt (map hide_data l))) =
    Py.rmap (filter guesses) (pi_single draw n k q1 q2 (mkPT true true true dt l)).
  Proof.
    intros A Fw. unfold pi_single. cbn [pt_src pt_w pt_best pt_dates pt_rows].
    rewrite (filter_maps hide_data _ (fun r => d_actual r || d_best r)) by (intros r; now rewrite hd_actual, hd_best).
    assert (A' : apart_data (filter (fun r => d_actual r || d_best r) l)).
    { intros a b Ia Ib. apply filter_In in Ia as [Ia _], Ib as [Ib _]. now apply A. }
    assert (Fw' : Forall (fun d => d_actual d = true -> plain_weight (d_w d)) (filter (fun r => d_actual r || d_best r) l)).
    { rewrite Forall_forall in *. intros d Id. apply filter_In in Id as [Id _]. now apply Fw. }
    revert A' Fw'. generalize (filter (fun r => d_actual r || d_best r) l). clear l A Fw. intros l A Fw.
    rewrite map_map. rewrite (map_ext (fun x => d_date (hide_data x)) d_date) by (intros r; apply hd_date).
    destruct (if dt then days_from_freq (detect_freq (map d_date l)) else Ok 1) as [fd|e]; cbn [rbind Py.rmap]; [|reflexivity].
    rewrite (existsb_map hide_data _ (fun r => neqb (d_w r) n0)) by (intros r; now rewrite hd_w).
    cbn [andb negb]. destruct (existsb (fun r => neqb (d_w r) n0) l) eqn:Ex; cbn [rbind].
    - rewrite usable_hd by exact A. rewrite residuals_hd. destruct (residuals (usable_actuals l) l) as [|r0 rr].
      + destruct l as [|d l]; [reflexivity|]. cbn [map Py.rmap rbind]. now rewrite !guesses_actual.
      + destruct (zmax_opt (map fst (usable_actuals l))) as [last|]; [|reflexivity]. cbv zeta. rewrite !forecasts_hd.
        match goal with |- context [add_percentiles ?a ?b q1 q2] => destruct (add_percentiles a b q1 q2) as [fut|e] end; [|reflexivity]. cbn [Py.rmap rbind].
        match goal with |- context [add_percentiles ?a ?b q1 q2] => destruct (add_percentiles a b q1 q2) as [pas|e] end; [|reflexivity]. cbn [Py.rmap rbind].
        now rewrite !filter_app, !guesses_actual.
    - (* no weight is zero: all samples count *)
      replace (map hide_data l) with l; [reflexivity|]. rewrite <- (map_id l) at 1. apply map_ext_in. intros d Id. unfold hide_data.
      destruct (d_actual d) eqn:Ad; [|reflexivity]. destruct (counts (d_w d)) eqn:Cd; [reflexivity|exfalso].
      assert (existsb (fun r => neqb (d_w r) n0) l = true); [|congruence]. apply existsb_exists. exists d. split; [exact Id|].
      rewrite Forall_forall in Fw. now apply (Fw d Id Ad).
  Qed.

  (* ---- one series ---- *)
  Lemma flag_hd b d : flag_data b (hide_data d) = hide_data (flag_data b d).
  Proof. unfold hide_data, flag_data. cbn [d_actual d_w]. destruct (d_actual d && negb (counts (d_w d))); reflexivity. Qed.
  Lemma hide_data_idem d : hide_data (hide_data d) = hide_data d.
  Proof. unfold hide_data at 1. rewrite hd_actual, hd_w. unfold hide_data. destruct (d_actual d && negb (counts (d_w d))); reflexivity. Qed.
  Lemma assemble_hd W al w acts fits : (forall p d, In p fits -> In d (snd p) -> d_actual d = false) ->
    assemble W al w (map hide_data acts) fits = (map hide_data (fst (assemble W al w acts fits)), snd (assemble (T := T) W al w acts fits)).
  Proof.
    intros F. unfold assemble. set (b := best_fit W _).
    assert (E : map (flag_data b) (map hide_data acts ++ concat (map snd fits)) = map hide_data (map (flag_data b) (acts ++ concat (map snd fits)))).
    { rewrite !map_app, !map_map. f_equal; [apply map_ext; intros d; apply flag_hd|]. apply map_ext_in. intros d Id. symmetry. apply hd_forecast. cbn [flag_data d_actual].
      apply in_concat in Id as (l & Il & Id). apply in_map_iff in Il as (p & <- & Ip). exact (F p d Ip Id). }
    rewrite E. destruct al; [reflexivity|]. cbn [fst snd]. f_equal. apply filter_maps. intros d. now rewrite hd_best, hd_actual.
  Qed.
  (* weights are zero or positive *)
  Definition plain_weights (f : frame T) : Prop := forall r, In r (rows f) -> plain_weight (r_w r).
  Theorem single_hide W c s f : zero_not_positive (T := T) -> plain_weights f -> exact_x f -> apart f -> c_outliers c = false -> Forecast.c_mode c <> "auto" ->
    Py.rmap view (run_forecast_single W c s (hide_frame f)) = Py.rmap view (run_forecast_single W c s f).
  Proof.
    intros Z H1 X A Ho Hm. unfold hide_frame. destruct (has_w f) eqn:Hw; [|reflexivity]. unfold run_forecast_single. rewrite run_fits_hf by assumption.
    destruct (run_fits W c s f) as [[[w acts] fits]|e] eqn:Er; cbn [Py.rmap rbind fst snd]; [|reflexivity].
    destruct (run_fits_inv _ _ _ _ _ _ _ Er) as (f1 & range & mode & act & st & sp & x0 & Ep & _ & _ & Ea & _ & _ & _ & _ & _ & _ & Ff).
    assert (Ffit : forall p d, In p fits -> In d (snd p) -> d_actual d = false /\ d_w d = n1).
    { intros p d Ip Id. destruct (Forall2_in_r _ _ _ _ Ff Ip) as (m & _ & Eo). unfold fit_one in Eo. destruct (fit_model _ _ _ _ _ _ _) as [dd|]; [|discriminate]. cbn [rbind] in Eo.
      destruct (md_fit dd); [|apply (f_equal (fun r => match r with Ok x => x | Err _ => p end)) in Eo; subst p; destruct Id].
      destruct (extrapolate_model _ _ _ _ _ _ _) as [g|]; [|discriminate]. cbn [rbind] in Eo. apply (f_equal (fun r => match r with Ok x => x | Err _ => p end)) in Eo. cbn in Eo. subst p. cbn [snd] in Id.
      unfold fcast_clean in Id. apply in_map_iff in Id as (q & <- & _). split; reflexivity. }
    rewrite assemble_hd by (intros p d Ip Id; now apply (Ffit p d)). pose proof (data_source _ _ _ _ _ _ _ (c_all c) Er) as Sd.
    assert (Ad : apart_data (fst (assemble W (c_all c) w acts fits)) /\ Forall (fun d => d_actual d = true -> plain_weight (d_w d)) (fst (assemble W (c_all c) w acts fits))).
    { assert (From : forall d, In d (fst (assemble W (c_all c) w acts fits)) -> exists d0, (In d0 acts \/ In d0 (concat (map snd fits))) /\ d_actual d = d_actual d0 /\ d_w d = d_w d0 /\ d_date d = d_date d0).
      { intros d Id. assert (J : In d (fst (assemble W true w acts fits))) by (destruct (c_all c); [exact Id|]; cbn in Id |- *; now apply filter_In in Id).
        cbn in J. apply in_map_iff in J as (d0 & <- & J). exists d0. split; [now apply in_app_or|]. repeat split. }
      assert (Fcst : forall d, In d (concat (map snd fits)) -> d_actual d = false /\ d_w d = n1).
      { intros d Id. apply in_concat in Id as (l & Il & Id). apply in_map_iff in Il as (p & <- & Ip). exact (Ffit p d Ip Id). }
      unfold prepared in Ep. rewrite Ho in Ep. injection Ep as Ep.
      assert (R1 : forall r, In r (rows f1) -> In r (rows f)).
      { rewrite <- Ep. unfold start_filter. intros r. destruct (c_start c); [destruct (has_date f)|]; auto. cbn [with_rows rows]. intros I. now apply filter_In in I. }
      assert (W1 : has_w f1 = true) by (rewrite <- Ep; unfold start_filter; destruct (c_start c); [destruct (has_date f); exact Hw|exact Hw]).
      assert (D1 : has_date f1 = has_date f) by (rewrite <- Ep; unfold start_filter; destruct (c_start c); [destruct (has_date f) eqn:D; cbn; now rewrite ?D|reflexivity]).
      split.
      - intros a b Ia Ib Aa Ab Ca Cb. destruct (From a Ia) as (a0 & [Ja|Ja] & E1 & E2 & E3); [|destruct (Fcst a0 Ja); congruence].
        destruct (From b Ib) as (b0 & [Jb|Jb] & E4 & E5 & E6); [|destruct (Fcst b0 Jb); congruence].
        rewrite E3, E6. rewrite E2 in Ca. rewrite E5 in Cb. rewrite Ea in Ja, Jb. unfold actuals_clean, with_weights in Ja, Jb. rewrite W1 in Ja, Jb.
        apply in_map_iff in Ja as (ra & <- & Ja), Jb as (rb & <- & Jb). cbn [d_w d_date] in *.
        destruct (A ra rb (R1 _ Ja) (R1 _ Jb) Ca Cb) as [_ K]. unfold place in *. now rewrite D1.
      - apply Forall_forall. intros d Id Nd. destruct (From d Id) as (d0 & [J|J] & E1 & E2 & _); [|destruct (Fcst d0 J); congruence].
        rewrite E2. rewrite Ea in J. unfold actuals_clean, with_weights in J. rewrite W1 in J. apply in_map_iff in J as (r & <- & J). cbn [d_w]. now apply H1, R1. }
    destruct Ad as [Ad Fw]. destruct (assemble W (c_all c) w acts fits) as [data metas]. cbn [fst snd] in *.
    change (has_date (with_rows f (map hide (rows f)))) with (has_date f).
    rewrite (get_pi_one s) by (apply Forall_map, Forall_forall; intros d Id; rewrite hd_src; now apply Sd). rewrite (get_pi_one s) by (now apply Forall_forall).
    destruct (match c_ncum c with Some n => Ok n | None => days_from_freq (c_widen c) end) as [nc|e]; cbn [rbind Py.rmap]; [|reflexivity].
    pose proof (pi_hd (w_draw W) 100 nc (c_q1 c) (c_q2 c) (has_date f) data Ad Fw) as K.
    destruct (pi_single _ _ _ _ _ (mkPT true true true (has_date f) (map hide_data data))) as [p|e], (pi_single _ _ _ _ _ (mkPT true true true (has_date f) data)) as [p'|e']; cbn [Py.rmap rbind] in *; try discriminate; [|congruence].
    unfold view. cbn [rs_forecast rs_data rs_meta]. injection K as K. unfold guesses in K. rewrite K. do 3 f_equal. rewrite map_map. apply map_ext, hide_data_idem.
  Qed.

  (* ---- tables ---- *)
  Definition hide_rr (q : rawrow T) : rawrow T := mkRaw (q_idx q) (hide (q_row q)).
  Lemma hide_set_date r d : set_date (hide r) d = hide (set_date r d).
  Proof. unfold hide, set_date. cbn. now destruct (counts (r_w r)). Qed.
  Lemma hide_set_x r x : set_x (hide r) x = hide (set_x r x).
  Proof. unfold hide, set_x. cbn. now destruct (counts (r_w r)). Qed.
  Lemma hide_leb b r r' : row_leb b (hide r) (hide r') = row_leb (T := T) b r r'.
  Proof. unfold row_leb. now rewrite !hide_src, !hide_x. Qed.
  Lemma prepare_hide t qs : t_w t = true -> prepare (hide_raw t) (map hide_rr qs) = Py.rmap (map hide) (prepare t qs).
  Proof.
    intros W. unfold prepare, hide_raw. rewrite W. cbn [t_date t_dtindex t_x]. unfold has_date_after. cbn [t_date t_dtindex]. rewrite map_map.
    assert (E : map (fun x => if t_date t then q_row (hide_rr x) else if t_dtindex t then set_date (q_row (hide_rr x)) (q_idx (hide_rr x)) else q_row (hide_rr x)) qs =
                map hide (map (fun q => if t_date t then q_row q else if t_dtindex t then set_date (q_row q) (q_idx q) else q_row q) qs)).
    { rewrite map_map. apply map_ext. intros q. cbn [hide_rr q_row q_idx]. destruct (t_date t); [reflexivity|]. destruct (t_dtindex t); [apply hide_set_date|reflexivity]. }
    rewrite E. set (rs := map (fun q : rawrow T => _) qs). destruct (t_x t); [reflexivity|]. destruct (t_date t || t_dtindex t).
    - rewrite dates_hide. destruct (get_normalized_x_from_date (map r_date rs)) as [xs|e]; [|reflexivity]. cbn [rbind Py.rmap]. f_equal.
      rewrite combine_map_left, !map_map. apply map_ext. intros [r x]. apply hide_set_x.
    - cbn [Py.rmap rbind]. f_equal. unfold enumerate. generalize 0%nat. induction rs as [|r rs IH]; intros n; [reflexivity|]. cbn [map enum_from fst snd]. rewrite IH. f_equal. apply hide_set_x.
  Qed.
  Lemma groups_hide t : t_w t = true -> groups_of (hide_raw t) = map (map hide_rr) (groups_of t).
  Proof.
    intros W. unfold groups_of, hide_raw. rewrite W. cbn [t_src t_rows]. destruct (t_src t); [|reflexivity]. unfold sources_of. rewrite !map_map. cbn [q_row].
    rewrite (map_ext (fun x => r_src (hide (q_row x))) (fun x => r_src (q_row x))) by (intros; apply hide_src).
    apply map_ext. intros s. apply (filter_maps hide_rr). intros q. cbn [hide_rr q_row]. now rewrite hide_src.
  Qed.
  Lemma normalize_hide t : normalize_df (hide_raw t) = Py.rmap (option_map hide_frame) (normalize_df t).
  Proof.
    destruct (t_w t) eqn:W.
    - unfold normalize_df. replace (t_rows (hide_raw t)) with (map hide_rr (t_rows t)) by (unfold hide_raw; now rewrite W).
      replace (t_y (hide_raw t)) with (t_y t) by (unfold hide_raw; now rewrite W). destruct (t_rows t) as [|q0 qq]; [reflexivity|]. cbn [map].
      destruct (negb (t_y t)); [reflexivity|]. rewrite groups_hide by exact W.
      rewrite rmapM_map, (rmapM_maps (prepare t) _ (map hide)) by (intros qs _; now apply prepare_hide). destruct (rmapM (prepare t) (groups_of t)) as [gs|e]; [|reflexivity].
      cbn [Py.rmap rbind option_map]. do 2 f_equal. unfold hide_frame. cbn [has_w]. rewrite W. unfold with_rows. cbn [has_date has_src has_w rows].
      replace (has_date_after (hide_raw t)) with (has_date_after t) by (unfold hide_raw, has_date_after; now rewrite W).
      replace (t_src (hide_raw t)) with (t_src t) by (unfold hide_raw; now rewrite W). replace (t_w (hide_raw t)) with true by (unfold hide_raw; now rewrite W). f_equal.
      rewrite <- concat_map. apply isort_map. intros a b. apply hide_leb.
    - replace (hide_raw t) with t by (unfold hide_raw; now rewrite W). destruct (normalize_df t) as [[f|]|e] eqn:En; [|reflexivity|reflexivity]. cbn [Py.rmap rbind option_map]. do 2 f_equal.
      unfold hide_frame. replace (has_w f) with false; [reflexivity|]. unfold normalize_df in En. destruct (t_rows t); [discriminate|]. destruct (negb (t_y t)); [discriminate|].
      destruct (rmapM _ _); [|discriminate]. cbn [rbind] in En. apply (f_equal (fun r => match r with Ok (Some g) => has_w g | _ => false end)) in En. cbn [has_w] in En. congruence.
  Qed.
  (* within each series *)
  Definition apart_series (f : frame T) : Prop := forall a b, In a (rows f) -> In b (rows f) -> (has_src f = true -> r_src a = r_src b) ->
    counts (r_w a) = true -> counts (r_w b) = false -> r_x a <> r_x b /\ place f a <> place f b.
  Lemma ok_same {A} (a b : A) : Ok a = Ok b -> a = b. Proof. intros E. now injection E. Qed.
  Lemma rmapM_views {A B C} (v : B -> C) (g g' : A -> res B) l : (forall a, In a l -> Py.rmap v (g' a) = Py.rmap v (g a)) ->
    Py.rmap (map v) (rmapM g' l) = Py.rmap (map v) (rmapM g l).
  Proof.
    induction l as [|a l IH]; intros H; [reflexivity|]. cbn [rmapM]. specialize (IH (fun x Ix => H x (or_intror Ix))). specialize (H a (or_introl eq_refl)).
    destruct (g' a) as [x'|e'], (g a) as [x|e]; cbn [Py.rmap rbind] in *; try discriminate; [|congruence]. apply ok_same in H.
    destruct (rmapM g' l) as [ys'|e'], (rmapM g l) as [ys|e]; cbn [Py.rmap rbind] in *; try discriminate; [|congruence]. apply ok_same in IH. cbn [map]. now rewrite H, IH.
  Qed.
  Lemma view_aggregate rs : view (aggregate rs) = (concat (map (fun v => fst (fst v)) (map view rs)), concat (map (fun v => snd (fst v)) (map view rs)), concat (map snd (map view rs))).
  Proof.
    unfold view, aggregate. cbn [rs_forecast rs_data rs_meta]. rewrite !map_map. cbn [fst snd]. f_equal. f_equal.
    - induction rs as [|r rs IH]; [reflexivity|]. cbn [map concat]. now rewrite filter_app, IH.
    - now rewrite concat_map, map_map.
  Qed.
  Theorem run_hide W c s t : zero_not_positive (T := T) -> c_outliers c = false -> Forecast.c_mode c <> "auto" ->
    (forall f, normalize_df t = Ok (Some f) -> exact_x f /\ plain_weights f /\ apart_series f) ->
    Py.rmap (option_map view) (run_forecast W c s (hide_raw t)) = Py.rmap (option_map view) (run_forecast W c s t).
  Proof.
    intros Z Ho Hm Hf. unfold run_forecast. rewrite normalize_hide. destruct (normalize_df t) as [[f|]|e]; [|reflexivity|reflexivity]. destruct (Hf f eq_refl) as (X & P & A). clear Hf.
    cbn [Py.rmap rbind option_map]. replace (has_src (hide_frame f)) with (has_src f) by (unfold hide_frame; now destruct (has_w f)). destruct (has_src f) eqn:Hs; cbn [negb].
    - assert (Es : map r_src (rows (hide_frame f)) = map r_src (rows f)).
      { unfold hide_frame. destruct (has_w f); [|reflexivity]. cbn [with_rows rows]. rewrite map_map. apply map_ext, hide_src. }
      rewrite Es. set (g := fun s => run_forecast_single (W s) c s (with_rows f (filter (fun r => String.eqb (r_src r) s) (rows f)))).
      match goal with |- context [rmapM ?h _] => set (g' := h) end.
      assert (K : Py.rmap (map view) (rmapM g' (dedup String.eqb (map r_src (rows f)))) = Py.rmap (map view) (rmapM g (dedup String.eqb (map r_src (rows f))))).
      { apply rmapM_views. intros z _. unfold g', g. set (fz := with_rows f (filter (fun r => String.eqb (r_src r) z) (rows f))).
        replace (with_rows (hide_frame f) (filter (fun r => String.eqb (r_src r) z) (rows (hide_frame f)))) with (hide_frame fz).
        - apply single_hide; auto.
          + intros r Ir. unfold fz in Ir. cbn [with_rows rows] in Ir. apply filter_In in Ir as [Ir _]. now apply P.
          + intros r Ir. unfold fz in Ir. cbn [with_rows rows] in Ir. apply filter_In in Ir as [Ir _]. now apply X.
          + intros a b Ia Ib. unfold fz in Ia, Ib. cbn [with_rows rows] in Ia, Ib. apply filter_In in Ia as [Ia Ea], Ib as [Ib Eb]. apply String.eqb_eq in Ea, Eb.
            apply (A a b Ia Ib). intros _. congruence.
        - unfold hide_frame, fz. destruct f as [hd hs hw l]. cbn [with_rows has_w rows has_date has_src]. destruct hw; [|reflexivity]. cbn [rows has_w has_date has_src]. unfold with_rows. cbn [has_date has_src has_w rows]. f_equal.
          symmetry. apply (filter_maps hide). intros r. now rewrite hide_src. }
      destruct (rmapM g' _) as [rs'|e'], (rmapM g _) as [rs|e]; cbn [Py.rmap rbind option_map] in *; try discriminate; [|congruence]. apply ok_same in K. now rewrite !view_aggregate, K.
    - pose proof (single_hide (W s) c s f Z P X) as K.
      assert (A' : apart f) by (intros a b Ia Ib; apply (A a b Ia Ib); congruence). specialize (K A' Ho Hm).
      destruct (run_forecast_single _ _ _ (hide_frame f)) as [r'|e'], (run_forecast_single _ _ _ f) as [r|e]; cbn [Py.rmap rbind option_map] in *; try discriminate; [|congruence]. apply ok_same in K. now rewrite K.
  Qed.

  (* ---- two tables that differ only in values that do not count ---- *)
  Definition alike (a b : row T) : Prop := r_date a = r_date b /\ r_src a = r_src b /\ r_x a = r_x b /\ r_w a = r_w b /\ (counts (r_w a) = true -> r_y a = r_y b).
  Definition alike_tables (t t' : raw T) : Prop := t_w t = true /\ t_w t' = true /\ t_y t = t_y t' /\ t_x t = t_x t' /\ t_date t = t_date t' /\ t_src t = t_src t' /\ t_dtindex t = t_dtindex t' /\
    Forall2 (fun q q' => q_idx q = q_idx q' /\ alike (q_row q) (q_row q')) (t_rows t) (t_rows t').
  Lemma alike_hide a b : alike a b -> hide a = hide b.
  Proof. intros (E1 & E2 & E3 & E4 & E5). unfold hide. rewrite <- E4. destruct (counts (r_w a)); [|congruence]. destruct a, b; cbn in *. specialize (E5 eq_refl). congruence. Qed.
  Lemma alike_raw t t' : alike_tables t t' -> hide_raw t = hide_raw t'.
  Proof.
    intros (W & W' & E1 & E2 & E3 & E4 & E5 & F). unfold hide_raw. rewrite W, W', E1, E2, E3, E4, E5. f_equal.
    induction F as [|q q' l l' [Ei Ea] _ IH]; [reflexivity|]. cbn [map]. now rewrite IH, Ei, (alike_hide _ _ Ea).
  Qed.
  Lemma apart_hidden f f' : hide_frame f = hide_frame f' -> exact_x f /\ plain_weights f /\ apart_series f -> exact_x f' /\ plain_weights f' /\ apart_series f'.
  Proof.
    intros E (X & Pw & A).
    assert (W : has_w f' = has_w f /\ has_src f' = has_src f /\ has_date f' = has_date f).
    { unfold hide_frame in E. destruct f as [d s w l], f' as [d' s' w' l']. cbn in *. destruct w, w'; cbn in E; unfold with_rows in E; cbn in E; injection E; intros; subst; auto. }
    destruct W as (W & S & D).
    assert (R : map hide (rows f) = map hide (rows f')).
    { unfold hide_frame in E. rewrite W in E. apply (f_equal (fun f => rows f)) in E. destruct (has_w f); [exact E|now rewrite E]. }
    assert (B : forall r', In r' (rows f') -> exists r, In r (rows f) /\ hide r = hide r').
    { intros r' I. apply (in_map hide) in I. rewrite <- R in I. apply in_map_iff in I as (r & Er & I). eauto. }
    split; [|split].
    - intros r' I'. destruct (B r' I') as (r & I & Er). rewrite <- (hide_x r'), <- Er, hide_x. now apply X.
    - intros r' I'. destruct (B r' I') as (r & I & Er). rewrite <- (hide_w r'), <- Er, hide_w. now apply Pw.
    - intros a' b' Ia' Ib' Es Ca Cb. destruct (B a' Ia') as (a & Ia & Ea), (B b' Ib') as (b & Ib & Eb).
      assert (P : forall u v, hide u = hide v -> r_src u = r_src v /\ r_x u = r_x v /\ r_w u = r_w v /\ r_date u = r_date v).
      { intros u v H. split; [|split; [|split]]; [rewrite <- (hide_src u), <- (hide_src v)|rewrite <- (hide_x u), <- (hide_x v)|rewrite <- (hide_w u), <- (hide_w v)|rewrite <- (hide_date u), <- (hide_date v)]; congruence. }
      destruct (P _ _ Ea) as (p1 & p2 & p3 & p4), (P _ _ Eb) as (q1 & q2 & q3 & q4). unfold place. rewrite D, <- p2, <- q2, <- p4, <- q4.
      apply (A a b Ia Ib); [rewrite S in Es; intros H; specialize (Es H); congruence|congruence|congruence].
  Qed.
  Theorem run_alike W c s t t' : zero_not_positive (T := T) -> c_outliers c = false -> Forecast.c_mode c <> "auto" ->
    alike_tables t t' -> (forall f, normalize_df t = Ok (Some f) -> exact_x f /\ plain_weights f /\ apart_series f) ->
    Py.rmap (option_map view) (run_forecast W c s t') = Py.rmap (option_map view) (run_forecast W c s t).
  Proof.
    intros Z Ho Hm Al Hf. rewrite <- (run_hide W c s t) by assumption. rewrite (alike_raw _ _ Al). symmetry. apply run_hide; try assumption.
    intros f' En'. assert (K := normalize_hide t). rewrite (alike_raw _ _ Al), normalize_hide, En' in K. cbn [Py.rmap rbind option_map] in K.
    destruct (normalize_df t) as [[f|]|e]; cbn [Py.rmap rbind option_map] in K; [|discriminate|discriminate]. apply (apart_hidden f); [|now apply Hf]. now injection K as ->.
  Qed.
End Ignored.
