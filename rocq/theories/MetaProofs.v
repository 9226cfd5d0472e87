(* Specifications and lemmas for C67 and C68: the metadata table, labels, and forecasts at the
   sample dates. *)
From Coq Require Import ZArith String Ascii List Bool Lia Reals Lra QArith_base.
From Verif Require Import Num Py Cal Fmt Model Base Fixed Naive Freq Aic Normalize Fit Interp Select Stats Outliers Pi Forecast.
From Verif Require Import ListProofs StringProofs ModelProofs FreqProofs GridProofs FitProofs SeasonProofs ForecastProofs ForecastProofs2 ExtendProofs NumProofs BaseProofs.
Import ListNotations.
Local Open Scope string_scope.
Local Open Scope list_scope.
Local Open Scope Z_scope.

Section Meta.
  Context {T : Type} `{NumOps T}.
  Notation M := (fmodel T).

  (* the table given to fit_model: rows of positive weight *)
  Definition to_fit (f1 : frame T) : frame T := positive (with_weights f1).

  (* ---- weights in the data table ---- *)
  Theorem data_weights W c source f r : run_forecast_single W (set_all true c) source f = Ok r ->
    exists f1, prepared c f = Ok f1 /\
      map d_w (filter (fun d => d_actual d) (rs_data r)) = (if has_w f1 then map r_w (rows f1) else map (fun _ => n1) (rows f1)) /\
      forall d, In d (rs_data r) -> d_actual d = false -> d_w d = n1.
  Proof.
    intros K. destruct (single_result _ _ _ _ _ K) as (w & acts & fits & E & Ea & _).
    destruct (run_fits_inv _ _ _ _ _ _ _ E) as (f1 & range & mode & act & st & sp & x0 & Ep & _ & _ & Eac & _ & _ & _ & _ & _ & _ & F).
    exists f1. split; [exact Ep|]. unfold assemble in Ea. injection Ea as Ed _. set (b := best_fit W (map (fun p => fst (fst p)) fits)) in *.
    assert (Fw : forall d, In d (concat (map snd fits)) -> d_actual d = false /\ d_w d = n1).
    { intros d I. apply in_concat in I as (l & Il & Id). apply in_map_iff in Il as (p & <- & Ip). destruct (Forall2_in_r _ _ _ _ F Ip) as (m & _ & Ho).
      unfold fit_one in Ho. destruct (fit_model _ _ _ _ _ _ _) as [d0|]; cbn [rbind] in Ho; [|discriminate]. destruct (md_fit d0); [|injection Ho as <-; destruct Id].
      destruct (extrapolate_model _ _ _ _ _ _ _) as [g|]; cbn [rbind] in Ho; [|discriminate]. injection Ho as <-. cbn [snd] in Id. unfold fcast_clean in Id.
      apply in_map_iff in Id as (q & <- & _). now split. }
    rewrite <- Ed. split.
    - rewrite map_app, filter_app, map_app.
      assert (filter (fun d => d_actual d) (map (flag_data b) (concat (map snd fits))) = []) as ->.
      { clear -Fw. induction (concat (map snd fits)) as [|d l IH]; [reflexivity|]. cbn [map filter flag_data d_actual]. rewrite (proj1 (Fw d (or_introl eq_refl))). apply IH. intros e I. apply Fw. now right. }
      cbn [map]. rewrite app_nil_r, Eac. unfold actuals_clean.
      assert (forall l : list (row T), map d_w (filter (fun d => d_actual d) (map (flag_data b) (map (fun r0 => mkD (place (with_weights f1) r0) (r_w r0) (r_y r0) "actuals" source
                (long_name source w (detect_freq_frame f) range) true false) l))) = map r_w l) as ->.
      { induction l as [|q l IH]; [reflexivity|]. cbn. now f_equal. }
      unfold with_weights. destruct (has_w f1); [reflexivity|]. cbn [rows]. rewrite map_map. reflexivity.
    - intros d I A. apply in_map_iff in I as (d0 & <- & I). cbn [flag_data d_actual d_w] in *. apply in_app_iff in I as [I|I]; [|now apply Fw].
      rewrite Eac in I. apply in_map_iff in I as (q & <- & _). discriminate.
  Qed.
  (* ---- the automatic composition in the whole forecast ---- *)
  Definition set_mode (mode : string) (c : config T) : config T :=
    mkCfg (c_trend c) (c_season c) (c_start c) (c_years c) mode (c_all c) (c_outliers c) (c_yearly c) (c_weekly c)
      (c_naive c) (c_calendar c) (c_ncum c) (c_q1 c) (c_q2 c) (c_widen c) (c_cache c).
  Theorem auto_mode W c source f f1 b : prepared c f = Ok f1 -> is_multiplicative (mult_corr (w_env W)) (with_weights f1) = Ok b ->
    run_forecast_single W (set_mode "auto" c) source f = run_forecast_single W (set_mode (if b then "mult" else "add") c) source f.
  Proof.
    intros Ep Eb. assert (E : forall mode, prepared (set_mode mode c) f = Ok f1) by (intros mode; exact Ep).
    assert (R : run_fits W (set_mode "auto" c) source f = run_fits W (set_mode (if b then "mult" else "add") c) source f).
    { unfold run_fits. rewrite !E. cbn [rbind]. destruct (input_range (with_weights f1)) as [rg|]; [|reflexivity]. cbn [rbind].
      change (candidate_lists (set_mode "auto" c) (with_weights f1)) with (candidate_lists (set_mode (if b then "mult" else "add") c) (with_weights f1)).
      destruct (candidate_lists _ _) as [la lm]. unfold final_mode. cbn [set_mode Forecast.c_mode]. rewrite Eb. cbn [String.eqb Ascii.eqb Bool.eqb rbind].
      destruct b; reflexivity. }
    unfold run_forecast_single. rewrite R. reflexivity.
  Qed.

  (* ---- specification of C67 ---- *)
  (* the metadata row of a candidate is the one of its fit, except for the weights column *)
  Definition described (E : env T) (c : config T) (source : string) (freq : option string) (f1 act : frame T) (e : entry) : Prop :=
    exists d, fit_model E (en_model e) (to_fit f1) freq source (Some act) (c_cache c) = Ok d /\
      m_meta (en_meta e) = set_weights (input_weights E f1) d.
  Theorem fit_table W c source f r : run_forecast_single W (set_all true c) source f = Ok r ->
    exists f1 range mode act start stop x0 acts (es : list entry),
      prepared c f = Ok f1 /\ input_range (with_weights f1) = Ok range /\
      final_mode W c (with_weights f1) = Ok mode /\ model_actuals f (to_fit f1) = Ok act /\
      zmin_opt (map (place f) (rows (to_fit f1))) = Some start /\
      zmax_opt (map (place f) (rows (start_filter (c_start c) f))) = Some stop /\
      zmin_opt (map r_x (rows (to_fit f1))) = Some x0 /\
      rs_data r = acts ++ concat (map en_rows es) /\
      rs_meta r = map en_meta es /\
      map en_model es = all_models c mode (detect_freq_frame f) (fst (candidate_lists c (with_weights f1)))
                          (snd (candidate_lists c (with_weights f1))) /\
      Forall (fun d => d_actual d = true /\
                d_long d = long_name source (input_weights (w_env W) f1) (detect_freq_frame f) range) acts /\
      Forall (fun e =>
        described (w_env W) c source (detect_freq_frame f) f1 act e /\
        m_label (en_meta e) = add_mult_label (en_model e) mode (fst (candidate_lists c (with_weights f1))) /\
        entry_ok source (fun m ps => extrapolate_model m (Some ps) (start_of f start stop) (detect_freq_frame f)
                                              (c_years c) x0 (Some act)) e) es.
  Proof.
    intros K. destruct (single_result _ _ _ _ _ K) as (w & acts & fits & E & Ea & _).
    destruct (run_fits_inv _ _ _ _ _ _ _ E) as (f1 & range & mode & act & st & sp & x0 & Ep & Ew & Er & -> & Em & Eact & Est & Esp & Ex0 & _ & F).
    destruct (prepared_places _ _ _ Ep) as [Pp Dp]. destruct (with_weights_rows f1) as [Pw Dw].
    assert (PL : forall q, place (with_weights f1) q = place f q) by (intros q; unfold place; now rewrite Dw, Dp).
    unfold assemble in Ea. injection Ea as Ed Emt. set (b := best_fit W (map (fun p => fst (fst p)) fits)) in *.
    set (models := all_models c mode _ _ _) in *.
    exists f1, range, mode, act, st, sp, x0.
    exists (map (flag_data b) (actuals_clean (with_weights f1) source (long_name source w (detect_freq_frame f) range))).
    exists (map (fun q => mkE (fst q) (flag_meta b w (fst (fst (snd q))) (snd (fst (snd q)))) (map (flag_data b) (snd (snd q)))) (combine models fits)).
    pose proof (Forall2_len _ _ _ F) as L.
    assert (C : forall {X} (h : meta T * string * list (drow T) -> X), map (fun q : M * (meta T * string * list (drow T)) => h (snd q)) (combine models fits) = map h fits).
    { intros X h. clear -L. revert L. generalize models fits. intros l. induction l as [|a l IH]; intros [|p l'] L; try discriminate; [reflexivity|].
      cbn. f_equal. apply IH. now injection L. }
    split; [exact Ep|]. split; [exact Er|]. split; [exact Em|]. split; [exact Eact|]. split; [|split; [|split; [exact Ex0|]]].
    - unfold to_fit. rewrite <- Est. f_equal. apply map_ext. intros q. now rewrite PL.
    - rewrite <- Esp. f_equal. pose proof (f_equal (map fst) Pw) as Q1. pose proof (f_equal (map fst) Pp) as Q2. rewrite !map_map in Q1, Q2. cbn [fst] in Q1, Q2.
      etransitivity; [symmetry; exact Q2|]. etransitivity; [symmetry; exact Q1|]. apply map_ext. intros q. unfold place. now rewrite Dw.
    - split; [|split; [|split; [|split]]].
      + rewrite <- Ed, map_app. f_equal. rewrite concat_map, !map_map. cbn [en_rows].
        now rewrite (C _ (fun p => map (flag_data b) (snd p))).
      + rewrite <- Emt, map_map. cbn [en_meta]. now rewrite (C _ (fun p => flag_meta b w (fst (fst p)) (snd (fst p)))).
      + rewrite map_map. cbn [en_model]. rewrite (map_combine_fst (fun m => m) models fits L). apply map_id.
      + apply Forall_forall. intros d Hd. apply in_map_iff in Hd as (d0 & <- & Hd). unfold actuals_clean in Hd.
        apply in_map_iff in Hd as (q & <- & _). split; [reflexivity|]. cbn. now rewrite Ew.
      + apply Forall_forall. intros e He. apply in_map_iff in He as ((m & p) & <- & Hq). cbn [fst snd].
        assert (Ho : fit_one W c source mode (detect_freq_frame f) (fst (candidate_lists c (with_weights f1)))
                       (positive (with_weights f1)) act (start_of f st sp) x0 m = Ok p).
        { clear -F Hq. revert F Hq. generalize models fits. induction 1 as [|a q l l' Ha _ IH]; intros Hq; [destruct Hq|].
          destruct Hq as [Hq|Hq]; [injection Hq as <- <-; exact Ha|now apply IH]. }
        apply fit_one_contributes in Ho as [[Hs Hf Hr] [Hfit Hl]]. split; [|split].
        * exists (fst (fst p)). cbn [en_model en_meta flag_meta m_meta]. split; [exact Hfit|now rewrite Ew].
        * exact Hl.
        * constructor; cbn [en_model en_meta en_rows flag_meta m_meta set_weights md_source md_fit md_params md_source_long].
          -- exact Hs.
          -- destruct (md_fit (fst (fst p))).
             ++ destruct Hf as (g & Eg & Ev). exists g. split; [exact Eg|]. rewrite <- Ev, map_map. reflexivity.
             ++ now rewrite Hf.
          -- apply Forall_forall. intros d Hd. apply in_map_iff in Hd as (d0 & <- & Hd). rewrite Forall_forall in Hr.
             destruct (Hr d0 Hd) as (A & B & C' & D). cbn. auto.
  Qed.

  (* ---- labels of a fit ---- *)
  Hypothesis zero_lt : zero_not_positive (T := T).
  Theorem fit_labels E m f freq source act uc (d : meta T) : fit_model E m f freq source act uc = Ok d ->
    md_source d = source /\ md_freq d = freq /\ md_weights d = weights_label E f /\
    range_label E (xs_of m f) (dates_of f) = Ok (md_range d) /\
    md_source_long d = long_name source (weights_label E f) freq (md_range d).
  Proof.
    unfold fit_model. rewrite (fit_unfold zero_lt). intros K.
    destruct (range_label E (xs_of m f) (dates_of f)) as [range|]; [|discriminate]. cbn [rbind] in K. cbv zeta in K.
    destruct (Nat.ltb _ _); [injection K as <-; cbn; auto|].
    destruct (validate_input m _ _ _) as [[|]|]; cbn [rbind negb] in K; [|injection K as <-; cbn; auto|discriminate].
    destruct (simplify_model _ _ _ _ _) as [ms|]; [|discriminate]. cbn [rbind] in K. destruct (Nat.eqb _ _).
    - destruct (get_residuals _ _ _ _ _ _ _ _) as [rs|]; [|discriminate]. cbn [rbind] in K.
      destruct (get_aic_c _ _ _) as [a|]; [|discriminate]. injection K as <-. cbn. auto.
    - destruct (optimize_least_squares _ _ _ _ _ _ _ _) as [[[su co] p]|]; [|discriminate]. cbn [rbind] in K.
      destruct (get_aic_c _ _ _) as [a|]; [|discriminate]. injection K as <-. cbn. auto.
  Qed.
  (* first and last date of a list of rows, as text *)
  Definition spans (l : list (row T)) (s : string) : Prop := exists a b,
    (In a (map r_date l) /\ forall t, In t (map r_date l) -> a <= t) /\ (In b (map r_date l) /\ forall t, In t (map r_date l) -> t <= b) /\
    s = (fmt_date a ++ "::" ++ fmt_date b)%string.
  Lemma range_spans E m f s : has_date f = true -> range_label E (xs_of m f) (dates_of f) = Ok s -> spans (usable_rows f) s.
  Proof.
    intros D. unfold range_label, dates_of. rewrite D. destruct (zmin_opt _) as [a|] eqn:A; [|discriminate].
    destruct (zmax_opt _) as [b|] eqn:B; [|discriminate]. intros [= <-]. exists a, b.
    split; [now apply zmin_opt_iff|]. split; [now apply zmax_opt_iff|]. reflexivity.
  Qed.
  Lemma input_spans f s : has_date f = true -> input_range f = Ok s -> spans (rows f) s.
  Proof.
    intros D. unfold input_range, place. rewrite D. destruct (zmin_opt _) as [a|] eqn:A; [|discriminate].
    destruct (zmax_opt _) as [b|] eqn:B; [|discriminate]. intros [= <-]. exists a, b.
    split; [now apply zmin_opt_iff|]. split; [now apply zmax_opt_iff|]. reflexivity.
  Qed.
  (* The forecast and metadata rows of every candidate carry one and the same label, which describes
     the samples that are fitted.  The rows of the actuals carry a label describing all samples. *)
  Theorem labels W c source f r : has_date f = true -> run_forecast_single W (set_all true c) source f = Ok r ->
    exists f1 fitted_range all_range acts (es : list entry),
      prepared c f = Ok f1 /\ rs_data r = acts ++ concat (map en_rows es) /\ rs_meta r = map en_meta es /\
      spans (usable_rows (to_fit f1)) fitted_range /\ spans (rows f1) all_range /\
      Forall (fun e => md_source_long (m_meta (en_meta e)) = long_name source (weights_label (w_env W) (to_fit f1)) (detect_freq_frame f) fitted_range /\
                       md_range (m_meta (en_meta e)) = fitted_range /\
                       md_weights (m_meta (en_meta e)) = input_weights (w_env W) f1 /\
                       md_source (m_meta (en_meta e)) = source /\ md_freq (m_meta (en_meta e)) = detect_freq_frame f) es /\
      Forall (fun d => d_actual d = true /\
                d_long d = long_name source (input_weights (w_env W) f1) (detect_freq_frame f) all_range) acts /\
      Forall (fun d => d_actual d = false /\
                d_long d = long_name source (weights_label (w_env W) (to_fit f1)) (detect_freq_frame f) fitted_range) (concat (map en_rows es)).
  Proof.
    intros D E. destruct (fit_table _ _ _ _ _ E) as (f1 & range & mode & act & st & sp & x0 & acts & es & Ep & Er & _ & _ & _ & _ & _ & Ed & Em & En & Fa & Fe).
    destruct (prepared_places _ _ _ Ep) as [_ Dp]. destruct (with_weights_rows f1) as [_ Dw].
    assert (Df : has_date (to_fit f1) = true) by (unfold to_fit; cbn; now rewrite Dw, Dp).
    assert (Ne : es <> []).
    { intros ->. destruct (single_result _ _ _ _ _ E) as (w & acts' & fits & E' & Ea & _).
      destruct (run_fits_inv _ _ _ _ _ _ _ E') as (f1' & range' & mode' & act' & st' & sp' & x0' & _ & _ & _ & _ & _ & _ & _ & _ & _ & N & F).
      unfold assemble in Ea. injection Ea as _ Ea. rewrite Em in Ea. destruct fits; [|discriminate]. inversion F. now apply N. }
    assert (X : exists fr, range_label (w_env W) (map (fun r => nofZ (r_x r)) (usable_rows (to_fit f1))) (dates_of (to_fit f1)) = Ok fr).
    { destruct es as [|e es]; [congruence|]. inversion_clear Fe as [|? ? [(d & Ef & _) _] _]. apply fit_labels in Ef as (_ & _ & _ & Rl & _).
      unfold range_label, dates_of in *. rewrite Df in *. eauto. }
    destruct X as [fr Rl].
    assert (Rm : forall m, range_label (w_env W) (xs_of m (to_fit f1)) (dates_of (to_fit f1)) = Ok fr).
    { intros m. unfold range_label, dates_of in *. rewrite Df in *. exact Rl. }
    assert (All : Forall (fun e => md_source_long (m_meta (en_meta e)) = long_name source (weights_label (w_env W) (to_fit f1)) (detect_freq_frame f) fr /\
                       md_range (m_meta (en_meta e)) = fr /\
                       md_weights (m_meta (en_meta e)) = input_weights (w_env W) f1 /\
                       md_source (m_meta (en_meta e)) = source /\ md_freq (m_meta (en_meta e)) = detect_freq_frame f) es).
    { eapply Forall_impl; [|exact Fe]. intros e [(d & Ef & ->) _]. apply fit_labels in Ef as (A & B & C & Rd & L). rewrite Rm in Rd. injection Rd as Rd.
      cbn [set_weights md_source_long md_range md_weights md_source md_freq]. rewrite L, Rd. auto. }
    exists f1, fr, range, acts, es. split; [exact Ep|]. split; [exact Ed|]. split; [exact Em|]. split; [|split; [|split; [exact All|split; [exact Fa|]]]].
    - apply (range_spans (w_env W) model_constant); auto.
    - assert (Sp : spans (rows (with_weights f1)) range) by (apply input_spans; [now rewrite Dw, Dp|exact Er]).
      assert (Ed' : map r_date (rows (with_weights f1)) = map r_date (rows f1)).
      { unfold with_weights. destruct (has_w f1); [reflexivity|]. cbn. rewrite map_map. reflexivity. }
      unfold spans in *. rewrite Ed' in Sp. exact Sp.
    - apply Forall_forall. intros d I. apply in_concat in I as (l & Il & I). apply in_map_iff in Il as (e & <- & Ie).
      rewrite Forall_forall in Fe, All. destruct (Fe e Ie) as (_ & _ & [_ _ L]). rewrite Forall_forall in L. destruct (L d I) as (_ & _ & Q & A).
      split; [exact A|]. rewrite Q. apply (All e Ie).
  Qed.
  (* without a weight column the two labels always differ, as '1' is printed for one and '1-1' for the other *)
  Lemma no_weights_label E f : usable_rows (to_fit f) <> [] -> has_w f = false -> e_num E n1 = "1" ->
    (forall l, nmin n1 (map (fun _ : row T => n1) l) = n1) -> (forall l, nmax n1 (map (fun _ : row T => n1) l) = n1) -> nisnan n1 = false ->
    weights_label E (to_fit f) = "1-1".
  Proof.
    intros U Hw E1 Mn Mx N1. unfold weights_label, to_fit in *. unfold positive, with_weights in *. rewrite Hw in *. cbn [has_w with_rows rows] in *.
    set (l := with_y _) in *.
    assert (C : exists k : list (row T), map r_w l = map (fun _ => n1) k /\ map r_w l <> []).
    { assert (A : forall q, In q l -> r_w q = n1).
      { intros q I. unfold l, with_y in I. apply filter_In in I as [I _]. apply filter_In in I as [I _]. apply in_map_iff in I as (q0 & <- & _). reflexivity. }
      exists l. split; [now apply map_ext_in|]. intros C. apply map_eq_nil in C. apply U.
      etransitivity; [symmetry; apply (fitted_eq zero_lt)|]. change (with_y (rows _)) with l. rewrite C. reflexivity. }
    destruct C as (k & C & Ne). rewrite C in *. clear C.
    assert (F : filter (fun a => negb (nisnan a)) (map (fun _ : row T => n1) k) = map (fun _ => n1) k).
    { clear - N1. induction k as [|q k IH]; cbn; [reflexivity|]. rewrite N1. cbn. now rewrite IH. }
    unfold col_min, col_max. rewrite F. destruct k as [|q k]; [now exfalso|]. cbn [map]. rewrite Mn, Mx, E1. reflexivity.
  Qed.
End Meta.

(* ---- C67, over the reals: without weights the labels of actuals and forecasts always differ ---- *)
Lemma fold_min_one {A} (l : list A) : fold_left Rmin (map (fun _ => 1%R) l) 1%R = 1%R.
Proof. induction l as [|a l IH]; cbn; [reflexivity|]. rewrite Rmin_left by lra. exact IH. Qed.
Lemma fold_max_one {A} (l : list A) : fold_left Rmax (map (fun _ => 1%R) l) 1%R = 1%R.
Proof. induction l as [|a l IH]; cbn; [reflexivity|]. rewrite Rmax_left by lra. exact IH. Qed.
Lemma string_app_inv (s a b : string) : (s ++ a = s ++ b)%string -> a = b.
Proof. induction s as [|c s IH]; cbn; auto. intros [= K]. auto. Qed.
Theorem unweighted_labels W c source (f : frame XR) r : has_date f = true -> has_w f = false -> c_outliers c = false ->
  e_num (w_env W) n1 = "1" -> run_forecast_single W (set_all true c) source f = Ok r ->
  forall a d, In a (rs_data r) -> In d (rs_data r) -> d_actual a = true -> d_actual d = false -> d_long a <> d_long d.
Proof.
  intros D Hw Ho E1 E a d Ia Id Aa Ad.
  destruct (labels (T := XR) zero_lt_XR W c source f r D E) as (f1 & fr & ar & acts & es & Ep & Ed & _ & (t0 & t1 & (I0 & _) & _) & _ & _ & Fa & Ff).
  assert (La : d_long a = long_name source (input_weights (w_env W) f1) (detect_freq_frame f) ar).
  { rewrite Ed in Ia. apply in_app_or in Ia as [Ia|Ia]; [rewrite Forall_forall in Fa; apply (Fa a Ia)|].
    rewrite Forall_forall in Ff. destruct (Ff a Ia). congruence. }
  assert (Ld : d_long d = long_name source (weights_label (w_env W) (to_fit f1)) (detect_freq_frame f) fr).
  { rewrite Ed in Id. apply in_app_or in Id as [Id|Id]; [|rewrite Forall_forall in Ff; apply (Ff d Id)].
    rewrite Forall_forall in Fa. destruct (Fa d Id). congruence. }
  rewrite La, Ld. pose proof (no_outliers c f f1 Ho Ep) as ->.
  assert (Hs : has_w (start_filter (c_start c) f) = false).
  { unfold start_filter. destruct (c_start c); [destruct (has_date f)|]; exact Hw. }
  rewrite (no_weights_label (T := XR) zero_lt_XR (w_env W) _ ltac:(intros C; rewrite C in I0; destruct I0) Hs E1).
  - unfold input_weights, long_name. rewrite Hs. intros K. apply string_app_inv in K. discriminate.
  - intros l. rewrite n1_fin. change (map (fun _ : row XR => Fin 1) l) with (map (fun _ : row XR => Fin 1) l).
    rewrite <- (map_map (fun _ : row XR => 1%R) Fin), nmin_fin. now rewrite fold_min_one.
  - intros l. rewrite n1_fin. rewrite <- (map_map (fun _ : row XR => 1%R) Fin), nmax_fin. now rewrite fold_max_one.
  - rewrite n1_fin. reflexivity.
Qed.

(* ---- C68: forecasts at the dates of the samples ---- *)
Section Pointwise.
  Context {T : Type} `{NumOps T}.
  Notation M := (fmodel T).
  (* the value for a sample depends on its own x and date only *)
  Definition pointwise (m : M) (g : bool -> list T -> T -> Z -> T) : Prop := forall xs ds p mult act,
    length p = fm_n m -> length xs = length ds ->
    call m xs (Some ds) (Some p) mult (mkKw act []) = Ok (Ar (map (fun q => g mult p (fst q) (snd q)) (combine xs ds))).

  Lemma combine_fst_len {A B} (l : list A) (l' : list B) : length l = length l' -> map fst (combine l l') = l.
  Proof. revert l'. induction l as [|a l IH]; intros [|b l'] L; try discriminate; cbn; [reflexivity|]. f_equal. apply IH. now injection L. Qed.
  Lemma combine_snd_len {A B} (l : list A) (l' : list B) : length l = length l' -> map snd (combine l l') = l'.
  Proof. revert l'. induction l as [|a l IH]; intros [|b l'] L; try discriminate; cbn; [reflexivity|]. f_equal. apply IH. now injection L. Qed.
  Lemma wday_pointwise : pointwise model_season_wday (fun mult p _ t => wday_value mult p t).
  Proof.
    intros xs ds p mult act L Lx. rewrite wday_formula by exact L. do 2 f_equal.
    rewrite <- (map_map snd (wday_value mult p)). now rewrite combine_snd_len.
  Qed.
  Lemma month_pointwise : pointwise model_season_month (fun mult p _ t => month_value mult p t).
  Proof.
    intros xs ds p mult act L Lx. rewrite (proj1 (month_formula xs ds p mult act L)). do 2 f_equal.
    rewrite <- (map_map snd (month_value mult p)). now rewrite combine_snd_len.
  Qed.
  Lemma linear_pointwise : pointwise model_linear (fun _ p x _ => nadd (nmul (nth 0 p nnan) x) (nth 1 p nnan)).
  Proof.
    intros xs ds p mult act L Lx. destruct p as [|a [|b [|]]]; try discriminate. unfold call. cbn. do 2 f_equal. rewrite <- (map_map fst (fun x => nadd (nmul a x) b)). now rewrite combine_fst_len.
  Qed.
  Lemma constant_pointwise : pointwise model_constant (fun _ p _ _ => nth 0 p nnan).
  Proof.
    intros xs ds p mult act L Lx. destruct p as [|a [|]]; try discriminate. unfold call. cbn.
    do 2 f_equal. rewrite <- (combine_fst_len xs ds Lx) at 1. rewrite map_length. induction (combine xs ds); cbn; [reflexivity|]. now f_equal.
  Qed.
  Lemma combine_pointwise sep op mode (m1 m2 : M) g1 g2 : pointwise m1 g1 -> pointwise m2 g2 ->
    pointwise (combine_models sep op mode m1 m2)
      (fun _ p x t => op (g1 mode (firstn (fm_n m1) p) x t) (g2 mode (skipn (fm_n m1) p) x t)).
  Proof.
    intros P1 P2 xs ds p mult act L Lx. unfold combine_models, mk_model in L. cbn [fm_n] in L. unfold call, combine_models, mk_model. cbn [fm_f].
    unfold f_combine, p_slice. cbn [rbind].
    assert (A : length (firstn (fm_n m1) p) = fm_n m1) by (rewrite firstn_length; lia).
    assert (B : length (skipn (fm_n m1) p) = fm_n m2) by (rewrite skipn_length; lia).
    pose proof (P1 xs ds _ mode act A Lx) as E1. pose proof (P2 xs ds _ mode act B Lx) as E2. unfold call in E1, E2. rewrite E1, E2.
    cbn [rbind bcast2]. rewrite !map_length, Nat.eqb_refl. do 2 f_equal. unfold map2. clear. induction (combine xs ds) as [|q l IH]; cbn; [reflexivity|].
    f_equal. exact IH.
  Qed.
  Lemma sum_pointwise (m1 m2 : M) g1 g2 : fm_name m1 <> "null" -> fm_name m2 <> "null" -> pointwise m1 g1 -> pointwise m2 g2 ->
    pointwise (madd m1 m2) (fun _ p x t => nadd (g1 false (firstn (fm_n m1) p) x t) (g2 false (skipn (fm_n m1) p) x t)).
  Proof. intros N1 N2 P1 P2. unfold madd. rewrite !is_null_false by assumption. now apply combine_pointwise. Qed.
  Lemma product_pointwise (m1 m2 : M) g1 g2 : fm_name m1 <> "null" -> fm_name m2 <> "null" -> pointwise m1 g1 -> pointwise m2 g2 ->
    pointwise (mmul m1 m2) (fun _ p x t => nmul (g1 true (firstn (fm_n m1) p) x t) (g2 true (skipn (fm_n m1) p) x t)).
  Proof. intros N1 N2 P1 P2. unfold mmul. rewrite !is_null_false by assumption. now apply combine_pointwise. Qed.

  Lemma extrapolate_pointwise (m : M) g p a b freq years x0 act l : pointwise m g -> length p = fm_n m ->
    extrapolate_model m (Some p) (ODate a b) freq years x0 act = Ok l ->
    exists grid, s_x_dates a b (Some m) freq years x0 = Ok grid /\ l = map (fun q => (fst q, g false p (snd q) (fst q))) grid.
  Proof.
    intros P L E. destruct (extrapolate_inv _ _ _ _ _ _ _ _ E) as (grid & v & G & C & Sv). cbn [s_x_extrapolate] in G.
    exists grid. split; [exact G|]. rewrite (P _ _ _ _ _ L) in C by (now rewrite !map_length). injection C as <-. cbn [series] in Sv.
    rewrite !map_length, combine_length, !map_length, Nat.min_id, Nat.eqb_refl in Sv. injection Sv as <-.
    clear. induction grid as [|q k IH]; cbn; [reflexivity|]. f_equal. exact IH.
  Qed.
  (* Every forecast value of a candidate is the model value at the x its date has in the fitted table;
     so at the date of a sample it is the value the residual of that sample was computed from. *)
  Definition x_counts_days (t0 : Z) (f : frame T) : Prop := has_date f = true /\ forall q, In q (rows f) -> r_x q = x_of t0 (r_date q).
  Definition same_hour (t0 : Z) (f : frame T) : Prop := detect_freq_frame f <> Some "H" \/ forall q, In q (rows f) -> aligned (r_date q) t0.
  Lemma fitted_sample c f f1 q : prepared c f = Ok f1 -> In q (rows (to_fit f1)) -> exists q0, In q0 (rows f) /\ same_sample q q0.
  Proof.
    intros Ep I. destruct (fitted_from _ _ _ _ Ep I) as (q0 & I0 & Sq). exists q0. split; [|exact Sq].
    unfold start_filter in I0. destruct (c_start c) as [d|]; [|exact I0]. destruct (has_date f); [|exact I0]. cbn in I0. now apply filter_In in I0.
  Qed.
  Lemma entry_values c source f f1 act st sp x0 t0 e g : x_counts_days t0 f -> same_hour t0 f -> prepared c f = Ok f1 ->
    zmin_opt (map (place f) (rows (to_fit f1))) = Some st -> zmin_opt (map r_x (rows (to_fit f1))) = Some x0 ->
    entry_ok source (fun m ps => extrapolate_model m (Some ps) (start_of f st sp) (detect_freq_frame f) (c_years c) x0 (Some act)) e ->
    pointwise (en_model e) g -> length (md_params (m_meta (en_meta e))) = fm_n (en_model e) ->
    forall d, In d (en_rows e) ->
      d_y d = g false (md_params (m_meta (en_meta e))) (seen (en_model e) (x_of t0 (d_date d))) (d_date d).
  Proof.
    intros [Hd Hx] Hh Ep Est Ex0 [_ R _] P L d I.
    destruct (md_fit (m_meta (en_meta e))); [|rewrite R in I; destruct I]. destruct R as (l & El & Er). unfold start_of in El. rewrite Hd in El.
    destruct (extrapolate_pointwise _ _ _ _ _ _ _ _ _ _ P L El) as (grid & G & ->).
    assert (Ir : In (d_date d, d_y d) (map (fun d => (d_date d, d_y d)) (en_rows e))) by (apply in_map_iff; eauto).
    rewrite Er in Ir. apply filter_In in Ir as [Ir _]. apply in_map_iff in Ir as ((t & v) & [= <- <-] & Ig).
    cbn [fst snd]. f_equal.
    assert (A : forall q, In q (rows (to_fit f1)) -> r_x q = x_of t0 (r_date q)).
    { intros q Iq. destruct (fitted_sample _ _ _ _ Ep Iq) as (q0 & I0 & (S1 & _ & S3 & _)). rewrite S1, S3. now apply Hx. }
    assert (Est' : zmin_opt (map r_date (rows (to_fit f1))) = Some st).
    { rewrite <- Est. f_equal. apply map_ext. intros q. unfold place. now rewrite Hd. }
    apply (extrapolation_x (en_model e) (rows (to_fit f1)) t0 st sp (detect_freq_frame f) (c_years c) x0 grid); auto.
    destruct Hh as [N|Al]; [now left|right]. apply zmin_opt_iff in Est' as [Is _]. apply in_map_iff in Is as (q & <- & Iq).
    destruct (fitted_sample _ _ _ _ Ep Iq) as (q0 & I0 & (S1 & _)). rewrite S1. now apply Al.
  Qed.
  Theorem forecast_values W c source f r t0 : x_counts_days t0 f -> same_hour t0 f ->
    run_forecast_single W (set_all true c) source f = Ok r ->
    exists f1 act acts (es : list entry), prepared c f = Ok f1 /\ model_actuals f (to_fit f1) = Ok act /\
      rs_data r = acts ++ concat (map en_rows es) /\ rs_meta r = map en_meta es /\
      Forall (fun d => d_actual d = true) acts /\
      forall e g, In e es -> pointwise (en_model e) g -> length (md_params (m_meta (en_meta e))) = fm_n (en_model e) ->
        forall d, In d (en_rows e) ->
          d_y d = g false (md_params (m_meta (en_meta e))) (seen (en_model e) (x_of t0 (d_date d))) (d_date d).
  Proof.
    intros Hx Hh E. destruct (fit_table _ _ _ _ _ E) as (f1 & range & mode & act & st & sp & x0 & acts & es & Ep & _ & _ & Ea & Est & _ & Ex0 & Ed & Em & _ & Fa & Fe).
    exists f1, act, acts, es. split; [exact Ep|]. split; [exact Ea|]. split; [exact Ed|]. split; [exact Em|]. split; [eapply Forall_impl; [|exact Fa]; intros d K; apply K|].
    intros e g Ie P L. rewrite Forall_forall in Fe. destruct (Fe e Ie) as (_ & _ & R). now apply (entry_values c source f f1 act st sp x0 t0 e g).
  Qed.
  (* what the residuals are computed from *)
  Lemma nth_error_combine_maps {A B C} (h : A -> B) (k : A -> C) (l : list A) i q : nth_error l i = Some q -> nth_error (combine (map h l) (map k l)) i = Some (h q, k q).
  Proof. revert i. induction l as [|a l IH]; intros [|i]; cbn; try discriminate; [now intros [= ->]|apply IH]. Qed.
  Lemma x_of_seen (m : M) r : FitProofs.x_of m r = seen m (r_x r).
  Proof. unfold FitProofs.x_of, seen, requires_scaling. now rewrite orb_comm. Qed.
  Theorem fitted_values m (f act : frame T) g p : pointwise m g -> has_date f = true -> length p = fm_n m ->
    exists l, call m (xs_of m f) (dates_of f) (Some p) false (mkKw (Some act) []) = Ok (Ar l) /\ length l = length (usable_rows f) /\
      forall i q, nth_error (usable_rows f) i = Some q -> nth_error l i = Some (g false p (seen m (r_x q)) (r_date q)).
  Proof.
    intros P D L. unfold dates_of. rewrite D. rewrite (P _ _ _ _ _ L) by (unfold xs_of; now rewrite !map_length).
    eexists. split; [reflexivity|]. split; [unfold xs_of; rewrite map_length, combine_length, !map_length; lia|].
    intros i q E. unfold xs_of. rewrite nth_error_map, (nth_error_combine_maps _ _ _ _ _ E). cbn. now rewrite x_of_seen.
  Qed.
  Theorem in_sample W c source f r t0 : x_counts_days t0 f -> same_hour t0 f ->
    run_forecast_single W (set_all true c) source f = Ok r ->
    exists f1 act acts (es : list entry), prepared c f = Ok f1 /\ model_actuals f (to_fit f1) = Ok act /\
      rs_data r = acts ++ concat (map en_rows es) /\ rs_meta r = map en_meta es /\
      Forall (fun d => d_actual d = true) acts /\
      forall e g, In e es -> pointwise (en_model e) g -> length (md_params (m_meta (en_meta e))) = fm_n (en_model e) ->
        exists l, call (en_model e) (xs_of (en_model e) (to_fit f1)) (dates_of (to_fit f1)) (Some (md_params (m_meta (en_meta e)))) false
                    (mkKw (Some act) []) = Ok (Ar l) /\ length l = length (usable_rows (to_fit f1)) /\
          forall d i q, In d (en_rows e) -> nth_error (usable_rows (to_fit f1)) i = Some q -> r_date q = d_date d -> nth_error l i = Some (d_y d).
  Proof.
    intros Hx Hh E. destruct (forecast_values _ _ _ _ _ _ Hx Hh E) as (f1 & act & acts & es & Ep & Ea & Ed & Em & Fa & V).
    exists f1, act, acts, es. do 5 (split; [assumption|]). intros e g Ie P L.
    destruct Hx as [Hd Hx]. destruct (prepared_places _ _ _ Ep) as [_ Dp]. destruct (with_weights_rows f1) as [_ Dw].
    assert (Df : has_date (to_fit f1) = true) by (unfold to_fit; cbn; now rewrite Dw, Dp).
    destruct (fitted_values (en_model e) (to_fit f1) act g _ P Df L) as (l & C & Ll & N). exists l. split; [exact C|]. split; [exact Ll|].
    intros d i q I Iq Dq. rewrite (N i q Iq), (V e g Ie P L d I), <- Dq. do 3 f_equal. symmetry. apply nth_error_In in Iq.
    unfold usable_rows in Iq. apply filter_In in Iq as [Iq _].
    destruct (fitted_sample _ _ _ _ Ep Iq) as (q0 & I0 & (S1 & _ & S3 & _)). rewrite S1, S3. symmetry. now apply Hx.
  Qed.
End Pointwise.
