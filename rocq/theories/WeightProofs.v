(* Specifications and lemmas for C81: only the ratios of the weights matter. *)
From Coq Require Import ZArith String List Bool Lia Reals Lra Sorted Permutation QArith_base.
From Verif Require Import Num Py Cal Fmt Model Base Fixed Naive Freq Aic Normalize Fit Interp Select Stats Outliers Pi Forecast.
From Verif Require Import NumProofs ListProofs StringProofs ModelProofs BaseProofs GuessProofs FixedProofs FitProofs SeasonProofs CacheProofs AicProofs StatsProofs FreqProofs GridProofs InterpProofs NaiveProofs PiProofs ForecastProofs ForecastProofs2 ExtendProofs MetaProofs LsqProofs RobustProofs OutlierProofs OutlierReals TotalProofs TotalProofs2 TotalProofs3 UniqueProofs ScaleProofs ExistProofs.
Import ListNotations.
Local Open Scope string_scope.
Local Open Scope list_scope.
Local Open Scope R_scope.

(* every weight times k *)
Definition scale_w (k : R) (f : frame XR) : frame XR :=
  mkFrame (has_date f) (has_src f) (has_w f) (map (fun r => set_w r (nmul (Fin k) (r_w r))) (rows f)).

(* [th] gives the smallest sum of squares [ssq rs] within the bounds *)
Definition minimum (F : list XR -> res (list XR)) (b : bounds XR) (th rs : list R) : Prop :=
  length th = length (b_lo b) /\ entries_within (fins th) b /\ F (fins th) = Ok (fins rs) /\
  forall th' rs', length th' = length (b_lo b) -> entries_within (fins th') b -> F (fins th') = Ok (fins rs') -> ssq rs <= ssq rs'.
(* no other parameters do *)
Definition only_minimum (F : list XR -> res (list XR)) (b : bounds XR) : Prop :=
  forall th rs th' rs', minimum F b th rs -> minimum F b th' rs' -> th' = th.
(* the optimizer finds such parameters from any guess *)
Definition finds (E : env XR) (F : list XR -> res (list XR)) (b : bounds XR) : Prop :=
  forall g, length g = length (b_lo b) -> exists th rs, e_lsq E F g b = LDone true (Fin (ssq rs / 2)) (fins th) /\ minimum F b th rs.
(* the residuals of a fit *)
Definition fit_residuals (m : fmodel XR) (u : frame XR) (act : option (frame XR)) (cache : dict (cval XR)) (p : list XR) : res (list XR) :=
  get_residuals (Some p) m (xs_of m u) (ys_of u) (dates_of u) (ws_of u) act cache.
Definition cache_of (m : fmodel XR) (u : frame XR) (uc : bool) : res (dict (cval XR)) :=
  if uc then init_cache m (xs_of m u) (dates_of u) else Ok [].
(* what is the same in both runs *)
Definition found (d : meta XR) := (md_source d, md_model d, md_range d, md_freq d, md_fit d, md_status d, md_params d).

(* a fit of a model that simplification leaves alone keeps the name *)
Lemma fit_name_kept E m u freq src act uc (d : meta XR) : (forall arr, simplify_model arr m (Some (xs_of m u)) (Some (ys_of u)) (dates_of u) = Ok m) ->
  fit_model E m u freq src act uc = Ok d -> md_model d = fm_name m.
Proof.
  intros Sm. unfold fit_model. rewrite (fit_unfold zero_lt_XR). intros K.
  destruct (range_label E (xs_of m u) (dates_of u)) as [range|]; [|discriminate]. cbn [rbind] in K. cbv zeta in K.
  destruct (Nat.ltb _ _); [injection K as <-; reflexivity|].
  destruct (validate_input m _ _ _) as [[|]|]; cbn [rbind negb] in K; [|injection K as <-; reflexivity|discriminate].
  rewrite Sm in K. cbn [rbind] in K. destruct (Nat.eqb _ _).
  - destruct (get_residuals _ _ _ _ _ _ _ _) as [rs|]; [|discriminate]. cbn [rbind] in K. destruct (get_aic_c _ _ _) as [a|]; [|discriminate]. cbn [rbind] in K. injection K as <-. reflexivity.
  - destruct (optimize_least_squares _ _ _ _ _ _ _ _) as [[[su co] p]|]; [|discriminate]. cbn [rbind] in K.
    destruct (get_aic_c _ _ _) as [a|]; [|discriminate]. injection K as <-. reflexivity.
Qed.

Section Weights.
  Variable k : R.
  Hypothesis Hk : 0 < k.
  Notation sc := (OutlierReals.sc k).
  Definition wr (r : row XR) : row XR := set_w r (sc (r_w r)).
  Definition wf (f : frame XR) : frame XR := mkFrame (has_date f) (has_src f) (has_w f) (map wr (rows f)).
  Lemma sc_mul_k a : nmul (Fin k) a = sc a.
  Proof.
    destruct a; cbn; try reflexivity; unfold xsgninf, Reqb, Rltb; destruct (Req_EM_T k 0); try lra; destruct (Rlt_dec k 0); try lra; reflexivity.
  Qed.
  Lemma wf_spec f : scale_w k f = wf f.
  Proof. unfold scale_w, wf. f_equal. apply map_ext. intros r. unfold wr. now rewrite sc_mul_k. Qed.
  Lemma rows_wf f : rows (wf f) = map wr (rows f).
  Proof. reflexivity. Qed.
  Lemma sc_pos a : nltb n0 (sc a) = nltb n0 a.
  Proof. rewrite <- (sc_zero k) at 1. now apply sc_ltb. Qed.
  Lemma filter_wr (p : row XR -> bool) l : (forall r, p (wr r) = p r) -> filter p (map wr l) = map wr (filter p l).
  Proof. intros E. now apply filter_map_same. Qed.
  Lemma usable_wf f : usable_rows (wf f) = map wr (usable_rows f).
  Proof.
    unfold usable_rows. rewrite rows_wf. apply filter_wr. intros r. unfold usable. cbn [wf has_w wr set_w r_y r_w]. now rewrite sc_nan, sc_pos.
  Qed.
  Lemma map_wr_x (l : list (row XR)) : map r_x (map wr l) = map r_x l.
  Proof. rewrite map_map. reflexivity. Qed.
  Lemma map_wr_date (l : list (row XR)) : map r_date (map wr l) = map r_date l.
  Proof. rewrite map_map. reflexivity. Qed.
  Lemma xs_wf m f : xs_of m (wf f) = xs_of m f.
  Proof. unfold xs_of. rewrite usable_wf, map_map. reflexivity. Qed.
  Lemma ys_wf f : ys_of (wf f) = ys_of f.
  Proof. unfold ys_of. rewrite usable_wf, !map_map. reflexivity. Qed.
  Lemma dates_wf f : dates_of (wf f) = dates_of f.
  Proof. unfold dates_of. rewrite usable_wf, map_map. reflexivity. Qed.
  Lemma count_wf (l : list (row XR)) x : count_x (map wr l) x = count_x l x.
  Proof. unfold count_x. rewrite filter_wr by reflexivity. now rewrite map_length. Qed.
  Lemma ws_wf f : has_w f = true -> exists w, ws_of f = Some w /\ ws_of (wf f) = Some (map sc w).
  Proof.
    intros Hw. unfold ws_of, fit_rows. rewrite !(fitted_eq zero_lt_XR), usable_wf, map_wr_x. cbn [wf has_w]. rewrite Hw.
    destruct (has_dup Z.eqb (map r_x (usable_rows f))); cbn [has_w rows]; eexists; (split; [reflexivity|]); f_equal; rewrite !map_map; apply map_ext; intros r; cbn [set_w r_w wr r_x].
    - rewrite count_wf, ofZ_fin. now apply sc_cdiv.
    - reflexivity.
  Qed.
  Lemma finite_wf f : finite_rows f -> finite_rows (wf f).
  Proof.
    unfold finite_rows. rewrite usable_wf, Forall_map. intros F. eapply Forall_impl; [|exact F]. intros r [A B]. cbn [wr set_w r_y r_w wf has_w]. split; [exact A|].
    intros Hw. rewrite (B Hw). reflexivity.
  Qed.

  (* ---- preparation ---- *)
  Lemma start_wf s f : start_filter s (wf f) = wf (start_filter s f).
  Proof.
    unfold start_filter. destruct s; [|reflexivity]. cbn [wf has_date]. destruct (has_date f); [|reflexivity]. unfold with_rows, wf. cbn.
    f_equal. now rewrite filter_wr by reflexivity.
  Qed.
  Lemma outliers_wf f : model_outliers (wf f) = model_outliers f.
  Proof. unfold model_outliers. rewrite rows_wf. cbn [wf has_date]. rewrite ?map_length, ?map_map. reflexivity. Qed.
  Lemma spikes_wf f : has_w f = true -> ignore_spikes (wf f) = rmap wf (ignore_spikes f).
  Proof.
    intros Hw. unfold ignore_spikes. rewrite outliers_wf. destruct (model_outliers f) as [[st sp]|e]; [|reflexivity]. cbn [rbind rmap].
    f_equal. unfold wf. cbn [has_date has_src has_w rows]. f_equal. rewrite combine_map_l, !map_map. apply map_ext. intros [r b]. cbn [fst snd]. rewrite Hw.
    unfold wr. cbn [set_w r_w r_date r_src r_x r_y]. rewrite (sc_mul_r k Hk). reflexivity.
  Qed.
  Lemma prepared_wf c f : has_w f = true -> prepared c (wf f) = rmap wf (prepared c f).
  Proof.
    intros Hw. unfold prepared. rewrite start_wf. destruct (c_outliers c); [|reflexivity]. apply spikes_wf.
    unfold start_filter. destruct (c_start c); [|exact Hw]. destruct (has_date f); exact Hw.
  Qed.
  Lemma prepared_w c f f1 : has_w f = true -> prepared c f = Ok f1 -> has_w f1 = true.
  Proof.
    intros Hw. unfold prepared. destruct (c_outliers c).
    - unfold ignore_spikes. destruct (model_outliers _) as [[st sp]|]; [|discriminate]. cbn [rbind]. intros [= <-]. reflexivity.
    - intros [= <-]. unfold start_filter. destruct (c_start c); [|exact Hw]. destruct (has_date f); exact Hw.
  Qed.
  Lemma with_weights_wf f : has_w f = true -> with_weights (wf f) = wf (with_weights f).
  Proof. intros Hw. unfold with_weights. cbn [wf has_w]. now rewrite Hw. Qed.
  Lemma positive_wf f : positive (wf f) = wf (positive f).
  Proof. unfold positive, with_rows, wf. cbn. f_equal. apply filter_wr. intros r. cbn. apply sc_pos. Qed.
  Lemma place_wf f l : map (place (wf f)) (map wr l) = map (place f) l.
  Proof. rewrite map_map. reflexivity. Qed.
  Lemma input_range_wf f : input_range (wf f) = input_range f.
  Proof. unfold input_range. rewrite rows_wf, place_wf. reflexivity. Qed.
  Lemma freq_wf f : detect_freq_frame (wf f) = detect_freq_frame f.
  Proof. unfold detect_freq_frame. rewrite rows_wf. cbn [wf has_date]. rewrite map_wr_date. reflexivity. Qed.
  Lemma lookup_wf key l t : (forall r, key (wr r) = key r) -> lookup key (map wr l) t = option_map wr (lookup key l t).
  Proof.
    intros E. unfold lookup. induction l as [|r l IH]; [reflexivity|]. cbn [map find]. rewrite E. destruct (Z.eqb (key r) t); [reflexivity|exact IH].
  Qed.
  Lemma mk_rows_wf ds ss xs ys ws : mk_rows ds ss xs ys (map sc ws) = map wr (mk_rows ds ss xs ys ws).
  Proof.
    unfold mk_rows. revert ss xs ys ws. induction ds as [|d ds IH]; intros [|s ss] [|x xs] [|y ys] [|w ws]; try reflexivity. cbn [combine map].
    rewrite IH. reflexivity.
  Qed.
  Lemma column_wf get l : (forall r, get (wr r) = sc (get r)) -> column get (map (option_map wr) l) = map sc (column get l).
  Proof. intros E. unfold column. rewrite !map_map. apply map_ext. intros [r|]; [apply E|reflexivity]. Qed.
  Lemma column_same_wf get l : (forall r, get (wr r) = get r) -> column get (map (option_map wr) l) = column get l.
  Proof. intros E. unfold column. rewrite map_map. apply map_ext. intros [r|]; [apply E|reflexivity]. Qed.
  Lemma src_column_wf l : src_column (map (option_map wr) l) = src_column l.
  Proof. unfold src_column. rewrite map_map. apply map_ext. now intros [r|]. Qed.
  Lemma interpolate_wf f : interpolate_df false (wf f) = rmap wf (interpolate_df false f).
  Proof.
    unfold interpolate_df. cbn [wf has_date has_src has_w rows]. rewrite map_wr_x, map_wr_date. destruct (has_date f); cbn [negb].
    - destruct (Interp.regular (map r_date (rows f)) && _)%bool; [reflexivity|]. destruct (has_dup Z.eqb (map r_date (rows f))); [reflexivity|].
      destruct (zmin_opt (map r_date (rows f))), (zmax_opt (map r_date (rows f))); try reflexivity. destruct (asfreq_range _ _ _) as [grid|]; [|reflexivity]. cbn [rbind].
      rewrite (map_ext (lookup r_date (map wr (rows f))) (fun t => option_map wr (lookup r_date (rows f) t))) by (intros t; now apply lookup_wf).
      rewrite <- (map_map (lookup r_date (rows f)) (option_map wr)). rewrite column_same_wf by reflexivity.
      destruct (to_ints _) as [xs|]; [|reflexivity]. cbn [rbind rmap]. f_equal. unfold wf. cbn [has_date has_src has_w rows]. f_equal.
      rewrite src_column_wf, (column_wf r_w) by reflexivity. rewrite column_same_wf by reflexivity. apply mk_rows_wf.
    - destruct (Interp.regular (map r_x (rows f))); [reflexivity|]. destruct (has_dup Z.eqb (map r_x (rows f))); [reflexivity|].
      destruct (zmin_opt (map r_x (rows f))), (zmax_opt (map r_x (rows f))); try reflexivity. cbn [rmap]. f_equal. unfold wf. cbn [has_date has_src has_w rows]. f_equal.
      rewrite (map_ext (lookup r_x (map wr (rows f))) (fun t => option_map wr (lookup r_x (rows f) t))) by (intros t; now apply lookup_wf).
      rewrite <- (map_map (lookup r_x (rows f)) (option_map wr)). rewrite src_column_wf, (column_wf r_w) by reflexivity.
      rewrite (column_same_wf r_y) by reflexivity. rewrite mk_rows_wf. cbn [rbind rmap has_date has_src has_w rows].
      rewrite (map_map (option_map wr)). do 4 f_equal. apply map_ext. now intros [r|].
  Qed.
  Lemma isort_wr (le : row XR -> row XR -> bool) l : (forall a b, le (wr a) (wr b) = le a b) -> isort le (map wr l) = map wr (isort le l).
  Proof.
    intros E. induction l as [|a l IH]; [reflexivity|]. cbn [map isort]. rewrite IH. generalize (isort le l). clear IH. intros m.
    induction m as [|b m IHm]; [reflexivity|]. cbn [map insert]. rewrite E. destruct (le a b); [reflexivity|]. cbn [map]. now rewrite IHm.
  Qed.
  Lemma actuals_wf f u : model_actuals (wf f) (wf u) = rmap wf (model_actuals f u).
  Proof.
    unfold model_actuals. rewrite interpolate_wf. destruct (interpolate_df false f) as [g|]; [|reflexivity]. cbn [rbind rmap]. f_equal.
    unfold wf at 1 2 3 4 5. cbn [has_date has_src has_w rows]. f_equal.
    rewrite isort_wr by reflexivity. generalize (isort (fun a b => Z.leb (r_x a) (r_x b)) (rows g)). intros l.
    induction l as [|r l IH]; [reflexivity|]. cbn [map flat_map]. rewrite map_app, IH. f_equal. rewrite map_map.
    assert (Ew : map r_w (filter (fun q => Z.eqb (r_x q) (r_x (wr r))) (map wr (rows u))) = map sc (map r_w (filter (fun q => Z.eqb (r_x q) (r_x r)) (rows u)))).
    { rewrite filter_wr by reflexivity. rewrite !map_map. reflexivity. }
    rewrite Ew. set (ws := map r_w (filter (fun q => Z.eqb (r_x q) (r_x r)) (rows u))).
    assert (Em : match map sc ws with [] => [n0] | a :: b => a :: b end = map sc (match ws with [] => [n0] | a :: b => a :: b end)).
    { destruct ws; [|reflexivity]. cbn [map]. now rewrite sc_zero. }
    rewrite Em, map_map. apply map_ext. intros w. unfold wr. cbn [set_w r_date r_src r_x r_y r_w]. rewrite sc_nan.
    destruct (nisnan w); [rewrite sc_zero; reflexivity|]. now rewrite sc_pos.
  Qed.
  Lemma weighted_dates_wf f : weighted_dates (wf f) = weighted_dates f.
  Proof.
    unfold weighted_dates. change (has_w (wf f)) with (has_w f). rewrite rows_wf. destruct (has_w f); [rewrite filter_wr by (intros r; apply sc_pos)|]; now rewrite map_wr_date.
  Qed.

  (* ---- one fit ---- *)
  Lemma sc_mul_l a b : nmul a (sc b) = sc (nmul a b).
  Proof.
    destruct a, b; cbn; try reflexivity; unfold xsgninf, Reqb, Rltb;
      repeat match goal with |- context [Req_EM_T ?u ?v] => destruct (Req_EM_T u v) | |- context [Rlt_dec ?u ?v] => destruct (Rlt_dec u v) end;
      cbn; try reflexivity; try (exfalso; nra); try (f_equal; ring).
  Qed.
  Lemma weigh_wf v w : bcast2 nmul v (Ar (map sc w)) = rmap (sv0 k) (bcast2 nmul v (Ar w)).
  Proof.
    assert (E : forall a b, map2 nmul a (map sc b) = map sc (map2 nmul a b)).
    { intros a. unfold map2. induction a as [|x a IH]; intros [|y b]; try reflexivity. cbn [map combine fst snd]. rewrite sc_mul_l, IH. reflexivity. }
    destruct v as [b|l]; cbn [bcast2 sv0 rmap rbind].
    - do 2 f_equal. rewrite !map_map. apply map_ext. intros a. apply sc_mul_l.
    - rewrite !map_length. destruct (Nat.eqb _ _); [cbn [rmap rbind sv0]; now rewrite E|].
      destruct l as [|x [|x2 l]], w as [|y [|y2 w]]; cbn [map rmap rbind sv0]; try reflexivity; do 2 f_equal; cbn [map]; rewrite ?map_map, ?sc_mul_l; try reflexivity;
        repeat (f_equal; try (apply map_ext; intros; apply sc_mul_l)).
  Qed.
  (* the model does not look at the weights of the actuals *)
  Definition deaf (m : fmodel XR) : Prop := forall x d p mode act cache,
    fm_f m x d p mode (mkKw (Some (wf act)) cache) = fm_f m x d p mode (mkKw (Some act) cache).
  Lemma deaf_call m x d p b act cache : deaf m -> call m x d p b (mkKw (option_map wf act) cache) = call m x d p b (mkKw act cache).
  Proof. intros D. destruct act as [act|]; [|reflexivity]. unfold call. cbn [option_map]. now rewrite D. Qed.
  Lemma residuals_wf p m u act cache : deaf m -> has_w u = true ->
    get_residuals p m (xs_of m (wf u)) (ys_of (wf u)) (dates_of (wf u)) (ws_of (wf u)) (option_map wf act) cache =
    rmap (map sc) (get_residuals p m (xs_of m u) (ys_of u) (dates_of u) (ws_of u) act cache).
  Proof.
    intros D Hw. destruct (ws_wf u Hw) as (w & -> & ->). rewrite xs_wf, ys_wf, dates_wf. unfold get_residuals. rewrite deaf_call by exact D.
    destruct (call m (xs_of m u) (dates_of u) p false (mkKw act cache)) as [v|]; [|reflexivity]. cbn [rbind].
    destruct (bcast2 nsub (Ar (ys_of u)) v) as [r|]; [|reflexivity]. cbn [rbind]. rewrite weigh_wf. destruct (bcast2 nmul r (Ar w)) as [r'|]; [|reflexivity]. cbn [rmap rbind].
    f_equal. destruct r' as [a|l]; cbn; [now rewrite <- sc_abs by exact Hk|]. rewrite !map_map. apply map_ext. intros a. now apply sc_abs.
  Qed.
  Lemma sc_fins rs : map sc (fins rs) = fins (map (Rmult k) rs).
  Proof. unfold fins. rewrite !map_map. reflexivity. Qed.
  Lemma cons_inj {A} (a b : A) l m : a :: l = b :: m -> a = b /\ l = m.
  Proof. intros K. now injection K. Qed.
  Lemma unsc_fins l rs : map sc l = fins rs -> l = fins (map (Rmult (/ k)) rs).
  Proof.
    revert rs. induction l as [|a l IH]; intros [|r rs] K; try discriminate; [reflexivity|].
    change (sc a :: map sc l = Fin r :: fins rs) in K. apply cons_inj in K as [Ka Kl].
    change (a :: l = Fin (/ k * r) :: fins (map (Rmult (/ k)) rs)). rewrite <- (IH rs Kl). f_equal. destruct a; try discriminate. cbn in Ka.
    assert (r = k * r0) as -> by congruence. f_equal. field. lra.
  Qed.
  Lemma ssq_k c rs : ssq (map (Rmult c) rs) = c * c * ssq rs.
  Proof.
    unfold ssq. rewrite map_map. induction rs as [|r rs IH]; [cbn; ring|]. cbn [map]. change (rsum (?a :: ?l)) with (a + rsum l). rewrite IH. ring.
  Qed.
  Lemma minimum_wf m u act cache b th rs : deaf m -> has_w u = true -> minimum (fit_residuals m (wf u) (option_map wf act) cache) b th rs ->
    minimum (fit_residuals m u act cache) b th (map (Rmult (/ k)) rs).
  Proof.
    intros D Hw (L & W & F & Mn). unfold fit_residuals in *. split; [exact L|]. split; [exact W|].
    assert (Q : forall th0 rs0, fit_residuals m (wf u) (option_map wf act) cache (fins th0) = Ok (fins rs0) -> fit_residuals m u act cache (fins th0) = Ok (fins (map (Rmult (/ k)) rs0))).
    { intros th0 rs0. unfold fit_residuals. rewrite residuals_wf by assumption. generalize (get_residuals (Some (fins th0)) m (xs_of m u) (ys_of u) (dates_of u) (ws_of u) act cache). intros [l|]; [|discriminate].
      cbn [rmap rbind]. intros K. apply ok_inj in K. f_equal. apply unsc_fins. now symmetry. }
    split; [now apply Q|]. intros th' rs' L' W' F'. specialize (Mn th' (map (Rmult k) rs') L' W').
    rewrite residuals_wf in Mn by assumption. rewrite F' in Mn. cbn [rmap rbind] in Mn. rewrite sc_fins in Mn. specialize (Mn eq_refl). rewrite ssq_k in Mn |- *.
    apply Rmult_le_reg_l with (k * k); [nra|]. replace (k * k * (/ k * / k * ssq rs)) with (ssq rs) by (field; lra). exact Mn.
  Qed.
  (* The candidate has one best fit, which both optimizers find, and no bounds that fix a parameter. *)
  Definition settled_fit (E E' : env XR) (u : frame XR) (act : option (frame XR)) (uc : bool) (m : fmodel XR) : Prop :=
    deaf m /\ (forall arr, simplify_model arr m (Some (xs_of m u)) (Some (ys_of u)) (dates_of u) = Ok m) /\
    ((0 < fm_n m)%nat -> forall cache b, cache_of m u uc = Ok cache -> fm_bounds m (Some (xs_of m u)) (Some (ys_of u)) None = Ok b ->
       only_minimum (fit_residuals m u act cache) b /\ finds E (fit_residuals m u act cache) b /\ finds E' (fit_residuals m (wf u) (option_map wf act) cache) b).
  Lemma pair_fit E E' m u freq src act uc d d' : e_num E' = e_num E -> has_w u = true -> settled_fit E E' u act uc m ->
    fit_model E m u freq src act uc = Ok d -> fit_model E' m (wf u) freq src (option_map wf act) uc = Ok d' ->
    found d' = found d /\
    (md_fit d = true -> forall c, 0 < c -> md_cost d = Fin c -> exists v, md_cost d' = Fin (k * k * c) /\ md_aicc d = Fin v /\ md_aicc d' = Fin (v + INR (length (usable_rows u)) * ln (k * k))).
  Proof.
    intros En Hw (D & Sm & Cv) Ef Ef'. unfold fit_model in Ef, Ef'. rewrite (fit_unfold zero_lt_XR) in Ef, Ef'.
    rewrite dates_wf, usable_wf, map_length, xs_wf, ys_wf in Ef'.
    assert (Rg : range_label E' (xs_of m u) (dates_of u) = range_label E (xs_of m u) (dates_of u)) by (unfold range_label; now rewrite En). rewrite Rg in Ef'.
    destruct (range_label E (xs_of m u) (dates_of u)) as [rg|]; [|discriminate].
    cbn [rbind] in Ef, Ef'. cbv zeta in Ef, Ef'. destruct (Nat.ltb_spec (length (usable_rows u)) (fm_n m + 2)) as [|Ll].
    { injection Ef as <-. injection Ef' as <-. split; [reflexivity|discriminate]. }
    destruct (validate_input m _ _ _) as [v|]; [|discriminate]. cbn [rbind] in Ef, Ef'. destruct v; [|injection Ef as <-; injection Ef' as <-; split; [reflexivity|discriminate]].
    cbn [negb] in Ef, Ef'. rewrite Sm in Ef, Ef'. cbn [rbind] in Ef, Ef'.
    assert (Sc : forall c a1 a2, 0 < c -> get_aic_c (Fin c) (Z.of_nat (length (usable_rows u))) (Z.of_nat (fm_n m)) = Ok a1 ->
      get_aic_c (Fin (k * k * c)) (Z.of_nat (length (usable_rows u))) (Z.of_nat (fm_n m)) = Ok a2 -> exists v, a1 = Fin v /\ a2 = Fin (v + INR (length (usable_rows u)) * ln (k * k))).
    { intros c a1 a2 P A1 A2. assert (0 < k * k) by nra. rewrite score_pos in A1 by (try lia; exact P). rewrite score_pos in A2 by (try lia; nra).
      injection A1 as <-. injection A2 as <-. eexists. split; [reflexivity|]. f_equal. rewrite aicc_units, INR_IZR_INZ; [reflexivity|apply IZR_lt; lia|exact P|lra]. }
    destruct (Nat.eqb_spec (fm_n m) 0) as [N|N].
    - pose proof (residuals_wf None m u act [] D Hw) as Rw. rewrite xs_wf, ys_wf, dates_wf in Rw. rewrite Rw in Ef'.
      destruct (get_residuals None m (xs_of m u) (ys_of u) (dates_of u) (ws_of u) act []) as [rs|]; [|discriminate].
      cbn [rmap rbind] in Ef, Ef'. rewrite (cost_sc k) in Ef'. set (c0 := nmul (dec 5 10) (nansum (map (fun a => nmul a a) rs))) in *.
      destruct (get_aic_c c0 _ _) as [a1|] eqn:A1; [|discriminate]. destruct (get_aic_c (OutlierReals.sc (k * k) c0) _ _) as [a2|] eqn:A2; [|discriminate]. cbn [rbind] in Ef, Ef'.
      injection Ef as <-. injection Ef' as <-. split; [reflexivity|]. intros _ c P Ec. cbn [md_cost md_aicc df_fit_model] in *. rewrite Ec in *. cbn [OutlierReals.sc] in *.
      destruct (Sc c a1 a2 P A1 A2) as (v & -> & ->). exists v. auto.
    - assert (Np : (0 < fm_n m)%nat) by lia. specialize (Cv Np).
      unfold optimize_least_squares in Ef, Ef'.
      destruct (fm_init m (Some (xs_of m u)) (Some (ys_of u)) None false (e_rnd E)) as [g|]; [|discriminate]. cbn [rbind] in Ef.
      destruct (fm_init m (Some (xs_of m u)) (Some (ys_of u)) None false (e_rnd E')) as [g'|]; [|discriminate]. cbn [rbind] in Ef'.
      destruct (fm_bounds m (Some (xs_of m u)) (Some (ys_of u)) None) as [b|] eqn:Eb; [|discriminate]. cbn [rbind] in Ef, Ef'.
      assert (Gl : forall v q, validate_initial_guess q b = Ok v -> length q = length (b_lo b)).
      { intros v q. unfold validate_initial_guess. destruct (Nat.eqb_spec (length q) (length (b_lo b))) as [Q|Q]; [auto|]. cbn. discriminate. }
      destruct (validate_initial_guess g b) as [i|] eqn:V1; [|discriminate]. destruct (validate_initial_guess g' b) as [i'|] eqn:V2; [|discriminate]. cbn [rbind] in Ef, Ef'.
      apply Gl in V1, V2. destruct i; [|discriminate]. destruct i'; [|discriminate]. cbn [negb] in Ef, Ef'.
      unfold cache_of in Cv. destruct (if uc then init_cache m (xs_of m u) (dates_of u) else Ok []) as [ca|] eqn:Eca; [|discriminate]. cbn [rbind] in Ef, Ef'.
      destruct (Cv ca b eq_refl eq_refl) as (On & Fi & Fi'). destruct (Fi g V1) as (th & rs & E1 & M1). destruct (Fi' g' V2) as (th' & rs' & E2 & M2).
      unfold fit_residuals in E1, E2. rewrite xs_wf, ys_wf, dates_wf in E2.
      rewrite E1 in Ef. rewrite E2 in Ef'. cbn [rbind] in Ef, Ef'.
      pose proof (minimum_wf m u act ca b th' rs' D Hw M2) as M3. pose proof (On _ _ _ _ M1 M3) as Et. subst th'.
      assert (Er : rs' = map (Rmult k) rs).
      { destruct M1 as (_ & _ & R1 & _), M2 as (_ & _ & R2 & _). unfold fit_residuals in R1, R2. rewrite residuals_wf, R1 in R2 by assumption. cbn [rmap rbind] in R2. rewrite sc_fins in R2.
        apply ok_inj in R2. now apply fins_inj. }
      subst rs'. rewrite ssq_k in Ef'. replace (k * k * ssq rs / 2) with (k * k * (ssq rs / 2)) in Ef' by field.
      destruct (get_aic_c (Fin (ssq rs / 2)) _ _) as [a1|] eqn:A1; [|discriminate]. destruct (get_aic_c (Fin (k * k * (ssq rs / 2))) _ _) as [a2|] eqn:A2; [|discriminate]. cbn [rbind] in Ef, Ef'.
      injection Ef as <-. injection Ef' as <-. split; [reflexivity|]. intros _ c P Ec. cbn [md_cost md_aicc df_fit_model] in *. injection Ec as <-.
      destruct (Sc _ a1 a2 P A1 A2) as (v & -> & ->). exists v. auto.
  Qed.

  (* ---- forecast and intervals ---- *)
  Lemma extrapolate_deaf m p o freq years x0 act : deaf m -> extrapolate_model m p o freq years x0 (option_map wf act) = extrapolate_model m p o freq years x0 act.
  Proof. intros D. unfold extrapolate_model. destruct (s_x_extrapolate _ _ _ _ _) as [gr|]; [|reflexivity]. cbn [rbind]. now rewrite (deaf_call _ _ _ _ _ act _ D). Qed.
  (* a row of the data table: the weight of an actual times k, and new labels *)
  Definition wd (La Lf : string) (r : drow XR) : drow XR :=
    mkD (d_date r) (if d_actual r then sc (d_w r) else d_w r) (d_y r) (d_model r) (d_src r) (if d_actual r then La else Lf) (d_actual r) (d_best r).
  Lemma filter_wd La Lf (q : drow XR -> bool) l : (forall r, q (wd La Lf r) = q r) -> filter q (map (wd La Lf) l) = map (wd La Lf) (filter q l).
  Proof. intros E. now apply filter_map_same. Qed.
  Lemma map_wd La Lf {A} (q : drow XR -> A) l : (forall r, q (wd La Lf r) = q r) -> map q (map (wd La Lf) l) = map q l.
  Proof. intros E. rewrite map_map. now apply map_ext. Qed.
  Lemma sc_eq0 a : neqb (sc a) n0 = neqb a n0.
  Proof. destruct a; cbn; try reflexivity. unfold Reqb. destruct (Req_EM_T r 0), (Req_EM_T (k * r) 0); try reflexivity; exfalso; nra. Qed.
  Lemma usable_actuals_wd La Lf l : usable_actuals (map (wd La Lf) l) = usable_actuals l.
  Proof.
    unfold usable_actuals. rewrite (filter_wd La Lf (fun r => nltb n0 (d_w r) && d_actual r)%bool).
    - rewrite (filter_wd La Lf (fun r => d_actual r && with_value r)%bool) by reflexivity. rewrite map_wd by reflexivity.
      generalize (map d_date (filter (fun r => nltb n0 (d_w r) && d_actual r)%bool l)). intros ds. induction (filter (fun r => d_actual r && with_value r)%bool l) as [|r l' IH]; [reflexivity|].
      cbn [map flat_map]. rewrite IH. reflexivity.
    - intros r. unfold wd. cbn [d_w d_actual]. destruct (d_actual r); [now rewrite sc_pos|reflexivity].
  Qed.
  Lemma residuals_wd La Lf acts l : residuals acts (map (wd La Lf) l) = residuals acts l.
  Proof.
    unfold residuals. rewrite (filter_wd La Lf (fun r => negb (d_actual r) && with_value r)%bool) by reflexivity. f_equal.
    induction (filter (fun r => negb (d_actual r) && with_value r)%bool l) as [|r l' IH]; [reflexivity|]. cbn [map flat_map]. rewrite IH. reflexivity.
  Qed.
  Lemma add_percentiles_wd La Lf l m q1 q2 : add_percentiles (map (wd La Lf) l) m q1 q2 = add_percentiles l m q1 q2.
  Proof. unfold add_percentiles. destruct (_ && _)%bool; [|reflexivity]. f_equal. rewrite enumerate_map, map_map. apply map_ext. now intros [i r]. Qed.
  (* some row keeps a weight that is not zero, or none had one *)
  Lemma weighted_wd La Lf l : existsb (fun r => neqb (d_w r) n0) (map (wd La Lf) l) = existsb (fun r => neqb (d_w r) n0) l.
  Proof. induction l as [|r l IH]; [reflexivity|]. cbn [map existsb]. rewrite IH. f_equal. unfold wd. cbn [d_w d_actual]. destruct (d_actual r); [apply sc_eq0|reflexivity]. Qed.
  Lemma pi_single_wd La Lf draw ns nc q1 q2 a b c d l : pi_single draw ns nc q1 q2 (mkPT a b c d (map (wd La Lf) l)) = pi_single draw ns nc q1 q2 (mkPT a b c d l).
  Proof.
    unfold pi_single. cbn [pt_best pt_rows pt_dates pt_w pt_src].
    replace (if c then filter (fun r => d_actual r || d_best r)%bool (map (wd La Lf) l) else map (wd La Lf) l) with (map (wd La Lf) (if c then filter (fun r => d_actual r || d_best r)%bool l else l))
      by (destruct c; [now rewrite filter_wd by reflexivity|reflexivity]).
    generalize (if c then filter (fun r => d_actual r || d_best r)%bool l else l). clear l. intros l. rewrite (map_wd La Lf (@d_date XR)) by reflexivity.
    destruct (if d then days_from_freq (detect_freq (map d_date l)) else Ok 1%Z) as [fd|]; [|reflexivity]. cbn [rbind].
    rewrite (filter_wd La Lf (fun r => d_actual r && with_value r)%bool), weighted_wd, usable_actuals_wd by reflexivity.
    rewrite (map_wd La Lf (fun r => (d_date r, d_y r))), (map_wd La Lf actual_row) by reflexivity.
    destruct (if (b && existsb (fun r => neqb (d_w r) n0) l)%bool then if a then Ok (usable_actuals l) else Err KeyError
                 else Ok (map (fun r => (d_date r, d_y r)) (filter (fun r => d_actual r && with_value r)%bool l))) as [acts|]; [|reflexivity]. cbn [rbind].
    rewrite residuals_wd. destruct (residuals acts l) as [|x rs].
    { destruct (negb a); [reflexivity|]. destruct l; reflexivity. }
    destruct (zmax_opt (map fst acts)) as [last|]; [|reflexivity].
    rewrite (filter_wd La Lf (fun r => negb (d_actual r) && Z.ltb last (d_date r))%bool), (filter_wd La Lf (fun r => negb (d_actual r) && Z.leb (d_date r) last)%bool) by reflexivity.
    rewrite !map_length, !add_percentiles_wd. reflexivity.
  Qed.
  Lemma get_pi_wd La Lf draw ns nc q1 q2 w a b c d l : get_pi draw ns nc q1 q2 w (mkPT a b c d (map (wd La Lf) l)) = get_pi draw ns nc q1 q2 w (mkPT a b c d l).
  Proof.
    unfold get_pi. destruct (match nc with Some n => Ok n | None => days_from_freq w end) as [n|]; [|reflexivity]. cbn [rbind pt_src pt_rows pt_w pt_best pt_dates].
    rewrite (map_wd La Lf (@d_src XR)) by reflexivity. destruct (_ && _)%bool.
    - rewrite (rmapM_ext _ (fun s => pi_single (draw s) ns n q1 q2 (mkPT true b c d (filter (fun r => String.eqb (d_src r) s) l)))); [reflexivity|].
      intros s _. rewrite filter_wd by reflexivity. apply pi_single_wd.
    - rewrite pi_single_wd. destruct l; reflexivity.
  Qed.

  (* ---- all fits of a run ---- *)
  Definition reweighted (n : nat) (d d' : meta XR) : Prop :=
    found d' = found d /\ (md_fit d = true -> exists c v, md_cost d = Fin c /\ md_cost d' = Fin (k * k * c) /\ md_aicc d = Fin v /\ md_aicc d' = Fin (v + INR n * ln (k * k))).
  Definition reweighted_fit (La Lf : string) (n : nat) (p p' : meta XR * string * list (drow XR)) : Prop :=
    reweighted n (fst (fst p)) (fst (fst p')) /\ snd (fst p') = snd (fst p) /\ snd p' = map (wd La Lf) (snd p).
  Lemma fcast_wd La Lf g source long name : fcast_clean g source Lf name = map (wd La Lf) (fcast_clean g source long name).
  Proof. unfold fcast_clean. rewrite map_map. reflexivity. Qed.
  Lemma pair_one_w La Lf W W' c source mode freq la u act o x0 m p p' : e_num (w_env W') = e_num (w_env W) -> has_w u = true ->
    settled_fit (w_env W) (w_env W') u (Some act) (c_cache c) m ->
    fit_one W c source mode freq la u act o x0 m = Ok p -> fit_one W' c source mode freq la (wf u) (wf act) o x0 m = Ok p' ->
    md_source_long (fst (fst p')) = Lf ->
    (md_fit (fst (fst p)) = true -> exists q, 0 < q /\ md_cost (fst (fst p)) = Fin q) -> reweighted_fit La Lf (length (usable_rows u)) p p'.
  Proof.
    intros En Hw St K K' Ll Pos. unfold fit_one in K, K'.
    destruct (fit_model (w_env W) m u freq source (Some act) (c_cache c)) as [d|] eqn:Ed; [|discriminate].
    destruct (fit_model (w_env W') m (wf u) freq source (Some (wf act)) (c_cache c)) as [d'|] eqn:Ed'; [|discriminate]. cbn [rbind] in K, K'.
    assert (Fst : fst (fst p) = d) by (destruct (md_fit d); [destruct (extrapolate_model _ _ _ _ _ _ _); cbn [rbind] in K; [|discriminate K]|]; apply ok_inj in K; now rewrite K).
    assert (Fst' : fst (fst p') = d') by (clear K; destruct (md_fit d'); [destruct (extrapolate_model _ _ _ _ _ _ _); cbn [rbind] in K'; [|discriminate K']|]; apply ok_inj in K'; now rewrite K').
    rewrite Fst in Pos. rewrite Fst' in Ll.
    destruct (pair_fit _ _ _ _ _ _ _ _ _ _ En Hw St Ed Ed') as [Fo Co].
    assert (Rw : reweighted (length (usable_rows u)) d d').
    { split; [exact Fo|]. intros F. destruct (Pos F) as (q & Q & Cq). destruct (Co F q Q Cq) as (v & A & B & C). exists q, v. auto. }
    pose proof (extrapolate_deaf m (Some (md_params d)) o freq (c_years c) x0 (Some act) (proj1 St)) as Ex. cbn [option_map] in Ex.
    assert (Ff : md_fit d' = md_fit d /\ md_params d' = md_params d) by (unfold found in Fo; split; congruence).
    destruct Ff as [Ff Fp]. rewrite Ff, Fp, Ex in K'. destruct (md_fit d).
    - destruct (extrapolate_model m (Some (md_params d)) _ _ _ _ _) as [g|]; [|discriminate]. cbn [rbind] in K, K'.
      injection K as <-. injection K' as <-. split; [exact Rw|]. split; [reflexivity|]. cbn [snd]. rewrite Ll. apply fcast_wd.
    - injection K as <-. injection K' as <-. split; [exact Rw|]. split; reflexivity.
  Qed.
  Lemma best_wd W W' n l l' : sorts W -> sorts W' -> Forall2 (reweighted n) l l' ->
    (forall d e, In d l -> In e l -> md_fit d = true -> md_fit e = true -> md_aicc d = md_aicc e -> md_model d = md_model e) ->
    option_map md_model (best_fit W' l') = option_map md_model (best_fit W l).
  Proof.
    intros So So' F U. assert (Rk : forall d d', reweighted n d d' -> md_model d' = md_model d /\ md_fit d' = md_fit d) by (intros d d' [Fo _]; unfold found in Fo; split; congruence).
    destruct (best_fit W l) as [b|] eqn:Eb.
    - destruct (best_fit_some W l b So Eb) as (I & Fb & Nw). destruct (Forall2_l _ _ _ b F I) as (b' & I' & Cb). destruct (Rk _ _ Cb) as [_ Fb'].
      destruct (best_fit W' l') as [e'|] eqn:Ee; [|rewrite (best_fit_none W' l' So' Ee b' I') in Fb'; congruence].
      destruct (best_fit_some W' l' e' So' Ee) as (Ie' & Fe' & Nw'). destruct (Forall2_r _ _ _ e' F Ie') as (e & Ie & Ce). destruct (Rk _ _ Ce) as [Ke Fe].
      cbn [option_map]. f_equal. rewrite Ke. rewrite Fe' in Fe. symmetry in Fe. apply U; try assumption.
      destruct Cb as [_ Cb], Ce as [_ Ce]. destruct (Cb Fb) as (c1 & v1 & _ & _ & A1 & A1'). destruct (Ce Fe) as (c2 & v2 & _ & _ & A2 & A2').
      pose proof (no_worse_reals _ _ _ _ A1 A2 (Nw e Ie Fe)). pose proof (no_worse_reals _ _ _ _ A2' A1' (Nw' b' I' ltac:(congruence))).
      rewrite A1, A2. f_equal. lra.
    - destruct (best_fit W' l') as [e'|] eqn:Ee; [|reflexivity]. destruct (best_fit_some W' l' e' So' Ee) as (Ie' & Fe' & _).
      destruct (Forall2_r _ _ _ e' F Ie') as (e & Ie & Ce). destruct (Rk _ _ Ce) as [_ Fe]. rewrite (best_fit_none W l So Eb e Ie) in Fe. congruence.
  Qed.
  Definition same_choice (n : nat) (m m' : mrow XR) : Prop := m_label m' = m_label m /\ m_best m' = m_best m /\ reweighted n (m_meta m) (m_meta m').
  (* all fits of a run carry the source and one long label *)
  Definition labelled (source L : string) (p : meta XR * string * list (drow XR)) : Prop :=
    md_source (fst (fst p)) = source /\ md_source_long (fst (fst p)) = L /\ Forall (fun r => d_src r = source /\ d_long r = L /\ d_actual r = false) (snd p).
  Lemma assemble_wd W W' all w w' acts fits fits' n source L La L' : sorts W -> sorts W' -> Forall2 (reweighted_fit La L' n) fits fits' ->
    Forall (labelled source L) fits -> Forall (labelled source L') fits' ->
    Forall (fun r => d_model r = "actuals" /\ d_actual r = true) acts -> (forall p, In p fits -> md_model (fst (fst p)) <> "actuals") ->
    (forall p q, In p fits -> In q fits -> md_fit (fst (fst p)) = true -> md_fit (fst (fst q)) = true ->
       md_aicc (fst (fst p)) = md_aicc (fst (fst q)) -> md_model (fst (fst p)) = md_model (fst (fst q))) ->
    fst (assemble W' all w' (map (wd La L') acts) fits') = map (wd La L') (fst (assemble W all w acts fits)) /\
    Forall2 (same_choice n) (snd (assemble W all w acts fits)) (snd (assemble W' all w' (map (wd La L') acts) fits')).
  Proof.
    intros So So' F Lb Lb' Ac Na U. unfold assemble.
    assert (Fd : Forall2 (reweighted n) (map (fun p => fst (fst p)) fits) (map (fun p => fst (fst p)) fits')).
    { clear - F. induction F as [|p p' l l' [C _] F IH]; constructor; assumption. }
    assert (B : option_map md_model (best_fit W' (map (fun p => fst (fst p)) fits')) = option_map md_model (best_fit W (map (fun p => fst (fst p)) fits))).
    { apply (best_wd W W' n); try assumption. intros d e Id Ie. apply in_map_iff in Id as (p & <- & Ip). apply in_map_iff in Ie as (q & <- & Iq). now apply U. }
    assert (Bi : forall b, best_fit W (map (fun p => fst (fst p)) fits) = Some b -> md_source b = source /\ md_source_long b = L /\ md_model b <> "actuals").
    { intros b Eb. destruct (best_fit_some W _ b So Eb) as (I & _). apply in_map_iff in I as (p & <- & Ip). pose proof (proj1 (Forall_forall _ _) Lb p Ip) as (A1 & A2 & _). auto. }
    assert (Bi' : forall b, best_fit W' (map (fun p => fst (fst p)) fits') = Some b -> md_source b = source /\ md_source_long b = L').
    { intros b Eb. destruct (best_fit_some W' _ b So' Eb) as (I & _). apply in_map_iff in I as (p & <- & Ip). pose proof (proj1 (Forall_forall _ _) Lb' p Ip) as (A1 & A2 & _). auto. }
    generalize dependent (best_fit W' (map (fun p => fst (fst p)) fits')). generalize dependent (best_fit W (map (fun p => fst (fst p)) fits)). intros b Bi b' B Bi'.
    assert (Kb : forall name, is_best b' source L' name = is_best b source L name).
    { intros name. destruct b as [b|], b' as [b'|]; cbn in B; try discriminate; [|reflexivity]. injection B as B. destruct (Bi b eq_refl) as (A1 & A2 & _). destruct (Bi' b' eq_refl) as (A1' & A2').
      unfold is_best. rewrite A1, A2, A1', A2', B, !String.eqb_refl. reflexivity. }
    assert (Ka : forall s l, is_best b s l "actuals" = false /\ is_best b' s l "actuals" = false).
    { intros s l. unfold is_best. destruct b as [b|], b' as [b'|]; cbn in B; try discriminate; [|auto]. injection B as B. destruct (Bi b eq_refl) as (_ & _ & A). rewrite B.
      apply String.eqb_neq in A. rewrite A, !andb_false_r. auto. }
    assert (D : map (flag_data b') (map (wd La L') acts ++ concat (map snd fits')) = map (wd La L') (map (flag_data b) (acts ++ concat (map snd fits)))).
    { rewrite !map_app, !map_map. f_equal.
      - apply map_ext_in. intros r Ir. destruct (proj1 (Forall_forall _ _) Ac r Ir) as [M A]. unfold flag_data, wd. cbn [d_date d_w d_y d_model d_src d_long d_actual d_best].
        rewrite M, A. f_equal. now rewrite (proj1 (Ka _ _)), (proj2 (Ka _ _)).
      - clear - F Lb Kb. induction F as [|p p' l l' (_ & _ & E) F IH]; [reflexivity|]. inversion Lb as [|? ? (_ & _ & Lr) Lb2]; subst. cbn [map concat]. rewrite !map_app, IH by assumption. f_equal.
        rewrite E, !map_map. apply map_ext_in. intros r Ir. destruct (proj1 (Forall_forall _ _) Lr r Ir) as (S1 & S2 & S3). unfold flag_data, wd. cbn [d_date d_w d_y d_model d_src d_long d_actual d_best].
        rewrite S1, S2, S3, Kb. reflexivity. }
    assert (M : Forall2 (same_choice n) (map (fun p => flag_meta b w (fst (fst p)) (snd (fst p))) fits) (map (fun p => flag_meta b' w' (fst (fst p)) (snd (fst p))) fits')).
    { clear - F Lb Lb' Kb. induction F as [|p p' l l' (C & E & _) F IH]; constructor.
      - inversion Lb as [|? ? (A1 & A2 & _) _]; subst. inversion Lb' as [|? ? (A1' & A2' & _) _]; subst. unfold flag_meta. split; [exact E|]. destruct C as [Co Cf]. split.
        + cbn [m_best]. rewrite <- A1' in Kb |- *. rewrite A1'. assert (Em : md_model (fst (fst p')) = md_model (fst (fst p))) by (unfold found in Co; congruence). rewrite Em. rewrite A1' in Kb. apply Kb.
        + cbn [m_meta]. split; [|exact Cf]. unfold found in *. cbn [set_weights md_source md_model md_weights md_range md_freq md_fit md_status md_source_long md_params]. congruence.
      - apply IH; [now inversion Lb|now inversion Lb']. }
    destruct all; cbn [fst snd]; [split; assumption|]. split.
    - rewrite D. apply filter_wd. reflexivity.
    - apply Forall2_filter; [exact M|]. intros a a' (_ & E & _). exact E.
  Qed.

  (* ---- the whole forecast ---- *)
  Lemma candidates_wf c f : candidate_lists c (wf f) = candidate_lists c f.
  Proof. unfold candidate_lists, default_trend, use_ramp, use_calendar. rewrite weighted_dates_wf. reflexivity. Qed.
  Lemma actuals_clean_wd f source long La Lf : actuals_clean (wf f) source La = map (wd La Lf) (actuals_clean f source long).
  Proof. unfold actuals_clean. rewrite rows_wf. now apply map_map_ext. Qed.
  Theorem forecast_weights W W' c source f f1 mode act w acts fits r r' : has_date f = true -> has_w f = true ->
    e_num (w_env W') = e_num (w_env W) -> w_draw W' = w_draw W -> sorts W -> sorts W' ->
    prepared c f = Ok f1 -> final_mode W c (with_weights f1) = Ok mode -> final_mode W' c (with_weights (wf f1)) = Ok mode ->
    model_actuals f (to_fit f1) = Ok act ->
    (forall m, In m (all_models c mode (detect_freq_frame f) (fst (candidate_lists c (with_weights f1))) (snd (candidate_lists c (with_weights f1)))) ->
       settled_fit (w_env W) (w_env W') (to_fit f1) (Some act) (c_cache c) m /\ fm_name m <> "actuals") ->
    run_fits W c source f = Ok (w, acts, fits) ->
    (forall p, In p fits -> md_fit (fst (fst p)) = true -> exists q, 0 < q /\ md_cost (fst (fst p)) = Fin q) ->
    (forall p q, In p fits -> In q fits -> md_fit (fst (fst p)) = true -> md_fit (fst (fst q)) = true ->
       md_aicc (fst (fst p)) = md_aicc (fst (fst q)) -> md_model (fst (fst p)) = md_model (fst (fst q))) ->
    run_forecast_single W c source f = Ok r -> run_forecast_single W' c source (scale_w k f) = Ok r' ->
    rs_forecast r' = rs_forecast r /\ (exists La Lf, rs_data r' = map (wd La Lf) (rs_data r)) /\
    Forall2 (same_choice (length (usable_rows (to_fit f1)))) (rs_meta r) (rs_meta r').
  Proof.
    intros Hd Hw En Dr So So' Ep Em Em' Ea Cv Ef Pos Tie Er Er'. rewrite wf_spec in Er'.
    destruct (run_inv _ _ _ _ _ Er) as (w0 & acts0 & fits0 & Ef0 & As & Pi0). rewrite Ef in Ef0. injection Ef0 as <- <- <-.
    destruct (run_inv _ _ _ _ _ Er') as (w' & acts' & fits' & Ef' & As' & Pi').
    destruct (run_fits_inv _ _ _ _ _ _ _ Ef) as (g1 & range & mo & ac & st & sp0 & x0 & Ep2 & Ew & Erg & Eac & Emo & Eact & Est & Esp & Ex & _ & Ff).
    destruct (run_fits_inv _ _ _ _ _ _ _ Ef') as (g1' & range' & mo' & ac' & st' & sp0' & x0' & Ep2' & Ew' & Erg' & Eac' & Emo' & Eact' & Est' & Esp' & Ex' & _ & Ff').
    rewrite Ep in Ep2. injection Ep2 as <-. rewrite prepared_wf, Ep in Ep2' by exact Hw. injection Ep2' as <-. pose proof (prepared_w _ _ _ Hw Ep) as Hw1.
    rewrite Em in Emo. injection Emo as <-. rewrite Em' in Emo'. injection Emo' as <-.
    unfold to_fit in Ea. rewrite Ea in Eact. injection Eact as <-. rewrite (with_weights_wf f1 Hw1), positive_wf, actuals_wf, Ea in Eact'. injection Eact' as <-.
    rewrite (with_weights_wf f1 Hw1), input_range_wf, Erg in Erg'. injection Erg' as <-.
    rewrite (with_weights_wf f1 Hw1), freq_wf in Eac'.
    rewrite (with_weights_wf f1 Hw1), positive_wf, rows_wf, map_wr_x, Ex in Ex'. injection Ex' as <-.
    rewrite (with_weights_wf f1 Hw1), positive_wf, rows_wf in Est'. change (map (place (wf (with_weights f1)))) with (map (place (wf (positive (with_weights f1))))) in Est'.
    rewrite place_wf, place_pos, Est in Est'. injection Est' as <-.
    rewrite (with_weights_wf f1 Hw1), rows_wf, place_wf, Esp in Esp'. injection Esp' as <-.
    rewrite (with_weights_wf f1 Hw1), freq_wf, candidates_wf, positive_wf in Ff'.
    assert (Hu : has_date (positive (with_weights f1)) = true).
    { destruct (prepared_places _ _ _ Ep) as [_ Dp]. destruct (with_weights_rows f1) as [_ Dw]. cbn. now rewrite Dw, Dp. }
    assert (Hwu : has_w (positive (with_weights f1)) = true) by (unfold positive, with_weights; rewrite Hw1; exact Hw1).
    change (start_of (wf f) st sp0) with (start_of f st sp0) in Ff'. change (has_date (wf f)) with (has_date f) in Pi'.
    (* the labels of a run *)
    assert (Fl : forall V (u0 ac0 : frame XR) (l : list (meta XR * string * list (drow XR))) ms la, has_date u0 = true ->
      Forall2 (fun m p => fit_one V c source mode (detect_freq_frame f) la u0 ac0 (start_of f st sp0) x0 m = Ok p) ms l -> exists L, Forall (labelled source L) l).
    { intros V u0 ac0 l ms la Hu0 Fv. destruct (range_label (w_env V) [] (dates_of u0)) as [rg|] eqn:Erl.
      2:{ exists "". apply Forall_forall. intros p Ip. destruct (Forall2_r _ _ _ p Fv Ip) as (m & _ & K). exfalso. destruct (fit_one_contributes _ _ _ _ _ _ _ _ _ _ _ _ K) as (_ & K2 & _).
          destruct (fit_labels zero_lt_XR _ _ _ _ _ _ _ _ K2) as (_ & _ & _ & Lr & _). unfold dates_of in Lr, Erl. rewrite Hu0 in Lr, Erl. unfold range_label in *. congruence. }
      exists (long_name source (weights_label (w_env V) u0) (detect_freq_frame f) rg). apply Forall_forall. intros p Ip.
      destruct (Forall2_r _ _ _ p Fv Ip) as (m & _ & K). destruct (fit_one_contributes _ _ _ _ _ _ _ _ _ _ _ _ K) as (_ & K2 & K3).
      destruct (fit_labels zero_lt_XR _ _ _ _ _ _ _ _ K2) as (Ls & _ & _ & Lr & Ll).
      assert (Er0 : md_range (fst (fst p)) = rg). { unfold dates_of in Lr, Erl. rewrite Hu0 in Lr, Erl. unfold range_label in *. congruence. }
      rewrite Er0 in Ll. split; [exact Ls|]. split; [exact Ll|].
      unfold fit_one in K. rewrite K2 in K. cbn [rbind] in K. destruct (md_fit (fst (fst p))).
      - destruct (extrapolate_model _ _ _ _ _ _ _) as [g|]; [|discriminate]. cbn [rbind] in K. apply ok_inj in K. rewrite K. cbn [snd]. unfold fcast_clean. apply Forall_map, Forall_forall. intros q _. cbn. auto.
      - apply ok_inj in K. rewrite K. constructor. }
    destruct (Fl W _ _ _ _ _ Hu Ff) as [L Lb]. destruct (Fl W' (wf (positive (with_weights f1))) _ _ _ _ Hu Ff') as [L' Lb'].
    set (La := long_name source w' (detect_freq_frame f) range) in *.
    assert (Ff2 : Forall2 (fun m p => fit_one W' c source mode (detect_freq_frame f) (fst (candidate_lists c (with_weights f1))) (wf (positive (with_weights f1))) (wf act) (start_of f st sp0) x0 m = Ok p /\
      md_source_long (fst (fst p)) = L') (all_models c mode (detect_freq_frame f) (fst (candidate_lists c (with_weights f1))) (snd (candidate_lists c (with_weights f1)))) fits').
    { clear - Ff' Lb'. induction Ff' as [|m p ms l K Ff' IH]; [constructor|]. inversion Lb' as [|? ? (_ & Ll & _) Lb2]; subst. constructor; auto. }
    assert (F : Forall2 (reweighted_fit La L' (length (usable_rows (to_fit f1)))) fits fits').
    { apply (Forall2_zip _ _ _ _ _ _ Ff Ff2). intros m p p' Im Ip K [K' Kl]. destruct (Cv m Im) as [St _].
      apply (pair_one_w La L' _ _ _ _ _ _ _ _ _ _ _ _ _ _ En Hwu St K K'); [exact Kl|now apply Pos]. }
    assert (Na : forall p, In p fits -> md_model (fst (fst p)) <> "actuals").
    { intros p Ip. destruct (Forall2_r _ _ _ p Ff Ip) as (m & Im & K). destruct (Cv m Im) as [(_ & Sm & _) Nm]. destruct (fit_one_contributes _ _ _ _ _ _ _ _ _ _ _ _ K) as (_ & K2 & _).
      intros E. apply Nm. rewrite <- E. symmetry. apply (fit_name_kept _ _ _ _ _ _ _ _ Sm K2). }
    assert (Ac : Forall (fun r => d_model r = "actuals" /\ d_actual r = true) acts) by (rewrite Eac; unfold actuals_clean; apply Forall_map, Forall_forall; intros q _; cbn; auto).
    assert (Eac2 : acts' = map (wd La L') acts) by (rewrite Eac, Eac'; apply actuals_clean_wd).
    destruct (assemble_wd W W' (c_all c) w w' acts fits fits' _ source L La L' So So' F Lb Lb' Ac Na Tie) as [Ed Em2]. rewrite <- Eac2 in Ed, Em2. rewrite As in Ed, Em2. rewrite As' in Ed, Em2. cbn [fst snd] in Ed, Em2.
    split; [|split; [exists La, L'; exact Ed|exact Em2]]. rewrite Ed, Dr, get_pi_wd, Pi0 in Pi'. now injection Pi'.
  Qed.

  (* ---- the automatic choice of the mode ---- *)
  Lemma linear_wf E E' f l l' : e_num E' = e_num E -> has_w f = true -> settled_fit E E' f None true model_linear ->
    fit_linear E f = Ok l -> fit_linear E' (wf f) = Ok l' -> l' = map (fun p => (wr (fst p), snd p)) l.
  Proof.
    intros En Hw St K K'. unfold fit_linear in K, K'. rewrite rows_wf, map_length, map_wr_x in K'. destruct (Nat.ltb _ _); [discriminate|].
    destruct (fit_model E model_linear f _ _ _ _) as [d|] eqn:Ed; [|discriminate]. destruct (fit_model E' model_linear (wf f) _ _ _ _) as [d'|] eqn:Ed'; [|discriminate].
    cbn [rbind] in K, K'. destruct (pair_fit E E' model_linear f _ _ None _ d d' En Hw St Ed Ed') as [Fo _]. assert (Pm : md_params d' = md_params d) by (unfold found in Fo; congruence).
    rewrite Pm in K'. destruct (zmin_opt _) as [lo|]; [|discriminate]. destruct (zmax_opt _) as [hi|]; [|discriminate].
    destruct (extrapolate_model model_linear _ _ _ _ _ _) as [pred|]; [|discriminate]. cbn [rbind] in K, K'. apply ok_inj in K, K'. subst l l'. rewrite !map_map. reflexivity.
  Qed.
  Lemma monthly_wf l : monthly (map (fun p : row XR * XR => (wr (fst p), snd p)) l) = monthly l.
  Proof.
    unfold monthly. rewrite map_map. cbn [fst]. apply map_ext. intros q.
    rewrite (filter_map_same (fun p : row XR * XR => (wr (fst p), snd p)) _ (fun p => Z.eqb (month_no (r_date (fst p))) q)) by reflexivity.
    rewrite !map_map. reflexivity.
  Qed.
  Lemma mode_wf W W' c f mode mode' : e_num (w_env W') = e_num (w_env W) -> has_w f = true ->
    (Forecast.c_mode c = "auto"%string -> settled_fit (w_env W) (w_env W') f None true model_linear) ->
    final_mode W c f = Ok mode -> final_mode W' c (wf f) = Ok mode' -> mode' = mode.
  Proof.
    intros En Hw Au K K'. unfold final_mode in K, K'. destruct (String.eqb_spec (Forecast.c_mode c) "auto") as [A|A]; [|congruence]. specialize (Au A).
    assert (Q : forall b b', is_multiplicative (mult_corr (w_env W)) f = Ok b -> is_multiplicative (mult_corr (w_env W')) (wf f) = Ok b' -> b' = b).
    { clear K K'. intros b b'. unfold is_multiplicative. rewrite rows_wf, map_wr_date. cbn [wf has_date has_w].
      replace (existsb (fun r => nleb (r_y r) n0) (map wr (rows f))) with (existsb (fun r => nleb (r_y r) n0) (rows f))
        by (clear; induction (rows f) as [|r l IH]; [reflexivity|]; cbn [map existsb]; now rewrite IH).
      destruct (existsb (fun r => nleb (r_y r) n0) (rows f)); [congruence|]. destruct (negb (has_date f)); [congruence|].
      destruct (match zmax_opt (map r_date (rows f)) with Some _ => _ | None => _ end); [congruence|]. rewrite Hw.
      rewrite (filter_wr (fun r => negb (nisnan (r_y r)))) by reflexivity. rewrite (filter_wr (fun r => nltb n0 (r_w r))) by (intros r; apply sc_pos). rewrite map_length.
      destruct (Nat.ltb _ _); [congruence|]. unfold mult_corr. change (mkFrame (has_date f) (has_src f) true (map wr (rows f))) with (mkFrame (has_date f) (has_src f) true (map wr (rows f))).
      fold (wf f). destruct (fit_linear (w_env W) f) as [l|] eqn:El; [|discriminate]. destruct (fit_linear (w_env W') (wf f)) as [l'|] eqn:El'; [|discriminate]. cbn [rbind].
      rewrite (linear_wf _ _ _ _ _ En Hw Au El El'), monthly_wf. congruence. }
    destruct (is_multiplicative (mult_corr (w_env W)) f) as [b|]; [|discriminate]. destruct (is_multiplicative (mult_corr (w_env W')) (wf f)) as [b'|]; [|discriminate]. cbn [rbind] in K, K'.
    rewrite (Q b b' eq_refl eq_refl) in K'. congruence.
  Qed.
  Theorem forecast_weights_auto W W' c source f f1 mode act w acts fits r r' : has_date f = true -> has_w f = true ->
    e_num (w_env W') = e_num (w_env W) -> w_draw W' = w_draw W -> sorts W -> sorts W' ->
    prepared c f = Ok f1 -> final_mode W c (with_weights f1) = Ok mode ->
    (Forecast.c_mode c = "auto"%string -> settled_fit (w_env W) (w_env W') (with_weights f1) None true model_linear) ->
    model_actuals f (to_fit f1) = Ok act ->
    (forall m, In m (all_models c mode (detect_freq_frame f) (fst (candidate_lists c (with_weights f1))) (snd (candidate_lists c (with_weights f1)))) ->
       settled_fit (w_env W) (w_env W') (to_fit f1) (Some act) (c_cache c) m /\ fm_name m <> "actuals") ->
    run_fits W c source f = Ok (w, acts, fits) ->
    (forall p, In p fits -> md_fit (fst (fst p)) = true -> exists q, 0 < q /\ md_cost (fst (fst p)) = Fin q) ->
    (forall p q, In p fits -> In q fits -> md_fit (fst (fst p)) = true -> md_fit (fst (fst q)) = true ->
       md_aicc (fst (fst p)) = md_aicc (fst (fst q)) -> md_model (fst (fst p)) = md_model (fst (fst q))) ->
    run_forecast_single W c source f = Ok r -> run_forecast_single W' c source (scale_w k f) = Ok r' ->
    rs_forecast r' = rs_forecast r /\ (exists La Lf, rs_data r' = map (wd La Lf) (rs_data r)) /\
    Forall2 (same_choice (length (usable_rows (to_fit f1)))) (rs_meta r) (rs_meta r').
  Proof.
    intros Hd Hw En Dr So So' Ep Em Au Ea Cv Ef Pos Tie E E'. apply (forecast_weights W W' c source f f1 mode act w acts fits r r'); try assumption.
    destruct (run_inv _ _ _ _ _ E') as (w' & acts' & fits' & Ef' & _ & _).
    destruct (run_fits_inv _ _ _ _ _ _ _ Ef') as (g1 & range & mode' & act' & st & sp & x0 & Ep' & _ & _ & _ & Em' & _).
    rewrite wf_spec, prepared_wf, Ep in Ep' by exact Hw. injection Ep' as <-. pose proof (prepared_w _ _ _ Hw Ep) as Hw1. rewrite Em'. f_equal. rewrite with_weights_wf in Em' by exact Hw1.
    apply (mode_wf W W' c (with_weights f1)); auto. unfold with_weights. rewrite Hw1. exact Hw1.
  Qed.

  (* ---- which models do not look at the weights of the actuals ---- *)
  Lemma deaf_quiet m : (forall x d p mode a a' cache, fm_f m x d p mode (mkKw a cache) = fm_f m x d p mode (mkKw a' cache)) -> deaf m.
  Proof. intros Q x d p mode act cache. apply Q. Qed.
  Lemma dedup_wr l : dedup_key Z.eqb r_x (map wr l) = map wr (dedup_key Z.eqb r_x l).
  Proof.
    unfold dedup_key, dedup. change (@nil (row XR)) with (map wr []) at 1. generalize (@nil (row XR)). induction l as [|r l IH]; intros seen; [reflexivity|].
    cbn [map dedup_aux]. replace (existsb (fun a => Z.eqb (r_x (wr r)) (r_x a)) (map wr seen)) with (existsb (fun a => Z.eqb (r_x r) (r_x a)) seen).
    - destruct (existsb _ seen); [apply IH|]. cbn [map]. f_equal. apply (IH (r :: seen)).
    - clear. induction seen as [|a seen IH]; [reflexivity|]. cbn [map existsb]. now rewrite IH.
  Qed.
  Lemma merge_wr b l qs : outer_merge b (map wr l) qs = outer_merge b l qs.
  Proof.
    unfold outer_merge. f_equal.
    - induction l as [|r l IH]; [reflexivity|]. cbn [map flat_map]. rewrite IH. reflexivity.
    - f_equal. apply filter_ext. intros q. f_equal. induction l as [|r l IH]; [reflexivity|]. cbn [map existsb]. now rewrite IH.
  Qed.
  Lemma deaf_naive : deaf model_naive.
  Proof.
    intros x d p mode act cache. cbn [fm_f model_naive mk_model]. unfold f_naive. cbn [kw_cache kw_actuals]. destruct cache; [|reflexivity].
    change (has_date (wf act)) with (has_date act). rewrite rows_wf, dedup_wr. destruct (requests x d) as [qs|]; [|reflexivity]. cbn [rbind]. now rewrite merge_wr.
  Qed.
  Definition wrp (p : row XR * XR) : row XR * XR := (wr (fst p), snd p).
  Lemma combine_wr l (y : list XR) : combine (map wr l) y = map wrp (combine l y).
  Proof. revert y. induction l as [|a l IH]; intros [|b y]; try reflexivity. cbn. now rewrite IH. Qed.
  Lemma group_wrp w l : wday_group w (map wr l) = map wrp (wday_group w l).
  Proof. unfold wday_group. rewrite filter_wr by reflexivity. rewrite combine_wr, map_map. reflexivity. Qed.
  Lemma fillna_wrp l : fillna_wday (map wr l) = map wrp (fillna_wday l).
  Proof.
    unfold fillna_wday. rewrite (flat_map_ext _ (fun w => map wrp (wday_group (Z.of_nat w) l))) by (intros w; apply group_wrp).
    assert (E : forall ws, flat_map (fun w => map wrp (wday_group (Z.of_nat w) l)) ws = map wrp (flat_map (fun w => wday_group (Z.of_nat w) l) ws)).
    { induction ws as [|w ws IH]; [reflexivity|]. cbn [flat_map]. now rewrite IH, map_app. }
    rewrite E. clear E. generalize (flat_map (fun w => wday_group (Z.of_nat w) l) (seq 0 7)). clear l. intros l.
    induction l as [|a l IH]; [reflexivity|]. cbn [map isort]. rewrite IH. generalize (isort (fun a b => Z.leb (r_x (fst a)) (r_x (fst b))) l). clear IH. intros m.
    induction m as [|b m IHm]; [reflexivity|]. cbn [map insert]. change (r_x (fst (wrp a))) with (r_x (fst a)). change (r_x (fst (wrp b))) with (r_x (fst b)).
    destruct (Z.leb _ _); [reflexivity|]. cbn [map]. now rewrite IHm.
  Qed.
  Lemma last_week_wrp m w : last_week (map wrp m) w = last_week m w.
  Proof.
    unfold last_week. rewrite <- map_rev. induction (rev m) as [|p l IH]; [reflexivity|]. cbn [map find]. change (r_date (fst (wrp p))) with (r_date (fst p)).
    destruct (Z.eqb _ _); [|exact IH]. now destruct p as [r y].
  Qed.
  Lemma deaf_snaive : deaf model_snaive_wday.
  Proof.
    intros x d p mode act cache. cbn [fm_f model_snaive_wday mk_model]. unfold f_snaive_wday. cbn [kw_cache kw_actuals]. destruct cache; [|reflexivity].
    change (has_date (wf act)) with (has_date act). destruct (has_date act); [|reflexivity]. cbn [negb]. destruct d as [d|]; [|reflexivity].
    destruct (requests x (Some d)) as [qs|]; [|reflexivity]. cbn [rbind]. rewrite rows_wf, dedup_wr, fillna_wrp. rewrite (map_map wrp (fun p => r_date (fst p))).
    change (map (fun x0 => r_date (fst (wrp x0)))) with (map (fun p : row XR * XR => r_date (fst p))). do 3 f_equal.
    - induction (fillna_wday (dedup_key Z.eqb r_x (rows act))) as [|q l IH]; [reflexivity|]. cbn [map flat_map]. rewrite IH. reflexivity.
    - apply map_ext. intros q. apply last_week_wrp.
  Qed.
  Lemma deaf_combine sep op b m1 m2 : deaf m1 -> deaf m2 -> deaf (combine_models sep op b m1 m2).
  Proof.
    intros D1 D2 x d p mode act cache. cbn [fm_f combine_models mk_model]. unfold f_combine. destruct (p_slice (fm_n m1) p) as [[p1 p2]|]; [|reflexivity]. cbn [rbind]. now rewrite D1, D2.
  Qed.
  Lemma deaf_madd m1 m2 : deaf m1 -> deaf m2 -> deaf (madd m1 m2).
  Proof. intros D1 D2. unfold madd. destruct (is_null m1); [exact D2|]. destruct (is_null m2); [exact D1|]. now apply deaf_combine. Qed.
  Lemma deaf_mmul m1 m2 : deaf m1 -> deaf m2 -> deaf (mmul m1 m2).
  Proof. intros D1 D2. unfold mmul. destruct (is_null m1); [exact D2|]. destruct (is_null m2); [exact D1|]. now apply deaf_combine. Qed.
  Lemma deaf_leaves : Forall deaf [model_null; model_constant; model_naive; model_snaive_wday; model_linear; model_linear_nondec; model_quasilinear; model_exp; model_decay;
    model_step; model_two_steps; model_sigmoid_step; model_sigmoid; model_ramp; model_season_wday; model_season_month; model_season_month_old; model_season_fourier_yearly].
  Proof. repeat (constructor; [first [exact deaf_naive | exact deaf_snaive | apply deaf_quiet; reflexivity]|]). constructor. Qed.

  (* ---- optimizers that find the best fit ---- *)
  Lemma settled_plain E E' u act uc m : deaf m -> fm_n m = 0%nat -> (forall x y d, fm_bounds m x y d = Ok (mkBounds [] [] false)) -> settled_fit E E' u act uc m.
  Proof.
    intros D N B. split; [exact D|]. split; [|lia]. intros arr. apply (simplify_nothing _ _ _ _ _ (mkBounds [] [] false)); [apply B|reflexivity|]. intros i Pn. unfold pinned in Pn. cbn [b_lo b_hi] in Pn. destruct i; cbn in Pn; firstorder discriminate.
  Qed.
  Lemma regression_finds rnd arr num m phi f act uc cache b : regression m phi -> has_date f = true -> finite_rows f -> usable_rows f <> [] -> cache_of m f uc = Ok cache ->
    fm_bounds m (Some (xs_of m f)) (Some (ys_of f)) None = Ok b -> finds (ideal rnd arr num) (fit_residuals m f act cache) b.
  Proof.
    intros Rg Hd Fr Ne Ec Eb g Lg. destruct (rg_free _ _ Rg (Some (xs_of m f)) (Some (ys_of f)) None) as (nd & Eb'). rewrite Eb in Eb'. apply ok_inj in Eb'. subst b.
    cbn [b_lo] in Lg. rewrite repeat_length in Lg. cbn [ideal e_lsq].
    assert (Neu : forall p, call m (xs_of m f) (dates_of f) p false (mkKw act cache) = call m (xs_of m f) (dates_of f) p false (mkKw act [])).
    { intros p. unfold cache_of in Ec. destruct uc; [now apply (regression_neutral m phi f act Rg Hd Ne)|]. apply ok_inj in Ec. now subst cache. }
    destruct (ideal_cases (fit_residuals m f act cache) g (mkBounds (repeat XNInf (fm_n m)) (repeat XPInf (fm_n m)) nd)) as [((th & rs) & (L & Ef & M) & E)|[No _]]; cbn [fst snd] in *.
    - exists th, rs. split; [exact E|]. split; [cbn [b_lo]; rewrite repeat_length; congruence|]. split; [apply unbounded_within; congruence|]. split; [exact Ef|].
      intros th' rs' _ W K. now apply M with th'.
    - exfalso. destruct (regression_best m phi f act cache (mkBounds (repeat XNInf (fm_n m)) (repeat XPInf (fm_n m)) nd) Rg Hd Fr Ne Neu) as (p & Bp); [apply repeat_length|]. apply (No p). rewrite Lg. exact Bp.
  Qed.
  Lemma regression_only m phi f act uc cache b : regression m phi -> has_date f = true -> finite_rows f -> determined m phi f -> cache_of m f uc = Ok cache ->
    fm_bounds m (Some (xs_of m f)) (Some (ys_of f)) None = Ok b -> only_minimum (fit_residuals m f act cache) b.
  Proof.
    intros Rg Hd Fr Dt Ec Eb. pose proof (determined_nonempty m phi f Rg Dt) as Ne. destruct (rg_free _ _ Rg (Some (xs_of m f)) (Some (ys_of f)) None) as (nd & Eb'). rewrite Eb in Eb'. apply ok_inj in Eb'. subst b.
    assert (Neu : forall p, call m (xs_of m f) (dates_of f) p false (mkKw act cache) = call m (xs_of m f) (dates_of f) p false (mkKw act [])).
    { intros p. unfold cache_of in Ec. destruct uc; [now apply (regression_neutral m phi f act Rg Hd Ne)|]. apply ok_inj in Ec. now subst cache. }
    assert (Fa : forall th, length th = fm_n m -> fit_residuals m f act cache (fins th) = Ok (fins (map (fun s => Rabs (err th s * s_w s)) (samples f (coef phi))))).
    { intros th1 L. apply (residuals_linear m f act _ th1 cache (rows_fitted _ _ Fr)). rewrite Neu. exact (regression_linear m phi f act Rg Hd Ne th1 L). }
    assert (Nm : forall th rs, minimum (fit_residuals m f act cache) (mkBounds (repeat XNInf (fm_n m)) (repeat XPInf (fm_n m)) nd) th rs -> length th = fm_n m /\ normal th (samples f (coef phi))).
    { intros th rs (L & _ & Er & M). cbn [b_lo] in L. rewrite repeat_length in L. split; [exact L|]. intros de Ld. apply minimum_gradient; [|exact Ld]. intros th' L'.
      rewrite (Fa th L) in Er. apply ok_inj in Er. apply fins_inj in Er. subst rs.
      specialize (M th' (map (fun s => Rabs (err th' s * s_w s)) (samples f (coef phi)))). cbn [b_lo] in M. rewrite repeat_length in M.
      specialize (M ltac:(congruence) ltac:(apply unbounded_within; congruence) (Fa th' ltac:(congruence))). now rewrite !ssq_loss in M. }
    intros th rs th' rs' K K'. destruct (Nm _ _ K) as [L N]. destruct (Nm _ _ K') as [L' N'].
    assert (Mx : forall l, mixed 1 0 l l l).
    { induction l as [|[p y w] l IH]; [constructor|]. replace (mkS p y w) with (mkS p (1 * y + 0 * y) w) at 3 by (f_equal; ring). now constructor. }
    assert (Lm : length th' = length th) by congruence.
    pose proof (mixed_solution 1 0 th' th th _ _ _ (Mx (samples f (coef phi))) (eq_sym Lm) (eq_sym Lm) N' N N) as Sm.
    apply mix_zero; [exact Lm|]. rewrite L'. apply Dt; [rewrite mix_length; congruence|]. intros q Iq. rewrite UniqueProofs.rdot_mix by exact Lm.
    assert (Is : In (mkS (coef phi q) (real (r_y q)) (share f q)) (samples f (coef phi))) by (unfold samples; apply in_map_iff; eauto).
    pose proof (share_pos f q Fr Iq) as Ps. specialize (Sm _ Is). cbn [s_w s_phi] in Sm. rewrite Sm by lra. ring.
  Qed.
  Theorem settled_regression rnd arr num rnd' arr' num' u act uc m phi : deaf m -> regression m phi -> has_date u = true -> finite_rows u -> determined m phi u ->
    settled_fit (ideal rnd arr num) (ideal rnd' arr' num') u act uc m.
  Proof.
    intros D Rg Hd Fr Dt. pose proof (determined_nonempty m phi u Rg Dt) as Ne. split; [exact D|]. split; [intros a; exact (unbounded_simplify (mkEnv ideal_lsq rnd a num) m u (rg_free _ _ Rg))|].
    intros _ cache b Ec Eb. split; [now apply (regression_only m phi u act uc)|]. split; [now apply (regression_finds rnd arr num m phi u act uc)|].
    apply (regression_finds rnd' arr' num' m phi (wf u) (option_map wf act) uc); auto; [now apply finite_wf|rewrite usable_wf; destruct (usable_rows u); [congruence|discriminate]| |].
    - unfold cache_of in *. now rewrite xs_wf, dates_wf.
    - now rewrite xs_wf, ys_wf.
  Qed.
End Weights.

(* ---- daily and weekly series ---- *)
(* fitted by regression with determined parameters, or without parameters *)
Definition settled_model (k : R) (u : frame XR) (m : fmodel XR) : Prop := deaf k m /\ fm_name m <> "actuals" /\
  ((exists phi, regression m phi /\ determined m phi u) \/ (fm_n m = 0%nat /\ forall x y d, fm_bounds m x y d = Ok (mkBounds [] [] false))).
(* no exact fits, and no two models with the same score *)
Definition told_apart (fits : list (meta XR * string * list (drow XR))) : Prop :=
  (forall p, In p fits -> md_fit (fst (fst p)) = true -> exists q, 0 < q /\ md_cost (fst (fst p)) = Fin q) /\
  (forall p q, In p fits -> In q fits -> md_fit (fst (fst p)) = true -> md_fit (fst (fst q)) = true ->
     md_aicc (fst (fst p)) = md_aicc (fst (fst q)) -> md_model (fst (fst p)) = md_model (fst (fst q))).
Lemma steady_wf k step freq t0 f : steady step freq t0 f -> steady step freq t0 (wf k f).
Proof.
  intros D. assert (Ed : map r_date (rows (wf k f)) = map r_date (rows f)) by (cbn [wf rows]; rewrite map_map; reflexivity).
  constructor; [apply (sd_step _ _ _ _ D)|apply (sd_date _ _ _ _ D)|rewrite Ed; apply (sd_freq _ _ _ _ D)|rewrite Ed; apply (sd_sorted _ _ _ _ D)| |].
  - intros q I. apply in_map_iff in I as (q' & <- & I). apply (sd_on _ _ _ _ D q' I).
  - intros q I. apply in_map_iff in I as (q' & <- & I). apply (sd_x _ _ _ _ D q' I).
Qed.
Lemma enough_wf k c f : 0 < k -> has_w f = true -> enough c f -> enough c (wf k f).
Proof.
  intros Hk Hw ((a & b & Ia & Ib & N) & U). split.
  - exists (wr k a), (wr k b). assert (Es : rows (start_filter (c_start c) (wf k f)) = map (wr k) (rows (start_filter (c_start c) f))).
    { rewrite start_wf. reflexivity. }
    rewrite Es. split; [now apply in_map|]. split; [now apply in_map|exact N].
  - intros f1 E. rewrite prepared_wf in E by assumption. destruct (prepared c f) as [g|] eqn:Ep; [|discriminate]. injection E as <-. specialize (U g eq_refl).
    rewrite usable_wf by exact Hk. intros K. apply U. destruct (usable_rows g); [reflexivity|discriminate].
Qed.

Theorem weights_steady k rnd arr num W c source step freq t0 f f1 mode w acts fits : 0 < k -> w_env W = ideal rnd arr num -> draws rnd -> sorts W ->
  steady step freq t0 f -> has_w f = true -> (forall r, In r (rows f) -> tame (r_y r)) -> (forall r, In r (rows f) -> tame (r_w r)) ->
  settings c -> enough c f -> prepared c f = Ok f1 -> final_mode W c (with_weights f1) = Ok mode ->
  (Forecast.c_mode c = "auto" -> two_positions (with_weights f1)) ->
  (forall m, In m (all_models c mode (detect_freq_frame f) (fst (candidate_lists c (with_weights f1))) (snd (candidate_lists c (with_weights f1)))) ->
     settled_model k (to_fit f1) m) ->
  run_fits W c source f = Ok (w, acts, fits) -> told_apart fits ->
  exists r r', run_forecast_single W c source f = Ok r /\ run_forecast_single W c source (scale_w k f) = Ok r' /\
    rs_forecast r' = rs_forecast r /\ (exists La Lf, rs_data r' = map (wd k La Lf) (rs_data r)) /\
    Forall2 (same_choice k (length (usable_rows (to_fit f1)))) (rs_meta r) (rs_meta r').
Proof.
  intros Hk Ew Dr So Sd Hw Ty Tw Se En Ep Em Au Cv Ef (Pos & Tie).
  destruct (prepared_total c freq t0 (on_step step t0) f (steady_settled step freq t0 f Sd) Ty (fun _ => Tw)) as (_ & _ & f1' & E1 & _ & C2 & _). rewrite Ep in E1. injection E1 as <-.
  assert (Cu : clean (on_step step t0) t0 (to_fit f1)) by (unfold to_fit, positive; now apply clean_filter).
  destruct (forecast_completes W c source step freq t0 f Sd Ty (fun _ => Tw)) as (r & Er); auto; [rewrite Ew; apply ideal_dependable|now rewrite Ew|intros _; rewrite Ew; apply ideal_answers|].
  destruct (forecast_completes W c source step freq t0 (wf k f)) as (r' & Er'); auto; [now apply steady_wf| | |rewrite Ew; apply ideal_dependable|now rewrite Ew|intros _; rewrite Ew; apply ideal_answers|now apply enough_wf|].
  { intros q I. apply in_map_iff in I as (q' & <- & I). apply (Ty q' I). }
  { intros _ q I. apply in_map_iff in I as (q' & <- & I). cbn [wr set_w r_w]. destruct (Tw q' I) as [(v & ->)| ->]; [left; eexists; reflexivity|right; reflexivity]. }
  rewrite <- wf_spec in Er' by exact Hk.
  destruct (run_fits_inv _ _ _ _ _ _ _ Ef) as (f1' & range & mode' & act & st & sp & x0 & Ep' & _ & _ & _ & _ & Ea & _).
  rewrite Ep in Ep'. injection Ep' as <-. fold (to_fit f1) in Ea.
  exists r, r'. split; [exact Er|]. split; [exact Er'|].
  apply (forecast_weights_auto k Hk W W c source f f1 mode act w acts fits r r'); auto.
  - exact (sd_date _ _ _ _ Sd).
  - intros Ma. rewrite Ew. apply (settled_regression k Hk _ _ _ _ _ _ _ _ _ _ (fun x _ => [x; 1])); [|apply regression_linear_trend|exact (cl_date _ _ _ C2)|exact (clean_finite _ _ _ C2)|now apply line_determined, Au].
    pose proof (deaf_leaves k) as Dl. rewrite Forall_forall in Dl. apply Dl. cbn. tauto.
  - intros m I. destruct (Cv m I) as (D & Nm & [(phi & Rg & De)|(N0 & B0)]); (split; [|exact Nm]); rewrite Ew.
    + apply (settled_regression k Hk _ _ _ _ _ _ _ _ _ _ phi); [exact D|exact Rg|exact (cl_date _ _ _ Cu)|exact (clean_finite _ _ _ Cu)|exact De].
    + now apply settled_plain.
Qed.
