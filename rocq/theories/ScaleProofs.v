(* Forecasts in other units (C73). *)
From Coq Require Import ZArith String List Bool Lia Reals Lra Sorted Permutation QArith_base.
From Verif Require Import Num Py Cal Fmt Model Base Fixed Naive Freq Aic Normalize Fit Interp Select Stats Outliers Pi Forecast.
From Verif Require Import NumProofs ListProofs StringProofs ModelProofs BaseProofs GuessProofs FixedProofs FitProofs SelectProofs SeasonProofs CacheProofs StatsProofs ForecastProofs ForecastProofs2 ExtendProofs MetaProofs LsqProofs AicProofs OutlierReals RobustProofs TotalProofs UniqueProofs.
Import ListNotations.
Local Open Scope string_scope.
Local Open Scope list_scope.
Local Open Scope R_scope.

Section Units.
  Variable k : R.
  Hypothesis Hk : 0 < k.
  Variable h : R.
  Notation sc := (sc k).
  (* a value in another unit, counted from another zero *)
  Definition ac (a : XR) : XR := match a with Fin r => Fin (k * r + h) | a => a end.
  Lemma ac_sc a : ac a = nadd (sc a) (Fin h).
  Proof. destruct a; reflexivity. Qed.
  Lemma ac_nan a : nisnan (ac a) = nisnan a.
  Proof. destruct a; reflexivity. Qed.
  Lemma ac_nnan : ac nnan = nnan.
  Proof. reflexivity. Qed.
  Lemma ac_fin r : ac (Fin r) = Fin (k * r + h).
  Proof. reflexivity. Qed.
  Lemma ac_sub a b : nsub (ac a) (ac b) = sc (nsub a b).
  Proof. destruct a, b; cbn; try reflexivity. f_equal. ring. Qed.
  Lemma ac_add a b : nadd (ac a) (sc b) = ac (nadd a b).
  Proof. destruct a, b; cbn; try reflexivity. f_equal. ring. Qed.
  Definition sr (r : row XR) : row XR := set_y r (ac (r_y r)).
  Definition sf (f : frame XR) : frame XR := map_y ac f.
  Definition sv (v : nval XR) : nval XR := match v with Sc a => Sc (ac a) | Ar l => Ar (map ac l) end.

  Lemma sf_spec f : map_y (fun y => nadd (nmul y (Fin k)) (Fin h)) f = sf f.
  Proof. unfold sf, map_y. f_equal. apply map_ext. intros r. now rewrite sc_mul, ac_sc. Qed.
  Lemma sc_mul_r a b : nmul (sc a) b = sc (nmul a b).
  Proof.
    destruct a, b; cbn; try reflexivity; unfold xsgninf, Reqb, Rltb;
      repeat match goal with |- context [Req_EM_T ?u ?v] => destruct (Req_EM_T u v) | |- context [Rlt_dec ?u ?v] => destruct (Rlt_dec u v) end;
      cbn; try reflexivity; try (exfalso; nra); try (f_equal; ring).
  Qed.
  Lemma sc_fin r : sc (Fin r) = Fin (k * r).
  Proof. reflexivity. Qed.
  Lemma sc_nnan : sc nnan = nnan.
  Proof. reflexivity. Qed.

  (* ---- rows and tables ---- *)
  Lemma sr_nan r : nisnan (r_y (sr r)) = nisnan (r_y r).
  Proof. apply ac_nan. Qed.
  Lemma rows_sf f : rows (sf f) = map sr (rows f).
  Proof. reflexivity. Qed.
  Lemma filter_map_same {A B} (g : A -> B) (p : B -> bool) (q : A -> bool) l : (forall a, p (g a) = q a) -> filter p (map g l) = map g (filter q l).
  Proof. intros E. induction l as [|a l IH]; [reflexivity|]. cbn. rewrite E. destruct (q a); cbn; now rewrite IH. Qed.
  Lemma filter_sr (p : row XR -> bool) l : (forall r, p (sr r) = p r) -> filter p (map sr l) = map sr (filter p l).
  Proof. apply filter_map_same. Qed.
  Lemma usable_sf f : usable_rows (sf f) = map sr (usable_rows f).
  Proof. unfold usable_rows. rewrite rows_sf. apply filter_sr. intros r. unfold usable. cbn [sf map_y has_w]. now rewrite sr_nan. Qed.
  Lemma xs_sf m f : xs_of m (sf f) = xs_of m f.
  Proof. unfold xs_of. rewrite usable_sf, map_map. reflexivity. Qed.
  Lemma ys_sf f : ys_of (sf f) = map ac (ys_of f).
  Proof. unfold ys_of. rewrite usable_sf, !map_map. reflexivity. Qed.
  Lemma dates_sf f : dates_of (sf f) = dates_of f.
  Proof. unfold dates_of. rewrite usable_sf, map_map. reflexivity. Qed.
  Lemma count_sf (l : list (row XR)) x : count_x (map sr l) x = count_x l x.
  Proof. unfold count_x. rewrite filter_sr by reflexivity. now rewrite map_length. Qed.
  Lemma map_sr_x (l : list (row XR)) : map r_x (map sr l) = map r_x l.
  Proof. rewrite map_map. reflexivity. Qed.
  Lemma map_sr_date (l : list (row XR)) : map r_date (map sr l) = map r_date l.
  Proof. rewrite map_map. reflexivity. Qed.
  Lemma ws_sf f : ws_of (sf f) = ws_of f.
  Proof.
    unfold ws_of, fit_rows. rewrite !(fitted_eq zero_lt_XR), usable_sf, map_sr_x. cbn [sf map_y has_w].
    destruct (has_dup Z.eqb (map r_x (usable_rows f))); cbn [has_w rows].
    - rewrite !map_map. f_equal. apply map_ext. intros r. cbn [set_w r_w sr set_y r_x]. now rewrite count_sf.
    - rewrite map_map. reflexivity.
  Qed.
  Lemma weights_label_sf (E E' : env XR) f : e_num E' = e_num E -> weights_label E' (sf f) = weights_label E f.
  Proof.
    intros En. unfold weights_label, with_y. rewrite En, rows_sf. cbn [sf map_y has_w]. destruct (has_w f); [|reflexivity].
    rewrite filter_sr by (intros r; now rewrite sr_nan). rewrite map_map. reflexivity.
  Qed.
  Lemma share_sf f r : share (sf f) (sr r) = share f r.
  Proof. unfold share. rewrite usable_sf, count_sf. reflexivity. Qed.
  Lemma finite_sf f : finite_rows f -> finite_rows (sf f).
  Proof.
    unfold finite_rows. rewrite usable_sf, Forall_map. intros F. eapply Forall_impl; [|exact F]. intros r [A B]. cbn [sr set_y r_y r_w]. split; [|exact B].
    rewrite A. reflexivity.
  Qed.
  (* the model can take the constant value [h] everywhere *)
  Definition levels (m : fmodel XR) (phi : R -> Z -> list R) (be : list R) : Prop := length be = fm_n m /\ forall x t, rdot be (phi x t) = h.
  Lemma moved_sf m phi be f : levels m phi be -> has_date f = true -> finite_rows f -> moved phi k be f (sf f).
  Proof.
    intros [_ R] Hd Fr. split; [exact Hd|]. split; [exact Hd|]. split; [reflexivity|]. unfold finite_rows in Fr. rewrite usable_sf.
    induction (usable_rows f) as [|r l IH]; cbn [map]; constructor.
    - split; [repeat split|]. inversion_clear Fr as [|? ? [A _] _]. cbn [sr set_y r_y]. rewrite A. unfold coef. rewrite R. reflexivity.
    - apply IH. now inversion Fr.
  Qed.

  (* ---- preparation ---- *)
  Lemma start_sf s f : start_filter s (sf f) = sf (start_filter s f).
  Proof.
    unfold start_filter. destruct s; [|reflexivity]. cbn [sf map_y has_date]. destruct (has_date f); [|reflexivity]. unfold with_rows, sf, map_y. cbn.
    f_equal. now rewrite filter_sr by reflexivity.
  Qed.
  Lemma combine_map_l {A B C} (g : A -> C) (l : list A) (l' : list B) : combine (map g l) l' = map (fun p => (g (fst p), snd p)) (combine l l').
  Proof. revert l'. induction l as [|a l IH]; intros [|b l']; try reflexivity. cbn. now rewrite IH. Qed.
  Lemma outliers_sf f : model_outliers (sf f) = model_outliers f.
  Proof.
    rewrite <- (outliers_scale k Hk f), <- (outliers_shift (map_y (fun y => nmul y (Fin k)) f) h). f_equal. rewrite <- sf_spec. unfold map_y. cbn [rows has_date has_src has_w]. f_equal. rewrite map_map. reflexivity.
  Qed.
  Lemma spikes_sf f : ignore_spikes (sf f) = rmap sf (ignore_spikes f).
  Proof.
    unfold ignore_spikes. rewrite outliers_sf. destruct (model_outliers f) as [[st sp]|e]; [|reflexivity]. cbn [rbind rmap].
    f_equal. unfold sf, map_y. cbn [has_date has_src has_w rows]. f_equal. rewrite combine_map_l, !map_map. reflexivity.
  Qed.
  Lemma prepared_sf c f : prepared c (sf f) = rmap sf (prepared c f).
  Proof. unfold prepared. rewrite start_sf. destruct (c_outliers c); [apply spikes_sf|reflexivity]. Qed.
  Lemma with_weights_sf f : with_weights (sf f) = sf (with_weights f).
  Proof. unfold with_weights. cbn [sf map_y has_w]. destruct (has_w f); [reflexivity|]. unfold sf, map_y. cbn. f_equal. rewrite !map_map. reflexivity. Qed.
  Lemma positive_sf f : positive (sf f) = sf (positive f).
  Proof. unfold positive, with_rows, sf, map_y. cbn. f_equal. now rewrite filter_sr by reflexivity. Qed.
  Lemma to_fit_sf f : to_fit (sf f) = sf (to_fit f).
  Proof. unfold to_fit. now rewrite with_weights_sf, positive_sf. Qed.
  Lemma input_weights_sf (E E' : env XR) f : e_num E' = e_num E -> input_weights E' (sf f) = input_weights E f.
  Proof. intros En. unfold input_weights. rewrite En, rows_sf, map_map. reflexivity. Qed.
  Lemma place_sf f l : map (place (sf f)) (map sr l) = map (place f) l.
  Proof. rewrite map_map. reflexivity. Qed.
  Lemma input_range_sf f : input_range (sf f) = input_range f.
  Proof. unfold input_range. rewrite rows_sf, place_sf. reflexivity. Qed.
  Lemma freq_sf f : detect_freq_frame (sf f) = detect_freq_frame f.
  Proof. unfold detect_freq_frame. rewrite rows_sf. cbn [sf map_y has_date]. rewrite map_sr_date. reflexivity. Qed.
  Lemma lookup_sf key l t : (forall r, key (sr r) = key r) -> lookup key (map sr l) t = option_map sr (lookup key l t).
  Proof.
    intros E. unfold lookup. induction l as [|r l IH]; [reflexivity|]. cbn [map find]. rewrite E. destruct (Z.eqb (key r) t); [reflexivity|exact IH].
  Qed.
  Lemma mk_rows_sf ds ss xs ys ws : mk_rows ds ss xs (map ac ys) ws = map sr (mk_rows ds ss xs ys ws).
  Proof.
    unfold mk_rows. revert ss xs ys ws. induction ds as [|d ds IH]; intros [|s ss] [|x xs] [|y ys] [|w ws]; try reflexivity. cbn [combine map].
    rewrite IH. reflexivity.
  Qed.
  Lemma column_sf get l : (forall r, get (sr r) = ac (get r)) -> column get (map (option_map sr) l) = map ac (column get l).
  Proof. intros E. unfold column. rewrite !map_map. apply map_ext. intros [r|]; [apply E|reflexivity]. Qed.
  Lemma column_same_sf get l : (forall r, get (sr r) = get r) -> column get (map (option_map sr) l) = column get l.
  Proof. intros E. unfold column. rewrite map_map. apply map_ext. intros [r|]; [apply E|reflexivity]. Qed.
  Lemma src_column_sf l : src_column (map (option_map sr) l) = src_column l.
  Proof. unfold src_column. rewrite map_map. apply map_ext. now intros [r|]. Qed.
  Lemma interpolate_sf f : interpolate_df false (sf f) = rmap sf (interpolate_df false f).
  Proof.
    unfold interpolate_df. cbn [sf map_y has_date has_src has_w rows]. rewrite map_sr_x, map_sr_date. destruct (has_date f); cbn [negb].
    - destruct (Interp.regular (map r_date (rows f)) && _)%bool; [reflexivity|]. destruct (has_dup Z.eqb (map r_date (rows f))); [reflexivity|].
      destruct (zmin_opt (map r_date (rows f))), (zmax_opt (map r_date (rows f))); try reflexivity. destruct (asfreq_range _ _ _) as [grid|]; [|reflexivity]. cbn [rbind].
      rewrite (map_ext (lookup r_date (map sr (rows f))) (fun t => option_map sr (lookup r_date (rows f) t))) by (intros t; now apply lookup_sf).
      rewrite <- (map_map (lookup r_date (rows f)) (option_map sr)). rewrite column_same_sf by reflexivity.
      destruct (to_ints _) as [xs|]; [|reflexivity]. cbn [rbind rmap]. f_equal. unfold sf, map_y. cbn [has_date has_src has_w rows]. f_equal.
      rewrite src_column_sf, (column_sf r_y) by reflexivity. rewrite column_same_sf by reflexivity. apply mk_rows_sf.
    - destruct (Interp.regular (map r_x (rows f))); [reflexivity|]. destruct (has_dup Z.eqb (map r_x (rows f))); [reflexivity|].
      destruct (zmin_opt (map r_x (rows f))), (zmax_opt (map r_x (rows f))); try reflexivity. cbn [rmap]. f_equal. unfold sf, map_y. cbn [has_date has_src has_w rows]. f_equal.
      rewrite (map_ext (lookup r_x (map sr (rows f))) (fun t => option_map sr (lookup r_x (rows f) t))) by (intros t; now apply lookup_sf).
      rewrite <- (map_map (lookup r_x (rows f)) (option_map sr)). rewrite src_column_sf, (column_sf r_y) by reflexivity.
      rewrite (column_same_sf r_w) by reflexivity. rewrite mk_rows_sf. change (map (fun r => set_y r (ac (r_y r)))) with (map sr). cbn [rbind rmap has_date has_src has_w rows].
      rewrite (map_map (option_map sr)). do 4 f_equal. apply map_ext. now intros [r|].
  Qed.
  Lemma isort_sr (le : row XR -> row XR -> bool) l : (forall a b, le (sr a) (sr b) = le a b) -> isort le (map sr l) = map sr (isort le l).
  Proof.
    intros E. induction l as [|a l IH]; [reflexivity|]. cbn [map isort]. rewrite IH. generalize (isort le l). clear IH. intros m.
    induction m as [|b m IHm]; [reflexivity|]. cbn [map insert]. rewrite E. destruct (le a b); [reflexivity|]. cbn [map]. now rewrite IHm.
  Qed.
  Lemma actuals_sf f u : model_actuals (sf f) (sf u) = rmap sf (model_actuals f u).
  Proof.
    unfold model_actuals. rewrite interpolate_sf. destruct (interpolate_df false f) as [g|]; [|reflexivity]. cbn [rbind rmap]. f_equal.
    unfold sf at 1 2 3 4 5. unfold map_y. cbn [has_date has_src has_w rows]. f_equal. change (map (fun r => set_y r (ac (r_y r)))) with (map sr).
    rewrite isort_sr by reflexivity. generalize (isort (fun a b => Z.leb (r_x a) (r_x b)) (rows g)). intros l.
    induction l as [|r l IH]; [reflexivity|]. cbn [map flat_map]. rewrite map_app, IH. f_equal. rewrite map_map.
    assert (Ew : map r_w (filter (fun q => Z.eqb (r_x q) (r_x (sr r))) (map sr (rows u))) = map r_w (filter (fun q => Z.eqb (r_x q) (r_x r)) (rows u))).
    { rewrite filter_sr by reflexivity. rewrite map_map. reflexivity. }
    rewrite Ew. apply map_ext. intros w. cbn [sr set_y r_date r_src r_x r_y r_w]. destruct (nltb _ _); reflexivity.
  Qed.

  (* ---- naive models ---- *)
  Lemma sc_ffill a l : ffill_from (ac a) (map ac l) = map ac (ffill_from a l).
  Proof. revert a. induction l as [|b l IH]; intros a; [reflexivity|]. cbn [map ffill_from]. rewrite ac_nan. destruct (nisnan b); cbn [map]; now rewrite IH. Qed.
  Lemma sc_fill l : ffill (map ac l) = map ac (ffill l).
  Proof. unfold ffill. now rewrite <- sc_ffill. Qed.
  Lemma removelast_map {A B} (g : A -> B) l : removelast (map g l) = map g (removelast l).
  Proof. induction l as [|a l IH]; [reflexivity|]. destruct l as [|b l]; [reflexivity|]. cbn [map removelast] in *. now rewrite IH. Qed.
  Lemma sc_shift l : shift1 (map ac l) = map ac (shift1 l).
  Proof. destruct l as [|a l]; [reflexivity|]. unfold shift1. change (map ac (a :: l)) with (ac a :: map ac l) at 1. cbv iota. rewrite removelast_map. reflexivity. Qed.
  Lemma sc_bfill l : bfill (map ac l) = map ac (bfill l).
  Proof. unfold bfill. now rewrite <- map_rev, sc_fill, map_rev. Qed.
  Lemma dedup_sr l : dedup_key Z.eqb r_x (map sr l) = map sr (dedup_key Z.eqb r_x l).
  Proof.
    unfold dedup_key, dedup. change (@nil (row XR)) with (map sr []) at 1. generalize (@nil (row XR)). induction l as [|r l IH]; intros seen; [reflexivity|].
    cbn [map dedup_aux]. replace (existsb (fun a => Z.eqb (r_x (sr r)) (r_x a)) (map sr seen)) with (existsb (fun a => Z.eqb (r_x r) (r_x a)) seen).
    - destruct (existsb _ seen); [apply IH|]. cbn [map]. f_equal. apply (IH (r :: seen)).
    - clear. induction seen as [|a seen IH]; [reflexivity|]. cbn [map existsb]. now rewrite IH.
  Qed.
  Definition sp {A} (p : A * XR) : A * XR := (fst p, ac (snd p)).
  Lemma isort_sp {A} (le : A -> A -> bool) (l : list (A * XR)) :
    isort (fun a b => le (fst a) (fst b)) (map sp l) = map sp (isort (fun a b => le (fst a) (fst b)) l).
  Proof.
    induction l as [|a l IH]; [reflexivity|]. cbn [map isort]. rewrite IH. generalize (isort (fun a b => le (fst a) (fst b)) l). clear IH. intros m.
    induction m as [|b m IHm]; [reflexivity|]. cbn [map insert]. change (fst (sp a)) with (fst a). change (fst (sp b)) with (fst b). destruct (le (fst a) (fst b)); [reflexivity|]. cbn [map]. now rewrite IHm.
  Qed.
  Lemma map_repeat {A B} (g : A -> B) a n : map g (repeat a n) = repeat (g a) n.
  Proof. induction n; [reflexivity|]. cbn. congruence. Qed.
  Lemma merge_sp wd l qs : outer_merge wd (map sr l) qs = map sp (outer_merge wd l qs).
  Proof.
    unfold outer_merge. rewrite map_app. f_equal.
    - induction l as [|r l IH]; [reflexivity|]. cbn [map flat_map]. rewrite map_app, IH. f_equal. rewrite map_repeat. reflexivity.
    - rewrite map_map. f_equal. apply filter_ext. intros q. f_equal. induction l as [|r l IH]; [reflexivity|]. cbn [map existsb]. now rewrite IH.
  Qed.
  Lemma map_snd_sp {A} (l : list (A * XR)) : map snd (map sp l) = map ac (map snd l).
  Proof. rewrite !map_map. reflexivity. Qed.
  Lemma map_fst_sp {A} (l : list (A * XR)) : map fst (map sp l) = map fst l.
  Proof. rewrite !map_map. reflexivity. Qed.
  Lemma combine_sp {A} (l : list A) y : combine l (map ac y) = map sp (combine l y).
  Proof. revert y. induction l as [|a l IH]; intros [|b y]; try reflexivity. cbn. now rewrite IH. Qed.

  (* A model without parameters whose predictions carry the unit of the actuals *)
  Record homogeneous (m : fmodel XR) : Prop := {
    hm_n : fm_n m = 0%nat;
    hm_scale : requires_scaling (fm_name m) = false;
    hm_val : forall x y d, validate_input m x y d = Ok true;
    hm_bounds : forall x y d, fm_bounds m x y d = Ok (mkBounds [] [] false);
    hm_call : forall xs ds p act, call m xs ds p false (mkKw (Some (sf act)) []) = rmap sv (call m xs ds p false (mkKw (Some act) [])) }.
  Lemma homogeneous_null : h = 0 -> homogeneous model_null.
  Proof.
    intros E. constructor; try reflexivity. intros. change (Ok (Sc (Fin 0)) = Ok (Sc (Fin (k * 0 + h)))). do 3 f_equal. rewrite E. ring.
  Qed.
  Lemma homogeneous_naive : homogeneous model_naive.
  Proof.
    constructor; try reflexivity. intros. unfold call. cbn [fm_f model_naive mk_model]. unfold f_naive. cbn [kw_cache kw_actuals].
    destruct (requests xs ds) as [qs|]; [|reflexivity]. cbn [rbind]. change (has_date (sf act)) with (has_date act).
    assert (E : forall wd, map snd (filter (fun p0 => existsb (neqb (fst p0)) xs) (combine (map fst (isort (fun a b => nleb (fst a) (fst b)) (outer_merge wd (dedup_key Z.eqb r_x (rows (sf act))) qs)))
        (bfill (ffill (shift1 (map snd (isort (fun a b => nleb (fst a) (fst b)) (outer_merge wd (dedup_key Z.eqb r_x (rows (sf act))) qs)))))))) =
      map ac (map snd (filter (fun p0 => existsb (neqb (fst p0)) xs) (combine (map fst (isort (fun a b => nleb (fst a) (fst b)) (outer_merge wd (dedup_key Z.eqb r_x (rows act)) qs)))
        (bfill (ffill (shift1 (map snd (isort (fun a b => nleb (fst a) (fst b)) (outer_merge wd (dedup_key Z.eqb r_x (rows act)) qs))))))))) ).
    { intros wd. rewrite rows_sf, dedup_sr, merge_sp, isort_sp, map_fst_sp, map_snd_sp, sc_shift, sc_fill, sc_bfill, combine_sp.
      rewrite <- map_snd_sp. f_equal. apply filter_map_same. reflexivity. }
    destruct (has_date act), ds; cbn [rmap rbind sv]; try reflexivity; now rewrite E.
  Qed.
  Definition srp (p : row XR * XR) : row XR * XR := (sr (fst p), ac (snd p)).
  Lemma group_srp w l : wday_group w (map sr l) = map srp (wday_group w l).
  Proof.
    unfold wday_group. rewrite filter_sr by reflexivity. generalize (filter (fun r => Z.eqb (weekday (r_date r)) w) l). intros g.
    replace (map r_y (map sr g)) with (map ac (map r_y g)) by (rewrite !map_map; reflexivity). rewrite sc_shift, sc_fill, combine_sp, combine_map_l, map_map.
    reflexivity.
  Qed.
  Lemma fillna_srp l : fillna_wday (map sr l) = map srp (fillna_wday l).
  Proof.
    unfold fillna_wday. rewrite (flat_map_ext _ (fun w => map srp (wday_group (Z.of_nat w) l))) by (intros w; apply group_srp).
    assert (E : forall ws, flat_map (fun w => map srp (wday_group (Z.of_nat w) l)) ws = map srp (flat_map (fun w => wday_group (Z.of_nat w) l) ws)).
    { induction ws as [|w ws IH]; [reflexivity|]. cbn [flat_map]. now rewrite IH, map_app. }
    rewrite E. clear E. generalize (flat_map (fun w => wday_group (Z.of_nat w) l) (seq 0 7)). clear l. intros l.
    induction l as [|a l IH]; [reflexivity|]. cbn [map isort]. rewrite IH. generalize (isort (fun a b => Z.leb (r_x (fst a)) (r_x (fst b))) l). clear IH. intros m.
    induction m as [|b m IHm]; [reflexivity|]. cbn [map insert]. change (r_x (fst (srp a))) with (r_x (fst a)). change (r_x (fst (srp b))) with (r_x (fst b)).
    destruct (Z.leb _ _); [reflexivity|]. cbn [map]. now rewrite IHm.
  Qed.
  Lemma last_week_srp m w : last_week (map srp m) w = ac (last_week m w).
  Proof.
    unfold last_week. rewrite <- map_rev. induction (rev m) as [|p l IH]; [reflexivity|]. cbn [map find]. change (r_date (fst (srp p))) with (r_date (fst p)).
    destruct (Z.eqb _ _); [|exact IH]. destruct p as [r y]. cbn [srp fst snd]. rewrite sr_nan. now destruct (nisnan (r_y r)).
  Qed.
  Lemma homogeneous_snaive : homogeneous model_snaive_wday.
  Proof.
    constructor; try reflexivity. intros. unfold call. cbn [fm_f model_snaive_wday mk_model]. unfold f_snaive_wday. cbn [kw_cache kw_actuals].
    change (has_date (sf act)) with (has_date act). destruct (has_date act); [|reflexivity]. cbn [negb]. destruct ds as [d|]; [|reflexivity].
    destruct (requests xs (Some d)) as [qs|]; [|reflexivity]. cbn [rbind rmap sv]. rewrite rows_sf, dedup_sr, fillna_srp. do 2 f_equal. rewrite map_app. f_equal.
    - induction (fillna_wday (dedup_key Z.eqb r_x (rows act))) as [|q l IH]; [reflexivity|]. cbn [map flat_map]. rewrite map_app, IH. f_equal. rewrite map_repeat. reflexivity.
    - rewrite map_map. rewrite (map_ext _ (fun q => ac (last_week (fillna_wday (dedup_key Z.eqb r_x (rows act))) (weekday (fst q))))) by (intros q; apply last_week_srp).
      rewrite map_map. reflexivity.
  Qed.
  Definition sv0 (v : nval XR) : nval XR := match v with Sc a => Sc (sc a) | Ar l => Ar (map sc l) end.
  Lemma sv_sub l v : bcast2 nsub (Ar (map ac l)) (sv v) = rmap sv0 (bcast2 nsub (Ar l) v).
  Proof.
    assert (E : forall a b, map2 nsub (map ac a) (map ac b) = map sc (map2 nsub a b)).
    { intros a. unfold map2. induction a as [|x a IH]; intros [|y b]; try reflexivity. cbn [map combine fst snd]. rewrite ac_sub, IH. reflexivity. }
    destruct v as [b|l']; cbn [bcast2 sv sv0 rmap rbind].
    - do 2 f_equal. rewrite !map_map. apply map_ext. intros a. apply ac_sub.
    - rewrite !map_length. destruct (Nat.eqb _ _); [cbn [rmap rbind sv0]; now rewrite E|].
      destruct l as [|x [|x2 l]], l' as [|y [|y2 l']]; cbn [map rmap rbind sv0]; try reflexivity; do 2 f_equal; cbn [map]; rewrite ?map_map, ?ac_sub; try reflexivity;
        repeat (f_equal; try (apply map_ext; intros; apply ac_sub)).
  Qed.
  Lemma sv_mul v w : bcast2 nmul (sv0 v) (Ar w) = rmap sv0 (bcast2 nmul v (Ar w)).
  Proof.
    assert (E : forall a b, map2 nmul (map sc a) b = map sc (map2 nmul a b)).
    { intros a. unfold map2. induction a as [|x a IH]; intros [|y b]; try reflexivity. cbn [map combine fst snd]. rewrite sc_mul_r, IH. reflexivity. }
    destruct v as [b|l]; cbn [bcast2 sv0 rmap rbind].
    - do 2 f_equal. rewrite !map_map. apply map_ext. intros a. apply sc_mul_r.
    - rewrite !map_length. destruct (Nat.eqb _ _); [cbn [rmap rbind sv0]; now rewrite E|].
      destruct l as [|x [|x2 l]], w as [|y [|y2 w]]; cbn [map rmap rbind sv0]; try reflexivity; do 2 f_equal; cbn [map]; rewrite ?map_map, ?sc_mul_r; try reflexivity;
        repeat (f_equal; try (apply map_ext; intros; apply sc_mul_r)).
  Qed.
  Lemma residuals_sc p m xs ys ds w act : homogeneous m ->
    get_residuals p m xs (map ac ys) ds w (Some (sf act)) [] = rmap (map sc) (get_residuals p m xs ys ds w (Some act) []).
  Proof.
    intros Hm. unfold get_residuals. rewrite (hm_call _ Hm). destruct (call m xs ds p false (mkKw (Some act) [])) as [v|]; [|reflexivity]. cbn [rmap rbind].
    rewrite sv_sub. destruct (bcast2 nsub (Ar ys) v) as [r|]; [|reflexivity]. cbn [rmap rbind].
    assert (E : forall v, map nabs (nval_list (sv0 v)) = map sc (map nabs (nval_list v))).
    { intros [a|l]; cbn; [now rewrite <- sc_abs by exact Hk|]. rewrite !map_map. apply map_ext. intros a. now apply sc_abs. }
    destruct w as [w|].
    - rewrite sv_mul. destruct (bcast2 nmul r (Ar w)) as [r'|]; [|reflexivity]. cbn [rmap rbind]. now rewrite E.
    - cbn [rmap rbind]. now rewrite E.
  Qed.
  Lemma sc_sq a : nmul (sc a) (sc a) = OutlierReals.sc (k * k) (nmul a a).
  Proof.
    destruct a; cbn; try reflexivity. f_equal. ring.
  Qed.
  Lemma cost_sc r : nmul (dec 5 10) (nansum (map (fun a => nmul a a) (map sc r))) =
    OutlierReals.sc (k * k) (nmul (dec 5 10) (nansum (map (fun a => nmul a a) r))).
  Proof.
    rewrite OutlierReals.dec_fin by lia. rewrite <- sc_cmul. f_equal. unfold nansum. rewrite <- sc_sum. f_equal. rewrite !map_map.
    rewrite (map_ext _ (fun a => OutlierReals.sc (k * k) (nmul a a))) by (intros a; apply sc_sq). rewrite <- (map_map (fun a => nmul a a) (OutlierReals.sc (k * k))).
    apply (filter_map_same (OutlierReals.sc (k * k)) (fun a => negb (nisnan a)) (fun a => negb (nisnan a))). intros a. now rewrite sc_nan.
  Qed.

  (* ---- one fit ---- *)
  Definition outcome (d : meta XR) := (md_source d, md_model d, md_weights d, md_range d, md_freq d, md_fit d, md_status d, md_source_long d).
  (* the same outcome in the new unit: the cost times k^2, the score moved by the same amount for all models *)
  Definition converted (n : nat) (d d' : meta XR) : Prop := outcome d' = outcome d /\
    (md_fit d = true -> exists c v, md_cost d = Fin c /\ md_cost d' = Fin (k * k * c) /\ md_aicc d = Fin v /\ md_aicc d' = Fin (v + INR n * ln (k * k))).
  (* validation does not look at the values *)
  Definition blind (m : fmodel XR) : Prop := Forall (fun v => forall x y y' d, v_run v x y d = v_run v x y' d) (fm_val m).
  (* the optimizer reports success on the residuals of this fit *)
  Definition successful (E : env XR) (m : fmodel XR) (f : frame XR) (act : option (frame XR)) : Prop := forall cache g b,
    length g = fm_n m -> cache = [] \/ init_cache m (xs_of m f) (dates_of f) = Ok cache -> exists c x,
    e_lsq E (fun p => get_residuals (Some p) m (xs_of m f) (ys_of f) (dates_of f) (ws_of f) act cache) g b = LDone true c x.
  Lemma blind_validate m x y y' d : blind m -> validate_input m x y d = validate_input m x y' d.
  Proof.
    intros B. unfold validate_input. replace (rmapM (fun v => v_run v x y d) (fm_val m)) with (rmapM (fun v => v_run v x y' d) (fm_val m)); [reflexivity|].
    unfold blind in B. induction (fm_val m) as [|v l IH]; [reflexivity|]. inversion_clear B. cbn [rmapM]. rewrite IH by assumption. now rewrite (H x y y').
  Qed.
  Lemma range_dated (E E' : env XR) xs xs' ds : range_label E' xs' (Some ds) = range_label E xs (Some ds).
  Proof. reflexivity. Qed.
  Lemma mix_k th n : length th = n -> mix k 1 th (repeat 0 n) = map (Rmult k) th.
  Proof.
    intros <-. unfold mix, map2. induction th as [|a th IH]; [reflexivity|]. cbn [length repeat combine map fst snd]. rewrite IH. f_equal. ring.
  Qed.
  Lemma pair_regression E E' m phi be u freq src act uc d d' : e_num E' = e_num E -> regression m phi -> levels m phi be -> blind m -> determined m phi u ->
    has_date u = true -> finite_rows u -> minimizes E m u (Some act) -> successful E m u (Some act) ->
    minimizes E' m (sf u) (Some (sf act)) -> successful E' m (sf u) (Some (sf act)) ->
    fit_model E m u freq src (Some act) uc = Ok d -> fit_model E' m (sf u) freq src (Some (sf act)) uc = Ok d' -> (md_fit d = true -> md_cost d <> Fin 0) ->
    converted (length (usable_rows u)) d d' /\
    (md_fit d = true -> exists th, length th = fm_n m /\ md_params d = fins th /\ md_params d' = fins (mix k 1 th be)).
  Proof.
    intros En R Lv B Dt Hd Fr Mn Sc Mn' Sc' Ef Ef' Nz.
    assert (Lb : outcome d' = outcome d).
    { unfold fit_model in Ef, Ef'. rewrite (fit_unfold zero_lt_XR) in Ef, Ef'. rewrite dates_sf, (weights_label_sf E E' u En), usable_sf, map_length in Ef'.
      assert (Eds : dates_of u = Some (map r_date (usable_rows u))) by (unfold dates_of; now rewrite Hd). rewrite Eds in Ef, Ef'. cbv zeta in Ef, Ef'.
      rewrite (range_dated E E') with (xs := xs_of m u) in Ef'. destruct (range_label E (xs_of m u) (Some (map r_date (usable_rows u)))) as [rg|]; [|discriminate].
      cbn [rbind] in Ef, Ef'. destruct (Nat.ltb _ _); [injection Ef as <-; injection Ef' as <-; reflexivity|].
      rewrite xs_sf, (blind_validate m _ (ys_of (sf u)) (ys_of u) _ B) in Ef'.
      destruct (validate_input m _ _ _) as [v|]; [|discriminate]. cbn [rbind] in Ef, Ef'. destruct v; [|injection Ef as <-; injection Ef' as <-; reflexivity].
      cbn [negb] in Ef, Ef'.
      assert (Sm : forall e x y dt, simplify_model (e_arr e) m x y dt = Ok m).
      { intros e x y dt. destruct (unbounded_unpinned m x y dt (rg_free _ _ R)) as (b & Eb & Lb & Pn). now apply (simplify_nothing _ _ _ _ _ b). }
      rewrite Sm in Ef, Ef'. cbn [rbind] in Ef, Ef'. pose proof (hd_n _ _ (rg_hardy _ _ R)) as Np.
      destruct (Nat.eqb_spec (fm_n m) 0); [lia|].
      unfold optimize_least_squares in Ef, Ef'.
      destruct (fm_init m (Some (xs_of m u)) (Some (ys_of u)) None false (e_rnd E)) as [g|]; [|discriminate]. cbn [rbind] in Ef.
      destruct (fm_init m (Some (xs_of m u)) (Some (ys_of (sf u))) None false (e_rnd E')) as [g'|]; [|discriminate]. cbn [rbind] in Ef'.
      destruct (rg_free _ _ R (Some (xs_of m u)) (Some (ys_of u)) None) as (nd & Eb). destruct (rg_free _ _ R (Some (xs_of m u)) (Some (ys_of (sf u))) None) as (nd' & Eb').
      rewrite Eb in Ef. rewrite Eb' in Ef'. cbn [rbind] in Ef, Ef'.
      set (b := mkBounds _ _ nd) in Ef. set (b' := mkBounds _ _ nd') in Ef'.
      assert (Gl : forall v q nd, validate_initial_guess q (mkBounds (repeat XNInf (fm_n m)) (repeat XPInf (fm_n m)) nd) = Ok v -> length q = fm_n m).
      { intros v q nd0. unfold validate_initial_guess. cbn [b_lo b_hi]. rewrite repeat_length. destruct (Nat.eqb_spec (length q) (fm_n m)); [auto|discriminate]. }
      destruct (validate_initial_guess g b) as [i|] eqn:V1; [|discriminate]. destruct (validate_initial_guess g' b') as [i'|] eqn:V2; [|discriminate]. cbn [rbind] in Ef, Ef'.
      apply Gl in V1, V2. destruct i; [|discriminate]. destruct i'; [|discriminate]. cbn [negb] in Ef, Ef'.
      destruct (if uc then init_cache m _ _ else Ok []) as [ca|] eqn:Eca; [|discriminate]. cbn [rbind] in Ef, Ef'. rewrite <- Eds in Ef, Ef', Eca.
      assert (Cc : ca = [] \/ init_cache m (xs_of m u) (dates_of u) = Ok ca) by (destruct uc; [now right|left; now injection Eca]).
      destruct (Sc ca g b V1 Cc) as (c1 & x1 & E1). rewrite E1 in Ef. destruct (Sc' ca g' b' V2) as (c2 & x2 & E2); [now rewrite dates_sf, xs_sf|]. rewrite dates_sf, xs_sf in E2. rewrite E2 in Ef'. cbn [rbind] in Ef, Ef'.
      destruct (get_aic_c c1 _ _) as [a1|]; [|discriminate]. destruct (get_aic_c c2 _ _) as [a2|]; [|discriminate]. cbn [rbind] in Ef, Ef'.
      injection Ef as <-. injection Ef' as <-. reflexivity. }
    assert (Fd' : md_fit d = true -> md_fit d' = true) by (unfold outcome in Lb; congruence).
    pose proof (proj1 Lv) as L0. pose proof (moved_sf m phi be u Lv Hd Fr) as Mv. pose proof (finite_sf u Fr) as Fr'.
    split; [split; [exact Lb|]|]; intros Fd.
    - destruct (moved_fit m phi k _ u (sf u) E E' _ _ _ _ _ _ _ _ _ _ R L0 Mv Fr Fr' Mn Mn' Ef Fd Ef' (Fd' Fd)) as (th & th' & c & P & P' & L & L' & V & C & C' & _).
      destruct (moved_score m phi k _ u (sf u) E E' _ _ _ _ _ _ _ _ _ _ R L0 Mv Fr Fr' Mn Mn' Ef Fd Ef' (Fd' Fd)) as (v & A & A'); [lra|now apply Nz|].
      exists c, v. auto.
    - destruct (moved_fit m phi k _ u (sf u) E E' _ _ _ _ _ _ _ _ _ _ R L0 Mv Fr Fr' Mn Mn' Ef Fd Ef' (Fd' Fd)) as (th & th' & c & P & P' & L & L' & V & C & C' & Dm).
      exists th. split; [exact L|]. split; [exact P|]. rewrite P'. f_equal. rewrite Dm; [reflexivity|].
      intros de Ld K. apply Dt; [exact Ld|]. intros r I. specialize (K (sr r)). rewrite usable_sf in K. apply K. now apply in_map.
  Qed.
  Lemma pair_homogeneous E E' m u freq src act uc d d' : e_num E' = e_num E -> homogeneous m -> has_date u = true ->
    fit_model E m u freq src (Some act) uc = Ok d -> fit_model E' m (sf u) freq src (Some (sf act)) uc = Ok d' ->
    (md_fit d = true -> exists c, 0 < c /\ md_cost d = Fin c) ->
    converted (length (usable_rows u)) d d' /\ (md_fit d = true -> md_params d = [] /\ md_params d' = []).
  Proof.
    intros En Hm Hd Ef Ef' Pos. unfold fit_model in Ef, Ef'. rewrite (fit_unfold zero_lt_XR) in Ef, Ef'.
    rewrite dates_sf, (weights_label_sf E E' u En), usable_sf, map_length in Ef'.
    assert (Eds : dates_of u = Some (map r_date (usable_rows u))) by (unfold dates_of; now rewrite Hd). rewrite Eds in Ef, Ef'. cbv zeta in Ef, Ef'.
    rewrite (range_dated E E') with (xs := xs_of m u) in Ef'. destruct (range_label E (xs_of m u) (Some (map r_date (usable_rows u)))) as [rg|]; [|discriminate].
    cbn [rbind] in Ef, Ef'. destruct (Nat.ltb_spec (length (usable_rows u)) (fm_n m + 2)) as [|Ll].
    { injection Ef as <-. injection Ef' as <-. split; [split; [reflexivity|discriminate]|discriminate]. }
    rewrite (hm_val _ Hm) in Ef, Ef'. cbn [rbind negb] in Ef, Ef'.
    assert (Sm : forall e x y dt, simplify_model (e_arr e) m x y dt = Ok m).
    { intros e x y dt. apply (simplify_nothing _ _ _ _ _ _ (hm_bounds _ Hm x y dt) eq_refl). intros i (lo & hi & E1 & _). destruct i; discriminate E1. }
    rewrite Sm in Ef, Ef'. cbn [rbind] in Ef, Ef'. rewrite (hm_n _ Hm) in *. cbn [Nat.eqb] in Ef, Ef'.
    rewrite ys_sf, xs_sf, ws_sf, (residuals_sc _ _ _ _ _ _ _ Hm) in Ef'.
    destruct (get_residuals None m (xs_of m u) (ys_of u) (Some (map r_date (usable_rows u))) (ws_of u) (Some act) []) as [rs|]; [|discriminate].
    cbn [rmap rbind] in Ef, Ef'. rewrite cost_sc in Ef'. set (c0 := nmul (dec 5 10) (nansum (map (fun a => nmul a a) rs))) in *.
    destruct (get_aic_c c0 _ _) as [a1|] eqn:A1; [|discriminate]. destruct (get_aic_c (OutlierReals.sc (k * k) c0) _ _) as [a2|] eqn:A2; [|discriminate]. cbn [rbind] in Ef, Ef'.
    injection Ef as <-. injection Ef' as <-. split; [|split; reflexivity]. split; [reflexivity|]. intros _. cbn [md_cost md_aicc df_fit_model].
    destruct (Pos eq_refl) as (c & Cp & Ec). cbn [md_cost df_fit_model] in Ec. rewrite Ec in *. cbn [OutlierReals.sc] in *. assert (0 < k * k) by nra.
    rewrite score_pos in A1 by (try lia; exact Cp). rewrite score_pos in A2 by (try lia; nra). injection A1 as <-. injection A2 as <-.
    do 2 eexists. split; [reflexivity|]. split; [reflexivity|]. split; [reflexivity|]. do 2 f_equal.
    rewrite aicc_units, INR_IZR_INZ; [reflexivity|apply IZR_lt; lia|exact Cp|lra].
  Qed.

  (* ---- prediction intervals ---- *)
  Definition sd (r : drow XR) : drow XR := mkD (d_date r) (d_w r) (ac (d_y r)) (d_model r) (d_src r) (d_long r) (d_actual r) (d_best r).
  Definition spr (r : prow XR) : prow XR := mkP (p_date r) (p_src r) (p_model r) (p_actual r) (ac (p_y r)) (map sp (p_q r)).
  Lemma filter_sd (p : drow XR -> bool) l : (forall r, p (sd r) = p r) -> filter p (map sd l) = map sd (filter p l).
  Proof. apply filter_map_same. Qed.
  Lemma sd_value r : with_value (sd r) = with_value r.
  Proof. unfold with_value. cbn [sd d_y]. now rewrite ac_nan. Qed.
  Lemma usable_actuals_sd l : usable_actuals (map sd l) = map sp (usable_actuals l).
  Proof.
    unfold usable_actuals. rewrite (filter_sd (fun r => nltb n0 (d_w r) && d_actual r)%bool) by reflexivity.
    rewrite (filter_sd (fun r => d_actual r && with_value r)%bool) by (intros r; now rewrite sd_value). rewrite map_map.
    change (map (fun x => d_date (sd x))) with (map (@d_date XR)). generalize (map d_date (filter (fun r => nltb n0 (d_w r) && d_actual r)%bool l)). intros ds.
    induction (filter (fun r => d_actual r && with_value r)%bool l) as [|r m IH]; [reflexivity|]. cbn [map flat_map]. rewrite map_app, IH. f_equal. now rewrite map_repeat.
  Qed.
  Lemma residuals_sd acts l : residuals (map sp acts) (map sd l) = map sc (residuals acts l).
  Proof.
    unfold residuals. rewrite filter_sd by (intros r; now rewrite sd_value).
    assert (E : forall m, flat_map (fun r => map (fun a => nsub (snd a) (d_y r)) (filter (fun a => Z.eqb (fst a) (d_date r)) (map sp acts))) (map sd m) =
      map sc (flat_map (fun r => map (fun a => nsub (snd a) (d_y r)) (filter (fun a => Z.eqb (fst a) (d_date r)) acts)) m)).
    { induction m as [|r m IH]; [reflexivity|]. cbn [map flat_map]. rewrite map_app, IH. f_equal.
      rewrite (filter_map_same sp (fun a => Z.eqb (fst a) (d_date (sd r))) (fun a => Z.eqb (fst a) (d_date r))) by reflexivity.
      rewrite !map_map. apply map_ext. intros a. cbn [sp snd sd d_y]. apply ac_sub. }
    rewrite E. apply filter_map_same. intros a. now rewrite sc_nan.
  Qed.
  Lemma centred_sc l : centred (map sc l) = map sc (centred l).
  Proof.
    unfold centred. rewrite sc_sum, map_length, ofZ_fin, sc_cdiv by exact Hk. rewrite !map_map. apply map_ext. intros a. apply sc_sub.
  Qed.
  Lemma sample_sc l d n : Pi.sample (map sc l) d n = map sc (Pi.sample l d n).
  Proof.
    unfold Pi.sample. rewrite map_map, map_length. apply map_ext. intros i. change (@nnan XR _) with (sc nnan) at 1. apply map_nth.
  Qed.
  Lemma reshape_sc m n l : reshape m n (map sc l) = map (map sc) (reshape m n l).
  Proof. unfold reshape. rewrite map_map. apply map_ext. intros i. now rewrite skipn_map, firstn_map. Qed.
  Lemma cumsum_sc acc l : cumsum_from (option_map sc acc) (map sc l) = map sc (cumsum_from acc l).
  Proof.
    revert acc. induction l as [|a l IH]; intros acc; [reflexivity|]. cbn [map cumsum_from].
    assert (E : match option_map sc acc with None => sc a | Some b => nadd b (sc a) end = sc (match acc with None => a | Some b => nadd b a end)).
    { destruct acc; [apply sc_add|reflexivity]. }
    rewrite E. f_equal. apply (IH (Some _)).
  Qed.
  Lemma expand_sc c n l : expand c n (map sc l) = map sc (expand c n l).
  Proof.
    unfold expand. rewrite <- firstn_map. f_equal. induction l as [|a l IH]; [reflexivity|]. cbn [map flat_map]. rewrite map_app, IH. f_equal. now rewrite map_repeat.
  Qed.
  Lemma add_rows_sc a b : add_rows (map sc a) (map sc b) = map sc (add_rows a b).
  Proof. unfold add_rows. revert b. induction a as [|x a IH]; intros [|y b]; try reflexivity. cbn [map combine fst snd]. now rewrite sc_add, IH. Qed.
  Lemma future_sc draw ns nc n l : future_sample draw ns nc n (map sc l) = map (map sc) (future_sample draw ns nc n l).
  Proof.
    unfold future_sample. rewrite !sample_sc, !reshape_sc, map_map.
    rewrite (map_ext (fun x => expand nc n (cumsum_from None (map sc x))) (fun x => map sc (expand nc n (cumsum_from None x))))
      by (intros x; now rewrite (cumsum_sc None), expand_sc).
    rewrite <- (map_map (fun x => expand nc n (cumsum_from None x)) (map sc)).
    generalize (map (fun x => expand nc n (cumsum_from None x)) (reshape ns (ceil_nat n nc) (Pi.sample l (draw 0%nat) (ceil_nat n nc * ns)))).
    generalize (reshape ns n (Pi.sample l (draw 1%nat) (n * ns))). intros a. induction a as [|x a IH]; intros [|y b]; try reflexivity.
    cbn [map combine fst snd]. now rewrite add_rows_sc, IH.
  Qed.
  Lemma past_sc draw ns n l : past_sample draw ns n (map sc l) = map (map sc) (past_sample draw ns n l).
  Proof. unfold past_sample. now rewrite sample_sc, reshape_sc. Qed.
  Lemma percentile_sc q l : percentile q (map sc l) = sc (percentile q l).
  Proof.
    unfold percentile. replace (existsb nisnan (map sc l)) with (existsb nisnan l).
    - destruct (existsb nisnan l); [reflexivity|]. apply sc_quantile; [exact Hk|lia].
    - induction l as [|a l IH]; [reflexivity|]. cbn [map existsb]. now rewrite sc_nan, IH.
  Qed.
  Lemma col_sc j m : col j (map (map sc) m) = map sc (col j m).
  Proof. unfold col. rewrite !map_map. apply map_ext. intros l. change (@nnan XR _) with (sc nnan) at 1. apply map_nth. Qed.
  Lemma enumerate_map {A B} (g : A -> B) l : enumerate (map g l) = map (fun p => (fst p, g (snd p))) (enumerate l).
  Proof.
    unfold enumerate. generalize 0%nat. induction l as [|a l IH]; intros i; [reflexivity|]. cbn [map enum_from fst snd]. now rewrite IH.
  Qed.
  Lemma add_percentiles_sc l m q1 q2 : add_percentiles (map sd l) (map (map sc) m) q1 q2 = rmap (map spr) (add_percentiles l m q1 q2).
  Proof.
    unfold add_percentiles. destruct (_ && _)%bool; [|reflexivity]. cbn [rmap rbind]. f_equal. rewrite enumerate_map, !map_map. apply map_ext. intros [i r].
    cbn [fst snd]. unfold spr. cbn [p_date p_src p_model p_actual p_y p_q]. f_equal. rewrite map_map. apply map_ext. intros q. unfold sp. cbn [fst snd]. f_equal.
    rewrite col_sc, percentile_sc. apply ac_add.
  Qed.
  Lemma map_map_ext {A B C D} (f : A -> B) (g : B -> D) (f' : A -> C) (g' : C -> D) l : (forall a, g (f a) = g' (f' a)) -> map g (map f l) = map g' (map f' l).
  Proof. intros E. rewrite !map_map. now apply map_ext. Qed.
  Lemma actual_sd l : map actual_row (map sd l) = map spr (map actual_row l).
  Proof. now apply map_map_ext. Qed.
  Lemma pi_single_sd draw ns nc q1 q2 a b c d l : pi_single draw ns nc q1 q2 (mkPT a b c d (map sd l)) = rmap (map spr) (pi_single draw ns nc q1 q2 (mkPT a b c d l)).
  Proof.
    unfold pi_single. cbn [pt_best pt_rows pt_dates pt_w pt_src].
    replace (if c then filter (fun r => d_actual r || d_best r)%bool (map sd l) else map sd l) with (map sd (if c then filter (fun r => d_actual r || d_best r)%bool l else l))
      by (destruct c; [now rewrite filter_sd by reflexivity|reflexivity]).
    generalize (if c then filter (fun r => d_actual r || d_best r)%bool l else l). clear l. intros l. rewrite map_map. change (map (fun x => d_date (sd x))) with (map (@d_date XR)).
    destruct (if d then days_from_freq (detect_freq (map d_date l)) else Ok 1%Z) as [fd|]; [|reflexivity]. cbn [rbind].
    rewrite (filter_sd (fun r => d_actual r && with_value r)%bool) by (intros r; now rewrite sd_value).
    replace (existsb (fun r => neqb (d_w r) n0) (map sd l)) with (existsb (fun r => neqb (d_w r) n0) l)
      by (clear; induction l as [|r l IH]; [reflexivity|]; cbn [map existsb]; now rewrite IH).
    rewrite usable_actuals_sd, (map_map_ext sd (fun r => (d_date r, d_y r)) (fun r => (d_date r, d_y r)) sp) by reflexivity.
    generalize (filter (fun r => d_actual r && with_value r)%bool l). intros unf.
    assert (E : (if (b && existsb (fun r => neqb (d_w r) n0) l)%bool then if a then Ok (map sp (usable_actuals l)) else Err KeyError
                 else Ok (map sp (map (fun r => (d_date r, d_y r)) unf))) =
      rmap (map sp) (if (b && existsb (fun r => neqb (d_w r) n0) l)%bool then if a then Ok (usable_actuals l) else Err KeyError
                 else Ok (map (fun r => (d_date r, d_y r)) unf))).
    { destruct (_ && _)%bool; [destruct a|]; reflexivity. }
    rewrite E. clear E. destruct (if (b && existsb (fun r => neqb (d_w r) n0) l)%bool then if a then Ok (usable_actuals l) else Err KeyError
                 else Ok (map (fun r => (d_date r, d_y r)) unf)) as [acts|]; [|reflexivity]. cbn [rmap rbind].
    rewrite residuals_sd, map_fst_sp. destruct (residuals acts l) as [|x rs]; cbn [map].
    { destruct (negb a); [reflexivity|]. destruct l; [reflexivity|]. cbn [map rmap rbind]. now rewrite actual_sd. }
    destruct (zmax_opt (map fst acts)) as [last|]; [|reflexivity]. change (sc x :: map sc rs) with (map sc (x :: rs)). rewrite centred_sc.
    rewrite (filter_sd (fun r => negb (d_actual r) && Z.ltb last (d_date r))%bool), (filter_sd (fun r => negb (d_actual r) && Z.leb (d_date r) last)%bool) by reflexivity.
    rewrite !map_length, future_sc, past_sc, !add_percentiles_sc.
    destruct (add_percentiles _ (future_sample _ _ _ _ _) _ _) as [fu|]; [|reflexivity]. cbn [rmap rbind].
    destruct (add_percentiles _ (past_sample _ _ _ _) _ _) as [pa|]; [|reflexivity]. cbn [rmap rbind]. now rewrite !map_app, actual_sd.
  Qed.
  Lemma isort_spr l : isort prow_leb (map spr l) = map spr (isort prow_leb l).
  Proof.
    induction l as [|a l IH]; [reflexivity|]. cbn [map isort]. rewrite IH. generalize (isort prow_leb l). clear IH. intros m.
    induction m as [|b m IHm]; [reflexivity|]. cbn [map insert]. change (prow_leb (spr a) (spr b)) with (prow_leb a b). destruct (prow_leb a b); [reflexivity|]. cbn [map]. now rewrite IHm.
  Qed.
  Lemma rmapM_rmap {A B C} (g : B -> C) (q : A -> res B) l : rmapM (fun a => rmap g (q a)) l = rmap (map g) (rmapM q l).
  Proof.
    induction l as [|a l IH]; [reflexivity|]. cbn [rmapM]. destruct (q a); [|reflexivity]. cbn [rmap rbind]. rewrite IH. now destruct (rmapM q l).
  Qed.
  Lemma get_pi_sd draw ns nc q1 q2 w a b c d l : get_pi draw ns nc q1 q2 w (mkPT a b c d (map sd l)) = rmap (map spr) (get_pi draw ns nc q1 q2 w (mkPT a b c d l)).
  Proof.
    unfold get_pi. destruct (match nc with Some n => Ok n | None => days_from_freq w end) as [n|]; [|reflexivity]. cbn [rbind pt_src pt_rows pt_w pt_best pt_dates].
    rewrite map_map. change (map (fun x => d_src (sd x))) with (map (@d_src XR)). destruct (_ && _)%bool.
    - rewrite (rmapM_ext _ (fun s => rmap (map spr) (pi_single (draw s) ns n q1 q2 (mkPT true b c d (filter (fun r => String.eqb (d_src r) s) l))))).
      2:{ intros s _. rewrite filter_sd by reflexivity. apply pi_single_sd. }
      rewrite rmapM_rmap. destruct (rmapM _ _) as [gs|]; [|reflexivity]. cbn [rmap rbind]. now rewrite <- concat_map, isort_spr.
    - rewrite pi_single_sd. destruct l; reflexivity.
  Qed.

  (* ---- extrapolation ---- *)
  Lemma combine_fst_snd {A B} (l : list A) (g : A -> B) : map fst (combine l (map g l)) = l /\ map snd (combine l (map g l)) = map g l.
  Proof. induction l as [|a l [I1 I2]]; [split; reflexivity|]. cbn [map combine fst snd]. now rewrite I1, I2. Qed.
  Lemma rdot_mix th be l : length th = length be -> rdot (mix k 1 th be) l = k * rdot th l + rdot be l.
  Proof.
    unfold mix, map2, rdot. revert be l. induction th as [|t th IH]; intros [|b be] [|c l] L; cbn; try discriminate; try ring.
    rewrite IH by (now injection L). ring.
  Qed.
  Lemma extrapolate_regression m phi be th a b freq years x0 act act' g : regression m phi -> levels m phi be -> length th = fm_n m ->
    extrapolate_model m (Some (fins th)) (ODate a b) freq years x0 act = Ok g ->
    extrapolate_model m (Some (fins (mix k 1 th be))) (ODate a b) freq years x0 act' = Ok (map sp g).
  Proof.
    intros R [Lb Lv] L. unfold extrapolate_model, s_x_extrapolate, s_x_dates. destruct (grid_freq a freq) as [q|]; [|discriminate]. cbn [rbind].
    destruct (forecast_end b q years) as [e|]; [|discriminate]. cbn [rbind]. destruct (date_range a e q) as [ds|]; [|discriminate]. cbn [rbind].
    unfold apply_a_x_scaling, model_requires_scaling. rewrite (rg_scale _ _ R).
    destruct (combine_fst_snd ds (fun t => nofZ ((t - a) / DAY + x0)%Z : XR)) as [E1 E2]. rewrite E1, E2.
    assert (Ex : map (fun t => nofZ ((t - a) / DAY + x0)%Z : XR) ds = fins (map (fun t => IZR ((t - a) / DAY + x0)) ds)).
    { unfold fins. rewrite map_map. apply map_ext. intros t. apply ofZ_fin. }
    assert (Lm : length (mix k 1 th be) = fm_n m) by (unfold mix, map2; rewrite map_length, combine_length; lia).
    assert (D : ds = [] \/ ds <> []) by (destruct ds; [now left|right; discriminate]). destruct D as [->|Nd].
    { cbn [map]. destruct (rg_empty _ _ R) as (r & V & Ev). rewrite !Ev by assumption. destruct r as [v|]; [|discriminate]. rewrite (V v eq_refl). cbn. intros K. apply ok_inj in K. now subst g. }
    rewrite Ex, !(rg_call _ _ R) by (rewrite ?map_length; auto). cbn [rbind]. unfold fins. rewrite !map_length, !combine_length, !map_length, Nat.min_id, Nat.eqb_refl.
    intros [= <-]. f_equal. rewrite <- combine_sp. f_equal. rewrite !map_map. apply map_ext. intros p. rewrite ac_fin. f_equal.
    rewrite rdot_mix, Lv by lia. reflexivity.
  Qed.
  Lemma extrapolate_homogeneous m p a b freq years x0 act g : homogeneous m ->
    extrapolate_model m p (ODate a b) freq years x0 (Some act) = Ok g ->
    extrapolate_model m p (ODate a b) freq years x0 (Some (sf act)) = Ok (map sp g).
  Proof.
    intros Hm. unfold extrapolate_model. destruct (s_x_extrapolate _ _ _ _ _) as [gr|]; [|discriminate]. cbn [rbind]. rewrite (hm_call _ Hm).
    destruct (call _ _ _ _ _ _) as [[t|l]|]; cbn [rmap rbind sv]; [| |discriminate].
    - intros [= <-]. f_equal. rewrite !map_map. reflexivity.
    - rewrite !map_length. destruct (Nat.eqb _ _); [|discriminate]. intros [= <-]. now rewrite combine_sp.
  Qed.
  Lemma fcast_sd g source long name : fcast_clean (map sp g) source long name = map sd (fcast_clean g source long name).
  Proof.
    unfold fcast_clean. rewrite (filter_map_same sp _ (fun p : Z * XR => negb (nisnan (snd p)))) by (intros p; unfold sp; cbn [snd]; now rewrite ac_nan).
    rewrite !map_map. reflexivity.
  Qed.
  (* the candidates the theorem is about *)
  Definition solved (E : env XR) m f act : Prop := minimizes E m f act /\ successful E m f act.
  Definition convertible (E E' : env XR) (u act : frame XR) (m : fmodel XR) : Prop :=
    homogeneous m \/ exists phi be, regression m phi /\ levels m phi be /\ blind m /\ determined m phi u /\ solved E m u (Some act) /\ solved E' m (sf u) (Some (sf act)).
  Definition converted_fit (n : nat) (p p' : meta XR * string * list (drow XR)) : Prop :=
    converted n (fst (fst p)) (fst (fst p')) /\ snd (fst p') = snd (fst p) /\ snd p' = map sd (snd p).
  Lemma pair_one W W' c source mode freq la u act a b x0 m p p' : e_num (w_env W') = e_num (w_env W) -> has_date u = true -> finite_rows u ->
    convertible (w_env W) (w_env W') u act m ->
    fit_one W c source mode freq la u act (ODate a b) x0 m = Ok p -> fit_one W' c source mode freq la (sf u) (sf act) (ODate a b) x0 m = Ok p' ->
    (md_fit (fst (fst p)) = true -> exists q, 0 < q /\ md_cost (fst (fst p)) = Fin q) -> converted_fit (length (usable_rows u)) p p'.
  Proof.
    intros En Hd Fr Cv K K' Pos. unfold fit_one in K, K'.
    destruct (fit_model (w_env W) m u freq source (Some act) (c_cache c)) as [d|] eqn:Ed; [|discriminate].
    destruct (fit_model (w_env W') m (sf u) freq source (Some (sf act)) (c_cache c)) as [d'|] eqn:Ed'; [|discriminate]. cbn [rbind] in K, K'.
    assert (Fst : fst (fst p) = d) by (destruct (md_fit d); [destruct (extrapolate_model _ _ _ _ _ _ _); [|discriminate]|]; now injection K as <-).
    rewrite Fst in Pos.
    assert (Key : converted (length (usable_rows u)) d d' /\ (md_fit d = true -> forall g,
        extrapolate_model m (Some (md_params d)) (ODate a b) freq (c_years c) x0 (Some act) = Ok g ->
        extrapolate_model m (Some (md_params d')) (ODate a b) freq (c_years c) x0 (Some (sf act)) = Ok (map sp g))).
    { destruct Cv as [Hm|(phi & be & R & Lv & B & Dt & [Mn Su] & [Mn' Su'])].
      - destruct (pair_homogeneous _ _ _ _ _ _ _ _ _ _ En Hm Hd Ed Ed' Pos) as [Cd Pe]. split; [exact Cd|]. intros F g. destruct (Pe F) as [-> ->]. now apply extrapolate_homogeneous.
      - destruct (pair_regression _ _ _ phi be _ _ _ _ _ _ _ En R Lv B Dt Hd Fr Mn Su Mn' Su' Ed Ed') as [Cd Pe].
        { intros F C0. destruct (Pos F) as (q & Q & C1). rewrite C0 in C1. injection C1 as C1. lra. }
        split; [exact Cd|]. intros F g. destruct (Pe F) as (th & L & -> & ->). now apply (extrapolate_regression m phi be). }
    destruct Key as [Cd Ex]. assert (Ff : md_fit d' = md_fit d /\ md_source_long d' = md_source_long d) by (destruct Cd as [Lb _]; unfold outcome in Lb; split; congruence).
    destruct Ff as [Ff Fl]. rewrite Ff in K'. destruct (md_fit d).
    - destruct (extrapolate_model m (Some (md_params d)) _ _ _ _ _) as [g|] eqn:Eg; [|discriminate]. rewrite (Ex eq_refl g eq_refl) in K'. cbn [rbind] in K, K'.
      injection K as <-. injection K' as <-. split; [exact Cd|]. split; [reflexivity|]. cbn [snd]. rewrite Fl. apply fcast_sd.
    - injection K as <-. injection K' as <-. split; [exact Cd|]. split; reflexivity.
  Qed.

  (* ---- choice of the best fit ---- *)
  Definition key (d : meta XR) := (md_source d, md_source_long d, md_model d).
  Lemma converted_key n d d' : converted n d d' -> key d' = key d /\ md_fit d' = md_fit d.
  Proof. intros [Lb _]. unfold outcome, key in *. split; congruence. Qed.
  Lemma Forall2_l {A B} (P : A -> B -> Prop) l l' a : Forall2 P l l' -> In a l -> exists b, In b l' /\ P a b.
  Proof. induction 1 as [|x y l l' Pxy F IH]; intros []; [subst; exists y; split; [now left|exact Pxy]|]. destruct IH as (b & I & Pb); [assumption|]. exists b. split; [now right|exact Pb]. Qed.
  Lemma Forall2_r {A B} (P : A -> B -> Prop) l l' b : Forall2 P l l' -> In b l' -> exists a, In a l /\ P a b.
  Proof. induction 1 as [|x y l l' Pxy F IH]; intros []; [subst; exists x; split; [now left|exact Pxy]|]. destruct IH as (a & I & Pa); [assumption|]. exists a. split; [now right|exact Pa]. Qed.
  Lemma no_worse_reals (a b : meta XR) v w : md_aicc a = Fin v -> md_aicc b = Fin w -> no_worse a b -> v <= w.
  Proof.
    intros Ea Eb. unfold no_worse, score_le. rewrite Ea, Eb. intros [E|[E|E]]; [injection E as ->; lra|discriminate|]. cbn in E. unfold Rleb in E. now destruct (Rle_dec v w).
  Qed.
  Lemma best_sd W W' n l l' : sorts W -> sorts W' -> Forall2 (converted n) l l' ->
    (forall d e, In d l -> In e l -> md_fit d = true -> md_fit e = true -> md_aicc d = md_aicc e -> key d = key e) ->
    option_map key (best_fit W' l') = option_map key (best_fit W l).
  Proof.
    intros So So' F U. destruct (best_fit W l) as [b|] eqn:Eb.
    - destruct (best_fit_some W l b So Eb) as (I & Fb & Nw). destruct (Forall2_l _ _ _ b F I) as (b' & I' & Cb). destruct (converted_key _ _ _ Cb) as [_ Fb'].
      destruct (best_fit W' l') as [e'|] eqn:Ee; [|rewrite (best_fit_none W' l' So' Ee b' I') in Fb'; congruence].
      destruct (best_fit_some W' l' e' So' Ee) as (Ie' & Fe' & Nw'). destruct (Forall2_r _ _ _ e' F Ie') as (e & Ie & Ce). destruct (converted_key _ _ _ Ce) as [Ke Fe].
      cbn [option_map]. f_equal. rewrite Ke. rewrite Fe' in Fe. symmetry in Fe. apply U; try assumption.
      destruct Cb as [_ Cb], Ce as [_ Ce]. destruct (Cb Fb) as (c1 & v1 & _ & _ & A1 & A1'). destruct (Ce Fe) as (c2 & v2 & _ & _ & A2 & A2').
      pose proof (no_worse_reals _ _ _ _ A1 A2 (Nw e Ie Fe)). pose proof (no_worse_reals _ _ _ _ A2' A1' (Nw' b' I' ltac:(congruence))).
      rewrite A1, A2. f_equal. lra.
    - destruct (best_fit W' l') as [e'|] eqn:Ee; [|reflexivity]. destruct (best_fit_some W' l' e' So' Ee) as (Ie' & Fe' & _).
      destruct (Forall2_r _ _ _ e' F Ie') as (e & Ie & Ce). destruct (converted_key _ _ _ Ce) as [_ Fe]. rewrite (best_fit_none W l So Eb e Ie) in Fe. congruence.
  Qed.
  Lemma is_best_key b b' s l m : option_map key b' = option_map key b -> is_best b' s l m = is_best b s l m.
  Proof. destruct b, b'; cbn; try discriminate; [|reflexivity]. unfold key. intros [= -> -> ->]. reflexivity. Qed.
  Definition same_row (n : nat) (m m' : mrow XR) : Prop := m_label m' = m_label m /\ m_best m' = m_best m /\ converted n (m_meta m) (m_meta m').
  Lemma Forall2_filter {A B} (P : A -> B -> Prop) (p : A -> bool) (q : B -> bool) l l' : Forall2 P l l' -> (forall a b, P a b -> q b = p a) ->
    Forall2 P (filter p l) (filter q l').
  Proof. intros F E. induction F as [|a b l l' Pab F IH]; [constructor|]. cbn [filter]. rewrite (E a b Pab). destruct (p a); [constructor; assumption|assumption]. Qed.
  Lemma assemble_sd W W' all w acts fits fits' n : sorts W -> sorts W' -> Forall2 (converted_fit n) fits fits' ->
    (forall p q, In p fits -> In q fits -> md_fit (fst (fst p)) = true -> md_fit (fst (fst q)) = true ->
       md_aicc (fst (fst p)) = md_aicc (fst (fst q)) -> key (fst (fst p)) = key (fst (fst q))) ->
    fst (assemble W' all w (map sd acts) fits') = map sd (fst (assemble W all w acts fits)) /\
    Forall2 (same_row n) (snd (assemble W all w acts fits)) (snd (assemble W' all w (map sd acts) fits')).
  Proof.
    intros So So' F U. unfold assemble.
    assert (Fd : Forall2 (converted n) (map (fun p => fst (fst p)) fits) (map (fun p => fst (fst p)) fits')).
    { clear U. induction F as [|p p' l l' [C _] F IH]; constructor; assumption. }
    assert (B : option_map key (best_fit W' (map (fun p => fst (fst p)) fits')) = option_map key (best_fit W (map (fun p => fst (fst p)) fits))).
    { apply (best_sd W W' n); try assumption. intros d e Id Ie. apply in_map_iff in Id as (p & <- & Ip). apply in_map_iff in Ie as (q & <- & Iq). now apply U. }
    generalize dependent (best_fit W' (map (fun p => fst (fst p)) fits')). generalize dependent (best_fit W (map (fun p => fst (fst p)) fits)). intros b b' B.
    assert (D : map (flag_data b') (map sd acts ++ concat (map snd fits')) = map sd (map (flag_data b) (acts ++ concat (map snd fits)))).
    { assert (E : map sd acts ++ concat (map snd fits') = map sd (acts ++ concat (map snd fits))).
      { rewrite map_app. f_equal. clear - F. induction F as [|p p' l l' (_ & _ & E) F IH]; [reflexivity|]. cbn [map concat]. now rewrite E, IH, map_app. }
      rewrite E. apply map_map_ext. intros r. unfold flag_data, sd. cbn [d_date d_w d_y d_model d_src d_long d_actual d_best]. f_equal. now apply is_best_key. }
    assert (M : Forall2 (same_row n) (map (fun p => flag_meta b w (fst (fst p)) (snd (fst p))) fits) (map (fun p => flag_meta b' w (fst (fst p)) (snd (fst p))) fits')).
    { clear U Fd D. induction F as [|p p' l l' (C & Lb & _) F IH]; constructor; [|assumption]. unfold flag_meta. destruct (converted_key _ _ _ C) as [K _].
      split; [exact Lb|]. split.
      - cbn [m_best]. unfold key in K. injection K as -> -> ->. now apply is_best_key.
      - cbn [m_meta]. destruct C as [Co Cf]. split; [|exact Cf]. unfold outcome in *. cbn [set_weights md_source md_model md_weights md_range md_freq md_fit md_status md_source_long]. congruence. }
    destruct all; cbn [fst snd]; [split; assumption|]. split.
    - rewrite D. apply filter_sd. reflexivity.
    - apply Forall2_filter; [exact M|]. intros a a' (_ & E & _). exact E.
  Qed.

  (* ---- the whole forecast ---- *)
  Lemma actuals_clean_sd f source long : actuals_clean (sf f) source long = map sd (actuals_clean f source long).
  Proof. unfold actuals_clean. rewrite rows_sf. now apply map_map_ext. Qed.
  Lemma weighted_dates_sf f : weighted_dates (sf f) = weighted_dates f.
  Proof.
    unfold weighted_dates. change (has_w (sf f)) with (has_w f). rewrite rows_sf. destruct (has_w f); [rewrite filter_sr by reflexivity|]; now rewrite map_sr_date.
  Qed.
  Lemma candidates_sf c f : candidate_lists c (sf f) = candidate_lists c f.
  Proof. unfold candidate_lists, default_trend, use_ramp, use_calendar. rewrite weighted_dates_sf. reflexivity. Qed.
  Lemma run_inv W c source f r : run_forecast_single W c source f = Ok r ->
    exists w acts fits, run_fits W c source f = Ok (w, acts, fits) /\ assemble W (c_all c) w acts fits = (rs_data r, rs_meta r) /\
      get_pi (fun _ => w_draw W) 100 (c_ncum c) (c_q1 c) (c_q2 c) (c_widen c) (mkPT true true true (has_date f) (rs_data r)) = Ok (rs_forecast r).
  Proof.
    unfold run_forecast_single. intros K. destruct (run_fits W c source f) as [[[w acts] fits]|]; [|discriminate]. cbn [rbind] in K.
    destruct (assemble W (c_all c) w acts fits) as [data metas] eqn:Ea. destruct (get_pi _ _ _ _ _ _ _) as [pi|] eqn:Ep; [|discriminate].
    cbn [rbind] in K. injection K as <-. exists w, acts, fits. repeat split; assumption.
  Qed.
  Lemma place_pos (g : frame XR) : place (positive g) = place g.
  Proof. reflexivity. Qed.
  Lemma Forall2_zip {A B C} (P : A -> B -> Prop) (Q : A -> C -> Prop) (R : B -> C -> Prop) l m n : Forall2 P l m -> Forall2 Q l n ->
    (forall a b c, In a l -> In b m -> P a b -> Q a c -> R b c) -> Forall2 R m n.
  Proof.
    intros F. revert n. induction F as [|a b l m Pab F IH]; intros n G K; inversion G; subst; constructor.
    - apply (K a); try assumption; now left.
    - apply IH; [assumption|]. intros. apply (K a0); try assumption; now right.
  Qed.
  Theorem forecast_units W W' c source f f1 mode act w acts fits r r' : has_date f = true ->
    e_num (w_env W') = e_num (w_env W) -> w_draw W' = w_draw W -> sorts W -> sorts W' ->
    prepared c f = Ok f1 -> final_mode W c (with_weights f1) = Ok mode -> final_mode W' c (with_weights (sf f1)) = Ok mode ->
    model_actuals f (to_fit f1) = Ok act -> finite_rows (to_fit f1) ->
    (forall m, In m (all_models c mode (detect_freq_frame f) (fst (candidate_lists c (with_weights f1))) (snd (candidate_lists c (with_weights f1)))) ->
       convertible (w_env W) (w_env W') (to_fit f1) act m) ->
    run_fits W c source f = Ok (w, acts, fits) ->
    (forall p, In p fits -> md_fit (fst (fst p)) = true -> exists q, 0 < q /\ md_cost (fst (fst p)) = Fin q) ->
    (forall p q, In p fits -> In q fits -> md_fit (fst (fst p)) = true -> md_fit (fst (fst q)) = true ->
       md_aicc (fst (fst p)) = md_aicc (fst (fst q)) -> md_model (fst (fst p)) = md_model (fst (fst q))) ->
    run_forecast_single W c source f = Ok r -> run_forecast_single W' c source (map_y (fun y => nadd (nmul y (Fin k)) (Fin h)) f) = Ok r' ->
    rs_forecast r' = map spr (rs_forecast r) /\ rs_data r' = map sd (rs_data r) /\
    Forall2 (same_row (length (usable_rows (to_fit f1)))) (rs_meta r) (rs_meta r').
  Proof.
    intros Hd En Dr So So' Ep Em Em' Ea Fr Cv Ef Pos Tie Er Er'. rewrite sf_spec in Er'.
    destruct (run_inv _ _ _ _ _ Er) as (w0 & acts0 & fits0 & Ef0 & As & Pi0). rewrite Ef in Ef0. injection Ef0 as <- <- <-.
    destruct (run_inv _ _ _ _ _ Er') as (w' & acts' & fits' & Ef' & As' & Pi').
    destruct (run_fits_inv _ _ _ _ _ _ _ Ef) as (g1 & range & mo & ac & st & sp0 & x0 & Ep2 & Ew & Erg & Eac & Emo & Eact & Est & Esp & Ex & _ & Ff).
    destruct (run_fits_inv _ _ _ _ _ _ _ Ef') as (g1' & range' & mo' & ac' & st' & sp0' & x0' & Ep2' & Ew' & Erg' & Eac' & Emo' & Eact' & Est' & Esp' & Ex' & _ & Ff').
    rewrite Ep in Ep2. injection Ep2 as <-. rewrite prepared_sf, Ep in Ep2'. injection Ep2' as <-.
    rewrite Em in Emo. injection Emo as <-. rewrite Em' in Emo'. injection Emo' as <-.
    unfold to_fit in Ea. rewrite Ea in Eact. injection Eact as <-. rewrite with_weights_sf, positive_sf, actuals_sf, Ea in Eact'. injection Eact' as <-.
    rewrite (input_weights_sf _ (w_env W') f1 En), <- Ew in Ew'. subst w'.
    rewrite with_weights_sf, input_range_sf, Erg in Erg'. injection Erg' as <-.
    rewrite with_weights_sf, freq_sf, actuals_clean_sd, <- Eac in Eac'.
    rewrite with_weights_sf, positive_sf, rows_sf, map_sr_x, Ex in Ex'. injection Ex' as <-.
    rewrite with_weights_sf, positive_sf, rows_sf in Est'. change (map (place (sf (with_weights f1)))) with (map (place (sf (positive (with_weights f1))))) in Est'.
    rewrite place_sf, place_pos, Est in Est'. injection Est' as <-.
    rewrite with_weights_sf, rows_sf, place_sf, Esp in Esp'. injection Esp' as <-.
    rewrite with_weights_sf, freq_sf, candidates_sf, positive_sf in Ff'.
    assert (Hu : has_date (positive (with_weights f1)) = true).
    { destruct (prepared_places _ _ _ Ep) as [_ Dp]. destruct (with_weights_rows f1) as [_ Dw]. cbn. now rewrite Dw, Dp. }
    unfold start_of in Ff, Ff'. change (has_date (sf f)) with (has_date f) in Ff', Pi'. rewrite Hd in Ff, Ff'.
    assert (F : Forall2 (converted_fit (length (usable_rows (to_fit f1)))) fits fits').
    { apply (Forall2_zip _ _ _ _ _ _ Ff Ff'). intros m p p' Im Ip K K'. apply (pair_one _ _ _ _ _ _ _ _ _ _ _ _ _ _ _ En Hu Fr (Cv m Im) K K'). now apply Pos. }
    assert (Fl : forall p, In p fits -> exists rg, range_label (w_env W) [] (dates_of (to_fit f1)) = Ok rg /\ md_source (fst (fst p)) = source /\
      md_source_long (fst (fst p)) = long_name source (weights_label (w_env W) (to_fit f1)) (detect_freq_frame f) rg).
    { intros p Ip. destruct (Forall2_r _ _ _ p Ff Ip) as (m & _ & K). destruct (fit_one_contributes _ _ _ _ _ _ _ _ _ _ _ _ K) as (_ & K2 & _).
      destruct (fit_labels zero_lt_XR _ _ _ _ _ _ _ _ K2) as (Ls & _ & _ & Lr & Ll). exists (md_range (fst (fst p))). split; [|split; [exact Ls|exact Ll]].
      rewrite <- Lr. unfold to_fit, dates_of. now rewrite Hu. }
    assert (Un : forall p q, In p fits -> In q fits -> md_fit (fst (fst p)) = true -> md_fit (fst (fst q)) = true ->
       md_aicc (fst (fst p)) = md_aicc (fst (fst q)) -> key (fst (fst p)) = key (fst (fst q))).
    { intros p q Ip Iq Fp Fq Et. pose proof (Tie p q Ip Iq Fp Fq Et) as Mo. destruct (Fl p Ip) as (r1 & R1 & S1 & L1). destruct (Fl q Iq) as (r2 & R2 & S2 & L2).
      unfold key. rewrite R1 in R2. injection R2 as <-. congruence. }
    destruct (assemble_sd W W' (c_all c) w acts fits fits' _ So So' F Un) as [Ed Em2]. subst acts'. rewrite As in Ed, Em2. rewrite As' in Ed, Em2. cbn [fst snd] in Ed, Em2.
    split; [|split; [exact Ed|exact Em2]]. rewrite Ed, Dr, get_pi_sd, Pi0 in Pi'. cbn [rmap rbind] in Pi'. now injection Pi'.
  Qed.
End Units.

(* ---- models that can take a constant value everywhere ---- *)
Lemma levels_zero m phi : levels 0 m phi (repeat 0 (fm_n m)).
Proof. split; [apply repeat_length|]. intros. apply rdot_zero. Qed.
Lemma levels_constant h : levels h model_constant (fun _ _ => [1]) [h].
Proof. split; [reflexivity|]. intros. unfold rdot. cbn. ring. Qed.
Lemma levels_linear h : levels h model_linear (fun x _ => [x; 1]) [0; h].
Proof. split; [reflexivity|]. intros. unfold rdot. cbn. ring. Qed.
Lemma levels_madd h m1 m2 phi1 phi2 be : regression m1 phi1 -> regression m2 phi2 -> levels h m1 phi1 be ->
  levels h (madd m1 m2) (fun x t => phi1 x t ++ phi2 x t) (be ++ repeat 0 (fm_n m2)).
Proof.
  intros A B [L K]. pose proof (hd_name _ _ (rg_hardy _ _ A)) as N1. pose proof (hd_name _ _ (rg_hardy _ _ B)) as N2. split.
  - unfold madd. rewrite !is_null_false by assumption. cbn [fm_n combine_models mk_model]. now rewrite app_length, repeat_length, L.
  - intros x t. rewrite rdot_app by (now rewrite L, (rg_len _ _ A)). rewrite K, rdot_zero. ring.
Qed.
(* a weekly season alone is zero on Mondays *)
Lemma levels_wday h be : levels h model_season_wday (fun _ t => wday_phi t) be -> h = 0.
Proof.
  intros [L K]. specialize (K 0 (4 * DAY)%Z). destruct (six_params be L) as (a & b & c & d & e & g & ->).
  assert (W : weekday (4 * DAY) = 0%Z) by (vm_compute; reflexivity). unfold wday_phi in K. rewrite W in K. unfold rdot in K. cbn in K. lra.
Qed.

(* ---- validation that does not look at the values ---- *)
Lemma blind_leaves : Forall blind [model_constant; model_linear; model_season_wday; model_season_month_old; model_season_fourier_yearly] /\
  (forall t, blind (get_model_step_date t)) /\ (forall t0 t1, blind (get_model_spike_date t0 t1)).
Proof. unfold blind. repeat split; intros; repeat constructor. Qed.
Lemma set_vals_in (v : validator XR) l : In v (set_vals l) -> In v l.
Proof. unfold set_vals, dedup. apply dedup_aux_sub. Qed.
Lemma blind_madd m1 m2 : blind m1 -> blind m2 -> blind (madd m1 m2).
Proof.
  unfold blind, madd. intros A B. destruct (is_null m1); [exact B|]. destruct (is_null m2); [exact A|]. rewrite Forall_forall in *. intros v I.
  cbn [fm_val combine_models mk_model] in I. apply set_vals_in, in_app_iff in I as [I|I]; auto.
Qed.
(* an exact fit keeps its score in other units, and all others lose it *)
Lemma exact_changes_order : exists k, 0 < k /\ exists s0 s1 s1', @get_aic_c XR _ (Fin 0) 10 2 = Ok (Fin s0) /\ @get_aic_c XR _ (Fin 1) 10 0 = Ok (Fin s1) /\
  @get_aic_c XR _ (Fin (k * k * 1)) 10 0 = Ok (Fin s1') /\ s0 < s1 /\ s1' < s0.
Proof.
  assert (T : 0 < Rpower 10 (-320)) by apply exp_pos. assert (L : 0 < ln 10) by (rewrite <- ln_1; apply ln_increasing; lra).
  exists (Rpower 10 (-200)). assert (K : Rpower 10 (-200) * Rpower 10 (-200) = Rpower 10 (-400)) by (rewrite <- Rpower_plus; f_equal; lra).
  assert (0 < Rpower 10 (-400)) by apply exp_pos. split; [apply exp_pos|]. do 3 eexists. split; [apply score_zero; lia|]. split; [apply score_pos; [lia|lia|lra]|].
  split; [apply score_pos; [lia|lia|rewrite K; lra]|]. rewrite K, Rmult_1_r. assert (P : Rpower 10 (-400) < Rpower 10 (-320)) by (apply Rpower_lt; lra).
  split.
  - unfold aicc. assert (E : ln (Rpower 10 (-320) / 10) = -321 * ln 10).
    { unfold Rdiv. rewrite ln_mult by lra. rewrite ln_Rinv by lra. unfold Rpower. rewrite ln_exp. ring. }
    rewrite E. assert (E1 : ln (1 / 10) = - ln 10) by (unfold Rdiv; rewrite Rmult_1_l; apply ln_Rinv; lra). rewrite E1.
    assert (1 < ln 10) by (rewrite <- (ln_exp 1); apply ln_increasing; [apply exp_pos|pose proof exp_le_3; lra]).
    lra.
  - apply Rlt_trans with (aicc (Rpower 10 (-320)) (IZR 10) (IZR 0)); [apply aicc_mono_E; lra|apply aicc_mono_k; lra].
Qed.

(* ---- the automatic choice of the mode ---- *)
Lemma successful_fits E m phi u freq src act uc d : regression m phi -> (forall x y d, validate_input m x y d = Ok true) -> has_date u = true -> successful E m u act ->
  (fm_n m + 2 <= length (usable_rows u))%nat -> fit_model E m u freq src act uc = Ok d -> md_fit d = true.
Proof.
  intros R V Hd Sc Ll Ef. unfold fit_model in Ef. rewrite (fit_unfold zero_lt_XR) in Ef.
  assert (Eds : dates_of u = Some (map r_date (usable_rows u))) by (unfold dates_of; now rewrite Hd). rewrite Eds in Ef. cbv zeta in Ef.
  destruct (range_label E (xs_of m u) (Some (map r_date (usable_rows u)))) as [rg|]; [|discriminate]. cbn [rbind] in Ef.
  destruct (Nat.ltb_spec (length (usable_rows u)) (fm_n m + 2)); [lia|].
  rewrite V in Ef. cbn [rbind negb] in Ef.
  assert (Sm : forall e x y dt, simplify_model (e_arr e) m x y dt = Ok m).
  { intros e x y dt. destruct (unbounded_unpinned m x y dt (rg_free _ _ R)) as (b & Eb & Lb & Pn). now apply (simplify_nothing _ _ _ _ _ b). }
  rewrite Sm in Ef. cbn [rbind] in Ef. pose proof (hd_n _ _ (rg_hardy _ _ R)) as Np. destruct (Nat.eqb_spec (fm_n m) 0); [lia|].
  unfold optimize_least_squares in Ef. destruct (fm_init m (Some (xs_of m u)) (Some (ys_of u)) None false (e_rnd E)) as [g|]; [|discriminate]. cbn [rbind] in Ef.
  destruct (rg_free _ _ R (Some (xs_of m u)) (Some (ys_of u)) None) as (nd & Eb). rewrite Eb in Ef. cbn [rbind] in Ef. set (b := mkBounds _ _ nd) in Ef.
  destruct (validate_initial_guess g b) as [i|] eqn:V1; [|discriminate]. cbn [rbind] in Ef.
  assert (Lg : length g = fm_n m).
  { unfold validate_initial_guess in V1. cbn [b b_lo b_hi] in V1. rewrite repeat_length in V1. destruct (Nat.eqb_spec (length g) (fm_n m)); [auto|discriminate]. }
  destruct i; [|discriminate]. cbn [negb] in Ef. destruct (if uc then init_cache m _ _ else Ok []) as [ca|] eqn:Eca; [|discriminate]. cbn [rbind] in Ef. rewrite <- Eds in Ef, Eca.
  assert (Cc : ca = [] \/ init_cache m (xs_of m u) (dates_of u) = Ok ca) by (destruct uc; [now right|left; now injection Eca]).
  destruct (Sc ca g b Lg Cc) as (c1 & x1 & E1). rewrite E1 in Ef. cbn [rbind] in Ef. destruct (get_aic_c c1 _ _) as [a1|]; [|discriminate]. cbn [rbind] in Ef.
  injection Ef as <-. reflexivity.
Qed.
Lemma sf_scale k f : 0 < k -> sf k 0 f = scale_y k f.
Proof.
  intros Hk. unfold sf, map_y, scale_y. f_equal. apply map_ext. intros r. unfold set_y. f_equal. destruct (r_y r) as [| | |y]; cbn; [reflexivity| | |now rewrite Rplus_0_r];
    unfold xsgninf, Reqb, Rltb; destruct (Req_EM_T k 0); try lra; destruct (Rlt_dec 0 k); try lra; try reflexivity; destruct (Rlt_dec k 0); try lra; reflexivity.
Qed.
(* the line that decides between sums and products is determined by the samples and found by both optimizers *)
Definition line_settled k (E E' : env XR) (f : frame XR) : Prop :=
  two_positions f /\ solved E model_linear f None /\ solved E' model_linear (sf k 0 f) None.
Theorem mode_units k W W' c f mode mode' : 0 < k -> (Forecast.c_mode c = "auto"%string -> has_date f = true /\ finite_rows f /\ Forall (fun r => finite_or_null (r_y r)) (rows f) /\ line_settled k (w_env W) (w_env W') f) ->
  final_mode W c f = Ok mode -> final_mode W' c (sf k 0 f) = Ok mode' -> mode' = mode.
Proof.
  intros Hk Au K K'. unfold final_mode in K, K'. destruct (String.eqb_spec (Forecast.c_mode c) "auto") as [A|A]; [|congruence].
  destruct (Au A) as (Hd & Fr & Fn & Tp & (Mn & Sc) & (Mn' & Sc')).
  assert (Q : is_multiplicative (mult_corr (w_env W')) (sf k 0 f) = is_multiplicative (mult_corr (w_env W)) f); [|rewrite Q in K'; congruence].
  destruct (must_add_dec f) as [M|M]; [rewrite !is_mult_false; auto; rewrite (sf_scale k f Hk); now apply must_add_scale|].
  assert (Us : (4 <= length (usable_rows f))%nat).
  { destruct (Nat.le_gt_cases 4 (length (usable_rows f))) as [L|L]; [exact L|]. exfalso. apply M. right. right. right. eapply Nat.le_lt_trans; [|exact L].
    unfold usable_rows. apply Nat.eq_le_incl. f_equal. apply filter_ext. intros r. unfold usable_sample, usable. destruct (has_w f); [|reflexivity].
    f_equal. destruct (r_w r); reflexivity. }
  assert (M' : ~ must_add (sf k 0 f)) by (rewrite (sf_scale k f Hk); intros C; apply M; now apply must_add_scale in C).
  rewrite (is_mult_corr _ _ M) in K |- *. rewrite (is_mult_corr _ _ M') in K' |- *. rewrite !(sf_scale k f Hk) in *.
  unfold mult_corr in K, K'.
  destruct (fit_linear (w_env W) f) as [l|] eqn:El; [|discriminate]. destruct (fit_linear (w_env W') (scale_y k f)) as [l'|] eqn:El'; [|discriminate].
  unfold fit_linear in El, El'. destruct (Nat.ltb _ _); [discriminate|]. destruct (Nat.ltb _ _); [discriminate|].
  destruct (fit_model (w_env W) model_linear f _ _ _ _) as [d|] eqn:Ed; [|discriminate]. destruct (fit_model (w_env W') model_linear (scale_y k f) _ _ _ _) as [d'|] eqn:Ed'; [|discriminate].
  rewrite <- (sf_scale k f Hk) in Ed'.
  pose proof (successful_fits _ _ _ _ _ _ _ _ _ regression_linear_trend (fun _ _ _ => eq_refl) Hd Sc Us Ed) as F1.
  assert (Us' : (4 <= length (usable_rows (sf k 0 f)))%nat) by (rewrite usable_sf, map_length by exact Hk; exact Us).
  rewrite <- (sf_scale k f Hk) in Sc', Mn'.
  pose proof (successful_fits _ _ _ (sf k 0 f) _ _ _ _ _ regression_linear_trend (fun _ _ _ => eq_refl) Hd Sc' Us' Ed') as F2.
  destruct (moved_fit model_linear _ k (repeat 0 2) f (sf k 0 f) _ _ _ _ _ _ _ _ _ _ _ _ regression_linear_trend eq_refl (moved_sf k 0 model_linear _ (repeat 0 2) f (conj eq_refl (fun x t => rdot_zero 2 _)) Hd Fr) Fr (finite_sf k 0 f Fr) Mn Mn' Ed F1 Ed' F2)
    as (th & th' & cc & P & P' & L & L' & _ & _ & _ & Dt).
  rewrite mix_k in Dt by exact L.
  assert (Et : th' = map (Rmult k) th).
  { apply Dt. apply line_determined. destruct Tp as (r1 & r2 & I1 & I2 & N). exists (sr k 0 r1), (sr k 0 r2). rewrite usable_sf by exact Hk.
    split; [now apply in_map|]. split; [now apply in_map|]. exact N. }
  destruct (two_params th L) as (a & b & ->). subst th'. cbn [map] in P'. rewrite (sf_scale k f Hk) in Ed'.
  pose proof (choice_scale (w_env W) (w_env W') f d d' a b k Hk Fn Ed P Ed' P') as Q.
  rewrite (is_mult_corr _ _ M) in Q. rewrite (is_mult_corr _ _ M') in Q. exact Q.
Qed.
(* C73: the choice of the mode need not be assumed when the line behind it is determined *)
Theorem forecast_units_auto k h : 0 < k -> forall W W' c source f f1 mode act w acts fits r r', has_date f = true ->
  e_num (w_env W') = e_num (w_env W) -> w_draw W' = w_draw W -> sorts W -> sorts W' ->
  prepared c f = Ok f1 -> final_mode W c (with_weights f1) = Ok mode ->
  (Forecast.c_mode c = "auto"%string -> h = 0 /\ finite_rows (with_weights f1) /\ Forall (fun r => finite_or_null (r_y r)) (rows f1) /\ line_settled k (w_env W) (w_env W') (with_weights f1)) ->
  model_actuals f (to_fit f1) = Ok act -> finite_rows (to_fit f1) ->
  (forall m, In m (all_models c mode (detect_freq_frame f) (fst (candidate_lists c (with_weights f1))) (snd (candidate_lists c (with_weights f1)))) ->
     convertible k h (w_env W) (w_env W') (to_fit f1) act m) ->
  run_fits W c source f = Ok (w, acts, fits) ->
  (forall p, In p fits -> md_fit (fst (fst p)) = true -> exists q, 0 < q /\ md_cost (fst (fst p)) = Fin q) ->
  (forall p q, In p fits -> In q fits -> md_fit (fst (fst p)) = true -> md_fit (fst (fst q)) = true ->
     md_aicc (fst (fst p)) = md_aicc (fst (fst q)) -> md_model (fst (fst p)) = md_model (fst (fst q))) ->
  run_forecast_single W c source f = Ok r -> run_forecast_single W' c source (map_y (fun y => nadd (nmul y (Fin k)) (Fin h)) f) = Ok r' ->
  rs_forecast r' = map (spr k h) (rs_forecast r) /\ rs_data r' = map (sd k h) (rs_data r) /\
  Forall2 (same_row k (length (usable_rows (to_fit f1)))) (rs_meta r) (rs_meta r').
Proof.
  intros Hk W W' c source f f1 mode act w acts fits r r' Hd En Dr So So' Ep Em Au Ea Fr Cv Ef Ps Ti E E'.
  apply (forecast_units k Hk h W W' c source f f1 mode act w acts fits r r'); try assumption.
  destruct (run_inv _ _ _ _ _ E') as (w' & acts' & fits' & Ef' & _ & _).
  destruct (run_fits_inv _ _ _ _ _ _ _ Ef') as (g1 & range & mode' & act' & st & sp & x0 & Ep' & _ & _ & _ & Em' & _).
  rewrite sf_spec, prepared_sf, Ep in Ep' by exact Hk. injection Ep' as <-. rewrite Em'. f_equal. rewrite with_weights_sf in Em'.
  assert (Hd1 : has_date f1 = true).
  { now rewrite (proj2 (prepared_places _ _ _ Ep)). }
  destruct (String.eqb_spec (Forecast.c_mode c) "auto") as [A|A]; [|unfold final_mode in Em, Em'; destruct (String.eqb_spec (Forecast.c_mode c) "auto"); [contradiction|congruence]].
  destruct (Au A) as (H0 & F1 & F2 & F3). subst h. apply (mode_units k W W' c (with_weights f1)); auto. intros _. split; [unfold with_weights; destruct (has_w f1); exact Hd1|].
  split; [exact F1|]. split; [|exact F3]. unfold with_weights. destruct (has_w f1); [exact F2|]. cbn [rows]. apply Forall_map. exact F2.
Qed.
