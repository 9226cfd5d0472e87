(* Moving all dates by whole weeks (C75). *)
From Coq Require Import ZArith String List Bool QArith_base Lia Permutation FunctionalExtensionality.
From Verif Require Import Num Py Cal CalProofs Fmt Model GridProofs Base Dummy Fixed Naive Freq Normalize Aic Fit Interp Select Stats Outliers Pi Forecast.
From Verif Require Import FreqProofs NormalizeProofs.
Import ListNotations.
Local Open Scope string_scope.
Local Open Scope list_scope.
Local Open Scope Z_scope.

(* ---- lists ---- *)
Lemma filter_maps {A B} (g : A -> B) (p : B -> bool) (q : A -> bool) l : (forall a, p (g a) = q a) -> filter p (map g l) = map g (filter q l).
Proof. intros E. induction l as [|a l IH]; [reflexivity|]. cbn. rewrite E. destruct (q a); cbn; now rewrite IH. Qed.
Lemma isort_map {A B} (g : A -> B) (le : B -> B -> bool) (le' : A -> A -> bool) l : (forall a b, le (g a) (g b) = le' a b) -> isort le (map g l) = map g (isort le' l).
Proof.
  intros E. induction l as [|a l IH]; [reflexivity|]. cbn [map isort]. rewrite IH. generalize (isort le' l). clear IH. intros m.
  induction m as [|b m IHm]; [reflexivity|]. cbn [map insert]. rewrite E. destruct (le' a b); [reflexivity|]. cbn [map]. now rewrite IHm.
Qed.
Lemma existsb_map {A B} (g : A -> B) (p : B -> bool) (q : A -> bool) l : (forall a, p (g a) = q a) -> existsb p (map g l) = existsb q l.
Proof. intros E. induction l as [|a l IH]; [reflexivity|]. cbn. now rewrite E, IH. Qed.
Lemma dedup_map {A B} (g : A -> B) (eq : B -> B -> bool) (eq' : A -> A -> bool) l : (forall a b, eq (g a) (g b) = eq' a b) -> dedup eq (map g l) = map g (dedup eq' l).
Proof.
  intros E. unfold dedup. change (@nil B) with (map g []) at 1. generalize (@nil A). induction l as [|a l IH]; intros seen; [reflexivity|]. cbn [map dedup_aux].
  rewrite (existsb_map g _ (eq' a)) by (intros b; apply E). destruct (existsb (eq' a) seen); [apply IH|]. cbn [map]. f_equal. apply (IH (a :: seen)).
Qed.
Lemma has_dup_map {A B} (g : A -> B) (eq : B -> B -> bool) (eq' : A -> A -> bool) l : (forall a b, eq (g a) (g b) = eq' a b) -> has_dup eq (map g l) = has_dup eq' l.
Proof.
  intros E. induction l as [|a l IH]; [reflexivity|]. cbn [map has_dup]. rewrite IH. f_equal. apply existsb_map. intros b. apply E.
Qed.
Lemma combine_map_left {A B C} (g : A -> C) (l : list A) (l' : list B) : combine (map g l) l' = map (fun p => (g (fst p), snd p)) (combine l l').
Proof. revert l'. induction l as [|a l IH]; intros [|b l']; try reflexivity. cbn. now rewrite IH. Qed.
Lemma flat_maps {A B C} (g : A -> B) (h : B -> list C) (h' : A -> list C) l : (forall a, h (g a) = h' a) -> flat_map h (map g l) = flat_map h' l.
Proof. intros E. induction l as [|a l IH]; [reflexivity|]. cbn. now rewrite E, IH. Qed.
Lemma map_flat {A B C} (g : B -> C) (h : A -> list B) l : map g (flat_map h l) = flat_map (fun a => map g (h a)) l.
Proof. induction l as [|a l IH]; [reflexivity|]. cbn. now rewrite map_app, IH. Qed.
Lemma repeat_map {A B} (g : A -> B) a n : map g (repeat a n) = repeat (g a) n.
Proof. induction n; [reflexivity|]. cbn. congruence. Qed.
Lemma enumerate_maps {A B} (g : A -> B) l : enumerate (map g l) = map (fun p => (fst p, g (snd p))) (enumerate l).
Proof. unfold enumerate. generalize 0%nat. induction l as [|a l IH]; intros i; [reflexivity|]. cbn [map enum_from fst snd]. now rewrite IH. Qed.
Lemma find_map {A B} (g : A -> B) (p : B -> bool) (q : A -> bool) l : (forall a, p (g a) = q a) -> find p (map g l) = option_map g (find q l).
Proof. intros E. induction l as [|a l IH]; [reflexivity|]. cbn. rewrite E. destruct (q a); [reflexivity|exact IH]. Qed.
Lemma rmapM_maps {A B C} (h : A -> res B) (h' : A -> res C) (g : B -> C) l : (forall a, In a l -> h' a = rmap g (h a)) -> rmapM h' l = rmap (map g) (rmapM h l).
Proof.
  induction l as [|a l IH]; intros E; [reflexivity|]. cbn [rmapM]. rewrite (E a (or_introl eq_refl)). destruct (h a); [|reflexivity]. cbn [rmap rbind].
  rewrite IH by (intros b I; apply E; now right). now destruct (rmapM h l).
Qed.

Section Shift.
  (* [wk] weeks *)
  Variable wk : Z.
  Definition span : Z := wk * (7 * DAY).
  Definition mv (t : Z) : Z := t + span.

  (* ---- dates ---- *)
  Lemma mv_eqb a b : (mv a =? mv b) = (a =? b).
  Proof. unfold mv. destruct (Z.eqb_spec a b), (Z.eqb_spec (a + span) (b + span)); lia. Qed.
  Lemma mv_leb a b : (mv a <=? mv b) = (a <=? b).
  Proof. unfold mv. destruct (Z.leb_spec a b), (Z.leb_spec (a + span) (b + span)); lia. Qed.
  Lemma mv_ltb a b : (mv a <? mv b) = (a <? b).
  Proof. unfold mv. destruct (Z.ltb_spec a b), (Z.ltb_spec (a + span) (b + span)); lia. Qed.
  Lemma day_mv t : day_of (mv t) = day_of t + wk * 7.
  Proof. unfold day_of, mv, span. replace (t + wk * (7 * DAY)) with (t + wk * 7 * DAY) by ring. pose proof DAYp. rewrite Z.div_add; lia. Qed.
  Lemma weekday_mv t : weekday (mv t) = weekday t.
  Proof. unfold weekday, weekday_of_day. rewrite day_mv. replace (day_of t + wk * 7 + 3) with (day_of t + 3 + wk * 7) by ring. apply Z.mod_add. lia. Qed.
  Lemma zmin_mv l : zmin_opt (map mv l) = option_map mv (zmin_opt l).
  Proof.
    destruct l as [|a l]; [reflexivity|]. cbn [map zmin_opt option_map]. f_equal. revert a. induction l as [|b l IH]; intros a; [reflexivity|]. cbn [map fold_left].
    replace (Z.min (mv a) (mv b)) with (mv (Z.min a b)) by (unfold mv; lia). apply IH.
  Qed.
  Lemma zmax_mv l : zmax_opt (map mv l) = option_map mv (zmax_opt l).
  Proof.
    destruct l as [|a l]; [reflexivity|]. cbn [map zmax_opt option_map]. f_equal. revert a. induction l as [|b l IH]; intros a; [reflexivity|]. cbn [map fold_left].
    replace (Z.max (mv a) (mv b)) with (mv (Z.max a b)) by (unfold mv; lia). apply IH.
  Qed.
  Lemma zdiff_mv l : zdiff (map mv l) = zdiff l.
  Proof.
    induction l as [|a [|b l] IH]; [reflexivity|reflexivity|]. cbn [map zdiff] in *. rewrite IH. f_equal. unfold mv. ring.
  Qed.
  Lemma zuniq_mv l : zuniq (map mv l) = map mv (zuniq l).
  Proof. apply dedup_map. apply mv_eqb. Qed.
  Lemma sort_uniq_mv l : sort_uniq (map mv l) = map mv (sort_uniq l).
  Proof. unfold sort_uniq, zsort. rewrite (isort_map mv Z.leb Z.leb) by apply mv_leb. apply zuniq_mv. Qed.
  Lemma fixed_range_mv a s b : fixed_range (mv a) s (mv b) = map mv (fixed_range a s b).
  Proof.
    unfold fixed_range. rewrite mv_ltb. destruct (b <? a); [reflexivity|]. rewrite map_map. replace (mv b - mv a) with (b - a) by (unfold mv; ring).
    apply map_ext. intros i. unfold mv. ring.
  Qed.
  Lemma date_span_mv l : date_span (map mv l) = date_span l.
  Proof. unfold date_span. rewrite sort_uniq_mv, zmax_mv, zmin_mv. destruct (zmax_opt _), (zmin_opt _); cbn; try reflexivity. f_equal. unfold mv. ring. Qed.
  Lemma date_gap_mv l : date_gap (map mv l) = date_gap l.
  Proof. unfold date_gap. now rewrite sort_uniq_mv, zdiff_mv. Qed.

  (* ---- frequencies ---- *)
  (* tables that follow neither months, quarters nor years *)
  Definition steady (f : option string) : Prop := ~ In f [Some "M"; Some "MS"; Some "Q"; Some "Y"; Some "YS"].
  Lemma detect_mv l : steady (detect_freq l) -> detect_freq (map mv l) = detect_freq l.
  Proof.
    unfold detect_freq. rewrite sort_uniq_mv, zdiff_mv. destruct (zmin_opt (zdiff (sort_uniq l))) as [d|]; [|reflexivity].
    destruct (d =? HOUR); [reflexivity|]. destruct (d =? 7 * DAY).
    { intros _. rewrite zmin_mv. destruct (zmin_opt (sort_uniq l)); cbn [option_map]; [now rewrite weekday_mv|reflexivity]. }
    destruct ((28 * DAY <=? d) && (d <=? 31 * DAY)).
    { intros S1. exfalso. apply S1. destruct (zmax_opt (map dom (sort_uniq l))) as [[|[| |]|]|]; cbn; tauto. }
    destruct ((89 * DAY <=? d) && (d <=? 92 * DAY)); [reflexivity|]. destruct ((365 * DAY <=? d) && (d <=? 366 * DAY)); [|reflexivity].
    intros S1. exfalso. apply S1. destruct (zmax_opt (map dom (sort_uniq l))) as [[|[| |]|]|], (zmax_opt (map month (sort_uniq l))) as [[|[| |]|]|]; cbn; tauto.
  Qed.
  (* the number of days of a frequency needs no calendar *)
  Lemma days_mv l : days_from_freq (detect_freq (map mv l)) = days_from_freq (detect_freq l).
  Proof.
    unfold detect_freq. rewrite sort_uniq_mv, zdiff_mv. destruct (zmin_opt (zdiff (sort_uniq l))) as [d|]; [|reflexivity].
    destruct (d =? HOUR); [reflexivity|]. destruct (d =? 7 * DAY).
    { rewrite zmin_mv. destruct (zmin_opt (sort_uniq l)); cbn [option_map]; [now rewrite weekday_mv|reflexivity]. }
    destruct ((28 * DAY <=? d) && (d <=? 31 * DAY)).
    { assert (E : forall o : option Z, days_from_freq (match o with Some 1 => Some "MS" | _ => Some "M" end) = Ok 30) by (intros [[|[| |]|]|]; reflexivity). now rewrite !E. }
    destruct ((89 * DAY <=? d) && (d <=? 92 * DAY)); [reflexivity|]. destruct ((365 * DAY <=? d) && (d <=? 366 * DAY)); [|reflexivity].
    assert (E : forall o o' : option Z, days_from_freq (match o, o' with Some 1, Some 1 => Some "YS" | _, _ => Some "Y" end) = Ok 365)
      by (intros [[|[| |]|]|] [[|[| |]|]|]; reflexivity). now rewrite !E.
  Qed.
  (* frequencies with a fixed step, or none *)
  Definition fixed_freq (f : option string) : Prop := f = None \/ f = Some "H" \/ f = Some "D" \/ exists w, f = Some (wday_name w).
  Lemma detect_values l : steady (detect_freq l) -> fixed_freq (detect_freq l).
  Proof.
    unfold detect_freq, fixed_freq. destruct (zmin_opt (zdiff (sort_uniq l))) as [d|]; [|auto]. destruct (d =? HOUR); [auto|]. destruct (d =? 7 * DAY).
    { intros _. destruct (zmin_opt (sort_uniq l)) as [t|]; [do 3 right; now exists (weekday t)|]. do 3 right. now exists 7. }
    destruct ((28 * DAY <=? d) && (d <=? 31 * DAY)).
    { intros S1. exfalso. apply S1. destruct (zmax_opt (map dom (sort_uniq l))) as [[|[| |]|]|]; cbn; tauto. }
    destruct ((89 * DAY <=? d) && (d <=? 92 * DAY)); [intros S1; exfalso; apply S1; cbn; tauto|]. destruct ((365 * DAY <=? d) && (d <=? 366 * DAY)); [|destruct (23 * HOUR <=? d); auto].
    intros S1. exfalso. apply S1. destruct (zmax_opt (map dom (sort_uniq l))) as [[|[| |]|]|], (zmax_opt (map month (sort_uniq l))) as [[|[| |]|]|]; cbn; tauto.
  Qed.
  Lemma wday_cases w : In (wday_name w) ["W-MON"; "W-TUE"; "W-WED"; "W-THU"; "W-FRI"; "W-SAT"; "W-SUN"; "W"].
  Proof.
    unfold wday_name. repeat match goal with |- context [if ?b then _ else _] => destruct b end; cbn; tauto.
  Qed.
  Lemma fixed_values f : fixed_freq (Some f) -> In f ["W-MON"; "W-TUE"; "W-WED"; "W-THU"; "W-FRI"; "W-SAT"; "W-SUN"; "W"; "H"; "D"].
  Proof. intros [F|[F|[F|(w & F)]]]; try discriminate; injection F as ->; try (cbn; tauto). pose proof (wday_cases w) as I. cbn in I |- *. tauto. Qed.
  Lemma date_range_mv a b f : fixed_freq (Some f) -> date_range (mv a) (mv b) f = rmap (map mv) (date_range a b f).
  Proof.
    intros F. unfold date_range. rewrite !fixed_range_mv, weekday_mv. destruct (String.eqb f "H"); [reflexivity|]. destruct (String.eqb f "D") eqn:E2; [reflexivity|].
    destruct (String.eqb f (wday_name (weekday a))) eqn:E; [reflexivity|].
    pose proof (fixed_values _ F) as K. cbn in K. decompose [or] K; try contradiction; subst f; reflexivity.
  Qed.
  Lemma asfreq_mv a b f : fixed_freq f -> asfreq_range (mv a) (mv b) f = rmap (map mv) (asfreq_range a b f).
  Proof.
    intros F. unfold asfreq_range. destruct f as [f|]; [|cbn [rmap rbind]; now rewrite fixed_range_mv].
    destruct (String.eqb_spec f "Q") as [->|N']; [exfalso|now apply date_range_mv]. pose proof (fixed_values _ F) as K. cbn in K. decompose [or] K; try contradiction; discriminate.
  Qed.
  Lemma grid_freq_mv a f : grid_freq (mv a) f = grid_freq a f.
  Proof. unfold grid_freq. now rewrite weekday_mv. Qed.
  Lemma grid_freq_fixed a f g : fixed_freq f -> grid_freq a f = Ok g -> fixed_freq (Some g).
  Proof.
    intros F. unfold grid_freq. destruct f as [f|]; [|intros [= <-]; do 3 right; now eexists]. destruct (startswith f "W"); [destruct (String.eqb _ _); [|discriminate]|]; intros [= <-]; exact F.
  Qed.
  Lemma end_mv b f years : fixed_freq (Some f) -> forecast_end (mv b) f years = rmap mv (forecast_end b f years).
  Proof.
    intros F. unfold forecast_end. pose proof (fixed_values _ F) as K. cbn in K. decompose [or] K; try contradiction; subst f; cbn -[timedelta_ns]; f_equal; unfold mv; ring.
  Qed.

  (* ---- tables ---- *)
  Context {T : Type} {N : NumOps T}.
  Definition mr (r : row T) : row T := set_date r (mv (r_date r)).
  Definition mf (f : frame T) : frame T := mkFrame (has_date f) (has_src f) (has_w f) (map mr (rows f)).
  Lemma dates_mr l : map r_date (map mr l) = map mv (map r_date l).
  Proof. now rewrite !map_map. Qed.
  Lemma xs_mr l : map r_x (map mr l) = map r_x l.
  Proof. now rewrite !map_map. Qed.
  Lemma ys_mr l : map r_y (map mr l) = map r_y l.
  Proof. now rewrite !map_map. Qed.
  Lemma ws_mr l : map r_w (map mr l) = map r_w l.
  Proof. now rewrite !map_map. Qed.
  Lemma place_mf f : has_date f = true -> map (place (mf f)) (rows (mf f)) = map mv (map (place f) (rows f)).
  Proof. intros D. unfold place. cbn. rewrite D, !map_map. reflexivity. Qed.
  Lemma detect_mf f : steady (detect_freq_frame f) -> detect_freq_frame (mf f) = detect_freq_frame f.
  Proof. unfold detect_freq_frame. cbn. destruct (has_date f); [|reflexivity]. rewrite dates_mr. apply detect_mv. Qed.

  Lemma start_filter_mf s f : start_filter (option_map mv s) (mf f) = mf (start_filter s f).
  Proof.
    destruct s as [d|]; [|reflexivity]. cbn. destruct (has_date f) eqn:D; [|reflexivity]. unfold with_rows, mf. cbn. rewrite D. f_equal. apply filter_maps. intros r. cbn. apply mv_leb.
  Qed.
  Definition mo (s : osample T) : osample T := mkO (mv (o_pos s)) (o_dif s) (o_chg s) (o_win s) (o_grp s).
  Lemma osamples_mv lo hi pos dif : osamples lo hi (map mv pos) dif = map mo (osamples lo hi pos dif).
  Proof.
    unfold osamples. rewrite map_map, !combine_map_left, !map_map. apply map_ext. intros [[[[x d] c] w] g]. reflexivity.
  Qed.
  Lemma changed_mo l g : changed (map mo l) g = map mo (changed l g).
  Proof. apply filter_maps. reflexivity. Qed.
  Lemma last_mo l c : last (map mo l) (mo c) = mo (last l c).
  Proof. induction l as [|a [|b l] IH]; [reflexivity|reflexivity|]. exact IH. Qed.
  Lemma step_mo lo hi l s : Outliers.step_at true lo hi (map mo l) (mo s) = Outliers.step_at true lo hi l s.
  Proof.
    unfold Outliers.step_at. change (o_grp (mo s)) with (o_grp s). rewrite changed_mo, map_map. change (fun x => o_dif (mo x)) with (@o_dif T). f_equal.
    destruct (changed l (o_grp s)) as [|c ch]; [reflexivity|]. cbn [map]. change (mo c :: map mo ch) with (map mo (c :: ch)). rewrite last_mo. cbn [mo o_pos]. now rewrite !mv_leb.
  Qed.
  Lemma spike_mo lo hi l s : Outliers.spike_at true lo hi (map mo l) (mo s) = Outliers.spike_at true lo hi l s.
  Proof.
    unfold Outliers.spike_at. change (o_grp (mo s)) with (o_grp s). rewrite changed_mo, !map_map. change (fun x => o_dif (mo x)) with (@o_dif T).
    change (fun x => nabs (o_dif (mo x))) with (fun c : osample T => nabs (o_dif c)). f_equal.
    destruct (changed l (o_grp s)) as [|c ch]; [reflexivity|]. cbn [map]. change (mo c :: map mo ch) with (map mo (c :: ch)). rewrite last_mo. cbn [mo o_pos]. now rewrite mv_leb, mv_ltb.
  Qed.
  Lemma outliers_mf f : has_date f = true -> model_outliers (mf f) = model_outliers f.
  Proof.
    intros D. unfold model_outliers. cbn [mf has_date rows]. rewrite D. rewrite dates_mr, ys_mr, (has_dup_map mv Z.eqb Z.eqb) by apply mv_eqb.
    destruct (has_dup Z.eqb (map r_date (rows f))); [reflexivity|]. destruct (iqr_thresholds (pd_diff (map r_y (rows f)))) as [lo hi].
    rewrite osamples_mv, (existsb_map mo o_chg o_chg) by reflexivity. rewrite map_length. destruct (existsb o_chg _); [|reflexivity]. rewrite !map_map.
    f_equal. f_equal; apply map_ext; intros s; [apply step_mo|apply spike_mo].
  Qed.
  Lemma ignore_spikes_mf f : has_date f = true -> ignore_spikes (mf f) = rmap mf (ignore_spikes f).
  Proof.
    intros D. unfold ignore_spikes. rewrite outliers_mf by exact D. destruct (model_outliers f) as [[st sp]|e]; [|reflexivity]. cbn [rbind rmap]. f_equal. unfold mf. cbn. f_equal.
    rewrite combine_map_left, !map_map. reflexivity.
  Qed.
  Definition mc (c : config T) : config T :=
    mkCfg (c_trend c) (c_season c) (option_map mv (c_start c)) (c_years c) (Forecast.c_mode c) (c_all c) (c_outliers c) (c_yearly c) (c_weekly c) (c_naive c) (c_calendar c)
      (c_ncum c) (c_q1 c) (c_q2 c) (c_widen c) (c_cache c).
  Lemma start_has_date s (f : frame T) : has_date (start_filter s f) = has_date f.
  Proof. unfold start_filter. destruct s; [|reflexivity]. now destruct (has_date f) eqn:D. Qed.
  Lemma prepared_mf c f : has_date f = true -> prepared (mc c) (mf f) = rmap mf (prepared c f).
  Proof.
    intros D. unfold prepared. cbn [mc c_start c_outliers]. rewrite start_filter_mf. destruct (c_outliers c); [|reflexivity]. apply ignore_spikes_mf. now rewrite start_has_date.
  Qed.
  Lemma prepared_has_date c (f f1 : frame T) : prepared c f = Ok f1 -> has_date f1 = has_date f.
  Proof.
    unfold prepared. destruct (c_outliers c); [|intros [= <-]; apply start_has_date]. unfold ignore_spikes. destruct (model_outliers _) as [[st sp]|e]; [|discriminate].
    cbn [rbind]. intros [= <-]. cbn. apply start_has_date.
  Qed.
  Lemma with_weights_mf f : with_weights (mf f) = mf (with_weights f).
  Proof. unfold with_weights. cbn. destruct (has_w f) eqn:W; [reflexivity|]. unfold mf. cbn. f_equal. now rewrite !map_map. Qed.
  Lemma with_weights_has_date (f : frame T) : has_date (with_weights f) = has_date f.
  Proof. unfold with_weights. now destruct (has_w f). Qed.
  Lemma positive_mf f : positive (mf f) = mf (positive f).
  Proof. unfold positive, with_rows, mf. cbn. f_equal. now apply filter_maps. Qed.
  Lemma weighted_mf f : weighted_dates (mf f) = map mv (weighted_dates f).
  Proof. unfold weighted_dates. cbn. destruct (has_w f); [|apply dates_mr]. rewrite (filter_maps mr _ (fun r => nltb n0 (r_w r))) by reflexivity. apply dates_mr. Qed.
  Lemma candidates_mf c f : candidate_lists (mc c) (mf f) = candidate_lists c f.
  Proof.
    unfold candidate_lists, default_trend, use_ramp, use_calendar, auto_season. cbn [mc c_trend c_season c_calendar c_yearly c_weekly mf has_date].
    change (mkFrame (has_date f) (has_src f) (has_w f) (map mr (rows f))) with (mf f).
    now rewrite weighted_mf, date_gap_mv, date_span_mv.
  Qed.
  Lemma input_weights_mf E f : input_weights E (mf f) = input_weights E f.
  Proof. unfold input_weights. cbn. now rewrite ws_mr. Qed.

  (* ---- filling gaps ---- *)
  Lemma lookup_mr rs t : Interp.lookup r_date (map mr rs) (mv t) = option_map mr (Interp.lookup r_date rs t).
  Proof. apply find_map. intros r. apply mv_eqb. Qed.
  Lemma column_mr (get : row T -> T) rs grid : (forall r, get (mr r) = get r) ->
    Interp.column get (map (Interp.lookup r_date (map mr rs)) (map mv grid)) = Interp.column get (map (Interp.lookup r_date rs) grid).
  Proof. intros E. unfold Interp.column. rewrite !map_map. apply map_ext. intros t. rewrite lookup_mr. destruct (Interp.lookup r_date rs t); [apply E|reflexivity]. Qed.
  Lemma src_column_mr rs grid : src_column (map (Interp.lookup r_date (map mr rs)) (map mv grid)) = src_column (map (Interp.lookup r_date rs) grid).
  Proof. unfold src_column. rewrite !map_map. apply map_ext. intros t. rewrite lookup_mr. now destruct (Interp.lookup r_date rs t). Qed.
  Lemma mk_rows_mr ds ss xs (ys ws : list T) : mk_rows (map mv ds) ss xs ys ws = map mr (mk_rows ds ss xs ys ws).
  Proof. unfold mk_rows. rewrite !combine_map_left, !map_map. apply map_ext. intros [[[[d s] x] y] w]. reflexivity. Qed.
  Lemma interpolate_mf b f : has_date f = true -> steady (detect_freq_frame f) -> interpolate_df b (mf f) = rmap mf (interpolate_df b f).
  Proof.
    intros D S1. unfold interpolate_df. cbn [mf has_date rows has_src has_w]. rewrite D. cbn [negb]. unfold detect_freq_frame in S1. rewrite D in S1.
    rewrite dates_mr. unfold regular. rewrite zuniq_mv, zdiff_mv, (has_dup_map mv Z.eqb Z.eqb), zmin_mv, zmax_mv by apply mv_eqb.
    rewrite (detect_mv _ S1). match goal with |- context [if ?b then Ok _ else _] => destruct b end; [cbn [rmap rbind]; unfold mf; now rewrite D|].
    destruct (has_dup Z.eqb (map r_date (rows f))); [reflexivity|]. destruct (zmin_opt (map r_date (rows f))) as [lo|], (zmax_opt (map r_date (rows f))) as [hi|]; cbn [option_map]; try reflexivity.
    rewrite (asfreq_mv lo hi _ (detect_values _ S1)). destruct (asfreq_range lo hi (detect_freq (map r_date (rows f)))) as [grid|e]; [|reflexivity]. cbn [rmap rbind].
    rewrite (column_mr (fun r => nofZ (r_x r))), (column_mr r_y), (column_mr r_w), src_column_mr by reflexivity.
    destruct (to_ints _) as [xs|e]; [|reflexivity]. cbn [rmap rbind]. unfold mf. cbn [has_date has_src has_w rows]. do 2 f_equal. apply mk_rows_mr.
  Qed.
  Lemma model_actuals_mf f u : has_date f = true -> steady (detect_freq_frame f) -> model_actuals (mf f) (mf u) = rmap mf (model_actuals f u).
  Proof.
    intros D S1. unfold model_actuals. rewrite interpolate_mf by assumption. destruct (interpolate_df false f) as [g|e]; [|reflexivity]. cbn [rmap rbind]. f_equal. unfold mf.
    cbn [has_date has_src has_w rows]. f_equal. rewrite (isort_map mr _ (fun a b => r_x a <=? r_x b)) by reflexivity. rewrite map_flat. apply flat_maps. intros r. rewrite map_map.
    rewrite (filter_maps mr _ (fun u0 => r_x u0 =? r_x r)) by reflexivity. rewrite ws_mr. reflexivity.
  Qed.

  (* ---- models that do not look at the calendar beyond weekdays ---- *)
  Record stationary (m : fmodel T) : Prop := mkStat {
    st_f : forall x d p mode act cache, fm_f m x (Some (map mv d)) p mode (mkKw (option_map mf act) cache) = fm_f m x (Some d) p mode (mkKw act cache);
    st_b : forall x y d, fm_bounds m x y (Some (map mv d)) = fm_bounds m x y (Some d);
    st_v : Forall (fun v => forall x y d, v_run v x y (Some (map mv d)) = v_run v x y (Some d)) (fm_val m);
    st_c : Forall (fun k => k <> "a_month" /\ k <> "a_t_fourier") (fm_cvars m);
    st_d : Forall (fun p => forall x d, snd p x (Some (map mv d)) = snd p x (Some d)) (fm_dcache m) }.

  Lemma weekdays_mv d : map weekday (map mv d) = map weekday d.
  Proof. rewrite map_map. apply map_ext. apply weekday_mv. Qed.
  Lemma cache_vars_mv ks x d acc : Forall (fun k => k <> "a_month" /\ k <> "a_t_fourier") ks ->
    init_cache_vars ks x (Some (map mv d)) acc = init_cache_vars ks x (Some d) acc.
  Proof.
    intros F. revert acc. induction F as [|k ks (N1 & N2) F IH]; intros acc; [reflexivity|]. cbn [init_cache_vars dict_f_cache dict_get].
    destruct (String.eqb_spec k "a_month"); [contradiction|]. destruct (String.eqb k "a_weekday").
    { cbn [cache_a_weekday need_dates rbind]. rewrite weekdays_mv. apply IH. }
    destruct (String.eqb_spec k "a_t_fourier"); [contradiction|]. apply IH.
  Qed.
  Lemma cache_dict_mv (fs : dict (cachefun T)) x d acc : Forall (fun p => forall x d, snd p x (Some (map mv d)) = snd p x (Some d)) fs ->
    init_cache_dict fs x (Some (map mv d)) acc = init_cache_dict fs x (Some d) acc.
  Proof.
    intros F. revert acc. induction F as [|(k, f) fs E F IH]; intros acc; [reflexivity|]. cbn [init_cache_dict]. cbn [snd] in E. rewrite E. destruct (f x (Some d)); [|reflexivity].
    cbn [rbind]. apply IH.
  Qed.
  Lemma init_cache_mv m x d : stationary m -> init_cache m x (Some (map mv d)) = init_cache m x (Some d).
  Proof.
    intros S1. unfold init_cache. rewrite cache_vars_mv by apply S1. destruct (init_cache_vars _ _ _ _); [|reflexivity]. cbn [rbind]. apply cache_dict_mv. apply S1.
  Qed.
  Lemma validate_mv m x y d : stationary m -> validate_input m x y (Some (map mv d)) = validate_input m x y (Some d).
  Proof.
    intros S1. unfold validate_input. replace (rmapM (fun v => v_run v x y (Some (map mv d))) (fm_val m)) with (rmapM (fun v => v_run v x y (Some d)) (fm_val m)); [reflexivity|].
    pose proof (st_v m S1) as F. induction F as [|v l E F IH]; [reflexivity|]. cbn [rmapM]. rewrite E, IH. reflexivity.
  Qed.

  (* composition *)
  Lemma dedup_aux_sub' {A} (e : A -> A -> bool) : forall l seen a, In a (dedup_aux e seen l) -> In a l.
  Proof. induction l as [|b l IH]; cbn; intros seen a; [tauto|]. destruct (existsb (e b) seen); cbn; [eauto|]. intros [->|I]; [auto|right; eauto]. Qed.
  Lemma Forall_dedup {A} (P : A -> Prop) (e : A -> A -> bool) l : Forall P l -> Forall P (dedup e l).
  Proof. rewrite !Forall_forall. intros F a I. apply F. eapply dedup_aux_sub'. exact I. Qed.
  Lemma Forall_dict_set {V} (P : string * V -> Prop) d k v : Forall P d -> (forall k', k = k' -> P (k', v)) -> Forall P (dict_set d k v).
  Proof.
    intros F H. induction F as [|(k', v') d Hp F IH]; cbn [dict_set]; [auto|]. destruct (String.eqb_spec k k'); constructor; auto.
  Qed.
  Lemma Forall_dict_update {V} (P : string * V -> Prop) d d' : Forall P d -> Forall P d' -> Forall P (dict_update d d').
  Proof.
    intros F F'. unfold dict_update. revert d F. induction F' as [|(k, v) d' Hp F' IH]; intros d F; [exact F|]. cbn [fold_left]. apply IH. apply Forall_dict_set; [exact F|].
    cbn. intros k' <-. exact Hp.
  Qed.
  Lemma stationary_combine sep op mode m1 m2 : stationary m1 -> stationary m2 -> stationary (combine_models sep op mode m1 m2).
  Proof.
    intros S1 S2. split.
    - intros x d p md act cache. cbn [combine_models mk_model fm_f]. unfold f_combine. destruct (p_slice (fm_n m1) p) as [[p1 p2]|]; [|reflexivity]. cbn [rbind].
      now rewrite (st_f m1 S1), (st_f m2 S2).
    - intros x y d. cbn [combine_models mk_model fm_bounds]. unfold bounds_combine. now rewrite (st_b m1 S1), (st_b m2 S2).
    - apply Forall_dedup. apply Forall_app. split; [apply S1|apply S2].
    - apply Forall_dedup. apply Forall_app. split; [apply S1|apply S2].
    - apply Forall_dict_update; [apply S1|apply S2].
  Qed.
  Lemma stationary_madd m1 m2 : stationary m1 -> stationary m2 -> stationary (madd m1 m2).
  Proof. intros S1 S2. unfold madd. destruct (is_null m1); [exact S2|]. destruct (is_null m2); [exact S1|]. now apply stationary_combine. Qed.
  Lemma stationary_mmul m1 m2 : stationary m1 -> stationary m2 -> stationary (mmul m1 m2).
  Proof. intros S1 S2. unfold mmul. destruct (is_null m1); [exact S2|]. destruct (is_null m2); [exact S1|]. now apply stationary_combine. Qed.
  Lemma stationary_fix fmt m fixed m' : stationary m -> fix_params_fmodel fmt m fixed = Ok m' -> stationary m'.
  Proof.
    intros S1. unfold fix_params_fmodel. destruct (negb _); [discriminate|]. intros [= <-]. split; cbn; auto.
    - intros x d p md act cache. unfold fixed_step. destruct (assign _ p fixed) as [st|e]; [|reflexivity]. cbn [snd]. unfold no_kw. exact (st_f m S1 x d (Some st) _ None []).
    - intros x y d. now rewrite (st_b m S1).
  Qed.
  Lemma stationary_get_fixed m fixed b m' : stationary m -> get_fixed_model m fixed b = Ok m' -> stationary m'.
  Proof.
    intros S1. unfold get_fixed_model. destruct (Nat.eqb (fm_n m) 0); [now intros [= <-]|]. destruct (negb _); [discriminate|]. intros [= <-]. split; cbn; auto.
    intros x d p md act cache. unfold no_kw. exact (st_f m S1 x d (Some fixed) _ None []).
  Qed.
  Lemma simplify_mv fmt m x y d : stationary m -> simplify_model fmt m x y (Some (map mv d)) = simplify_model fmt m x y (Some d).
  Proof. intros S1. unfold simplify_model. now rewrite (st_b m S1). Qed.
  Lemma stationary_simplify fmt m x y d m' : stationary m -> simplify_model fmt m x y d = Ok m' -> stationary m'.
  Proof.
    intros S1. unfold simplify_model. destruct (fm_bounds m x y d) as [b|e]; [|discriminate]. cbn [rbind]. destruct (negb _); [discriminate|]. destruct (equal_bounds b) as [|i l]; [now intros [= <-]|].
    destruct (negb (b_nd b)); [discriminate|]. destruct (existsb _ _); [discriminate|]. destruct (fancy_get _ _) as [v|e]; [|discriminate]. cbn [rbind]. now apply stationary_fix.
  Qed.

  (* the models that only use x *)
  Ltac easy_model := split; cbn; [reflexivity|reflexivity|repeat constructor|constructor|constructor].
  Lemma stationary_null : stationary model_null. Proof. easy_model. Qed.
  Lemma stationary_constant : stationary model_constant. Proof. easy_model. Qed.
  Lemma stationary_linear : stationary model_linear. Proof. easy_model. Qed.
  Lemma stationary_linear_nondec : stationary model_linear_nondec. Proof. easy_model. Qed.
  Lemma stationary_quasilinear : stationary model_quasilinear. Proof. easy_model. Qed.
  Lemma stationary_exp : stationary model_exp. Proof. easy_model. Qed.
  Lemma stationary_decay : stationary model_decay. Proof. easy_model. Qed.
  Lemma stationary_step : stationary model_step. Proof. easy_model. Qed.
  Lemma stationary_two_steps : stationary model_two_steps. Proof. easy_model. Qed.
  Lemma stationary_spike : stationary model_spike. Proof. easy_model. Qed.
  Lemma stationary_sigmoid : stationary model_sigmoid. Proof. easy_model. Qed.
  Lemma stationary_sigmoid_step : stationary model_sigmoid_step. Proof. easy_model. Qed.
  Lemma stationary_ramp : stationary model_ramp. Proof. easy_model. Qed.
  (* weekdays *)
  Lemma stationary_wday : stationary model_season_wday.
  Proof.
    split; cbn.
    - intros x d p mode act cache. unfold f_season_wday, cached_ints, cache_a_weekday. cbn [kw_cache need_dates rbind]. now rewrite weekdays_mv.
    - reflexivity.
    - repeat constructor. intros x y d. cbn. now rewrite weekdays_mv.
    - repeat constructor; discriminate.
    - constructor.
  Qed.
  Lemma stationary_dummy name f : (forall x d, f x (Some (map mv d)) = f x (Some d)) -> stationary (dummy_model_of name f).
  Proof.
    intros E. split; cbn; auto.
    - intros x d p mode act cache. unfold f_model_dummy. cbn [kw_cache]. now rewrite E.
    - constructor; [|constructor]. intros x d. cbn. now rewrite E.
  Qed.
  Lemma stationary_wday_2 m : model_season_wday_2 = Ok m -> stationary m.
  Proof.
    unfold model_season_wday_2, get_model_dummy. cbn [get_f_dummy dummy_season_wday_2 rbind]. destruct (validate_f_dummy _); [|discriminate]. cbn [rbind]. intros [= <-].
    apply stationary_dummy. intros x d. unfold date_mask. cbn [need_dates rbind]. rewrite map_map. f_equal. apply map_ext. intros t. now rewrite weekday_mv.
  Qed.

  (* naive models *)
  Definition mq (q : request (T := T)) : request (T := T) := (option_map mv (fst q), snd q).
  Lemma requests_mv x d : requests x (Some (map mv d)) = rmap (map mq) (requests x (Some d)).
  Proof.
    unfold requests. rewrite map_length. destruct (Nat.eqb (length d) (length x)); [|reflexivity]. cbn [rmap rbind]. f_equal. rewrite !combine_map_left, !map_map. reflexivity.
  Qed.
  Lemma same_key_mv wd r q : same_key wd (mr r) (mq q) = same_key wd r q.
  Proof. unfold same_key. cbn. f_equal. destruct wd; [|reflexivity]. destruct (fst q); [apply mv_eqb|reflexivity]. Qed.
  Lemma outer_merge_mv wd rs qs : outer_merge wd (map mr rs) (map mq qs) = outer_merge wd rs qs.
  Proof.
    unfold outer_merge. f_equal.
    - apply flat_maps. intros r. rewrite (filter_maps mq _ (same_key wd r)) by (intros q; apply same_key_mv). now rewrite map_length.
    - rewrite (filter_maps mq _ (fun q => negb (existsb (fun r => same_key wd r q) rs))), map_map; [reflexivity|].
      intros q. f_equal. apply existsb_map. intros r. apply same_key_mv.
  Qed.
  Lemma dedup_x_mr l : dedup_key Z.eqb r_x (map mr l) = map mr (dedup_key Z.eqb r_x l).
  Proof. apply dedup_map. reflexivity. Qed.
  Lemma stationary_naive : stationary model_naive.
  Proof.
    split; cbn; auto. intros x d p mode act cache. unfold f_naive. cbn [kw_cache kw_actuals]. destruct cache; [|reflexivity]. destruct act as [df|]; [|reflexivity]. cbn [option_map].
    rewrite requests_mv. destruct (requests x (Some d)) as [qs|e]; [|reflexivity]. cbn [rmap rbind mf has_date rows]. rewrite dedup_x_mr, outer_merge_mv. now destruct (has_date df).
  Qed.
  Definition mp (p : row T * T) : row T * T := (mr (fst p), snd p).
  Lemma wday_group_mv w rs : wday_group w (map mr rs) = map mp (wday_group w rs).
  Proof.
    unfold wday_group. rewrite (filter_maps mr _ (fun r => weekday (r_date r) =? w)) by (intros r; cbn; now rewrite weekday_mv). rewrite ys_mr. apply combine_map_left.
  Qed.
  Lemma fillna_mv rs : fillna_wday (map mr rs) = map mp (fillna_wday rs).
  Proof.
    unfold fillna_wday. rewrite <- (isort_map mp (fun a b => r_x (fst a) <=? r_x (fst b)) (fun a b => r_x (fst a) <=? r_x (fst b))) by reflexivity. f_equal.
    rewrite map_flat. apply flat_map_ext. intros w. apply wday_group_mv.
  Qed.
  Lemma last_week_mv m w : last_week (map mp m) w = last_week m w.
  Proof.
    unfold last_week. rewrite <- map_rev, (find_map mp _ (fun p => weekday (r_date (fst p)) =? w)) by (intros p; cbn; now rewrite weekday_mv).
    destruct (find _ (rev m)) as [(r, y)|]; reflexivity.
  Qed.
  Lemma stationary_snaive : stationary model_snaive_wday.
  Proof.
    split; cbn; auto. intros x d p mode act cache. unfold f_snaive_wday. cbn [kw_cache kw_actuals]. destruct cache; [|reflexivity]. destruct act as [df|]; [|reflexivity].
    cbn [option_map mf has_date rows]. destruct (negb (has_date df)); [reflexivity|]. rewrite requests_mv. destruct (requests x (Some d)) as [qs|e]; [|reflexivity]. cbn [rmap rbind].
    rewrite dedup_x_mr, fillna_mv. set (m := fillna_wday (dedup_key Z.eqb r_x (rows df))). do 3 f_equal.
    - apply flat_maps. intros q. cbn. rewrite (filter_maps mq _ (same_key true (fst q))) by (intros q'; apply same_key_mv). now rewrite map_length.
    - rewrite combine_map_left. set (g := fun p0 : Z * T => (mv (fst p0), snd p0)).
      rewrite (filter_maps g _ (fun q => negb (existsb (Z.eqb (fst q)) (map (fun p0 => r_date (fst p0)) m)))).
      + rewrite (isort_map g _ (fun a b => nleb (snd a) (snd b))), map_map by reflexivity. apply map_ext. intros q. cbn. now rewrite weekday_mv, last_week_mv.
      + intros q. cbn. f_equal. rewrite map_map. cbn. transitivity (existsb (Z.eqb (mv (fst q))) (map mv (map (fun p0 => r_date (fst p0)) m))); [now rewrite map_map|].
        apply existsb_map. intros b. apply mv_eqb.
  Qed.

  (* ---- fits ---- *)
  Lemma residuals_mv p m x y d w act cache : stationary m ->
    get_residuals p m x y (Some (map mv d)) w (option_map mf act) cache = get_residuals p m x y (Some d) w act cache.
  Proof. intros S1. unfold get_residuals, call. now rewrite (st_f m S1). Qed.
  Lemma optimize_mv E m x y d w act uc : stationary m ->
    optimize_least_squares E m x y (Some (map mv d)) w (option_map mf act) uc = optimize_least_squares E m x y (Some d) w act uc.
  Proof.
    intros S1. unfold optimize_least_squares. destruct (fm_init _ _ _ _ _ _) as [g|e]; [|reflexivity]. cbn [rbind]. destruct (fm_bounds _ _ _ _) as [b|e]; [|reflexivity]. cbn [rbind].
    destruct (validate_initial_guess g b) as [i|e]; [|reflexivity]. cbn [rbind]. destruct (negb i); [reflexivity|]. rewrite init_cache_mv by exact S1.
    destruct (if uc then init_cache m x (Some d) else Ok []) as [cache|e]; [|reflexivity]. cbn [rbind].
    replace (fun p => get_residuals (Some p) m x y (Some (map mv d)) w (option_map mf act) cache) with (fun p => get_residuals (Some p) m x y (Some d) w act cache); [reflexivity|].
    apply functional_extensionality. intros p. symmetry. now apply residuals_mv.
  Qed.
  Lemma with_y_mr l : with_y (map mr l) = map mr (with_y l).
  Proof. now apply filter_maps. Qed.
  Lemma with_weight_mr hw l : with_weight hw (map mr l) = map mr (with_weight hw l).
  Proof.
    destruct hw; [|reflexivity]. unfold with_weight. rewrite map_map. rewrite <- (filter_maps mr (fun r => nltb n0 (r_w r)) (fun r => nltb n0 (r_w r))) by reflexivity. now rewrite map_map.
  Qed.
  Lemma count_x_mr l x : count_x (map mr l) x = count_x l x.
  Proof. unfold count_x. rewrite (filter_maps mr _ (fun r => r_x r =? x)) by reflexivity. now rewrite map_length. Qed.
  Lemma fit_rows_mf f : fit_rows (mf f) = mf (fit_rows f).
  Proof.
    unfold fit_rows. cbn [mf has_date has_src has_w rows]. rewrite with_y_mr, with_weight_mr, xs_mr. destruct (has_dup Z.eqb _); [|reflexivity]. unfold mf. cbn [has_date has_src has_w rows]. f_equal.
    rewrite !map_map. apply map_ext. intros r. now rewrite count_x_mr.
  Qed.
  Lemma fit_rows_has_date (f : frame T) : has_date (fit_rows f) = has_date f.
  Proof. unfold fit_rows. now destruct (has_dup Z.eqb _). Qed.
  Lemma weights_label_mf E f : weights_label E (mf f) = weights_label E f.
  Proof. unfold weights_label. cbn [mf has_w rows]. rewrite with_y_mr. now rewrite ws_mr. Qed.

  (* metadata with other labels for the range *)
  Definition rel (R L : string) (d : meta T) : meta T :=
    mkMeta (md_source d) (md_model d) (md_weights d) R (md_freq d) (md_fit d) (md_cost d) (md_aicc d) (md_params d) (md_status d) L (md_obj d).
  Definition new_range (f : frame T) : string :=
    match zmin_opt (map r_date (rows (fit_rows f))), zmax_opt (map r_date (rows (fit_rows f))) with
    | Some a, Some b => fmt_date (mv a) ++ "::" ++ fmt_date (mv b)
    | _, _ => "" end%string.
  Lemma fit_model_mv E m f freq source act uc : has_date f = true -> stationary m ->
    fit_model E m (mf f) freq source (option_map mf act) uc
    = rmap (rel (new_range f) (long_name source (weights_label E f) freq (new_range f))) (fit_model E m f freq source act uc).
  Proof.
    intros D S1. unfold fit_model, fit_model_with. rewrite weights_label_mf, fit_rows_mf. unfold new_range. set (df := fit_rows f).
    assert (D' : has_date df = true) by (unfold df; now rewrite fit_rows_has_date). cbn [mf has_date has_w rows]. rewrite D', ys_mr, ws_mr, dates_mr, !(map_length mr).
    replace (map (fun r => nofZ (r_x r)) (map mr (rows df))) with (map (fun r => nofZ (r_x r)) (rows df)) by now rewrite map_map. unfold range_label. rewrite zmin_mv, zmax_mv.
    destruct (zmin_opt (map r_date (rows df))) as [a|], (zmax_opt (map r_date (rows df))) as [b|]; cbn [option_map rbind rmap]; try reflexivity.
    match goal with |- context [if Nat.ltb ?a ?b then _ else _] => destruct (Nat.ltb a b) end; [reflexivity|].
    rewrite validate_mv by exact S1. destruct (validate_input _ _ _ _) as [v|e]; [|reflexivity]. cbn [rbind rmap]. destruct (negb v); [reflexivity|].
    rewrite simplify_mv by exact S1. destruct (simplify_model _ _ _ _ _) as [ms|e] eqn:Es; [|reflexivity]. cbn [rbind rmap]. pose proof (stationary_simplify _ _ _ _ _ _ S1 Es) as S2.
    destruct (Nat.eqb (fm_n ms) 0).
    - rewrite residuals_mv by exact S2. destruct (get_residuals _ _ _ _ _ _ _ _) as [r|e]; [|reflexivity]. cbn [rbind rmap]. destruct (get_aic_c _ _ _) as [s|e]; reflexivity.
    - rewrite optimize_mv by exact S2. destruct (optimize_least_squares _ _ _ _ _ _ _ _) as [[[su co] p]|e]; [|reflexivity]. cbn [rbind rmap]. destruct (get_aic_c _ _ _) as [s|e]; reflexivity.
  Qed.

  (* ---- extrapolation ---- *)
  Definition mz (p : Z * T) : Z * T := (mv (fst p), snd p).
  Lemma grid_mv a b m freq years x0 : fixed_freq freq -> s_x_dates (mv a) (mv b) m freq years x0 = rmap (map mz) (s_x_dates (T := T) a b m freq years x0).
  Proof.
    intros F. unfold s_x_dates. rewrite grid_freq_mv. destruct (grid_freq a freq) as [g|e] eqn:Eg; [|reflexivity]. cbn [rbind]. pose proof (grid_freq_fixed _ _ _ F Eg) as F'.
    rewrite end_mv by exact F'. destruct (forecast_end b g years) as [e|e]; [|reflexivity]. cbn [rbind rmap]. rewrite date_range_mv by exact F'.
    destruct (date_range a e g) as [ds|e']; [|reflexivity]. cbn [rbind rmap]. f_equal. rewrite map_map. rewrite combine_map_left. unfold mz. do 2 f_equal. f_equal. apply map_ext. intros t.
    do 3 f_equal. unfold mv. ring.
  Qed.
  Lemma extrapolate_mv m p a b freq years x0 act : fixed_freq freq -> stationary m ->
    extrapolate_model m p (ODate (mv a) (mv b)) freq years x0 (option_map mf act) = rmap (map mz) (extrapolate_model m p (ODate a b) freq years x0 act).
  Proof.
    intros F S1. unfold extrapolate_model. cbn [s_x_extrapolate]. rewrite grid_mv by exact F. destruct (s_x_dates a b (Some m) freq years x0) as [g|e]; [|reflexivity]. cbn [rbind rmap].
    replace (map fst (map mz g)) with (map mv (map fst g)) by now rewrite !map_map. replace (map snd (map mz g)) with (map snd g) by now rewrite !map_map.
    unfold call. rewrite (st_f m S1). destruct (fm_f m _ _ _ _ _) as [[t|l]|e]; [| |reflexivity]; cbn [rbind rmap].
    - f_equal. now rewrite !map_map.
    - rewrite map_length. destruct (Nat.eqb _ _); [|reflexivity]. cbn [rmap rbind]. f_equal. apply combine_map_left.
  Qed.

  (* ---- the table of results ---- *)
  (* rows moved, with labels [la] for actuals and [lf] for forecasts *)
  Definition md (la lf : string) (r : drow T) : drow T :=
    mkD (mv (d_date r)) (d_w r) (d_y r) (d_model r) (d_src r) (if d_actual r then la else lf) (d_actual r) (d_best r).
  Lemma fcast_clean_mv la lf g source long model : map (md la lf) (fcast_clean g source long model) = fcast_clean (map mz g) source lf model.
  Proof. unfold fcast_clean. rewrite (filter_maps mz _ (fun p => negb (nisnan (snd p)))) by reflexivity. now rewrite !map_map. Qed.
  Lemma actuals_clean_mv lf f source la long : has_date f = true -> actuals_clean (mf f) source la = map (md la lf) (actuals_clean f source long).
  Proof. intros D. unfold actuals_clean. cbn [mf rows]. rewrite !map_map. apply map_ext. intros r. unfold md, place. cbn. now rewrite D. Qed.

  Definition mt (R la lf : string) (p : meta T * string * list (drow T)) : meta T * string * list (drow T) := (rel R lf (fst (fst p)), snd (fst p), map (md la lf) (snd p)).
  Lemma fit_one_mv W c source mode freq add u act a b x0 m la : has_date u = true -> fixed_freq freq -> stationary m ->
    let lf := long_name source (weights_label (w_env W) u) freq (new_range u) in
    fit_one W (mc c) source mode freq add (mf u) (mf act) (ODate (mv a) (mv b)) x0 m
    = rmap (mt (new_range u) la lf) (fit_one W c source mode freq add u act (ODate a b) x0 m).
  Proof.
    intros D F S1 lf. unfold fit_one. cbn [mc c_cache c_years]. pose proof (fit_model_mv (w_env W) m u freq source (Some act) (c_cache c) D S1) as E. cbn [option_map] in E. rewrite E. clear E. fold lf.
    destruct (fit_model _ _ _ _ _ _ _) as [d|e]; [|reflexivity]. cbn [rbind rmap rel md_fit md_params]. destruct (md_fit d); [|reflexivity].
    pose proof (extrapolate_mv m (Some (md_params d)) a b freq (c_years c) x0 (Some act) F S1) as E. cbn [option_map] in E. rewrite E. clear E.
    destruct (extrapolate_model _ _ _ _ _ _ _) as [g|e]; [|reflexivity]. cbn [rbind rmap]. unfold mt. cbn [fst snd]. do 2 f_equal. now rewrite (fcast_clean_mv la lf).
  Qed.

  (* ---- what the fits of one series have in common ---- *)
  Lemma no_actuals a b : (a ++ "_fixed_" ++ b)%string <> "actuals".
  Proof. do 7 (destruct a as [|? a]; [cbn; discriminate|]; cbn [append]; let E := fresh in intros E; injection E as ? E; revert E). destruct a; discriminate. Qed.
  Lemma fix_name fmt m fixed m' : fix_params_fmodel fmt m fixed = Ok m' -> fm_name m' <> "actuals".
  Proof. unfold fix_params_fmodel. destruct (negb _); [discriminate|]. intros [= <-]. cbn. apply no_actuals. Qed.
  Lemma simplify_name fmt m x y d m' : fm_name m <> "actuals" -> simplify_model fmt m x y d = Ok m' -> fm_name m' <> "actuals".
  Proof.
    intros S1. unfold simplify_model. destruct (fm_bounds m x y d) as [b|e]; [|discriminate]. cbn [rbind]. destruct (negb _); [discriminate|]. destruct (equal_bounds b) as [|i l]; [now intros [= <-]|].
    destruct (negb (b_nd b)); [discriminate|]. destruct (existsb _ _); [discriminate|]. destruct (fancy_get _ _) as [v|e]; [|discriminate]. cbn [rbind]. apply fix_name.
  Qed.
  Definition old_range (f : frame T) : string :=
    match zmin_opt (map r_date (rows (fit_rows f))), zmax_opt (map r_date (rows (fit_rows f))) with
    | Some a, Some b => fmt_date a ++ "::" ++ fmt_date b
    | _, _ => "" end%string.
  Definition tagged (source L : string) (d : meta T) : Prop := md_source d = source /\ md_source_long d = L /\ md_model d <> "actuals".
  Lemma fit_tagged E m f freq source act uc d : has_date f = true -> fm_name m <> "actuals" -> fit_model E m f freq source act uc = Ok d ->
    tagged source (long_name source (weights_label E f) freq (old_range f)) d.
  Proof.
    intros D Nm. unfold fit_model, fit_model_with, old_range. set (df := fit_rows f). assert (D' : has_date df = true) by (unfold df; now rewrite fit_rows_has_date). rewrite D'. unfold range_label.
    destruct (zmin_opt (map r_date (rows df))) as [a|], (zmax_opt (map r_date (rows df))) as [b|]; cbn [rbind]; try discriminate.
    match goal with |- context [if Nat.ltb ?a ?b then _ else _] => destruct (Nat.ltb a b) end; [intros [= <-]; repeat split; exact Nm|].
    destruct (validate_input _ _ _ _) as [v|e]; [|discriminate]. cbn [rbind]. destruct (negb v); [intros [= <-]; repeat split; exact Nm|].
    destruct (simplify_model _ _ _ _ _) as [ms|e] eqn:Es; [|discriminate]. cbn [rbind]. pose proof (simplify_name _ _ _ _ _ _ Nm Es) as Nm'.
    destruct (Nat.eqb (fm_n ms) 0).
    - destruct (get_residuals _ _ _ _ _ _ _ _) as [r|e]; [|discriminate]. cbn [rbind]. destruct (get_aic_c _ _ _) as [s|e]; [|discriminate]. intros [= <-]; repeat split; exact Nm'.
    - destruct (optimize_least_squares _ _ _ _ _ _ _ _) as [[[su co] p]|e]; [|discriminate]. cbn [rbind]. destruct (get_aic_c _ _ _) as [s|e]; [|discriminate].
      intros [= <-]; repeat split; exact Nm'.
  Qed.
  Definition tagged_fit (source L : string) (p : meta T * string * list (drow T)) : Prop :=
    tagged source L (fst (fst p)) /\ Forall (fun r => d_src r = source /\ d_long r = L /\ d_actual r = false) (snd p).
  Lemma fit_one_tagged W c source mode freq add u act o x0 m p : has_date u = true -> fm_name m <> "actuals" ->
    fit_one W c source mode freq add u act o x0 m = Ok p -> tagged_fit source (long_name source (weights_label (w_env W) u) freq (old_range u)) p.
  Proof.
    intros D Nm. unfold fit_one. destruct (fit_model _ _ _ _ _ _ _) as [d|e] eqn:Ef; [|discriminate]. cbn [rbind]. pose proof (fit_tagged _ _ _ _ _ _ _ _ D Nm Ef) as Tg.
    destruct (md_fit d); [|intros [= <-]; split; [exact Tg|constructor]]. destruct (extrapolate_model _ _ _ _ _ _ _) as [g|e]; [|discriminate]. cbn [rbind]. intros [= <-]. split; [exact Tg|].
    cbn [snd]. apply Forall_forall. intros r I. apply in_map_iff in I as (q & <- & _). cbn. destruct Tg as (_ & TL & _). auto.
  Qed.

  (* ---- choosing the best ---- *)
  (* a sort that looks at the scores only *)
  Definition sorts_scores (W : world T) : Prop :=
    forall l, incl (w_sort W l) l /\ forall h, (forall d, md_aicc (h d) = md_aicc d) -> w_sort W (map h l) = map h (w_sort W l).
  Lemma best_mv W R L l : sorts_scores W -> best_fit W (map (rel R L) l) = option_map (rel R L) (best_fit W l).
  Proof.
    intros Hs. unfold best_fit. rewrite (filter_maps (rel R L) _ (fun d => md_fit d)) by reflexivity. destruct (Hs (filter (fun d => md_fit d) l)) as (_ & E). rewrite E by reflexivity.
    now destruct (w_sort W _).
  Qed.
  Lemma best_in W l b : sorts_scores W -> best_fit W l = Some b -> In b l.
  Proof.
    intros Hs. unfold best_fit. destruct (Hs (filter (fun d => md_fit d) l)) as (I & _). destruct (w_sort W _) as [|a r]; [discriminate|]. intros [= <-].
    specialize (I a (or_introl eq_refl)). apply filter_In in I. tauto.
  Qed.
  (* metadata rows with other labels for the range *)
  Definition mm (R L : string) (m : mrow T) : mrow T := mkM (rel R L (m_meta m)) (m_label m) (m_best m).
  Lemma assemble_mv W al weights R la lf source L acts fits : sorts_scores W ->
    Forall (tagged_fit source L) fits -> Forall (fun r => d_model r = "actuals" /\ d_actual r = true) acts ->
    assemble W al weights (map (md la lf) acts) (map (mt R la lf) fits)
    = (map (md la lf) (fst (assemble W al weights acts fits)), map (mm R lf) (snd (assemble W al weights acts fits))).
  Proof.
    intros Hs Ft Fa. unfold assemble. replace (map (fun p => fst (fst p)) (map (mt R la lf) fits)) with (map (rel R lf) (map (fun p => fst (fst p)) fits)) by now rewrite !map_map.
    rewrite best_mv by exact Hs. set (b := best_fit W (map (fun p => fst (fst p)) fits)).
    assert (Tb : forall d, b = Some d -> tagged source L d).
    { intros d E. apply best_in in E; [|exact Hs]. apply in_map_iff in E as (p & <- & I). rewrite Forall_forall in Ft. now apply Ft. }
    assert (ED : map (flag_data (option_map (rel R lf) b)) (map (md la lf) acts ++ concat (map snd (map (mt R la lf) fits))) = map (md la lf) (map (flag_data b) (acts ++ concat (map snd fits)))).
    { replace (concat (map snd (map (mt R la lf) fits))) with (map (md la lf) (concat (map snd fits))) by (now rewrite concat_map, !map_map).
      rewrite <- map_app, !map_map. apply map_ext_in. intros r I. unfold flag_data, md. cbn. f_equal. destruct b as [d|]; [|reflexivity]. cbn [option_map is_best rel md_source md_source_long md_model].
      destruct (Tb d eq_refl) as (T1 & T2 & T3). apply in_app_or in I as [I|I].
      - rewrite Forall_forall in Fa. destruct (Fa r I) as (A1 & A2). rewrite A1. apply String.eqb_neq in T3. rewrite T3, !andb_false_r. reflexivity.
      - apply in_concat in I as (q & Iq & I). apply in_map_iff in Iq as (p & <- & Ip). rewrite Forall_forall in Ft. destruct (Ft p Ip) as (_ & F). rewrite Forall_forall in F.
        destruct (F r I) as (F1 & F2 & F3). now rewrite F3, F1, F2, T1, T2, !String.eqb_refl. }
    assert (EM : map (fun p => flag_meta (option_map (rel R lf) b) weights (fst (fst p)) (snd (fst p))) (map (mt R la lf) fits)
                 = map (mm R lf) (map (fun p => flag_meta b weights (fst (fst p)) (snd (fst p))) fits)).
    { rewrite !map_map. apply map_ext_in. intros p I. unfold flag_meta, mm, mt. cbn [fst snd m_meta m_label m_best]. unfold set_weights, rel. cbn. f_equal.
      destruct b as [d|]; [|reflexivity]. cbn [option_map is_best rel md_source md_source_long md_model]. destruct (Tb d eq_refl) as (T1 & T2 & _). rewrite Forall_forall in Ft.
      destruct (Ft p I) as ((F1 & F2 & _) & _). now rewrite F1, F2, T1, T2, !String.eqb_refl. }
    rewrite ED, EM. destruct al; [reflexivity|]. cbn [fst snd]. f_equal.
    - apply filter_maps. reflexivity.
    - apply filter_maps. reflexivity.
  Qed.

  (* ---- prediction intervals ---- *)
  Definition mpr (p : prow T) : prow T := mkP (mv (p_date p)) (p_src p) (p_model p) (p_actual p) (p_y p) (p_q p).
  Lemma dates_md la lf l : map d_date (map (md la lf) l) = map mv (map d_date l).
  Proof. now rewrite !map_map. Qed.
  Lemma usable_md la lf l : usable_actuals (map (md la lf) l) = map mz (usable_actuals l).
  Proof.
    unfold usable_actuals. rewrite (filter_maps (md la lf) _ (fun r => nltb n0 (d_w r) && d_actual r)) by reflexivity.
    rewrite (filter_maps (md la lf) _ (fun r => d_actual r && with_value r)) by reflexivity. rewrite map_flat. apply flat_maps. intros r. rewrite repeat_map, dates_md.
    rewrite (filter_maps mv _ (Z.eqb (d_date r))) by (intros t; apply mv_eqb). now rewrite map_length.
  Qed.
  Lemma residuals_md la lf acts l : residuals (map mz acts) (map (md la lf) l) = residuals acts l.
  Proof.
    unfold residuals. f_equal. rewrite (filter_maps (md la lf) _ (fun r => negb (d_actual r) && with_value r)) by reflexivity. apply flat_maps. intros r.
    rewrite (filter_maps mz _ (fun a => fst a =? d_date r)) by (intros t; apply mv_eqb). now rewrite map_map.
  Qed.
  Lemma percentiles_md la lf l s q1 q2 : add_percentiles (map (md la lf) l) s q1 q2 = rmap (map mpr) (add_percentiles l s q1 q2).
  Proof.
    unfold add_percentiles. destruct (_ && _ && _ && _); [|reflexivity]. cbn [rmap rbind]. f_equal. rewrite enumerate_maps, !map_map. reflexivity.
  Qed.
  Lemma actual_rows_md la lf l : map actual_row (map (md la lf) l) = map mpr (map actual_row l).
  Proof. now rewrite !map_map. Qed.
  Lemma pi_single_md la lf draw n k q1 q2 hs hw hb l :
    pi_single draw n k q1 q2 (mkPT hs hw hb true (map (md la lf) l)) = rmap (map mpr) (pi_single draw n k q1 q2 (mkPT hs hw hb true l)).
  Proof.
    unfold pi_single. cbn [pt_best pt_rows pt_dates pt_w pt_src].
    replace (if hb then filter (fun r => d_actual r || d_best r) (map (md la lf) l) else map (md la lf) l) with (map (md la lf) (if hb then filter (fun r => d_actual r || d_best r) l else l))
      by (destruct hb; [symmetry; now apply filter_maps|reflexivity]).
    generalize (if hb then filter (fun r => d_actual r || d_best r) l else l). clear l. intros l. rewrite dates_md, days_mv. destruct (days_from_freq _) as [fd|e]; [|reflexivity]. cbn [rbind].
    rewrite (filter_maps (md la lf) _ (fun r => d_actual r && with_value r)) by reflexivity. rewrite (existsb_map (md la lf) _ (fun r => neqb (d_w r) n0)) by reflexivity.
    rewrite usable_md, map_map. change (fun x => (d_date (md la lf x), d_y (md la lf x))) with (fun x => mz (d_date x, d_y x)). rewrite <- (map_map (fun x => (d_date x, d_y x)) mz).
    match goal with |- rbind ?A _ = rmap _ (rbind ?B _) => replace A with (rmap (map mz) B) by (destruct (hw && _); [now destruct hs|reflexivity]); destruct B as [acts|e] end;
      [|reflexivity]. cbn [rbind rmap]. rewrite residuals_md. destruct (residuals acts l) as [|r0 rr].
    { destruct (negb hs); [reflexivity|]. destruct l as [|x l]; [reflexivity|]. cbn [map rmap rbind]. f_equal. apply actual_rows_md. }
    replace (map fst (map mz acts)) with (map mv (map fst acts)) by now rewrite !map_map. rewrite zmax_mv. destruct (zmax_opt (map fst acts)) as [last|]; cbn [option_map]; [|reflexivity].
    rewrite (filter_maps (md la lf) _ (fun r => negb (d_actual r) && (last <? d_date r))) by (intros r; cbn; now rewrite mv_ltb).
    rewrite (filter_maps (md la lf) _ (fun r => negb (d_actual r) && (d_date r <=? last))) by (intros r; cbn; now rewrite mv_leb).
    rewrite !map_length, !percentiles_md. match goal with |- context [add_percentiles ?a ?b q1 q2] => destruct (add_percentiles a b q1 q2) as [fut|e] end; [|reflexivity]. cbn [rmap rbind].
    match goal with |- context [add_percentiles ?a ?b q1 q2] => destruct (add_percentiles a b q1 q2) as [pas|e] end; [|reflexivity]. cbn [rmap rbind]. f_equal. now rewrite !map_app, actual_rows_md.
  Qed.
  Lemma prow_leb_mv a b : prow_leb (mpr a) (mpr b) = prow_leb a b.
  Proof. unfold prow_leb. cbn. destruct (String.compare _ _); [|reflexivity|reflexivity]. destruct (Bool.eqb _ _); [apply mv_leb|reflexivity]. Qed.
  Lemma get_pi_md la lf draw n k q1 q2 wd hs hw hb l :
    get_pi draw n k q1 q2 wd (mkPT hs hw hb true (map (md la lf) l)) = rmap (map mpr) (get_pi draw n k q1 q2 wd (mkPT hs hw hb true l)).
  Proof.
    unfold get_pi. destruct (match k with Some n0 => Ok n0 | None => days_from_freq wd end) as [nc|e]; [|reflexivity]. cbn [rbind pt_src pt_w pt_best pt_dates pt_rows].
    replace (map d_src (map (md la lf) l)) with (map d_src l) by now rewrite map_map. destruct (hs && _).
    - rewrite (rmapM_maps (fun s => pi_single (draw s) n nc q1 q2 (mkPT true hw hb true (filter (fun r => String.eqb (d_src r) s) l))) _ (map mpr)).
      + destruct (rmapM _ _) as [gs|e]; [|reflexivity]. cbn [rmap rbind]. f_equal. rewrite <- concat_map. apply isort_map. intros a b. apply prow_leb_mv.
      + intros s _. rewrite (filter_maps (md la lf) _ (fun r => String.eqb (d_src r) s)) by reflexivity. apply pi_single_md.
    - rewrite pi_single_md. do 2 f_equal. destruct l; reflexivity.
  Qed.

  (* ---- candidates ---- *)
  Definition fine (m : fmodel T) : Prop := stationary m /\ fm_name m <> "actuals".
  Definition all_fine (o : option (list (fmodel T))) : Prop := match o with Some l => Forall fine l | None => True end.
  (* every model the configuration mentions is stationary, and no yearly season is chosen by default *)
  Definition portable (c : config T) : Prop :=
    all_fine (c_trend c) /\ all_fine (c_season c) /\ (c_season c = None -> c_yearly c <> None) /\ all_fine (c_yearly c) /\ all_fine (c_weekly c) /\
    all_fine (c_naive c) /\ all_fine (c_calendar c).
  Lemma fine_madd m1 m2 : fine m1 -> fine m2 -> fine (madd m1 m2).
  Proof.
    intros (S1 & N1) (S2 & N2). split; [now apply stationary_madd|]. unfold madd. destruct (is_null m1); [exact N2|]. destruct (is_null m2); [exact N1|]. cbn. discriminate.
  Qed.
  Lemma fine_mmul m1 m2 : fine m1 -> fine m2 -> fine (mmul m1 m2).
  Proof.
    intros (S1 & N1) (S2 & N2). split; [now apply stationary_mmul|]. unfold mmul. destruct (is_null m1); [exact N2|]. destruct (is_null m2); [exact N1|]. cbn. discriminate.
  Qed.
  Lemma fine_null : fine model_null. Proof. split; [apply stationary_null|discriminate]. Qed.
  Lemma fine_linear : fine model_linear. Proof. split; [apply stationary_linear|discriminate]. Qed.
  Lemma fine_ramp : fine model_ramp. Proof. split; [apply stationary_ramp|discriminate]. Qed.
  Lemma fine_wday : fine model_season_wday. Proof. split; [apply stationary_wday|discriminate]. Qed.
  Lemma fine_naive : fine model_naive. Proof. split; [apply stationary_naive|discriminate]. Qed.
  Lemma fine_snaive : fine model_snaive_wday. Proof. split; [apply stationary_snaive|discriminate]. Qed.
  Lemma Forall_isort {A} (P : A -> Prop) le l : Forall P l -> Forall P (isort le l).
  Proof.
    induction 1 as [|a l Pa F IH]; [constructor|]. cbn [isort]. revert IH. generalize (isort le l). intros m. induction 1 as [|b m Pb Fm IHm]; cbn [insert]; [now repeat constructor|].
    destruct (le a b); now repeat constructor.
  Qed.
  Lemma Forall_product {A B} (P : A -> Prop) (Q : B -> Prop) l l' : Forall P l -> Forall Q l' -> Forall (fun p => P (fst p) /\ Q (snd p)) (product l l').
  Proof.
    rewrite !Forall_forall. intros F G (a, b) I. apply in_prod_iff in I as (Ia & Ib). cbn. auto.
  Qed.
  Lemma fine_list t s mode : Forall fine t -> all_fine s -> Forall fine (list_model (Some t) s mode).
  Proof.
    intros Ft Fs. unfold list_model. apply Forall_dedup. destruct s as [[|m s]|]; [exact Ft| |exact Ft]. destruct t as [|m' t]; [exact Fs|].
    pose proof (Forall_product _ _ _ _ Ft Fs) as F. apply Forall_app. split; (destruct (String.eqb _ _); [constructor|]); apply Forall_map; (eapply Forall_impl; [|exact F]); intros p (P1 & P2).
    - now apply fine_madd.
    - now apply fine_mmul.
  Qed.
  Lemma fine_season_list use dflt o : Forall fine dflt -> all_fine o -> Forall fine (Select.season_list use dflt o).
  Proof.
    intros Fd Fo. unfold Select.season_list. destruct use; [|constructor; [apply fine_null|constructor]]. destruct o as [[|m l]|]; [constructor; [apply fine_null|constructor]|exact Fo|exact Fd].
  Qed.
  Lemma fine_auto mode ly lw ds : ly <> None -> all_fine ly -> all_fine lw -> Forall fine (auto_season mode ly lw ds).
  Proof.
    intros Ny Fy Fw. unfold auto_season. destruct (date_gap ds) as [g|], (date_span ds) as [sp|]; try (constructor; [apply fine_null|constructor]).
    apply Forall_isort.
    assert (L1 : Forall fine (Select.season_list ((21 * DAY / 2 <? sp) && (g <=? DAY)) [model_season_wday; model_null] lw)).
    { apply fine_season_list; [|exact Fw]. constructor; [apply fine_wday|]. constructor; [apply fine_null|constructor]. }
    assert (L2 : Forall fine (Select.season_list ((1095 * DAY / 2 <? sp) && (g <=? 92 * DAY)) [model_season_fourier_yearly; model_null] ly)).
    { unfold Select.season_list. destruct ((1095 * DAY / 2 <? sp) && (g <=? 92 * DAY)); [|constructor; [apply fine_null|constructor]]. destruct ly as [[|m l]|]; [constructor; [apply fine_null|constructor]|exact Fy|congruence]. }
    pose proof (Forall_product _ _ _ _ L1 L2) as F. match goal with |- Forall fine (fold_left ?s ?l ?a) => assert (A : Forall fine a) by (constructor; [apply fine_null|constructor]); set (stp := s) in *; generalize dependent l; intros ls F end.
    revert A. generalize [model_null (T := T)]. induction F as [|p l (P1 & P2) F IH]; intros acc A; [exact A|]. cbn [fold_left]. apply IH. unfold stp.
    assert (B : Forall fine (if String.eqb mode "add" && negb (model_eqb (madd (fst p) (snd p)) model_null) then acc ++ [madd (fst p) (snd p)] else acc)).
    { destruct (String.eqb mode "add" && _); [|exact A]. apply Forall_app. split; [exact A|]. constructor; [now apply fine_madd|constructor]. }
    match goal with |- Forall fine (if ?b then _ else _) => destruct b end; [|exact B]. apply Forall_app. split; [exact B|]. constructor; [now apply fine_mmul|constructor].
  Qed.
  Lemma fine_candidates c f add mult : portable c -> candidate_lists c f = (add, mult) -> Forall fine add /\ Forall fine mult.
  Proof.
    intros (Pt & Ps & Py & Py' & Pw & Pn & Pc). unfold candidate_lists.
    assert (Ft : Forall fine match c_trend c with Some l => l | None => default_trend f end).
    { destruct (c_trend c) as [l|]; [exact Pt|]. unfold default_trend. destruct (use_ramp f); repeat (constructor; [first [apply fine_linear|apply fine_madd; [apply fine_linear|apply fine_ramp]]|]); constructor. }
    assert (Fs : forall mode, all_fine match c_season c with Some l => Some l | None => if has_date f then Some (auto_season mode (c_yearly c) (c_weekly c) (weighted_dates f)) else None end).
    { intros mode. destruct (c_season c) as [l|]; [exact Ps|]. destruct (has_date f); [|exact I]. cbn. apply fine_auto; auto. }
    destruct (c_calendar c) as [cal|].
    - destruct (use_calendar f); intros [= <- <-]; split; repeat apply fine_list; auto.
    - intros [= <- <-]. split; apply fine_list; auto.
  Qed.
  Lemma fine_all c mode freq add mult : portable c -> Forall fine add -> Forall fine mult -> Forall fine (all_models c mode freq add mult).
  Proof.
    intros (_ & _ & _ & _ & _ & Pn & _) Fa Fm. unfold all_models. apply Forall_isort. apply Forall_app. split.
    - destruct (c_naive c) as [l|]; [exact Pn|]. unfold default_naive. destruct freq as [s|]; [destruct (String.eqb s "D")|]; (constructor; [|constructor]); first [apply fine_snaive|apply fine_naive].
    - destruct (String.eqb mode "add"); [exact Fa|]. destruct (String.eqb mode "mult"); [exact Fm|]. apply Forall_dedup. now apply Forall_app.
  Qed.

  (* ---- one series ---- *)
  Definition moved (R la lf : string) (r : result T) : result T := mkResult (map mpr (rs_forecast r)) (map (md la lf) (rs_data r)) (map (mm R lf) (rs_meta r)).
  Lemma run_fits_mv W c source f : has_date f = true -> steady (detect_freq_frame f) -> Forecast.c_mode c <> "auto" -> portable c ->
    exists R la lf L, run_fits W (mc c) source (mf f) = rmap (fun p => (fst (fst p), map (md la lf) (snd (fst p)), map (mt R la lf) (snd p))) (run_fits W c source f) /\
      forall w acts fits, run_fits W c source f = Ok (w, acts, fits) -> Forall (tagged_fit source L) fits /\ Forall (fun r => d_model r = "actuals" /\ d_actual r = true) acts.
  Proof.
    intros D S1 Nm Pc. unfold run_fits. rewrite detect_mf by exact S1. rewrite prepared_mf by exact D. destruct (prepared c f) as [f1|e] eqn:Ep; cbn [rmap rbind];
      [|exists "", "", "", ""; split; [reflexivity|discriminate]].
    assert (D1 : has_date f1 = true) by (now rewrite (prepared_has_date _ _ _ Ep)).
    rewrite with_weights_mf, input_weights_mf. set (f2 := with_weights f1). assert (D2 : has_date f2 = true) by (unfold f2; now rewrite with_weights_has_date).
    set (u := positive f2). assert (Du : has_date u = true) by exact D2.
    unfold input_range. rewrite place_mf by exact D2. rewrite zmin_mv, zmax_mv. cbn [mf has_date]. rewrite D2. change (mkFrame (has_date f2) (has_src f2) (has_w f2) (map mr (rows f2))) with (mf f2).
    destruct (zmin_opt (map (place f2) (rows f2))) as [lo|], (zmax_opt (map (place f2) (rows f2))) as [hi|]; cbn [option_map rbind rmap]; try (exists "", "", "", ""; split; [reflexivity|discriminate]).
    set (la := long_name source (input_weights (w_env W) f1) (detect_freq_frame f) (fmt_date (mv lo) ++ "::" ++ fmt_date (mv hi))).
    set (lf := long_name source (weights_label (w_env W) u) (detect_freq_frame f) (new_range u)).
    exists (new_range u), la, lf, (long_name source (weights_label (w_env W) u) (detect_freq_frame f) (old_range u)).
    rewrite candidates_mf. destruct (candidate_lists c f2) as [add mult] eqn:Ec. destruct (fine_candidates _ _ _ _ Pc Ec) as (Fa & Fm).
    unfold final_mode. cbn [mc Forecast.c_mode]. apply String.eqb_neq in Nm. rewrite Nm. cbn [rbind].
    change (all_models (mc c)) with (all_models c). pose proof (fine_all c (Forecast.c_mode c) (detect_freq_frame f) add mult Pc Fa Fm) as Fall.
    rewrite positive_mf. fold u. rewrite model_actuals_mf by assumption. destruct (model_actuals f u) as [act|e]; cbn [rmap rbind]; [|split; [reflexivity|discriminate]].
    rewrite place_mf by exact Du. rewrite zmin_mv. change (rows (mf u)) with (map mr (rows u)). rewrite xs_mr.
    destruct (zmin_opt (map (place u) (rows u))) as [start|]; cbn [option_map]; [|split; [reflexivity|discriminate]].
    destruct (zmin_opt (map r_x (rows u))) as [x0|]; [|split; [reflexivity|discriminate]].
    destruct (all_models c (Forecast.c_mode c) (detect_freq_frame f) add mult) as [|m0 ms]; [split; [reflexivity|discriminate]|].
    rewrite D. assert (Ff : fixed_freq (detect_freq_frame f)) by (unfold detect_freq_frame in *; rewrite D in *; now apply detect_values).
    rewrite (rmapM_maps (fit_one W c source (Forecast.c_mode c) (detect_freq_frame f) add u act (ODate start hi) x0) _ (mt (new_range u) la lf)).
    2: { intros m I. rewrite Forall_forall in Fall. apply fit_one_mv; auto. now apply Fall. }
    destruct (rmapM _ _) as [fits|e] eqn:Er; cbn [rmap rbind]; [|split; [reflexivity|discriminate]]. split.
    - cbn [fst snd]. do 3 f_equal. now apply actuals_clean_mv.
    - intros w acts fits' [= <- <- <-]. split.
      + revert Er Fall. generalize (m0 :: ms). intros l. revert fits. induction l as [|m l IH]; intros fits Er Fall; [injection Er as <-; constructor|]. cbn [rmapM] in Er.
        destruct (fit_one _ _ _ _ _ _ _ _ _ _ m) as [p|e] eqn:Ef; [|discriminate]. cbn [rbind] in Er. destruct (rmapM _ l) as [ps|e]; [|discriminate]. injection Er as <-. inversion Fall; subst.
        constructor; [|now apply IH]. eapply fit_one_tagged; [exact Du| |exact Ef]. now match goal with H : fine m |- _ => apply H end.
      + apply Forall_forall. intros r I. apply in_map_iff in I as (q & <- & _). split; reflexivity.
  Qed.
  Lemma run_single_mv W c source f : sorts_scores W -> has_date f = true -> steady (detect_freq_frame f) -> Forecast.c_mode c <> "auto" -> portable c ->
    exists R la lf, run_forecast_single W (mc c) source (mf f) = rmap (moved R la lf) (run_forecast_single W c source f).
  Proof.
    intros Hs D S1 Nm Pc. destruct (run_fits_mv W c source f D S1 Nm Pc) as (R & la & lf & L & E & F). exists R, la, lf. unfold run_forecast_single. rewrite E.
    destruct (run_fits W c source f) as [[[w acts] fits]|e]; [|reflexivity]. cbn [rmap rbind fst snd]. destruct (F w acts fits eq_refl) as (F1 & F2).
    change (c_all (mc c)) with (c_all c). rewrite (assemble_mv W (c_all c) w R la lf source L acts fits Hs F1 F2). destruct (assemble W (c_all c) w acts fits) as [data metas]. cbn [fst snd].
    cbn [mf has_date mc c_ncum c_q1 c_q2 c_widen]. rewrite D, get_pi_md. destruct (get_pi _ _ _ _ _ _ _) as [pi|e]; reflexivity.
  Qed.

  (* ---- input tables ---- *)
  Definition mrr (q : rawrow T) : rawrow T := mkRaw (mv (q_idx q)) (mr (q_row q)).
  Definition mraw (t : raw T) : raw T := mkTable (t_y t) (t_w t) (t_x t) (t_date t) (t_src t) (t_dtindex t) (map mrr (t_rows t)).
  Lemma origin_mv t : x_origin (mv t) = mv (x_origin t).
  Proof. unfold x_origin. rewrite weekday_mv. unfold mv. ring. Qed.
  Lemma normalized_x_mv ds : get_normalized_x_from_date (map mv ds) = get_normalized_x_from_date ds.
  Proof.
    destruct ds as [|t0 ds]; [reflexivity|]. cbn [map get_normalized_x_from_date]. rewrite origin_mv. f_equal. assert (K : forall t, (mv t - mv (x_origin t0)) / DAY = (t - x_origin t0) / DAY) by (intros t; f_equal; unfold mv; ring).
    change (mv t0 :: map mv ds) with (map mv (t0 :: ds)). transitivity (map (fun t => (mv t - mv (x_origin t0)) / DAY) (t0 :: ds)); [now rewrite map_map|]. exact (map_ext _ _ K (t0 :: ds)).
  Qed.
  Lemma prepare_mv t qs : prepare (mraw t) (map mrr qs) = rmap (map mr) (prepare t qs).
  Proof.
    unfold prepare. cbn [mraw t_date t_dtindex t_x]. change (has_date_after (mraw t)) with (has_date_after t).
    replace (map (fun q => if t_date t then q_row q else if t_dtindex t then set_date (q_row q) (q_idx q) else q_row q) (map mrr qs))
      with (map mr (map (fun q => if t_date t then q_row q else if t_dtindex t then set_date (q_row q) (q_idx q) else q_row q) qs)).
    2: { rewrite !map_map. apply map_ext. intros q. destruct (t_date t); [reflexivity|]. now destruct (t_dtindex t). }
    generalize (map (fun q => if t_date t then q_row q else if t_dtindex t then set_date (q_row q) (q_idx q) else q_row q) qs). intros rs.
    destruct (t_x t); [reflexivity|]. destruct (has_date_after t).
    - rewrite dates_mr, normalized_x_mv. destruct (get_normalized_x_from_date _) as [xs|e]; [|reflexivity]. cbn [rmap rbind]. f_equal. now rewrite combine_map_left, !map_map.
    - cbn [rmap rbind]. f_equal. now rewrite enumerate_maps, !map_map.
  Qed.
  Lemma rmapM_map {A B C} (h : B -> res C) (g : A -> B) l : rmapM h (map g l) = rmapM (fun a => h (g a)) l.
  Proof. induction l as [|a l IH]; [reflexivity|]. cbn. now rewrite IH. Qed.
  Lemma normalize_ne (t : raw T) : t_rows t <> [] -> normalize_df t =
    if negb (t_y t) then Err AssertionError
    else let* gs := rmapM (prepare t) (groups_of t) in Ok (Some (mkFrame (has_date_after t) (t_src t) (t_w t) (isort (row_leb (t_src t)) (concat gs)))).
  Proof. unfold normalize_df. now destruct (t_rows t). Qed.
  Lemma groups_mv t : groups_of (mraw t) = map (map mrr) (groups_of t).
  Proof. unfold groups_of. cbn [mraw t_src t_rows]. destruct (t_src t); [|reflexivity]. unfold sources_of. rewrite !map_map. apply map_ext. intros s. now apply filter_maps. Qed.
  Lemma normalize_mv t : normalize_df (mraw t) = rmap (option_map mf) (normalize_df t).
  Proof.
    destruct (t_rows t) as [|q l] eqn:E; [unfold normalize_df; cbn [mraw t_rows]; now rewrite E|]. rewrite !normalize_ne by (cbn [mraw t_rows]; rewrite E; discriminate).
    change (t_y (mraw t)) with (t_y t). destruct (negb (t_y t)); [reflexivity|]. rewrite groups_mv.
    rewrite rmapM_map, (rmapM_maps (prepare t) _ (map mr)) by (intros qs _; apply prepare_mv). destruct (rmapM (prepare t) (groups_of t)) as [gs|e]; [|reflexivity]. cbn [rmap rbind option_map].
    do 2 f_equal. unfold mf. cbn [has_date has_src has_w rows]. f_equal. rewrite <- concat_map. now apply isort_map.
  Qed.
  (* every series follows neither months, quarters nor years *)
  Definition steady_table (t : raw T) : Prop :=
    forall s, steady (detect_freq (map (qdate t) (filter (fun q => String.eqb (gkey t q) s) (t_rows t)))).
  Lemma table_dates t f (p : row T -> bool) (q : rawrow T -> bool) : normalize_df t = Ok (Some f) -> (forall a b, p (mkRow (qdate t a) (r_src (q_row a)) b (r_y (q_row a)) (r_w (q_row a))) = q a) ->
    forall z, In z (map r_date (filter p (rows f))) <-> In z (map (qdate t) (filter q (t_rows t))).
  Proof.
    intros En Epq z. assert (Hn : t_rows t <> []) by (intros E0; unfold normalize_df in En; rewrite E0 in En; discriminate).
    assert (Hy : t_y t = true) by (unfold normalize_df in En; destruct (t_rows t); [discriminate|]; destruct (t_y t); [reflexivity|discriminate]).
    destruct (normalize_ok t Hn Hy) as (rs & E' & P & _). rewrite En in E'. injection E' as ->. cbn [rows]. rewrite !in_map_iff. split.
    - intros (r & <- & I). apply filter_In in I as (I & Ip). apply (Permutation_in _ P) in I. apply in_map_iff in I as ((i, a) & <- & I). cbn [expected] in Ip |- *. exists a. split; [reflexivity|].
      rewrite Epq in Ip. apply filter_In. split; [|exact Ip]. rewrite <- (enum_snd (t_rows t) 0). apply (in_map snd) in I. exact I.
    - intros (a & <- & I). apply filter_In in I as (I & Iq). rewrite <- (enum_snd (t_rows t) 0) in I. apply in_map_iff in I as ((i, a') & Ea & I). cbn in Ea. subst a'.
      exists (expected t (i, a)). split; [reflexivity|]. apply filter_In. split; [|cbn [expected]; now rewrite Epq]. apply (Permutation_in _ (Permutation_sym P)). apply in_map_iff. now exists (i, a).
  Qed.
  Lemma normalize_flags (t : raw T) f : normalize_df t = Ok (Some f) -> has_date f = has_date_after t /\ has_src f = t_src t.
  Proof.
    unfold normalize_df. destruct (t_rows t); [discriminate|]. destruct (negb (t_y t)); [discriminate|]. destruct (rmapM _ _); [|discriminate]. cbn [rbind]. intros [= <-]. now split.
  Qed.
  Lemma steady_whole t f : has_date_after t = true -> steady_table t -> normalize_df t = Ok (Some f) -> t_src t = false -> steady (detect_freq_frame f).
  Proof.
    intros D St En Es. destruct (normalize_flags t f En) as (Fd & _). unfold detect_freq_frame. rewrite Fd, D. specialize (St EmptyString).
    rewrite (detect_freq_set (map r_date (rows f)) (map (qdate t) (filter (fun q => String.eqb (gkey t q) EmptyString) (t_rows t)))); [exact St|]. intros z.
    rewrite <- (table_dates t f (fun _ => true) (fun q => String.eqb (gkey t q) EmptyString) En); [|intros; unfold gkey; rewrite Es; reflexivity].
    replace (filter (fun _ => true) (rows f)) with (rows f); [tauto|]. symmetry. induction (rows f) as [|a l IH]; [reflexivity|]. cbn. now rewrite IH.
  Qed.
  Lemma steady_part t f s : has_date_after t = true -> steady_table t -> normalize_df t = Ok (Some f) -> t_src t = true ->
    steady (detect_freq_frame (with_rows f (filter (fun r => String.eqb (r_src r) s) (rows f)))).
  Proof.
    intros D St En Es. destruct (normalize_flags t f En) as (Fd & _). unfold detect_freq_frame. cbn [with_rows has_date rows]. rewrite Fd, D. specialize (St s).
    rewrite (detect_freq_set _ (map (qdate t) (filter (fun q => String.eqb (gkey t q) s) (t_rows t)))); [exact St|]. intros z.
    apply (table_dates t f _ (fun q => String.eqb (gkey t q) s) En). intros. unfold gkey. now rewrite Es.
  Qed.

  (* ---- whole forecasts ---- *)
  (* without the labels that show date ranges *)
  Definition bare_d (r : drow T) : drow T := mkD (d_date r) (d_w r) (d_y r) (d_model r) (d_src r) "" (d_actual r) (d_best r).
  Definition bare_m (m : mrow T) : mrow T := mkM (rel "" "" (m_meta m)) (m_label m) (m_best m).
  Definition bare (r : result T) : result T := mkResult (rs_forecast r) (map bare_d (rs_data r)) (map bare_m (rs_meta r)).
  (* the same, dates moved *)
  Definition move_d (r : drow T) : drow T := mkD (mv (d_date r)) (d_w r) (d_y r) (d_model r) (d_src r) (d_long r) (d_actual r) (d_best r).
  Definition move (r : result T) : result T := mkResult (map mpr (rs_forecast r)) (map move_d (rs_data r)) (rs_meta r).
  Lemma bare_moved R la lf r : bare (moved R la lf r) = move (bare r).
  Proof. unfold bare, moved, move. cbn. now rewrite !map_map. Qed.
  Lemma bare_aggregate l : bare (aggregate l) = aggregate (map bare l).
  Proof. unfold bare, aggregate. cbn. f_equal; rewrite ?concat_map, !map_map; reflexivity. Qed.
  Lemma move_aggregate l : move (aggregate l) = aggregate (map move l).
  Proof. unfold move, aggregate. cbn. f_equal; rewrite ?concat_map, !map_map; reflexivity. Qed.
  Lemma single_mv W c source f : sorts_scores W -> has_date f = true -> steady (detect_freq_frame f) -> Forecast.c_mode c <> "auto" -> portable c ->
    rmap bare (run_forecast_single W (mc c) source (mf f)) = rmap (fun r => move (bare r)) (run_forecast_single W c source f).
  Proof.
    intros Hs D S1 Nm Pc. destruct (run_single_mv W c source f Hs D S1 Nm Pc) as (R & la & lf & E). rewrite E. destruct (run_forecast_single W c source f) as [r|e]; [|reflexivity].
    cbn [rmap rbind]. f_equal. apply bare_moved.
  Qed.
  Lemma rmapM_agree {A B C} (h h' : A -> res B) (g g' : B -> C) l : (forall a, In a l -> rmap g (h a) = rmap g' (h' a)) -> rmap (map g) (rmapM h l) = rmap (map g') (rmapM h' l).
  Proof.
    induction l as [|a l IH]; intros E; [reflexivity|]. cbn [rmapM]. pose proof (E a (or_introl eq_refl)) as Ea. specialize (IH (fun b I => E b (or_intror I))).
    destruct (h a) as [b|e], (h' a) as [b'|e']; cbn [rmap rbind] in Ea |- *; try discriminate; [|congruence]. injection Ea as Ea.
    destruct (rmapM h l) as [bs|e], (rmapM h' l) as [bs'|e']; cbn [rmap rbind] in IH |- *; try discriminate; [|congruence]. injection IH as IH. cbn. now rewrite Ea, IH.
  Qed.
  Theorem run_forecast_mv (W : string -> world T) c s t : (forall s, sorts_scores (W s)) -> has_date_after t = true -> steady_table t -> Forecast.c_mode c <> "auto" -> portable c ->
    rmap (option_map bare) (run_forecast W (mc c) s (mraw t)) = rmap (option_map (fun r => move (bare r))) (run_forecast W c s t).
  Proof.
    intros Hs D St Nm Pc. unfold run_forecast. rewrite normalize_mv. destruct (normalize_df t) as [[f|]|e] eqn:En; [|reflexivity|reflexivity]. cbn [rmap rbind option_map].
    destruct (normalize_flags t f En) as (Fd & Fs). rewrite D in Fd. cbn [mf has_src]. rewrite Fs. change (mkFrame (has_date f) (has_src f) (has_w f) (map mr (rows f))) with (mf f).
    destruct (t_src t) eqn:Es; cbn [negb].
    - cbn [mf rows]. replace (map r_src (map mr (rows f))) with (map r_src (rows f)) by now rewrite map_map.
      pose proof (rmapM_agree (fun s0 => run_forecast_single (W s0) (mc c) s0 (with_rows (mf f) (filter (fun r => String.eqb (r_src r) s0) (map mr (rows f)))))
                              (fun s0 => run_forecast_single (W s0) c s0 (with_rows f (filter (fun r => String.eqb (r_src r) s0) (rows f)))) bare (fun r => move (bare r))
                              (dedup String.eqb (map r_src (rows f)))) as K.
      match type of K with ?P -> _ => assert (Hp : P) end.
      { intros s0 _. rewrite (filter_maps mr _ (fun r => String.eqb (r_src r) s0)) by reflexivity.
        apply (single_mv (W s0) c s0 (with_rows f (filter (fun r => String.eqb (r_src r) s0) (rows f)))); auto. now apply (steady_part t f s0). }
      specialize (K Hp). clear Hp. destruct (rmapM _ _) as [rs|e], (rmapM _ _) as [rs'|e']; cbn [rmap rbind option_map] in K |- *; try discriminate; [|congruence].
      injection K as K. do 2 f_equal. rewrite !bare_aggregate, move_aggregate, K, map_map. reflexivity.
    - pose proof (single_mv (W s) c s f (Hs s) Fd (steady_whole t f D St En Es) Nm Pc) as K. destruct (run_forecast_single _ _ _ _) as [r|e], (run_forecast_single _ _ _ _) as [r'|e'];
        cbn [rmap rbind option_map] in K |- *; try discriminate; [|congruence]. assert (K' : bare r = move (bare r')) by congruence. now rewrite K'.
  Qed.
End Shift.
