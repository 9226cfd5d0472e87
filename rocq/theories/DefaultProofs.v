(* Optional columns of the input table (C91). *)
From Coq Require Import ZArith String List Bool QArith_base Lia Permutation Sorted FunctionalExtensionality.
From Verif Require Import Num Py Cal Fmt Model ModelProofs ListProofs Base Dummy Fixed Naive Freq Normalize Aic Fit Interp Select Stats Outliers Pi Forecast.
From Verif Require Import StringProofs GroupProofs CacheProofs NormalizeProofs ForecastProofs ForecastProofs2 ShiftProofs CacheRunProofs RenameProofs.
Import ListNotations.
Local Open Scope string_scope.
Local Open Scope list_scope.
Local Open Scope Z_scope.

(* ---- what a table says ---- *)
Section Meaning.
  Context {T : Type} {N : NumOps T}.
  (* the rows with the date and the position they get *)
  Definition meaning (t : raw T) : list (row T) := map (expected t) (enumerate (t_rows t)).
  Definition key_of (b : bool) (r : row T) : string := if b then r_src r else EmptyString.
  Definition grouped (b : bool) (l : list (row T)) : list (row T) :=
    concat (map (fun s => filter (fun r => String.eqb (key_of b r) s) l) (dedup String.eqb (map (key_of b) l))).
  Lemma key_expected t iq : key_of (t_src t) (expected t iq) = gkey t (snd iq).
  Proof. destruct iq as [i q]. reflexivity. Qed.
  Lemma all_groups_meaning t : all_groups t = grouped (t_src t) (meaning t).
  Proof.
    unfold all_groups, grouped, keys, meaning. rewrite map_map.
    replace (map (fun x => key_of (t_src t) (expected t x)) (enumerate (t_rows t))) with (map (gkey t) (t_rows t)).
    2: { rewrite <- (enum_snd (t_rows t) 0) at 1. rewrite map_map. apply map_ext. intros iq. symmetry. apply key_expected. }
    f_equal. apply map_ext. intros s. unfold group_rows. symmetry. apply filter_maps. intros iq. now rewrite key_expected.
  Qed.
  Lemma enumerate_nil {A} (l : list A) : enumerate l = [] -> l = [].
  Proof. now destruct l. Qed.
  Lemma meaning_nil t : meaning t = [] <-> t_rows t = [].
  Proof. unfold meaning. split; [intros E; apply enumerate_nil; now apply map_eq_nil in E|now intros ->]. Qed.
  Lemma normalize_meaning t : normalize_df t =
    match meaning t with
    | [] => Ok None
    | l => if t_y t then Ok (Some (mkFrame (has_date_after t) (t_src t) (t_w t) (isort (row_leb (t_src t)) (grouped (t_src t) l)))) else Err AssertionError
    end.
  Proof.
    destruct (meaning t) as [|r l] eqn:E.
    - apply meaning_nil in E. unfold normalize_df. now rewrite E.
    - assert (Hn : t_rows t <> []) by (intros C; apply meaning_nil in C; congruence). destruct (t_y t) eqn:Y.
      + rewrite (normalize_eq t Hn Y), all_groups_meaning. now rewrite E.
      + unfold normalize_df. destruct (t_rows t); [congruence|]. now rewrite Y.
  Qed.
  Theorem same_meaning t t' : t_y t' = t_y t -> t_w t' = t_w t -> t_src t' = t_src t -> has_date_after t' = has_date_after t -> meaning t' = meaning t ->
    normalize_df t' = normalize_df t.
  Proof. intros E1 E2 E3 E4 E5. rewrite !normalize_meaning. now rewrite E1, E2, E3, E4, E5. Qed.

  (* dates in a column instead of the index *)
  Definition date_column (t : raw T) : raw T :=
    mkTable (t_y t) (t_w t) (t_x t) true (t_src t) false (map (fun q => mkRaw 0 (set_date (q_row q) (qdate t q))) (t_rows t)).
  Lemma date_column_rank t i q : rank (date_column t) i (mkRaw 0 (set_date (q_row q) (qdate t q))) = rank t i q.
  Proof. unfold rank. cbn [date_column t_rows]. rewrite firstn_map, (filter_maps _ _ (fun q' => String.eqb (gkey t q') (gkey t q))) by reflexivity. now rewrite map_length. Qed.
  Lemma date_column_first t s : first_date (date_column t) s = first_date t s.
  Proof.
    unfold first_date. cbn [date_column t_rows]. rewrite (find_map _ _ (fun q => String.eqb (gkey t q) s)) by reflexivity. now destruct (find _ (t_rows t)).
  Qed.
  Lemma date_column_meaning t : has_date_after t = true -> meaning (date_column t) = meaning t.
  Proof.
    intros D. unfold meaning. cbn [date_column t_rows]. rewrite enumerate_maps, map_map. apply map_ext. intros [i q]. cbn [fst snd expected].
    unfold qx. rewrite date_column_first, D. reflexivity.
  Qed.
  Theorem dates_anywhere t : has_date_after t = true -> normalize_df (date_column t) = normalize_df t.
  Proof. intros D. apply same_meaning; try reflexivity; [now rewrite D|now apply date_column_meaning]. Qed.

  (* positions in a column instead of derived ones *)
  Definition x_column (t : raw T) : raw T :=
    mkTable (t_y t) (t_w t) true (t_date t) (t_src t) (t_dtindex t) (map (fun iq => mkRaw (q_idx (snd iq)) (set_x (q_row (snd iq)) (qx t (fst iq) (snd iq)))) (enumerate (t_rows t))).
  Lemma enum_enum {A B} (h : nat * A -> B) (l : list A) : forall i, enum_from i (map h (enum_from i l)) = map (fun p => (fst p, h p)) (enum_from i l).
  Proof. induction l as [|a l IH]; intros i; [reflexivity|]. cbn. f_equal. apply IH. Qed.
  Lemma x_column_meaning t : meaning (x_column t) = meaning t.
  Proof.
    unfold meaning. cbn [x_column t_rows]. unfold enumerate. rewrite enum_enum, map_map. apply map_ext. intros [i q]. reflexivity.
  Qed.
  Theorem positions_derived t : normalize_df (x_column t) = normalize_df t.
  Proof. apply same_meaning; try reflexivity. apply x_column_meaning. Qed.
End Meaning.

(* ---- no weights: weights of one ---- *)
Section Ones.
  Context {T : Type} {N : NumOps T}.
  Definition one (r : row T) : row T := set_w r n1.
  Definition unit (f : frame T) : frame T := mkFrame (has_date f) (has_src f) true (map one (rows f)).
  (* the table with a column of weights that are all one *)
  Definition ones (t : raw T) : raw T :=
    mkTable (t_y t) true (t_x t) (t_date t) (t_src t) (t_dtindex t) (map (fun q => mkRaw (q_idx q) (one (q_row q))) (t_rows t)).

  Lemma ones_rank t i q : rank (ones t) i (mkRaw (q_idx q) (one (q_row q))) = rank t i q.
  Proof. unfold rank. cbn [ones t_rows]. rewrite firstn_map, (filter_maps _ _ (fun q' => String.eqb (gkey t q') (gkey t q))) by reflexivity. now rewrite map_length. Qed.
  Lemma ones_first t s : first_date (ones t) s = first_date t s.
  Proof. unfold first_date. cbn [ones t_rows]. rewrite (find_map _ _ (fun q => String.eqb (gkey t q) s)) by reflexivity. now destruct (find _ (t_rows t)). Qed.
  Lemma ones_meaning t : meaning (ones t) = map one (meaning t).
  Proof.
    unfold meaning. cbn [ones t_rows]. rewrite enumerate_maps, !map_map. apply map_ext. intros [i q]. cbn [fst snd expected].
    unfold one, set_w. cbn [r_date r_src r_x r_y]. f_equal. unfold qx. now rewrite ones_first, ones_rank.
  Qed.
  Lemma grouped_one b l : grouped b (map one l) = map one (grouped b l).
  Proof.
    unfold grouped. rewrite concat_map. replace (map (key_of b) (map one l)) with (map (key_of b) l) by (rewrite map_map; now destruct b). rewrite map_map.
    f_equal. apply map_ext. intros s. apply filter_maps. intros r. now destruct b.
  Qed.
  Lemma normalize_ones t : normalize_df (ones t) = Py.rmap (option_map unit) (normalize_df t).
  Proof.
    rewrite !normalize_meaning, ones_meaning. destruct (meaning t) as [|r l]; [reflexivity|]. cbn [map]. change (one r :: map one l) with (map one (r :: l)).
    generalize (r :: l). clear r l. intros l. cbn [ones t_y t_src t_w]. destruct (t_y t); [|reflexivity]. cbn [Py.rmap rbind option_map unit has_date has_src rows]. unfold unit. cbn [has_date has_src rows]. do 3 f_equal.
    rewrite grouped_one. apply isort_map. intros a b. reflexivity.
  Qed.

  Lemma dates_one l : map r_date (map one l) = map r_date l. Proof. now rewrite map_map. Qed.
  Lemma xs_one l : map r_x (map one l) = map r_x l. Proof. now rewrite map_map. Qed.
  Lemma ys_one l : map r_y (map one l) = map r_y l. Proof. now rewrite map_map. Qed.
  Lemma detect_unit f : detect_freq_frame (unit f) = detect_freq_frame f.
  Proof. unfold detect_freq_frame. cbn [unit has_date rows]. now rewrite dates_one. Qed.
  Lemma start_unit d (f : frame T) : start_filter d (unit f) = unit (start_filter d f).
  Proof. destruct d as [d|]; [|reflexivity]. unfold start_filter. cbn [unit has_date]. destruct (has_date f) eqn:D; [|reflexivity]. unfold with_rows, unit. cbn. rewrite D. f_equal. now apply filter_maps. Qed.
  Lemma start_has_w d (f : frame T) : has_w (start_filter d f) = has_w f.
  Proof. destruct d as [d|]; [|reflexivity]. unfold start_filter. now destruct (has_date f). Qed.
  Lemma weights_unit f : has_w f = false -> with_weights f = unit f.
  Proof. intros E. unfold with_weights. now rewrite E. Qed.
  Lemma spikes_unit f : has_w f = false -> nmul n1 n0 = n0 -> nmul n1 n1 = n1 -> ignore_spikes (unit f) = ignore_spikes f.
  Proof.
    intros E E0 E1. unfold ignore_spikes. replace (model_outliers (unit f)) with (model_outliers f).
    2: { unfold model_outliers. cbn [unit has_date rows]. rewrite ys_one, map_map, map_length. reflexivity. }
    destruct (model_outliers f) as [[st sp]|e]; cbn [rbind]; [|reflexivity]. f_equal. cbn [unit has_date has_src has_w rows]. rewrite E. f_equal.
    rewrite combine_map_left, map_map. apply map_ext. intros [r b]. cbn [fst snd one set_w r_w]. unfold set_w, one. cbn. destruct b; [now rewrite E0|now rewrite E1].
  Qed.

  (* the table of actuals does not contain the weights of the series *)
  Definition zw (r : row T) : row T := set_w r n0.
  Lemma zw_one l : map zw (map one l) = map zw l. Proof. now rewrite map_map. Qed.
  Lemma lookup_one key rs u : (forall r, key (one r) = key r) -> Interp.lookup key (map one rs) u = option_map one (Interp.lookup key rs u).
  Proof. intros K. apply find_map. intros r. now rewrite K. Qed.
  Lemma column_one (get : row T -> T) key rs grid : (forall r, key (one r) = key r) -> (forall r, get (one r) = get r) ->
    Interp.column get (map (Interp.lookup key (map one rs)) grid) = Interp.column get (map (Interp.lookup key rs) grid).
  Proof. intros K E. unfold Interp.column. rewrite !map_map. apply map_ext. intros u. rewrite lookup_one by exact K. destruct (Interp.lookup key rs u); [apply E|reflexivity]. Qed.
  Lemma src_column_one key rs grid : (forall r, key (one r) = key r) ->
    src_column (map (Interp.lookup key (map one rs)) grid) = src_column (map (Interp.lookup key rs) grid).
  Proof. intros K. unfold src_column. rewrite !map_map. apply map_ext. intros u. rewrite lookup_one by exact K. now destruct (Interp.lookup key rs u). Qed.
  Lemma zw_rows ds ss xs (ys ws ws' : list T) : length ws = length ws' -> map zw (mk_rows ds ss xs ys ws) = map zw (mk_rows ds ss xs ys ws').
  Proof.
    unfold mk_rows. rewrite !map_map. revert ss xs ys ws ws'. induction ds as [|d ds IH]; intros [|u ss] [|x xs] [|y ys] [|w ws] [|w' ws'] L; cbn [map combine length] in *; try reflexivity; try discriminate.
    f_equal. apply IH. lia.
  Qed.
  Lemma interpolate_unit f : Py.rmap (fun g => map zw (rows g)) (interpolate_df false (unit f)) = Py.rmap (fun g => map zw (rows g)) (interpolate_df false f).
  Proof.
    unfold interpolate_df. change (has_date (unit f)) with (has_date f). change (has_src (unit f)) with (has_src f). change (rows (unit f)) with (map one (rows f)).
    rewrite xs_one, dates_one. destruct (negb (has_date f)).
    - destruct (regular (map r_x (rows f))); [cbn [Py.rmap rbind]; f_equal; apply zw_one|]. destruct (has_dup Z.eqb (map r_x (rows f))); [reflexivity|].
      destruct (zmin_opt (map r_x (rows f))) as [lo|], (zmax_opt (map r_x (rows f))) as [hi|]; try reflexivity. cbn [Py.rmap rbind rows].
      rewrite (column_one r_y r_x), src_column_one by reflexivity. f_equal.
      replace (map (fun o => match o with Some r => r_date r | None => 0 end) (map (Interp.lookup r_x (map one (rows f))) (zrange lo hi)))
        with (map (fun o => match o with Some r => r_date r | None => 0 end) (map (Interp.lookup r_x (rows f)) (zrange lo hi))).
      2: { rewrite !map_map. apply map_ext. intros u. rewrite lookup_one by reflexivity. now destruct (Interp.lookup r_x (rows f) u). }
      apply zw_rows. unfold Interp.column. now rewrite !map_length.
    - match goal with |- context [if ?b then Ok _ else _] => destruct b end; [cbn [Py.rmap rbind]; f_equal; apply zw_one|]. destruct (has_dup Z.eqb (map r_date (rows f))); [reflexivity|].
      destruct (zmin_opt (map r_date (rows f))) as [lo|], (zmax_opt (map r_date (rows f))) as [hi|]; try reflexivity.
      destruct (asfreq_range lo hi (detect_freq (map r_date (rows f)))) as [grid|e]; cbn [Py.rmap rbind]; [|reflexivity].
      rewrite (column_one (fun r => nofZ (r_x r)) r_date), (column_one r_y r_date), src_column_one by reflexivity.
      destruct (to_ints _) as [xs|e]; cbn [Py.rmap rbind rows]; [|reflexivity]. f_equal. apply zw_rows. unfold Interp.column. now rewrite !map_length.
  Qed.
  Lemma model_actuals_unit f u : model_actuals (unit f) u = model_actuals f u.
  Proof.
    unfold model_actuals. pose proof (interpolate_unit f) as E. destruct (interpolate_df false (unit f)) as [g'|e'], (interpolate_df false f) as [g|e]; cbn [Py.rmap rbind] in *; try discriminate; [|congruence].
    f_equal. change (has_date (unit f)) with (has_date f). change (has_src (unit f)) with (has_src f). f_equal.
    set (G := fun r : row T => map _ _). assert (H : forall l, flat_map G (isort (fun a b => r_x a <=? r_x b) l) = flat_map G (isort (fun a b => r_x a <=? r_x b) (map zw l))).
    { intros l. rewrite (isort_map zw _ (fun a b => r_x a <=? r_x b)) by reflexivity. symmetry. now apply flat_maps. }
    rewrite (H (rows g')), (H (rows g)). do 2 f_equal. congruence.
  Qed.

  (* ---- results up to the label of the weights ---- *)
  Definition ud (d : drow T) : drow T := if d_actual d then mkD (d_date d) (d_w d) (d_y d) (d_model d) (d_src d) "" true false else d.
  Definition um (m : mrow T) : mrow T := mkM (set_weights "" (m_meta m)) (m_label m) (m_best m).
  Definition unlabelled (r : result T) : result T := mkResult (rs_forecast r) (map ud (rs_data r)) (map um (rs_meta r)).
  Definition relong (long : string) (d : drow T) : drow T := mkD (d_date d) (d_w d) (d_y d) (d_model d) (d_src d) long (d_actual d) (d_best d).

  Theorem run_fits_unit W c s f : has_w f = false -> c_outliers c = false \/ (nmul n1 n0 = n0 /\ nmul n1 n1 = n1) ->
    exists w long, run_fits W c s (unit f) = Py.rmap (fun p => if c_outliers c then p else (w, map (relong long) (snd (fst p)), snd p)) (run_fits W c s f).
  Proof.
    intros E O. unfold run_fits. rewrite detect_unit. assert (E' : has_w (start_filter (c_start c) f) = false) by now rewrite start_has_w.
    destruct (c_outliers c) eqn:Co.
    - destruct O as [O|(O0 & O1)]; [discriminate|]. exists "", "". assert (P : prepared c (unit f) = prepared c f).
      { unfold prepared. rewrite Co, start_unit. now apply spikes_unit. }
      rewrite P. destruct (prepared c f) as [f1|e]; cbn [rbind Py.rmap]; [|reflexivity]. destruct (input_range _) as [rg|e]; cbn [rbind Py.rmap]; [|reflexivity].
      destruct (candidate_lists c _) as [add mult]. destruct (final_mode W c _) as [mode|e]; cbn [rbind Py.rmap]; [|reflexivity]. rewrite model_actuals_unit.
      destruct (model_actuals f _) as [act|e]; cbn [rbind Py.rmap]; [|reflexivity].
      destruct (zmin_opt (map (place _) _)) as [start|]; [|reflexivity]. destruct (zmax_opt _) as [stop|]; [|reflexivity]. destruct (zmin_opt (map r_x _)) as [x0|]; [|reflexivity].
      destruct (all_models c mode _ add mult) as [|m0 ms]; [reflexivity|]. change (has_date (unit f)) with (has_date f). destruct (rmapM _ _); reflexivity.
    - unfold prepared. rewrite Co, start_unit. set (f1 := start_filter (c_start c) f) in *. cbn [rbind]. rewrite (weights_unit f1 E').
      change (with_weights (unit f1)) with (unit f1). destruct (input_range (unit f1)) as [rg|e] eqn:Er; cbn [rbind Py.rmap]; [|exists "", ""; reflexivity].
      exists (input_weights (w_env W) (unit f1)), (long_name s (input_weights (w_env W) (unit f1)) (detect_freq_frame f) rg).
      destruct (candidate_lists c _) as [add mult]. destruct (final_mode W c _) as [mode|e]; cbn [rbind Py.rmap]; [|reflexivity]. rewrite model_actuals_unit.
      destruct (model_actuals f _) as [act|e]; cbn [rbind Py.rmap]; [|reflexivity].
      destruct (zmin_opt (map (place _) _)) as [start|]; [|reflexivity]. destruct (zmax_opt _) as [stop|]; [|reflexivity]. destruct (zmin_opt (map r_x _)) as [x0|]; [|reflexivity].
      destruct (all_models c mode _ add mult) as [|m0 ms]; [reflexivity|]. change (has_date (unit f)) with (has_date f). destruct (rmapM _ _); cbn [rbind Py.rmap fst snd]; [|reflexivity].
      do 3 f_equal. unfold actuals_clean. now rewrite map_map.
  Qed.

  Lemma ud_date d : d_date (ud d) = d_date d. Proof. unfold ud. now destruct (d_actual d). Qed.
  Lemma ud_y d : d_y (ud d) = d_y d. Proof. unfold ud. now destruct (d_actual d). Qed.
  Lemma ud_w d : d_w (ud d) = d_w d. Proof. unfold ud. now destruct (d_actual d). Qed.
  Lemma ud_src d : d_src (ud d) = d_src d. Proof. unfold ud. now destruct (d_actual d). Qed.
  Lemma ud_model d : d_model (ud d) = d_model d. Proof. unfold ud. now destruct (d_actual d). Qed.
  Lemma ud_actual d : d_actual (ud d) = d_actual d. Proof. unfold ud. now destruct (d_actual d) eqn:E. Qed.
  Lemma ud_kept d : d_actual (ud d) || d_best (ud d) = d_actual d || d_best d. Proof. unfold ud. destruct (d_actual d) eqn:E; [reflexivity|now rewrite E]. Qed.
  Lemma ud_value d : with_value (ud d) = with_value d. Proof. unfold with_value. now rewrite ud_y. Qed.
  Hint Rewrite ud_date ud_y ud_w ud_src ud_model ud_actual ud_kept ud_value : uds.
  Lemma ud_row d : actual_row (ud d) = actual_row d.
  Proof. unfold actual_row. now autorewrite with uds. Qed.
  Lemma usable_ud l : usable_actuals (map ud l) = usable_actuals l.
  Proof.
    unfold usable_actuals. rewrite (filter_maps ud _ (fun r => nltb n0 (d_w r) && d_actual r)) by (intros r; now autorewrite with uds).
    rewrite (filter_maps ud _ (fun r => d_actual r && with_value r)) by (intros r; now autorewrite with uds). rewrite map_map. apply flat_maps. intros r. autorewrite with uds.
    rewrite (map_ext (fun x => d_date (ud x)) (fun x => d_date x)) by (intros; apply ud_date). reflexivity.
  Qed.
  Lemma residuals_ud acts l : residuals acts (map ud l) = residuals acts l.
  Proof.
    unfold residuals. f_equal. rewrite (filter_maps ud _ (fun r => negb (d_actual r) && with_value r)) by (intros r; now autorewrite with uds).
    apply flat_maps. intros r. now autorewrite with uds.
  Qed.
  Lemma percentiles_ud l a q1 q2 : add_percentiles (map ud l) a q1 q2 = add_percentiles l a q1 q2.
  Proof.
    unfold add_percentiles. destruct (_ && _ && _ && _); [|reflexivity]. f_equal. rewrite enumerate_maps, !map_map. apply map_ext. intros [i r]. cbn [fst snd]. now autorewrite with uds.
  Qed.
  Lemma pi_single_ud draw n k q1 q2 hs hw hb hd l :
    pi_single draw n k q1 q2 (mkPT hs hw hb hd (map ud l)) = pi_single draw n k q1 q2 (mkPT hs hw hb hd l).
  Proof.
    unfold pi_single. cbn [pt_best pt_rows pt_dates pt_w pt_src].
    replace (if hb then filter (fun r => d_actual r || d_best r) (map ud l) else map ud l) with (map ud (if hb then filter (fun r => d_actual r || d_best r) l else l))
      by (destruct hb; [symmetry; apply filter_maps; apply ud_kept|reflexivity]).
    generalize (if hb then filter (fun r => d_actual r || d_best r) l else l). clear l. intros l. rewrite map_map. rewrite (map_ext (fun x => d_date (ud x)) d_date) by apply ud_date.
    destruct (if hd then _ else _) as [fd|e]; cbn [rbind]; [|reflexivity].
    rewrite (filter_maps ud _ (fun r => d_actual r && with_value r)) by (intros r; now autorewrite with uds). rewrite (existsb_map ud _ (fun r => neqb (d_w r) n0)) by (intros r; now rewrite ud_w).
    rewrite usable_ud, map_map. rewrite (map_ext (fun x => (d_date (ud x), d_y (ud x))) (fun x : drow T => (d_date x, d_y x))) by (intros; now autorewrite with uds).
    match goal with |- rbind ?A _ = rbind ?B _ => destruct A as [acts|e] end; [|reflexivity]. cbn [rbind]. rewrite residuals_ud. destruct (residuals acts l) as [|r0 rr].
    { destruct (negb hs); [reflexivity|]. destruct l as [|x l]; [reflexivity|]. cbn [map]. f_equal. rewrite map_map. apply map_ext. apply ud_row. }
    destruct (zmax_opt (map fst acts)) as [last|]; [|reflexivity].
    rewrite (filter_maps ud _ (fun r => negb (d_actual r) && (last <? d_date r))) by (intros r; now autorewrite with uds).
    rewrite (filter_maps ud _ (fun r => negb (d_actual r) && (d_date r <=? last))) by (intros r; now autorewrite with uds).
    rewrite !map_length, !percentiles_ud. match goal with |- context [add_percentiles ?a ?b q1 q2] => destruct (add_percentiles a b q1 q2) as [fut|e] end; [|reflexivity]. cbn [rbind].
    match goal with |- context [add_percentiles ?a ?b q1 q2] => destruct (add_percentiles a b q1 q2) as [pas|e] end; [|reflexivity]. cbn [rbind]. f_equal. f_equal.
    rewrite map_map. apply map_ext. apply ud_row.
  Qed.

  Lemma assemble_relong W al w w' long acts fits : Forall (fun d => d_actual d = true) acts ->
    let p := assemble W al w acts fits in let p' := assemble W al w' (map (relong long) acts) fits in
    map ud (fst p') = map ud (fst p) /\ map um (snd p') = map um (snd p).
  Proof.
    intros Fa. cbv zeta. unfold assemble. set (b := best_fit W _).
    assert (E : map ud (map (flag_data b) (map (relong long) acts ++ concat (map snd fits))) = map ud (map (flag_data b) (acts ++ concat (map snd fits)))).
    { rewrite !map_app. f_equal. rewrite !map_map. apply map_ext_in. intros d I. rewrite Forall_forall in Fa. specialize (Fa d I).
      unfold ud, flag_data, relong. cbn [d_date d_w d_y d_model d_src d_long d_actual d_best]. now rewrite Fa. }
    assert (M : map um (map (fun p => flag_meta b w' (fst (fst p)) (snd (fst p))) fits) = map um (map (fun p => flag_meta b w (fst (fst p)) (snd (fst p))) fits)) by now rewrite !map_map.
    destruct al; cbn [fst snd]; [now split|]. split.
    - rewrite <- !(filter_maps ud (fun r => d_best r || d_actual r)) by (intros r; rewrite (orb_comm (d_best (ud r))), (orb_comm (d_best r)); apply ud_kept). now rewrite E.
    - rewrite <- !(filter_maps um (fun m => m_best m) (fun m => m_best m)) by reflexivity. now rewrite M.
  Qed.
  Lemma actuals_are W c s f w acts fits : run_fits W c s f = Ok (w, acts, fits) -> Forall (fun d => d_actual d = true) acts.
  Proof.
    unfold run_fits. destruct (prepared c f) as [f1|e]; cbn [rbind]; [|discriminate]. destruct (input_range _) as [rg|e]; cbn [rbind]; [|discriminate]. destruct (candidate_lists c _) as [add mult].
    destruct (final_mode W c _) as [mode|e]; cbn [rbind]; [|discriminate]. destruct (model_actuals f _) as [act|e]; cbn [rbind]; [|discriminate].
    destruct (zmin_opt (map (place _) _)) as [start|]; [|discriminate]. destruct (zmax_opt _) as [stop|]; [|discriminate].
    destruct (zmin_opt (map r_x _)) as [x0|]; [|discriminate]. destruct (all_models c mode _ add mult) as [|m0 ms]; [discriminate|].
    destruct (rmapM _ _) as [fits'|e]; cbn [rbind]; [|discriminate]. intros [= _ <- _]. apply Forall_map. apply Forall_forall. reflexivity.
  Qed.
  Theorem single_unit W c s f : has_w f = false -> c_outliers c = false \/ (nmul n1 n0 = n0 /\ nmul n1 n1 = n1) ->
    Py.rmap unlabelled (run_forecast_single W c s (unit f)) = Py.rmap unlabelled (run_forecast_single W c s f).
  Proof.
    intros E O. destruct (run_fits_unit W c s f E O) as (w & long & F). unfold run_forecast_single. destruct (run_fits W c s f) as [[[w0 acts] fits]|e] eqn:Er; cbn [Py.rmap rbind] in F.
    2: { now rewrite F. }
    destruct (c_outliers c). { rewrite F. reflexivity. }
    rewrite F. cbn [rbind fst snd] in *. pose proof (data_source _ _ _ _ _ _ _ (c_all c) Er) as S. pose proof (data_source _ _ _ _ _ _ _ (c_all c) F) as S'.
    destruct (assemble_relong W (c_all c) w0 w long acts fits (actuals_are _ _ _ _ _ _ _ Er)) as (D & M).
    destruct (assemble W (c_all c) w0 acts fits) as [data metas]. destruct (assemble W (c_all c) w (map (relong long) acts) fits) as [data' metas']. cbn [fst snd] in *.
    rewrite !(get_pi_one s) by (now apply Forall_forall). destruct (match c_ncum c with Some n => Ok n | None => days_from_freq (c_widen c) end) as [nc|e]; cbn [rbind Py.rmap]; [|reflexivity].
    change (has_date (unit f)) with (has_date f). rewrite <- (pi_single_ud _ _ _ _ _ _ _ _ _ data'), D, pi_single_ud. destruct (pi_single _ _ _ _ _ _) as [pi|e]; cbn [rbind Py.rmap]; [|reflexivity].
    unfold unlabelled. cbn [rs_forecast rs_data rs_meta]. now rewrite D, M.
  Qed.
  Lemma aggregate_unlabelled l : unlabelled (aggregate l) = aggregate (map unlabelled l).
  Proof. unfold aggregate, unlabelled. cbn [rs_forecast rs_data rs_meta]. now rewrite !concat_map, !map_map. Qed.
  Lemma rmapM_same {A B C} (h : B -> C) (g g' : A -> res B) l : (forall a, In a l -> Py.rmap h (g' a) = Py.rmap h (g a)) -> Py.rmap (map h) (rmapM g' l) = Py.rmap (map h) (rmapM g l).
  Proof.
    induction l as [|a l IH]; intros E; [reflexivity|]. cbn [rmapM]. pose proof (E a (or_introl eq_refl)) as Ea. assert (El : Py.rmap (map h) (rmapM g' l) = Py.rmap (map h) (rmapM g l)) by (apply IH; intros b I; apply E; now right).
    destruct (g' a) as [b'|e'], (g a) as [b|e]; cbn [Py.rmap rbind] in *; try discriminate; [|congruence].
    destruct (rmapM g' l) as [bs'|e'], (rmapM g l) as [bs|e]; cbn [Py.rmap rbind map] in *; try discriminate; congruence.
  Qed.
  Lemma normalize_flag (t : raw T) (f : frame T) : normalize_df t = Ok (Some f) -> has_w f = t_w t /\ has_src f = t_src t.
  Proof. rewrite normalize_meaning. destruct (meaning t) as [|r l]; [discriminate|]. destruct (t_y t); [|discriminate]. intros [= <-]. now split. Qed.
  Theorem weights_default (W : string -> world T) c id t : t_w t = false -> c_outliers c = false \/ (nmul n1 n0 = n0 /\ nmul n1 n1 = n1) ->
    Py.rmap (option_map unlabelled) (run_forecast W c id (ones t)) = Py.rmap (option_map unlabelled) (run_forecast W c id t).
  Proof.
    intros E O. unfold run_forecast. rewrite normalize_ones. destruct (normalize_df t) as [[f|]|e] eqn:En; cbn [Py.rmap rbind option_map]; [|reflexivity|reflexivity].
    apply normalize_flag in En as (Ew & _). rewrite E in Ew. change (has_src (unit f)) with (has_src f). destruct (negb (has_src f)).
    - pose proof (single_unit (W id) c id f Ew O) as X. destruct (run_forecast_single _ _ _ (unit f)) as [r'|e'], (run_forecast_single _ _ _ f) as [r|e]; cbn [Py.rmap rbind option_map] in *; try discriminate; congruence.
    - change (rows (unit f)) with (map one (rows f)). replace (map r_src (map one (rows f))) with (map r_src (rows f)) by now rewrite map_map.
      set (g := fun s => run_forecast_single (W s) c s (with_rows f (filter (fun r => String.eqb (r_src r) s) (rows f)))).
      set (g' := fun s => run_forecast_single (W s) c s (with_rows (unit f) (filter (fun r => String.eqb (r_src r) s) (map one (rows f))))).
      assert (X : Py.rmap (map unlabelled) (rmapM g' (dedup String.eqb (map r_src (rows f)))) = Py.rmap (map unlabelled) (rmapM g (dedup String.eqb (map r_src (rows f))))).
      { apply rmapM_same. intros s _. unfold g, g'. rewrite (filter_maps one _ (fun r => String.eqb (r_src r) s)) by reflexivity. apply (single_unit (W s) c s (with_rows f _) Ew O). }
      destruct (rmapM g' _) as [rs'|e'], (rmapM g _) as [rs|e]; cbn [Py.rmap rbind option_map] in *; try discriminate; [|congruence]. rewrite !aggregate_unlabelled. congruence.
  Qed.
  (* with outlier handling the results are the same, labels included *)
  Theorem single_unit_same W c s f : has_w f = false -> c_outliers c = true -> nmul n1 n0 = n0 -> nmul n1 n1 = n1 ->
    run_forecast_single W c s (unit f) = run_forecast_single W c s f.
  Proof.
    intros E O M0 M1. destruct (run_fits_unit W c s f E (or_intror (conj M0 M1))) as (w & long & F). rewrite O in F. unfold run_forecast_single. rewrite F. now destruct (run_fits W c s f).
  Qed.
  Theorem weights_default_same (W : string -> world T) c id t : t_w t = false -> c_outliers c = true -> nmul n1 n0 = n0 -> nmul n1 n1 = n1 ->
    run_forecast W c id (ones t) = run_forecast W c id t.
  Proof.
    intros E O M0 M1. unfold run_forecast. rewrite normalize_ones. destruct (normalize_df t) as [[f|]|e] eqn:En; cbn [Py.rmap rbind option_map]; [|reflexivity|reflexivity].
    apply normalize_flag in En as (Ew & _). rewrite E in Ew. change (has_src (unit f)) with (has_src f). destruct (negb (has_src f)); [now rewrite single_unit_same|].
    change (rows (unit f)) with (map one (rows f)). replace (map r_src (map one (rows f))) with (map r_src (rows f)) by now rewrite map_map.
    rewrite (rmapM_ext _ (fun s => run_forecast_single (W s) c s (with_rows f (filter (fun r => String.eqb (r_src r) s) (rows f))))); [reflexivity|].
    intros s _. rewrite (filter_maps one _ (fun r => String.eqb (r_src r) s)) by reflexivity. now apply (single_unit_same (W s) c s (with_rows f _)).
  Qed.
End Ones.

(* ---- no source column: one series ---- *)
Section Sourced.
  Context {T : Type} {N : NumOps T}.
  (* the table with a source column that contains the same name everywhere *)
  Definition sourced (a : string) (t : raw T) : raw T :=
    mkTable (t_y t) (t_w t) (t_x t) (t_date t) true (t_dtindex t) (map (rq (fun _ => a)) (t_rows t)).
  Lemma normalize_sourced a t : t_src t = false ->
    match normalize_df t, normalize_df (sourced a t) with
    | Ok (Some f), Ok (Some f') => blank f = blank f' /\ has_src f = false /\ has_src f' = true /\ rows f' <> [] /\ Forall (fun r => r_src r = a) (rows f')
    | Ok None, Ok None => True
    | Err e, Err e' => e = e'
    | _, _ => False
    end.
  Proof.
    intros S. destruct (t_rows t) as [|q0 l0] eqn:E.
    { unfold normalize_df. cbn [sourced t_rows]. rewrite E. exact I. }
    assert (Hn : t_rows t <> []) by congruence. destruct (t_y t) eqn:Y.
    2: { unfold normalize_df. cbn [sourced t_rows t_y]. rewrite E, Y. reflexivity. }
    set (t1 := mkTable (t_y t) (t_w t) (t_x t) (t_date t) true (t_dtindex t) (t_rows t)).
    change (sourced a t) with (rename (fun _ => a) t1). rewrite (normalize_one a t1 eq_refl Hn Y). change (prepare t1 (t_rows t1)) with (prepare t (t_rows t)).
    assert (X : normalize_df t = Py.rmap (fun ps => Some (mkFrame (has_date_after t) false (t_w t) (isort (fun u v => r_x u <=? r_x v) ps))) (prepare t (t_rows t))).
    { unfold normalize_df, groups_of. rewrite S, Y. destruct (t_rows t) as [|q1 l1] eqn:E1; [congruence|]. cbn [negb rmapM]. destruct (prepare t (q1 :: l1)) as [ps|e]; cbn [rbind Py.rmap concat]; [|reflexivity].
      rewrite app_nil_r. reflexivity. }
    assert (Ne : forall ps, prepare t (t_rows t) = Ok ps -> ps <> []).
    { intros ps Ep C. subst ps. assert (K : In q0 (t_rows t)) by (rewrite E; now left).
      rewrite Ep in X. cbn [Py.rmap rbind isort] in X. rewrite (normalize_eq t Hn Y), all_groups_meaning in X. apply (f_equal (fun o => match o with Ok (Some f) => rows f | _ => [] end)) in X. cbn [rows] in X. rewrite S in X. pose proof (isort_perm (row_leb false) (grouped false (meaning t))) as P.
      rewrite X in P. rewrite <- S, <- all_groups_meaning in P. rewrite all_groups_perm in P. apply Permutation_sym, Permutation_nil in P. apply meaning_nil in P. congruence. }
    rewrite X. destruct (prepare t (t_rows t)) as [ps|e]; cbn [Py.rmap rbind]; [|reflexivity]. specialize (Ne ps eq_refl). change (has_date_after t1) with (has_date_after t). change (t_w t1) with (t_w t).
    split; [unfold blank; cbn [has_date has_w rows]; now rewrite blank_re|]. split; [reflexivity|]. split; [reflexivity|]. cbn [rows]. split.
    - intros C. apply map_eq_nil in C. apply Ne. pose proof (isort_perm (fun u v => r_x u <=? r_x v) ps) as P. rewrite C in P. apply Permutation_nil. now apply Permutation_sym.
    - apply Forall_map. apply Forall_forall. reflexivity.
  Qed.
  Theorem source_default (W : string -> world T) c id a t : t_src t = false -> nameless_cfg c -> run_forecast W c id (sourced a t) = run_forecast W c a t.
  Proof.
    intros S Nc. pose proof (normalize_sourced a t S) as E. unfold run_forecast. destruct (normalize_df t) as [[f|]|e], (normalize_df (sourced a t)) as [[f'|]|e']; cbn [rbind]; try contradiction; try reflexivity; [|congruence].
    destruct E as (B & Sf & Sf' & Ne & F). rewrite Sf, Sf'. cbn [negb].
    assert (D : dedup String.eqb (map r_src (rows f')) = [a]).
    { destruct (rows f') as [|r l]; [congruence|]. inversion F as [|? ? Fr Fl]; subst. unfold dedup. cbn [map dedup_aux existsb]. f_equal. apply dedup_aux_seen. intros b Hb. apply in_map_iff in Hb as (r' & <- & I). rewrite Forall_forall in Fl. now apply Fl. }
    rewrite D. cbn [rmapM]. rewrite filter_all by (intros r I; rewrite Forall_forall in F; rewrite (F r I); apply String.eqb_refl).
    replace (with_rows f' (rows f')) with f' by now destruct f'. rewrite <- (single_blank (W a) c a f' Nc), <- B, (single_blank (W a) c a f Nc).
    destruct (run_forecast_single (W a) c a f) as [r|e]; cbn [rbind]; [|reflexivity]. now rewrite aggregate_one.
  Qed.
End Sourced.
