(* Names of series are only labels (C85). *)
From Coq Require Import ZArith String List Bool QArith_base Lia Permutation Sorted FunctionalExtensionality.
From Verif Require Import Num Py Cal Fmt Model ModelProofs ListProofs Base Dummy Fixed Naive Freq Normalize Aic Fit Interp Select Stats Outliers Pi Forecast.
From Verif Require Import StringProofs GroupProofs CacheProofs NormalizeProofs ForecastProofs ForecastProofs2 ShiftProofs CacheRunProofs.
Import ListNotations.
Local Open Scope string_scope.
Local Open Scope list_scope.
Local Open Scope Z_scope.

(* ---- the name under which a series is forecast ---- *)
(* the string without its first [n] characters *)
Fixpoint drop (n : nat) (s : string) : string :=
  match n, s with
  | S k, String _ r => drop k r
  | _, _ => s
  end.
Lemma drop_app a b : drop (String.length a) (a ++ b) = b.
Proof. induction a as [|c a IH]; [now destruct b|exact IH]. Qed.
Lemma eqb_prefix a x y : String.eqb (a ++ x) (a ++ y) = String.eqb x y.
Proof. induction a as [|c a IH]; [reflexivity|]. cbn [append String.eqb]. now rewrite Ascii.eqb_refl, IH. Qed.

Section Name.
  Context {T : Type} {N : NumOps T}.
  Variables s s' : string.
  (* a label that starts with the old name gets the new name instead *)
  Definition relabel (l : string) : string := (s' ++ drop (String.length s) l)%string.
  Lemma relabel_long w f r : relabel (long_name s w f r) = long_name s' w f r.
  Proof. unfold relabel, long_name. now rewrite drop_app. Qed.
  Definition starts (l : string) : Prop := exists k, l = (s ++ k)%string.
  Lemma relabel_eqb a b : starts a -> starts b -> String.eqb (relabel a) (relabel b) = String.eqb a b.
  Proof. intros (x & ->) (y & ->). unfold relabel. now rewrite !drop_app, !eqb_prefix. Qed.
  Lemma long_starts w f r : starts (long_name s w f r).
  Proof. eexists. reflexivity. Qed.

  (* rows of the tables under the new name *)
  Definition nd (r : drow T) : drow T := mkD (d_date r) (d_w r) (d_y r) (d_model r) s' (relabel (d_long r)) (d_actual r) (d_best r).
  Definition nmt (d : meta T) : meta T :=
    mkMeta s' (md_model d) (md_weights d) (md_range d) (md_freq d) (md_fit d) (md_cost d) (md_aicc d) (md_params d) (md_status d) (relabel (md_source_long d)) (md_obj d).
  Definition nm (m : mrow T) : mrow T := mkM (nmt (m_meta m)) (m_label m) (m_best m).
  Definition np (p : prow T) : prow T := mkP (p_date p) s' (p_model p) (p_actual p) (p_y p) (p_q p).
  Definition named_as (r : result T) : result T := mkResult (map np (rs_forecast r)) (map nd (rs_data r)) (map nm (rs_meta r)).

  Lemma fit_model_name E m f freq act uc : fit_model E m f freq s' act uc = Py.rmap nmt (fit_model E m f freq s act uc).
  Proof.
    unfold fit_model, fit_model_with, df_fit_model. destruct (range_label _ _ _) as [rg|e]; cbn [rbind Py.rmap]; [|reflexivity].
    match goal with |- context [if Nat.ltb ?a ?b then _ else _] => destruct (Nat.ltb a b) end; [unfold nmt; cbn; now rewrite relabel_long|].
    destruct (validate_input _ _ _ _) as [v|e]; cbn [rbind Py.rmap]; [|reflexivity]. destruct (negb v); [unfold nmt; cbn; now rewrite relabel_long|].
    destruct (simplify_model _ _ _ _ _) as [ms|e]; cbn [rbind Py.rmap]; [|reflexivity]. destruct (Nat.eqb (fm_n ms) 0).
    - destruct (get_residuals _ _ _ _ _ _ _ _) as [r|e]; cbn [rbind Py.rmap]; [|reflexivity]. destruct (get_aic_c _ _ _) as [k|e]; cbn [rbind Py.rmap]; [|reflexivity]. unfold nmt; cbn [md_source_long md_model md_weights md_range md_freq md_fit md_cost md_aicc md_params md_status md_obj]. now rewrite relabel_long.
    - destruct (optimize_least_squares _ _ _ _ _ _ _ _) as [[[su co] p]|e]; cbn [rbind Py.rmap]; [|reflexivity]. destruct (get_aic_c _ _ _) as [k|e]; cbn [rbind Py.rmap]; [|reflexivity]. unfold nmt; cbn [md_source_long md_model md_weights md_range md_freq md_fit md_cost md_aicc md_params md_status md_obj]. now rewrite relabel_long.
  Qed.
  Definition named_tag (d : meta T) : Prop := md_source d = s /\ starts (md_source_long d).
  Lemma fit_model_tag E m f freq act uc d : fit_model E m f freq s act uc = Ok d -> named_tag d.
  Proof.
    unfold fit_model, fit_model_with, df_fit_model. destruct (range_label _ _ _) as [rg|e]; cbn [rbind]; [|discriminate].
    match goal with |- context [if Nat.ltb ?a ?b then _ else _] => destruct (Nat.ltb a b) end; [intros [= <-]; split; [reflexivity|apply long_starts]|].
    destruct (validate_input _ _ _ _) as [v|e]; cbn [rbind]; [|discriminate]. destruct (negb v); [intros [= <-]; split; [reflexivity|apply long_starts]|].
    destruct (simplify_model _ _ _ _ _) as [ms|e]; cbn [rbind]; [|discriminate]. destruct (Nat.eqb (fm_n ms) 0).
    - destruct (get_residuals _ _ _ _ _ _ _ _) as [r|e]; cbn [rbind]; [|discriminate]. destruct (get_aic_c _ _ _) as [k|e]; cbn [rbind]; [|discriminate]. intros [= <-]; split; [reflexivity|apply long_starts].
    - destruct (optimize_least_squares _ _ _ _ _ _ _ _) as [[[su co] p]|e]; cbn [rbind]; [|discriminate]. destruct (get_aic_c _ _ _) as [k|e]; cbn [rbind]; [|discriminate]. intros [= <-]; split; [reflexivity|apply long_starts].
  Qed.

  Definition nf (p : meta T * string * list (drow T)) : meta T * string * list (drow T) := (nmt (fst (fst p)), snd (fst p), map nd (snd p)).
  Definition row_tag (r : drow T) : Prop := d_src r = s /\ starts (d_long r).
  Definition fit_tag (p : meta T * string * list (drow T)) : Prop := named_tag (fst (fst p)) /\ Forall row_tag (snd p).
  Lemma fit_one_name W c mode freq add u act o x0 m :
    fit_one W c s' mode freq add u act o x0 m = Py.rmap nf (fit_one W c s mode freq add u act o x0 m).
  Proof.
    unfold fit_one. rewrite fit_model_name. destruct (fit_model _ _ _ _ _ _ _) as [d|e]; cbn [rbind Py.rmap]; [|reflexivity]. change (md_fit (nmt d)) with (md_fit d). change (md_params (nmt d)) with (md_params d).
    destruct (md_fit d); [|reflexivity]. destruct (extrapolate_model _ _ _ _ _ _ _) as [g|e]; cbn [rbind Py.rmap]; [|reflexivity].
    unfold nf. cbn [fst snd]. do 2 f_equal. unfold fcast_clean. now rewrite map_map.
  Qed.
  Lemma fit_one_tag W c mode freq add u act o x0 m p : fit_one W c s mode freq add u act o x0 m = Ok p -> fit_tag p.
  Proof.
    unfold fit_one. destruct (fit_model _ _ _ _ _ _ _) as [d|e] eqn:Ef; cbn [rbind]; [|discriminate]. apply fit_model_tag in Ef.
    destruct (md_fit d); [|intros [= <-]; split; [exact Ef|constructor]]. destruct (extrapolate_model _ _ _ _ _ _ _) as [g|e]; cbn [rbind]; [|discriminate]. intros [= <-]. split; [exact Ef|].
    cbn [snd]. apply Forall_forall. intros r I. apply in_map_iff in I as (q & <- & _). split; [reflexivity|exact (proj2 Ef)].
  Qed.
  Lemma rmapM_Forall {A B} (h : A -> res B) (P : B -> Prop) l r : (forall a b, h a = Ok b -> P b) -> rmapM h l = Ok r -> Forall P r.
  Proof.
    intros E. revert r. induction l as [|a l IH]; intros r; cbn [rmapM]; [intros [= <-]; constructor|]. destruct (h a) as [b|] eqn:Eb; cbn [rbind]; [|discriminate].
    destruct (rmapM h l) as [bs|]; cbn [rbind]; [|discriminate]. intros [= <-]. constructor; [now apply (E a)|now apply IH].
  Qed.
  Lemma run_fits_name W c f :
    run_fits W c s' f = Py.rmap (fun p => (fst (fst p), map nd (snd (fst p)), map nf (snd p))) (run_fits W c s f) /\
    forall w acts fits, run_fits W c s f = Ok (w, acts, fits) -> Forall row_tag acts /\ Forall fit_tag fits.
  Proof.
    unfold run_fits. destruct (prepared c f) as [f1|e]; cbn [Py.rmap rbind]; [|split; [reflexivity|discriminate]].
    destruct (input_range _) as [rg|e]; cbn [Py.rmap rbind]; [|split; [reflexivity|discriminate]]. destruct (candidate_lists c _) as [add mult].
    destruct (final_mode W c _) as [mode|e]; cbn [Py.rmap rbind]; [|split; [reflexivity|discriminate]]. destruct (model_actuals f _) as [act|e]; cbn [Py.rmap rbind]; [|split; [reflexivity|discriminate]].
    destruct (zmin_opt (map (place _) _)) as [start|]; [|split; [reflexivity|discriminate]]. destruct (zmax_opt _) as [stop|]; [|split; [reflexivity|discriminate]].
    destruct (zmin_opt (map r_x _)) as [x0|]; [|split; [reflexivity|discriminate]]. destruct (all_models c mode _ add mult) as [|m0 ms]; [split; [reflexivity|discriminate]|].
    set (o := if has_date f then ODate start stop else ONum start stop).
    rewrite (rmapM_maps (fit_one W c s mode (detect_freq_frame f) add (positive (with_weights f1)) act o x0) _ nf) by (intros m _; apply fit_one_name).
    destruct (rmapM _ _) as [fits|e] eqn:Er; cbn [Py.rmap rbind]; [|split; [reflexivity|discriminate]]. split.
    - cbn [fst snd]. do 3 f_equal. unfold actuals_clean. rewrite map_map. apply map_ext. intros r. unfold nd. cbn. now rewrite relabel_long.
    - intros w acts fits' [= <- <- <-]. split.
      + apply Forall_forall. intros r I. apply in_map_iff in I as (q & <- & _). split; [reflexivity|apply long_starts].
      + eapply rmapM_Forall; [|exact Er]. intros m p Ep. exact (fit_one_tag _ _ _ _ _ _ _ _ _ _ _ Ep).
  Qed.
  Lemma best_name W l : sorts_scores W -> best_fit W (map nmt l) = option_map nmt (best_fit W l).
  Proof.
    intros Hs. unfold best_fit. rewrite (filter_maps nmt _ (fun d => md_fit d)) by reflexivity. destruct (Hs (filter (fun d => md_fit d) l)) as (_ & E). rewrite E by reflexivity.
    now destruct (w_sort W _).
  Qed.
  Lemma is_best_name b long model : (forall d, b = Some d -> named_tag d) -> starts long ->
    is_best (option_map nmt b) s' (relabel long) model = is_best b s long model.
  Proof.
    intros Tb St. destruct b as [d|]; [|reflexivity]. destruct (Tb d eq_refl) as (E1 & E2). cbn [option_map is_best nmt md_source md_source_long md_model].
    now rewrite E1, !String.eqb_refl, relabel_eqb.
  Qed.
  Lemma assemble_name W al w acts fits : sorts_scores W -> Forall row_tag acts -> Forall fit_tag fits ->
    assemble W al w (map nd acts) (map nf fits) = (map nd (fst (assemble W al w acts fits)), map nm (snd (assemble W al w acts fits))).
  Proof.
    intros Hs Fa Ff. unfold assemble. replace (map (fun p => fst (fst p)) (map nf fits)) with (map nmt (map (fun p => fst (fst p)) fits)) by now rewrite !map_map.
    rewrite best_name by exact Hs. set (b := best_fit W (map (fun p => fst (fst p)) fits)).
    assert (Tb : forall d, b = Some d -> named_tag d).
    { intros d E. apply best_in in E; [|exact Hs]. apply in_map_iff in E as (p & <- & I). rewrite Forall_forall in Ff. now apply Ff. }
    assert (ED : map (flag_data (option_map nmt b)) (map nd acts ++ concat (map snd (map nf fits))) = map nd (map (flag_data b) (acts ++ concat (map snd fits)))).
    { replace (concat (map snd (map nf fits))) with (map nd (concat (map snd fits))) by (now rewrite concat_map, !map_map).
      rewrite <- map_app, !map_map. apply map_ext_in. intros r I.
      assert (Tr : row_tag r).
      { apply in_app_or in I as [I|I]; [rewrite Forall_forall in Fa; now apply Fa|]. apply in_concat in I as (q & Iq & I). apply in_map_iff in Iq as (p & <- & Ip).
        rewrite Forall_forall in Ff. destruct (Ff p Ip) as (_ & F). rewrite Forall_forall in F. now apply F. }
      destruct Tr as (R1 & R2). unfold flag_data, nd. cbn [d_date d_w d_y d_model d_src d_long d_actual d_best]. rewrite is_best_name by assumption. now rewrite R1. }
    assert (EM : map (fun p => flag_meta (option_map nmt b) w (fst (fst p)) (snd (fst p))) (map nf fits) = map nm (map (fun p => flag_meta b w (fst (fst p)) (snd (fst p))) fits)).
    { rewrite !map_map. apply map_ext_in. intros p I. rewrite Forall_forall in Ff. destruct (Ff p I) as ((R1 & R2) & _). unfold flag_meta, nm, nf. cbn [fst snd m_meta m_label m_best].
      change (md_source (nmt (fst (fst p)))) with s'. change (md_source_long (nmt (fst (fst p)))) with (relabel (md_source_long (fst (fst p)))). change (md_model (nmt (fst (fst p)))) with (md_model (fst (fst p))).
      rewrite is_best_name by assumption. now rewrite R1. }
    rewrite ED, EM. destruct al; [reflexivity|]. cbn [fst snd]. f_equal; apply filter_maps; reflexivity.
  Qed.

  Lemma usable_nd l : usable_actuals (map nd l) = usable_actuals l.
  Proof.
    unfold usable_actuals. rewrite (filter_maps nd _ (fun r => nltb n0 (d_w r) && d_actual r)) by reflexivity.
    rewrite (filter_maps nd _ (fun r => d_actual r && with_value r)) by reflexivity. rewrite map_map. now apply flat_maps.
  Qed.
  Lemma residuals_nd acts l : residuals acts (map nd l) = residuals acts l.
  Proof. unfold residuals. f_equal. rewrite (filter_maps nd _ (fun r => negb (d_actual r) && with_value r)) by reflexivity. now apply flat_maps. Qed.
  Lemma percentiles_nd l a q1 q2 : add_percentiles (map nd l) a q1 q2 = Py.rmap (map np) (add_percentiles l a q1 q2).
  Proof. unfold add_percentiles. destruct (_ && _ && _ && _); [|reflexivity]. cbn [Py.rmap rbind]. f_equal. rewrite enumerate_maps, !map_map. reflexivity. Qed.
  Lemma pi_single_nd draw n k q1 q2 hs hw hb hd l :
    pi_single draw n k q1 q2 (mkPT hs hw hb hd (map nd l)) = Py.rmap (map np) (pi_single draw n k q1 q2 (mkPT hs hw hb hd l)).
  Proof.
    unfold pi_single. cbn [pt_best pt_rows pt_dates pt_w pt_src].
    replace (if hb then filter (fun r => d_actual r || d_best r) (map nd l) else map nd l) with (map nd (if hb then filter (fun r => d_actual r || d_best r) l else l))
      by (destruct hb; [symmetry; now apply filter_maps|reflexivity]).
    generalize (if hb then filter (fun r => d_actual r || d_best r) l else l). clear l. intros l. rewrite map_map. change (fun x => d_date (nd x)) with (@d_date T).
    destruct (if hd then _ else _) as [fd|e]; cbn [rbind]; [|reflexivity].
    rewrite (filter_maps nd _ (fun r => d_actual r && with_value r)) by reflexivity. rewrite (existsb_map nd _ (fun r => neqb (d_w r) n0)) by reflexivity.
    rewrite usable_nd, map_map. change (fun x => (d_date (nd x), d_y (nd x))) with (fun x : drow T => (d_date x, d_y x)).
    match goal with |- rbind ?A _ = Py.rmap _ (rbind ?B _) => destruct A as [acts|e] end; [|reflexivity]. cbn [rbind Py.rmap]. rewrite residuals_nd. destruct (residuals acts l) as [|r0 rr].
    { destruct (negb hs); [reflexivity|]. destruct l as [|x l]; [reflexivity|]. cbn [map Py.rmap rbind]. f_equal. now rewrite !map_map. }
    destruct (zmax_opt (map fst acts)) as [last|]; [|reflexivity].
    rewrite (filter_maps nd _ (fun r => negb (d_actual r) && (last <? d_date r))) by reflexivity.
    rewrite (filter_maps nd _ (fun r => negb (d_actual r) && (d_date r <=? last))) by reflexivity.
    rewrite !map_length, !percentiles_nd. match goal with |- context [add_percentiles ?a ?b q1 q2] => destruct (add_percentiles a b q1 q2) as [fut|e] end; [|reflexivity]. cbn [Py.rmap rbind].
    match goal with |- context [add_percentiles ?a ?b q1 q2] => destruct (add_percentiles a b q1 q2) as [pas|e] end; [|reflexivity]. cbn [Py.rmap rbind]. f_equal. now rewrite !map_app, !map_map.
  Qed.
  Lemma one_source (a : string) l : Forall (fun b => b = a) l -> (length (dedup String.eqb l) <= 1)%nat.
  Proof.
    intros F. pose proof (dedup_nodup String.eqb str_eqb_spec l) as Nd. assert (A : forall b, In b (dedup String.eqb l) -> b = a).
    { intros b I. rewrite (dedup_in String.eqb str_eqb_spec) in I. rewrite Forall_forall in F. now apply F. }
    destruct (dedup String.eqb l) as [|x [|y k]]; cbn; [lia|lia|]. exfalso. inversion Nd as [|? ? Nx _]; subst. apply Nx. left. rewrite (A x), (A y); cbn; auto.
  Qed.
  Lemma get_pi_one (a : string) draw n k q1 q2 wd hs hw hb hd (l : list (drow T)) : Forall (fun r => d_src r = a) l ->
    get_pi (fun _ => draw) n k q1 q2 wd (mkPT hs hw hb hd l)
    = rbind (match k with Some n => Ok n | None => days_from_freq wd end) (fun nc => pi_single draw n nc q1 q2 (mkPT hs hw hb hd l)).
  Proof.
    intros F. unfold get_pi. destruct (match k with Some n0 => Ok n0 | None => days_from_freq wd end) as [nc|e]; cbn [rbind]; [|reflexivity]. cbn [pt_src pt_w pt_best pt_dates pt_rows].
    assert (L : (length (dedup String.eqb (map d_src l)) <= 1)%nat) by (apply (one_source a); now apply Forall_map).
    rewrite <- (Permutation_length (isort_perm str_leb (dedup String.eqb (map d_src l)))). replace (Nat.ltb 1 (length (dedup String.eqb (map d_src l)))) with false by (symmetry; apply Nat.ltb_ge; exact L).
    now rewrite andb_false_r.
  Qed.
  Theorem single_name W c f : sorts_scores W -> run_forecast_single W c s' f = Py.rmap named_as (run_forecast_single W c s f).
  Proof.
    intros Hs. destruct (run_fits_name W c f) as (E & F). unfold run_forecast_single. rewrite E.
    destruct (run_fits W c s f) as [[[w acts] fits]|e] eqn:Er; cbn [Py.rmap rbind fst snd]; [|reflexivity]. destruct (F w acts fits eq_refl) as (Fa & Ff).
    rewrite (assemble_name W (c_all c) w acts fits Hs Fa Ff). pose proof (data_source _ _ _ _ _ _ _ (c_all c) Er) as Sd. destruct (assemble W (c_all c) w acts fits) as [data metas]. cbn [fst snd] in *.
    rewrite (get_pi_one s') by (apply Forall_map; apply Forall_forall; reflexivity). rewrite (get_pi_one s) by (now apply Forall_forall).
    destruct (match c_ncum c with Some n => Ok n | None => days_from_freq (c_widen c) end) as [nc|e]; cbn [rbind Py.rmap]; [|reflexivity].
    rewrite pi_single_nd. destruct (pi_single _ _ _ _ _ _) as [pi|e]; reflexivity.
  Qed.
End Name.

(* ---- the source column of a single series ---- *)
Section Blank.
  Context {T : Type} {N : NumOps T}.
  Definition br (r : row T) : row T := mkRow (r_date r) "" (r_x r) (r_y r) (r_w r).
  (* the table without its source names *)
  Definition blank (f : frame T) : frame T := mkFrame (has_date f) false (has_w f) (map br (rows f)).
  Lemma dates_br l : map r_date (map br l) = map r_date l. Proof. now rewrite map_map. Qed.
  Lemma xs_br l : map r_x (map br l) = map r_x l. Proof. now rewrite map_map. Qed.
  Lemma ys_br l : map r_y (map br l) = map r_y l. Proof. now rewrite map_map. Qed.
  Lemma ws_br l : map r_w (map br l) = map r_w l. Proof. now rewrite map_map. Qed.
  Lemma place_blank f : map (place (blank f)) (rows (blank f)) = map (place f) (rows f).
  Proof. cbn [blank rows]. now rewrite map_map. Qed.
  Lemma detect_blank f : detect_freq_frame (blank f) = detect_freq_frame f.
  Proof. unfold detect_freq_frame. cbn [blank has_date rows]. now rewrite dates_br. Qed.
  Lemma start_blank d f : start_filter d (blank f) = blank (start_filter d f).
  Proof. destruct d as [d|]; [|reflexivity]. unfold start_filter. cbn [blank has_date]. destruct (has_date f) eqn:D; [|reflexivity]. unfold with_rows, blank. cbn. rewrite D. f_equal. now apply filter_maps. Qed.
  Lemma outliers_blank f : model_outliers (blank f) = model_outliers f.
  Proof. unfold model_outliers. cbn [blank has_date rows]. rewrite ys_br, map_map, map_length. reflexivity. Qed.
  Lemma spikes_blank f : ignore_spikes (blank f) = Py.rmap blank (ignore_spikes f).
  Proof.
    unfold ignore_spikes. rewrite outliers_blank. destruct (model_outliers f) as [[st sp]|e]; cbn [rbind Py.rmap]; [|reflexivity]. f_equal. unfold blank. cbn [has_date has_src has_w rows]. f_equal.
    rewrite combine_map_left, !map_map. reflexivity.
  Qed.
  Lemma prepared_blank c f : prepared c (blank f) = Py.rmap blank (prepared c f).
  Proof. unfold prepared. rewrite start_blank. destruct (c_outliers c); [|reflexivity]. apply spikes_blank. Qed.
  Lemma with_weights_blank f : with_weights (blank f) = blank (with_weights f).
  Proof. unfold with_weights. cbn [blank has_w]. destruct (has_w f) eqn:W; [reflexivity|]. unfold blank. cbn. f_equal. now rewrite !map_map. Qed.
  Lemma positive_blank f : positive (blank f) = blank (positive f).
  Proof. unfold positive, with_rows, blank. cbn. f_equal. now apply filter_maps. Qed.
  Lemma input_weights_blank E f : input_weights E (blank f) = input_weights E f.
  Proof. unfold input_weights. cbn [blank has_w rows]. now rewrite ws_br. Qed.
  Lemma weighted_blank f : weighted_dates (blank f) = weighted_dates f.
  Proof. unfold weighted_dates. cbn [blank has_w rows]. destruct (has_w f); [|apply dates_br]. rewrite (filter_maps br _ (fun r => nltb n0 (r_w r))) by reflexivity. apply dates_br. Qed.
  Lemma candidates_blank c f : candidate_lists c (blank f) = candidate_lists c f.
  Proof. unfold candidate_lists, default_trend, use_ramp, use_calendar. change (has_date (blank f)) with (has_date f). now rewrite weighted_blank. Qed.
  Lemma range_blank f : input_range (blank f) = input_range f.
  Proof. unfold input_range. rewrite place_blank. reflexivity. Qed.
  Lemma actuals_blank f s l : actuals_clean (blank f) s l = actuals_clean f s l.
  Proof. unfold actuals_clean. cbn [blank rows]. now rewrite map_map. Qed.

  Lemma lookup_br key rs t : (forall r, key (br r) = key r) -> Interp.lookup key (map br rs) t = option_map br (Interp.lookup key rs t).
  Proof. intros K. apply find_map. intros r. now rewrite K. Qed.
  Lemma column_br (get : row T -> T) key rs grid : (forall r, key (br r) = key r) -> (forall r, get (br r) = get r) ->
    Interp.column get (map (Interp.lookup key (map br rs)) grid) = Interp.column get (map (Interp.lookup key rs) grid).
  Proof. intros K E. unfold Interp.column. rewrite !map_map. apply map_ext. intros t. rewrite lookup_br by exact K. destruct (Interp.lookup key rs t); [apply E|reflexivity]. Qed.
  Lemma src_column_br key rs grid : (forall r, key (br r) = key r) ->
    src_column (map (Interp.lookup key (map br rs)) grid) = map (fun _ => "") (src_column (map (Interp.lookup key rs) grid)).
  Proof. intros K. unfold src_column. rewrite !map_map. apply map_ext. intros t. rewrite lookup_br by exact K. now destruct (Interp.lookup key rs t). Qed.
  Lemma mk_rows_br ds ss xs (ys ws : list T) : mk_rows ds (map (fun _ => "") ss) xs ys ws = map br (mk_rows ds ss xs ys ws).
  Proof.
    unfold mk_rows. rewrite map_map. revert ss xs ys ws. induction ds as [|d ds IH]; intros [|u ss] [|x xs] [|y ys] [|w ws]; cbn [map combine]; try reflexivity. f_equal. apply IH.
  Qed.
  Lemma interpolate_blank b f : interpolate_df b (blank f) = Py.rmap blank (interpolate_df b f).
  Proof.
    unfold interpolate_df. change (has_date (blank f)) with (has_date f). change (has_w (blank f)) with (has_w f). change (rows (blank f)) with (map br (rows f)).
    rewrite xs_br, dates_br. destruct (negb (has_date f)).
    - destruct (regular (map r_x (rows f))); [reflexivity|]. destruct (has_dup Z.eqb (map r_x (rows f))); [reflexivity|].
      destruct (zmin_opt (map r_x (rows f))) as [lo|], (zmax_opt (map r_x (rows f))) as [hi|]; try reflexivity. cbn [Py.rmap rbind]. unfold blank. cbn [has_date has_src has_w rows].
      rewrite !(column_br _ r_x) by reflexivity. rewrite src_column_br by reflexivity. do 2 f_equal. rewrite <- mk_rows_br. f_equal. rewrite !map_map. apply map_ext. intros t. rewrite lookup_br by reflexivity.
      now destruct (Interp.lookup r_x (rows f) t).
    - match goal with |- context [if ?b then Ok _ else _] => destruct b end; [reflexivity|]. destruct (has_dup Z.eqb (map r_date (rows f))); [reflexivity|].
      destruct (zmin_opt (map r_date (rows f))) as [lo|], (zmax_opt (map r_date (rows f))) as [hi|]; try reflexivity.
      destruct (asfreq_range lo hi (detect_freq (map r_date (rows f)))) as [grid|e]; cbn [Py.rmap rbind]; [|reflexivity].
      rewrite !(column_br _ r_date) by reflexivity. rewrite src_column_br by reflexivity.
      destruct (to_ints _) as [xs|e]; cbn [Py.rmap rbind]; [|reflexivity]. unfold blank. cbn [has_date has_src has_w rows]. do 2 f_equal. apply mk_rows_br.
  Qed.
  Lemma model_actuals_blank f u : model_actuals (blank f) (blank u) = Py.rmap blank (model_actuals f u).
  Proof.
    unfold model_actuals. rewrite interpolate_blank. destruct (interpolate_df false f) as [g|e]; cbn [Py.rmap rbind]; [|reflexivity]. f_equal. unfold blank.
    cbn [has_date has_src has_w rows]. f_equal. rewrite (isort_map br _ (fun a b => r_x a <=? r_x b)) by reflexivity. rewrite map_flat. apply flat_maps. intros r. rewrite map_map.
    rewrite (filter_maps br _ (fun u0 => r_x u0 =? r_x r)) by reflexivity. rewrite ws_br. reflexivity.
  Qed.

  (* ---- models that do not look at the names in the table of actuals ---- *)
  Definition nameless (m : fmodel T) : Prop :=
    forall x d p mode act cache, fm_f m x d p mode (mkKw (option_map blank act) cache) = fm_f m x d p mode (mkKw act cache).
  Lemma nameless_combine sep op mode m1 m2 : nameless m1 -> nameless m2 -> nameless (combine_models sep op mode m1 m2).
  Proof.
    intros S1 S2 x d p md act cache. cbn [combine_models mk_model fm_f]. unfold f_combine. destruct (p_slice (fm_n m1) p) as [[p1 p2]|]; [|reflexivity]. cbn [rbind]. now rewrite S1, S2.
  Qed.
  Lemma nameless_madd m1 m2 : nameless m1 -> nameless m2 -> nameless (madd m1 m2).
  Proof. intros S1 S2. unfold madd. destruct (is_null m1); [exact S2|]. destruct (is_null m2); [exact S1|]. now apply nameless_combine. Qed.
  Lemma nameless_mmul m1 m2 : nameless m1 -> nameless m2 -> nameless (mmul m1 m2).
  Proof. intros S1 S2. unfold mmul. destruct (is_null m1); [exact S2|]. destruct (is_null m2); [exact S1|]. now apply nameless_combine. Qed.
  Lemma nameless_fix fmt m fixed m' : fix_params_fmodel fmt m fixed = Ok m' -> nameless m'.
  Proof. unfold fix_params_fmodel. destruct (negb _); [discriminate|]. intros [= <-] x d p md act cache. reflexivity. Qed.
  Lemma nameless_get_fixed m fixed b m' : nameless m -> get_fixed_model m fixed b = Ok m' -> nameless m'.
  Proof. intros S1. unfold get_fixed_model. destruct (Nat.eqb (fm_n m) 0); [now intros [= <-]|]. destruct (negb _); [discriminate|]. intros [= <-] x d p md act cache. reflexivity. Qed.
  Lemma nameless_simplify fmt m x y d m' : nameless m -> simplify_model fmt m x y d = Ok m' -> nameless m'.
  Proof.
    intros S1. unfold simplify_model. destruct (fm_bounds m x y d) as [b|e]; [|discriminate]. cbn [rbind]. destruct (negb _); [discriminate|]. destruct (equal_bounds b) as [|i l]; [now intros [= <-]|].
    destruct (negb (b_nd b)); [discriminate|]. destruct (existsb _ _); [discriminate|]. destruct (fancy_get _ _) as [v|e]; [|discriminate]. cbn [rbind]. apply nameless_fix.
  Qed.
  Lemma outer_merge_br wd rs qs : outer_merge wd (map br rs) qs = outer_merge (T := T) wd rs qs.
  Proof.
    unfold outer_merge. f_equal; [now apply flat_maps|]. f_equal. apply filter_ext. intros q. f_equal. now apply existsb_map.
  Qed.
  Lemma dedup_x_br l : dedup_key Z.eqb r_x (map br l) = map br (dedup_key Z.eqb r_x l).
  Proof. now apply dedup_map. Qed.
  Lemma nameless_naive : nameless model_naive.
  Proof.
    intros x d p mode act cache. cbn [model_naive mk_model fm_f]. unfold f_naive. cbn [kw_cache kw_actuals]. destruct cache; [|reflexivity]. destruct act as [df|]; [|reflexivity]. cbn [option_map blank has_date rows].
    destruct (requests x d) as [qs|e]; cbn [rbind]; [|reflexivity]. now rewrite dedup_x_br, outer_merge_br.
  Qed.
  Definition bp (p : row T * T) : row T * T := (br (fst p), snd p).
  Lemma fillna_br rs : fillna_wday (map br rs) = map bp (fillna_wday rs).
  Proof.
    unfold fillna_wday. rewrite <- (isort_map bp (fun a b => r_x (fst a) <=? r_x (fst b)) (fun a b => r_x (fst a) <=? r_x (fst b))) by reflexivity. f_equal.
    rewrite map_flat. apply flat_map_ext. intros w. unfold wday_group. rewrite (filter_maps br _ (fun r => weekday (r_date r) =? Z.of_nat w)) by reflexivity. rewrite ys_br. apply combine_map_left.
  Qed.
  Lemma last_week_br m w : last_week (map bp m) w = last_week m w.
  Proof.
    unfold last_week. rewrite <- map_rev, (find_map bp _ (fun p => weekday (r_date (fst p)) =? w)) by reflexivity. destruct (find _ (rev m)) as [(r, y)|]; reflexivity.
  Qed.
  Lemma nameless_snaive : nameless model_snaive_wday.
  Proof.
    intros x d p mode act cache. cbn [model_snaive_wday mk_model fm_f]. unfold f_snaive_wday. cbn [kw_cache kw_actuals]. destruct cache; [|reflexivity]. destruct act as [df|]; [|reflexivity].
    cbn [option_map blank has_date rows]. destruct (negb (has_date df)); [reflexivity|]. destruct d as [d|]; [|reflexivity]. destruct (requests x (Some d)) as [qs|e]; cbn [rbind]; [|reflexivity].
    rewrite dedup_x_br, fillna_br. set (m := fillna_wday (dedup_key Z.eqb r_x (rows df))). do 3 f_equal.
    - now apply flat_maps.
    - rewrite map_map. change (fun x0 => r_date (fst (bp x0))) with (fun p0 : row T * T => r_date (fst p0)). apply map_ext. intros q. apply last_week_br.
  Qed.
  (* every shipped model *)
  Lemma nameless_shipped : Forall nameless
    [model_null; model_constant; model_linear; model_linear_nondec; model_quasilinear; model_exp; model_decay; model_step; model_two_steps; model_sigmoid_step;
     model_sigmoid; model_ramp; model_spike; model_season_wday; model_season_month; model_season_month_old; model_season_fourier_yearly; model_naive; model_snaive_wday].
  Proof. repeat (constructor; [first [apply nameless_naive|apply nameless_snaive|intros x d p mode act cache; reflexivity]|]). constructor. Qed.
  Lemma nameless_dummy name f : nameless (dummy_model_of name f).
  Proof. intros x d p mode act cache. reflexivity. Qed.

  (* ---- fits ---- *)
  Lemma residuals_blank p m x y d w act cache : nameless m -> get_residuals p m x y d w (option_map blank act) cache = get_residuals p m x y d w act cache.
  Proof. intros S1. unfold get_residuals, call. now rewrite S1. Qed.
  Lemma optimize_blank E m x y d w act uc : nameless m -> optimize_least_squares E m x y d w (option_map blank act) uc = optimize_least_squares E m x y d w act uc.
  Proof.
    intros S1. unfold optimize_least_squares. destruct (fm_init _ _ _ _ _ _) as [g|e]; [|reflexivity]. cbn [rbind]. destruct (fm_bounds _ _ _ _) as [b|e]; [|reflexivity]. cbn [rbind].
    destruct (validate_initial_guess g b) as [i|e]; [|reflexivity]. cbn [rbind]. destruct (negb i); [reflexivity|].
    destruct (if uc then init_cache m x d else Ok []) as [cache|e]; [|reflexivity]. cbn [rbind].
    replace (fun p => get_residuals (Some p) m x y d w (option_map blank act) cache) with (fun p => get_residuals (Some p) m x y d w act cache); [reflexivity|].
    apply functional_extensionality. intros p. symmetry. now apply residuals_blank.
  Qed.
  Lemma with_y_br l : with_y (map br l) = map br (with_y l). Proof. now apply filter_maps. Qed.
  Lemma with_weight_br hw l : with_weight hw (map br l) = map br (with_weight hw l).
  Proof. destruct hw; [|reflexivity]. unfold with_weight. rewrite map_map. rewrite <- (filter_maps br (fun r => nltb n0 (r_w r)) (fun r => nltb n0 (r_w r))) by reflexivity. now rewrite map_map. Qed.
  Lemma fit_rows_blank f : fit_rows (blank f) = blank (fit_rows f).
  Proof.
    unfold fit_rows. cbn [blank has_date has_src has_w rows]. rewrite with_y_br, with_weight_br, xs_br. destruct (has_dup Z.eqb _); [|reflexivity]. unfold blank. cbn [has_date has_src has_w rows]. f_equal.
    rewrite !map_map. apply map_ext. intros r. unfold count_x. rewrite (filter_maps br _ (fun r0 => r_x r0 =? r_x r)) by reflexivity. rewrite map_length. reflexivity.
  Qed.
  Lemma weights_label_blank E f : weights_label E (blank f) = weights_label E f.
  Proof. unfold weights_label. cbn [blank has_w rows]. now rewrite with_y_br, ws_br. Qed.
  Lemma fit_model_blank E m f freq s act uc : nameless m -> fit_model E m (blank f) freq s (option_map blank act) uc = fit_model E m f freq s act uc.
  Proof.
    intros S1. unfold fit_model, fit_model_with. rewrite weights_label_blank, fit_rows_blank. set (df := fit_rows f). cbn [blank has_date has_w rows]. rewrite ys_br, ws_br, dates_br, !(map_length br).
    replace (map (fun r => nofZ (r_x r)) (map br (rows df))) with (map (fun r => nofZ (r_x r)) (rows df)) by now rewrite map_map.
    destruct (range_label _ _ _) as [rg|e]; cbn [rbind]; [|reflexivity].
    match goal with |- context [if Nat.ltb ?a ?b then _ else _] => destruct (Nat.ltb a b) end; [reflexivity|].
    destruct (validate_input _ _ _ _) as [v|e]; cbn [rbind]; [|reflexivity]. destruct (negb v); [reflexivity|].
    destruct (simplify_model _ _ _ _ _) as [ms|e] eqn:Es; cbn [rbind]; [|reflexivity]. pose proof (nameless_simplify _ _ _ _ _ _ S1 Es) as S2.
    destruct (Nat.eqb (fm_n ms) 0); [now rewrite residuals_blank|now rewrite optimize_blank].
  Qed.
  Lemma fit_one_blank W c s mode freq add u act o x0 m : nameless m -> fit_one W c s mode freq add (blank u) (blank act) o x0 m = fit_one W c s mode freq add u act o x0 m.
  Proof.
    intros S1. unfold fit_one. pose proof (fit_model_blank (w_env W) m u freq s (Some act) (c_cache c) S1) as E. cbn [option_map] in E. rewrite E. clear E.
    destruct (fit_model _ _ _ _ _ _ _) as [d|e]; cbn [rbind]; [|reflexivity]. destruct (md_fit d); [|reflexivity].
    assert (X : forall p, extrapolate_model m p o freq (c_years c) x0 (Some (blank act)) = extrapolate_model m p o freq (c_years c) x0 (Some act)); [|now rewrite X].
    intros p. unfold extrapolate_model, call. destruct (s_x_extrapolate _ _ _ _ _) as [g|e]; cbn [rbind]; [|reflexivity]. now rewrite (S1 _ _ _ _ (Some act)).
  Qed.
  Lemma nameless_linear : nameless model_linear. Proof. intros x d p mode act cache. reflexivity. Qed.
  (* automatic choice between additive and multiplicative models *)
  Lemma mult_corr_blank E f : mult_corr E (blank f) = mult_corr E f.
  Proof.
    assert (L : fit_linear E (blank f) = Py.rmap (map bp) (fit_linear E f)).
    { unfold fit_linear. change (rows (blank f)) with (map br (rows f)). rewrite map_length. destruct (Nat.ltb (length (rows f)) 4); [reflexivity|].
      pose proof (fit_model_blank E model_linear f (Some "W") "test" None true nameless_linear) as X. cbn [option_map] in X. rewrite X. clear X.
      destruct (fit_model _ _ _ _ _ _ _) as [d|e]; cbn [rbind Py.rmap]; [|reflexivity]. rewrite xs_br. destruct (zmin_opt _) as [lo|]; [|reflexivity]. destruct (zmax_opt _) as [hi|]; [|reflexivity].
      destruct (extrapolate_model _ _ _ _ _ _ _) as [g|e]; cbn [rbind Py.rmap]; [|reflexivity]. f_equal. now rewrite !map_map. }
    unfold mult_corr. rewrite L. destruct (fit_linear E f) as [l|e]; cbn [rbind Py.rmap]; [|reflexivity].
    assert (M : monthly (map bp l) = monthly l); [|now rewrite M].
    unfold monthly. rewrite map_map. change (fun x => month_no (r_date (fst (bp x)))) with (fun p : row T * T => month_no (r_date (fst p))). apply map_ext. intros k.
    rewrite (filter_maps bp _ (fun p => month_no (r_date (fst p)) =? k)) by reflexivity. rewrite !map_map. reflexivity.
  Qed.
  Lemma final_mode_blank W c f : final_mode W c (blank f) = final_mode W c f.
  Proof.
    unfold final_mode. destruct (String.eqb _ _); [|reflexivity]. assert (M : is_multiplicative (mult_corr (w_env W)) (blank f) = is_multiplicative (mult_corr (w_env W)) f); [|now rewrite M].
    unfold is_multiplicative. change (rows (blank f)) with (map br (rows f)). change (has_date (blank f)) with (has_date f). change (has_w (blank f)) with (has_w f).
    rewrite (existsb_map br _ (fun r => nleb (r_y r) n0)) by reflexivity. rewrite dates_br, mult_corr_blank. rewrite (filter_maps br _ (fun r => negb (nisnan (r_y r)))) by reflexivity.
    destruct (existsb _ _); [reflexivity|]. destruct (negb _); [reflexivity|]. match goal with |- (if ?b then _ else _) = _ => destruct b end; [reflexivity|].
    destruct (has_w f); [rewrite (filter_maps br _ (fun r => nltb n0 (r_w r))) by reflexivity|]; now rewrite map_length.
  Qed.

  (* the configuration names such models only *)
  Definition nameless_cfg (c : config T) : Prop := named nameless c /\ all_of nameless (c_naive c).
  Lemma nameless_all c f2 mode freq add mult : nameless_cfg c -> candidate_lists c f2 = (add, mult) -> Forall nameless (all_models c mode freq add mult).
  Proof.
    intros (Nc & Nn) Ec. pose proof nameless_shipped as Sh. rewrite Forall_forall in Sh.
    destruct (closed_candidates nameless) with (c := c) (f := f2) (add := add) (mult := mult) as (Fa & Fm); auto;
      try (apply Sh; cbn; tauto); [exact nameless_madd|exact nameless_mmul|].
    apply (closed_all nameless nameless); auto; [apply nameless_naive|apply nameless_snaive].
  Qed.
  Theorem run_fits_blank W c s f : nameless_cfg c -> run_fits W c s (blank f) = run_fits W c s f.
  Proof.
    intros Nc. unfold run_fits. rewrite detect_blank, prepared_blank. destruct (prepared c f) as [f1|e]; cbn [rbind Py.rmap]; [|reflexivity].
    rewrite input_weights_blank, with_weights_blank, range_blank. destruct (input_range _) as [rg|e]; cbn [rbind]; [|reflexivity]. rewrite candidates_blank, actuals_blank, final_mode_blank.
    destruct (candidate_lists c (with_weights f1)) as [add mult] eqn:Ec. destruct (final_mode W c _) as [mode|e]; cbn [rbind]; [|reflexivity].
    rewrite positive_blank, model_actuals_blank. destruct (model_actuals f _) as [act|e]; cbn [rbind Py.rmap]; [|reflexivity]. rewrite !place_blank.
    change (rows (blank (positive (with_weights f1)))) with (map br (rows (positive (with_weights f1)))). rewrite xs_br.
    destruct (zmin_opt (map (place _) _)) as [start|]; [|reflexivity]. destruct (zmax_opt _) as [stop|]; [|reflexivity]. destruct (zmin_opt (map r_x _)) as [x0|]; [|reflexivity].
    pose proof (nameless_all c _ mode (detect_freq_frame f) add mult Nc Ec) as Fall. destruct (all_models c mode _ add mult) as [|m0 ms]; [reflexivity|].
    change (has_date (blank f)) with (has_date f).
    rewrite (rmapM_ext _ (fit_one W c s mode (detect_freq_frame f) add (positive (with_weights f1)) act (if has_date f then ODate start stop else ONum start stop) x0)); [reflexivity|].
    intros m I. rewrite Forall_forall in Fall. apply fit_one_blank. now apply Fall.
  Qed.
  Theorem single_blank W c s f : nameless_cfg c -> run_forecast_single W c s (blank f) = run_forecast_single W c s f.
  Proof. intros Nc. unfold run_forecast_single. now rewrite run_fits_blank. Qed.
End Blank.

(* ---- tables of several series ---- *)
Section Tables.
  Context {T : Type} {N : NumOps T}.
  Definition re (g : string -> string) (r : row T) : row T := mkRow (r_date r) (g (r_src r)) (r_x r) (r_y r) (r_w r).
  Definition rq (g : string -> string) (q : rawrow T) : rawrow T := mkRaw (q_idx q) (re g (q_row q)).
  (* the table with other names in the source column *)
  Definition rename (g : string -> string) (t : raw T) : raw T :=
    mkTable (t_y t) (t_w t) (t_x t) (t_date t) (t_src t) (t_dtindex t) (map (rq g) (t_rows t)).
  Definition table_sources (t : raw T) : list string := map (fun q => r_src (q_row q)) (t_rows t).

  Lemma prepare_rename g t qs : prepare (rename g t) (map (rq g) qs) = Py.rmap (map (re g)) (prepare t qs).
  Proof.
    unfold prepare. cbn [rename t_date t_dtindex t_x]. change (has_date_after (rename g t)) with (has_date_after t).
    replace (map (fun q => if t_date t then q_row q else if t_dtindex t then set_date (q_row q) (q_idx q) else q_row q) (map (rq g) qs))
      with (map (re g) (map (fun q => if t_date t then q_row q else if t_dtindex t then set_date (q_row q) (q_idx q) else q_row q) qs)).
    2: { rewrite !map_map. apply map_ext. intros q. destruct (t_date t); [reflexivity|]. now destruct (t_dtindex t). }
    set (rs := map (fun q => if t_date t then q_row q else if t_dtindex t then set_date (q_row q) (q_idx q) else q_row q) qs).
    destruct (t_x t); [reflexivity|]. destruct (has_date_after t).
    - rewrite map_map. change (fun x => r_date (re g x)) with (@r_date T). destruct (get_normalized_x_from_date _) as [xs|e]; cbn [rbind Py.rmap]; [|reflexivity].
      f_equal. rewrite combine_map_left, !map_map. reflexivity.
    - cbn [Py.rmap rbind]. f_equal. rewrite enumerate_maps, !map_map. reflexivity.
  Qed.
  (* one series: the names do not matter for the rows *)
  Lemma normalize_one a t : t_src t = true -> t_rows t <> [] -> t_y t = true ->
    normalize_df (rename (fun _ => a) t)
    = Py.rmap (fun ps => Some (mkFrame (has_date_after t) true (t_w t) (map (re (fun _ => a)) (isort (fun u v => r_x u <=? r_x v) ps)))) (prepare t (t_rows t)).
  Proof.
    intros Hs Hn Hy. unfold normalize_df. assert (G : groups_of (rename (fun _ => a) t) = [map (rq (fun _ => a)) (t_rows t)]).
    { unfold groups_of. cbn [rename t_src t_rows]. rewrite Hs. unfold sources_of. rewrite !map_map. change (fun x => r_src (q_row (rq (fun _ => a) x))) with (fun _ : rawrow T => a).
      assert (D : dedup String.eqb (map (fun _ : rawrow T => a) (t_rows t)) = [a]).
      { destruct (t_rows t) as [|q l]; [congruence|]. unfold dedup. cbn [map dedup_aux existsb]. f_equal. apply dedup_aux_seen. intros b Hb. apply in_map_iff in Hb as (? & <- & _). reflexivity. }
      rewrite D. cbn [map]. f_equal. apply filter_all. intros q Hq. apply in_map_iff in Hq as (? & <- & _). apply String.eqb_refl. }
    rewrite G. cbn [rename t_rows t_y t_src t_w]. destruct (t_rows t) as [|q0 l0] eqn:E; [congruence|]. cbn [map]. rewrite <- E, Hy. change (rq (fun _ => a) q0 :: map (rq (fun _ => a)) l0) with (map (rq (fun _ => a)) (q0 :: l0)). rewrite <- E.
    cbn [negb rmapM]. change (mkTable (t_y t) (t_w t) (t_x t) (t_date t) (t_src t) (t_dtindex t) (map (rq (fun _ => a)) (t_rows t))) with (rename (fun _ => a) t).
    rewrite prepare_rename. destruct (prepare t (t_rows t)) as [ps|e]; cbn [rbind Py.rmap]; [|reflexivity]. cbn [concat]. rewrite app_nil_r, Hs.
    change (has_date_after (rename (fun _ => a) t)) with (has_date_after t). do 3 f_equal. apply isort_map. intros u v. unfold row_leb, re. cbn [r_src r_x]. now rewrite str_compare_refl.
  Qed.
  Lemma blank_re a l : map br (map (re (fun _ => a)) l) = map (@br T) l.
  Proof. now rewrite map_map. Qed.
  Lemma rename_self a t : Forall (fun u => u = a) (table_sources t) -> rename (fun _ => a) t = t.
  Proof.
    intros F. destruct t as [y w x d sr ix l]. unfold rename, table_sources in *. cbn [t_y t_w t_x t_date t_src t_dtindex t_rows] in *. f_equal.
    apply Forall_map in F. induction F as [|q l E F IH]; [reflexivity|]. cbn [map]. rewrite IH. f_equal. destruct q as [i [dd ss xx yy ww]]. unfold rq, re. cbn in *. now subst.
  Qed.

  Section Rename.
    Variable g : string -> string.
    Variable t : raw T.
    Hypothesis has_sources : t_src t = true.
    Hypothesis distinct : forall a b, In a (table_sources t) -> In b (table_sources t) -> g a = g b -> a = b.

    Lemma sources_rename : table_sources (rename g t) = map g (table_sources t).
    Proof. unfold table_sources, rename. cbn [t_rows]. now rewrite !map_map. Qed.
    Lemma restrict_rename s : In s (table_sources t) -> restrict (rename g t) (g s) = rename (fun _ => g s) (restrict t s).
    Proof.
      intros Is. unfold restrict, rename. cbn [t_y t_w t_x t_date t_src t_dtindex t_rows]. f_equal. pose proof distinct as Di. unfold table_sources in *. revert Di.
      assert (G : forall l, (forall q, In q l -> In (r_src (q_row q)) (map (fun q0 => r_src (q_row q0)) (t_rows t))) ->
                 (forall a b, In a (map (fun q => r_src (q_row q)) (t_rows t)) -> In b (map (fun q => r_src (q_row q)) (t_rows t)) -> g a = g b -> a = b) ->
                 filter (fun q => String.eqb (r_src (q_row q)) (g s)) (map (rq g) l) = map (rq (fun _ => g s)) (filter (fun q => String.eqb (r_src (q_row q)) s) l)).
      { induction l as [|q l IH]; intros Hl Di; [reflexivity|]. cbn [map filter]. change (r_src (q_row (rq g q))) with (g (r_src (q_row q))).
        destruct (String.eqb_spec (r_src (q_row q)) s) as [E|E].
        - rewrite E, String.eqb_refl. cbn [map]. f_equal; [unfold rq, re; now rewrite E|]. apply IH; [intros; apply Hl; now right|exact Di].
        - destruct (String.eqb_spec (g (r_src (q_row q))) (g s)) as [E'|E'].
          + exfalso. apply E. apply Di; [apply Hl; now left|exact Is|exact E'].
          + apply IH; [intros; apply Hl; now right|exact Di]. }
      intros Di. apply G; [|exact Di]. intros q Iq. now apply (in_map (fun q0 => r_src (q_row q0))).
    Qed.
    Lemma restrict_sources s : Forall (fun u => u = s) (table_sources (restrict t s)).
    Proof. apply Forall_map. apply Forall_forall. intros q Iq. cbn [restrict t_rows] in Iq. apply filter_In in Iq as (_ & E). now apply String.eqb_eq. Qed.
    Lemma restrict_nonempty s : In s (table_sources t) -> t_rows (restrict t s) <> [].
    Proof.
      intros I C. apply in_map_iff in I as (q & E & Iq). assert (K : In q (t_rows (restrict t s))) by (apply filter_In; split; [exact Iq|now apply String.eqb_eq]).
      rewrite C in K. destruct K.
    Qed.
    (* the series of a source, under either name *)
    Lemma normalize_named s : In s (table_sources t) -> t_y t = true -> exists f f',
      normalize_df (restrict t s) = Ok (Some f) /\ normalize_df (restrict (rename g t) (g s)) = Ok (Some f') /\ blank f = blank f' /\
      has_src f = true /\ has_src f' = true /\ Forall (fun r => r_src r = s) (rows f) /\ Forall (fun r => r_src r = g s) (rows f') /\ rows f <> [].
    Proof.
      intros Is Hy. rewrite restrict_rename by exact Is. pose proof (rename_self s (restrict t s) (restrict_sources s)) as R.
      pose proof (restrict_nonempty s Is) as Ne. set (u := restrict t s) in *. assert (Hu : t_src u = true) by exact has_sources. assert (Yu : t_y u = true) by exact Hy.
      assert (Eu : normalize_df u = normalize_df (rename (fun _ => s) u)) by (now rewrite R). rewrite Eu, !normalize_one by assumption.
      assert (K : exists ps, prepare u (t_rows u) = Ok ps /\ ps <> []).
      { destruct (normalize_ok u Ne Yu) as (rs & En & P & _). rewrite Eu in En. rewrite normalize_one in En by assumption.
        destruct (prepare u (t_rows u)) as [ps|e]; [|discriminate]. exists ps. split; [reflexivity|]. intros ->. cbn in En. injection En as En. subst rs.
        apply Permutation_nil in P. apply map_eq_nil in P. destruct (t_rows u); [congruence|discriminate]. }
      destruct K as (ps & Ep & Np). rewrite Ep. cbn [Py.rmap rbind]. eexists. eexists. split; [reflexivity|]. split; [reflexivity|]. unfold blank. cbn [has_date has_src has_w rows]. rewrite !blank_re.
      split; [reflexivity|]. split; [reflexivity|]. split; [reflexivity|]. split; [apply Forall_map; apply Forall_forall; reflexivity|]. split; [apply Forall_map; apply Forall_forall; reflexivity|].
      intros C. apply map_eq_nil in C. apply Np. pose proof (isort_perm (fun a b : row T => r_x a <=? r_x b) ps) as P. rewrite C in P. apply Permutation_sym, Permutation_nil in P. exact P.
    Qed.
    (* a table with the rows of one source only *)
    Lemma run_series (W : string -> world T) c id u a f : normalize_df u = Ok (Some f) -> has_src f = true -> Forall (fun r => r_src r = a) (rows f) -> rows f <> [] ->
      run_forecast W c id u = Py.rmap Some (run_forecast_single (W a) c a f).
    Proof.
      intros En Hs F Ne. unfold run_forecast. rewrite En. cbn [rbind]. rewrite Hs. cbn [negb].
      assert (D : dedup String.eqb (map r_src (rows f)) = [a]).
      { destruct F as [|b l E F]; [congruence|]. subst. unfold dedup. cbn [map dedup_aux existsb]. f_equal. apply dedup_aux_seen.
        intros x Hx. apply in_map_iff in Hx as (r & <- & Hr). rewrite Forall_forall in F. now apply F. }
      rewrite D. cbn [rmapM]. replace (with_rows f (filter (fun r => String.eqb (r_src r) a) (rows f))) with f.
      2: { unfold with_rows. rewrite filter_all; [now destruct f|]. intros r Hr. apply String.eqb_eq. rewrite Forall_forall in F. now apply F. }
      destruct (run_forecast_single (W a) c a f) as [r|e]; [|reflexivity]. cbn [rbind Py.rmap]. now rewrite aggregate_one.
    Qed.
    Theorem series_renamed (W W' : string -> world T) c id s : (forall a, sorts_scores (W a)) -> W' (g s) = W s -> nameless_cfg c -> In s (table_sources t) ->
      run_forecast W' c id (restrict (rename g t) (g s)) = Py.rmap (option_map (named_as s (g s))) (run_forecast W c id (restrict t s)).
    Proof.
      intros Hs Hw Nc Is. destruct (t_y t) eqn:Hy.
      - destruct (normalize_named s Is Hy) as (f & f' & E & E' & B & H1 & H2 & F1 & F2 & Ne).
        assert (Ne' : rows f' <> []). { intros C. apply Ne. apply (f_equal (@rows T)) in B. cbn [blank rows] in B. rewrite C in B. cbn in B. now apply map_eq_nil in B. }
        rewrite (run_series W c id _ s f E H1 F1 Ne), (run_series W' c id _ (g s) f' E' H2 F2 Ne'), Hw.
        rewrite (single_name s (g s) (W s) c f' (Hs s)). rewrite <- (single_blank (W s) c s f' Nc), <- B, (single_blank (W s) c s f Nc). now destruct (run_forecast_single (W s) c s f).
      - pose proof (restrict_nonempty s Is) as Ne. rewrite run_no_y; [|rewrite restrict_rename by exact Is; cbn [rename t_rows]; intros C; apply map_eq_nil in C; contradiction|exact Hy].
        rewrite run_no_y; [reflexivity|exact Ne|exact Hy].
    Qed.

    (* the sources of [t] in the order of their new names *)
    Definition by_new_name : list string := isort (fun a b => str_leb (g a) (g b)) (dedup String.eqb (table_sources t)).
    Lemma dedup_distinct l : (forall a, In a l -> In a (table_sources t)) -> forall seen, (forall a, In a seen -> In a (table_sources t)) ->
      dedup_aux String.eqb (map g seen) (map g l) = map g (dedup_aux String.eqb seen l).
    Proof.
      induction l as [|a l IH]; intros Hl seen Hs; [reflexivity|]. cbn [map dedup_aux].
      assert (X : existsb (String.eqb (g a)) (map g seen) = existsb (String.eqb a) seen).
      { assert (Ha : In a (table_sources t)) by (apply Hl; now left). clear - distinct Hs Ha. induction seen as [|b seen IH]; [reflexivity|]. cbn [map existsb]. rewrite IH by (intros; apply Hs; now right). f_equal.
        destruct (String.eqb_spec a b) as [->|D]; [apply String.eqb_refl|]. apply String.eqb_neq. intros E. apply D. apply distinct; auto. apply Hs. now left. }
      rewrite X. destruct (existsb _ seen); [apply IH; [intros; apply Hl; now right|exact Hs]|]. cbn [map]. f_equal. apply (IH (fun b I => Hl b (or_intror I)) (a :: seen)).
      intros b [<-|I]; [apply Hl; now left|now apply Hs].
    Qed.
    Lemma sorted_renamed : sorted_sources (rename g t) = map g by_new_name.
    Proof.
      unfold sorted_sources. change (map (fun q => r_src (q_row q)) (t_rows (rename g t))) with (table_sources (rename g t)). rewrite sources_rename.
      unfold dedup. change (@nil string) with (map g []) at 1. rewrite dedup_distinct; [|auto|intros ? []]. unfold by_new_name. now apply isort_map.
    Qed.
    Lemma by_new_name_perm : Permutation by_new_name (sorted_sources t).
    Proof. unfold by_new_name, sorted_sources. eapply Permutation_trans; [apply Permutation_sym, isort_perm|apply isort_perm]. Qed.
    Lemma by_new_name_in s : In s by_new_name <-> In s (table_sources t).
    Proof. unfold by_new_name. rewrite isort_in. apply (dedup_in String.eqb str_eqb_spec). Qed.
    Lemma by_new_name_sorted : StronglySorted (fun a b => str_leb (g a) (g b) = true) by_new_name.
    Proof. unfold by_new_name. apply (isort_sorted (fun a b => str_leb (g a) (g b))); [intros a b; apply str_leb_total|intros a b c; apply str_leb_trans]. Qed.

    Lemma normalize_some u : t_rows u <> [] -> t_y u = true -> exists f : frame T, normalize_df u = Ok (Some f).
    Proof. intros Hn Hy. destruct (normalize_ok u Hn Hy) as (rs & E & _). eauto. Qed.
    Lemma series_outcome (W : string -> world T) c id s : In s (table_sources t) -> run_forecast W c id (restrict t s) <> Ok None.
    Proof.
      intros Is. pose proof (restrict_nonempty s Is) as Ne. destruct (t_y t) eqn:Hy; [|rewrite run_no_y; [discriminate|exact Ne|exact Hy]].
      destruct (normalize_named s Is Hy) as (f & f' & E & _ & _ & H1 & _ & F1 & _ & Nr). rewrite (run_series W c id _ s f E H1 F1 Nr). destruct (run_forecast_single (W s) c s f); discriminate.
    Qed.
    Lemma rmapM_total {A B} (h : A -> res B) (k : A -> B) l : (forall a, In a l -> h a = Ok (k a)) -> rmapM h l = Ok (map k l).
    Proof. induction l as [|a l IH]; intros E; [reflexivity|]. cbn [rmapM map]. rewrite E by now left. cbn [rbind]. rewrite IH by (intros; apply E; now right). reflexivity. Qed.
    Lemma rmapM_fails {A B} (h : A -> res B) l a e : In a l -> h a = Err e -> exists e', rmapM h l = Err e'.
    Proof.
      induction l as [|b l IH]; intros I E; [destruct I|]. cbn [rmapM]. destruct (h b) as [x|e0] eqn:Eb; cbn [rbind]; [|eauto]. destruct I as [->|I]; [congruence|].
      destruct (IH I E) as (e' & ->). cbn. eauto.
    Qed.
    Lemma rmapM_fails_at {A B} (h : A -> res B) l e : rmapM h l = Err e -> exists a e', In a l /\ h a = Err e'.
    Proof.
      revert e. induction l as [|b l IH]; intros e; cbn [rmapM]; [discriminate|]. destruct (h b) as [x|e0] eqn:Eb; cbn [rbind]; [|intros _; exists b, e0; split; [now left|exact Eb]].
      destruct (rmapM h l) as [r|e1]; [discriminate|]. intros _. destruct (IH e1 eq_refl) as (a & e' & I & E). exists a, e'. split; [now right|exact E].
    Qed.
    Lemma rmapM_each {A B} (h : A -> res B) l r : rmapM h l = Ok r -> forall a, In a l -> exists b, h a = Ok b.
    Proof.
      revert r. induction l as [|b l IH]; intros r E a I; [destruct I|]. cbn [rmapM] in E. destruct (h b) as [x|e0] eqn:Eb; cbn [rbind] in E; [|discriminate].
      destruct (rmapM h l) as [r'|e1]; [|discriminate]. destruct I as [<-|I]; [eauto|]. exact (IH r' eq_refl a I).
    Qed.
    Lemma somes_all {A B} (k : A -> B) l : somes (map (fun a => Some (k a)) l) = map k l.
    Proof. unfold somes. induction l as [|a l IH]; [reflexivity|]. cbn [map flat_map app]. now rewrite IH. Qed.
    Theorem forecast_renamed (W W' : string -> world T) c id : (forall a, sorts_scores (W a)) -> (forall s, In s (table_sources t) -> W' (g s) = W s) -> nameless_cfg c ->
      (forall r, run_forecast W c id t = Ok (Some r) -> exists part,
        (forall s, In s (table_sources t) -> run_forecast W c id (restrict t s) = Ok (Some (part s))) /\
        r = aggregate (map part (sorted_sources t)) /\
        run_forecast W' c id (rename g t) = Ok (Some (aggregate (map (fun s => named_as s (g s) (part s)) by_new_name)))) /\
      (forall e, run_forecast W c id t = Err e -> exists e', run_forecast W' c id (rename g t) = Err e') /\
      (run_forecast W c id t = Ok None -> run_forecast W' c id (rename g t) = Ok None).
    Proof.
      intros Hs Hw Nc. destruct (t_rows t) as [|q0 l0] eqn:Er.
      { rewrite run_empty by exact Er. split; [discriminate|]. split; [discriminate|]. intros _. apply run_empty. cbn. now rewrite Er. }
      assert (Ne : t_rows t <> []) by (rewrite Er; discriminate). assert (Ne' : t_rows (rename g t) <> []) by (cbn; rewrite Er; discriminate).
      destruct (t_y t) eqn:Hy.
      2: { rewrite run_no_y by assumption. split; [discriminate|]. split; [|discriminate]. intros e _. exists AssertionError. now apply run_no_y. }
      destruct (normalize_some t Ne Hy) as (f & En). destruct (normalize_some (rename g t) Ne' Hy) as (f' & En').
      rewrite (sources_alone W c id t f has_sources En), (sources_alone W' c id (rename g t) f' has_sources En'), sorted_renamed.
      rewrite ForecastProofs2.rmapM_map.
      assert (In_src : forall s, In s (sorted_sources t) <-> In s (table_sources t)) by (intros s; unfold sorted_sources; rewrite isort_in; apply (dedup_in String.eqb str_eqb_spec)).
      assert (X : forall s, In s by_new_name -> run_forecast W' c id (restrict (rename g t) (g s)) = Py.rmap (option_map (named_as s (g s))) (run_forecast W c id (restrict t s))).
      { intros s I. apply by_new_name_in in I. apply series_renamed; auto. }
      rewrite (rmapM_ext _ (fun s => Py.rmap (option_map (named_as s (g s))) (run_forecast W c id (restrict t s))) by_new_name X).
      split; [|split].
      - intros r K. destruct (rmapM _ (sorted_sources t)) as [os|e] eqn:Eo; [|discriminate]. cbn [rbind] in K. injection K as <-. pose proof (rmapM_each _ _ _ Eo) as Ea.
        set (part := fun s => match run_forecast W c id (restrict t s) with Ok (Some r) => r | _ => mkResult [] [] [] end).
        assert (P : forall s, In s (table_sources t) -> run_forecast W c id (restrict t s) = Ok (Some (part s))).
        { intros s I. unfold part. destruct (Ea s (proj2 (In_src s) I)) as ([r|] & E); rewrite E; [reflexivity|]. exfalso. now apply (series_outcome W c id s I). }
        exists part. split; [exact P|]. split.
        + rewrite (rmapM_total _ (fun s => Some (part s)) (sorted_sources t)) in Eo by (intros s I; apply P; now apply In_src). injection Eo as <-. do 1 f_equal.
          apply somes_all.
        + rewrite (rmapM_total _ (fun s => Some (named_as s (g s) (part s))) by_new_name). 2: { intros s I. rewrite P by now apply by_new_name_in. reflexivity. }
          cbn [rbind]. do 3 f_equal. apply somes_all.
      - intros e K. destruct (rmapM _ (sorted_sources t)) as [os|e0] eqn:Eo; [discriminate|]. apply rmapM_fails_at in Eo as (s & e' & I & E).
        destruct (rmapM_fails (fun s => Py.rmap (option_map (named_as s (g s))) (run_forecast W c id (restrict t s))) by_new_name s e') as (e2 & E2); [apply by_new_name_in; now apply In_src|now rewrite E|].
        rewrite E2. cbn. eauto.
      - intros K. destruct (rmapM _ (sorted_sources t)); discriminate.
    Qed.
  End Rename.

  (* without a source column the name is an argument *)
  Theorem id_renamed (W W' : string -> world T) c id id' (t : raw T) : t_src t = false -> sorts_scores (W id) -> W' id' = W id ->
    run_forecast W' c id' t = Py.rmap (option_map (named_as id id')) (run_forecast W c id t).
  Proof.
    intros Hn Hs Hw. unfold run_forecast. destruct (normalize_df t) as [[f|]|e] eqn:En; [|reflexivity|reflexivity]. cbn [rbind]. destruct (normalize_flags t f En) as (_ & Fs). rewrite Fs, Hn. cbn [negb].
    rewrite Hw, (single_name id id' (W id) c f Hs). now destruct (run_forecast_single (W id) c id f).
  Qed.
End Tables.
