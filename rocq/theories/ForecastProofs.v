(* Facts about the forecast pipeline (Forecast.v). *)
From Coq Require Import ZArith String List Bool Lia Permutation Sorted QArith_base.
From Verif Require Import Num Py Cal Fmt Model Base Fixed Naive Freq Aic Normalize Fit Interp Select Outliers Pi Forecast.
From Verif Require Import ListProofs StringProofs GroupProofs NormalizeProofs FitProofs InterpProofs OutlierProofs.
Import ListNotations.
Local Open Scope string_scope.
Local Open Scope list_scope.
Local Open Scope Z_scope.

Lemma rmapM_inv {A B} (g : A -> res B) l : forall r, rmapM g l = Ok r -> Forall2 (fun a b => g a = Ok b) l r.
Proof.
  induction l as [|a l IH]; intros r E; cbn in E.
  - injection E as <-. constructor.
  - destruct (g a) as [b|] eqn:Ea; [|discriminate]. cbn in E. destruct (rmapM g l) as [bs|]; [|discriminate].
    injection E as <-. constructor; auto.
Qed.
Lemma rmapM_ext {A B} (g h : A -> res B) l : (forall a, In a l -> g a = h a) -> rmapM g l = rmapM h l.
Proof.
  induction l as [|a l IH]; intros E; [reflexivity|]. cbn. rewrite (E a (or_introl eq_refl)), IH; [reflexivity|].
  intros b Hb. apply E. now right.
Qed.
Lemma Forall2_in_r {A B} (P : A -> B -> Prop) l r b : Forall2 P l r -> In b r -> exists a, In a l /\ P a b.
Proof.
  induction 1 as [|x y l r Hxy _ IH]; intros Hb; [destruct Hb|]. destruct Hb as [<-|Hb].
  - exists x. split; [now left|exact Hxy].
  - destruct (IH Hb) as (a & Ha & Pa). exists a. split; [now right|exact Pa].
Qed.
Lemma Forall2_len {A B} (P : A -> B -> Prop) l r : Forall2 P l r -> length l = length r.
Proof. induction 1; [reflexivity|]. cbn. now f_equal. Qed.
Lemma filter_ext_all {A} (p q : A -> bool) l : (forall a, p a = q a) -> filter p l = filter q l.
Proof. intros E. now apply filter_ext. Qed.

Section Best.
  Context {T : Type} `{NumOps T}.
  Notation M := (fmodel T).

  (* order of the column aic_c in an ascending sort: nulls last *)
  Definition score_le (a b : meta T) : Prop := nisnan (md_aicc b) = true \/ nleb (md_aicc a) (md_aicc b) = true.
  (* any sort by score, resolving ties as it likes *)
  Definition sorts (W : world T) : Prop :=
    forall l, Permutation (w_sort W l) l /\ StronglySorted score_le (w_sort W l).
  (* the score of [a] is not above that of [b]; a null score is above any other *)
  Definition no_worse (a b : meta T) : Prop := md_aicc a = md_aicc b \/ score_le a b.

  (* the same row with w as its weights column *)
  Definition reports (w : string) (d d' : meta T) : Prop :=
    md_weights d' = w /\ md_source d' = md_source d /\ md_model d' = md_model d /\ md_range d' = md_range d /\ md_freq d' = md_freq d /\
    md_fit d' = md_fit d /\ md_cost d' = md_cost d /\ md_aicc d' = md_aicc d /\ md_params d' = md_params d /\ md_status d' = md_status d /\
    md_source_long d' = md_source_long d /\ md_obj d' = md_obj d.
  Lemma weights_reports w d : reports w d (set_weights w d).
  Proof. repeat split. Qed.
  Lemma best_fit_none W l : sorts W -> best_fit W l = None -> forall d, In d l -> md_fit d = false.
  Proof.
    intros S E d Hd. unfold best_fit in E. destruct (S (filter (fun d => md_fit d) l)) as [P _].
    destruct (w_sort W _) as [|b r] eqn:Es; [|discriminate]. apply Permutation_nil in P.
    destruct (md_fit d) eqn:F; [|reflexivity]. assert (In d (filter (fun d => md_fit d) l)) by (apply filter_In; auto).
    rewrite P in H0. destruct H0.
  Qed.
  Lemma best_fit_some W l b : sorts W -> best_fit W l = Some b ->
    In b l /\ md_fit b = true /\ forall d, In d l -> md_fit d = true -> no_worse b d.
  Proof.
    intros S E. unfold best_fit in E. destruct (S (filter (fun d => md_fit d) l)) as [P O].
    destruct (w_sort W _) as [|b' r] eqn:Es; [discriminate|]. injection E as ->.
    assert (Hb : In b (filter (fun d => md_fit d) l)) by (eapply Permutation_in; [exact P|now left]).
    apply filter_In in Hb as [Hb Fb]. repeat split; [exact Hb|exact Fb|].
    intros d Hd Fd. assert (K : In d (b :: r)) by (eapply Permutation_in; [symmetry; exact P|apply filter_In; auto]).
    destruct K as [->|K]; [now left|]. right. inversion O as [|? ? _ Fa]; subst. rewrite Forall_forall in Fa. now apply Fa.
  Qed.

  (* ---------- one fit ---------- *)
  Lemma df_fit_source source (m : M) w r fr b c a p s : md_source (df_fit_model source m w r fr b c a p s) = source.
  Proof. reflexivity. Qed.
  Lemma fit_source E m f freq source act uc (d : meta T) : fit_model E m f freq source act uc = Ok d -> md_source d = source.
  Proof.
    unfold fit_model, fit_model_with. intros K.
    destruct (range_label _ _ _) as [rg|]; cbn [rbind] in K; [|discriminate].
    destruct (Nat.ltb _ _); [now injection K as <-|].
    destruct (validate_input _ _ _ _) as [v|]; cbn [rbind] in K; [|discriminate].
    destruct (negb v); [now injection K as <-|].
    destruct (simplify_model _ _ _ _ _) as [ms|]; cbn [rbind] in K; [|discriminate].
    destruct (Nat.eqb _ _).
    - destruct (get_residuals _ _ _ _ _ _ _ _) as [rs|]; cbn [rbind] in K; [|discriminate].
      destruct (get_aic_c _ _ _) as [s|]; cbn [rbind] in K; [|discriminate]. now injection K as <-.
    - destruct (optimize_least_squares _ _ _ _ _ _ _ _) as [[[su co] p]|]; cbn [rbind] in K; [|discriminate].
      destruct (get_aic_c _ _ _) as [s|]; cbn [rbind] in K; [|discriminate]. now injection K as <-.
  Qed.

  (* what one candidate contributes: its metadata, and its forecast rows *)
  Record contributes (source : string) (m : M) (extrapolated : list T -> res (list (Z * T)))
    (p : meta T * string * list (drow T)) : Prop := {
    co_source : md_source (fst (fst p)) = source;
    co_fit : if md_fit (fst (fst p))
             then exists g, extrapolated (md_params (fst (fst p))) = Ok g /\
                  map (fun d => (d_date d, d_y d)) (snd p) = filter (fun q => negb (nisnan (snd q))) g
             else snd p = [];
    co_rows : Forall (fun d => d_src d = source /\ d_model d = fm_name m /\ d_long d = md_source_long (fst (fst p)) /\
                               d_actual d = false) (snd p) }.
  Lemma fit_one_contributes W c source mode freq la u act o xs m p :
    fit_one W c source mode freq la u act o xs m = Ok p ->
    contributes source m (fun ps => extrapolate_model m (Some ps) o freq (c_years c) xs (Some act)) p /\
    fit_model (w_env W) m u freq source (Some act) (c_cache c) = Ok (fst (fst p)) /\
    snd (fst p) = add_mult_label m mode la.
  Proof.
    unfold fit_one. intros K. destruct (fit_model _ _ _ _ _ _ _) as [d|] eqn:Ed; cbn [rbind] in K; [|discriminate].
    pose proof (fit_source _ _ _ _ _ _ _ _ Ed) as Hs. destruct (md_fit d) eqn:F.
    - destruct (extrapolate_model _ _ _ _ _ _ _) as [g|] eqn:Eg; cbn [rbind] in K; [|discriminate]. injection K as <-.
      split; [|split; reflexivity]. constructor; cbn [fst snd].
      + exact Hs.
      + rewrite F. exists g. split; [exact Eg|]. unfold fcast_clean. rewrite map_map. cbn [d_date d_y].
        rewrite map_ext with (g := fun p => p) by (intros []; reflexivity). apply map_id.
      + apply Forall_forall. intros r Hr. unfold fcast_clean in Hr. apply in_map_iff in Hr as (q & <- & _). repeat split.
    - injection K as <-. split; [|split; reflexivity]. constructor; cbn [fst snd]; [exact Hs|now rewrite F|constructor].
  Qed.

  (* ---------- everything run_fits does ---------- *)
  Definition start_of (f : frame T) (start stop : Z) : origin := if has_date f then ODate start stop else ONum start stop.
  Lemma run_fits_inv W c source f w acts fits : run_fits W c source f = Ok (w, acts, fits) ->
    exists f1 range mode act start stop x0,
      prepared c f = Ok f1 /\
      w = input_weights (w_env W) f1 /\
      input_range (with_weights f1) = Ok range /\
      acts = actuals_clean (with_weights f1) source (long_name source w (detect_freq_frame f) range) /\
      final_mode W c (with_weights f1) = Ok mode /\
      model_actuals f (positive (with_weights f1)) = Ok act /\
      zmin_opt (map (place (with_weights f1)) (rows (positive (with_weights f1)))) = Some start /\
      zmax_opt (map (place (with_weights f1)) (rows (with_weights f1))) = Some stop /\
      zmin_opt (map r_x (rows (positive (with_weights f1)))) = Some x0 /\
      all_models c mode (detect_freq_frame f) (fst (candidate_lists c (with_weights f1)))
        (snd (candidate_lists c (with_weights f1))) <> [] /\
      Forall2 (fun m p => fit_one W c source mode (detect_freq_frame f) (fst (candidate_lists c (with_weights f1)))
                            (positive (with_weights f1)) act (start_of f start stop) x0 m = Ok p)
        (all_models c mode (detect_freq_frame f) (fst (candidate_lists c (with_weights f1)))
           (snd (candidate_lists c (with_weights f1)))) fits.
  Proof.
    unfold run_fits. intros K. destruct (prepared c f) as [f1|] eqn:Ep; cbn [rbind] in K; [|discriminate].
    destruct (input_range (with_weights f1)) as [range|] eqn:Er; cbn [rbind] in K; [|discriminate].
    destruct (candidate_lists c (with_weights f1)) as [add mult] eqn:Ec.
    destruct (final_mode W c (with_weights f1)) as [mode|] eqn:Em; cbn [rbind] in K; [|discriminate].
    destruct (model_actuals f (positive (with_weights f1))) as [act|] eqn:Ea; cbn [rbind] in K; [|discriminate].
    change (place (positive (with_weights f1))) with (place (with_weights f1)) in K.
    destruct (zmin_opt (map (place (with_weights f1)) (rows (positive (with_weights f1))))) as [start|] eqn:E1; [|discriminate].
    destruct (zmax_opt (map (place (with_weights f1)) (rows (with_weights f1)))) as [stop|] eqn:E2; [|discriminate].
    destruct (zmin_opt (map r_x (rows (positive (with_weights f1))))) as [x0|] eqn:E3; [|discriminate].
    destruct (all_models c mode (detect_freq_frame f) add mult) as [|m0 ms] eqn:El; [discriminate|].
    rewrite <- El in K. destruct (rmapM _ _) as [fs|] eqn:Ef; cbn [rbind] in K; [|discriminate]. injection K as <- <- <-.
    exists f1, range, mode, act, start, stop, x0. rewrite Ec. cbn [fst snd]. repeat (split; [auto; fail|]). rewrite El. split; [discriminate|].
    rewrite El in Ef. now apply rmapM_inv.
  Qed.

  Lemma Forall2_impl' {A B} (P Q : A -> B -> Prop) l r : (forall a b, P a b -> Q a b) -> Forall2 P l r -> Forall2 Q l r.
  Proof. intros I. induction 1; constructor; auto. Qed.
  Lemma single_source W c source f w acts fits : run_fits W c source f = Ok (w, acts, fits) ->
    Forall (fun d => d_src d = source /\ d_actual d = true) acts /\
    Forall (fun p => md_source (fst (fst p)) = source /\
                     Forall (fun d => d_src d = source /\ d_actual d = false) (snd p)) fits.
  Proof.
    intros E. destruct (run_fits_inv _ _ _ _ _ _ _ E) as (f1 & range & mode & act & st & sp & x0 & _ & _ & _ & -> & _ & _ & _ & _ & _ & _ & F).
    split.
    - apply Forall_forall. intros d Hd. unfold actuals_clean in Hd. apply in_map_iff in Hd as (r & <- & _). split; reflexivity.
    - apply Forall_forall. intros p Hp. destruct (Forall2_in_r _ _ _ _ F Hp) as (m & _ & Ho).
      apply fit_one_contributes in Ho as [[Hs _ Hr] _]. split; [exact Hs|]. eapply Forall_impl; [|exact Hr]. cbn. tauto.
  Qed.

  (* ---------- the prediction interval of one source ---------- *)
  Lemma dedup_aux_seen s l : (forall a, In a l -> a = s) -> dedup_aux String.eqb [s] l = [].
  Proof.
    induction l as [|a l IH]; intros A; [reflexivity|]. cbn. rewrite (A a (or_introl eq_refl)), String.eqb_refl. cbn.
    apply IH. intros b Hb. apply A. now right.
  Qed.
  Lemma one_source s l : (forall a, In a l -> a = s) -> (length (dedup String.eqb l) <= 1)%nat.
  Proof.
    intros A. destruct l as [|a l]; [cbn; lia|]. unfold dedup. cbn. rewrite (A a (or_introl eq_refl)).
    rewrite dedup_aux_seen; [cbn; lia|]. intros b Hb. apply A. now right.
  Qed.
  Lemma get_pi_single draw n nc q1 q2 wd (t : ptable T) s : (forall r, In r (pt_rows t) -> d_src r = s) ->
    get_pi (fun _ => draw) n nc q1 q2 wd t =
    rbind (match nc with Some k => Ok k | None => days_from_freq wd end) (fun k => pi_single draw n k q1 q2 t).
  Proof.
    intros A. unfold get_pi. assert (L : (length (isort str_leb (dedup String.eqb (map d_src (pt_rows t)))) <= 1)%nat).
    { rewrite isort_length. apply (one_source s). intros a Ha. apply in_map_iff in Ha as (r & <- & Hr). auto. }
    assert (Nat.ltb 1 (length (isort str_leb (dedup String.eqb (map d_src (pt_rows t))))) = false) as ->.
    { apply PeanoNat.Nat.ltb_ge. exact L. }
    now rewrite andb_false_r.
  Qed.
  Lemma pi_single_best draw n k q1 q2 hs hw hd (l : list (drow T)) :
    pi_single draw n k q1 q2 (mkPT hs hw true hd (filter (fun r => d_best r || d_actual r) l)) =
    pi_single draw n k q1 q2 (mkPT hs hw true hd l).
  Proof.
    unfold pi_single. cbn [pt_best pt_rows pt_dates pt_w pt_src].
    assert (filter (fun r => d_actual r || d_best r) (filter (fun r => d_best r || d_actual r) l) =
            filter (fun r => d_actual r || d_best r) l) as ->; [|reflexivity].
    rewrite (filter_ext_all (fun r => d_best r || d_actual r) (fun r => d_actual r || d_best r)) by (intros; apply orb_comm).
    apply filter_idem.
  Qed.

  (* ---------- include_all_fits ---------- *)
  Definition set_all (b : bool) (c : config T) : config T :=
    mkCfg (c_trend c) (c_season c) (c_start c) (c_years c) (c_mode c) b (c_outliers c) (c_yearly c) (c_weekly c)
      (c_naive c) (c_calendar c) (c_ncum c) (c_q1 c) (c_q2 c) (c_widen c) (c_cache c).
  Lemma run_fits_all b W c source f : run_fits W (set_all b c) source f = run_fits W c source f.
  Proof. reflexivity. Qed.
  (* the best fit and the actuals only *)
  Definition only_best (r : result T) : result T :=
    mkResult (rs_forecast r) (filter (fun d => d_best d || d_actual d) (rs_data r)) (filter (fun m => m_best m) (rs_meta r)).
  Definition rmap {A B} (g : A -> B) (r : res A) : res B := rbind r (fun a => Ok (g a)).
  Lemma data_source W c source f w acts fits b : run_fits W c source f = Ok (w, acts, fits) ->
    forall r, In r (fst (assemble W b w acts fits)) -> d_src r = source.
  Proof.
    intros E r Hr. destruct (single_source _ _ _ _ _ _ _ E) as [Ha Hf].
    assert (K : In r (fst (assemble W true w acts fits))).
    { destruct b; [exact Hr|]. cbn in Hr |- *. now apply filter_In in Hr. }
    cbn in K. apply in_map_iff in K as (d & <- & Hd). cbn. apply in_app_or in Hd as [Hd|Hd].
    - rewrite Forall_forall in Ha. now apply Ha.
    - apply in_concat in Hd as (l & Hl & Hd). apply in_map_iff in Hl as (p & <- & Hp). rewrite Forall_forall in Hf.
      destruct (Hf p Hp) as [_ K]. rewrite Forall_forall in K. now apply K.
  Qed.
  Theorem all_fits_switch W c source f :
    run_forecast_single W (set_all false c) source f = rmap only_best (run_forecast_single W (set_all true c) source f).
  Proof.
    unfold run_forecast_single. rewrite !run_fits_all. cbn [c_all c_ncum c_q1 c_q2 c_widen set_all].
    destruct (run_fits W c source f) as [[[w acts] fits]|] eqn:E; [|reflexivity]. cbn [rbind].
    pose proof (data_source _ _ _ _ _ _ _ true E) as S1. pose proof (data_source _ _ _ _ _ _ _ false E) as S2.
    destruct (assemble W true w acts fits) as [data metas] eqn:E1. destruct (assemble W false w acts fits) as [data' metas'] eqn:E2.
    cbn [fst] in S1, S2. rewrite !(get_pi_single _ _ _ _ _ _ _ source) by assumption.
    unfold assemble in E1, E2. injection E1 as E1d E1m. injection E2 as E2d E2m.
    rewrite E1d in E2d. rewrite E1m in E2m. subst data' metas'.
    destruct (match c_ncum c with Some k => Ok k | None => days_from_freq (c_widen c) end) as [k|]; cbn [rbind rmap]; [|reflexivity].
    rewrite pi_single_best. destruct (pi_single _ _ _ _ _ _) as [p|]; reflexivity.
  Qed.

  (* ---------- C41 ---------- *)
  Lemma single_result W c source f r : run_forecast_single W (set_all true c) source f = Ok r ->
    exists w acts fits, run_fits W c source f = Ok (w, acts, fits) /\
      assemble W true w acts fits = (rs_data r, rs_meta r) /\
      get_pi (fun _ => w_draw W) 100 (c_ncum c) (c_q1 c) (c_q2 c) (c_widen c) (mkPT true true true (has_date f) (rs_data r)) = Ok (rs_forecast r).
  Proof.
    unfold run_forecast_single. rewrite run_fits_all. intros K.
    destruct (run_fits W c source f) as [[[w acts] fits]|]; [|discriminate]. cbn [rbind c_all set_all c_ncum c_q1 c_q2 c_widen] in K.
    destruct (assemble W true w acts fits) as [data metas] eqn:Ea. destruct (get_pi _ _ _ _ _ _ _) as [pi|] eqn:Ep; [|discriminate].
    cbn [rbind] in K. injection K as <-. exists w, acts, fits. repeat split; assumption.
  Qed.
  Definition same_fit (a b : meta T) : Prop := md_model a = md_model b /\ md_source_long a = md_source_long b.
  Definition belongs (d : drow T) (b : meta T) : Prop := d_model d = md_model b /\ d_long d = md_source_long b.
  Lemma is_best_iff (b : meta T) s lo mo : is_best (Some b) s lo mo = true <-> md_source b = s /\ md_source_long b = lo /\ md_model b = mo.
  Proof. cbn. rewrite !andb_true_iff, !String.eqb_eq. tauto. Qed.
  Theorem best_unique_minimal W c source f r : sorts W -> run_forecast_single W (set_all true c) source f = Ok r ->
    ((forall m, In m (rs_meta r) -> md_fit (m_meta m) = false) /\
     (forall m, In m (rs_meta r) -> m_best m = false) /\ (forall d, In d (rs_data r) -> d_best d = false))
    \/
    (exists b, In b (rs_meta r) /\ md_fit (m_meta b) = true /\ m_best b = true /\
       (forall m, In m (rs_meta r) -> md_fit (m_meta m) = true -> no_worse (m_meta b) (m_meta m)) /\
       (forall m, In m (rs_meta r) -> (m_best m = true <-> same_fit (m_meta m) (m_meta b))) /\
       (forall d, In d (rs_data r) -> (d_best d = true <-> belongs d (m_meta b)))).
  Proof.
    intros S K. destruct (single_result _ _ _ _ _ K) as (w & acts & fits & E & Ea & _).
    pose proof (data_source _ _ _ _ _ _ _ true E) as Sd. rewrite Ea in Sd. cbn [fst] in Sd.
    destruct (single_source _ _ _ _ _ _ _ E) as [_ Sf]. rewrite Forall_forall in Sf.
    unfold assemble in Ea. injection Ea as Ed Em.
    destruct (best_fit W (map (fun p => fst (fst p)) fits)) as [b|] eqn:Eb.
    - right. destruct (best_fit_some _ _ _ S Eb) as (Hb & Fb & Mb). apply in_map_iff in Hb as (pb & Epb & Hpb).
      assert (Sb : md_source b = source) by (rewrite <- Epb; now apply Sf).
      exists (flag_meta (Some b) w (fst (fst pb)) (snd (fst pb))). rewrite <- Em.
      split; [now apply in_map_iff; exists pb|]. rewrite Epb. cbn [m_meta flag_meta m_best].
      split; [exact Fb|]. split; [now apply is_best_iff|]. split; [|split].
      + intros m Hm Fm. apply in_map_iff in Hm as (p & <- & Hp). cbn in Fm |- *.
        apply (Mb (fst (fst p))); [now apply in_map_iff; exists p|exact Fm].
      + intros m Hm. apply in_map_iff in Hm as (p & <- & Hp). unfold flag_meta. cbn [m_best m_meta].
        rewrite is_best_iff. destruct (Sf p Hp) as [Sp _]. unfold same_fit. cbn [set_weights md_model md_source_long].
        rewrite Sb, Sp. split; [intros (_ & A & B)|intros [A B]]; auto.
      + intros d Hd. specialize (Sd d Hd). rewrite <- Ed in Hd. apply in_map_iff in Hd as (d0 & <- & _). unfold flag_data in *. cbn [d_src d_best] in *.
        rewrite is_best_iff. unfold belongs. cbn [d_model d_long set_weights md_model md_source_long].
        rewrite Sb, Sd. split; [intros (_ & A & B)|intros [A B]]; auto.
    - left. rewrite <- Em, <- Ed. split; [|split].
      + intros m Hm. apply in_map_iff in Hm as (p & <- & Hp). cbn. apply (best_fit_none _ _ S Eb). apply in_map_iff. now exists p.
      + intros m Hm. now apply in_map_iff in Hm as (p & <- & Hp).
      + intros d Hd. now apply in_map_iff in Hd as (p & <- & Hp).
  Qed.

  (* ---------- C42 ---------- *)
  (* one candidate of the result: the model, its metadata row, its part of the data table *)
  Record entry := mkE { en_model : M; en_meta : mrow T; en_rows : list (drow T) }.
  Definition name_le (a b : M) : Prop := str_leb (fm_name a) (fm_name b) = true.
  Lemma model_leb_name (a b : M) : model_leb a b = str_leb (fm_name a) (fm_name b).
  Proof. reflexivity. Qed.
  Lemma all_models_sorted c mode freq la lm : StronglySorted name_le (all_models c mode freq la lm).
  Proof.
    unfold all_models. apply (isort_sorted model_leb).
    - intros a b. rewrite !model_leb_name. apply str_leb_total.
    - intros a b d. rewrite !model_leb_name. apply str_leb_trans.
  Qed.
  Lemma all_models_perm c mode freq la lm : exists l,
    Permutation (all_models c mode freq la lm) (match c_naive c with Some n => n | None => default_naive freq end ++ l) /\
    (mode = "add" -> l = la) /\ (mode = "mult" -> l = lm) /\
    (mode <> "add" -> mode <> "mult" ->
       (forall m, In m l -> In m (la ++ lm)) /\
       (forall m, In m (la ++ lm) -> exists k, In k l /\ fm_name k = fm_name m) /\ NoDup (map fm_name l)).
  Proof.
    unfold all_models. eexists. split; [symmetry; apply isort_perm|].
    split; [now intros ->|]. split; [now intros ->|]. intros Ha Hm.
    rewrite (proj2 (String.eqb_neq _ _) Ha), (proj2 (String.eqb_neq _ _) Hm).
    assert (G : forall (l seen : list M), (forall m, In m (dedup_aux model_eqb seen l) -> In m l) /\
              (forall m, In m l -> exists k : M, (In k seen \/ In k (dedup_aux model_eqb seen l)) /\ fm_name k = fm_name m) /\
              NoDup (map fm_name (dedup_aux model_eqb seen l)) /\
              (forall m k, In m (dedup_aux model_eqb seen l) -> In k seen -> fm_name k <> fm_name m)).
    { induction l as [|a l IH]; intros seen; cbn [dedup_aux].
      - split; [intros m []|]. split; [intros m []|]. split; [constructor|intros m k []].
      - destruct (existsb (model_eqb a) seen) eqn:Es.
        + destruct (IH seen) as (A & B & C & D). repeat split; auto.
          * intros m Hi. right. now apply A.
          * intros m [<-|Hi]; [|now apply B]. apply existsb_exists in Es as (k & Hk & Ek). apply String.eqb_eq in Ek. exists k. auto.
        + destruct (IH (a :: seen)) as (A & B & C & D).
          assert (Na : forall k, In k seen -> fm_name k <> fm_name a).
          { intros k Hk En. rewrite <- not_true_iff_false in Es. apply Es. apply existsb_exists. exists k. split; [exact Hk|].
            apply String.eqb_eq. now symmetry. }
          repeat split.
          * intros m [<-|Hi]; [now left|right; now apply A].
          * intros m [<-|Hi]; [exists a; split; [right; now left|reflexivity]|].
            destruct (B m Hi) as (k & [[<-|Hk]|Hk] & Ek); [exists a|exists k|exists k]; (split; [|exact Ek]).
            -- right. now left.
            -- now left.
            -- right. now right.
          * cbn. constructor; [|exact C]. rewrite in_map_iff. intros (m & En & Hi). apply (D m a Hi (or_introl eq_refl)). now symmetry.
          * intros m k [<-|Hi] Hk; [now apply Na|]. apply (D m k Hi). now right. }
    destruct (G (la ++ lm) []) as (A & B & C & _). repeat split; auto.
    intros m Hi. destruct (B m Hi) as (k & [[]|Hk] & Ek). eauto.
  Qed.

  Lemma with_weights_rows (f : frame T) : map (fun r => (place f r, r_y r)) (rows (with_weights f)) = map (fun r => (place f r, r_y r)) (rows f) /\
    has_date (with_weights f) = has_date f.
  Proof.
    unfold with_weights. destruct (has_w f); [split; reflexivity|]. cbn [rows has_date]. split; [|reflexivity].
    rewrite map_map. apply map_ext. intros r. unfold place. reflexivity.
  Qed.
  Lemma map_combine_fst {A B C} (h : A -> C) (l : list A) (l' : list B) : length l = length l' ->
    map (fun p => h (fst p)) (combine l l') = map h l.
  Proof. revert l'. induction l as [|a l IH]; intros [|b l'] L; try discriminate; [reflexivity|]. cbn. f_equal. apply IH. now injection L. Qed.
  Lemma ignore_spikes_inv (f g : frame T) : ignore_spikes f = Ok g -> exists steps spikes,
    model_outliers f = Ok (steps, spikes) /\ length spikes = length (rows f) /\
    has_date g = has_date f /\ has_src g = has_src f /\ has_w g = true /\
    rows g = map (fun p : row T * bool => set_w (fst p) (if has_w f then nmul (r_w (fst p)) (if snd p then n0 else n1)
                                          else if snd p then n0 else n1)) (combine (rows f) spikes).
  Proof.
    unfold ignore_spikes. intros K. destruct (model_outliers f) as [[steps spikes]|] eqn:E; [|discriminate]. cbn in K. injection K as <-.
    exists steps, spikes. cbn. repeat split.
    destruct (has_dup Z.eqb (positions f)) eqn:N.
    - assert (model_outliers f = Err ValueError); [|congruence]. apply outliers_error. intros C.
      apply (has_dup_iff Z.eqb Z.eqb_eq) in C. congruence.
    - apply (has_dup_iff Z.eqb Z.eqb_eq) in N. destruct (outliers_shape f N) as (s1 & s2 & E' & L1 & L2).
      rewrite E in E'. injection E' as -> ->. exact L2.
  Qed.
  Lemma prepared_places c f f1 : prepared c f = Ok f1 ->
    map (fun r => (place f1 r, r_y r)) (rows f1) = map (fun r => (place f r, r_y r)) (rows (start_filter (c_start c) f)) /\
    has_date f1 = has_date f.
  Proof.
    unfold prepared. set (f0 := start_filter (c_start c) f).
    assert (E0 : has_date f0 = has_date f) by (unfold f0, start_filter; destruct (c_start c); [destruct (has_date f) eqn:D|]; auto).
    destruct (c_outliers c).
    - intros K. destruct (ignore_spikes_inv _ _ K) as (st & sp & _ & L & Ed & _ & _ & ->). rewrite map_map.
      split; [|congruence]. etransitivity; [|apply (map_combine_fst (fun r => (place f r, r_y r)) (rows f0) sp); now symmetry].
      apply map_ext. intros [r b]. unfold place. now rewrite Ed, E0.
    - intros K. injection K as <-. split; [|exact E0]. apply map_ext. intros r. unfold place. now rewrite E0.
  Qed.
  (* [ext m ps] is the extrapolation of the model with fitted parameters *)
  Record entry_ok (source : string) (ext : M -> list T -> res (list (Z * T))) (e : entry) : Prop := {
    eo_source : md_source (m_meta (en_meta e)) = source;
    eo_rows : if md_fit (m_meta (en_meta e))
              then exists g, ext (en_model e) (md_params (m_meta (en_meta e))) = Ok g /\
                   map (fun d => (d_date d, d_y d)) (en_rows e) = filter (fun q => negb (nisnan (snd q))) g
              else en_rows e = [];
    eo_labels : Forall (fun d => d_src d = source /\ d_model d = fm_name (en_model e) /\
                         d_long d = md_source_long (m_meta (en_meta e)) /\ d_actual d = false) (en_rows e) }.
  Theorem data_table W c source f r : run_forecast_single W (set_all true c) source f = Ok r ->
    exists acts es f1 mode act start stop x0,
      rs_data r = acts ++ concat (map en_rows es) /\
      rs_meta r = map en_meta es /\
      map (fun d => (d_date d, d_y d)) acts = map (fun q => (place f q, r_y q)) (rows (start_filter (c_start c) f)) /\
      Forall (fun d => d_src d = source /\ d_model d = "actuals" /\ d_actual d = true) acts /\
      prepared c f = Ok f1 /\ final_mode W c (with_weights f1) = Ok mode /\
      map en_model es = all_models c mode (detect_freq_frame f) (fst (candidate_lists c (with_weights f1)))
                          (snd (candidate_lists c (with_weights f1))) /\
      model_actuals f (positive (with_weights f1)) = Ok act /\
      zmin_opt (map (place f) (rows (positive (with_weights f1)))) = Some start /\
      zmax_opt (map (place f) (rows (start_filter (c_start c) f))) = Some stop /\
      zmin_opt (map r_x (rows (positive (with_weights f1)))) = Some x0 /\
      Forall (entry_ok source (fun m ps => extrapolate_model m (Some ps) (start_of f start stop) (detect_freq_frame f)
                                              (c_years c) x0 (Some act))) es.
  Proof.
    intros K. destruct (single_result _ _ _ _ _ K) as (w & acts & fits & E & Ea & _).
    destruct (run_fits_inv _ _ _ _ _ _ _ E) as (f1 & range & mode & act & st & sp & x0 & Ep & _ & _ & -> & Em & Eact & Est & Esp & Ex0 & _ & F).
    destruct (prepared_places _ _ _ Ep) as [Pp Dp]. destruct (with_weights_rows f1) as [Pw Dw].
    assert (PL : forall q, place (with_weights f1) q = place f q) by (intros q; unfold place; now rewrite Dw, Dp).
    unfold assemble in Ea. injection Ea as Ed Er. set (b := best_fit W (map (fun p => fst (fst p)) fits)) in *.
    set (models := all_models c mode _ _ _) in *.
    exists (map (flag_data b) (actuals_clean (with_weights f1) source (long_name source w (detect_freq_frame f) range))).
    exists (map (fun q => mkE (fst q) (flag_meta b w (fst (fst (snd q))) (snd (fst (snd q)))) (map (flag_data b) (snd (snd q)))) (combine models fits)).
    exists f1, mode, act, st, sp, x0. pose proof (Forall2_len _ _ _ F) as L.
    assert (C : forall {X} (h : meta T * string * list (drow T) -> X), map (fun q : M * (meta T * string * list (drow T)) => h (snd q)) (combine models fits) = map h fits).
    { intros X h. clear -L. revert L. generalize models fits. intros l. induction l as [|a l IH]; intros [|p l'] L; try discriminate; [reflexivity|].
      cbn. f_equal. apply IH. now injection L. }
    repeat split.
    - rewrite <- Ed, map_app. f_equal. rewrite concat_map, !map_map. cbn [en_rows].
      now rewrite (C _ (fun p => map (flag_data b) (snd p))).
    - rewrite <- Er, map_map. cbn [en_meta]. now rewrite (C _ (fun p => flag_meta b w (fst (fst p)) (snd (fst p)))).
    - rewrite map_map. unfold actuals_clean. rewrite map_map. cbn [flag_data d_date d_y].
      destruct (prepared_places _ _ _ Ep) as [P D]. rewrite <- P. destruct (with_weights_rows f1) as [Q D'].
      rewrite <- Q. apply map_ext. intros q. unfold place. now rewrite D'.
    - apply Forall_forall. intros d Hd. apply in_map_iff in Hd as (d0 & <- & Hd). unfold actuals_clean in Hd.
      apply in_map_iff in Hd as (q & <- & _). repeat split.
    - exact Ep.
    - exact Em.
    - rewrite map_map. cbn [en_model]. rewrite (map_combine_fst (fun m => m) models fits L). apply map_id.
    - exact Eact.
    - rewrite <- Est. f_equal. apply map_ext. intros q. now rewrite PL.
    - rewrite <- Esp. f_equal. pose proof (f_equal (map fst) Pw) as Q1. pose proof (f_equal (map fst) Pp) as Q2. rewrite !map_map in Q1, Q2. cbn [fst] in Q1, Q2.
      etransitivity; [symmetry; exact Q2|]. etransitivity; [symmetry; exact Q1|]. apply map_ext. intros q. unfold place. now rewrite Dw.
    - exact Ex0.
    - apply Forall_forall. intros e He. apply in_map_iff in He as ((m & p) & <- & Hq). cbn [fst snd].
      assert (Ho : fit_one W c source mode (detect_freq_frame f) (fst (candidate_lists c (with_weights f1)))
                     (positive (with_weights f1)) act (start_of f st sp) x0 m = Ok p).
      { clear -F Hq. revert F Hq. generalize models fits. induction 1 as [|a q l l' Ha _ IH]; intros Hq; [destruct Hq|].
        destruct Hq as [Hq|Hq]; [injection Hq as <- <-; exact Ha|now apply IH]. }
      apply fit_one_contributes in Ho as [[Hs Hf Hr] _]. constructor; cbn [en_model en_meta en_rows flag_meta m_meta set_weights md_source md_fit md_params md_source_long].
      + exact Hs.
      + destruct (md_fit (fst (fst p))).
        * destruct Hf as (g & Eg & Ev). exists g. split; [exact Eg|]. rewrite <- Ev, map_map. reflexivity.
        * now rewrite Hf.
      + apply Forall_forall. intros d Hd. apply in_map_iff in Hd as (d0 & <- & Hd). rewrite Forall_forall in Hr.
        destruct (Hr d0 Hd) as (A & B & C' & D). cbn. auto.
  Qed.

  (* ---------- C54 ---------- *)
  Lemma start_filter_in (f : frame T) d q : has_date f = true ->
    (In q (rows (start_filter (Some d) f)) <-> In q (rows f) /\ d <= r_date q).
  Proof. intros D. unfold start_filter. rewrite D. cbn [rows with_rows]. rewrite filter_In, Z.leb_le. reflexivity. Qed.
  Definition set_start (d : option Z) (c : config T) : config T :=
    mkCfg (c_trend c) (c_season c) d (c_years c) (c_mode c) (c_all c) (c_outliers c) (c_yearly c) (c_weekly c)
      (c_naive c) (c_calendar c) (c_ncum c) (c_q1 c) (c_q2 c) (c_widen c) (c_cache c).
  Theorem start_ignored W c source f d : has_date f = false ->
    run_forecast_single W (set_start d c) source f = run_forecast_single W (set_start None c) source f.
  Proof.
    intros D. assert (E : prepared (set_start d c) f = prepared (set_start None c) f).
    { unfold prepared. cbn [c_start set_start c_outliers]. unfold start_filter. now rewrite D; destruct d. }
    assert (F : run_fits W (set_start d c) source f = run_fits W (set_start None c) source f).
    { unfold run_fits. now rewrite E. }
    unfold run_forecast_single. now rewrite F.
  Qed.
  (* the sample a row of the fitted table comes from *)
  Definition same_sample (a b : row T) : Prop := r_date a = r_date b /\ r_src a = r_src b /\ r_x a = r_x b /\ r_y a = r_y b.
  Lemma combine_in_l {A B} (l : list A) (l' : list B) p : In p (combine l l') -> In (fst p) l.
  Proof. destruct p as [a b]. apply in_combine_l. Qed.
  Lemma prepared_rows c f f1 q : prepared c f = Ok f1 -> In q (rows f1) ->
    exists q0, In q0 (rows (start_filter (c_start c) f)) /\ same_sample q q0.
  Proof.
    unfold prepared. destruct (c_outliers c).
    - intros K Hq. destruct (ignore_spikes_inv _ _ K) as (st & sp & _ & L & _ & _ & _ & Er). rewrite Er in Hq.
      apply in_map_iff in Hq as (p & <- & Hp). exists (fst p). split; [now apply (combine_in_l _ _ _ Hp)|]. repeat split.
    - intros K Hq. injection K as <-. exists q. repeat split. exact Hq.
  Qed.
  Lemma weighted_rows (f : frame T) q : In q (rows (with_weights f)) -> exists q0, In q0 (rows f) /\ same_sample q q0.
  Proof.
    unfold with_weights. destruct (has_w f); intros Hq; [exists q; repeat split; exact Hq|]. cbn in Hq.
    apply in_map_iff in Hq as (q0 & <- & Hq). exists q0. repeat split. exact Hq.
  Qed.
  Lemma positive_in (f : frame T) q : In q (rows (positive f)) <-> In q (rows f) /\ nltb n0 (r_w q) = true.
  Proof. cbn. apply filter_In. Qed.
  Lemma fitted_from c f f1 q : prepared c f = Ok f1 -> In q (rows (positive (with_weights f1))) ->
    exists q0, In q0 (rows (start_filter (c_start c) f)) /\ same_sample q q0.
  Proof.
    intros Ep Hq. apply positive_in in Hq as [Hq _]. destruct (weighted_rows _ _ Hq) as (q1 & H1 & S1).
    destruct (prepared_rows _ _ _ _ Ep H1) as (q0 & H0 & S0). exists q0. split; [exact H0|].
    unfold same_sample in *. intuition congruence.
  Qed.
  Lemma start_error W c source f d : has_date f = true -> c_start c = Some d -> (forall q, In q (rows f) -> r_date q < d) ->
    run_forecast_single W c source f = Err ValueError.
  Proof.
    intros D Es A. unfold run_forecast_single, run_fits, prepared. rewrite Es.
    assert (E : start_filter (Some d) f = mkFrame true (has_src f) (has_w f) []).
    { unfold start_filter. rewrite D. unfold with_rows. rewrite D. f_equal. apply filter_none. intros q Hq. apply Z.leb_gt. auto. }
    rewrite E. destruct (c_outliers c).
    - assert (exists s p, model_outliers (mkFrame true (has_src f) (has_w f) []) = Ok (s, p) /\ length p = 0%nat) as (s & p & Eo & Lp).
      { destruct (outliers_shape (T := T) (mkFrame true (has_src f) (has_w f) [])) as (s & p & Eo & _ & Lp).
        - constructor.
        - exists s, p. auto. }
      unfold ignore_spikes. rewrite Eo. cbn [rbind]. destruct p; [|discriminate]. reflexivity.
    - cbn [rbind]. destruct (has_w f); reflexivity.
  Qed.
End Best.
