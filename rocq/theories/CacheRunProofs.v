(* Preparing a cache changes neither a fit nor a forecast (C84). *)
From Coq Require Import ZArith String List Bool QArith_base Lia FunctionalExtensionality.
From Verif Require Import Num Py Cal Fmt Model ModelProofs Base Dummy Fixed Naive Freq Normalize Aic Fit Interp Select Stats Outliers Pi Forecast.
From Verif Require Import CacheProofs ForecastProofs ShiftProofs.
Import ListNotations.
Local Open Scope string_scope.
Local Open Scope list_scope.
Local Open Scope Z_scope.

(* ---- a property shared by all candidates ---- *)
Section Closed.
  Context {T : Type} {N : NumOps T}.
  Variable P : fmodel T -> Prop.
  Hypothesis P_null : P model_null.
  Hypothesis P_linear : P model_linear.
  Hypothesis P_ramp : P model_ramp.
  Hypothesis P_wday : P model_season_wday.
  Hypothesis P_fourier : P model_season_fourier_yearly.
  Hypothesis P_madd : forall m1 m2, P m1 -> P m2 -> P (madd m1 m2).
  Hypothesis P_mmul : forall m1 m2, P m1 -> P m2 -> P (mmul m1 m2).

  Definition all_of (Q : fmodel T -> Prop) (o : option (list (fmodel T))) : Prop := match o with Some l => Forall Q l | None => True end.
  Lemma closed_list t s mode : Forall P t -> all_of P s -> Forall P (list_model (Some t) s mode).
  Proof.
    intros Ft Fs. unfold list_model. apply Forall_dedup. destruct s as [[|m s]|]; [exact Ft| |exact Ft]. destruct t as [|m' t]; [exact Fs|].
    pose proof (Forall_product _ _ _ _ Ft Fs) as F. apply Forall_app. split; (destruct (String.eqb _ _); [constructor|]); apply Forall_map; (eapply Forall_impl; [|exact F]); intros p (P1 & P2).
    - now apply P_madd.
    - now apply P_mmul.
  Qed.
  Lemma closed_season_list use dflt o : Forall P dflt -> all_of P o -> Forall P (Select.season_list use dflt o).
  Proof.
    intros Fd Fo. unfold Select.season_list. destruct use; [|constructor; [apply P_null|constructor]]. destruct o as [[|m l]|]; [constructor; [apply P_null|constructor]|exact Fo|exact Fd].
  Qed.
  Lemma closed_auto mode ly lw ds : all_of P ly -> all_of P lw -> Forall P (auto_season mode ly lw ds).
  Proof.
    intros Fy Fw. unfold auto_season. destruct (date_gap ds) as [g|], (date_span ds) as [sp|]; try (constructor; [apply P_null|constructor]).
    apply Forall_isort.
    assert (L1 : Forall P (Select.season_list ((21 * DAY / 2 <? sp) && (g <=? DAY)) [model_season_wday; model_null] lw)).
    { apply closed_season_list; [|exact Fw]. constructor; [apply P_wday|]. constructor; [apply P_null|constructor]. }
    assert (L2 : Forall P (Select.season_list ((1095 * DAY / 2 <? sp) && (g <=? 92 * DAY)) [model_season_fourier_yearly; model_null] ly)).
    { apply closed_season_list; [|exact Fy]. constructor; [apply P_fourier|]. constructor; [apply P_null|constructor]. }
    pose proof (Forall_product _ _ _ _ L1 L2) as F. match goal with |- Forall P (fold_left ?s ?l ?a) => assert (A : Forall P a) by (constructor; [apply P_null|constructor]); set (stp := s) in *; generalize dependent l; intros ls F end.
    revert A. generalize [model_null (T := T)]. induction F as [|p l (P1 & P2) F IH]; intros acc A; [exact A|]. cbn [fold_left]. apply IH. unfold stp.
    assert (B : Forall P (if String.eqb mode "add" && negb (model_eqb (madd (fst p) (snd p)) model_null) then acc ++ [madd (fst p) (snd p)] else acc)).
    { destruct (String.eqb mode "add" && _); [|exact A]. apply Forall_app. split; [exact A|]. constructor; [now apply P_madd|constructor]. }
    match goal with |- Forall P (if ?b then _ else _) => destruct b end; [|exact B]. apply Forall_app. split; [exact B|]. constructor; [now apply P_mmul|constructor].
  Qed.
  (* what the configuration names, except the naive models *)
  Definition named (Q : fmodel T -> Prop) (c : config T) : Prop :=
    all_of Q (c_trend c) /\ all_of Q (c_season c) /\ all_of Q (c_yearly c) /\ all_of Q (c_weekly c) /\ all_of Q (c_calendar c).
  Lemma closed_candidates c f add mult : named P c -> candidate_lists c f = (add, mult) -> Forall P add /\ Forall P mult.
  Proof.
    intros (Pt & Ps & Py & Pw & Pc). unfold candidate_lists.
    assert (Ft : Forall P match c_trend c with Some l => l | None => default_trend f end).
    { destruct (c_trend c) as [l|]; [exact Pt|]. unfold default_trend. destruct (use_ramp f); repeat (constructor; [first [apply P_linear|apply P_madd; [apply P_linear|apply P_ramp]]|]); constructor. }
    assert (Fs : forall mode, all_of P match c_season c with Some l => Some l | None => if has_date f then Some (auto_season mode (c_yearly c) (c_weekly c) (weighted_dates f)) else None end).
    { intros mode. destruct (c_season c) as [l|]; [exact Ps|]. destruct (has_date f); [|exact I]. cbn. now apply closed_auto. }
    destruct (c_calendar c) as [cal|].
    - destruct (use_calendar f); intros [= <- <-]; split; repeat apply closed_list; auto.
    - intros [= <- <-]. split; apply closed_list; auto.
  Qed.
  (* the naive models may have another property, [Q], which the others have too *)
  Lemma closed_all (Q : fmodel T -> Prop) c mode freq add mult : (forall m, P m -> Q m) -> Q model_naive -> Q model_snaive_wday -> all_of Q (c_naive c) ->
    Forall P add -> Forall P mult -> Forall Q (all_models c mode freq add mult).
  Proof.
    intros PQ Qn Qs Pn Fa Fm. unfold all_models. apply Forall_isort. apply Forall_app. split.
    - destruct (c_naive c) as [l|]; [exact Pn|]. unfold default_naive. destruct freq as [s|]; [destruct (String.eqb s "D")|]; (constructor; [|constructor]); first [exact Qs|exact Qn].
    - apply Forall_impl with (P := P); [exact PQ|]. destruct (String.eqb mode "add"); [exact Fa|]. destruct (String.eqb mode "mult"); [exact Fm|]. apply Forall_dedup. now apply Forall_app.
  Qed.
End Closed.

Section CacheRun.
  Context {T : Type} {N : NumOps T}.

  (* The cache of the model can be prepared for these samples, and predictions with it are those
     without. *)
  Definition cache_ok (m : fmodel T) (x : list T) (d : option (list Z)) : Prop :=
    exists c, init_cache m x d = Ok c /\
      forall act p is_mult, call m x d p is_mult (mkKw act c) = call m x d p is_mult (mkKw act []).
  (* for any dated samples *)
  Definition cache_safe (m : fmodel T) : Prop := forall x d, d <> [] -> cache_ok m x (Some d).

  Lemma uncached_ok (m : fmodel T) x d : fm_cvars m = [] -> fm_dcache m = [] -> cache_ok m x d.
  Proof. intros V D. exists []. split; [|reflexivity]. unfold init_cache. now rewrite V, D. Qed.
  Lemma uncached_safe (m : fmodel T) : fm_cvars m = [] -> fm_dcache m = [] -> cache_safe m.
  Proof. intros V D x d _. now apply uncached_ok. Qed.

  (* ---- models built from the shipped parts ---- *)
  (* the same mask on all dated samples *)
  Definition mask_eq (f g : dummyfun T) : Prop := forall x d, d <> [] -> f x (Some d) = g x (Some d).
  Definition mask_total (f : dummyfun T) : Prop := forall x d, d <> [] -> exists v, f x (Some d) = Ok v.
  (* [mu]: the mask each registered name stands for *)
  Definition consistent (mu : string -> option (dummyfun T)) (t : ctree) : Prop :=
    Forall cleaf_ok (cleaves t) /\
    (forall n f, In (n, f) (flat_map masks_registered (cleaves t)) -> mask_total f /\ exists g, mu n = Some g /\ mask_eq f g) /\
    (forall n f g, In (n, f) (flat_map masks_read (cleaves t)) -> mu n = Some g -> mask_eq f g).
  Definition composed (mu : string -> option (dummyfun T)) (m : fmodel T) : Prop := exists t, m = cbuild t /\ consistent mu t.

  Lemma init_cache_ok (m : fmodel T) x d : (forall k f, provides m k f -> exists v, f x d = Ok v) -> exists c, init_cache m x d = Ok c.
  Proof.
    intros P. unfold init_cache.
    assert (L1 : forall ks acc, (forall k, In k ks -> In k (fm_cvars m)) -> exists c, init_cache_vars ks x d acc = Ok c).
    { induction ks as [|k ks IH]; intros acc I; cbn [init_cache_vars]; [now exists acc|].
      destruct (dict_get dict_f_cache k) as [f|] eqn:Ef; [|apply IH; intros; apply I; now right].
      destruct (P k f) as (v & Ev); [right; split; [apply I; now left|exact Ef]|]. rewrite Ev. cbn [rbind]. apply IH. intros; apply I; now right. }
    assert (L2 : forall fs acc, (forall kf, In kf fs -> In kf (fm_dcache m)) -> exists c, init_cache_dict fs x d acc = Ok c).
    { induction fs as [|(k, f) fs IH]; intros acc I; cbn [init_cache_dict]; [now exists acc|].
      destruct (P k f) as (v & Ev); [left; apply I; now left|]. rewrite Ev. cbn [rbind]. apply IH. intros; apply I; now right. }
    destruct (L1 (fm_cvars m) []) as (c & ->); [auto|]. cbn [rbind]. apply L2. auto.
  Qed.
  Lemma global_dated k f x d : dict_get (@dict_f_cache T N) k = Some f -> exists v, f x (Some d) = Ok v.
  Proof.
    cbn [dict_f_cache dict_get]. destruct (String.eqb k "a_month"); [|destruct (String.eqb k "a_weekday"); [|destruct (String.eqb k "a_t_fourier"); [|discriminate]]];
      intros [= <-]; cbn; eauto.
  Qed.
  Lemma composed_safe mu m : composed mu m -> cache_safe m.
  Proof.
    intros (t & -> & O & R & C) x d Nd.
    destruct (init_cache_ok (cbuild t) x (Some d)) as (c & Ec).
    { intros k f Hp. destruct (provides_ctree t k f Hp) as (l & Il & Pl). pose proof (proj1 (Forall_forall _ _) O l Il) as Ol.
      destruct (cprovides l k f Ol Pl) as [G|G]; [now apply (global_dated k)|]. apply in_map_iff in G as ((n, h) & [= <- <-] & Ih).
      destruct (R n h) as (Th & _); [apply in_flat_map; now exists l|]. destruct (Th x d Nd) as (v & Ev). exists (CMask v). unfold mask_cache. cbn [snd]. now rewrite Ev. }
    exists c. split; [exact Ec|]. intros act p is_mult. apply (cache_invisible t); [exact O| |exact Ec].
    intros n f g If Ig. destruct (R n g Ig) as (_ & h & Eh & Mg). rewrite (C n f h If Eh x d Nd). symmetry. now apply Mg.
  Qed.
  Lemma composed_leaf mu l : cleaf_ok l ->
    (forall n f, In (n, f) (masks_registered l) -> mask_total f /\ exists g, mu n = Some g /\ mask_eq f g) ->
    (forall n f g, In (n, f) (masks_read l) -> mu n = Some g -> mask_eq f g) -> composed mu (cmodel l).
  Proof.
    intros O R C. exists (CLeaf l). split; [reflexivity|]. split; [|split]; cbn [cleaves flat_map].
    - constructor; [exact O|constructor].
    - rewrite app_nil_r. exact R.
    - rewrite app_nil_r. exact C.
  Qed.
  Lemma composed_plain mu l : cleaf_ok l -> masks_registered l = [] -> masks_read l = [] -> composed mu (cmodel l).
  Proof. intros O R C. apply composed_leaf; [exact O|rewrite R; intros ? ? []|rewrite C; intros ? ? ? []]. Qed.
  Lemma composed_blind mu m : blind m -> composed mu m.
  Proof. intros B. exact (composed_plain mu (CBlind m) B eq_refl eq_refl). Qed.
  Lemma consistent_app mu a b t : cleaves t = cleaves a ++ cleaves b -> consistent mu a -> consistent mu b -> consistent mu t.
  Proof.
    intros E (O1 & R1 & C1) (O2 & R2 & C2). unfold consistent. rewrite E, !flat_map_app. split; [|split].
    - apply Forall_app. now split.
    - intros n f I. apply in_app_or in I as [I|I]; auto.
    - intros n f g I. apply in_app_or in I as [I|I]; eauto.
  Qed.
  Lemma composed_madd mu m1 m2 : composed mu m1 -> composed mu m2 -> composed mu (madd m1 m2).
  Proof. intros (a & -> & A) (b & -> & B). exists (CAdd a b). split; [reflexivity|]. now apply (consistent_app mu a b). Qed.
  Lemma composed_mmul mu m1 m2 : composed mu m1 -> composed mu m2 -> composed mu (mmul m1 m2).
  Proof. intros (a & -> & A) (b & -> & B). exists (CMul a b). split; [reflexivity|]. now apply (consistent_app mu a b). Qed.

  (* ---- one fit ---- *)
  Lemma fit_cache_with score E (m : fmodel T) f freq source act :
    (let df := fit_rows f in
     forall d, (if has_date df then Some (map r_date (rows df)) else None) = d -> (length (rows df) >= 2)%nat ->
     cache_ok m (apply_a_x_scaling (map (fun r => nofZ (r_x r)) (rows df)) (Some m)) d) ->
    fit_model_with score E m f freq source act true = fit_model_with score E m f freq source act false.
  Proof.
    cbv zeta. intros K. unfold fit_model_with. destruct (range_label _ _ _) as [rng|]; [|reflexivity]. cbn [rbind].
    destruct (Nat.ltb _ _) eqn:El; [reflexivity|]. destruct (validate_input _ _ _ _) as [v|]; [|reflexivity]. cbn [rbind]. destruct (negb v); [reflexivity|].
    destruct (simplify_model _ _ _ _ _) as [ms|] eqn:Es; [|reflexivity]. cbn [rbind]. destruct (Nat.eqb (fm_n ms) 0); [reflexivity|].
    set (x := apply_a_x_scaling (map (fun r => nofZ (r_x r)) (rows (fit_rows f))) (Some m)) in *.
    assert (Kx : (length (rows (fit_rows f)) >= 2)%nat).
    { apply Nat.ltb_ge in El. assert (Lx : length x = length (rows (fit_rows f))); [|lia].
      unfold x, apply_a_x_scaling. destruct (model_requires_scaling _); rewrite !map_length; reflexivity. }
    assert (S : cache_ok ms x (if has_date (fit_rows f) then Some (map r_date (rows (fit_rows f))) else None)).
    { revert Es. unfold simplify_model. destruct (fm_bounds m _ _ _) as [b|]; [|discriminate]. cbn [rbind]. destruct (negb _); [discriminate|].
      destruct (equal_bounds b) eqn:Eb; [intros [= <-]; now apply K|]. destruct (negb _); [discriminate|]. destruct (existsb _ _); [discriminate|].
      destruct (fancy_get _ _) as [vals|]; [|discriminate]. cbn [rbind]. unfold fix_params_fmodel. destruct (negb _); [discriminate|]. intros [= <-]. now apply uncached_ok. }
    clearbody x. clear K. destruct S as (c & Ec & Cc).
    unfold optimize_least_squares. destruct (fm_init ms _ _ _ _ _) as [g|]; [|reflexivity]. cbn [rbind]. destruct (fm_bounds ms _ _ _) as [b|]; [|reflexivity]. cbn [rbind].
    destruct (validate_initial_guess g b) as [i|]; [|reflexivity]. cbn [rbind]. destruct (negb i); [reflexivity|]. rewrite Ec. cbn [rbind].
    match goal with |- context [e_lsq E ?h1 g b] => match goal with |- context [e_lsq E ?h2 g b] => lazymatch h1 with h2 => fail | _ => replace h2 with h1; [reflexivity|] end end end.
    apply functional_extensionality. intros p. unfold get_residuals. now rewrite Cc.
  Qed.
  Lemma fit_rows_dates f : has_date (fit_rows f) = has_date f.
  Proof. unfold fit_rows. destruct (has_dup _ _); reflexivity. Qed.
  Lemma fit_cache E (m : fmodel T) f freq source act : has_date f = true -> cache_safe m ->
    fit_model E m f freq source act true = fit_model E m f freq source act false.
  Proof.
    intros D S. apply fit_cache_with. cbv zeta. rewrite fit_rows_dates, D. intros d <- L. apply S. destruct (rows (fit_rows f)); [cbn in L; lia|discriminate].
  Qed.

  (* ---- whole forecasts ---- *)
  Definition set_cache (b : bool) (c : config T) : config T :=
    mkCfg (c_trend c) (c_season c) (c_start c) (c_years c) (Forecast.c_mode c) (c_all c) (c_outliers c) (c_yearly c) (c_weekly c)
      (c_naive c) (c_calendar c) (c_ncum c) (c_q1 c) (c_q2 c) (c_widen c) b.
  (* the models named in the configuration are built from the shipped parts, with one meaning per
     name of a mask; the naive ones only need to be safe by themselves *)
  Definition cacheable (c : config T) : Prop :=
    (exists mu, named (composed mu) c) /\ all_of cache_safe (c_naive c).

  Lemma naive_safe : cache_safe model_naive. Proof. now apply uncached_safe. Qed.
  Lemma snaive_safe : cache_safe model_snaive_wday. Proof. now apply uncached_safe. Qed.
  Lemma spike_dates f f1 : ignore_spikes f = Ok f1 -> has_date f1 = has_date (T := T) f.
  Proof. unfold ignore_spikes. destruct (model_outliers f) as [(a, k)|]; [|discriminate]. cbn [rbind]. now intros [= <-]. Qed.
  Lemma prepared_dates c f f1 : prepared c f = Ok f1 -> has_date f1 = has_date (T := T) f.
  Proof.
    unfold prepared. assert (E0 : has_date (start_filter (c_start c) f) = has_date f) by (unfold start_filter; destruct (c_start c); [destruct (has_date f) eqn:E1|]; auto).
    rewrite <- E0. destruct (c_outliers c); [apply spike_dates|]. now intros [= <-].
  Qed.
  Lemma run_fits_cache b W c source f : has_date f = true -> cacheable c -> run_fits W (set_cache b c) source f = run_fits W c source f.
  Proof.
    intros D ((mu & Nc) & Nn). unfold run_fits.
    change (prepared (set_cache b c) f) with (prepared c f). destruct (prepared c f) as [f1|] eqn:Ep; cbn [rbind]; [|reflexivity]. apply prepared_dates in Ep. rewrite D in Ep.
    destruct (input_range _) as [rng|]; cbn [rbind]; [|reflexivity]. change (candidate_lists (set_cache b c)) with (candidate_lists c).
    destruct (candidate_lists c (with_weights f1)) as (add, mult) eqn:El. change (final_mode W (set_cache b c)) with (final_mode W c).
    destruct (final_mode W c _) as [mode|]; cbn [rbind]; [|reflexivity]. destruct (model_actuals _ _) as [act|]; cbn [rbind]; [|reflexivity].
    change (all_models (set_cache b c)) with (all_models c).
    assert (F : Forall cache_safe (all_models c mode (detect_freq_frame f) add mult)).
    { eapply closed_candidates in El as (Fa & Fm); [| | | | | | | |exact Nc].
      - eapply closed_all with (P := composed mu); [|apply naive_safe|apply snaive_safe|exact Nn|exact Fa|exact Fm]. apply composed_safe.
      - apply composed_blind. now repeat constructor.
      - apply composed_blind. now repeat constructor.
      - apply composed_blind. now repeat constructor.
      - now apply (composed_plain mu CWday).
      - now apply (composed_plain mu CFourier).
      - apply composed_madd.
      - apply composed_mmul. }
    do 3 match goal with |- match ?o with Some _ => _ | None => _ end = _ => destruct o; [|reflexivity] end.
    destruct (all_models _ _ _ _ _) as [|m0 ms]; [reflexivity|].
    match goal with |- rbind ?a _ = rbind ?b _ => replace a with b; [reflexivity|] end. symmetry. apply rmapM_ext. intros m Im. unfold fit_one. cbn [c_cache set_cache c_years].
    assert (Eb : forall b', fit_model (w_env W) m (positive (with_weights f1)) (detect_freq_frame f) source (Some act) b' =
                            fit_model (w_env W) m (positive (with_weights f1)) (detect_freq_frame f) source (Some act) false).
    { intros [|]; [|reflexivity]. apply fit_cache; [|rewrite Forall_forall in F; now apply F]. cbn. unfold with_weights. now destruct (has_w f1). }
    now rewrite (Eb b), (Eb (c_cache c)).
  Qed.
  Theorem single_cache b W c source f : has_date f = true -> cacheable c ->
    run_forecast_single W (set_cache b c) source f = run_forecast_single W c source f.
  Proof. intros D Cc. unfold run_forecast_single. now rewrite run_fits_cache. Qed.
  Theorem forecast_cache b W c source t : has_date_after t = true -> cacheable c ->
    run_forecast W (set_cache b c) source t = run_forecast W c source t.
  Proof.
    intros D Cc. unfold run_forecast. destruct (normalize_df t) as [[f|]|] eqn:En; cbn [rbind]; [|reflexivity|reflexivity].
    destruct (normalize_flags t f En) as (Fd & _). rewrite D in Fd. destruct (negb (has_src f)).
    - now rewrite single_cache.
    - match goal with |- rbind ?a _ = rbind ?b _ => replace a with b; [reflexivity|] end. symmetry. apply rmapM_ext. intros s _. now apply single_cache.
  Qed.
End CacheRun.

(* ---- the models users can create ---- *)
Section CacheModels.
  Context {T : Type} {N : NumOps T}.

  Lemma range_dated (d : list Z) : d <> [] -> exists a b, date_range_of (Some d) = Ok (d, a, b).
  Proof. destruct d as [|t d]; [congruence|]. intros _. unfold date_range_of, zmin_opt, zmax_opt. eauto. Qed.
  (* masks of holidays, calendars and lists exist for all dated samples *)
  Lemma listed_total (dm : dummy T) f : (forall g, dm <> DFun g) -> get_f_dummy dm = Ok f -> mask_total f.
  Proof.
    intros Nf E x d Nd. destruct (range_dated d Nd) as (a & b & R). destruct dm as [g|h|c|l|l]; cbn [get_f_dummy] in E.
    - exfalso. now apply (Nf g).
    - injection E as <-. rewrite R. cbn [rbind]. eauto.
    - injection E as <-. rewrite R. cbn [rbind]. eauto.
    - destruct l; [discriminate|]. injection E as <-. eauto.
    - destruct l; [discriminate|]. injection E as <-. eauto.
  Qed.
  Lemma mask_eq_refl (f : dummyfun T) : mask_eq f f. Proof. intros x d _. reflexivity. Qed.

  Lemma composed_dummy mu name (dm : dummy T) f m : get_f_dummy dm = Ok f -> mask_total f -> mu name = Some f -> get_model_dummy name dm = Ok m -> composed mu m.
  Proof.
    intros Ef Tf Mu. unfold get_model_dummy. rewrite Ef. cbn [rbind]. destruct (validate_f_dummy f); [|discriminate]. cbn [rbind]. intros E. injection E as <-.
    apply (composed_leaf mu (CDummy name f)); [exact I| |].
    - intros n g [[= <- <-]|[]]. split; [exact Tf|]. exists f. split; [exact Mu|apply mask_eq_refl].
    - intros n g h [[= <- <-]|[]] Eh. rewrite Mu in Eh. injection Eh as <-. apply mask_eq_refl.
  Qed.
  Lemma dummies_of {A} (name : A -> string) (dm : A -> dummy T) l ms : rmapM (fun a => get_model_dummy (name a) (dm a)) l = Ok ms ->
    exists nfs, ms = dummies nfs /\ length nfs = length l /\ (forall n f, In (n, f) nfs -> exists a, In a l /\ n = name a /\ get_f_dummy (dm a) = Ok f).
  Proof.
    revert ms. induction l as [|a l IH]; cbn [rmapM]; intros ms.
    - intros [= <-]. exists []. repeat split. intros ? ? [].
    - unfold get_model_dummy at 1. destruct (get_f_dummy (dm a)) as [f|] eqn:Ef; [|discriminate]. cbn [rbind]. destruct (validate_f_dummy f); [|discriminate]. cbn [rbind].
      destruct (rmapM _ l) as [ms'|]; [|discriminate]. cbn [rbind]. intros E. injection E as <-. destruct (IH ms' eq_refl) as (nfs & -> & Ln & I).
      exists ((name a, f) :: nfs). split; [reflexivity|]. split; [cbn; now rewrite Ln|]. intros n g [[= <- <-]|Hi].
      + exists a. split; [now left|]. now split.
      + destruct (I n g Hi) as (b & Ib & K). exists b. split; [now right|exact K].
  Qed.
  Lemma composed_calendars mu l name m :
    (forall c f, In c l -> cal_rules c <> [] -> get_f_dummy (DCal c) = Ok f -> mu (cal_name c) = Some f) ->
    get_model_from_calendars l name = Ok m -> composed mu m.
  Proof.
    intros Mu. unfold get_model_from_calendars. set (l' := filter _ l). destruct l' as [|c0 l1] eqn:El; [discriminate|]. rewrite <- El.
    destruct (rmapM _ l') as [ms|] eqn:Em; [|discriminate]. cbn [rbind]. intros E. injection E as <-. subst l'.
    destruct (dummies_of cal_name DCal _ _ Em) as (nfs & -> & Ln & I). unfold dummies at 1 4. rewrite map_length.
    apply (composed_leaf mu (CCalendar (match name with Some s => s | None => cal_name c0 end) nfs)); cbn [cleaf_ok masks_registered masks_read].
    - intros ->. rewrite El in Ln. discriminate.
    - intros n f Hi. destruct (I n f Hi) as (c & Ic & -> & Ef). split; [apply (listed_total (DCal c)); [discriminate|exact Ef]|].
      exists f. split; [|apply mask_eq_refl]. apply filter_In in Ic as (Ic & Rc). apply Mu; [exact Ic| |exact Ef]. destruct (cal_rules c); [discriminate Rc|discriminate].
    - intros n f g Hi Eg. destruct (I n f Hi) as (c & Ic & -> & Ef). apply filter_In in Ic as (Ic & Rc).
      rewrite (Mu c f Ic) in Eg; [|destruct (cal_rules c); [discriminate Rc|discriminate]|exact Ef]. injection Eg as <-. apply mask_eq_refl.
  Qed.
  Lemma composed_datelist mu name args m : mu "model_dummy" = None -> get_model_from_datelist name args = Ok m -> composed mu m.
  Proof.
    intros Mu. unfold get_model_from_datelist. destruct (rmapM _ args) as [ms|] eqn:Em; [|discriminate]. cbn [rbind].
    destruct (dummies_of (fun _ : list Z => "model_dummy") DDates _ _ Em) as (nfs & -> & Ln & I). destruct nfs as [|nf nfs]; [discriminate|].
    intros E. assert (E' : Ok m = Ok (cmodel (CDatelist name (nf :: nfs)))).
    { rewrite <- E. unfold cmodel. replace (length (nf :: nfs)) with (length (dummies (nf :: nfs))) by (unfold dummies; apply map_length). reflexivity. }
    injection E' as ->.
    apply (composed_leaf mu (CDatelist name (nf :: nfs))); cbn [cleaf_ok masks_registered masks_read].
    - discriminate.
    - intros ? ? [].
    - intros n f g Hi Eg. destruct (I n f Hi) as (a & _ & -> & _). now rewrite Mu in Eg.
  Qed.
  Lemma composed_shipped mu : Forall (composed mu)
    [model_null; model_constant; model_linear; model_linear_nondec; model_quasilinear; model_exp; model_decay; model_step; model_two_steps; model_sigmoid_step;
     model_sigmoid; model_ramp; model_spike; model_season_wday; model_season_month; model_season_month_old; model_season_fourier_yearly].
  Proof.
    pose proof (trends_blind (T := T)) as B. change (Forall (composed mu) ([model_null; model_constant; model_linear; model_linear_nondec; model_quasilinear; model_exp; model_decay; model_step; model_two_steps; model_sigmoid_step;
     model_sigmoid; model_ramp; model_spike] ++ map cmodel [CWday; CMonth; CMonthOld; CFourier])). apply Forall_app. split.
    - eapply Forall_impl; [|exact B]. intros m Bm. now apply composed_blind.
    - repeat constructor; now apply composed_plain.
  Qed.
End CacheModels.
