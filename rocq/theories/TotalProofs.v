(* Forecasts that complete without an exception (C71). *)
From Coq Require Import ZArith String List Bool Lia Reals Lra Sorted Permutation QArith_base.
From Verif Require Import Num Py Cal Fmt Model Base Fixed Naive Freq Aic Normalize Fit Interp Select Stats Outliers Pi Forecast.
From Verif Require Import NumProofs ListProofs StringProofs ModelProofs BaseProofs GuessProofs FixedProofs FitProofs SeasonProofs CacheProofs AicProofs StatsProofs ForecastProofs ForecastProofs2 ExtendProofs MetaProofs LsqProofs RobustProofs.
Import ListNotations.
Local Open Scope string_scope.
Local Open Scope list_scope.
Local Open Scope R_scope.

(* ---- models that can always be fitted to dated samples ---- *)
Definition measured (xs ys : list R) (n : nat) : Prop := length xs = length ys /\ StronglySorted Rlt xs /\ (n + 2 <= length xs)%nat.
Record sturdy (m : fmodel XR) : Prop := {
  st_n : (0 < fm_n m)%nat;
  st_name : fm_name m <> "null";
  st_calls : forall xs ds act p mode, length ds = length xs -> length p = fm_n m ->
    one_per_sample (length xs) (fm_f m xs (Some ds) (Some p) (Some mode) (mkKw act []));
  st_finite : forall xs ds act ps mode, length ds = length xs -> length ps = fm_n m ->
    exists rs, fm_f m (fins xs) (Some ds) (Some (fins ps)) (Some mode) (mkKw act []) = Ok (Ar (fins rs));
  st_dcache : fm_dcache m = [];
  st_reads : forall x d, exists R, (forall k f, In (k, f) R -> dict_get dict_f_cache k = Some f) /\ transparent x d m R;
  st_val : forall x y ds, Forall (only_asserts x y (Some ds)) (fm_val m);
  st_guess : forall xs ys mult rnd, measured xs ys (fm_n m) -> draws rnd ->
    exists ps b, fm_init m (Some (fins xs)) (Some (fins ys)) None mult rnd = Ok (fins ps) /\
      fm_bounds m (Some (fins xs)) (Some (fins ys)) None = Ok b /\ length ps = fm_n m /\
      length (b_lo b) = fm_n m /\ length (b_hi b) = fm_n m /\ entries_within (fins ps) b;
  st_free : forall xs ys d, measured xs ys (fm_n m) -> unpinned m (Some (fins xs)) (Some (fins ys)) d }.

(* ---- composition ---- *)
Lemma measured_le xs ys n n' : (n' <= n)%nat -> measured xs ys n -> measured xs ys n'.
Proof. intros L (A & B & C). split; [exact A|]. split; [exact B|lia]. Qed.
Lemma sturdy_combine sep op mode (m1 m2 : fmodel XR) : (forall a b, exists c, op (Fin a) (Fin b) = Fin c) ->
  sturdy m1 -> sturdy m2 -> sturdy (combine_models sep op mode m1 m2).
Proof.
  intros Op A B. constructor; cbn [combine_models mk_model fm_n fm_name fm_f fm_dcache fm_val fm_init fm_bounds].
  - pose proof (st_n _ A). lia.
  - intros E. cbn in E. discriminate.
  - intros xs ds act p md Ld Lp. unfold f_combine, p_slice. cbn [rbind].
    destruct (st_calls _ A xs ds act (firstn (fm_n m1) p) mode Ld) as (l1 & E1 & L1); [rewrite firstn_length; lia|].
    destruct (st_calls _ B xs ds act (skipn (fm_n m1) p) mode Ld) as (l2 & E2 & L2); [rewrite skipn_length; lia|].
    rewrite E1. cbn [rbind]. rewrite E2. cbn [rbind bcast2]. rewrite L1, L2, Nat.eqb_refl. eexists. split; [reflexivity|].
    rewrite map2_length; lia.
  - intros xs ds act ps md Ld Lp. unfold f_combine, p_slice. cbn [rbind].
    assert (F1 : firstn (fm_n m1) (fins ps) = fins (firstn (fm_n m1) ps)) by (unfold fins; now rewrite firstn_map).
    assert (F2 : skipn (fm_n m1) (fins ps) = fins (skipn (fm_n m1) ps)) by (unfold fins; now rewrite skipn_map).
    rewrite F1, F2.
    assert (La : length (firstn (fm_n m1) ps) = fm_n m1) by (rewrite firstn_length; lia).
    assert (Lb : length (skipn (fm_n m1) ps) = fm_n m2) by (rewrite skipn_length; lia).
    destruct (st_finite _ A xs ds act (firstn (fm_n m1) ps) mode Ld La) as (r1 & E1).
    destruct (st_finite _ B xs ds act (skipn (fm_n m1) ps) mode Ld Lb) as (r2 & E2).
    destruct (st_calls _ A (fins xs) ds act (fins (firstn (fm_n m1) ps)) mode) as (l1 & E1' & L1); [unfold fins; now rewrite map_length|unfold fins; now rewrite map_length|].
    destruct (st_calls _ B (fins xs) ds act (fins (skipn (fm_n m1) ps)) mode) as (l2 & E2' & L2); [unfold fins; now rewrite map_length|unfold fins; now rewrite map_length|].
    rewrite E1 in E1'. injection E1' as <-. rewrite E2 in E2'. injection E2' as <-.
    rewrite E1. cbn [rbind]. rewrite E2. cbn [rbind bcast2]. rewrite L1, L2, Nat.eqb_refl.
    assert (K : exists rs, map2 op (fins r1) (fins r2) = fins rs).
    { clear - Op. unfold map2, fins. revert r2. induction r1 as [|a r1 IH]; intros [|b r2]; try (now exists []).
      destruct (IH r2) as (rs & E). destruct (Op a b) as (c & Ec). exists (c :: rs). cbn [map combine fst snd]. now rewrite E, Ec. }
    destruct K as (rs & ->). eauto.
  - rewrite (st_dcache _ A), (st_dcache _ B). reflexivity.
  - intros x d. destruct (st_reads _ A x d) as (R1 & G1 & T1). destruct (st_reads _ B x d) as (R2 & G2 & T2).
    exists (R1 ++ R2). split.
    + intros k f I. apply in_app_or in I as [I|I]; auto.
    + now apply transparent_combine.
  - intros x y ds. apply Forall_forall. intros v I. unfold set_vals in I. unfold dedup in I; apply dedup_aux_in in I.
    pose proof (st_val _ A x y ds) as V1. pose proof (st_val _ B x y ds) as V2. rewrite Forall_forall in V1, V2.
    apply in_app_or in I as [I|I]; auto.
  - intros xs ys mult rnd M D. rewrite init_fins. unfold init_combine. destruct (draws_split rnd D) as [D1 D2].
    destruct (st_guess _ A xs ys mode (rnd_l rnd)) as (p1 & b1 & I1 & B1 & L1 & Lo1 & Hi1 & W1); [eapply measured_le; [|exact M]; lia|exact D1|].
    destruct (st_guess _ B xs ys mode (rnd_r rnd)) as (p2 & b2 & I2 & B2 & L2 & Lo2 & Hi2 & W2); [eapply measured_le; [|exact M]; lia|exact D2|].
    rewrite I1. cbn [rbind]. rewrite I2. cbn [rbind]. unfold bounds_combine. rewrite B1. cbn [rbind]. rewrite B2. cbn [rbind].
    unfold bounds_concat. rewrite Lo1, Hi1, Lo2, Hi2, !Nat.eqb_refl. cbn [andb]. exists (p1 ++ p2). eexists.
    split; [unfold fins; now rewrite map_app|]. split; [reflexivity|]. cbn [b_lo b_hi]. rewrite !app_length.
    split; [lia|]. split; [lia|]. split; [lia|]. unfold fins. rewrite map_app. apply within_app; assumption.
  - intros xs ys d M. apply unpinned_combine; [apply (st_free _ A)|apply (st_free _ B)]; (eapply measured_le; [|exact M]; lia).
Qed.
Lemma sturdy_madd m1 m2 : sturdy m1 -> sturdy m2 -> sturdy (madd m1 m2).
Proof.
  intros A B. unfold madd. rewrite !is_null_false by (now apply st_name). apply sturdy_combine; auto.
  intros a b. exists (a + b). apply add_fin.
Qed.
Lemma sturdy_mmul m1 m2 : sturdy m1 -> sturdy m2 -> sturdy (mmul m1 m2).
Proof.
  intros A B. unfold mmul. rewrite !is_null_false by (now apply st_name). apply sturdy_combine; auto.
  intros a b. exists (a * b). reflexivity.
Qed.

(* ---- leaves ---- *)
Lemma ok_inj {A} (a b : A) : Ok a = Ok b -> b = a.
Proof. congruence. Qed.
Lemma distinct_sorted xs : StronglySorted Rlt xs -> n_distinct xs = length xs.
Proof. intros K. unfold n_distinct. now rewrite dedup_increasing. Qed.
Lemma guess_fact (C : bool -> Prop) xs ys m : leaf_fact C (Some (fins xs)) (Some (fins ys)) None m -> (forall b, C b) ->
  (forall mult rnd p, draws rnd -> fm_init m (Some (fins xs)) (Some (fins ys)) None mult rnd = Ok p -> exists ps, p = fins ps) ->
  forall mult rnd, draws rnd -> exists ps b, fm_init m (Some (fins xs)) (Some (fins ys)) None mult rnd = Ok (fins ps) /\
      fm_bounds m (Some (fins xs)) (Some (fins ys)) None = Ok b /\ length ps = fm_n m /\
      length (b_lo b) = fm_n m /\ length (b_hi b) = fm_n m /\ entries_within (fins ps) b.
Proof.
  intros (b & Eb & L1 & L2 & G) HC Fin mult rnd D. destruct (G mult rnd) as (p & Ep & Lp & W).
  destruct (Fin mult rnd p D Ep) as (ps & ->). exists ps, b. rewrite fins_length in Lp. auto 7.
Qed.
Lemma blind_reads m : blind m -> forall x d, exists R, (forall k f, In (k, f) R -> dict_get dict_f_cache k = Some f) /\ transparent (T := XR) x d m R.
Proof.
  intros (_ & _ & B) x d. exists []. split; [intros ? ? []|]. apply transparent_blind. intros. now apply B.
Qed.
Ltac st_guess_by L := intros xs ys mult rnd (Hl & Hs & Hn) D; cbn in Hn;
  pose proof (distinct_sorted xs Hs) as Hd; eapply guess_fact; [apply L; lia|cbn; intros; first [exact I|lia|assumption]|clear mult rnd D; intros mult rnd p D Ep|exact D].
Ltac st_trend := intros xs ds act p mode Hd Hp;
  match goal with |- one_per_sample _ (fm_f ?m _ _ _ _ ?k) => exact (trends_one_per_sample XR _ m xs (Some ds) p mode k ltac:(cbn; tauto) Hp) end.
Ltac st_unbounded := intros xs ys d _; apply unbounded_unpinned; intros ? ? ?; now eexists.
Lemma sturdy_linear : sturdy model_linear.
Proof.
  constructor; [cbn; lia|discriminate|st_trend| |reflexivity|apply blind_reads; repeat split|intros x y ds; repeat constructor| |st_unbounded].
  - intros xs ds act ps mode Hd Hp. destruct (two_params ps Hp) as (a & b & ->). eexists. exact (linear_formula xs (Some ds) a b mode (mkKw act [])).
  - st_guess_by leaf_linear. cbn [fm_init model_linear mk_model] in Ep. rewrite init_fins in Ep.
    destruct (init_linear_ok xs ys None mult rnd ltac:(lia)) as (a & b & E & K). rewrite E in Ep. apply ok_inj in Ep; subst p.
    destruct (K ltac:(lia)) as (r & ->). now exists [r; b].
Qed.
Lemma sturdy_constant : sturdy model_constant.
Proof.
  constructor; [cbn; lia|discriminate|st_trend| |reflexivity|apply blind_reads; repeat split|intros x y ds; repeat constructor| |st_unbounded].
  - intros xs ds act ps mode Hd Hp. destruct (one_param ps Hp) as (a & ->). eexists. exact (constant_formula xs (Some ds) a mode (mkKw act [])).
  - st_guess_by leaf_constant. cbn [fm_init model_constant mk_model] in Ep. rewrite init_fins in Ep. unfold init_constant in Ep. apply ok_inj in Ep; subst p.
    unfold nanmean. rewrite filter_not_nan, fins_length. unfold fins at 1. rewrite nsum_fin, ofZ_fin.
    rewrite div_fin by (apply INR_IZR; lia). rewrite n0_fin, n1_fin. destruct (uniform_fin 0 1 rnd 0 D) as (r & ->). cbn. eexists [_]. reflexivity.
Qed.
Lemma sturdy_linear_nondec : sturdy model_linear_nondec.
Proof.
  constructor; [cbn; lia|discriminate|st_trend| |reflexivity|apply blind_reads; repeat split|intros x y ds; repeat constructor| |].
  - intros xs ds act ps mode Hd Hp. destruct (two_params ps Hp) as (a & b & ->). eexists. exact (linear_nondec_formula xs (Some ds) a b mode (mkKw act [])).
  - st_guess_by leaf_linear_nondec. cbn [fm_init model_linear_nondec mk_model] in Ep. rewrite init_fins in Ep. unfold init_linear_nondec in Ep.
    destruct (init_linear_ok xs ys None false rnd ltac:(lia)) as (a & b & E & K). rewrite E in Ep. cbn [rbind] in Ep. apply ok_inj in Ep; subst p.
    destruct (K ltac:(lia)) as (r & ->). rewrite n0_fin. destruct (nltb (Fin r) (Fin 0)); [now exists [0; b]|now exists [r; b]].
  - intros xs ys d _. eexists. split; [reflexivity|]. split; [reflexivity|]. intros i (lo & hi & A & B & C). cbn [b_lo b_hi] in A, B.
    destruct i as [|[|i]]; cbn in A, B; [| |destruct i; discriminate]; injection A as <-; injection B as <-; discriminate.
Qed.
Lemma sturdy_step : sturdy model_step.
Proof.
  constructor; [cbn; lia|discriminate|st_trend| |reflexivity|apply blind_reads; repeat split|intros x y ds; repeat constructor| |st_unbounded].
  - intros xs ds act ps mode Hd Hp. destruct (two_params ps Hp) as (a & b & ->). eexists. exact (step_formula xs (Some ds) a b mode (mkKw act [])).
  - st_guess_by leaf_step. cbn [fm_init model_step mk_model] in Ep. rewrite init_fins in Ep. unfold init_step in Ep.
    destruct (largest1_abs_diffs ys ltac:(lia)) as (j & r & E & _). rewrite E in Ep. cbn [rbind] in Ep. apply ok_inj in Ep; subst p. now eexists [_; _].
Qed.
Lemma sturdy_step_date t : sturdy (get_model_step_date t).
Proof.
  constructor; [cbn; lia|discriminate| | |reflexivity|apply blind_reads; repeat split|intros x y ds; repeat constructor| |st_unbounded].
  - intros xs ds act p mode Hd Hp. destruct p as [|a [|]]; try discriminate. cbn. eexists. split; [reflexivity|]. now rewrite !map_length.
  - intros xs ds act ps mode Hd Hp. destruct (one_param ps Hp) as (a & ->). eexists. exact (step_date_formula (fins xs) ds t a mode (mkKw act [])).
  - st_guess_by leaf_step_date. cbn [fm_init get_model_step_date mk_model] in Ep. rewrite init_fins in Ep. unfold init_step_date in Ep.
    destruct (largest1_abs_diffs ys ltac:(lia)) as (j & r & E & _). rewrite E in Ep. cbn [rbind] in Ep. apply ok_inj in Ep; subst p. now eexists [_].
Qed.
Lemma sturdy_spike_date t0 t1 : sturdy (get_model_spike_date t0 t1).
Proof.
  constructor; [cbn; lia|discriminate| | |reflexivity|apply blind_reads; repeat split|intros x y ds; repeat constructor| |st_unbounded].
  - intros xs ds act p mode Hd Hp. destruct p as [|a [|]]; try discriminate. cbn. eexists. split; [reflexivity|]. now rewrite !map_length.
  - intros xs ds act ps mode Hd Hp. destruct (one_param ps Hp) as (a & ->). eexists. exact (spike_date_formula (fins xs) ds t0 t1 a mode (mkKw act [])).
  - st_guess_by leaf_spike_date. cbn [fm_init get_model_spike_date mk_model] in Ep. rewrite init_fins in Ep. unfold init_spike_date in Ep.
    rewrite np_diff_fins in Ep. destruct (py_max_fins _ (rdiff_nonempty ys ltac:(lia))) as (r & E & _). rewrite E in Ep. cbn [rbind] in Ep. apply ok_inj in Ep; subst p. now exists [r].
Qed.
Lemma sturdy_two_steps : sturdy model_two_steps.
Proof.
  constructor; [cbn; lia|discriminate|st_trend| |reflexivity|apply blind_reads; repeat split|intros x y ds; repeat constructor| |st_unbounded].
  - intros xs ds act ps mode Hd Hp. do 4 (destruct ps as [|? ps]; [discriminate|]). destruct ps; [|discriminate]. eexists. exact (two_steps_formula xs (Some ds) _ _ _ _ mode (mkKw act [])).
  - st_guess_by leaf_two_steps. cbn [fm_init model_two_steps mk_model] in Ep. rewrite init_fins in Ep. unfold init_n_steps in Ep.
    pose proof (nlargest_abs_diffs 2 ys) as N. rewrite N in Ep. replace (Nat.min 2 (length ys - 1)) with 2%nat in * by lia. cbn [Nat.eqb] in Ep.
    pose proof (nlargest_abs_diffs_in 2 ys) as F. destruct (nlargest 2 (abs_diffs (fins ys))) as [|[i u] [|[j v] [|]]]; try discriminate N.
    destruct (F (i, u)) as [_ (r & Er)]; [now left|]. destruct (F (j, v)) as [_ (r' & Er')]; [right; now left|]. cbn [snd] in Er, Er'. subst.
    apply ok_inj in Ep; subst p. now eexists [_; _; _; _].
Qed.
Lemma sturdy_ramp : sturdy model_ramp.
Proof.
  constructor; [cbn; lia|discriminate|st_trend| |reflexivity|apply blind_reads; repeat split|intros x y ds; repeat constructor| |].
  - intros xs ds act ps mode Hd Hp. destruct (two_params ps Hp) as (a & b & ->). eexists. exact (ramp_formula xs (Some ds) a b mode (mkKw act [])).
  - st_guess_by leaf_ramp. cbn [fm_init model_ramp mk_model] in Ep. rewrite init_fins in Ep. unfold init_ramp in Ep.
    rewrite !fins_length, Hl, Nat.eqb_refl in Ep. cbn [rbind] in Ep. unfold dedup_key, dedup in Ep. rewrite combine_fins in Ep.
    change (@nil (XR * XR)) with (map (fun p : R * R => (Fin (fst p), Fin (snd p))) []) in Ep. rewrite dedup_points in Ep.
    set (pts := dedup_aux same_x [] (combine xs ys)) in Ep.
    assert (Lp : length pts = n_distinct xs) by (subst pts; rewrite dedup_points_length, map_fst_combine by exact Hl; reflexivity).
    rewrite map_length, !map_map in Ep. cbn [fst snd] in Ep.
    destruct (ramp_choice pts ltac:(lia)) as (i & a & b & E & _). rewrite !map_map in E. rewrite E in Ep. cbn [rbind] in Ep. apply ok_inj in Ep; subst p. now exists [a; b].
  - intros xs ys d (Hl & Hs & Hn). cbn [fm_n model_ramp mk_model] in Hn. destruct (skip15_spec (length xs) ltac:(lia)) as [K1 K2].
    destruct (at_pos_fins xs (skip15 (length xs)) ltac:(lia)) as (lo & Elo & Nlo).
    destruct (at_neg_fins xs (skip15 (length xs)) ltac:(lia)) as (hi & Ehi & Nhi).
    eexists. cbn [fm_bounds model_ramp mk_model bounds_ramp].
    rewrite fins_length, Elo. cbn [rbind]. destruct (Nat.eqb_spec (skip15 (length xs)) 0) as [E0|_]; [lia|].
    rewrite Ehi. cbn [rbind]. split; [reflexivity|]. split; [reflexivity|]. intros i (l & h & A & B & C). cbn [b_lo b_hi] in A, B.
    destruct i as [|[|i]]; cbn in A, B; [| |destruct i; discriminate]; injection A as <-; injection B as <-; [|discriminate].
    assert (Lt : lo < hi). { clear - Hs K2 Nlo Nhi. assert (Q : (skip15 (length xs) < length xs - skip15 (length xs))%nat) by lia.
      revert Nlo Nhi Q. generalize (skip15 (length xs)) at 1 3 as i. generalize (length xs - skip15 (length xs))%nat as j. clear K2.
      induction Hs as [|x xs Hs IH F]; intros j i Ni Nj Q; [destruct i; discriminate|]. destruct j as [|j]; [lia|]. destruct i as [|i]; cbn in Ni, Nj.
      - injection Ni as ->. apply nth_error_In in Nj. rewrite Forall_forall in F. auto.
      - apply (IH j i); auto; lia. }
    unfold pinned_by in C. rewrite sub_fin, n0_fin in C. change (Reqb (hi - lo) 0 = true) in C. destruct (Reqb_spec (hi - lo) 0); [lra|discriminate].
Qed.
Lemma default_guess name n f vals cvars dcache xs ys mult rnd : draws rnd ->
  let m := mk_model (T := XR) name n f None None vals cvars dcache in
  exists ps b, fm_init m (Some (fins xs)) (Some (fins ys)) None mult rnd = Ok (fins ps) /\
      fm_bounds m (Some (fins xs)) (Some (fins ys)) None = Ok b /\ length ps = fm_n m /\
      length (b_lo b) = fm_n m /\ length (b_hi b) = fm_n m /\ entries_within (fins ps) b.
Proof.
  intros D m. apply (guess_fact always); [eapply leaf_default; reflexivity|intros; exact I| |exact D]. clear. intros mult rnd p D Ep.
  cbn [fm_init mk_model m] in Ep. rewrite init_fins in Ep. unfold init_default in Ep. apply ok_inj in Ep. subst p.
  rewrite dec_1_1000, n1_fin. destruct (uniforms_fin (1 / 1000) 1 rnd n D) as (l & -> & _). now exists l.
Qed.
Lemma sturdy_wday : sturdy model_season_wday.
Proof.
  constructor; [cbn; lia|discriminate| | |reflexivity| | |intros xs ys mult rnd _ D; now apply default_guess|st_unbounded].
  - intros xs ds act p mode Hd Hp. eexists. split; [exact (wday_formula xs ds p mode act Hp)|]. now rewrite map_length.
  - intros xs ds act ps mode Hd Hp. change (fm_n model_season_wday) with 6%nat in Hp. pose proof (wday_formula (fins xs) ds (fins ps) mode act) as E.
    rewrite fins_length in E. specialize (E Hp). unfold call in E. rewrite E. clear E. exists (map (fun t => match wday_value mode (fins ps) t with Fin r => r | _ => 0 end) ds).
    do 2 f_equal. unfold fins at 2. rewrite map_map. apply map_ext. intros t. unfold wday_value.
    destruct (six_params ps Hp) as (a & b & c & d & e & g & ->). destruct (Z.eq_dec (weekday t) 0); [now destruct mode|].
    destruct (weekday_cases t) as [Ew|[Ew|[Ew|[Ew|[Ew|[Ew|Ew]]]]]]; try contradiction; rewrite Ew; reflexivity.
  - intros x d. exists [("a_weekday", cache_a_weekday)]. split; [intros k f [[= <- <-]|[]]; reflexivity|apply transparent_wday].
  - intros x y ds. constructor; [|constructor]. unfold only_asserts. cbn. destruct (Nat.eqb _ 7); cbn; auto.
Qed.
Lemma sturdy_month_old : sturdy model_season_month_old.
Proof.
  constructor; [cbn; lia|discriminate| | |reflexivity| |intros x y ds; repeat constructor|intros xs ys mult rnd _ D; now apply default_guess|st_unbounded].
  - intros xs ds act p mode Hd Hp. eexists. split; [exact (proj2 (month_formula xs ds p mode act Hp))|]. now rewrite map_length.
  - intros xs ds act ps mode Hd Hp. change (fm_n model_season_month_old) with 11%nat in Hp. pose proof (month_formula (fins xs) ds (fins ps) mode act) as E.
    rewrite fins_length in E. specialize (E Hp). apply proj2 in E. unfold call in E. rewrite E. clear E. exists (map (fun t => match month_value mode (fins ps) t with Fin r => r | _ => 0 end) ds).
    do 2 f_equal. unfold fins at 2. rewrite map_map. apply map_ext. intros t. unfold month_value.
    destruct (Z.eq_dec (month t) 1); [now destruct mode|]. 
    destruct (nth_in_or_default (Z.to_nat (month t) - 2)%nat (fins ps) nnan) as [I|E].
    + apply in_map_iff in I as (r & E & _). now rewrite <- E.
    + exfalso. pose proof (month_range t). assert (Q : (Z.to_nat (month t) - 2 < length (fins ps))%nat) by (rewrite fins_length; lia).
      apply (nth_In (fins ps) nnan) in Q. rewrite E in Q. apply in_map_iff in Q as (r & C & _). discriminate.
  - intros x d. exists [("a_month", cache_a_month)]. split; [intros k f [[= <- <-]|[]]; reflexivity|apply transparent_month_old].
Qed.
Lemma sturdy_month : sturdy model_season_month.
Proof.
  destruct sturdy_month_old as [A B C D E F G H I]. constructor; try assumption.
  - discriminate.
  - intros xs ys mult rnd _ Dr. destruct (uniforms_fin (IZR (-1)) 1 rnd 11 Dr) as (l & El & Ll).
    exists l. eexists. split; [cbn [fm_init model_season_month mk_model]; rewrite init_fins; unfold init_season_month; rewrite ofZ_fin, n1_fin; now rewrite El|].
    split; [reflexivity|]. split; [exact Ll|]. split; [reflexivity|]. split; [reflexivity|]. now apply unbounded_within.
Qed.
Lemma sturdy_fourier : sturdy model_season_fourier_yearly.
Proof.
  constructor; [cbn; lia|discriminate| | |reflexivity| |intros x y ds; repeat constructor| |st_unbounded].
  - intros xs ds act p mode Hd Hp. eexists. split; [exact (fourier_formula xs ds p mode act Hp)|]. now rewrite map_length.
  - intros xs ds act ps mode Hd Hp. eexists. exact (fourier_real (fins xs) ds ps mode act Hp).
  - intros x d. exists [("a_t_fourier", cache_a_t_fourier)]. split; [intros k f [[= <- <-]|[]]; reflexivity|apply transparent_fourier].
  - st_guess_by leaf_fourier. cbn [fm_init model_season_fourier_yearly mk_model] in Ep. rewrite init_fins in Ep. unfold init_fourier, np_max, np_min in Ep.
    rewrite no_nan_fins in Ep. destruct (py_max_fins ys) as (mx & E1 & _); [destruct ys; [cbn in *; lia|discriminate]|].
    destruct (py_min_fins ys) as (mn & E2 & _); [destruct ys; [cbn in *; lia|discriminate]|]. rewrite E1, E2 in Ep. cbn [rbind] in Ep. apply ok_inj in Ep; subst p.
    rewrite dec_1_1000, n1_fin. destruct (uniforms_fin (1 / 1000) 1 rnd 20 D) as (l & -> & Ll).
    unfold fins. rewrite map_map. cbn [nsub nmul XROps xsub xmul xadd xopp]. eexists. rewrite <- map_map with (g := Fin) (f := fun x => _). reflexivity.
Qed.

(* ---- models that read masks ---- *)
(* [in_order x ds c]: what the cache [c] holds under a global name is the value of the global cache
   function, and anything else is a mask with a real number for every sample. *)
Definition in_order (x : list XR) (ds : list Z) (c : dict (cval XR)) : Prop := forall k v, dict_get c k = Some v ->
  match dict_get dict_f_cache k with
  | Some f => f x (Some ds) = Ok v
  | None => exists rs, v = CMask (fins rs) /\ length rs = length x
  end.
(* [hardy ne m] is [sturdy] without the requirement that cached and uncached predictions agree, and
   with own cache functions; if [ne], only predictions at one date at least are considered. *)
Definition some_date (ne : bool) (ds : list Z) : Prop := ne = true -> ds <> [].
Record hardy (ne : bool) (m : fmodel XR) : Prop := {
  hd_n : (0 < fm_n m)%nat;
  hd_name : fm_name m <> "null";
  hd_calls : forall xs ds c act p mode, length ds = length xs -> some_date ne ds -> in_order xs ds c -> length p = fm_n m ->
    one_per_sample (length xs) (fm_f m xs (Some ds) (Some p) (Some mode) (mkKw act c));
  hd_finite : forall xs ds c act ps mode, length ds = length xs -> some_date ne ds -> in_order (fins xs) ds c -> length ps = fm_n m ->
    exists rs, fm_f m (fins xs) (Some ds) (Some (fins ps)) (Some mode) (mkKw act c) = Ok (Ar (fins rs));
  hd_dcache : forall k f, In (k, f) (fm_dcache m) -> dict_get (dict_f_cache (T := XR)) k = None /\
    forall x ds, length ds = length x -> some_date ne ds -> exists rs, f x (Some ds) = Ok (CMask (fins rs)) /\ length rs = length x;
  hd_val : forall x y ds, Forall (only_asserts x y (Some ds)) (fm_val m);
  hd_guess : forall xs ys mult rnd, measured xs ys (fm_n m) -> draws rnd ->
    exists ps b, fm_init m (Some (fins xs)) (Some (fins ys)) None mult rnd = Ok (fins ps) /\
      fm_bounds m (Some (fins xs)) (Some (fins ys)) None = Ok b /\ length ps = fm_n m /\
      length (b_lo b) = fm_n m /\ length (b_hi b) = fm_n m /\ entries_within (fins ps) b;
  hd_free : forall xs ys d, measured xs ys (fm_n m) -> unpinned m (Some (fins xs)) (Some (fins ys)) d }.
Lemma in_order_nil x ds : in_order x ds [].
Proof. intros k v C. discriminate. Qed.
Lemma sturdy_uncached m x ds c act p mode : sturdy m -> in_order x ds c ->
  fm_f m x (Some ds) p mode (mkKw act c) = fm_f m x (Some ds) p mode (mkKw act []).
Proof.
  intros St Oc. destruct (st_reads _ St x (Some ds)) as (R & G & Tr). apply Tr. intros k f v I Hv.
  specialize (Oc k v Hv). now rewrite (G k f I) in Oc.
Qed.
Lemma sturdy_hardy ne m : sturdy m -> hardy ne m.
Proof.
  intros St. constructor.
  - now apply st_n.
  - now apply st_name.
  - intros xs ds c act p mode Ld _ Oc Lp. rewrite (sturdy_uncached m xs ds c) by assumption. now apply st_calls.
  - intros xs ds c act ps mode Ld _ Oc Lp. rewrite (sturdy_uncached m (fins xs) ds c) by assumption. now apply st_finite.
  - intros k f I. rewrite (st_dcache _ St) in I. destruct I.
  - now apply st_val.
  - now apply st_guess.
  - now apply st_free.
Qed.
Lemma hardy_weaken m : hardy false m -> hardy true m.
Proof.
  intros [A B C D E F G H]. constructor; auto.
  - intros xs ds c act p mode Ld _ Oc Lp. apply C; auto. intros K. discriminate.
  - intros xs ds c act ps mode Ld _ Oc Lp. apply D; auto. intros K. discriminate.
  - intros k f I. destruct (E k f I) as [E1 E2]. split; [exact E1|]. intros x ds Ld _. apply E2; auto. intros K. discriminate.
Qed.
Lemma hardy_combine ne sep op mode (m1 m2 : fmodel XR) : (forall a b, exists c, op (Fin a) (Fin b) = Fin c) ->
  hardy ne m1 -> hardy ne m2 -> hardy ne (combine_models sep op mode m1 m2).
Proof.
  intros Op A B. constructor; cbn [combine_models mk_model fm_n fm_name fm_f fm_dcache fm_val fm_init fm_bounds].
  - pose proof (hd_n _ _ A). lia.
  - intros E. cbn in E. discriminate.
  - intros xs ds c act p md Ld Ne Oc Lp. unfold f_combine, p_slice. cbn [rbind].
    destruct (hd_calls _ _ A xs ds c act (firstn (fm_n m1) p) mode Ld Ne Oc) as (l1 & E1 & L1); [rewrite firstn_length; lia|].
    destruct (hd_calls _ _ B xs ds c act (skipn (fm_n m1) p) mode Ld Ne Oc) as (l2 & E2 & L2); [rewrite skipn_length; lia|].
    rewrite E1. cbn [rbind]. rewrite E2. cbn [rbind bcast2]. rewrite L1, L2, Nat.eqb_refl. eexists. split; [reflexivity|].
    rewrite map2_length; lia.
  - intros xs ds c act ps md Ld Ne Oc Lp. unfold f_combine, p_slice. cbn [rbind].
    assert (F1 : firstn (fm_n m1) (fins ps) = fins (firstn (fm_n m1) ps)) by (unfold fins; now rewrite firstn_map).
    assert (F2 : skipn (fm_n m1) (fins ps) = fins (skipn (fm_n m1) ps)) by (unfold fins; now rewrite skipn_map).
    rewrite F1, F2.
    assert (La : length (firstn (fm_n m1) ps) = fm_n m1) by (rewrite firstn_length; lia).
    assert (Lb : length (skipn (fm_n m1) ps) = fm_n m2) by (rewrite skipn_length; lia).
    destruct (hd_finite _ _ A xs ds c act (firstn (fm_n m1) ps) mode Ld Ne Oc La) as (r1 & E1).
    destruct (hd_finite _ _ B xs ds c act (skipn (fm_n m1) ps) mode Ld Ne Oc Lb) as (r2 & E2).
    destruct (hd_calls _ _ A (fins xs) ds c act (fins (firstn (fm_n m1) ps)) mode) as (l1 & E1' & L1); [rewrite fins_length; exact Ld|exact Ne|exact Oc|now rewrite fins_length|].
    destruct (hd_calls _ _ B (fins xs) ds c act (fins (skipn (fm_n m1) ps)) mode) as (l2 & E2' & L2); [rewrite fins_length; exact Ld|exact Ne|exact Oc|now rewrite fins_length|].
    rewrite E1 in E1'. injection E1' as <-. rewrite E2 in E2'. injection E2' as <-.
    rewrite E1. cbn [rbind]. rewrite E2. cbn [rbind bcast2]. rewrite L1, L2, Nat.eqb_refl.
    assert (K : exists rs, map2 op (fins r1) (fins r2) = fins rs).
    { clear - Op. unfold map2, fins. revert r2. induction r1 as [|a r1 IH]; intros [|b r2]; try (now exists []).
      destruct (IH r2) as (rs & E). destruct (Op a b) as (c & Ec). exists (c :: rs). cbn [map combine fst snd]. now rewrite E, Ec. }
    destruct K as (rs & ->). eauto.
  - intros k f I. apply dict_update_in in I as [I|I]; [eapply (hd_dcache _ _ A)|eapply (hd_dcache _ _ B)]; exact I.
  - intros x y ds. apply Forall_forall. intros v I. unfold set_vals in I. unfold dedup in I; apply dedup_aux_in in I.
    pose proof (hd_val _ _ A x y ds) as V1. pose proof (hd_val _ _ B x y ds) as V2. rewrite Forall_forall in V1, V2.
    apply in_app_or in I as [I|I]; auto.
  - intros xs ys mult rnd M D. rewrite init_fins. unfold init_combine. destruct (draws_split rnd D) as [D1 D2].
    destruct (hd_guess _ _ A xs ys mode (rnd_l rnd)) as (p1 & b1 & I1 & B1 & L1 & Lo1 & Hi1 & W1); [eapply measured_le; [|exact M]; lia|exact D1|].
    destruct (hd_guess _ _ B xs ys mode (rnd_r rnd)) as (p2 & b2 & I2 & B2 & L2 & Lo2 & Hi2 & W2); [eapply measured_le; [|exact M]; lia|exact D2|].
    rewrite I1. cbn [rbind]. rewrite I2. cbn [rbind]. unfold bounds_combine. rewrite B1. cbn [rbind]. rewrite B2. cbn [rbind].
    unfold bounds_concat. rewrite Lo1, Hi1, Lo2, Hi2, !Nat.eqb_refl. cbn [andb]. exists (p1 ++ p2). eexists.
    split; [unfold fins; now rewrite map_app|]. split; [reflexivity|]. cbn [b_lo b_hi]. rewrite !app_length.
    split; [lia|]. split; [lia|]. split; [lia|]. unfold fins. rewrite map_app. apply within_app; assumption.
  - intros xs ys d M. apply unpinned_combine; [apply (hd_free _ _ A)|apply (hd_free _ _ B)]; (eapply measured_le; [|exact M]; lia).
Qed.
Lemma hardy_madd ne m1 m2 : hardy ne m1 -> hardy ne m2 -> hardy ne (madd m1 m2).
Proof.
  intros A B. unfold madd. rewrite !is_null_false by (now apply (hd_name ne)). apply hardy_combine; auto.
  intros a b. exists (a + b). apply add_fin.
Qed.
Lemma hardy_mmul ne m1 m2 : hardy ne m1 -> hardy ne m2 -> hardy ne (mmul m1 m2).
Proof.
  intros A B. unfold mmul. rewrite !is_null_false by (now apply (hd_name ne)). apply hardy_combine; auto.
  intros a b. exists (a * b). reflexivity.
Qed.

(* ---- fitting a model ---- *)
(* An optimizer that, started from admissible real parameters at which the residuals are real, ends
   with parameters of the same number and a real cost, or gives up with a LinAlgError. *)
Definition dependable (E : env XR) : Prop := forall F g b,
  (forall p, length p = length g -> exists l, F p = Ok l) -> (exists rs, F g = Ok (fins rs)) ->
  length (b_lo b) = length g -> length (b_hi b) = length g -> entries_within g b -> (forall i, ~ pinned b i) ->
  match e_lsq E F g b with
  | LDone _ c x => (exists v, c = Fin v /\ 0 <= v) /\ length x = length g
  | LRaise e => e = LinAlgError
  end.
Lemma map2_sub_fins a b : exists c, map2 nsub (fins a) (fins b) = fins c.
Proof.
  exists (map (fun p => fst p - snd p) (combine a b)). unfold map2, fins. rewrite map_map. revert b.
  induction a as [|x a IH]; intros [|y b]; try reflexivity. cbn [map combine fst snd]. now rewrite IH, sub_fin.
Qed.
Lemma map2_mul_fins a b : exists c, map2 nmul (fins a) (fins b) = fins c.
Proof.
  exists (map (fun p => fst p * snd p) (combine a b)). unfold map2, fins. rewrite map_map. revert b.
  induction a as [|x a IH]; intros [|y b]; try reflexivity. cbn [map combine fst snd]. now rewrite IH.
Qed.
Lemma ws_length (f : frame XR) ws : ws_of f = Some ws -> length ws = length (usable_rows f).
Proof.
  unfold ws_of. destruct (has_w (fit_rows f)); [|discriminate]. intros [= <-]. rewrite map_length.
  destruct (fit_rows_rows zero_lt_XR f) as (g & -> & _). apply map_length.
Qed.
Lemma residuals_total m (f : frame XR) act p cache l : call m (xs_of m f) (dates_of f) (Some p) false (mkKw act cache) = Ok (Ar l) ->
  length l = length (usable_rows f) -> exists rs, get_residuals (Some p) m (xs_of m f) (ys_of f) (dates_of f) (ws_of f) act cache = Ok rs.
Proof.
  intros Ec Ll. unfold get_residuals. rewrite Ec. cbn [rbind bcast2]. assert (Ly : length (ys_of f) = length (usable_rows f)) by apply map_length.
  rewrite Ly, Ll, Nat.eqb_refl. cbn [rbind]. destruct (ws_of f) as [ws|] eqn:Ew; [|cbn; eauto]. apply ws_length in Ew. cbn [bcast2].
  rewrite map2_length by congruence. rewrite Ly, Ew, Nat.eqb_refl. cbn. eauto.
Qed.
Lemma residuals_real m (f : frame XR) act p cache l : finite_rows f -> call m (xs_of m f) (dates_of f) (Some p) false (mkKw act cache) = Ok (Ar (fins l)) ->
  length l = length (usable_rows f) -> exists rs, get_residuals (Some p) m (xs_of m f) (ys_of f) (dates_of f) (ws_of f) act cache = Ok (fins rs).
Proof.
  intros Fr Ec Ll. destruct (rows_fitted f (fun _ => []) Fr) as [Ey Ew]. unfold get_residuals. rewrite Ec. cbn [rbind bcast2].
  assert (Ly : length (ys_of f) = length (usable_rows f)) by apply map_length. rewrite fins_length, Ly, Ll, Nat.eqb_refl. cbn [rbind].
  pose proof Ly as Ly'. rewrite Ey in Ly' |- *. set (ys := map s_y _) in *. destruct (map2_sub_fins ys l) as (c & Ec2).
  assert (Lc : length (map2 nsub (fins ys) (fins l)) = length (usable_rows f)) by (rewrite map2_length; [exact Ly'|rewrite Ly', fins_length; now rewrite Ll]).
  rewrite Ec2 in Lc |- *. destruct (ws_of f) as [ws|] eqn:Eq.
  - apply ws_length in Eq. subst ws. cbn [bcast2]. rewrite Lc, Eq, Nat.eqb_refl. set (ws := map s_w _) in *. destruct (map2_mul_fins c ws) as (e & ->). cbn [rbind nval_list].
    rewrite abs_fins. eauto.
  - cbn [rbind nval_list]. rewrite abs_fins. eauto.
Qed.
Lemma cache_exists (m : fmodel XR) x ds : fm_dcache m = [] -> exists c, init_cache m x (Some ds) = Ok c.
Proof.
  intros Dc. unfold init_cache. rewrite Dc. assert (K : forall ks acc, exists c, init_cache_vars ks x (Some ds) acc = Ok c).
  { induction ks as [|k ks IH]; intros acc; cbn [init_cache_vars]; [eauto|]. destruct (dict_get dict_f_cache k) as [g|] eqn:Eg; [|apply IH].
    assert (exists v, g x (Some ds) = Ok v) as (v & ->); [|cbn [rbind]; apply IH].
    unfold dict_f_cache in Eg. cbn in Eg. repeat (destruct (String.eqb _ _); [injection Eg as <-; cbn; eauto|]). discriminate. }
  destruct (K (fm_cvars m) []) as (c & ->). cbn. eauto.
Qed.
Lemma sturdy_neutral m x ds c act p mode : sturdy m -> init_cache m x (Some ds) = Ok c ->
  fm_f m x (Some ds) p mode (mkKw act c) = fm_f m x (Some ds) p mode (mkKw act []).
Proof.
  intros St Ec. destruct (st_reads _ St x (Some ds)) as (R & G & Tr). apply Tr. intros k f v I Hv.
  destruct (init_cache_sound _ _ _ _ Ec k v Hv) as (g & [P|[_ P]] & Eg).
  - rewrite (st_dcache _ St) in P. destruct P.
  - rewrite (G k f I) in P. now injection P as ->.
Qed.

Lemma hardy_cache ne m x ds : hardy ne m -> length ds = length x -> some_date ne ds ->
  exists c, init_cache m x (Some ds) = Ok c /\ in_order x ds c.
Proof.
  intros St Ld Ne. assert (exists c, init_cache m x (Some ds) = Ok c) as (c & Ec).
  { pose proof (hd_dcache _ _ St) as Dc. unfold init_cache. destruct (cache_exists (mk_model "" 0 f_null None None None (Some (fm_cvars m)) None) x ds eq_refl) as (c & Ec).
    unfold init_cache in Ec. cbn [fm_cvars fm_dcache mk_model] in Ec. destruct (init_cache_vars (fm_cvars m) x (Some ds) []) as [c0|]; [|discriminate Ec].
    cbn [rbind]. clear c Ec. generalize c0. induction (fm_dcache m) as [|[k f] l IH]; intros acc; cbn [init_cache_dict]; [eauto|].
    destruct (Dc k f (or_introl eq_refl)) as [_ D]. destruct (D x ds Ld Ne) as (rs & -> & _). cbn [rbind]. apply IH. intros k' f' I. apply Dc. now right. }
  exists c. split; [exact Ec|]. intros k v Hv. destruct (init_cache_sound _ _ _ _ Ec k v Hv) as (g & [P|[_ P]] & Eg).
  - destruct (hd_dcache _ _ St k g P) as [-> D]. destruct (D x ds Ld Ne) as (rs & Er & L). rewrite Er in Eg. injection Eg as <-. eauto.
  - now rewrite P.
Qed.
Definition increasing_x (f : frame XR) : Prop := StronglySorted Z.lt (map r_x (usable_rows f)).
(* the optimizer always returns a result object *)
Definition answers (E : env XR) : Prop := forall F g b, exists ok c x, e_lsq E F g b = LDone ok c x.
Theorem hardy_fit E ne m f freq src act uc : dependable E -> draws (e_rnd E) -> hardy ne m ->
  has_date f = true -> usable_rows f <> [] -> finite_rows f -> increasing_x f ->
  exists d, fit_model E m f freq src act uc = Ok d /\ (md_fit d = true -> length (md_params d) = fm_n m) /\
    (answers E -> (fm_n m + 2 <= length (usable_rows f))%nat -> accepts m (xs_of m f) (ys_of f) (dates_of f) -> length (md_params d) = fm_n m).
Proof.
  intros De Dr St Hd Hn Fr Sx.
  destruct (Nat.lt_ge_cases (length (usable_rows f)) (fm_n m + 2)) as [Ls|Ll].
  { destruct (fit_short zero_lt_XR get_aic_c E m f freq src act uc Hn Ls) as (d & Ed & _ & (U & _)). exists d. split; [exact Ed|]. split; [congruence|lia]. }
  set (ds := map r_date (usable_rows f)). assert (Eds : dates_of f = Some ds) by (unfold dates_of; now rewrite Hd).
  pose proof (hd_val _ _ St (xs_of m f) (ys_of f) ds) as Va. apply validate_only_asserts in Va. rewrite <- Eds in Va.
  destruct (forallb _ _) in Va; swap 1 2.
  { destruct (fit_invalid zero_lt_XR get_aic_c E m f freq src act uc Ll Va) as (d & Ed & _ & (U & _)). exists d. split; [exact Ed|]. split; [congruence|]. unfold accepts. congruence. }
  assert (Ex : xs_of m f = fins (map (position_of m) (usable_rows f))) by apply xs_positions.
  assert (Fv : finite_values f) by (unfold finite_values, finite_rows in *; eapply Forall_impl; [|exact Fr]; cbn; tauto).
  assert (Ey : ys_of f = fins (values f)) by now apply ys_values.
  set (xs := map (position_of m) (usable_rows f)) in *. set (ys := values f) in *.
  assert (Lx : length xs = length (usable_rows f)) by apply map_length.
  assert (Me : measured xs ys (fm_n m)). { split; [unfold xs, ys, values; now rewrite !map_length|]. split; [now apply positions_sorted|]. lia. }
  destruct (hd_guess _ _ St xs ys false (e_rnd E) Me Dr) as (g & b & Gi & Gb & Lg & Lo & Hi & W).
  assert (Ld : length ds = length (xs_of m f)) by (unfold ds, xs_of; now rewrite !map_length).
  assert (Ne : some_date ne ds) by (intros _ C; apply Hn; now apply map_eq_nil in C).
  destruct (hardy_cache ne m (xs_of m f) ds St Ld Ne) as (c0 & Ec0 & Oc0).
  set (c := if uc then c0 else []).
  assert (Oc : in_order (xs_of m f) ds c) by (unfold c; destruct uc; [exact Oc0|apply in_order_nil]).
  assert (Neu : forall p, call m (xs_of m f) (dates_of f) (Some p) false (mkKw act c) = fm_f m (xs_of m f) (Some ds) (Some p) (Some false) (mkKw act c)).
  { intros p. unfold call. now rewrite Eds. }
  assert (Lxs : length (xs_of m f) = length (usable_rows f)) by apply map_length.
  set (F := fun p => get_residuals (Some p) m (xs_of m f) (ys_of f) (dates_of f) (ws_of f) act c).
  assert (Cost : match e_lsq E F (fins g) b with
    | LDone _ co x => (exists v, co = Fin v /\ 0 <= v) /\ length x = length (fins g) | LRaise e => e = LinAlgError end).
  { apply De; rewrite ?fins_length, ?Lg; try assumption.
    - intros p Lp. destruct (hd_calls _ _ St (xs_of m f) ds c act p false Ld Ne Oc Lp) as (l & El & Ll2). apply (residuals_total _ _ _ _ _ l); [now rewrite Neu|congruence].
    - assert (L2 : length ds = length xs) by (rewrite Ex in Ld; now rewrite fins_length in Ld).
      assert (Oc2 : in_order (fins xs) ds c) by (rewrite <- Ex; exact Oc).
      destruct (hd_finite _ _ St xs ds c act g false L2 Ne Oc2 Lg) as (l & El).
      destruct (hd_calls _ _ St (fins xs) ds c act (fins g) false) as (l' & El' & Ll'); [rewrite fins_length; exact L2|exact Ne|exact Oc2|now rewrite fins_length|].
      rewrite El in El'. injection El' as <-. rewrite !fins_length in Ll'.
      apply (residuals_real _ _ _ _ _ l Fr); [rewrite Neu, Ex; exact El|lia].
    - destruct (hd_free _ _ St xs ys None Me) as (b' & Eb' & _ & U). rewrite Gb in Eb'. injection Eb' as <-. exact U. }
  assert (Adm : admissible E m f (fins g) b).
  { unfold admissible. rewrite Ex, Ey. split; [exact Gi|]. split; [exact Gb|]. now apply validate_iff. }
  pose proof (fit_completes E m f freq src act uc (fins g) b c (hd_n _ _ St) Ll Va) as Fc. rewrite Ex, Ey in Fc at 1. rewrite Eds in Fc at 1.
  specialize (Fc (hd_free _ _ St xs ys (Some ds) Me) Adm).
  assert (Ec : if uc then init_cache m (xs_of m f) (dates_of f) = Ok c else c = []) by (unfold c; destruct uc; [rewrite Eds; exact Ec0|reflexivity]).
  specialize (Fc Ec). fold F in Fc. unfold real_cost, reported in Fc. destruct (e_lsq E F (fins g) b) as [ok co x|e] eqn:Elsq.
  - destruct (Fc (proj1 Cost)) as (d & Ed & Ef & _ & Ep). exists d. split; [exact Ed|]. rewrite Ep, (proj2 Cost), fins_length. auto.
  - subst e. destruct (Fc I) as (d & Ed & Ef & _). exists d. split; [exact Ed|]. split; [congruence|]. intros An. destruct (An F (fins g) b) as (ok & c1 & x & C). rewrite C in Elsq. discriminate.
Qed.
Theorem sturdy_fit E m f freq src act uc : dependable E -> draws (e_rnd E) -> sturdy m ->
  has_date f = true -> usable_rows f <> [] -> finite_rows f -> increasing_x f ->
  exists d, fit_model E m f freq src act uc = Ok d /\ (md_fit d = true -> length (md_params d) = fm_n m) /\
    (answers E -> (fm_n m + 2 <= length (usable_rows f))%nat -> accepts m (xs_of m f) (ys_of f) (dates_of f) -> length (md_params d) = fm_n m).
Proof. intros De Dr St. apply (hardy_fit E false); auto. now apply sturdy_hardy. Qed.
