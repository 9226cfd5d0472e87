(* A daily or weekly series is forecast without an exception (C71): candidates, prediction
   intervals, and the whole of run_forecast_single. *)
From Coq Require Import ZArith String List Bool Lia Reals Lra Sorted Permutation QArith_base.
From Verif Require Import Num Py Cal Fmt Model Base Fixed Naive Freq Aic Normalize Fit Interp Select Stats Outliers Pi Forecast.
From Verif Require Import NumProofs ListProofs StringProofs ModelProofs BaseProofs GuessProofs FixedProofs FitProofs SeasonProofs CacheProofs AicProofs StatsProofs FreqProofs GridProofs InterpProofs NaiveProofs SnaiveProofs ForecastProofs ForecastProofs2 ExtendProofs MetaProofs LsqProofs RobustProofs OutlierProofs TotalProofs TotalProofs2.
Import ListNotations.
Local Open Scope string_scope.
Local Open Scope list_scope.
Local Open Scope R_scope.

(* ---- candidates ---- *)
Section Ordinary.
  Variable ne : bool.
  Definition ordinary (m : fmodel XR) : Prop := hardy ne m \/ m = model_null.
Lemma ordinary_madd a b : ordinary a -> ordinary b -> ordinary (madd a b).
Proof.
  intros [A| ->] [B| ->]; unfold madd.
  - left. now apply hardy_madd.
  - rewrite (is_null_false a) by (now apply (hd_name ne)). now left.
  - now left.
  - now right.
Qed.
Lemma ordinary_mmul a b : ordinary a -> ordinary b -> ordinary (mmul a b).
Proof.
  intros [A| ->] [B| ->]; unfold mmul.
  - left. now apply hardy_mmul.
  - rewrite (is_null_false a) by (now apply (hd_name ne)). now left.
  - now left.
  - now right.
Qed.
Lemma product_in {A B} (a : A) (b : B) l l' : In (a, b) (product l l') -> In a l /\ In b l'.
Proof.
  unfold product. now rewrite in_prod_iff.
Qed.
Lemma list_model_ordinary t s mode : (forall l m, t = Some l -> In m l -> ordinary m) -> (forall l m, s = Some l -> In m l -> ordinary m) ->
  forall m, In m (list_model t s mode) -> ordinary m.
Proof.
  intros Ht Hs m I. unfold list_model, dedup in I. apply dedup_aux_in in I.
  destruct s as [[|b s]|].
  - destruct t as [t|]; [eapply Ht; eauto|destruct I].
  - destruct t as [[|a t]|]; [eapply Hs; eauto| |eapply Hs; eauto]. apply in_app_or in I as [I|I].
    + destruct (String.eqb mode "mult"); [destruct I|]. apply in_map_iff in I as ([x y] & <- & I). apply product_in in I as [Ix Iy]. apply ordinary_madd; eauto.
    + destruct (String.eqb mode "add"); [destruct I|]. apply in_map_iff in I as ([x y] & <- & I). apply product_in in I as [Ix Iy]. apply ordinary_mmul; eauto.
  - destruct t as [t|]; [eapply Ht; eauto|destruct I].
Qed.
Definition ordinary_list (l : option (list (fmodel XR))) : Prop := forall ms m, l = Some ms -> In m ms -> ordinary m.
Lemma season_list_ordinary use dflt l : (forall m, In m dflt -> ordinary m) -> ordinary_list l -> forall m, In m (Select.season_list use dflt l) -> ordinary m.
Proof.
  intros D L m I. unfold Select.season_list in I. destruct use; [|destruct I as [<-|[]]; now right].
  destruct l as [[|a l]|]; [destruct I as [<-|[]]; now right|eapply L; eauto|auto].
Qed.
Lemma auto_season_ordinary mode ly lw ds : ordinary_list ly -> ordinary_list lw -> forall m, In m (auto_season mode ly lw ds) -> ordinary m.
Proof.
  intros Hy Hw m I. unfold auto_season in I.
  destruct (date_gap ds) as [gap|]; [destruct (date_span ds) as [span|]|]; try (destruct I as [<-|[]]; now right).
  cbv zeta in I. apply isort_in in I. revert m I.
  match goal with |- context [product ?a ?b] => set (lw' := a); set (ly' := b) end.
  assert (P : forall a b, In (a, b) (product lw' ly') -> ordinary a /\ ordinary b).
  { intros a b I. apply product_in in I as [Ia Ib]. split.
    - eapply season_list_ordinary; [|exact Hw|exact Ia]. intros m [<-|[<-|[]]]; [left; apply sturdy_hardy, sturdy_wday|now right].
    - eapply season_list_ordinary; [|exact Hy|exact Ib]. intros m [<-|[<-|[]]]; [left; apply sturdy_hardy, sturdy_fourier|now right]. }
  assert (A0 : forall m, In m [model_null] -> ordinary m) by (intros m [<-|[]]; now right).
  revert A0 P. generalize [model_null (T := XR)] as acc. generalize (product lw' ly') as l. induction l as [|[a b] l IH]; intros acc A0 P m I; cbn [fold_left] in I; [auto|].
  refine (IH _ _ _ m I); [|intros; apply P; now right]. clear IH m I. intros m I. cbn [fst snd] in I. destruct (P a b (or_introl eq_refl)) as [Pa Pb].
  assert (K : forall k c, ordinary k -> forall m, In m (if c : bool then acc ++ [k] else acc) -> ordinary m).
  { intros k c Pk m' I'. destruct c; [|auto]. apply in_app_or in I' as [I'|[<-|[]]]; auto. }
  destruct (_ && _ && _) in I; [apply in_app_or in I as [I|[<-|[]]]|]; [| |]; try (now apply ordinary_mmul); eapply K; try exact I; now apply ordinary_madd.
Qed.
End Ordinary.
(* with predictions for no date at all only if the forecast is for a negative number of years *)
Definition needs_date (c : config XR) : bool := (0 <=? Qnum (c_years c))%Z.
Record config_ordinary (c : config XR) : Prop := {
  cp_trend : ordinary_list (needs_date c) (c_trend c); cp_season : ordinary_list (needs_date c) (c_season c); cp_yearly : ordinary_list (needs_date c) (c_yearly c);
  cp_weekly : ordinary_list (needs_date c) (c_weekly c); cp_calendar : ordinary_list (needs_date c) (c_calendar c) }.
Lemma candidates_ordinary c f : config_ordinary c -> forall m, In m (fst (candidate_lists c f)) \/ In m (snd (candidate_lists c f)) -> ordinary (needs_date c) m.
Proof.
  intros [Ht Hs Hy Hw Hc]. unfold candidate_lists. cbv zeta.
  set (trend := match c_trend c with Some l => l | None => default_trend f end).
  assert (T : forall l m, Some trend = Some l -> In m l -> ordinary (needs_date c) m).
  { intros l m [= <-] I. unfold trend in I. destruct (c_trend c) as [t|] eqn:E; [eapply Ht; eauto|]. unfold default_trend in I.
    destruct (use_ramp f); [destruct I as [<-|[<-|[]]]|destruct I as [<-|[]]]; left; apply sturdy_hardy; [apply sturdy_linear| |apply sturdy_linear].
    apply sturdy_madd; [apply sturdy_linear|apply sturdy_ramp]. }
  pose (season := fun mode : string => match c_season c with Some l => Some l | None => if has_date f then Some (auto_season mode (c_yearly c) (c_weekly c) (weighted_dates f)) else None end).
  assert (Sn : forall mode l m, season mode = Some l -> In m l -> ordinary (needs_date c) m).
  { intros mode l m E I. unfold season in E. destruct (c_season c) as [s|] eqn:Es; [injection E as <-; eapply Hs; eauto|].
    destruct (has_date f); [|discriminate]. injection E as <-. eapply auto_season_ordinary; [| |exact I]; assumption. }
  assert (A : forall m, In m (list_model (Some trend) (season "add") "add") -> ordinary (needs_date c) m) by (apply list_model_ordinary; [exact T|apply Sn]).
  assert (B : forall m, In m (list_model (Some trend) (season "mult") "mult") -> ordinary (needs_date c) m) by (apply list_model_ordinary; [exact T|apply Sn]).
  fold (season "add"). fold (season "mult"). destruct (c_calendar c) as [cal|] eqn:Ec; [destruct (use_calendar f)|]; cbn [fst snd]; intros m [I|I]; auto.
  - revert m I. apply list_model_ordinary; [intros l m [= <-]; apply A|intros l m [= <-]; now apply Hc].
  - revert m I. apply list_model_ordinary; [intros l m [= <-]; apply B|intros l m [= <-]; now apply Hc].
Qed.
(* a model list is empty only if everything was excluded *)
Lemma list_model_some t s mode : t <> [] \/ (exists a l, s = Some (a :: l)) -> (mode = "add" \/ mode = "mult") -> list_model (T := XR) (Some t) s mode <> [].
Proof.
  intros N Md. unfold list_model.
  assert (D : forall l : list (fmodel XR), l <> [] -> dedup model_eqb l <> []) by (intros [|a l] N'; [congruence|discriminate]).
  apply D. destruct s as [[|b s]|].
  - destruct N as [N|(a & l & E)]; [exact N|discriminate].
  - destruct t as [|a t]; [discriminate|]. destruct Md as [-> | ->]; discriminate.
  - destruct N as [N|(a & l & E)]; [exact N|discriminate].
Qed.
Lemma auto_season_some mode ly lw ds : exists a l, auto_season (T := XR) mode ly lw ds = a :: l.
Proof.
  assert (K : auto_season (T := XR) mode ly lw ds <> []).
  { unfold auto_season. destruct (date_gap ds) as [gap|]; [destruct (date_span ds) as [span|]|]; try discriminate.
    cbv zeta. intros C. apply (f_equal (@length _)) in C. rewrite isort_length in C. cbn [length] in C. revert C.
    match goal with |- context [fold_left ?F] => set (step := F) end.
    assert (G : forall l acc, (0 < length acc)%nat -> (0 < length (fold_left step l acc))%nat).
    { induction l as [|p l IH]; intros acc L; cbn [fold_left]; [exact L|]. apply IH. unfold step.
      destruct (_ && _ && _); [rewrite app_length; cbn; lia|]. destruct (_ && _); [rewrite app_length; cbn; lia|exact L]. }
    match goal with |- context [fold_left step ?l ?a] => pose proof (G l a ltac:(cbn; lia)) end. lia. }
  destruct (auto_season mode ly lw ds) as [|a l]; [congruence|eauto].
Qed.
Lemma candidates_some c f : has_date f = true -> (c_trend c = Some [] -> c_season c <> Some []) ->
  fst (candidate_lists (T := XR) c f) <> [] /\ snd (candidate_lists c f) <> [].
Proof.
  intros Hd Ne. unfold candidate_lists. cbv zeta. rewrite Hd.
  set (trend := match c_trend c with Some l => l | None => default_trend f end).
  pose (season := fun mode : string => match c_season c with Some l => Some l | None => Some (auto_season mode (c_yearly c) (c_weekly c) (weighted_dates f)) end).
  fold (season "add"). fold (season "mult").
  assert (L : forall mode mode', mode' = "add" \/ mode' = "mult" -> list_model (Some trend) (season mode) mode' <> []).
  { intros mode mode' Md. apply list_model_some; [|exact Md]. unfold trend, season. destruct (c_trend c) as [[|a t]|] eqn:Et.
    - right. destruct (c_season c) as [[|b s]|]; [exfalso; now apply Ne|eauto|]. destruct (auto_season_some mode (c_yearly c) (c_weekly c) (weighted_dates f)) as (a & l & ->). eauto.
    - left. discriminate.
    - left. unfold default_trend. destruct (use_ramp f); discriminate. }
  destruct (c_calendar c) as [cal|]; [destruct (use_calendar f)|]; cbn [fst snd]; split; try (apply L; auto); apply list_model_some; auto; left; apply L; auto.
Qed.
Lemma all_models_some c mode freq (la lm : list (fmodel XR)) : la <> [] -> lm <> [] -> all_models c mode freq la lm <> [].
Proof.
  intros A B C. unfold all_models in C. apply (f_equal (@length _)) in C. rewrite isort_length, app_length in C. cbn [length] in C.
  assert (K : forall l : list (fmodel XR), l <> [] -> length l <> 0%nat) by (intros [|x l] N; [congruence|discriminate]).
  destruct (String.eqb mode "add"); [apply (K la A); lia|]. destruct (String.eqb mode "mult"); [apply (K lm B); lia|].
  apply (K (dedup model_eqb (la ++ lm))); [|lia]. destruct la; [congruence|discriminate].
Qed.
Definition naive_ordinary (c : config XR) : Prop :=
  forall ms m, c_naive c = Some ms -> In m ms -> ordinary (needs_date c) m \/ m = model_naive \/ m = model_snaive_wday.
Lemma all_models_ordinary c mode freq f : config_ordinary c -> naive_ordinary c ->
  forall m, In m (all_models c mode freq (fst (candidate_lists c f)) (snd (candidate_lists c f))) -> ordinary (needs_date c) m \/ m = model_naive \/ m = model_snaive_wday.
Proof.
  intros Co Na m I. unfold all_models in I. apply isort_in in I. apply in_app_or in I as [I|I].
  - destruct (c_naive c) as [ms|] eqn:E; [eapply Na; eauto|]. unfold default_naive in I. destruct freq as [s|]; [|destruct I as [<-|[]]; auto].
    destruct (String.eqb s "D"); destruct I as [<-|[]]; auto.
  - left. apply (candidates_ordinary c f Co). destruct (String.eqb mode "add"); [now left|]. destruct (String.eqb mode "mult"); [now right|].
    unfold dedup in I. apply dedup_aux_in in I. now apply in_app_or in I.
Qed.

(* ---- preparation of the table ---- *)
Definition same_sample (a b : row XR) : Prop := r_date b = r_date a /\ r_x b = r_x a /\ r_y b = r_y a.
Record prepares (f0 f2 : frame XR) : Prop := {
  pp_date : has_date f2 = has_date f0;
  pp_rows : Forall2 same_sample (rows f0) (rows f2);
  pp_w : forall r, In r (rows f2) -> tame (r_w r) }.
Lemma same_refl l : Forall2 same_sample l l.
Proof. induction l; constructor; [unfold same_sample; auto|assumption]. Qed.
Lemma same_map l (h : row XR -> XR) : Forall2 same_sample l (map (fun r => set_w r (h r)) l).
Proof. induction l; constructor; [unfold same_sample; auto|assumption]. Qed.
Lemma outliers_length (f : frame XR) st sp : model_outliers f = Ok (st, sp) -> length sp = length (rows f).
Proof.
  unfold model_outliers. destruct (has_dup Z.eqb _); [discriminate|]. cbv zeta. destruct (iqr_thresholds _) as [lo hi].
  match goal with |- context [osamples lo hi ?p ?d] => set (pos := p); set (dif := d) end.
  assert (L : length (osamples lo hi pos dif) = length (rows f)).
  { rewrite osamples_length; [apply map_length|]. unfold pos, dif. now rewrite pd_diff_length, !map_length. }
  destruct (existsb o_chg _); intros [= <- <-]; rewrite ?map_length, ?repeat_length; auto.
Qed.
Lemma spikes_ok (f : frame XR) : NoDup (map r_date (rows f)) -> has_date f = true -> (has_w f = true -> forall r, In r (rows f) -> tame (r_w r)) ->
  exists f1, ignore_spikes f = Ok f1 /\ prepares f f1 /\ has_w f1 = true.
Proof.
  intros Nd Hd Hw. unfold ignore_spikes. destruct (model_outliers f) as [[st sp]|e] eqn:E; swap 1 2.
  { exfalso. unfold model_outliers in E. rewrite Hd in E. destruct (has_dup Z.eqb (map (fun r => r_date r) (rows f))) eqn:D.
    - assert (has_dup Z.eqb (map r_date (rows f)) = false) by (now apply (has_dup_iff Z.eqb Z.eqb_eq)). change (map (fun r : row XR => r_date r) (rows f)) with (map r_date (rows f)) in D. congruence.
    - cbv zeta in E. destruct (iqr_thresholds _) in E. destruct (existsb o_chg _) in E; discriminate. }
  cbn [rbind]. eexists. split; [reflexivity|]. split; [|reflexivity]. apply outliers_length in E. constructor; cbn [has_date rows]; auto.
  - revert E. generalize (rows f) as l. clear. intros l. revert sp. induction l as [|a l IH]; intros [|b sp] E; try discriminate; [constructor|].
    cbn [combine map fst snd]. constructor; [unfold same_sample; auto|]. apply IH. now injection E.
  - intros r I. apply in_map_iff in I as ([q b] & <- & I). apply in_combine_l in I. cbn [fst snd set_w r_w].
    assert (K : tame (if b then n0 else n1 : XR)) by (left; destruct b; cbn; eauto). destruct (has_w f) eqn:W; [|exact K]. apply tame_mul; auto.
Qed.
Lemma weights_prepared (f : frame XR) : (has_w f = true -> forall r, In r (rows f) -> tame (r_w r)) -> prepares f (with_weights f).
Proof.
  intros Hw. unfold with_weights. destruct (has_w f) eqn:W; [constructor; auto using same_refl|].
  constructor; cbn [has_date rows]; auto.
  - apply (same_map (rows f) (fun _ => n1)).
  - intros r I. apply in_map_iff in I as (q & <- & _). left. cbn. eauto.
Qed.

(* ---- prediction intervals ---- *)
Lemma detect_some ds : (forall a b, In a ds -> In b ds -> ((a - b) mod DAY = 0)%Z) -> (exists a b, In a ds /\ In b ds /\ a <> b) ->
  exists f, detect_freq ds = Some f.
Proof.
  intros M (a & b & Ia & Ib & N). destruct (gap_cases ds) as [C|(g & G)]; [exfalso; now apply N, C|].
  rewrite (detect_table ds g G). destruct G as [(a' & b' & Ia' & Ib' & L & <-) _].
  specialize (M b' a' Ib' Ia'). apply Z.mod_divide in M as (k & M); [|pose proof DAYp; lia].
  assert (23 * HOUR <= b' - a')%Z by (unfold DAY, HOUR in *; lia).
  assert ((23 * HOUR <=? b' - a')%Z = true) as -> by now apply Z.leb_le.
  repeat match goal with |- exists f, (if ?b then _ else _) = _ => destruct b; try (eexists; reflexivity) end.
Qed.
Lemma residuals_need {T} `{NumOps T} acts (l : list (drow T)) a r : residuals acts l = a :: r -> acts <> [].
Proof.
  intros E ->. unfold residuals in E. assert (F : forall l', flat_map (fun r : drow T => map (fun a : Z * T => nsub (snd a) (d_y r)) (filter (fun a : Z * T => (fst a =? d_date r)%Z) [])) l' = []) by (induction l'; auto).
  rewrite F in E. discriminate.
Qed.
Definition within (q1 q2 : Z) : Prop := (0 < q1 < 100 /\ 0 < q2 < 100)%Z.
Lemma percentiles_ok {T} `{NumOps T} q1 q2 (l : list (drow T)) s : within q1 q2 -> exists p, add_percentiles l s q1 q2 = Ok p.
Proof.
  intros [A B]. unfold add_percentiles. destruct (Z.ltb_spec 0 q1), (Z.ltb_spec q1 100), (Z.ltb_spec 0 q2), (Z.ltb_spec q2 100); try lia. cbn. eauto.
Qed.
Lemma pi_total {T} `{NumOps T} draw n k q1 q2 (l : list (drow T)) : within q1 q2 ->
  (exists f, detect_freq (map d_date (filter (fun r => d_actual r || d_best r) l)) = Some f) ->
  exists p, pi_single draw n k q1 q2 (mkPT true true true true l) = Ok p.
Proof.
  intros Q (f & D). unfold pi_single. cbn [pt_best pt_rows pt_dates pt_w pt_src]. cbv zeta. set (l' := filter _ l) in *.
  rewrite D. cbn [days_from_freq rbind]. assert (Nl : l' <> []) by (intros C; rewrite C in D; discriminate).
  match goal with |- context [rbind ?e _] => assert (exists acts, e = Ok acts) as (acts & ->) by (destruct (_ && _); cbn; eauto) end. cbn [rbind].
  destruct (residuals acts l') as [|a r] eqn:Er; cbn [negb].
  - destruct l'; [congruence|eauto].
  - apply residuals_need in Er. destruct (zmax_opt (map fst acts)) as [last|] eqn:Ez; [|destruct acts; [congruence|discriminate]].
    match goal with |- context [add_percentiles ?a ?b q1 q2] => destruct (percentiles_ok q1 q2 a b Q) as (p & ->) end. cbn [rbind].
    match goal with |- context [add_percentiles ?a ?b q1 q2] => destruct (percentiles_ok q1 q2 a b Q) as (p' & ->) end. cbn [rbind]. eauto.
Qed.

(* ---- one candidate ---- *)
Section Single.
  Variables (freq : string) (t0 : Z) (G : Z -> Prop) (f : frame XR).
  Hypothesis Ty : forall r, In r (rows f) -> tame (r_y r).
  Variables (W : world XR) (c : config XR) (source : string) (u act : frame XR).
  Hypothesis S : ground freq t0 (c_years c) G.
  Hypothesis De : dependable (w_env W).
  Hypothesis Dr : draws (e_rnd (w_env W)).
  Hypothesis Tb : table G t0 f act.
  Hypothesis Ou : on_steps G t0 u.
  Hypothesis Nu : usable_rows u <> [].
  Hypothesis Fu : finite_rows u.
  Hypothesis Xu : increasing_x u.
  Lemma fit_one_ok mode l_add start stop x0 m : G start -> (start <= stop)%Z -> x0 = x_of t0 start ->
    ordinary (needs_date c) m \/ m = model_naive \/ m = model_snaive_wday ->
    exists p, fit_one W c source mode (Some freq) l_add u act (ODate start stop) x0 m = Ok p /\
      forall r, In r (snd p) -> G (d_date r).
  Proof.
    intros On Le Ex Om. unfold fit_one.
    assert (Cl : forall (g : list (Z * XR)) s lo md, (forall p, In p g -> G (fst p)) ->
      forall r, In r (fcast_clean g s lo md) -> G (d_date r)).
    { intros g s lo md Hg r I. apply in_map_iff in I as (p & <- & I). apply filter_In in I as [I _]. now apply Hg. }
    assert (K : hardy (needs_date c) m \/ effortless G t0 act m).
    { destruct Om as [[St| ->]|[-> | ->]]; [now left|right..].
      - apply effortless_null.
      - apply (effortless_naive G t0 f act); auto. exact (gd_day _ _ _ _ S).
      - apply (effortless_snaive G t0 f act); auto. exact (gd_day _ _ _ _ S). }
    destruct K as [St|Ef].
    - destruct (hardy_fit (w_env W) (needs_date c) m u (Some freq) source (Some act) (c_cache c) De Dr St (os_date _ _ _ Ou) Nu Fu Xu) as (d & Ed & Lp & _).
      rewrite Ed. cbn [rbind]. cbv zeta. destruct (md_fit d); [|eexists; split; [reflexivity|intros r []]].
      destruct (hardy_forecast (needs_date c) freq t0 G act m start stop (c_years c) x0 (md_params d) S St) as (g & Eg & Og);
        [intros N; split; [now apply Z.leb_le|exact Le]|exact On|exact Ex|exact (Lp eq_refl)|].
      rewrite Eg. cbn [rbind]. eexists. split; [reflexivity|]. cbn [snd]. now apply Cl.
    - destruct (effortless_fit (w_env W) G t0 act m u (Some freq) source (c_cache c) Ef Ou Nu Fu) as (d & Ed).
      rewrite Ed. cbn [rbind]. cbv zeta. destruct (md_fit d); [|eexists; split; [reflexivity|intros r []]].
      destruct (effortless_forecast freq t0 G act m start stop (c_years c) x0 (Some (md_params d)) S Ef On Ex) as (g & Eg & Og).
      rewrite Eg. cbn [rbind]. eexists. split; [reflexivity|]. cbn [snd]. now apply Cl.
  Qed.
End Single.

(* ---- the table after preparation ---- *)
Record clean (G : Z -> Prop) (t0 : Z) (g : frame XR) : Prop := {
  cl_date : has_date g = true;
  cl_sorted : StronglySorted Z.lt (map r_date (rows g));
  cl_on : forall q, In q (rows g) -> G (r_date q);
  cl_x : forall q, In q (rows g) -> r_x q = x_of t0 (r_date q);
  cl_y : forall q, In q (rows g) -> tame (r_y q);
  cl_w : has_w g = true -> forall q, In q (rows g) -> tame (r_w q) }.
Lemma sorted_map_filter {A} (h : A -> Z) p l : StronglySorted Z.lt (map h l) -> StronglySorted Z.lt (map h (filter p l)).
Proof.
  induction l as [|a l IH]; cbn [map filter]; intros St; [constructor|]. inversion St as [|? ? S1 F1]; subst. destruct (p a); [|auto].
  cbn [map]. constructor; [auto|]. rewrite Forall_forall in *. intros x I. apply F1. apply in_map_iff in I as (b & <- & I). apply filter_In in I as [I _]. now apply in_map.
Qed.
Lemma clean_filter G t0 g p : clean G t0 g -> clean G t0 (with_rows g (filter p (rows g))).
Proof.
  intros [A B C D E F]. constructor; cbn [with_rows has_date rows has_w]; auto; try (intros; apply filter_In in H as [H _]; auto; fail).
  - now apply sorted_map_filter.
  - intros W q I. apply filter_In in I as [I _]. now apply F.
Qed.
Lemma clean_prepared G t0 f g : clean G t0 f -> prepares f g -> clean G t0 g.
Proof.
  intros [A B C D E F] [Hd2 P W].
  assert (Ed : map r_date (rows g) = map r_date (rows f)).
  { clear -P. induction P as [|a b l l' (Q & _) P IH]; [reflexivity|]. cbn. now rewrite Q, IH. }
  assert (I2 : forall b, In b (rows g) -> exists a, In a (rows f) /\ same_sample a b) by (intros b; now apply Forall2_in_r).
  constructor; [congruence|rewrite Ed; exact B| | | |auto]; intros q I; destruct (I2 q I) as (a & Ia & Eq1 & Ex & Ey); rewrite ?Ex, ?Ey, ?Eq1; auto.
Qed.
Lemma clean_on_steps G t0 g : clean G t0 g -> on_steps G t0 g.
Proof.
  intros [A B C D E F]. constructor; [exact A|unfold usable_rows; now apply sorted_map_filter| |]; intros q I; apply filter_In in I as [I _]; auto.
Qed.
Lemma clean_finite G t0 g : clean G t0 g -> finite_rows g.
Proof.
  intros [A B C D E F]. apply Forall_forall. intros q I. apply filter_In in I as [I U]. unfold usable in U. apply andb_true_iff in U as [Uy Uw]. split.
  - destruct (E q I) as [(r & ->)|Y]; [reflexivity|]. rewrite Y in Uy. discriminate.
  - intros W. rewrite W in Uw. apply andb_true_iff in Uw as [Uw _]. destruct (F W q I) as [(r & ->)|Y]; [reflexivity|]. rewrite Y in Uw. discriminate.
Qed.
Lemma sorted_map_fst {A} (h : A -> Z) l : StronglySorted (fun a b => (h a < h b)%Z) l -> StronglySorted Z.lt (map h l).
Proof. induction 1 as [|a l S IH F]; cbn [map]; constructor; auto. now apply Forall_map. Qed.
Lemma clean_increasing (G : Z -> Prop) t0 g : (forall t, G t -> ((t - t0) mod DAY = 0)%Z) ->
  clean G t0 g -> StronglySorted Z.lt (map r_x (rows g)) /\ increasing_x g.
Proof.
  intros S [A B C D E F]. assert (K : StronglySorted Z.lt (map r_x (rows g))).
  { apply sorted_map_fst, (sorted_map_via r_date); [exact B|]. intros a b Ia Ib L. rewrite !D by assumption. apply day_x; auto. }
  split; [exact K|]. unfold increasing_x, usable_rows. now apply sorted_map_filter.
Qed.

(* ---- the automatic choice of the composition ---- *)
Lemma mode_total E (G : Z -> Prop) t0 g : (forall t, G t -> ((t - t0) mod DAY = 0)%Z) ->
  clean G t0 g -> has_w g = true -> dependable E -> draws (e_rnd E) -> answers E -> exists b, is_multiplicative (mult_corr E) g = Ok b.
Proof.
  intros S Cl W De Dr An. unfold is_multiplicative. destruct (existsb _ _); [eauto|]. rewrite (cl_date _ _ _ Cl). cbn [negb].
  destruct (match zmax_opt _ with Some _ => _ | None => _ end); [eauto|]. cbv zeta. rewrite W. destruct (Nat.ltb_spec (length (filter (fun r : row XR => nltb n0 (r_w r)) (filter (fun r : row XR => negb (nisnan (r_y r))) (rows g)))) 4) as [L|L]; [eauto|].
  assert (Lu : (4 <= length (usable_rows g))%nat).
  { eapply Nat.le_trans; [exact L|]. rewrite filter_filter'. unfold usable_rows. rewrite W. apply Nat.eq_le_incl. f_equal. apply filter_ext. intros r. unfold usable.
    f_equal. destruct (r_w r); reflexivity. }
  assert (Lr : (length (usable_rows g) <= length (rows g))%nat) by (unfold usable_rows; rewrite <- (filter_split_length (usable (has_w g)) (rows g)); lia).
  unfold mult_corr, fit_linear. destruct (Nat.ltb_spec (length (rows g)) 4); [lia|].
  destruct (sturdy_fit E model_linear g (Some "W") "test" None true De Dr sturdy_linear (cl_date _ _ _ Cl)) as (d & -> & _ & Lp).
  { intros C. rewrite C in Lu. cbn in Lu. lia. }
  { now apply (clean_finite G t0). }
  { now apply (clean_increasing G t0). }
  cbn [rbind]. specialize (Lp An Lu eq_refl).
  assert (Nx : map r_x (rows g) <> []) by (intros C; apply map_eq_nil in C; rewrite C in H; cbn in H; lia).
  destruct (zmin_opt (map r_x (rows g))) as [lo|] eqn:E1; [|destruct (map r_x (rows g)); [congruence|discriminate]].
  destruct (zmax_opt (map r_x (rows g))) as [hi|] eqn:E2; [|destruct (map r_x (rows g)); [congruence|discriminate]].
  cbn in Lp. destruct (md_params d) as [|a [|b [|? ?]]]; try discriminate.
  unfold extrapolate_model. cbn [s_x_extrapolate rbind]. cbv zeta. unfold call. cbn [fm_f model_linear mk_model]. unfold f_linear. cbn [unpack2 rbind].
  rewrite !map_length, Nat.eqb_refl. cbn [rbind]. eauto.
Qed.

(* ---- the whole forecast of a series ---- *)
(* a normalised series on such dates whose table of actuals can be completed *)
Record settled (freq : string) (t0 : Z) (G : Z -> Prop) (f : frame XR) : Prop := {
  sl_date : has_date f = true;
  sl_freq : detect_freq (map r_date (rows f)) = Some freq;
  sl_sorted : StronglySorted Z.lt (map r_date (rows f));
  sl_on : forall q, In q (rows f) -> G (r_date q);
  sl_x : forall q, In q (rows f) -> r_x q = x_of t0 (r_date q);
  sl_filled : exists g, filled G t0 f g }.
Lemma prepared_total c freq t0 G (f : frame XR) : settled freq t0 G f ->
  (forall r, In r (rows f) -> tame (r_y r)) -> (has_w f = true -> forall r, In r (rows f) -> tame (r_w r)) ->
  clean G t0 f /\ clean G t0 (start_filter (c_start c) f) /\
  exists f1, prepared c f = Ok f1 /\ Forall2 same_sample (rows (start_filter (c_start c) f)) (rows f1) /\
    clean G t0 (with_weights f1) /\ Forall2 same_sample (rows f1) (rows (with_weights f1)).
Proof.
  intros D Ty Tw. destruct D as [Hd Hf St On Hx _]. assert (C : clean G t0 f) by (constructor; auto). split; [exact C|].
  assert (C0 : clean G t0 (start_filter (c_start c) f)).
  { unfold start_filter. destruct (c_start c) as [d|]; [|exact C]. rewrite Hd. now apply clean_filter. }
  split; [exact C0|]. set (f0 := start_filter (c_start c) f) in *. unfold prepared. fold f0.
  assert (K : forall f1, clean G t0 f1 -> clean G t0 (with_weights f1) /\ Forall2 same_sample (rows f1) (rows (with_weights f1))).
  { intros f1 C1. pose proof (weights_prepared f1 (cl_w _ _ _ C1)) as P. split; [now apply (clean_prepared G t0 f1)|apply (pp_rows _ _ P)]. }
  destruct (c_outliers c).
  - destruct (spikes_ok f0) as (f1 & E1 & P & _); [apply sorted_dates_nodup, (cl_sorted _ _ _ C0)|exact (cl_date _ _ _ C0)|exact (cl_w _ _ _ C0)|].
    exists f1. split; [exact E1|]. split; [exact (pp_rows _ _ P)|]. apply K. now apply (clean_prepared G t0 f0).
  - exists f0. split; [reflexivity|]. split; [apply same_refl|]. now apply K.
Qed.
Lemma same_dates l l' : Forall2 same_sample l l' -> map r_date l' = map r_date l.
Proof. induction 1 as [|a b l l' (Q & _) P IH]; [reflexivity|]. cbn. now rewrite Q, IH. Qed.
Lemma min_of (l : list Z) : l <> [] -> exists m, zmin_opt l = Some m.
Proof. destruct l; [congruence|]. cbn. eauto. Qed.
Lemma max_of (l : list Z) : l <> [] -> exists m, zmax_opt l = Some m.
Proof. destruct l; [congruence|]. cbn. eauto. Qed.
Lemma rmapM_total {A B} (F : A -> res B) (P : B -> Prop) l : (forall a, In a l -> exists b, F a = Ok b /\ P b) ->
  exists bs, rmapM F l = Ok bs /\ Forall P bs.
Proof.
  induction l as [|a l IH]; intros H; [exists []; split; [reflexivity|constructor]|]. cbn.
  destruct (H a (or_introl eq_refl)) as (b & -> & Pb). cbn. destruct IH as (bs & -> & Fb); [intros x I; apply H; now right|]. cbn. eauto.
Qed.

Record settings (c : config XR) : Prop := {
  se_models : config_ordinary c;
  se_naive : naive_ordinary c;
  se_some : c_trend c = Some [] -> c_season c <> Some [];
  se_q : within (c_q1 c) (c_q2 c);
  se_n : c_ncum c <> None \/ c_widen c <> None }.
(* two dates from the start date on, and a sample to fit *)
Definition enough (c : config XR) (f : frame XR) : Prop :=
  (exists a b, In a (rows (start_filter (c_start c) f)) /\ In b (rows (start_filter (c_start c) f)) /\ r_date a <> r_date b) /\
  (forall f1, prepared c f = Ok f1 -> usable_rows f1 <> []).
Theorem forecast_on W c source freq t0 G f :
  ground freq t0 (c_years c) G -> settled freq t0 G f -> (forall r, In r (rows f) -> tame (r_y r)) -> (has_w f = true -> forall r, In r (rows f) -> tame (r_w r)) ->
  dependable (w_env W) -> draws (e_rnd (w_env W)) -> (Forecast.c_mode c = "auto" -> answers (w_env W)) ->
  settings c -> enough c f ->
  exists r, run_forecast_single W c source f = Ok r.
Proof.
  intros S D Ty Tw De Dr Au Se (Two & Us).
  destruct (prepared_total c freq t0 G f D Ty Tw) as (Cf & C0 & f1 & E1 & P1 & C2 & P2).
  pose proof (gd_day _ _ _ _ S) as Gd. specialize (Us f1 E1). set (f2 := with_weights f1) in *. set (u := positive f2).
  assert (Cu : clean G t0 u) by (unfold u, positive; now apply clean_filter).
  assert (Hw2 : has_w f2 = true) by (unfold f2, with_weights; destruct (has_w f1) eqn:Hw; [exact Hw|reflexivity]).
  assert (Nu : usable_rows u <> []).
  { destruct (usable_rows f1) as [|q l] eqn:Eq1; [congruence|]. assert (Iq : In q (usable_rows f1)) by (rewrite Eq1; now left). clear Eq1 Us.
    apply filter_In in Iq as [Iq Uq]. assert (exists q', In q' (rows f2) /\ usable true q' = true) as (q' & I' & U').
    { unfold f2, with_weights. destruct (has_w f1) eqn:Hw; [eauto|]. cbn [rows]. exists (set_w q n1). split; [now apply (in_map (fun r => set_w r n1))|].
      unfold usable in *. cbn [set_w r_y r_w]. apply andb_true_iff in Uq as [-> _]. cbn. destruct (Rltb_spec 0 1); [reflexivity|lra]. }
    intros C. assert (I2 : In q' (usable_rows u)); [|rewrite C in I2; destruct I2]. apply filter_In.
    unfold u, positive. cbn [with_rows has_w rows]. rewrite Hw2. split; [|exact U']. apply filter_In. split; [exact I'|].
    unfold usable in U'. apply andb_true_iff in U' as [_ U']. now apply andb_true_iff in U' as [_ U']. }
  assert (Edates : map r_date (rows f2) = map r_date (rows (start_filter (c_start c) f))) by (rewrite (same_dates _ _ P2); now apply same_dates).
  destruct Two as (ra & rb & Ia & Ib & Nab).
  assert (N2 : rows f2 <> []). { intros C. rewrite C in Edates. cbn in Edates. apply (in_map r_date) in Ia. rewrite <- Edates in Ia. destruct Ia. }
  assert (Ef : detect_freq_frame f = Some freq) by (unfold detect_freq_frame; rewrite (sl_date _ _ _ _ D); exact (sl_freq _ _ _ _ D)).
  assert (Pl2 : map (place f2) (rows f2) = map r_date (rows f2)) by (apply map_ext; intros r; unfold place; now rewrite (cl_date _ _ _ C2)).
  assert (Plu : map (place u) (rows u) = map r_date (rows u)) by (apply map_ext; intros r; unfold place; now rewrite (cl_date _ _ _ Cu)).
  assert (Nru : rows u <> []). { intros C. apply Nu. unfold usable_rows. now rewrite C. }
  assert (Nmap : forall (h : row XR -> Z) l, l <> [] -> map h l <> []) by (intros h l N C; apply map_eq_nil in C; contradiction).
  (* the parts of run_fits *)
  assert (exists range, input_range f2 = Ok range) as (range & Er).
  { unfold input_range. rewrite Pl2. destruct (min_of _ (Nmap r_date _ N2)) as (lo & ->), (max_of _ (Nmap r_date _ N2)) as (hi & ->). rewrite (cl_date _ _ _ C2). eauto. }
  assert (exists mode, final_mode W c f2 = Ok mode) as (mode & Em).
  { unfold final_mode. destruct (String.eqb_spec (Forecast.c_mode c) "auto") as [A|A]; [|eauto].
    destruct (mode_total (w_env W) G t0 f2 Gd C2 Hw2 De Dr (Au A)) as (b & ->). cbn. eauto. }
  destruct (clean_increasing G t0 u Gd Cu) as [Sx Xu].
  destruct (actuals_on G t0 f u (sl_date _ _ _ _ D) Gd (sl_filled _ _ _ _ D) (sorted_dates_nodup _ Sx)) as (act & Ea & Tb).
  destruct (min_of _ (Nmap r_date _ Nru)) as (start & Es), (max_of _ (Nmap r_date _ N2)) as (stop & Ep), (min_of _ (Nmap r_x _ Nru)) as (x0 & Ex).
  assert (On : G start). { apply zmin_opt_iff in Es as [I _]. apply in_map_iff in I as (q & <- & Iq). now apply (cl_on _ _ _ Cu). }
  assert (Le : (start <= stop)%Z).
  { apply zmin_opt_iff in Es as [I _]. apply zmax_opt_iff in Ep as [_ M]. apply M. apply in_map_iff in I as (q & <- & Iq). apply in_map. now apply filter_In in Iq as [Iq _]. }
  assert (Ex0 : x0 = x_of t0 start) by (apply (x_start_is (rows u)); [exact (cl_x _ _ _ Cu)|exact Es|exact Ex]).
  set (models := all_models c mode (Some freq) (fst (candidate_lists c f2)) (snd (candidate_lists c f2))).
  destruct (rmapM_total (fit_one W c source mode (Some freq) (fst (candidate_lists c f2)) u act (ODate start stop) x0)
    (fun p => forall r, In r (snd p) -> G (d_date r)) models) as (fits & Efits & Ffits).
  { intros m Im. apply (fit_one_ok freq t0 G f Ty W c source u act S De Dr Tb (clean_on_steps _ _ _ Cu) Nu (clean_finite _ _ _ Cu) Xu); [exact On|exact Le|exact Ex0|].
    eapply all_models_ordinary; [exact (se_models _ Se)|exact (se_naive _ Se)|exact Im]. }
  assert (Nm : models <> []).
  { destruct (candidates_some c f2 (cl_date _ _ _ C2) (se_some _ Se)). now apply all_models_some. }
  assert (Ef0 : exists w acts, run_fits W c source f = Ok (w, acts, fits) /\ map d_date acts = map r_date (rows f2) /\ Forall (fun r => d_actual r = true) acts).
  { unfold run_fits. rewrite Ef, E1. cbn [rbind]. fold f2. rewrite Er. cbn [rbind]. fold u.
    rewrite (surjective_pairing (candidate_lists c f2)), Em. cbn [rbind fst snd]. rewrite Ea. cbn [rbind]. rewrite Plu, Pl2, Es, Ep, Ex. fold models.
    destruct models as [|m0 ms] eqn:Emod; [congruence|]. rewrite (cl_date _ _ _ Cf), Efits. cbn [rbind]. eexists _, _. split; [reflexivity|].
    unfold actuals_clean. split; [rewrite map_map; cbn [d_date]; exact Pl2|]. apply Forall_map. apply Forall_forall. auto. }
  destruct Ef0 as (w & acts & Erf & Da & Aa).
  unfold run_forecast_single. rewrite Erf. cbn [rbind]. destruct (assemble W (c_all c) w acts fits) as [data metas] eqn:Eas.
  rewrite (get_pi_single _ _ _ _ _ _ _ source).
  2:{ intros r I. cbn [pt_rows] in I. apply (data_source W c source f w acts fits (c_all c) Erf). now rewrite Eas. }
  assert (exists k, match c_ncum c with Some k => Ok k | None => days_from_freq (c_widen c) end = Ok k) as (k & ->).
  { destruct (c_ncum c) eqn:En; [eauto|]. destruct (c_widen c) eqn:Ew; [cbn; eauto|]. destruct (se_n _ Se); congruence. }
  cbn [rbind]. rewrite (cl_date _ _ _ Cf).
  assert (exists p, pi_single (w_draw W) 100 k (c_q1 c) (c_q2 c) (mkPT true true true true data) = Ok p) as (p & ->); [|cbn; eauto].
  set (all := map (flag_data (best_fit W (map (fun p => fst (fst p)) fits))) (acts ++ concat (map snd fits))).
  assert (pi_single (w_draw W) 100 k (c_q1 c) (c_q2 c) (mkPT true true true true data) = pi_single (w_draw W) 100 k (c_q1 c) (c_q2 c) (mkPT true true true true all)) as ->.
  { unfold assemble in Eas. fold all in Eas. destruct (c_all c); injection Eas as <- _; [reflexivity|apply pi_single_best]. }
  apply pi_total; [exact (se_q _ Se)|]. apply detect_some.
  - assert (Al : forall a, In a (map d_date (filter (fun r => d_actual r || d_best r) all)) -> G a).
    { intros a I. apply in_map_iff in I as (r & <- & I). apply filter_In in I as [I _]. unfold all in I. apply in_map_iff in I as (r' & <- & I). cbn [flag_data d_date].
      apply in_app_or in I as [I|I].
      - apply (in_map d_date) in I. rewrite Da in I. apply in_map_iff in I as (q & <- & Iq). now apply (cl_on _ _ _ C2).
      - apply in_concat in I as (l & Il & I). apply in_map_iff in Il as (q & <- & Iq). rewrite Forall_forall in Ffits. now apply (Ffits q Iq). }
    intros a b I1 I2. pose proof (Gd a (Al a I1)) as A. pose proof (Gd b (Al b I2)) as B. replace (a - b)%Z with ((a - t0) - (b - t0))%Z by ring.
    rewrite Zminus_mod, A, B. reflexivity.
  - assert (Ac : forall t, In t (map r_date (rows f2)) -> In t (map d_date (filter (fun r => d_actual r || d_best r) all))).
    { intros t It. rewrite <- Da in It. apply in_map_iff in It as (r & <- & Ir). apply in_map_iff. eexists (flag_data _ r). split; [reflexivity|]. apply filter_In. split.
      - unfold all. apply in_map. apply in_or_app. now left.
      - cbn [flag_data d_actual]. rewrite Forall_forall in Aa. now rewrite (Aa r Ir). }
    exists (r_date ra), (r_date rb). rewrite Edates in Ac. split; [apply Ac; now apply in_map|]. split; [apply Ac; now apply in_map|exact Nab].
Qed.

(* daily and weekly series, possibly with gaps *)
Lemma steady_settled step freq t0 f : steady step freq t0 f -> settled freq t0 (on_step step t0) f.
Proof.
  intros D. pose proof (steady_filled step freq t0 f D) as Fl. destruct D as [S Hd Hf St On Hx]. constructor; auto.
Qed.
Theorem forecast_completes W c source step freq t0 f :
  steady step freq t0 f -> (forall r, In r (rows f) -> tame (r_y r)) -> (has_w f = true -> forall r, In r (rows f) -> tame (r_w r)) ->
  dependable (w_env W) -> draws (e_rnd (w_env W)) -> (Forecast.c_mode c = "auto" -> answers (w_env W)) ->
  settings c -> enough c f ->
  exists r, run_forecast_single W c source f = Ok r.
Proof.
  intros D. apply (forecast_on W c source freq t0 (on_step step t0)).
  - apply steady_ground. exact (sd_step _ _ _ _ D).
  - now apply steady_settled.
Qed.
