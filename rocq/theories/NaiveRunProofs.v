(* Naive models over a longer horizon, for the whole forecast: proofs for C88. *)
From Coq Require Import ZArith QArith String List Bool Lia Sorted Reals Lra.
From Verif Require Import Num Py Cal Fmt Model Base Fixed Naive Freq Aic Normalize Fit Interp Select Stats Outliers Pi Forecast NumProofs ListProofs StringProofs ModelProofs BaseProofs GuessProofs FixedProofs FitProofs SeasonProofs CacheProofs AicProofs StatsProofs FreqProofs GridProofs InterpProofs NaiveProofs SnaiveProofs ForecastProofs ForecastProofs2 ExtendProofs MetaProofs LsqProofs RobustProofs OutlierProofs TotalProofs TotalProofs2 TotalProofs3.
From Verif Require Import FreqProofs HorizonProofs HorizonRunProofs NaiveHorizonProofs.
Import ListNotations.
Local Open Scope string_scope.
Local Open Scope list_scope.
Local Open Scope Z_scope.

Lemma mk_rows_date {T} ds ss xs (ys ws : list T) q : In q (mk_rows ds ss xs ys ws) -> In (r_date q) ds.
Proof.
  unfold mk_rows. intros I. apply in_map_iff in I as (((((d & s) & x) & y) & w) & <- & I). cbn [r_date].
  apply in_combine_l in I. apply in_combine_l in I. apply in_combine_l in I. now apply in_combine_l in I.
Qed.
(* no row is added after the last one *)
Lemma filled_within (f g : frame XR) : has_date f = true -> interpolate_df false f = Ok g ->
  forall q, In q (rows g) -> exists r, In r (rows f) /\ r_date q <= r_date r.
Proof.
  intros Hd E q I. unfold interpolate_df in E. rewrite Hd in E. cbn [negb] in E.
  match type of E with (if ?b then _ else _) = _ => destruct b end; [injection E as <-; exists q; split; [exact I|lia]|].
  destruct (has_dup Z.eqb _); [discriminate|]. destruct (zmin_opt _) as [lo|] eqn:E1; [|discriminate]. destruct (zmax_opt _) as [hi|] eqn:E2; [|discriminate].
  apply zmin_opt_iff in E1 as [I1 B1]. apply zmax_opt_iff in E2 as [I2 B2].
  destruct (asfreq_range lo hi _) as [grid|] eqn:Eg; [|discriminate]. cbn [rbind] in E. destruct (to_ints _) as [xs|]; [|discriminate]. cbn [rbind] in E.
  apply (f_equal (fun r => match r with Ok a => rows a | Err _ => [] end)) in E. cbn [rows] in E. rewrite <- E in I. apply mk_rows_date in I.
  destruct (asfreq_grid lo hi _ grid ltac:(now apply B1) Eg) as [_ B]. specialize (B _ I). apply in_map_iff in I2 as (r & <- & Ir). exists r. split; [exact Ir|lia].
Qed.
Lemma actuals_dates (f u act g : frame XR) q : model_actuals f u = Ok act -> interpolate_df false f = Ok g -> In q (rows g) ->
  exists b, In b (rows act) /\ r_date b = r_date q.
Proof.
  unfold model_actuals. intros E Eg I. rewrite Eg in E. cbn [rbind] in E. apply (f_equal (fun r => match r with Ok a => rows a | Err _ => [] end)) in E. cbn [rows] in E.
  set (ws := match map r_w (filter (fun k => r_x k =? r_x q) (rows u)) with [] => [n0] | ws => ws end).
  assert (exists w, In w ws) as (w & Iw) by (unfold ws; destruct (map r_w _) as [|w l]; [exists n0; now left|exists w; now left]).
  eexists (mkRow (r_date q) _ _ _ _). split; [|reflexivity]. rewrite <- E. apply in_flat_map. exists q. split; [now apply isort_in|]. apply in_map_iff. exists w. split; [reflexivity|exact Iw].
Qed.

Section Run.
  Variables (freq : string) (t0 : Z) (G : Z -> Prop) (c : config XR) (f : frame XR) (y y' : Q).
  Hypotheses (Gr : ground freq t0 y G) (Gr' : ground freq t0 y' G) (D : settled freq t0 G f) (Ly : (y <= y')%Q) (Py : (0 < y)%Q)
    (Ty : forall r, In r (rows f) -> tame (r_y r)) (Tw : has_w f = true -> forall r, In r (rows f) -> tame (r_w r)).
  (* a usable sample that is not the last one of the series *)
  Definition before_last : Prop := forall f1, prepared c f = Ok f1 -> exists k r, In k (usable_rows f1) /\ In r (rows f) /\ r_date k < r_date r.
  Lemma naive_extends f1 act start stop x0 : prepared c f = Ok f1 ->
    model_actuals f (positive (with_weights f1)) = Ok act ->
    zmin_opt (map (place (with_weights f1)) (rows (positive (with_weights f1)))) = Some start ->
    zmax_opt (map (place (with_weights f1)) (rows (with_weights f1))) = Some stop ->
    zmin_opt (map r_x (rows (positive (with_weights f1)))) = Some x0 ->
    (before_last -> extends (start_of f start stop) (detect_freq_frame f) y y' x0 act model_naive) /\
    extends (start_of f start stop) (detect_freq_frame f) y y' x0 act model_snaive_wday.
  Proof.
    intros E1 Ea Es Ep Ex. destruct (prepared_total c freq t0 G f D Ty Tw) as (Cf & C0 & f1' & E1' & P1 & C2 & P2).
    rewrite E1 in E1'. apply TotalProofs.ok_inj in E1'. subst f1'. pose proof (gd_day _ _ _ _ Gr) as Gd. set (f2 := with_weights f1) in *. set (u := positive f2) in *.
    assert (Cu : clean G t0 u) by (unfold u, positive; now apply clean_filter).
    assert (Hw2 : has_w f2 = true) by (unfold f2, with_weights; destruct (has_w f1) eqn:Hw; [exact Hw|reflexivity]).
    destruct (clean_increasing G t0 u Gd Cu) as [Sx _].
    destruct (actuals_on G t0 f u (sl_date _ _ _ _ D) Gd (sl_filled _ _ _ _ D) (sorted_dates_nodup _ Sx)) as (act' & Ea' & Tb).
    rewrite Ea in Ea'. apply TotalProofs.ok_inj in Ea'. subst act'.
    assert (Ef : detect_freq_frame f = Some freq) by (unfold detect_freq_frame; rewrite (sl_date _ _ _ _ D); exact (sl_freq _ _ _ _ D)).
    assert (Plu : map (place f2) (rows u) = map r_date (rows u)) by (apply map_ext; intros r; unfold place; now rewrite (cl_date _ _ _ C2)).
    assert (Pl2 : map (place f2) (rows f2) = map r_date (rows f2)) by (apply map_ext; intros r; unfold place; now rewrite (cl_date _ _ _ C2)).
    rewrite Plu in Es. rewrite Pl2 in Ep.
    assert (On : G start). { apply zmin_opt_iff in Es as [I _]. apply in_map_iff in I as (q & <- & Iq). now apply (cl_on _ _ _ Cu). }
    assert (Ex0 : x0 = x_of t0 start) by (apply (x_start_is (rows u)); [exact (cl_x _ _ _ Cu)|exact Es|exact Ex]).
    rewrite Ef. unfold start_of. rewrite (sl_date _ _ _ _ D). destruct (sl_filled _ _ _ _ D) as (g & Fl).
    assert (Edates : map r_date (rows f2) = map r_date (rows (start_filter (c_start c) f))) by (rewrite (same_dates _ _ P2); now apply same_dates).
    assert (Sub : forall r, In r (rows (start_filter (c_start c) f)) -> In r (rows f)).
    { intros r. unfold start_filter. destruct (c_start c); [|auto]. destruct (has_date f); [|auto]. cbn [with_rows rows]. intros I. now apply filter_In in I. }
    split.
    - intros Bl p l l' El El'. destruct (Bl f1 E1) as (k & r & Ik & Ir & Lk).
      destruct (naive_extrapolation freq t0 G f act start stop x0 y y' Gr Gr' Tb On Ex0 Ly p l l') as (rest & R1 & R2); [|exact El|exact El'|exists rest; split; [exact R1|exact R2]].
      (* the usable sample is shown *)
      apply filter_In in Ik as [Ik Uk].
      assert (exists k', In k' (rows u) /\ r_date k' = r_date k /\ r_x k' = r_x k /\ r_y k' = r_y k /\ nisnan (r_w k') = false /\ nltb n0 (r_w k') = true) as (k' & Ik' & Dk & Xk & Yk & Wk & Pk).
      { unfold usable in Uk. apply andb_true_iff in Uk as [_ Uk]. unfold u, positive, f2, with_weights. destruct (has_w f1) eqn:Hw; cbn [with_rows rows].
        - apply andb_true_iff in Uk as [U1 U2]. exists k. split; [apply filter_In; now split|]. repeat (split; [reflexivity|]). split; [now apply negb_true_iff|exact U2].
        - exists (set_w k n1). split; [apply filter_In; split; [now apply (in_map (fun r => set_w r n1))|]|]; cbn [set_w r_date r_x r_y r_w].
          + cbn. destruct (Rltb_spec 0 1); [reflexivity|lra].
          + repeat (split; [reflexivity|]). cbn. destruct (Rltb_spec 0 1); [reflexivity|lra]. }
      assert (exists q, In q (rows f) /\ same_sample q k) as (q & Iq & Sq1 & Sq2 & Sq3).
      { destruct (Forall2_in_r _ _ _ k P1 Ik) as (q & Iq & Sq). exists q. split; [now apply Sub|exact Sq]. }
      pose proof (usable_shown f u act g q k' Ea (fl_ok _ _ _ _ Fl) (fl_all _ _ _ _ Fl q Iq) Ik' ltac:(congruence) Wk Pk) as Ib.
      destruct (actuals_dates f u act g r Ea (fl_ok _ _ _ _ Fl) (fl_all _ _ _ _ Fl r Ir)) as (b' & Ib' & Db').
      eexists _, b'. split; [exact Ib|]. split; [exact Ib'|]. cbn [r_y r_date]. split; [|lia]. unfold nn. unfold usable in Uk. apply andb_true_iff in Uk as [Uk _]. apply negb_true_iff in Uk. now rewrite <- Sq3.
    - intros p l l' El El'.
      destruct (snaive_extrapolation freq t0 G f act start stop x0 y y' Gr Gr' Tb On Ex0 Ly p l l' Py) as (rest & R1 & R2); [|exact El|exact El'|exists rest; split; [exact R1|intros _; exact R2]].
      intros b Ib. destruct (model_actuals_in _ _ _ _ Ea Ib) as (g' & q & w & Eg & Iq & _ & -> & _). destruct (filled_within f g' (sl_date _ _ _ _ D) Eg q Iq) as (r & Ir & Lr).
      apply zmax_opt_iff in Ep as [Ip Bp]. rewrite Edates in Ip, Bp. apply in_map_iff in Ip as (r0 & Er0 & I0).
      enough (r_date r <= stop) by lia. unfold start_filter in *. rewrite (sl_date _ _ _ _ D) in *. destruct (c_start c) as [d|]; [|apply Bp; now apply in_map].
      cbn [with_rows rows] in *. destruct (Z.leb_spec d (r_date r)) as [L|L].
      + apply Bp, in_map, filter_In. split; [exact Ir|now apply Z.leb_le].
      + apply filter_In in I0 as [_ L0]. apply Z.leb_le in L0. lia.
  Qed.
End Run.

Theorem naive_run W c s freq t0 G (f : frame XR) (y y' : Q) r r' :
  ground freq t0 y G -> ground freq t0 y' G -> settled freq t0 G f ->
  (forall r, In r (rows f) -> tame (r_y r)) -> (has_w f = true -> forall r, In r (rows f) -> tame (r_w r)) -> (0 < y)%Q -> (y <= y')%Q ->
  run_forecast_single W (ForecastProofs.set_all true (set_years y c)) s f = Ok r ->
  run_forecast_single W (ForecastProofs.set_all true (set_years y' c)) s f = Ok r' ->
  exists f1 mode ms best, prepared c f = Ok f1 /\ final_mode W c (with_weights f1) = Ok mode /\
    ms = all_models c mode (detect_freq_frame f) (fst (candidate_lists c (with_weights f1))) (snd (candidate_lists c (with_weights f1))) /\
    (forall d, In d (rs_data r) -> d_best d = true -> d_actual d = false -> d_model d = best) /\
    (NoDup (map fm_name ms) ->
      (forall m, In m ms -> fm_name m = best -> causal m \/ m = model_naive /\ before_last c f \/ m = model_snaive_wday) ->
      (exists rest, shown_rows (rs_data r') = shown_rows (rs_data r) ++ rest /\
         forall d a, In d rest -> In a (rs_data r) -> d_actual a = true -> d_date a < d_date d) /\
      continued (rs_data r) (rs_forecast r) (rs_forecast r')).
Proof.
  intros Gr Gr' D Ty Tw Py Ly K K'.
  destruct (run_longer_pi_at _ _ _ _ _ _ _ _ Py Ly K K') as (f1 & mode & ms & best & act & st & sp & x0 & (A1 & A2 & A3 & A4) & E1 & E2 & E3 & E4 & E5).
  exists f1, mode, ms, best. repeat (split; [assumption|]). intros ND C. apply E5; [exact ND|]. intros m I Em.
  destruct (naive_extends freq t0 G c f y y' Gr Gr' D Ly Py Ty Tw f1 act st sp x0 E1 A1 A2 A3 A4) as [Na Sn].
  destruct (C m I Em) as [Ca|[[-> B]| ->]]; [now apply causal_extends|now apply Na|exact Sn].
Qed.
