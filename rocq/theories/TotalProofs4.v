(* A daily or weekly table is forecast without an exception (C71): from the input table to run_forecast. *)
From Coq Require Import ZArith String List Bool Lia Reals Lra Sorted Permutation QArith_base.
From Verif Require Import Num Py Cal Fmt Model Base Fixed Naive Freq Aic Normalize Fit Interp Select Stats Outliers Pi Forecast.
From Verif Require Import NumProofs ListProofs StringProofs GroupProofs NormalizeProofs ModelProofs BaseProofs GuessProofs FitProofs FreqProofs GridProofs InterpProofs NaiveProofs SnaiveProofs ForecastProofs ForecastProofs2 OutlierProofs TotalProofs TotalProofs2 TotalProofs3 SpareProofs.
Import ListNotations.
Local Open Scope string_scope.
Local Open Scope list_scope.
Local Open Scope Z_scope.

(* dates of a daily (step = DAY) or weekly (step = 7 * DAY) series, in any order and possibly with gaps *)
Record regular (step : Z) (ds : list Z) : Prop := {
  rg_step : step = DAY \/ step = 7 * DAY;
  rg_nodup : NoDup ds;
  rg_on : forall a b, In a ds -> In b ds -> (a - b) mod step = 0;
  rg_two : exists a, In a ds /\ In (a + step) ds }.
Lemma regular_gap step ds : regular step ds -> min_gap ds step.
Proof.
  intros [S _ On (a & Ia & Ib)]. pose proof DAYp. assert (0 < step) by (destruct S; lia). split.
  - exists a, (a + step). repeat split; auto; lia.
  - intros b c I J L. specialize (On c b J I). apply Z.mod_divide in On as (k & E); [|lia]. assert (0 < k) by nia. nia.
Qed.
Lemma regular_freq step ds t0 : regular step ds -> In t0 ds -> exists freq,
  detect_freq ds = Some freq /\ ((step = DAY /\ freq = "D") \/ (step = 7 * DAY /\ freq = wday_name (weekday t0))).
Proof.
  intros R I0. pose proof (regular_gap step ds R) as G. destruct (rg_step _ _ R) as [E|E].
  - exists "D". rewrite (detect_table ds step G), E. split; [reflexivity|now left].
  - exists (wday_name (weekday t0)). split; [|now right].
    destruct (min_of ds) as (m & Em). { intros C. now rewrite C in I0. } apply zmin_opt_iff in Em as [Im Lm].
    rewrite (detect_week ds step G m E Im Lm). do 2 f_equal. apply (step_weekday step (wday_name (weekday t0)) t0); [now right|exact E|]. now apply (rg_on _ _ R).
Qed.
(* rows in the order of their x are in the order of their dates *)
Lemma dates_sorted t0 (l : list (row XR)) : StronglySorted (fun a b => r_x a <= r_x b) l -> NoDup (map r_date l) ->
  (forall q, In q l -> r_x q = x_of t0 (r_date q)) -> (forall q, In q l -> (r_date q - t0) mod DAY = 0) -> StronglySorted Z.lt (map r_date l).
Proof.
  intros St Nd Hx On. induction St as [|a l St IH F]; [constructor|]. cbn [map] in *. inversion Nd as [|? ? N1 N2]; subst. constructor.
  - apply IH; auto; intros q I; [apply Hx|apply On]; now right.
  - apply Forall_map. rewrite Forall_forall in *. intros b I. specialize (F b I). rewrite (Hx a), (Hx b) in F by (now left) || now right.
    destruct (Z.lt_trichotomy (r_date a) (r_date b)) as [L|[L|L]]; [exact L| |].
    + exfalso. apply N1. rewrite L. now apply in_map.
    + exfalso. assert (x_of t0 (r_date b) < x_of t0 (r_date a)); [|lia]. apply day_x; [apply On; now right|apply On; now left|exact L].
Qed.
Lemma regular_steady step t0 (g : frame XR) ds : regular step ds -> In t0 ds -> Permutation (map r_date (rows g)) ds ->
  has_date g = true -> StronglySorted (fun a b => r_x a <= r_x b) (rows g) ->
  (forall q, In q (rows g) -> r_x q = x_of t0 (r_date q)) -> exists freq, steady step freq t0 g.
Proof.
  intros R I0 P Hd St Hx. destruct (regular_freq step ds t0 R I0) as (freq & Ef & S). exists freq.
  assert (Id : forall q, In q (rows g) -> In (r_date q) ds) by (intros q I; apply (Permutation_in _ P); now apply in_map).
  assert (On : forall q, In q (rows g) -> (r_date q - t0) mod step = 0) by (intros q I; apply (rg_on _ _ R); auto).
  constructor; auto.
  - rewrite <- Ef. apply detect_freq_set. intros t. split; apply Permutation_in; [exact P|now symmetry].
  - apply (dates_sorted t0); auto.
    + eapply Permutation_NoDup; [symmetry; exact P|exact (rg_nodup _ _ R)].
    + intros q I. exact (step_aligned step freq t0 S _ (On q I)).
Qed.

(* the rows of one source of the input table, and of the normalised one *)
Definition rows_raw {T} (t : raw T) (s : string) : list (rawrow T) := filter (fun q => String.eqb (gkey t q) s) (t_rows t).
Definition part {T} (f : frame T) (s : string) : frame T :=
  if has_src f then with_rows f (filter (fun r => String.eqb (r_src r) s) (rows f)) else f.
Lemma enum_filter_snd {A} (p : A -> bool) (l : list A) : map snd (filter (fun iq => p (snd iq)) (enumerate l)) = filter p l.
Proof. apply (filter_enumerate_snd p l 0). Qed.
Lemma eq_perm {A} (l l' : list A) : l = l' -> Permutation l l'.
Proof. intros ->. reflexivity. Qed.
Lemma perm_filter {A} (p : A -> bool) (l l' : list A) : Permutation l l' -> Permutation (filter p l) (filter p l').
Proof.
  induction 1 as [|a l l' P IH|a b l|l l' l'' P IH P' IH']; cbn [filter]; [constructor| | |now rewrite IH].
  - destruct (p a); [now constructor|exact IH].
  - destruct (p a), (p b); try apply perm_swap; reflexivity.
Qed.
(* the rows of a source after normalisation: those of the input table with that source, sorted by x *)
Lemma part_rows (t : raw XR) f s : normalize_df t = Ok (Some f) -> (exists q, In q (t_rows t) /\ gkey t q = s) ->
  Permutation (rows (part f s)) (group_rows t s) /\ StronglySorted (fun a b => r_x a <= r_x b) (rows (part f s)).
Proof.
  intros En (q0 & I0 & E0). assert (Hn : t_rows t <> []) by (intros C; rewrite C in I0; destruct I0).
  assert (Hy : t_y t = true). { destruct (t_y t) eqn:Ey; [reflexivity|]. assert (normalize_df t = Err AssertionError) by (apply normalize_err; auto). congruence. }
  destruct (normalize_ok t Hn Hy) as (rs & E' & P & St). rewrite En in E'. injection E' as ->. unfold part. cbn [has_src rows with_rows].
  destruct (t_src t) eqn:Es.
  - unfold with_rows. cbn [rows]. split.
    + apply (perm_filter (fun r => String.eqb (r_src r) s)) in P. rewrite P. unfold group_rows. rewrite filter_map. apply eq_perm. f_equal.
      apply filter_ext. intros [i q]. cbn [expected snd r_src]. unfold gkey. now rewrite Es.
    + clear P En. induction St as [|a l St IH F]; cbn [filter]; [constructor|]. destruct (String.eqb_spec (r_src a) s) as [Ea|]; [|exact IH]. constructor; [exact IH|].
      rewrite Forall_forall in *. intros b I. apply filter_In in I as [I Eb]. apply String.eqb_eq in Eb. specialize (F b I). cbn in F. rewrite Ea, Eb, str_compare_refl in F. destruct F as [F|[_ F]]; [discriminate|exact F].
  - cbn [rows]. split; [|exact St]. rewrite P. unfold group_rows. apply eq_perm. f_equal. symmetry. apply filter_all. intros [i q] _. cbn [snd].
    unfold gkey in *. rewrite Es in *. subst s. reflexivity.
Qed.

Lemma group_dates (t : raw XR) s : map r_date (group_rows t s) = map (qdate t) (rows_raw t s).
Proof.
  unfold group_rows, rows_raw. rewrite map_map. rewrite <- (enum_filter_snd (fun q => String.eqb (gkey t q) s)), map_map. apply map_ext. now intros [i q].
Qed.
Lemma group_in (t : raw XR) s r : In r (group_rows t s) -> exists i q, In q (rows_raw t s) /\ r = expected t (i, q).
Proof.
  intros I. apply in_map_iff in I as ((i & q) & <- & I). exists i, q. split; [|reflexivity]. unfold rows_raw. rewrite <- (enum_filter_snd (fun q => String.eqb (gkey t q) s)).
  now apply (in_map snd) in I.
Qed.
Lemma group_of (t : raw XR) s q : In q (rows_raw t s) -> exists i, In (expected t (i, q)) (group_rows t s).
Proof.
  intros I. unfold rows_raw in I. rewrite <- (enum_filter_snd (fun q => String.eqb (gkey t q) s)) in I. apply in_map_iff in I as ((i & q') & E & I). cbn [snd] in E. subst q'.
  exists i. now apply (in_map (expected t)) in I.
Qed.
(* one series of the input table: regular dates, every value and weight a real number or missing *)
Record series_ok (t : raw XR) (s : string) : Prop := {
  so_dates : exists step, regular step (map (qdate t) (rows_raw t s));
  so_y : forall q, In q (rows_raw t s) -> tame (r_y (q_row q));
  so_w : t_w t = true -> forall q, In q (rows_raw t s) -> tame (r_w (q_row q)) }.
(* the part of one series after normalisation; x counts the days from the Monday before its first date *)
Lemma series_part (t : raw XR) f s : normalize_df t = Ok (Some f) -> t_x t = false -> has_date_after t = true -> rows_raw t s <> [] ->
  has_date (part f s) = true /\ has_w (part f s) = t_w t /\ In (first_date t s) (map (qdate t) (rows_raw t s)) /\
  Permutation (map r_date (rows (part f s))) (map (qdate t) (rows_raw t s)) /\ StronglySorted (fun a b => r_x a <= r_x b) (rows (part f s)) /\
  (forall r, In r (rows (part f s)) -> r_x r = x_of (first_date t s) (r_date r)) /\
  forall r, In r (rows (part f s)) -> exists q, In q (rows_raw t s) /\ r_y r = r_y (q_row q) /\ r_w r = r_w (q_row q).
Proof.
  intros En Hx Hd Nr. destruct (rows_raw t s) as [|q1 l1] eqn:Er; [congruence|]. clear Nr. assert (Iq1 : In q1 (rows_raw t s)) by (rewrite Er; now left). rewrite <- Er.
  assert (Hq : exists q, In q (t_rows t) /\ gkey t q = s) by (apply filter_In in Iq1 as [I E]; apply String.eqb_eq in E; eauto).
  destruct (part_rows t f s En Hq) as [P St]. assert (Hn : t_rows t <> []) by (intros C; destruct Hq as (q & I & _); rewrite C in I; destruct I).
  assert (Hy : t_y t = true). { destruct (t_y t) eqn:Ey; [reflexivity|]. assert (normalize_df t = Err AssertionError) by (apply normalize_err; auto). congruence. }
  assert (Hf : has_date f = true /\ has_w f = t_w t). { rewrite normalize_eq in En by assumption. injection En as <-. now split. }
  assert (Hp : has_date (part f s) = true /\ has_w (part f s) = t_w t) by (unfold part; destruct (has_src f); exact Hf).
  assert (In' : forall r, In r (rows (part f s)) -> exists i q, In q (rows_raw t s) /\ r = expected t (i, q)).
  { intros r I. apply group_in. now apply (Permutation_in _ P). }
  assert (Ef : first_date t s = qdate t q1).
  { unfold first_date. rewrite find_filter. fold (rows_raw t s). now rewrite Er. }
  split; [apply Hp|]. split; [apply Hp|]. split; [rewrite Ef; now apply in_map|]. split; [rewrite <- group_dates; now apply Permutation_map|]. split; [exact St|]. split.
  - intros r I. destruct (In' r I) as (i & q & Iq & ->). cbn [expected r_x r_date]. unfold qx. rewrite Hx, Hd. apply filter_In in Iq as [_ Eq1]. apply String.eqb_eq in Eq1. now rewrite Eq1.
  - intros r I. destruct (In' r I) as (i & q & Iq & ->). exists q. repeat split; auto.
Qed.
Lemma series_steady (t : raw XR) f s : normalize_df t = Ok (Some f) -> t_x t = false -> has_date_after t = true -> series_ok t s ->
  (exists step freq t0, steady step freq t0 (part f s)) /\ (forall r, In r (rows (part f s)) -> tame (r_y r)) /\
  (has_w (part f s) = true -> forall r, In r (rows (part f s)) -> tame (r_w r)).
Proof.
  intros En Hx Hd [(step & R) Y Wt].
  destruct (series_part t f s En Hx Hd) as (Dp & Wp & I0 & P & St & Px & Pv).
  { intros C. destruct (rg_two _ _ R) as (a & Ia & _). now rewrite C in Ia. }
  split; [|split].
  - destruct (regular_steady step (first_date t s) (part f s) (map (qdate t) (rows_raw t s)) R I0 P Dp St Px) as (freq & S0). eauto.
  - intros r I. destruct (Pv r I) as (q & Iq & -> & _). now apply Y.
  - intros W r I. destruct (Pv r I) as (q & Iq & _ & ->). apply Wt; [|exact Iq]. now rewrite <- Wp.
Qed.
(* two rows from the start date on, one of them at least with a value and a positive weight; when spikes
   are to be ignored, such a row at either end, or positive weights at all rows with a value *)
Definition after_start (c : config XR) (d : Z) : Prop := match c_start c with Some s => s <= d | None => True end.
Definition weighed (t : raw XR) (q : rawrow XR) : Prop := t_w t = true -> exists w, r_w (q_row q) = Fin w /\ (0 < w)%R.
Definition series_enough (c : config XR) (t : raw XR) (s : string) : Prop :=
  let part := fun q => In q (rows_raw t s) /\ after_start c (qdate t q) in
  (exists a b, part a /\ part b /\ qdate t a <> qdate t b) /\
  exists q, part q /\ r_y (q_row q) <> XNaN /\ weighed t q /\
    (c_outliers c = true -> (forall r, part r -> r_y (q_row r) <> XNaN -> weighed t r) \/
                            (forall r, part r -> qdate t q <= qdate t r) \/ (forall r, part r -> qdate t r <= qdate t q)).
Lemma start_has_w (d : option Z) (f : frame XR) : has_w (start_filter d f) = has_w f /\ has_date (start_filter d f) = has_date f.
Proof. unfold start_filter. destruct d; [|auto]. destruct (has_date f) eqn:E; auto. Qed.
Lemma series_enough_ok c (t : raw XR) f s : normalize_df t = Ok (Some f) -> has_date_after t = true -> StronglySorted Z.lt (map r_date (rows (part f s))) ->
  series_enough c t s -> enough c (part f s).
Proof.
  intros En Hd Srt ((a & b & (Ia & Sa) & (Ib & Sb) & N) & (q & (Iq & Sq) & Yq & Wq & Oq)).
  assert (Hq : exists q, In q (t_rows t) /\ gkey t q = s) by (apply filter_In in Ia as [I E]; apply String.eqb_eq in E; eauto).
  destruct (part_rows t f s En Hq) as [P St]. assert (Hn : t_rows t <> []) by (intros C; destruct Hq as (q' & I & _); rewrite C in I; destruct I).
  assert (Hy : t_y t = true). { destruct (t_y t) eqn:Ey; [reflexivity|]. assert (normalize_df t = Err AssertionError) by (apply normalize_err; auto). congruence. }
  assert (Hf : has_date f = true /\ has_w f = t_w t). { rewrite normalize_eq in En by assumption. injection En as <-. now split. }
  assert (Hp : has_date (part f s) = true /\ has_w (part f s) = t_w t) by (unfold part; destruct (has_src f); exact Hf).
  set (f0 := start_filter (c_start c) (part f s)) in *.
  assert (Hf0 : has_w f0 = t_w t /\ has_date f0 = true) by (unfold f0; destruct (start_has_w (c_start c) (part f s)) as [-> ->]; tauto).
  assert (K : forall q, In q (rows_raw t s) -> after_start c (qdate t q) -> exists i, In (expected t (i, q)) (rows f0)).
  { intros q' I A. destruct (group_of t s q' I) as (i & J). exists i. apply (Permutation_in _ (Permutation_sym P)) in J. unfold f0, start_filter. unfold after_start in A.
    destruct (c_start c) as [d|]; [|exact J]. rewrite (proj1 Hp). unfold with_rows. cbn [rows]. apply filter_In. split; [exact J|]. cbn [expected r_date]. now apply Z.leb_le. }
  assert (K' : forall r, In r (rows f0) -> exists i q', r = expected t (i, q') /\ In q' (rows_raw t s) /\ after_start c (qdate t q')).
  { intros r I. assert (J : In r (rows (part f s)) /\ after_start c (r_date r)).
    { unfold f0, start_filter in I. unfold after_start. destruct (c_start c) as [d|]; [|auto]. rewrite (proj1 Hp) in I. unfold with_rows in I. cbn [rows] in I. apply filter_In in I as [I L]. split; [exact I|]. now apply Z.leb_le. }
    destruct J as [J A]. apply (Permutation_in _ P) in J. apply group_in in J as (i & q' & I' & ->). exists i, q'. auto. }
  assert (U : forall i q', r_y (q_row q') <> XNaN -> weighed t q' -> usable (t_w t) (expected t (i, q')) = true).
  { intros i q' Y W1. unfold usable. cbn [expected r_y r_w]. assert (nisnan (r_y (q_row q')) = false) as -> by (destruct (r_y (q_row q')); [congruence|reflexivity..]).
    destruct (t_w t) eqn:Et; [|reflexivity]. destruct (W1 Et) as (w & -> & L). cbn. destruct (Rltb_spec 0 w); [reflexivity|contradiction]. }
  split.
  - destruct (K a Ia Sa) as (i & Ka), (K b Ib Sb) as (j & Kb). exists (expected t (i, a)), (expected t (j, b)). split; [exact Ka|]. split; [exact Kb|]. exact N.
  - intros f1 E1. unfold prepared in E1. fold f0 in E1. destruct (K q Iq Sq) as (i & Kq). destruct (c_outliers c).
    + apply (spikes_leave f0 f1 (proj2 Hf0)); [|exact E1|].
      * unfold f0, start_filter. destruct (c_start c) as [d|]; [|exact Srt]. rewrite (proj1 Hp). unfold with_rows. cbn [rows]. now apply sorted_map_filter.
      * exists (expected t (i, q)). rewrite (proj1 Hf0). split; [exact Kq|]. split; [now apply U|]. destruct (Oq eq_refl) as [A|[A|A]]; [left|right; left|right; right].
        -- intros r Ir. destruct (K' r Ir) as (j & q' & -> & I' & A'). cbn [expected r_y]. intros Y. apply U; [exact Y|]. apply A; auto.
        -- intros r Ir. destruct (K' r Ir) as (j & q' & -> & I' & A'). now apply A.
        -- intros r Ir. destruct (K' r Ir) as (j & q' & -> & I' & A'). now apply A.
    + injection E1 as <-. intros C.
      assert (I : In (expected t (i, q)) (usable_rows f0)); [|rewrite C in I; destruct I].
      apply filter_In. split; [exact Kq|]. rewrite (proj1 Hf0). now apply U.
Qed.
(* every series lies on the dates of some calendar *)
Theorem table_on (W : string -> world XR) c id (t : raw XR) :
  t_rows t <> [] -> t_y t = true -> has_date_after t = true -> settings c ->
  (forall s, dependable (w_env (W s)) /\ draws (e_rnd (w_env (W s))) /\ (Forecast.c_mode c = "auto" -> answers (w_env (W s)))) ->
  (forall f q, normalize_df t = Ok (Some f) -> In q (t_rows t) ->
    (exists freq t0 G, ground freq t0 (c_years c) G /\ settled freq t0 G (part f (gkey t q))) /\ (forall r, In r (rows (part f (gkey t q))) -> tame (r_y r)) /\
    (has_w (part f (gkey t q)) = true -> forall r, In r (rows (part f (gkey t q))) -> tame (r_w r)) /\ series_enough c t (gkey t q)) ->
  exists r, run_forecast W c id t = Ok (Some r).
Proof.
  intros Hn Hy Hd Se Wo A. destruct (normalize_ok t Hn Hy) as (rs & En & P & St). set (f := mkFrame (has_date_after t) (t_src t) (t_w t) rs) in En.
  assert (K : forall q w s, In q (t_rows t) -> exists r, run_forecast_single (W w) c s (part f (gkey t q)) = Ok r).
  { intros q w s I. destruct (A f q En I) as ((freq & t0 & G & Gr & Sd) & Ty & Tw & Eno).
    destruct (Wo w) as (De & Dr & Au). eapply forecast_on; eauto. apply (series_enough_ok c t f); auto. eapply sl_sorted; eauto. }
  unfold run_forecast. rewrite En. cbn [rbind]. unfold part in K. cbn [f has_src] in *. destruct (t_src t) eqn:Es; cbn [negb].
  - destruct (rmapM_total (fun s => run_forecast_single (W s) c s (with_rows f (filter (fun r => String.eqb (r_src r) s) (rows f)))) (fun _ => True) (dedup String.eqb (map r_src (rows f)))) as (l & -> & _).
    + intros s I. apply (proj1 (dedup_in String.eqb str_eqb_spec _ _)) in I. apply in_map_iff in I as (r & <- & I). cbn [f rows] in I. apply (Permutation_in _ P) in I.
      apply in_map_iff in I as ((i & q) & <- & I). cbn [expected r_src]. assert (Iq : In q (t_rows t)) by (rewrite <- (enum_snd (t_rows t) 0); now apply (in_map snd) in I).
      destruct (K q (r_src (q_row q)) (r_src (q_row q)) Iq) as (r & E). exists r. split; [|trivial]. rewrite <- E. unfold gkey. now rewrite Es.
    + cbn [rbind]. eauto.
  - destruct (t_rows t) as [|q l] eqn:Et; [congruence|]. destruct (K q id id (or_introl eq_refl)) as (r & E). rewrite E. cbn [rbind]. eauto.
Qed.

Theorem table_completes (W : string -> world XR) c id (t : raw XR) :
  t_rows t <> [] -> t_y t = true -> t_x t = false -> has_date_after t = true -> settings c ->
  (forall s, dependable (w_env (W s)) /\ draws (e_rnd (w_env (W s))) /\ (Forecast.c_mode c = "auto" -> answers (w_env (W s)))) ->
  (forall q, In q (t_rows t) -> series_ok t (gkey t q) /\ series_enough c t (gkey t q)) ->
  exists r, run_forecast W c id t = Ok (Some r).
Proof.
  intros Hn Hy Hx Hd Se Wo A. apply table_on; auto. intros f q En I. destruct (A q I) as [Ok1 Eno].
  destruct (series_steady t f _ En Hx Hd Ok1) as ((step & freq & t0 & Sd) & Ty & Tw). split; [|auto].
  exists freq, t0, (on_step step t0). split; [apply steady_ground; exact (sd_step _ _ _ _ Sd)|now apply steady_settled].
Qed.
