(* Monthly and yearly series are forecast without an exception (C79). *)
From Coq Require Import ZArith String List Bool Lia Reals Lra Sorted Permutation QArith_base.
From Verif Require Import Num Py Cal Fmt Model Base Fixed Naive Freq Aic Normalize Fit Interp Select Stats Outliers Pi Forecast.
From Verif Require Import NumProofs ListProofs CalSweep CalProofs NormalizeProofs FitProofs FreqProofs GridProofs InterpProofs ForecastProofs ForecastProofs2 GuessProofs TotalProofs TotalProofs2 TotalProofs3 TotalProofs4.
Import ListNotations.
Local Open Scope string_scope.
Local Open Scope list_scope.
Local Open Scope Z_scope.

(* the frequencies of months and years, with the day (number of days since 1970) of each period *)
Inductive periods : string -> (Z -> Z) -> Prop :=
| pd_ms : periods "MS" month_start
| pd_m : periods "M" month_last
| pd_ys : periods "YS" (fun y => month_start (12 * y))
| pd_y : periods "Y" (fun y => month_last (12 * y + 11)).
Definition turns (d : Z -> Z) (t0 t : Z) : Prop := exists k, t = d k * DAY + t0 mod DAY.

Lemma periods_months freq d : periods freq d -> exists sel day mult, month_freq freq sel day mult /\ in_month day /\ 0 < mult /\
  forall t r, (exists k, sel k = true /\ t = day k * DAY + r) <-> exists k, t = d k * DAY + r.
Proof.
  intros P. destruct P.
  - exists any_month, month_start, 1. split; [constructor|]. split; [exact month_start_in|]. split; [lia|]. intros t r. split; intros (k & K); exists k; [apply K|now split].
  - exists any_month, month_last, 1. split; [constructor|]. split; [exact month_last_in|]. split; [lia|]. intros t r. split; intros (k & K); exists k; [apply K|now split].
  - exists january, month_start, 12. split; [constructor|]. split; [exact month_start_in|]. split; [lia|]. intros t r. split.
    + intros (k & K & ->). exists (k / 12). unfold january in K. apply Z.eqb_eq in K. do 3 f_equal. Z.div_mod_to_equations. lia.
    + intros (k & ->). exists (12 * k). split; [|reflexivity]. unfold january. apply Z.eqb_eq. Z.div_mod_to_equations. lia.
  - exists december, month_last, 12. split; [constructor|]. split; [exact month_last_in|]. split; [lia|]. intros t r. split.
    + intros (k & K & ->). exists (k / 12). unfold december in K. apply Z.eqb_eq in K. do 3 f_equal. Z.div_mod_to_equations. lia.
    + intros (k & ->). exists (12 * k + 11). split; [|reflexivity]. unfold december. apply Z.eqb_eq. Z.div_mod_to_equations. lia.
Qed.
(* consecutive periods are 28 to 31 or 365 to 366 days apart *)
Definition length_ok (freq : string) (n : Z) : Prop :=
  ((freq = "MS" \/ freq = "M") /\ 28 <= n <= 31) \/ ((freq = "YS" \/ freq = "Y") /\ 365 <= n <= 366).
Lemma period_length freq d k : periods freq d -> length_ok freq (d (k + 1) - d k).
Proof.
  intros P. destruct P; [left|left|right|right]; (split; [auto|]).
  - rewrite month_start_next. pose proof (dim_bounds k). lia.
  - rewrite !month_last_eq, (month_start_next (k + 1)). pose proof (dim_bounds (k + 1)). lia.
  - pose proof (year_length k). destruct (leap k); lia.
  - rewrite !month_last_eq. replace (12 * (k + 1) + 11 + 1) with (12 * (k + 1 + 1)) by ring. replace (12 * k + 11 + 1) with (12 * (k + 1)) by ring.
    pose proof (year_length (k + 1)). destruct (leap (k + 1)); lia.
Qed.
Lemma period_mono freq d : periods freq d -> forall j k, j < k -> d j < d k.
Proof.
  intros P j k L. replace k with (j + Z.of_nat (Z.to_nat (k - j))) by lia. assert (N : (0 < Z.to_nat (k - j))%nat) by lia. revert N.
  generalize (Z.to_nat (k - j)) as n. clear k L. induction n as [|n IH]; [lia|]. intros _.
  assert (S1 : d (j + Z.of_nat n) < d (j + Z.of_nat (S n))).
  { replace (j + Z.of_nat (S n)) with (j + Z.of_nat n + 1) by lia. pose proof (period_length freq d (j + Z.of_nat n) P) as [[_ K]|[_ K]]; lia. }
  destruct n as [|n]; [replace (j + Z.of_nat 0) with j in S1 by lia; exact S1|]. specialize (IH ltac:(lia)). lia.
Qed.
Lemma period_inj freq d j k : periods freq d -> d j = d k -> j = k.
Proof. intros P E. destruct (Z.lt_trichotomy j k) as [L|[L|L]]; [|exact L|]; apply (period_mono freq d P) in L; lia. Qed.
Lemma day_part d r : 0 <= r < DAY -> (d * DAY + r) mod DAY = r.
Proof. intros B. rewrite Z.add_comm, Z.mod_add by (pose proof DAYp; lia). now apply Z.mod_small. Qed.
Lemma turns_part d t0 t : turns d t0 t -> t mod DAY = t0 mod DAY.
Proof. intros (k & ->). apply day_part. apply Z.mod_pos_bound, DAYp. Qed.
Lemma turns_aligned d t0 t : turns d t0 t -> (t - t0) mod DAY = 0.
Proof. intros K. apply turns_part in K. rewrite Zminus_mod, K, Z.sub_diag. reflexivity. Qed.

(* later by whole months is not earlier *)
Lemma add_months_le t n : 0 <= n -> t <= add_months t n.
Proof.
  intros N. unfold add_months. pose proof DAYp as Dp. pose proof (Z.div_mod t DAY ltac:(lia)) as E.
  set (i := month_index (day_of t)). pose proof (month_index_bounds (day_of t)) as [B1 B2]. fold i in B1, B2.
  assert (Dm : dom t = day_of t - month_start i + 1).
  { unfold dom, i. destruct (civil_of_day (day_of t)) as [[Vm Vd] Ed]. unfold month_index. set (y := year_of_day (day_of t)) in *. set (m := month_of_day (day_of t)) in *.
    unfold month_start. replace ((12 * y + (m - 1)) / 12) with y by (Z.div_mod_to_equations; lia). replace ((12 * y + (m - 1)) mod 12) with (m - 1) by (Z.div_mod_to_equations; lia).
    replace (m - 1 + 1) with m by ring. rewrite (days_from_civil_day y m 1) in Ed. lia. }
  assert (day_of t <= Z.min (month_start (i + n) + (dom t - 1)) (month_last (i + n))).
  { apply Z.min_glb.
    - rewrite Dm. pose proof (month_start_le i (i + n) ltac:(lia)). lia.
    - rewrite month_last_eq in *. pose proof (month_start_le (i + 1) (i + n + 1) ltac:(lia)). lia. }
  unfold day_of in *. nia.
Qed.
(* ---- the forecast grid ---- *)
(* the horizon is a whole number of periods *)
Definition whole_periods (freq : string) (years : Q) : Prop := Qnum years * units_per_year (freq_short freq) mod Zpos (Qden years) = 0.
Lemma month_ground freq d t0 years : periods freq d -> whole_periods freq years -> ground freq t0 years (turns d t0).
Proof.
  intros P Wh. destruct (periods_months freq d P) as (sel & day & mult & F & Dm & Pm & Eq1). constructor.
  - intros t. apply turns_aligned.
  - intros start stop m x0 On Ex. destruct (month_grid start stop (Some m) freq sel day mult years x0 F Wh) as (g & Eg & Sg & Ig). cbv zeta in Ig.
    pose proof (turns_part _ _ _ On) as Ep.
    assert (Og : forall t, In t g -> turns d t0 t). { intros t It. apply Ig in It as (k & Sk & -> & _). rewrite Ep. apply Eq1. now exists k. }
    exists g. split; [|split; [exact Sg|split; [exact Og|]]].
    + rewrite Eg. f_equal. apply map_ext_in. intros t It. do 2 f_equal. rewrite Ex. apply aligned_x. right. exact (turns_aligned _ _ _ On).
    + intros Ny Le C. assert (I : In start g); [|rewrite C in I; destruct I]. apply Ig. apply Eq1 in On as (k & Sk & Ek). exists k. split; [exact Sk|]. split; [rewrite Ep; exact Ek|].
      split; [lia|]. transitivity stop; [exact Le|]. apply add_months_le. apply Z.mul_nonneg_nonneg; [lia|]. apply Z.div_pos; [|lia].
      apply Z.mul_nonneg_nonneg; [exact Ny|]. destruct F; cbn; lia.
Qed.

(* ---- consecutive periods ---- *)
Definition run (d : Z -> Z) (r k : Z) (n : nat) : list Z := series_of (fun i => d (k + i) * DAY + r) n.
Lemma run_in d r k n t : In t (run d r k n) <-> exists j, k <= j < k + Z.of_nat n /\ t = d j * DAY + r.
Proof.
  unfold run. rewrite series_in. split.
  - intros (i & B & ->). exists (k + i). split; [lia|reflexivity].
  - intros (j & B & ->). exists (j - k). split; [lia|]. now replace (k + (j - k)) with j by ring.
Qed.
Lemma run_sorted freq d r k n : periods freq d -> StronglySorted Z.lt (run d r k n).
Proof.
  intros P. unfold run, series_of. apply (map_seq_sorted (fun i => d (k + Z.of_nat i) * DAY + r)). intros i j L.
  pose proof (period_mono freq d P (k + Z.of_nat i) (k + Z.of_nat j) ltac:(lia)). pose proof DAYp. nia.
Qed.
Lemma dom_part q r : 0 <= r < DAY -> dom (q * DAY + r) = dom_of_day q.
Proof. intros B. unfold dom. now rewrite day_of_parts. Qed.
Lemma month_part q r : 0 <= r < DAY -> month (q * DAY + r) = month_of_day q.
Proof. intros B. unfold month. now rewrite day_of_parts. Qed.
Lemma run_freq freq d r k n : periods freq d -> 0 <= r < DAY -> (2 <= n)%nat -> detect_freq (run d r k n) = Some freq.
Proof.
  intros P B Hn. unfold run. pose proof DAYp as Dp.
  assert (St : forall lo hi, (forall j, lo <= d (j + 1) - d j <= hi) -> 0 < lo -> exists g, min_gap (series_of (fun i => d (k + i) * DAY + r) n) g /\ lo * DAY <= g <= hi * DAY).
  { intros lo hi L Pl. apply series_gap; [exact Hn|nia|]. intros i _. replace (k + (i + 1)) with (k + i + 1) by ring. specialize (L (k + i)). nia. }
  assert (I0 : In (d k * DAY + r) (series_of (fun i => d (k + i) * DAY + r) n)). { apply run_in. exists k. split; [lia|reflexivity]. }
  pose proof (fun j => period_length freq d j P) as L. destruct P.
  - destruct (St 28 31) as (g & G & Bg); [intros j; destruct (L j) as [[_ K]|[[C|C] _]]; [exact K|discriminate..]|lia|].
    apply (detect_month_start _ g G Bg). intros t It. apply series_in in It as (j & _ & ->). rewrite dom_part by exact B. unfold dom_of_day. now rewrite month_start_civil.
  - destruct (St 28 31) as (g & G & Bg); [intros j; destruct (L j) as [[_ K]|[[C|C] _]]; [exact K|discriminate..]|lia|].
    apply (detect_month _ g G _ Bg I0). rewrite dom_part by exact B. unfold dom_of_day. rewrite month_last_civil. pose proof (dim_bounds k). lia.
  - destruct (St 365 366) as (g & G & Bg); [intros j; destruct (L j) as [[[C|C] _]|[_ K]]; [discriminate..|exact K]|lia|].
    apply (detect_year_start _ g G Bg). intros t It. apply series_in in It as (j & _ & ->). rewrite dom_part, month_part by exact B.
    unfold dom_of_day, month_of_day. rewrite month_start_civil. split; [reflexivity|]. generalize (k + j). intros z. Z.div_mod_to_equations. lia.
  - destruct (St 365 366) as (g & G & Bg); [intros j; destruct (L j) as [[[C|C] _]|[_ K]]; [discriminate..|exact K]|lia|].
    apply (detect_year _ g G _ Bg I0). left. rewrite dom_part by exact B. unfold dom_of_day. rewrite month_last_civil. pose proof (dim_bounds (12 * k + 11)). lia.
Qed.

(* a normalised series with one row for each of at least two consecutive periods, at the same time of
   the day *)
Record monthly (freq : string) (d : Z -> Z) (t0 : Z) (f : frame XR) : Prop := {
  mo_periods : periods freq d;
  mo_date : has_date f = true;
  mo_rows : exists k n, (2 <= n)%nat /\ map r_date (rows f) = run d (t0 mod DAY) k n;
  mo_x : forall q, In q (rows f) -> r_x q = x_of t0 (r_date q) }.
Lemma period_on_grid freq d t0 lo t : periods freq d -> turns d t0 lo -> turns d t0 t -> on_grid lo (Some freq) t.
Proof.
  intros P L (k & ->). unfold on_grid. rewrite (turns_part _ _ _ L). destruct P.
  - do 3 right. left. eauto.
  - do 4 right. left. eauto.
  - do 6 right. left. eauto.
  - do 7 right. eauto.
Qed.
Lemma period_range freq d t0 lo hi grid t : periods freq d -> turns d t0 lo -> asfreq_range lo hi (Some freq) = Ok grid -> In t grid -> turns d t0 t /\ lo <= t <= hi.
Proof.
  intros P L E I. destruct (periods_months freq d P) as (sel & day & mult & F & Dm & _ & Eq1).
  assert (Er : asfreq_range lo hi (Some freq) = Ok (month_range lo hi sel day)).
  { unfold asfreq_range, date_range. destruct F; destruct (weekday_name_cases lo) as [->|[->|[->|[->|[->|[->| ->]]]]]]; reflexivity. }
  rewrite Er in E. apply ok_inj in E. rewrite E in I. apply month_range_in in I as (k & Sk & Et & B); [|exact Dm].
  split; [|exact B]. rewrite (turns_part _ _ _ L) in Et. apply Eq1. eauto.
Qed.
Lemma monthly_filled freq d t0 f : monthly freq d t0 f -> exists g, filled (turns d t0) t0 f g.
Proof.
  intros [P Hd (k & n & Hn & Er) Hx]. pose proof (Z.mod_pos_bound t0 DAY DAYp) as B.
  assert (On : forall q, In q (rows f) -> turns d t0 (r_date q)).
  { intros q I. apply (in_map r_date) in I. rewrite Er in I. apply run_in in I as (j & _ & ->). now exists j. }
  assert (St : StronglySorted Z.lt (map r_date (rows f))) by (rewrite Er; now apply (run_sorted freq)).
  assert (Hf : detect_freq (map r_date (rows f)) = Some freq) by (rewrite Er; now apply run_freq).
  destruct (Classical_Prop.classic (complete f)) as [C|C].
  { exists f. constructor; auto. now apply interp_complete. }
  pose proof (sorted_dates_nodup _ St) as Nd. pose proof (irregular_nonempty f C) as Ne.
  destruct (zmin_zmax (map r_date (rows f))) as (lo & hi0 & _ & _ & Ilo & _ & Bl); [intros E; now apply map_eq_nil in E|].
  assert (Al : turns d t0 lo). { apply in_map_iff in Ilo as (q & <- & Iq). now apply On. }
  destruct (interp_dates_ok f lo Hd C Nd Ilo) as (hi & grid & rs & Eg & Ihi & Bh & Ea & Re & All).
  { intros t It. split; [now apply Bl|]. rewrite Hf. apply in_map_iff in It as (q & <- & Iq). apply (period_on_grid freq d t0); auto. }
  exists (mkFrame true (has_src f) (has_w f) rs). destruct Re as (Rg & _ & Ry). rewrite Hf in Ea.
  destruct (asfreq_grid lo hi (Some freq) grid (proj2 (Bh lo Ilo)) Ea) as [Sg _].
  (* no period is missing *)
  assert (Sub : forall q, In q rs -> In q (rows f)).
  { intros q Iq. destruct (Ry q Iq) as [I|(Nq & _)]; [exact I|]. exfalso. apply Nq. apply (in_map r_date) in Iq. rewrite Rg in Iq.
    destruct (period_range freq d t0 lo hi grid _ P Al Ea Iq) as [(j & Ej) Bj]. rewrite Er in Ilo, Ihi |- *. rewrite Ej in Bj |- *.
    apply run_in in Ilo as (a & Ba & ->). apply run_in in Ihi as (b & Bb & ->). apply run_in. exists j. split; [|reflexivity]. pose proof DAYp.
    split; apply Z.nlt_ge || apply Z.nle_gt; intros L.
    - assert (L' : j < a) by lia. apply (period_mono freq d P) in L'. nia.
    - assert (L' : b < j) by lia. apply (period_mono freq d P) in L'. nia. }
  constructor; cbn [rows]; auto. now rewrite Rg.
Qed.
Lemma monthly_settled freq d t0 f : monthly freq d t0 f -> settled freq t0 (turns d t0) f.
Proof.
  intros M. pose proof (monthly_filled freq d t0 f M) as Fl. destruct M as [P Hd (k & n & Hn & Er) Hx]. constructor; auto.
  - rewrite Er. apply run_freq; auto. apply Z.mod_pos_bound, DAYp.
  - rewrite Er. now apply (run_sorted freq).
  - intros q I. apply (in_map r_date) in I. rewrite Er in I. apply run_in in I as (j & _ & ->). now exists j.
Qed.
Theorem monthly_completes W c source freq d t0 f :
  monthly freq d t0 f -> whole_periods freq (c_years c) ->
  (forall r, In r (rows f) -> tame (r_y r)) -> (has_w f = true -> forall r, In r (rows f) -> tame (r_w r)) ->
  dependable (w_env W) -> draws (e_rnd (w_env W)) -> (Forecast.c_mode c = "auto" -> answers (w_env W)) ->
  settings c -> enough c f ->
  exists r, run_forecast_single W c source f = Ok r.
Proof.
  intros M Wh. apply (forecast_on W c source freq t0 (turns d t0)); [|now apply monthly_settled].
  apply month_ground; [apply (mo_periods _ _ _ _ M)|exact Wh].
Qed.

(* ---- tables ---- *)
(* the dates of consecutive periods, in any order *)
Definition periodic (freq : string) (ds : list Z) : Prop :=
  exists d r k n, periods freq d /\ 0 <= r < DAY /\ (2 <= n)%nat /\ Permutation ds (run d r k n).
Lemma sorted_unique (l l' : list Z) : StronglySorted Z.lt l -> StronglySorted Z.lt l' -> Permutation l l' -> l = l'.
Proof.
  revert l'. induction l as [|a l IH]; intros l' S1 S2 P.
  - apply Permutation_nil in P. now subst.
  - destruct l' as [|b l']; [symmetry in P; now apply Permutation_nil in P|]. inversion S1 as [|? ? S1' F1]; subst. inversion S2 as [|? ? S2' F2]; subst.
    rewrite Forall_forall in F1, F2.
    assert (a = b).
    { assert (Ia : In a (b :: l')) by (apply (Permutation_in _ P); now left). assert (Ib : In b (a :: l)) by (apply (Permutation_in _ (Permutation_sym P)); now left).
      destruct Ia as [->|Ia]; [reflexivity|]. destruct Ib as [->|Ib]; [reflexivity|]. specialize (F1 b Ib). specialize (F2 a Ia). lia. }
    subst b. f_equal. apply IH; auto. now apply Permutation_cons_inv in P.
Qed.
Lemma periodic_monthly freq t0 (g : frame XR) ds : periodic freq ds -> In t0 ds -> Permutation (map r_date (rows g)) ds ->
  has_date g = true -> StronglySorted (fun a b => r_x a <= r_x b) (rows g) ->
  (forall q, In q (rows g) -> r_x q = x_of t0 (r_date q)) -> exists d, monthly freq d t0 g.
Proof.
  intros (d & r & k & n & P & B & Hn & Pm) I0 Pg Hd St Hx. exists d.
  assert (Er : t0 mod DAY = r). { apply (Permutation_in _ Pm) in I0. apply run_in in I0 as (j & _ & ->). now apply day_part. }
  assert (Sr : StronglySorted Z.lt (run d r k n)) by now apply (run_sorted freq).
  constructor; auto. exists k, n. split; [exact Hn|]. rewrite Er. apply sorted_unique; [|exact Sr|now rewrite Pg].
  apply (dates_sorted t0); auto.
  - eapply Permutation_NoDup; [|apply sorted_dates_nodup; exact Sr]. rewrite <- Pm. now symmetry.
  - intros q I. apply (in_map r_date) in I. apply (Permutation_in _ Pg) in I. apply (Permutation_in _ Pm) in I. apply run_in in I as (j & _ & E).
    apply (turns_aligned d). exists j. now rewrite Er.
Qed.
(* one series of the input table: daily, weekly, monthly or yearly dates; every value and weight a real
   number or missing *)
Record calendar_series (years : Q) (t : raw XR) (s : string) : Prop := {
  cs_dates : (exists step, regular step (map (qdate t) (rows_raw t s))) \/
             (exists freq, periodic freq (map (qdate t) (rows_raw t s)) /\ whole_periods freq years);
  cs_y : forall q, In q (rows_raw t s) -> tame (r_y (q_row q));
  cs_w : t_w t = true -> forall q, In q (rows_raw t s) -> tame (r_w (q_row q)) }.
Theorem calendar_completes (W : string -> world XR) c id (t : raw XR) :
  t_rows t <> [] -> t_y t = true -> t_x t = false -> has_date_after t = true -> settings c ->
  (forall s, dependable (w_env (W s)) /\ draws (e_rnd (w_env (W s))) /\ (Forecast.c_mode c = "auto" -> answers (w_env (W s)))) ->
  (forall q, In q (t_rows t) -> calendar_series (c_years c) t (gkey t q) /\ series_enough c t (gkey t q)) ->
  exists r, run_forecast W c id t = Ok (Some r).
Proof.
  intros Hn Hy Hx Hd Se Wo A. apply table_on; auto. intros f q En I. destruct (A q I) as [[Dt Y Wt] Eno].
  destruct (series_part t f (gkey t q) En Hx Hd) as (Dp & Wp & I0 & P & St & Px & Pv).
  { intros C. assert (Iq : In q (rows_raw t (gkey t q))) by (apply filter_In; split; [exact I|apply String.eqb_refl]). now rewrite C in Iq. }
  split; [|split; [|split; [|exact Eno]]].
  - destruct Dt as [(step & R)|(freq & Pe & Wh)].
    + destruct (regular_steady step _ _ _ R I0 P Dp St Px) as (freq & Sd). exists freq, (first_date t (gkey t q)), (on_step step (first_date t (gkey t q))).
      split; [apply steady_ground; exact (sd_step _ _ _ _ Sd)|now apply steady_settled].
    + destruct (periodic_monthly freq _ _ _ Pe I0 P Dp St Px) as (d & M). exists freq, (first_date t (gkey t q)), (turns d (first_date t (gkey t q))).
      split; [apply month_ground; [apply (mo_periods _ _ _ _ M)|exact Wh]|now apply monthly_settled].
  - intros r Ir. destruct (Pv r Ir) as (q' & Iq & -> & _). now apply Y.
  - intros W1 r Ir. destruct (Pv r Ir) as (q' & Iq & _ & ->). apply Wt; [|exact Iq]. now rewrite <- Wp.
Qed.
