(* Facts about how far prediction intervals (Pi.v) can be from the forecast. *)
From Coq Require Import ZArith String List Bool Lia Permutation Sorted Reals Lra.
From Verif Require Import Num Py Cal Model Freq Outliers Pi Forecast.
From Verif Require Import NumProofs ListProofs StringProofs GroupProofs FreqProofs BaseProofs FitProofs OutlierProofs OutlierReals InterpProofs ForecastProofs PiProofs TotalProofs.
Import ListNotations.
Local Open Scope string_scope.
Local Open Scope list_scope.

(* a value between two reals *)
Definition between (lo hi : R) (x : XR) : Prop := exists r, x = Fin r /\ (lo <= r <= hi)%R.
(* Every interval bound of a row is at most k times lo below, and at most k times hi above, its forecast. *)
Definition reach (lo hi : R) (k : nat) (p : prow XR) : Prop :=
  forall q v, In (q, v) (p_q p) ->
    if nisnan (p_y p) then v = XNaN
    else exists y, p_y p = Fin y /\ between (y + INR k * lo) (y + INR k * hi) v.

Lemma between_fin lo hi x : between lo hi x -> is_fin x.
Proof. intros (r & -> & _). now exists r. Qed.
Lemma quantile_between l q lo hi : l <> [] -> (0 <= q <= 100)%Z -> (forall x, In x l -> (lo <= x <= hi)%R) ->
  between lo hi (quantile q 100 (map Fin l)).
Proof.
  intros N B F. destruct (quantile_fin l q N) as (d & ->). eexists. split; [reflexivity|].
  assert (Len : length (isort Rleb l) = length l) by apply isort_length.
  assert (Ns : isort Rleb l <> []) by (intros C; rewrite C in Len; destruct l; [congruence|discriminate]).
  assert (G : forall i e, (i < length (isort Rleb l))%nat -> (lo <= nth i (isort Rleb l) e <= hi)%R).
  { intros i e L. apply F. apply (Permutation_in _ (Permutation_sym (isort_perm Rleb l))). now apply nth_In. }
  destruct (at_pos_bounds (isort Rleb l) d (Z.of_nat (length l - 1) * q)) as (L & (U1 & U2) & _); [apply Rsorted|exact Ns|rewrite Len; nia|].
  set (i := Z.to_nat (Z.of_nat (length l - 1) * q / 100)) in *. pose proof (G i d L) as [G1 G2].
  split; [lra|]. destruct (Nat.lt_ge_cases (Datatypes.S i) (length (isort Rleb l))) as [L1|L1].
  - pose proof (G (Datatypes.S i) (nth i (isort Rleb l) d) L1). lra.
  - rewrite (nth_overflow (isort Rleb l) (nth i (isort Rleb l) d)) in U2 by exact L1. lra.
Qed.
Lemma all_between (lo hi : R) (l : list XR) : (forall x, In x l -> between lo hi x) ->
  exists rs, l = map Fin rs /\ forall r, In r rs -> (lo <= r <= hi)%R.
Proof.
  induction l as [|a l IH]; intros F; [exists []; split; [reflexivity|intros r []]|].
  destruct (F a (or_introl eq_refl)) as (r & -> & Hr). destruct IH as (rs & -> & Hrs); [intros x Hx; apply F; now right|].
  exists (r :: rs). split; [reflexivity|]. intros s [<-|Hs]; [exact Hr|now apply Hrs].
Qed.
Lemma percentile_between (l : list XR) q lo hi : l <> [] -> (0 <= q <= 100)%Z -> (forall x, In x l -> between lo hi x) ->
  between lo hi (percentile q l).
Proof.
  intros N B F. destruct (all_between lo hi l F) as (rs & -> & Hr). unfold percentile.
  assert (existsb nisnan (map Fin rs) = false) as ->. { clear. induction rs as [|a rs IH]; [reflexivity|]. exact IH. }
  apply quantile_between; [intros ->; now apply N|exact B|exact Hr].
Qed.
Lemma drawn_between res d i lo hi : res <> [] -> (forall x, In x res -> between lo hi x) -> between lo hi (drawn res d i).
Proof. intros N F. apply F. now apply drawn_in. Qed.
Lemma prefix_between f j lo hi : (forall i, between lo hi (f i)) ->
  between (INR (Datatypes.S j) * lo) (INR (Datatypes.S j) * hi) (prefix_sum f j).
Proof.
  intros F. induction j as [|j (a & Ea & La)].
  - destruct (F 0%nat) as (a & Ea & La). exists a. split; [exact Ea|]. cbn. lra.
  - cbn [prefix_sum]. rewrite Ea. destruct (F (Datatypes.S j)) as (b & Eb & Lb). rewrite Eb. exists (a + b)%R. split; [reflexivity|].
    rewrite (S_INR (Datatypes.S j)). lra.
Qed.
Lemma future_between draw c n res k i lo hi : res <> [] -> (forall x, In x res -> between lo hi x) ->
  between (INR (i / c + 2) * lo) (INR (i / c + 2) * hi) (future_deviation draw c n res k i).
Proof.
  intros N F. unfold future_deviation. destruct (drawn_between res (draw 1%nat) (k * n + i)%nat lo hi N F) as (a & -> & La).
  destruct (prefix_between (fun j => drawn res (draw 0%nat) (k * ceil_nat n c + j)%nat) (i / c) lo hi) as (b & -> & Lb);
    [intros j; now apply drawn_between|].
  exists (a + b)%R. split; [reflexivity|]. replace (i / c + 2)%nat with (Datatypes.S (Datatypes.S (i / c))) by lia.
  rewrite (S_INR (Datatypes.S (i / c))). lra.
Qed.
Lemma quantiles_reach q1 q2 dev s i r lo hi k : in_range q1 q2 -> (1 <= s)%nat -> fin_or_null (d_y r) ->
  (forall j, between (INR k * lo) (INR k * hi) (dev j i)) -> reach lo hi k (with_quantiles q1 q2 dev s (i, r)).
Proof.
  intros Hq Hs Hy Hd q v I. unfold with_quantiles in *. cbn [p_q p_y] in *.
  apply in_map_iff in I as (q' & E & I). injection E as -> <-. apply percentiles_in in I. unfold in_range in Hq.
  destruct (percentile_between (map (fun j => dev j i) (seq 0 s)) q (INR k * lo) (INR k * hi)) as (a & -> & La).
  - destruct s; [lia|discriminate].
  - lia.
  - intros x Hx. apply in_map_iff in Hx as (j & <- & _). apply Hd.
  - destruct Hy as [->|(y & ->)]; [reflexivity|]. change (nisnan (Fin y)) with false. cbv iota. exists y. split; [reflexivity|].
    exists (y + a)%R. split; [reflexivity|lra].
Qed.

Lemma enumerate_nth {A} (l : list A) i e : (i < length l)%nat -> nth_error (enumerate l) i = Some (i, nth i l e).
Proof.
  unfold enumerate. assert (G : forall (l : list A) i k, (i < length l)%nat -> nth_error (enum_from k l) i = Some ((k + i)%nat, nth i l e)).
  { clear. induction l as [|a l IH]; intros i k L; [cbn in L; lia|]. destruct i as [|i]; cbn; [now rewrite Nat.add_0_r|].
    cbn in L. rewrite IH by lia. f_equal. f_equal. lia. }
  intros L. now rewrite (G l i 0%nat L).
Qed.
Lemma enumerate_length {A} (l : list A) : length (enumerate l) = length l.
Proof. unfold enumerate. generalize 0%nat. induction l as [|a l IH]; intros k; [reflexivity|]. cbn. now rewrite IH. Qed.

(* The rows of the result: the samples, then the forecast up to the last one, then the rest. *)
Definition layout (t : ptable XR) (last : Z) (acts pas fut : list (prow XR)) : Prop :=
  map shape acts = map dshape (shown_actuals t) /\ map shape pas = map dshape (past_rows t last) /\ map shape fut = map dshape (future_rows t last).
Lemma actual_shapes {T} `{NumOps T} (t : ptable T) : map shape (map actual_row (shown_actuals t)) = map dshape (shown_actuals t).
Proof.
  rewrite map_map. apply map_ext_in. intros r Hr. apply filter_In in Hr as [_ Hr]. apply andb_prop in Hr as [Ha _]. unfold shape, dshape. cbn. now rewrite Ha.
Qed.
Lemma quantile_shapes {T} `{NumOps T} q1 q2 dev s (l : list (drow T)) : (forall r, In r l -> d_actual r = false) ->
  map shape (map (with_quantiles q1 q2 dev s) (enumerate l)) = map dshape l.
Proof.
  intros A. rewrite <- (enum_map dshape l), map_map. apply map_ext_in. intros (i & r) Hi. apply enumerate_in in Hi as [_ Hi].
  unfold shape, dshape. cbn. now rewrite (A r Hi).
Qed.
Theorem pi_single_reach draw s n_cum q1 q2 t out lo hi : finite_table t -> (1 <= s)%nat -> pi_single draw s n_cum q1 q2 t = Ok out ->
  residuals (actuals_of t) (kept t) <> [] ->
  (forall x, In x (centred (residuals (actuals_of t) (kept t))) -> between lo hi x) ->
  exists step last acts pas fut, step_of t n_cum = Ok step /\ zmax_opt (map fst (actuals_of t)) = Some last /\
    out = acts ++ pas ++ fut /\ layout t last acts pas fut /\
    (forall p, In p acts -> p_q p = []) /\
    (forall p, In p pas -> reach lo hi 1 p) /\
    (forall i p, nth_error fut i = Some p -> reach lo hi (i / step + 2) p).
Proof.
  intros F Hs E Nr Hb. destruct (pi_single_rows _ _ _ _ _ _ _ E) as (step & Es & [(Er & _)|(last & Hq & El & _ & Eo)]); [contradiction|].
  cbv zeta in Eo. set (res := centred (residuals (actuals_of t) (kept t))) in *.
  assert (N : res <> []). { unfold res, centred. intros C. apply map_eq_nil in C. contradiction. }
  exists step, last. do 3 eexists. split; [exact Es|]. split; [exact El|]. split; [exact Eo|]. split; [|split; [|split]].
  - split; [apply actual_shapes|split; apply quantile_shapes; intros r Hr; apply filter_In in Hr as [_ Hr]; apply andb_prop in Hr as [Hr _]; now apply negb_true_iff in Hr].
  - intros p Hp. apply in_map_iff in Hp as (r & <- & _). reflexivity.
  - intros p Hp. apply in_map_iff in Hp as ((i & r) & <- & Hi). apply enumerate_in in Hi as [_ Hi]. apply quantiles_reach; auto.
    + apply F. apply filter_In in Hi as [Hi _]. now apply kept_in.
    + intros j. replace (INR 1 * lo)%R with lo by (cbn; lra). replace (INR 1 * hi)%R with hi by (cbn; lra). now apply drawn_between.
  - intros i p Hp. assert (L : (i < length (future_rows t last))%nat).
    { rewrite <- (enumerate_length (future_rows t last)). erewrite <- (map_length _ (enumerate _)). apply nth_error_Some. rewrite Hp. discriminate. }
    rewrite nth_error_map in Hp. destruct (future_rows t last) as [|r0 l0] eqn:Ef; [cbn in L; lia|]. rewrite <- Ef in *.
    rewrite (enumerate_nth (future_rows t last) i r0 L) in Hp. cbn [option_map] in Hp.
    pose proof (f_equal (fun o => match o with Some x => x | None => p end) Hp) as Ep. cbv beta iota in Ep. rewrite <- Ep.
    apply quantiles_reach; auto.
    + apply F. pose proof (nth_In (future_rows t last) r0 L) as I. apply filter_In in I as [I _]. now apply kept_in.
    + intros j. now apply future_between.
Qed.

(* ---------- from the errors seen in the table ---------- *)
(* The errors of the fit: a sample with a value against a forecast for the same date. *)
Definition errors_within (lo hi : R) (t : ptable XR) : Prop :=
  forall a f ya yf, In a (kept t) -> In f (kept t) -> d_actual a = true -> d_actual f = false -> d_date a = d_date f ->
    d_y a = Fin ya -> d_y f = Fin yf -> (lo <= ya - yf <= hi)%R.
Lemma residual_errors t lo hi rs : finite_table t -> errors_within lo hi t -> residuals (actuals_of t) (kept t) = map Fin rs ->
  forall r, In r rs -> (lo <= r <= hi)%R.
Proof.
  intros F B E r Hr. apply (in_map Fin) in Hr. rewrite <- E in Hr. clear E rs.
  unfold residuals in Hr. apply filter_In in Hr as [Hx _]. apply in_flat_map in Hx as (f & Hf & Hx).
  apply in_map_iff in Hx as ((d & y) & Ex & Ha). apply filter_In in Ha as [Ha Hd]. apply filter_In in Hf as [Hf Hv]. apply andb_prop in Hv as [Hv _].
  cbn [fst snd] in *. apply Z.eqb_eq in Hd. apply negb_true_iff in Hv.
  assert (G : exists a, In a (kept t) /\ d_actual a = true /\ d_date a = d /\ d_y a = y).
  { unfold actuals_of in Ha. destruct (some_zero_weight t).
    - unfold usable_actuals in Ha. apply in_flat_map in Ha as (a & Hk & Ha). apply repeat_spec in Ha. injection Ha as -> ->.
      apply filter_In in Hk as [Hk Hc]. apply andb_prop in Hc as [Hc _]. exists a. auto.
    - apply in_map_iff in Ha as (a & Ea & Hk). injection Ea as <- <-. apply filter_In in Hk as [Hk Hc]. apply andb_prop in Hc as [Hc _]. exists a. auto. }
  destruct G as (a & Ia & Aa & Da & Ya). destruct (F a (kept_in _ _ Ia)) as [K|(ya & K)].
  - rewrite Ya in K. subst y. rewrite K in Ex. discriminate.
  - destruct (F f (kept_in _ _ Hf)) as [K'|(yf & K')].
    + rewrite K' in Ex. destruct y; discriminate.
    + rewrite <- Ya, K, K' in Ex. cbn in Ex. injection Ex as <-. apply (B a f); auto. congruence.
Qed.
Lemma rsum_between l lo hi : (forall r, In r l -> (lo <= r <= hi)%R) ->
  (INR (length l) * lo <= rsum l <= INR (length l) * hi)%R.
Proof.
  induction l as [|a l IH]; intros B; [cbn; lra|]. change (rsum (a :: l)) with (a + rsum l)%R. cbn [length]. rewrite S_INR.
  pose proof (B a (or_introl eq_refl)). specialize (IH (fun r Hr => B r (or_intror Hr))). lra.
Qed.
Lemma mean_between rs lo hi : rs <> [] -> (forall r, In r rs -> (lo <= r <= hi)%R) -> (lo <= mean rs <= hi)%R.
Proof.
  intros N B. unfold mean. rewrite <- INR_IZR_INZ. pose proof (rsum_between rs lo hi B) as [L U].
  assert (0 < INR (length rs))%R as P by (apply lt_0_INR; destruct rs; [congruence|cbn; lia]).
  split; apply (Rmult_le_reg_r (INR (length rs))); auto; unfold Rdiv; rewrite Rmult_assoc, Rinv_l, Rmult_1_r by lra; lra.
Qed.
(* a sample that is used and a forecast for its date *)
Definition has_error (t : ptable XR) : Prop := residuals (actuals_of t) (kept t) <> [].
Lemma centred_errors t lo hi : finite_table t -> errors_within lo hi t -> has_error t ->
  forall x, In x (centred (residuals (actuals_of t) (kept t))) -> between (lo - hi) (hi - lo) x.
Proof.
  intros F B N x Hx. unfold has_error in N. destruct (residuals_fin t F) as (rs & E). pose proof (residual_errors t lo hi rs F B E) as G. rewrite E in *.
  assert (Nr : rs <> []) by (intros ->; now apply N). rewrite centred_fin, map_map in Hx by exact Nr.
  apply in_map_iff in Hx as (r & <- & Hr). pose proof (G r Hr). pose proof (mean_between rs lo hi Nr G). eexists. split; [reflexivity|lra].
Qed.
Theorem pi_single_errors draw s n_cum q1 q2 t out lo hi : finite_table t -> (1 <= s)%nat -> pi_single draw s n_cum q1 q2 t = Ok out ->
  has_error t -> errors_within lo hi t ->
  exists step last acts pas fut, step_of t n_cum = Ok step /\ zmax_opt (map fst (actuals_of t)) = Some last /\
    out = acts ++ pas ++ fut /\ layout t last acts pas fut /\
    (forall p, In p acts -> p_q p = []) /\
    (forall p, In p pas -> reach (lo - hi) (hi - lo) 1 p) /\
    (forall i p, nth_error fut i = Some p -> reach (lo - hi) (hi - lo) (i / step + 2) p).
Proof. intros F Hs E N B. eapply pi_single_reach; eauto. now apply centred_errors. Qed.

(* ---------- a run ---------- *)
Definition interval_table (f : frame XR) (r : result XR) : ptable XR := mkPT true true true (has_date f) (rs_data r).
Theorem run_errors W c source f r lo hi : run_forecast_single W c source f = Ok r ->
  finite_table (interval_table f r) -> has_error (interval_table f r) -> errors_within lo hi (interval_table f r) ->
  exists n_cum step last acts pas fut,
    match c_ncum c with Some n => Ok n | None => days_from_freq (c_widen c) end = Ok n_cum /\
    step_of (interval_table f r) n_cum = Ok step /\ zmax_opt (map fst (actuals_of (interval_table f r))) = Some last /\
    rs_forecast r = acts ++ pas ++ fut /\ layout (interval_table f r) last acts pas fut /\
    (forall p, In p acts -> p_q p = []) /\
    (forall p, In p pas -> reach (lo - hi) (hi - lo) 1 p) /\
    (forall i p, nth_error fut i = Some p -> reach (lo - hi) (hi - lo) (i / step + 2) p).
Proof.
  intros E F N B. unfold run_forecast_single in E.
  destruct (run_fits W c source f) as [[[w acts0] fits]|] eqn:Ef; [|discriminate]. cbn [rbind] in E.
  pose proof (data_source _ _ _ _ _ _ _ (c_all c) Ef) as Sd.
  destruct (assemble W (c_all c) w acts0 fits) as [data metas] eqn:Ea. cbn [fst] in Sd.
  rewrite (get_pi_single _ _ _ _ _ _ _ source) in E by exact Sd.
  destruct (match c_ncum c with Some k => Ok k | None => days_from_freq (c_widen c) end) as [k|]; cbn [rbind] in E; [|discriminate].
  destruct (pi_single _ _ _ _ _ _) as [pi|] eqn:Ep; [|discriminate]. cbn [rbind] in E. apply ok_inj in E. subst r.
  unfold interval_table in *. cbn [rs_data rs_forecast] in *.
  assert (L : (1 <= 100)%nat) by lia.
  destruct (pi_single_errors _ _ _ _ _ _ _ lo hi F L Ep N B) as (step & last & a & p & q & H).
  exists k, step, last, a, p, q. split; [reflexivity|exact H].
Qed.
