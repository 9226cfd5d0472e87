(* Specifications and lemmas for C80: a model that reproduces the series exactly is chosen, and its
   forecast carries no doubt. *)
From Coq Require Import ZArith String List Bool Lia Reals Lra Sorted Permutation QArith_base.
From Verif Require Import Num Py Cal Fmt Model Base Fixed Naive Freq Aic Normalize Fit Interp Select Stats Outliers Pi Forecast.
From Verif Require Import NumProofs ListProofs StringProofs ModelProofs BaseProofs GuessProofs FixedProofs FitProofs SeasonProofs CacheProofs AicProofs StatsProofs FreqProofs GridProofs InterpProofs NaiveProofs SnaiveProofs PiProofs ForecastProofs ForecastProofs2 GroupProofs ExtendProofs MetaProofs LsqProofs RobustProofs OutlierProofs OutlierReals TotalProofs TotalProofs2 TotalProofs3 UniqueProofs ExistProofs.
Import ListNotations.
Local Open Scope string_scope.
Local Open Scope list_scope.
Local Open Scope R_scope.

(* ---- intervals ---- *)
(* the rows the intervals are computed from: those of the chosen model and the actuals *)
Definition considered (t : ptable XR) (r : drow XR) : Prop :=
  In r (pt_rows t) /\ (pt_best t = true -> d_actual r = true \/ d_best r = true).
(* for every source, forecast and actual differ by the same amount wherever both have a value *)
Definition misses_alike (t : ptable XR) : Prop := forall u, exists k, forall a b,
  considered t a -> considered t b -> (pt_src t = true -> d_src a = u /\ d_src b = u) ->
  d_actual a = true -> d_actual b = false -> d_date a = d_date b -> d_y a <> XNaN -> d_y b <> XNaN ->
  exists y, d_y b = Fin y /\ d_y a = Fin (y + k).
(* every percentile of a row is its value *)
Definition certain (p : prow XR) : Prop := forall q v, In (q, v) (p_q p) -> v = p_y p.

Lemma kept_considered t r : In r (kept t) <-> considered t r.
Proof.
  unfold kept, considered. destruct (pt_best t).
  - rewrite filter_In, orb_true_iff. intuition auto.
  - intuition discriminate.
Qed.
Lemma actual_of (t : ptable XR) d y : In (d, y) (actuals_of t) -> exists r, In r (kept t) /\ d_actual r = true /\ with_value r = true /\ d_date r = d /\ d_y r = y.
Proof.
  unfold actuals_of. destruct (some_zero_weight t); intros I.
  - unfold usable_actuals in I. apply in_flat_map in I as (r & Hr & I). apply repeat_spec in I. injection I as -> ->.
    apply filter_In in Hr as [Hr Hv]. apply andb_prop in Hv as [Ha Hv]. exists r. auto.
  - apply in_map_iff in I as (r & E & Hr). injection E as <- <-. apply filter_In in Hr as [Hr Hv]. apply andb_prop in Hv as [Ha Hv]. exists r. auto.
Qed.
Lemma value_not_nan (r : drow XR) : with_value r = true <-> d_y r <> XNaN.
Proof. unfold with_value. destruct (d_y r); cbn; split; intros K; congruence. Qed.
Lemma repeat_or_nil (A : Type) (a : A) l : (forall x, In x l -> x = a) -> l = repeat a (length l).
Proof. induction l as [|x l IH]; intros K; [reflexivity|]. cbn. rewrite (K x (or_introl eq_refl)). f_equal. apply IH. intros y I. apply K. now right. Qed.
Lemma rsum_repeat c n : rsum (repeat c n) = INR n * c.
Proof. induction n as [|n IH]; [cbn; lra|]. cbn [repeat]. rewrite S_INR. change (rsum (c :: repeat c n)) with (c + rsum (repeat c n)). rewrite IH. ring. Qed.
Lemma centred_alike k n : (0 < n)%nat -> centred (repeat (Fin k) n) = repeat (Fin 0) n.
Proof.
  intros Hn. assert (Er : repeat (Fin k) n = map Fin (repeat k n)) by (clear; induction n; cbn; congruence).
  rewrite Er, centred_fin by (destruct n; [lia|discriminate]). unfold mean. rewrite rsum_repeat, repeat_length, <- INR_IZR_INZ.
  assert (INR n <> 0) by (apply not_0_INR; lia). rewrite map_map. clear Er Hn.
  assert (Em : k - INR n * k / INR n = 0) by (field; assumption). revert Em. generalize (INR n * k / INR n) as m0. intros m0 Em. clear H.
  induction n as [|n IH]; cbn; [reflexivity|]. now rewrite Em, IH.
Qed.
Lemma percentile_zero q s : (1 <= s)%nat -> (0 <= q <= 100)%Z -> percentile q (repeat (Fin 0) s) = Fin 0.
Proof.
  intros Hs Hq. unfold percentile. assert (existsb nisnan (repeat (Fin 0) s) = false) as -> by (clear; induction s as [|s IH]; [reflexivity|exact IH]).
  assert (Er : repeat (Fin 0) s = map Fin (repeat 0 s)) by (clear; induction s; cbn; congruence).
  assert (N : repeat 0 s <> []) by (destruct s; [lia|discriminate]).
  rewrite Er. destruct (percentile_rank (repeat 0 s) q N Hq) as (a & -> & A & B). f_equal. rewrite repeat_length in A, B.
  assert (C : forall P : R -> bool, P 0 = true -> count P (repeat 0 s) = s) by (intros P HP; unfold count; clear -HP; induction s; cbn; [reflexivity|]; rewrite HP; cbn; congruence).
  destruct (Rtotal_order a 0) as [L|[E|G]]; [|exact E|].
  - rewrite (C (fun x => Rltb a x)) in B by (destruct (Rltb_spec a 0); [reflexivity|lra]). nia.
  - rewrite (C (fun x => Rltb x a)) in A by (destruct (Rltb_spec 0 a); [reflexivity|lra]). nia.
Qed.
Lemma drawn_zero n d i : (0 < n)%nat -> drawn (repeat (Fin 0) n) d i = Fin 0.
Proof. intros Hn. apply (repeat_spec n). apply drawn_in. destruct n; [lia|discriminate]. Qed.
Lemma prefix_zero (g : nat -> XR) j : (forall i, g i = Fin 0) -> prefix_sum g j = Fin 0.
Proof. intros G. induction j as [|j IH]; cbn [prefix_sum]; [apply G|]. rewrite IH, G. cbn. f_equal. lra. Qed.
Lemma zero_quantiles q1 q2 dev s i r : in_range q1 q2 -> (1 <= s)%nat -> (forall k, dev k i = Fin 0) -> certain (with_quantiles q1 q2 dev s (i, r)).
Proof.
  intros Hq Hs D q v I. unfold with_quantiles in *. cbn [p_q p_y] in *. apply in_map_iff in I as (q' & E & I). injection E as <- <-.
  apply percentiles_in in I. unfold in_range in Hq.
  assert (map (fun k => dev k i) (seq 0 s) = repeat (Fin 0) s) as ->.
  { rewrite (map_ext _ (fun _ => Fin 0)) by exact D. clear. generalize 0%nat. induction s as [|s IH]; intros z; cbn; [reflexivity|]. now rewrite IH. }
  rewrite percentile_zero by lia. destruct (d_y r) as [ | | |y]; cbn; try reflexivity. f_equal. lra.
Qed.
Lemma pi_single_certain draw s n_cum q1 q2 t out k : (1 <= s)%nat ->
  (forall a b, In a (kept t) -> In b (kept t) -> d_actual a = true -> d_actual b = false -> d_date a = d_date b -> d_y a <> XNaN -> d_y b <> XNaN ->
     exists y, d_y b = Fin y /\ d_y a = Fin (y + k)) ->
  pi_single draw s n_cum q1 q2 t = Ok out -> forall p, In p out -> certain p.
Proof.
  intros Hs A E p Hp. destruct (pi_single_rows _ _ _ _ _ _ _ E) as (step & _ & [(_ & _ & ->)|(last & Hq & _ & Nr & Eo)]).
  - apply in_map_iff in Hp as (r & <- & _). intros q v [].
  - cbv zeta in Eo. assert (Er : residuals (actuals_of t) (kept t) = repeat (Fin k) (length (residuals (actuals_of t) (kept t)))).
    { apply repeat_or_nil. intros x Ix. unfold residuals in Ix. apply filter_In in Ix as [Ix _]. apply in_flat_map in Ix as (b & Ib & Ix).
      apply in_map_iff in Ix as ((d & y) & <- & Ia). apply filter_In in Ia as [Ia Ed]. apply Z.eqb_eq in Ed. cbn [fst snd] in *.
      apply filter_In in Ib as [Ib Vb]. apply andb_prop in Vb as [Fb Vb]. apply negb_true_iff in Fb. apply value_not_nan in Vb.
      destruct (actual_of t d y Ia) as (a & Ka & Fa & Va & Da & Ya). apply value_not_nan in Va.
      destruct (A a b Ka Ib Fa Fb) as (z & Eb & Ea); [congruence|assumption|assumption|]. rewrite <- Ya, Ea, Eb. cbn. f_equal. lra. }
    rewrite Er in Eo. rewrite Er in Nr. set (n := length (residuals (actuals_of t) (kept t))) in *. assert (Hn : (0 < n)%nat) by (destruct n; [exfalso; now apply Nr|lia]).
    rewrite centred_alike in Eo by exact Hn. subst out. rewrite !in_app_iff in Hp. destruct Hp as [Hp|[Hp|Hp]].
    + apply in_map_iff in Hp as (r & <- & _). intros q v [].
    + apply in_map_iff in Hp as ((i & r) & <- & _). apply zero_quantiles; auto. intros j. unfold past_deviation. now apply drawn_zero.
    + apply in_map_iff in Hp as ((i & r) & <- & _). apply zero_quantiles; auto. intros j. unfold future_deviation. rewrite drawn_zero by exact Hn.
      rewrite prefix_zero by (intros l; now apply drawn_zero). cbn. f_equal. lra.
Qed.
Theorem alike_certain draw s n_cum q1 q2 wd t out : (1 <= s)%nat -> misses_alike t -> get_pi draw s n_cum q1 q2 wd t = Ok out -> forall p, In p out -> certain p.
Proof.
  intros Hs A E p Hp. unfold get_pi in E. destruct (match n_cum with Some n => Ok n | None => days_from_freq wd end) as [k|]; [|discriminate].
  cbn [rbind] in E. destruct (pt_src t && _) eqn:Sv.
  - apply andb_prop in Sv as [Sv _]. destruct (rmapM _ _) as [gs|] eqn:Eg; [|discriminate]. cbn [rbind] in E. injection E as <-.
    apply (Permutation_in _ (Permutation_sym (isort_perm _ _))) in Hp. apply in_concat in Hp as (g & Hg & Hp).
    apply rmapM_inv in Eg. destruct (Forall2_in_r _ _ _ _ Eg Hg) as (u & _ & Ep). destruct (A u) as (z & Z).
    eapply pi_single_certain; [exact Hs| |exact Ep|exact Hp]. intros a b Ia Ib. apply kept_considered in Ia as [Ia Ca], Ib as [Ib Cb]. cbn [pt_rows pt_best] in *.
    apply filter_In in Ia as [Ia Sa], Ib as [Ib Sb]. apply String.eqb_eq in Sa, Sb. apply Z; split; assumption || auto.
  - set (u0 := match pt_rows t with r :: _ => d_src r | [] => "" end) in *.
    assert (One : pt_src t = true -> forall r, In r (pt_rows t) -> d_src r = u0).
    { intros Es r Ir. rewrite Es in Sv. cbn [andb] in Sv. apply Nat.ltb_ge in Sv.
      assert (L : (length (dedup String.eqb (map d_src (pt_rows t))) <= 1)%nat) by (rewrite (Permutation_length (isort_perm str_leb _)); exact Sv).
      assert (I1 : In (d_src r) (dedup String.eqb (map d_src (pt_rows t)))) by (apply (dedup_in String.eqb String.eqb_eq); now apply in_map).
      assert (I2 : In u0 (dedup String.eqb (map d_src (pt_rows t)))).
      { apply (dedup_in String.eqb String.eqb_eq). unfold u0. destruct (pt_rows t) as [|r0 l0]; [destruct Ir|]. now left. }
      destruct (dedup _ _) as [|a [|b l]]; cbn in *; [destruct I1| |lia]. destruct I1 as [<-|[]], I2 as [<-|[]]. reflexivity. }
    destruct (A u0) as (z & Z). eapply pi_single_certain; [exact Hs| |exact E|exact Hp]. intros a b Ia Ib. apply kept_considered in Ia, Ib.
    apply Z; auto. intros Es. split; apply (One Es); [apply Ia|apply Ib].
Qed.

(* ---- the choice ---- *)
(* a fit of cost q with k' parameters scores worse than one of cost 0 with k parameters, on n samples *)
Definition beaten (n k k' : nat) (q : R) : Prop :=
  (q = 0 /\ (k < k')%nat) \/
  (0 < q /\ (k = 1%nat \/ aicc (Rpower 10 (-320)) (INR n) (INR k) < aicc q (INR n) (INR k'))).
(* no fit of the model m' comes up to an exact fit of m *)
Definition no_match (E : env XR) (c : config XR) (source : string) (f f1 : frame XR) (m m' : fmodel XR) : Prop :=
  unbounded m' /\ forall act d, model_actuals f (to_fit f1) = Ok act ->
    fit_model E m' (to_fit f1) (detect_freq_frame f) source (Some act) (c_cache c) = Ok d -> md_fit d = true ->
    exists q, md_cost d = Fin q /\ beaten (length (usable_rows (to_fit f1))) (fm_n m) (fm_n m') q.

Lemma fit_name E m (f : frame XR) freq src act uc d : unbounded m -> fit_model E m f freq src act uc = Ok d -> md_model d = fm_name m.
Proof.
  intros U. unfold fit_model. rewrite (fit_unfold zero_lt_XR). intros K.
  destruct (range_label E (xs_of m f) (dates_of f)) as [range|]; [|discriminate]. cbn [rbind] in K. cbv zeta in K.
  destruct (Nat.ltb _ _); [injection K as <-; reflexivity|].
  destruct (validate_input m _ _ _) as [[|]|]; cbn [rbind negb] in K; [|injection K as <-; reflexivity|discriminate].
  rewrite unbounded_simplify in K by exact U. cbn [rbind] in K. destruct (Nat.eqb _ _).
  - destruct (get_residuals _ _ _ _ _ _ _ _) as [rs|]; [|discriminate]. cbn [rbind] in K.
    destruct (get_aic_c _ _ _) as [a|]; [|discriminate]. injection K as <-. reflexivity.
  - destruct (optimize_least_squares _ _ _ _ _ _ _ _) as [[[su co] p]|]; [|discriminate]. cbn [rbind] in K.
    destruct (get_aic_c _ _ _) as [a|]; [|discriminate]. injection K as <-. reflexivity.
Qed.
Lemma worse_score n k k' q a b : (0 < k)%nat -> (k + 2 <= n)%nat -> (k' + 2 <= n)%nat -> beaten n k k' q ->
  get_aic_c (Fin 0) (Z.of_nat n) (Z.of_nat k) = Ok a -> get_aic_c (Fin q) (Z.of_nat n) (Z.of_nat k') = Ok b ->
  b <> a /\ nisnan a = false /\ nleb b a = false.
Proof.
  intros Hk H1 H2 B Ea Eb. unfold beaten in B. rewrite !INR_IZR_INZ in B.
  assert (Fa : (k = 1%nat /\ a = XNInf) \/ (k <> 1%nat /\ a = Fin (aicc (Rpower 10 (-320)) (IZR (Z.of_nat n)) (IZR (Z.of_nat k))))).
  { destruct (Nat.eq_dec k 1) as [->|N].
    - left. change (Z.of_nat 1) with 1%Z in Ea. rewrite score_zero_one in Ea by lia. injection Ea as <-. auto.
    - right. rewrite score_zero in Ea by lia. injection Ea as <-. auto. }
  assert (Fb : exists v, b = Fin v /\ (k <> 1%nat -> aicc (Rpower 10 (-320)) (IZR (Z.of_nat n)) (IZR (Z.of_nat k)) < v)).
  { destruct B as [[-> L]|[P L]].
    - rewrite score_zero in Eb by lia. injection Eb as <-. eexists. split; [reflexivity|]. intros _. apply aicc_mono_k.
      + split; [apply IZR_le|apply IZR_lt]; lia.
      + rewrite <- plus_IZR. apply IZR_lt. lia.
    - rewrite score_pos in Eb by (try lia; exact P). injection Eb as <-. eexists. split; [reflexivity|]. intros N. destruct L as [L|L]; [contradiction|exact L]. }
  destruct Fb as (v & -> & V). destruct Fa as [[-> ->]|[N ->]].
  - split; [discriminate|split; reflexivity].
  - specialize (V N). set (w := aicc _ _ _) in *. split; [|split; [reflexivity|]].
    + intros C. injection C as C. lra.
    + cbn. unfold Rleb. destruct (Rle_dec v w); [lra|reflexivity].
Qed.

(* ---- the whole forecast ---- *)
Lemma actual_rows W c source (f : frame XR) r f1 : run_forecast_single W (set_all true c) source f = Ok r -> prepared c f = Ok f1 ->
  map (fun d => (d_date d, d_y d, d_w d)) (filter (fun d => d_actual d) (rs_data r)) = map (fun q => (place f q, r_y q, r_w q)) (rows (with_weights f1)).
Proof.
  intros K Ep1. destruct (single_result _ _ _ _ _ K) as (w & acts & fits & E & Ea & _).
  destruct (run_fits_inv _ _ _ _ _ _ _ E) as (f1' & range & mode & act & st & sp & x0 & Ep & _ & _ & Eac & _ & _ & _ & _ & _ & _ & F).
  rewrite Ep1 in Ep. injection Ep as <-. destruct (prepared_places _ _ _ Ep1) as [_ Dp]. destruct (with_weights_rows f1) as [_ Dw].
  unfold assemble in Ea. injection Ea as Ed _. set (b := best_fit W (map (fun p => fst (fst p)) fits)) in *.
  assert (Fw : forall d, In d (concat (map snd fits)) -> d_actual d = false).
  { intros d I. apply in_concat in I as (l & Il & Id). apply in_map_iff in Il as (p & <- & Ip). destruct (Forall2_in_r _ _ _ _ F Ip) as (m & _ & Ho).
    unfold fit_one in Ho. destruct (fit_model _ _ _ _ _ _ _) as [d0|]; cbn [rbind] in Ho; [|discriminate]. destruct (md_fit d0); [|injection Ho as <-; destruct Id].
    destruct (extrapolate_model _ _ _ _ _ _ _) as [g|]; cbn [rbind] in Ho; [|discriminate]. injection Ho as <-. cbn [snd] in Id. unfold fcast_clean in Id.
    apply in_map_iff in Id as (q & <- & _). reflexivity. }
  rewrite <- Ed, map_app, filter_app, map_app.
  assert (filter (fun d => d_actual d) (map (flag_data b) (concat (map snd fits))) = []) as ->.
  { clear -Fw. induction (concat (map snd fits)) as [|d l IH]; [reflexivity|]. cbn [map filter flag_data d_actual]. rewrite (Fw d (or_introl eq_refl)). apply IH. intros e I. apply Fw. now right. }
  cbn [map]. rewrite app_nil_r, Eac. unfold actuals_clean. clear Eac Ed.
  assert (P : forall q, place (with_weights f1) q = place f q) by (intros q; unfold place; now rewrite Dw, Dp).
  induction (rows (with_weights f1)) as [|q l IH]; [reflexivity|]. cbn. rewrite P. f_equal. exact IH.
Qed.
Lemma filter_one (A : Type) (P : A -> bool) (a : A) l : NoDup l -> In a l -> (forall b, In b l -> P b = true <-> b = a) -> filter P l = [a].
Proof.
  induction l as [|x l IH]; intros Nd I K; [destruct I|]. inversion_clear Nd as [|? ? Nx Nl]. cbn [filter]. destruct I as [->|I].
  - rewrite (proj2 (K a (or_introl eq_refl)) eq_refl). f_equal. apply filter_none. intros y Iy. destruct (P y) eqn:Py; [|reflexivity].
    apply K in Py; [|now right]. subst y. contradiction.
  - destruct (P x) eqn:Px; [apply K in Px; [|now left]; subst x; contradiction|]. apply IH; auto. intros y Iy. apply K. now right.
Qed.
Lemma nodup_name (A : Type) (g : A -> string) l a b : NoDup (map g l) -> In a l -> In b l -> g a = g b -> a = b.
Proof.
  induction l as [|x l IH]; intros Nd Ia Ib Eg; [destruct Ia|]. cbn in Nd. inversion_clear Nd as [|? ? Nx Nl].
  destruct Ia as [->|Ia], Ib as [->|Ib]; auto.
  - exfalso. apply Nx. rewrite Eg. now apply in_map.
  - exfalso. apply Nx. rewrite <- Eg. now apply in_map.
Qed.
Lemma concat_filter_one (A B : Type) (g : A -> list B) (P : B -> bool) (a : A) l : NoDup l -> In a l ->
  (forall x y, In x l -> In y (g x) -> P y = true <-> x = a) -> filter P (concat (map g l)) = g a.
Proof.
  induction l as [|x l IH]; intros Nd I K; [destruct I|]. inversion_clear Nd as [|? ? Nx Nl]. cbn [map concat]. rewrite filter_app. destruct I as [->|I].
  - rewrite filter_all by (intros y Iy; apply (K a y); [now left|exact Iy|reflexivity]). rewrite filter_none; [apply app_nil_r|].
    intros y Iy. apply in_concat in Iy as (l0 & Il & Iy). apply in_map_iff in Il as (z & <- & Iz). destruct (P y) eqn:Py; [|reflexivity].
    apply (K z y) in Py; [|now right|exact Iy]. subst z. contradiction.
  - rewrite filter_none; [apply IH; auto; intros z y Iz; apply K; now right|]. intros y Iy. destruct (P y) eqn:Py; [|reflexivity].
    apply (K x y) in Py; [|now left|exact Iy]. subst x. contradiction.
Qed.
Lemma residuals_some (a : list (Z * XR)) l d y b : In (d, y) a -> In b l -> d_actual b = false -> with_value b = true -> d_date b = d ->
  nisnan (nsub y (d_y b)) = false -> residuals a l <> [].
Proof.
  intros Ia Ib Fb Vb Eb Nn C. assert (I : In (nsub y (d_y b)) (residuals a l)); [|rewrite C in I; destruct I].
  unfold residuals. apply filter_In. split; [|now rewrite Nn]. apply in_flat_map. exists b. split; [apply filter_In; now rewrite Fb, Vb|].
  apply in_map_iff. exists (d, y). split; [reflexivity|]. apply filter_In. split; [exact Ia|]. now apply Z.eqb_eq.
Qed.
Definition forecasts (l : list (prow XR)) : list (prow XR) := filter (fun p => negb (p_actual p)) l.
Theorem exact_wins rnd arr num W c source step freq t0 (f : frame XR) th0 phi m f1 mode : w_env W = ideal rnd arr num -> draws rnd -> sorts W ->
  steady step freq t0 f -> (has_w f = true -> forall r, In r (rows f) -> tame (r_w r)) -> follows phi t0 f th0 ->
  settings c -> enough c f -> prepared c f = Ok f1 -> final_mode W c (with_weights f1) = Ok mode ->
  let ms := all_models c mode (detect_freq_frame f) (fst (candidate_lists c (with_weights f1))) (snd (candidate_lists c (with_weights f1))) in
  In m ms -> NoDup (map fm_name ms) -> regression m phi -> length th0 = fm_n m -> (fm_n m + 2 <= length (usable_rows (to_fit f1)))%nat ->
  determined m phi (to_fit f1) -> accepts m (xs_of m (to_fit f1)) (ys_of (to_fit f1)) (dates_of (to_fit f1)) ->
  (forall m', In m' ms -> fm_name m' <> fm_name m -> no_match (w_env W) c source f f1 m m') ->
  exists r b acts frows st sp grid, run_forecast_single W (set_all false c) source f = Ok r /\
    rs_meta r = [b] /\ m_best b = true /\ md_model (m_meta b) = fm_name m /\ md_params (m_meta b) = fins th0 /\ md_cost (m_meta b) = Fin 0 /\
    rs_data r = acts ++ frows /\ Forall (fun d => d_actual d = true) acts /\ Forall (fun d => d_actual d = false /\ d_model d = fm_name m) frows /\
    zmin_opt (map r_date (rows (to_fit f1))) = Some st /\ zmax_opt (map r_date (rows (start_filter (c_start c) f))) = Some sp /\
    s_x_dates st sp (Some m) (Some freq) (c_years c) (x_of t0 st) = Ok grid /\
    map (fun d => (d_date d, d_y d)) frows = map (fun t => (t, Fin (rdot th0 (phi (IZR (x_of t0 t)) t)))) (map fst grid) /\
    (forall p, In p (forecasts (rs_forecast r)) -> p_y p = Fin (rdot th0 (phi (IZR (x_of t0 (p_date p))) (p_date p))) /\ certain p) /\
    ((0 <= Qnum (c_years c))%Z -> Permutation (map p_date (forecasts (rs_forecast r))) (map fst grid)).
Proof.
  intros Ew Dr So Sd Tw Fo Se En Ep Emo ms Im Nd Rg L0 Ll De Va Ri.
  assert (Ty : forall r, In r (rows f) -> tame (r_y r)). { intros q Iq. destruct (Fo q Iq) as [->| ->]; [left; eauto|now right]. }
  assert (Se' : settings (set_all true c)) by (destruct Se as [[A1 A2] A3 A4 A5 A6]; constructor; [constructor; assumption|exact A3|exact A4|exact A5|exact A6]).
  destruct (forecast_completes W (set_all true c) source step freq t0 f Sd Ty Tw) as (r & Er); auto.
  { rewrite Ew. apply ideal_dependable. } { rewrite Ew. exact Dr. } { intros _. rewrite Ew. apply ideal_answers. }
  destruct (fit_table _ _ _ _ _ Er) as (f1' & range & mode' & act & st0 & sp0 & x0 & acts & es & Ep' & _ & Emo' & Ea & Est & Esp & Ex0 & Ed & Em & Eml & Fa & Fe).
  rewrite Ep in Ep'. injection Ep' as <-. rewrite Emo in Emo'. injection Emo' as <-. fold ms in Eml. rewrite Forall_forall in Fe.
  assert (Im' := Im). rewrite <- Eml in Im'. apply in_map_iff in Im' as (e0 & Ee0 & Ie0).
  destruct (Fe e0 Ie0) as (De0 & _ & Rr0). pose proof De0 as De0'. rewrite Ew in De0'.
  destruct (ideal_entry rnd arr num c source step freq t0 f th0 phi f1 act st0 sp0 x0 e0 Dr Sd Tw Fo Ep Est Esp Ex0 De0' Rr0)
    as (F0 & P0 & C0 & st & sp & grid & Hst & Hsp & Hg & Hq); try (rewrite Ee0; assumption). clear De0'.
  assert (Hf : has_date f = true) by apply (sd_date _ _ _ _ Sd).
  destruct (prepared_places _ _ _ Ep) as [Pp Dp]. destruct (with_weights_rows f1) as [Pw Dw].
  assert (Dfit : has_date (to_fit f1) = true) by (unfold to_fit; cbn; now rewrite Dw, Dp).
  set (n := length (usable_rows (to_fit f1))) in *.
  (* names and labels of the candidates *)
  assert (NdE : NoDup (map (fun e => fm_name (en_model e)) es)) by (rewrite <- map_map, Eml; exact Nd).
  assert (Ub : forall e, In e es -> unbounded (en_model e)).
  { intros e Ie. destruct (string_dec (fm_name (en_model e)) (fm_name m)) as [Q|Q].
    - rewrite <- Ee0 in Q. rewrite (nodup_name _ _ es e e0 NdE Ie Ie0 Q), Ee0. apply (rg_free _ _ Rg).
    - apply (Ri (en_model e)); [rewrite <- Eml; now apply in_map|exact Q]. }
  assert (Nm : forall e, In e es -> md_model (m_meta (en_meta e)) = fm_name (en_model e)).
  { intros e Ie. destruct (Fe e Ie) as ((d & Ef & ->) & _). cbn [set_weights md_model]. exact (fit_name _ _ _ _ _ _ _ _ (Ub e Ie) Ef). }
  assert (Lg : forall e, In e es -> md_source_long (m_meta (en_meta e)) = md_source_long (m_meta (en_meta e0))).
  { intros e Ie. destruct (Fe e Ie) as ((d & Ef & ->) & _). destruct De0 as (d0 & Ef0 & ->). cbn [set_weights md_source_long].
    apply (fit_labels zero_lt_XR) in Ef as (_ & _ & _ & Ra & ->). apply (fit_labels zero_lt_XR) in Ef0 as (_ & _ & _ & Rb & ->).
    unfold range_label, dates_of in Ra, Rb. rewrite Dfit in Ra, Rb. rewrite Ra in Rb. injection Rb as ->. reflexivity. }
  (* the choice *)
  destruct (best_unique_minimal _ _ _ _ _ So Er) as [(No & _)|(b & Ib & Fb & Bb & Mn & Bm & Bd)].
  { rewrite Em in No. specialize (No (en_meta e0) (in_map _ _ _ Ie0)). congruence. }
  rewrite Em in Ib. apply in_map_iff in Ib as (eb & <- & Ieb).
  assert (Xb : eb = e0).
  { destruct (string_dec (fm_name (en_model eb)) (fm_name m)) as [Q|Q]; [rewrite <- Ee0 in Q; now apply (nodup_name _ _ es eb e0 NdE)|exfalso].
    destruct (Ri (en_model eb)) as (_ & Lo); [rewrite <- Eml; now apply in_map|exact Q|].
    destruct (Fe eb Ieb) as ((d & Ef & Eb) & _). destruct De0 as (d0 & Ef0 & E0).
    assert (Fd : md_fit d = true) by (rewrite Eb in Fb; exact Fb). assert (Fd0 : md_fit d0 = true) by (rewrite E0 in F0; exact F0).
    destruct (Lo act d Ea Ef Fd) as (q & Cq & Bq). destruct (fit_score _ _ _ _ _ _ _ _ Ef Fd) as [S1 K1]. destruct (fit_score _ _ _ _ _ _ _ _ Ef0 Fd0) as [S0 K0].
    assert (Cd0 : md_cost d0 = Fin 0) by (rewrite E0 in C0; exact C0). rewrite Cq in S1. rewrite Cd0, Ee0 in S0. rewrite Ee0 in K0. fold n in S0, S1, K0, K1, Bq.
    destruct (worse_score n (fm_n m) (fm_n (en_model eb)) q _ _ (hd_n _ _ (rg_hardy _ _ Rg)) K0 K1 Bq S0 S1) as (W1 & W2 & W3).
    specialize (Mn (en_meta e0)). rewrite Em in Mn. specialize (Mn (in_map _ _ _ Ie0) F0). rewrite Eb, E0 in Mn.
    unfold no_worse, score_le in Mn. cbn [set_weights md_aicc] in Mn. destruct Mn as [Mn|[Mn|Mn]]; congruence. }
  subst eb.
  assert (Be : forall e, In e es -> m_best (en_meta e) = true <-> e = e0).
  { intros e Ie. rewrite (Bm (en_meta e)) by (rewrite Em; now apply in_map). unfold same_fit. rewrite (Nm e Ie), (Nm e0 Ie0), (Lg e Ie). split.
    - intros [Q _]. now apply (nodup_name _ _ es e e0 NdE).
    - intros ->. auto. }
  assert (NdEs : NoDup es) by (apply (NoDup_map_inv (fun e => fm_name (en_model e))); exact NdE).
  assert (Rows : forall e y, In e es -> In y (en_rows e) -> In y (rs_data r) /\ d_actual y = false /\ d_model y = fm_name (en_model e) /\ d_src y = source /\
            d_long y = md_source_long (m_meta (en_meta e0))).
  { intros e y Ie Iy. destruct (Fe e Ie) as (_ & _ & [_ _ Lb]). rewrite Forall_forall in Lb. destruct (Lb y Iy) as (Q1 & Q2 & Q3 & Q4). rewrite (Lg e Ie) in Q3.
    split; [|auto]. rewrite Ed, in_app_iff. right. apply in_concat. exists (en_rows e). split; [now apply in_map|exact Iy]. }
  assert (Bestrow : forall e y, In e es -> In y (en_rows e) -> d_best y || d_actual y = true <-> e = e0).
  { intros e y Ie Iy. destruct (Rows e y Ie Iy) as (Ir & Ay & My & Sy & Ly). rewrite Ay, orb_false_r, (Bd y Ir). unfold belongs. rewrite My, (Nm e0 Ie0), Ly. split.
    - intros [Q _]. now apply (nodup_name _ _ es e e0 NdE).
    - intros ->. auto. }
  assert (Acts : forall d, In d acts -> d_actual d = true) by (rewrite Forall_forall in Fa; intros d Id; apply (Fa d Id)).
  assert (Dat : filter (fun d => d_best d || d_actual d) (rs_data r) = acts ++ en_rows e0).
  { rewrite Ed, filter_app, filter_all by (intros d Id; rewrite (Acts d Id); apply orb_true_r). f_equal. now apply concat_filter_one. }
  assert (Met : filter (fun q => m_best q) (rs_meta r) = [en_meta e0]).
  { rewrite Em. assert (Q : filter (fun e => m_best (en_meta e)) es = [e0]) by (apply filter_one; auto).
    clear -Q. revert Q. assert (G : forall l, filter (fun q : mrow XR => m_best q) (map en_meta l) = map en_meta (filter (fun e => m_best (en_meta e)) l)).
    { induction l as [|a l IH]; [reflexivity|]. cbn. destruct (m_best (en_meta a)); cbn; now rewrite IH. }
    intros Q. rewrite G, Q. reflexivity. }
  pose proof (all_fits_switch W c source f) as Sw. rewrite Er in Sw. cbn [rmap rbind] in Sw.
  exists (only_best r), (en_meta e0), acts, (en_rows e0), st, sp, grid. rewrite Ee0 in Hg.
  split; [exact Sw|]. split; [exact Met|]. split; [exact Bb|]. split; [rewrite (Nm e0 Ie0); now rewrite Ee0|]. split; [exact P0|]. split; [exact C0|].
  split; [exact Dat|]. split; [now apply Forall_forall|]. split.
  { apply Forall_forall. intros y Iy. destruct (Rows e0 y Ie0 Iy) as (_ & Q1 & Q2 & _). rewrite Ee0 in Q2. auto. }
  do 4 (split; [assumption|]). cbn [only_best rs_forecast].
  (* intervals *)
  destruct (single_result _ _ _ _ _ Er) as (w & acts0 & fits & Efits & Eas & Epi).
  pose proof (data_source _ _ _ _ _ _ _ true Efits) as Sr. rewrite Eas in Sr. cbn [fst] in Sr.
  set (t := mkPT true true true (has_date f) (rs_data r)) in *.
  assert (Kp : kept t = acts ++ en_rows e0).
  { rewrite <- Dat. unfold kept, t. cbn [pt_best pt_rows]. apply filter_ext. intros d. apply orb_comm. }
  set (curve := fun z => rdot th0 (phi (IZR (x_of t0 z)) z)) in *.
  assert (Arow : map (fun d => (d_date d, d_y d, d_w d)) acts = map (fun q => (r_date q, r_y q, r_w q)) (rows (with_weights f1))).
  { pose proof (actual_rows _ _ _ _ _ _ Er Ep) as Q. rewrite Ed, filter_app, filter_all in Q by exact Acts.
    rewrite filter_none in Q.
    - rewrite app_nil_r in Q. rewrite Q. apply map_ext. intros q. unfold place. now rewrite Hf.
    - intros y Iy. apply in_concat in Iy as (l & Il & Iy). apply in_map_iff in Il as (e & <- & Ie). now apply (Rows e y). }
  assert (Acurve : forall d, In d acts -> d_y d = Fin (curve (d_date d)) \/ d_y d = XNaN).
  { intros d Id. assert (Q : In (d_date d, d_y d) (map (fun q => (r_date q, r_y q)) (rows (start_filter (c_start c) f)))).
    { assert (Q1 : In (d_date d, d_y d, d_w d) (map (fun q => (r_date q, r_y q, r_w q)) (rows (with_weights f1)))) by (rewrite <- Arow; apply in_map_iff; eauto).
      apply in_map_iff in Q1 as (q & Eq1 & Iq). injection Eq1 as E1 E2 _. rewrite <- E1, <- E2.
      assert (Pl : forall (g : frame XR) l, has_date g = true -> map (fun q => (place g q, r_y q)) l = map (fun q => (r_date q, r_y q)) l).
      { intros g l Hg'. apply map_ext. intros q'. unfold place. now rewrite Hg'. }
      rewrite <- (Pl f _ Hf), <- Pp, (Pl f1) by congruence. rewrite <- (Pl f1) by congruence. rewrite <- Pw. apply in_map_iff. exists q.
      split; [|exact Iq]. unfold place. now rewrite Dp, Hf. }
    apply in_map_iff in Q as (q & Eq1 & Iq). injection Eq1 as E1 E2. rewrite <- E1, <- E2.
    apply Fo. unfold start_filter in Iq. destruct (c_start c); [|exact Iq]. rewrite Hf in Iq. cbn in Iq. now apply filter_In in Iq. }
  assert (Fcurve : forall d, In d (en_rows e0) -> d_y d = Fin (curve (d_date d)) /\ In (d_date d) (map fst grid)).
  { change (map (fun d => (d_date d, d_y d)) (en_rows e0) = map (fun z => (z, Fin (curve z))) (map fst grid)) in Hq.
    intros d Id. assert (Q : In (d_date d, d_y d) (map (fun z => (z, Fin (curve z))) (map fst grid))) by (rewrite <- Hq; apply in_map_iff; eauto).
    apply in_map_iff in Q as (z & Eq1 & Iz). injection Eq1 as <- <-. auto. }
  assert (Mi : misses_alike t).
  { intros u. exists 0. intros a b [Ia Ca] [Ib Cb] _ Fa' Fb' Eab Ya Yb. cbn [pt_rows t pt_best] in *.
    assert (Ka : In a (kept t)) by (apply kept_considered; split; assumption). assert (Kb : In b (kept t)) by (apply kept_considered; split; assumption).
    rewrite Kp, in_app_iff in Ka, Kb. destruct Kb as [Kb|Kb]; [rewrite (Acts b Kb) in Fb'; discriminate|].
    destruct Ka as [Ka|Ka]; [|rewrite (proj1 (proj2 (Rows e0 a Ie0 Ka))) in Fa'; discriminate].
    destruct (Acurve a Ka) as [Q|Q]; [|contradiction]. destruct (Fcurve b Kb) as [Q' _]. exists (curve (d_date b)). rewrite Q, Q', Eab. split; [reflexivity|]. f_equal. ring. }
  assert (One : forall r0, In r0 (pt_rows t) -> d_src r0 = source) by exact Sr.
  assert (H100 : (1 <= 100)%nat) by lia. pose proof (alike_certain _ _ _ _ _ _ _ _ H100 Mi Epi) as Ce.
  rewrite (get_pi_single _ _ _ _ _ _ t source One) in Epi.
  destruct (match c_ncum c with Some k => Ok k | None => days_from_freq (c_widen c) end) as [k|]; [|discriminate]. cbn [rbind] in Epi.
  pose proof (pi_partition _ _ _ _ _ _ _ Epi) as Pa.
  assert (Sa : forall p, In p (map dshape (shown_actuals t)) -> snd (fst p) = true).
  { intros p I. apply in_map_iff in I as (d & <- & Id). apply filter_In in Id as [_ Id]. apply andb_prop in Id as [Id _]. exact Id. }
  assert (Sf : forall last p, In p (map dshape (past_rows t last ++ future_rows t last)) -> snd (fst p) = false /\ exists d, In d (en_rows e0) /\ p = dshape d).
  { intros last p I. apply in_map_iff in I as (d & <- & Id). apply (Permutation_in _ (past_future t last)) in Id. apply filter_In in Id as [Kd Ad].
    apply negb_true_iff in Ad. split; [exact Ad|]. exists d. split; [|reflexivity]. rewrite Kp in Kd. apply in_app_iff in Kd as [Kd|Kd]; [|exact Kd].
    rewrite (Acts d Kd) in Ad. discriminate. }
  split.
  - intros p Ip. apply filter_In in Ip as [Ip Ap]. apply negb_true_iff in Ap. split; [|now apply Ce].
    assert (Is : In (shape p) (map shape (rs_forecast r))) by now apply in_map.
    destruct Pa as [[_ Pa]|(last & _ & Pa)]; rewrite Pa in Is.
    + apply Sa in Is. cbn in Is. congruence.
    + rewrite <- map_app in Is. apply in_app_iff in Is as [Is|Is]; [apply Sa in Is; cbn in Is; congruence|].
      apply Sf in Is as (_ & d & Id & Es). unfold shape, dshape in Es. injection Es as E1 E2 E3 E4 E5. rewrite E1, E5. now apply Fcurve.
  - intros Hy.
    assert (Dg : map d_date (en_rows e0) = map fst grid).
    { apply (f_equal (map fst)) in Hq. rewrite !map_map in Hq. cbn [fst] in Hq. exact Hq. }
    destruct Pa as [[Pz _]|(last & _ & Pa)].
    + (* a sample that is fitted lies on the grid *)
      exfalso. assert (Hn : usable_rows (to_fit f1) <> []) by (intros C; unfold n in Ll; rewrite C in Ll; cbn in Ll; lia).
      destruct (usable_rows (to_fit f1)) as [|q us] eqn:Eu; [congruence|]. assert (Iq : In q (usable_rows (to_fit f1))) by (rewrite Eu; now left).
      unfold usable_rows in Iq. apply filter_In in Iq as [Iq Uq]. unfold usable in Uq. apply andb_prop in Uq as [Uq _]. apply negb_true_iff in Uq.
      pose proof Iq as Iq'. unfold to_fit, positive in Iq'. cbn [rows with_rows] in Iq'. apply filter_In in Iq' as [Iw Wq].
      assert (Q : In (r_date q, r_y q, r_w q) (map (fun d => (d_date d, d_y d, d_w d)) acts)) by (rewrite Arow; apply in_map_iff; eauto).
      apply in_map_iff in Q as (a & Eqa & Iac). injection Eqa as Ea1 Ea2 Ea3.
      assert (Ka : In a (kept t)) by (rewrite Kp, in_app_iff; now left).
      assert (Da : In (d_date a) (map fst (actuals_of t))).
      { apply actual_dates. exists a. split; [exact Ka|]. split; [now apply Acts|]. split; [rewrite Ea2; exact Uq|]. split; [reflexivity|].
        intros _. exists a. split; [exact Ka|]. split; [now apply Acts|]. split; [rewrite Ea3; exact Wq|reflexivity]. }
      assert (Gq : In (r_date q) (map fst grid)).
      { pose proof (sd_step _ _ _ _ Sd) as S.
        assert (On : forall q', In q' (rows (to_fit f1)) -> on_step step t0 (r_date q')).
        { intros q' I'. destruct (fitted_sample _ _ _ _ Ep I') as (q0 & I0 & (S1 & _)). rewrite S1. apply (sd_on _ _ _ _ Sd q0 I0). }
        apply zmin_opt_iff in Hst as [Is Ls]. apply in_map_iff in Is as (qs & Es & Iqs).
        assert (Ons : on_step step t0 st) by (rewrite <- Es; now apply On).
        assert (FF : exists per, fixed_freq st (Some freq) step per).
        { pose proof S as S0. destruct S0 as [[Es0 Ef]|[Es0 Ef]]; rewrite Ef; [rewrite Es0; eexists; constructor|]. rewrite <- (step_weekday step freq t0 S st Es0 Ons), Es0. eexists. constructor. }
        destruct FF as (per & FF). destruct (fixed_grid st sp (Some m) (Some freq) step per (c_years c) (x_of t0 st) FF) as (e & g & E & _ & He & _ & G).
        rewrite Hg in E. injection E as ->. rewrite map_map. cbn [fst]. rewrite map_id. apply G.
        pose proof (step_pos step freq t0 S) as Ps. pose proof (step_mod step freq t0 S (r_date q) st (On q Iq) Ons) as Md.
        assert (Lo : (st <= r_date q)%Z) by (apply Ls; now apply in_map).
        assert (Hi : (r_date q <= sp)%Z).
        { apply zmax_opt_iff in Hsp as [_ Hsp]. apply Hsp. destruct (fitted_from _ _ _ _ Ep Iq) as (q0 & I0 & (S1 & _)). rewrite S1. now apply in_map. }
        exists ((r_date q - st) / step)%Z. specialize (He Hy). pose proof (Z.div_mod (r_date q - st) step ltac:(lia)) as Dm. rewrite Md in Dm.
        split; [apply Z.div_pos; lia|]. split; [lia|]. lia. }
      rewrite <- Dg in Gq. apply in_map_iff in Gq as (bb & Ebb & Ibb).
      apply in_map_iff in Da as ((d & y) & Edy & Idy). cbn [fst] in Edy. subst d.
      destruct (actual_of t _ _ Idy) as (a' & Ka' & Aa' & Va' & Da' & Ya').
      refine (residuals_some (actuals_of t) (kept t) (d_date a) y bb Idy _ _ _ _ _ Pz).
      * rewrite Kp, in_app_iff. now right.
      * now apply (Rows e0 bb).
      * apply value_not_nan. rewrite (proj1 (Fcurve bb Ibb)). discriminate.
      * congruence.
      * rewrite (proj1 (Fcurve bb Ibb)), <- Ya'. rewrite Kp, in_app_iff in Ka'. destruct Ka' as [Ka'|Ka'].
        -- apply value_not_nan in Va'. destruct (Acurve a' Ka') as [->|C]; [reflexivity|contradiction].
        -- rewrite (proj1 (Fcurve a' Ka')). reflexivity.
    + rewrite <- Dg. unfold forecasts.
      assert (G : forall l, map p_date (filter (fun p => negb (p_actual p)) l) = map (fun s : Z * string * string * bool * XR => fst (fst (fst (fst s)))) (filter (fun s => negb (snd (fst s))) (map shape l))).
      { induction l as [|p l IH]; [reflexivity|]. cbn. destruct (p_actual p); cbn; now rewrite IH. }
      rewrite G, Pa, filter_app. rewrite filter_none by (intros s Is; now rewrite (Sa s Is)). rewrite <- map_app, filter_all by (intros s Is; now rewrite (proj1 (Sf last s Is))).
      cbn [app]. rewrite map_map. change (fun x : drow XR => fst (fst (fst (fst (dshape x))))) with (fun x : drow XR => d_date x).
      apply Permutation_map. rewrite past_future, Kp, filter_app.
      rewrite filter_none by (intros d Id; now rewrite (Acts d Id)). rewrite filter_all by (intros d Id; now rewrite (proj1 (proj2 (Rows e0 d Ie0 Id)))). reflexivity.
Qed.

(* ---- rivals ---- *)
Lemma aicc_least q0 q n k : 0 < n -> 0 < q0 <= q -> aicc q0 n k <= aicc q n k.
Proof. intros Hn [P L]. destruct L as [L|<-]; [|lra]. left. apply aicc_mono_E; lra. Qed.
(* a regression that is exact as well, with more parameters *)
Theorem longer_rival rnd arr num c source (f f1 : frame XR) m m' phi' th' : regression m' phi' -> has_date (to_fit f1) = true -> finite_rows (to_fit f1) ->
  (fm_n m < fm_n m')%nat -> length th' = fm_n m' -> (forall q, In q (usable_rows (to_fit f1)) -> rdot th' (coef phi' q) = real (r_y q)) ->
  no_match (ideal rnd arr num) c source f f1 m m'.
Proof.
  intros Rg Hd Fr L L' X. split; [apply (rg_free _ _ Rg)|]. intros act d _ Ef Fd. exists 0. split; [|left; auto].
  destruct (fit_score _ _ _ _ _ _ _ _ Ef Fd) as [_ Ll].
  assert (Ne : usable_rows (to_fit f1) <> []) by (destruct (usable_rows (to_fit f1)); [cbn in Ll; lia|discriminate]).
  destruct (exact_fit (ideal rnd arr num) m' (to_fit f1) (detect_freq_frame f) source (Some act) (c_cache c) d (samples (to_fit f1) (coef phi')) th') as (th & _ & _ & Co & _); auto.
  { apply ideal_minimizes. } { apply (hd_n _ _ (rg_hardy _ _ Rg)). } { apply (rg_free _ _ Rg). } { now apply rows_fitted. } { now apply regression_linear. } { intros _. eapply regression_neutral; eauto. }
  intros s Is. unfold samples in Is. apply in_map_iff in Is as (q & <- & Iq). now apply X.
Qed.
(* a regression that leaves an error behind, whatever its parameters *)
Theorem rough_rival rnd arr num c source (f f1 : frame XR) m m' phi' q0 : regression m' phi' -> has_date (to_fit f1) = true -> finite_rows (to_fit f1) ->
  0 < q0 -> (forall th', length th' = fm_n m' -> q0 <= loss th' (samples (to_fit f1) (coef phi')) / 2) ->
  (fm_n m = 1%nat \/ aicc (Rpower 10 (-320)) (INR (length (usable_rows (to_fit f1)))) (INR (fm_n m)) < aicc q0 (INR (length (usable_rows (to_fit f1)))) (INR (fm_n m'))) ->
  no_match (ideal rnd arr num) c source f f1 m m'.
Proof.
  intros Rg Hd Fr P B A. split; [apply (rg_free _ _ Rg)|]. intros act d _ Ef Fd.
  destruct (regression_fit (ideal rnd arr num) m' phi' (to_fit f1) _ _ _ _ _ Rg Hd Fr (ideal_minimizes _ _ _ _ _ _) Ef Fd) as (th & _ & Lt & Co & _).
  exists (loss th (samples (to_fit f1) (coef phi')) / 2). split; [exact Co|]. right. pose proof (B th Lt) as Bt. split; [lra|].
  destruct A as [A|A]; [now left|right]. eapply Rlt_le_trans; [exact A|]. apply aicc_least; [|lra].
  destruct (fit_score _ _ _ _ _ _ _ _ Ef Fd) as [_ K]. apply lt_0_INR. lia.
Qed.
(* two samples that the model cannot tell apart but that have different values *)
Lemma loss_two th l a b : In a l -> In b l -> s_phi a = s_phi b -> s_y a <> s_y b -> s_w a = 1 -> s_w b = 1 ->
  (s_y a - s_y b) * (s_y a - s_y b) / 2 <= loss th l.
Proof.
  intros Ia Ib Ph Ny Wa Wb. assert (Nab : a <> b) by (intros ->; congruence).
  assert (G : (s_w a * err th a) * (s_w a * err th a) + (s_w b * err th b) * (s_w b * err th b) <= loss th l).
  { unfold loss. set (g := fun s => s_w s * err th s * (s_w s * err th s)). change (g a + g b <= rsum (map g l)).
    assert (Nn : forall s, 0 <= g s) by (intros s; apply Rle_0_sqr).
    assert (One : forall l x, In x l -> g x <= rsum (map g l)).
    { clear -Nn. induction l as [|y l IH]; intros x I; [destruct I|]. cbn [map]. change (rsum (g y :: map g l)) with (g y + rsum (map g l)).
      assert (0 <= rsum (map g l)) by (apply rsum_nonneg; intros z Iz; apply in_map_iff in Iz as (s & <- & _); apply Nn).
      destruct I as [->|I]; [lra|]. specialize (IH x I). specialize (Nn y). lra. }
    clear Ph Ny Wa Wb. induction l as [|y l IH]; [destruct Ia|]. cbn [map]. change (rsum (g y :: map g l)) with (g y + rsum (map g l)).
    destruct Ia as [->|Ia], Ib as [->|Ib].
    - congruence.
    - specialize (One l b Ib). lra.
    - specialize (One l a Ia). lra.
    - specialize (IH Ia Ib). specialize (Nn y). lra. }
  rewrite Wa, Wb in G. unfold err in G. rewrite Ph in G. set (p := rdot th (s_phi b)) in G.
  assert (0 <= ((s_y a - p) + (s_y b - p)) * ((s_y a - p) + (s_y b - p))) by apply Rle_0_sqr. nra.
Qed.
(* what is needed of the fitted table above *)
Lemma steady_fitted c step freq t0 (f f1 : frame XR) : steady step freq t0 f -> (forall r, In r (rows f) -> tame (r_y r)) ->
  (has_w f = true -> forall r, In r (rows f) -> tame (r_w r)) -> prepared c f = Ok f1 -> has_date (to_fit f1) = true /\ finite_rows (to_fit f1).
Proof.
  intros Sd Ty Tw Ep. destruct (prepared_total c freq t0 (on_step step t0) f (steady_settled step freq t0 f Sd) Ty Tw) as (_ & _ & f1' & E1 & _ & C2 & _). rewrite Ep in E1. injection E1 as <-.
  assert (Cu : clean (on_step step t0) t0 (to_fit f1)) by (unfold to_fit, positive; now apply clean_filter).
  split; [exact (cl_date _ _ _ Cu)|exact (clean_finite _ _ _ Cu)].
Qed.
