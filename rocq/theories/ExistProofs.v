(* Least-squares fits exist: an optimizer that meets every assumption made about it (C78). *)
From Coq Require Import ZArith String List Bool Lia Reals Lra Sorted Permutation QArith_base ClassicalEpsilon.
From Verif Require Import Num Py Cal Fmt Model Base Fixed Naive Freq Aic Normalize Fit Interp Select Stats Outliers Pi Forecast.
From Verif Require Import NumProofs ListProofs StringProofs ModelProofs BaseProofs GuessProofs FixedProofs FitProofs SeasonProofs CacheProofs AicProofs StatsProofs FreqProofs GridProofs InterpProofs NaiveProofs SnaiveProofs ForecastProofs ForecastProofs2 ExtendProofs MetaProofs LsqProofs RobustProofs OutlierProofs TotalProofs TotalProofs2 TotalProofs3 UniqueProofs.
Import ListNotations.
Local Open Scope string_scope.
Local Open Scope list_scope.
Local Open Scope R_scope.

(* ---- the normal equations have a solution ---- *)
Definition tail_of (s : sample) : sample := mkS (tl (s_phi s)) (s_y s) (s_w s).
Definition head_of (s : sample) : sample := mkS (tl (s_phi s)) (hd 0 (s_phi s)) (s_w s).
Lemma rsum_scale (A : Type) (g : A -> R) c l : rsum (map (fun s => c * g s) l) = c * rsum (map g l).
Proof. induction l as [|a l IH]; cbn; [ring|]. rewrite IH. ring. Qed.
Lemma rsum_plus (A : Type) (g h : A -> R) l : rsum (map (fun s => g s + h s) l) = rsum (map g l) + rsum (map h l).
Proof. induction l as [|a l IH]; cbn; [ring|]. rewrite IH. ring. Qed.
Lemma rsum_ext (A : Type) (g h : A -> R) l : (forall a, In a l -> g a = h a) -> rsum (map g l) = rsum (map h l).
Proof. intros K. f_equal. now apply map_ext_in. Qed.
Lemma rdot_cons a th c phi : rdot (a :: th) (c :: phi) = a * c + rdot th phi.
Proof. reflexivity. Qed.
Theorem normal_solvable n : forall l, Forall (fun s => length (s_phi s) = n) l -> exists th, length th = n /\ normal th l.
Proof.
  induction n as [|n IH]; intros l Fl.
  - exists []. split; [reflexivity|]. intros de L. destruct de; [|discriminate]. clear. induction l as [|s l IH]; cbn; [reflexivity|]. cbn in IH. rewrite IH. unfold rdot. cbn. ring.
  - rewrite Forall_forall in Fl.
    assert (Ph : forall s, In s l -> s_phi s = hd 0 (s_phi s) :: tl (s_phi s) /\ length (tl (s_phi s)) = n).
    { intros s I. specialize (Fl s I). destruct (s_phi s) as [|a p]; [discriminate|]. cbn in *. split; [reflexivity|lia]. }
    destruct (IH (map tail_of l)) as (c & Lc & Nc). { apply Forall_map, Forall_forall. intros s I. cbn. now apply Ph. }
    destruct (IH (map head_of l)) as (b & Lb & Nb). { apply Forall_map, Forall_forall. intros s I. cbn. now apply Ph. }
    set (u := fun s => hd 0 (s_phi s) - rdot b (tl (s_phi s))). set (w := fun s => s_y s - rdot c (tl (s_phi s))).
    set (P := rsum (map (fun s => s_w s * s_w s * u s * u s) l)). set (Q := rsum (map (fun s => s_w s * s_w s * w s * u s) l)).
    assert (Gc : forall e, length e = n -> rsum (map (fun s => s_w s * s_w s * w s * rdot e (tl (s_phi s))) l) = 0).
    { intros e Le. rewrite <- (Nc e) by lia. rewrite map_map. reflexivity. }
    assert (Gb : forall e, length e = n -> rsum (map (fun s => s_w s * s_w s * u s * rdot e (tl (s_phi s))) l) = 0).
    { intros e Le. rewrite <- (Nb e) by lia. rewrite map_map. reflexivity. }
    assert (T : exists t, Q - t * P = 0).
    { destruct (Req_dec P 0) as [Z|N]; [|exists (Q / P); field; exact N]. exists 0. rewrite Rmult_0_l, Rminus_0_r.
      assert (Z' : forall s, In s l -> s_w s * u s = 0).
      { intros s I. assert (K : s_w s * s_w s * u s * u s = 0).
        { refine (rsum_nonneg_zero _ _ Z _ (in_map (fun s => s_w s * s_w s * u s * u s) _ _ I)). intros a Ia. apply in_map_iff in Ia as (q & <- & _).
          replace (s_w q * s_w q * u q * u q) with ((s_w q * u q) * (s_w q * u q)) by ring. apply Rle_0_sqr. }
        replace (s_w s * s_w s * u s * u s) with ((s_w s * u s) * (s_w s * u s)) in K by ring. nra. }
      unfold Q. rewrite (rsum_ext _ _ (fun s => 0 * w s)); [rewrite rsum_scale; ring|]. intros s I.
      replace (s_w s * s_w s * w s * u s) with (s_w s * w s * (s_w s * u s)) by ring. rewrite (Z' s I). ring. }
    destruct T as (t & Et). exists (t :: mix 1 (- t) c b). split; [cbn; rewrite mix_length; lia|].
    intros de L. cbn in L. rewrite mix_length in L by lia. destruct de as [|d0 d]; [discriminate|]. cbn in L. injection L as L.
    set (e := mix 1 d0 d b). assert (Le : length e = n) by (unfold e; rewrite mix_length; lia).
    rewrite (rsum_ext _ _ (fun s => d0 * (s_w s * s_w s * w s * u s) + (s_w s * s_w s * w s * rdot e (tl (s_phi s)) + ((- (t * d0)) * (s_w s * s_w s * u s * u s) + (- t) * (s_w s * s_w s * u s * rdot e (tl (s_phi s))))))).
    + rewrite !rsum_plus, !rsum_scale, Gc, Gb by exact Le. fold P Q. replace (d0 * Q + (0 + (- (t * d0) * P + - t * 0))) with (d0 * (Q - t * P)) by ring. rewrite Et. ring.
    + intros s I. destruct (Ph s I) as [Es _]. unfold err, u, w, e. rewrite Es at 1 2. rewrite !rdot_cons, !rdot_mix by lia. ring.
Qed.

(* ---- an optimizer ---- *)
(* the best real parameters inside the bounds, and their residuals *)
Definition best (F : list XR -> res (list XR)) (n : nat) (b : bounds XR) (p : list R * list R) : Prop :=
  length (fst p) = n /\ F (fins (fst p)) = Ok (fins (snd p)) /\
  forall th' rs', entries_within (fins th') b -> F (fins th') = Ok (fins rs') -> ssq (snd p) <= ssq rs'.
Definition ideal_lsq (F : list XR -> res (list XR)) (g : list XR) (b : bounds XR) : lsq_out XR :=
  match excluded_middle_informative (exists p, best F (length g) b p) with
  | left H => let p := proj1_sig (constructive_indefinite_description _ H) in LDone true (Fin (ssq (snd p) / 2)) (fins (fst p))
  | right _ => LDone false (Fin 0) g
  end.
Definition ideal (rnd : nat -> XR) (arr : list XR -> string) (num : XR -> string) : env XR := mkEnv ideal_lsq rnd arr num.
Lemma ideal_cases F g b : (exists p, best F (length g) b p /\ ideal_lsq F g b = LDone true (Fin (ssq (snd p) / 2)) (fins (fst p))) \/
  ((forall p, ~ best F (length g) b p) /\ ideal_lsq F g b = LDone false (Fin 0) g).
Proof.
  unfold ideal_lsq. destruct (excluded_middle_informative _) as [H|H].
  - left. destruct (constructive_indefinite_description _ H) as (p & Bp). cbn. eauto.
  - right. split; [|reflexivity]. intros p Bp. apply H. eauto.
Qed.
Lemma ssq_nonneg l : 0 <= ssq l.
Proof. apply rsum_nonneg. intros a I. apply in_map_iff in I as (r & <- & _). apply Rle_0_sqr. Qed.
Lemma ideal_answers rnd arr num : answers (ideal rnd arr num).
Proof. intros F g b. cbn. destruct (ideal_cases F g b) as [(p & _ & ->)|[_ ->]]; eauto. Qed.
Lemma ideal_dependable rnd arr num : dependable (ideal rnd arr num).
Proof.
  intros F g b _ _ _ _ _ _. cbn. destruct (ideal_cases F g b) as [(p & (L & _) & ->)|[_ ->]].
  - split; [|now rewrite fins_length]. exists (ssq (snd p) / 2). split; [reflexivity|]. pose proof (ssq_nonneg (snd p)). lra.
  - split; [|reflexivity]. exists 0. split; [reflexivity|lra].
Qed.
Lemma ideal_minimizes rnd arr num m f act : minimizes (ideal rnd arr num) m f act.
Proof.
  intros cache g b c x F K. cbn in K. destruct (ideal_cases F g b) as [((th & rs) & (L & Ef & M) & E)|[_ E]]; cbn [fst snd] in *.
  - unfold F in K, E. rewrite E in K. injection K as <- <-. exists th, rs. auto.
  - unfold F in K, E. rewrite E in K. discriminate.
Qed.

(* ---- every regression is fitted ---- *)
Lemma samples_length m phi f : regression m phi -> Forall (fun s => length (s_phi s) = fm_n m) (samples f (coef phi)).
Proof. intros Rg. unfold samples. apply Forall_map, Forall_forall. intros r _. cbn. apply (rg_len _ _ Rg). Qed.
Lemma regression_best m phi f act cache b : regression m phi -> has_date f = true -> finite_rows f -> usable_rows f <> [] ->
  (forall p, call m (xs_of m f) (dates_of f) p false (mkKw act cache) = call m (xs_of m f) (dates_of f) p false (mkKw act [])) ->
  length (b_lo b) = fm_n m ->
  exists p, best (fun p => get_residuals (Some p) m (xs_of m f) (ys_of f) (dates_of f) (ws_of f) act cache) (fm_n m) b p.
Proof.
  intros Rg Hd Fr Ne Nc Lb. destruct (normal_solvable (fm_n m) (samples f (coef phi)) (samples_length m phi f Rg)) as (th & Lt & Nm).
  assert (Fa : forall th, length th = fm_n m -> get_residuals (Some (fins th)) m (xs_of m f) (ys_of f) (dates_of f) (ws_of f) act cache =
    Ok (fins (map (fun s => Rabs (err th s * s_w s)) (samples f (coef phi))))).
  { intros th1 L. apply (residuals_linear m f act _ th1 cache (rows_fitted _ _ Fr)). rewrite Nc. exact (regression_linear m phi f act Rg Hd Ne th1 L). }
  exists (th, map (fun s => Rabs (err th s * s_w s)) (samples f (coef phi))). unfold best. cbn [fst snd]. split; [exact Lt|]. split; [now apply Fa|].
  intros th' rs' (L' & _) K. assert (Le : length th' = fm_n m) by (rewrite fins_length in L'; lia). rewrite (Fa _ Le) in K. injection K as K. apply fins_inj in K. subst rs'.
  rewrite !ssq_loss. apply normal_minimum; [exact Nm|lia].
Qed.
Theorem ideal_fit rnd arr num m phi f freq src act uc : draws rnd -> regression m phi -> has_date f = true -> finite_rows f -> increasing_x f ->
  (fm_n m + 2 <= length (usable_rows f))%nat -> accepts m (xs_of m f) (ys_of f) (dates_of f) ->
  exists d, fit_model (ideal rnd arr num) m f freq src act uc = Ok d /\ md_fit d = true /\ md_status d = "FIT".
Proof.
  intros Dr Rg Hd Fr Sx Ll Va. pose proof (rg_hardy _ _ Rg) as St. set (E := ideal rnd arr num).
  assert (Ne : usable_rows f <> []) by (destruct (usable_rows f); [cbn in Ll; lia|discriminate]).
  set (ds := map r_date (usable_rows f)). assert (Eds : dates_of f = Some ds) by (unfold dates_of; now rewrite Hd).
  assert (Ex : xs_of m f = fins (map (position_of m) (usable_rows f))) by apply xs_positions.
  assert (Fv : finite_values f) by (unfold finite_values, finite_rows in *; eapply Forall_impl; [|exact Fr]; cbn; tauto).
  assert (Ey : ys_of f = fins (values f)) by now apply ys_values.
  set (xs := map (position_of m) (usable_rows f)) in *. set (ys := values f) in *.
  assert (Lx : length xs = length (usable_rows f)) by apply map_length.
  assert (Me : measured xs ys (fm_n m)). { split; [unfold xs, ys, values; now rewrite !map_length|]. split; [now apply positions_sorted|]. lia. }
  destruct (hd_guess _ _ St xs ys false (e_rnd E) Me Dr) as (g & b & Gi & Gb & Lg & Lo & Hi & W).
  assert (Nd : some_date true ds) by (intros _; unfold ds; destruct (usable_rows f); [congruence|discriminate]).
  destruct (hardy_cache true m (xs_of m f) ds St) as (c0 & Ec0 & _); [unfold xs_of, ds; now rewrite !map_length|exact Nd|]. set (c := if uc then c0 else []).
  assert (Neu : forall p, call m (xs_of m f) (dates_of f) p false (mkKw act c) = call m (xs_of m f) (dates_of f) p false (mkKw act [])).
  { intros p. unfold call. rewrite Eds. unfold c. destruct uc; [|reflexivity]. destruct (rg_cached _ _ Rg) as (Rd & Cd). apply (cached_neutral m Rd); auto. unfold xs_of, ds. now rewrite !map_length. }
  set (F := fun p => get_residuals (Some p) m (xs_of m f) (ys_of f) (dates_of f) (ws_of f) act c).
  assert (Adm : admissible E m f (fins g) b).
  { unfold admissible. rewrite Ex, Ey. split; [exact Gi|]. split; [exact Gb|]. now apply validate_iff. }
  assert (Ec : if uc then init_cache m (xs_of m f) (dates_of f) = Ok c else c = []) by (unfold c; destruct uc; [rewrite Eds; exact Ec0|reflexivity]).
  pose proof (fit_completes E m f freq src act uc (fins g) b c (hd_n _ _ St) Ll Va) as Fc.
  specialize (Fc ltac:(rewrite Ex, Ey, Eds; exact (hd_free _ _ St xs ys (Some ds) Me)) Adm Ec). fold F in Fc.
  change (e_lsq E F (fins g) b) with (ideal_lsq F (fins g) b) in Fc.
  destruct (ideal_cases F (fins g) b) as [(p & Bp & El)|[No _]].
  - rewrite El in Fc. destruct Fc as (d & Ed & Ok' & _).
    { exists (ssq (snd p) / 2). split; [reflexivity|]. pose proof (ssq_nonneg (snd p)). lra. }
    exists d. split; [exact Ed|]. split; [exact Ok'|]. destruct (fit_status_cases zero_lt_XR _ _ _ _ _ _ _ _ _ Ed) as (_ & _ & _ & Ff & _). now apply Ff.
  - exfalso. destruct (regression_best m phi f act c b Rg Hd Fr Ne Neu) as (p & Bp); [lia|]. apply (No p). rewrite fins_length, Lg. exact Bp.
Qed.

(* ---- whole forecasts ---- *)
(* every value present is the combination th0 of the coefficients at the day number and the date *)
Definition follows (phi : R -> Z -> list R) (t0 : Z) (f : frame XR) (th0 : list R) : Prop := forall q, In q (rows f) ->
  r_y q = Fin (rdot th0 (phi (IZR (x_of t0 (r_date q))) (r_date q))) \/ r_y q = XNaN.
Lemma regression_seen m phi z : regression m phi -> seen m z = Fin (IZR z).
Proof.
  intros Rg. unfold seen. pose proof (rg_scale _ _ Rg) as S. unfold requires_scaling in S. rewrite orb_comm in S. rewrite S. reflexivity.
Qed.
Lemma regression_values c source (f f1 : frame XR) act st sp x0 t0 e phi th : x_counts_days t0 f -> same_hour t0 f -> prepared c f = Ok f1 ->
  zmin_opt (map (place f) (rows (to_fit f1))) = Some st -> zmin_opt (map r_x (rows (to_fit f1))) = Some x0 ->
  entry_ok source (fun m ps => extrapolate_model m (Some ps) (start_of f st sp) (detect_freq_frame f) (c_years c) x0 (Some act)) e ->
  regression (en_model e) phi -> md_params (m_meta (en_meta e)) = fins th -> length th = fm_n (en_model e) -> md_fit (m_meta (en_meta e)) = true ->
  exists grid, s_x_dates st sp (Some (en_model e)) (detect_freq_frame f) (c_years c) x0 = Ok grid /\
    map (fun d => (d_date d, d_y d)) (en_rows e) = map (fun t => (t, Fin (rdot th (phi (IZR (x_of t0 t)) t)))) (map fst grid).
Proof.
  intros [Hd Hx] Hh Ep Est Ex0 [_ R _] Rg Pm L Fd.
  rewrite Fd in R. destruct R as (l & El & Er). unfold start_of in El. rewrite Hd in El.
  destruct (extrapolate_inv _ _ _ _ _ _ _ _ El) as (grid & v & G & C & Sv). cbn [s_x_extrapolate] in G.
  assert (A : forall q, In q (rows (to_fit f1)) -> r_x q = x_of t0 (r_date q)).
  { intros q Iq. destruct (fitted_sample _ _ _ _ Ep Iq) as (q0 & I0 & (S1 & _ & S3 & _)). rewrite S1, S3. now apply Hx. }
  assert (Est' : zmin_opt (map r_date (rows (to_fit f1))) = Some st).
  { rewrite <- Est. f_equal. apply map_ext. intros q. unfold place. now rewrite Hd. }
  assert (Gx : forall t x, In (t, x) grid -> x = Fin (IZR (x_of t0 t))).
  { intros t x It. rewrite <- (regression_seen _ _ _ Rg). apply (extrapolation_x (en_model e) (rows (to_fit f1)) t0 st sp (detect_freq_frame f) (c_years c) x0 grid); auto.
    destruct Hh as [N|Al]; [now left|right]. apply zmin_opt_iff in Est' as [Is _]. apply in_map_iff in Is as (q & <- & Iq).
    destruct (fitted_sample _ _ _ _ Ep Iq) as (q0 & I0 & (S1 & _)). rewrite S1. now apply Al. }
  assert (Eg : map snd grid = fins (map (fun t => IZR (x_of t0 t)) (map fst grid))).
  { unfold fins. rewrite !map_map. apply map_ext_in. intros (t & x) It. cbn. now apply Gx. }
  assert (D : grid = [] \/ map fst grid <> []) by (destruct grid; [now left|right; discriminate]). destruct D as [->|Ng].
  { exists []. split; [exact G|]. rewrite Er. rewrite Pm in C. cbn [map] in C. destruct (rg_empty _ _ Rg) as (r & V & Ev). rewrite (Ev _ _ L) in C.
    rewrite (V v C) in Sv. cbn [series] in Sv. apply ok_inj in Sv. now subst l. }
  rewrite Pm, Eg in C. rewrite (rg_call _ _ Rg) in C by (rewrite ?map_length; auto). injection C as <-.
  cbn [series] in Sv. rewrite fins_length, !map_length, combine_length, !map_length, Nat.min_id, Nat.eqb_refl in Sv. injection Sv as <-.
  exists grid. split; [exact G|]. rewrite Er. clear. generalize (map fst grid) as ts0. intros ts0. induction ts0 as [|t ts0 IH]; cbn; [reflexivity|]. f_equal. exact IH.
Qed.
Lemma ideal_entry rnd arr num c source step freq t0 (f : frame XR) th0 phi f1 act st sp x0 e : draws rnd ->
  steady step freq t0 f -> (has_w f = true -> forall r, In r (rows f) -> tame (r_w r)) -> follows phi t0 f th0 ->
  prepared c f = Ok f1 -> zmin_opt (map (place f) (rows (to_fit f1))) = Some st ->
  zmax_opt (map (place f) (rows (start_filter (c_start c) f))) = Some sp -> zmin_opt (map r_x (rows (to_fit f1))) = Some x0 ->
  described (ideal rnd arr num) c source (detect_freq_frame f) f1 act e ->
  entry_ok source (fun m ps => extrapolate_model m (Some ps) (start_of f st sp) (detect_freq_frame f) (c_years c) x0 (Some act)) e ->
  regression (en_model e) phi -> length th0 = fm_n (en_model e) ->
  (fm_n (en_model e) + 2 <= length (usable_rows (to_fit f1)))%nat -> determined (en_model e) phi (to_fit f1) ->
  accepts (en_model e) (xs_of (en_model e) (to_fit f1)) (ys_of (to_fit f1)) (dates_of (to_fit f1)) ->
  md_fit (m_meta (en_meta e)) = true /\ md_params (m_meta (en_meta e)) = fins th0 /\ md_cost (m_meta (en_meta e)) = Fin 0 /\
  exists st sp grid, zmin_opt (map r_date (rows (to_fit f1))) = Some st /\ zmax_opt (map r_date (rows (start_filter (c_start c) f))) = Some sp /\
    s_x_dates st sp (Some (en_model e)) (Some freq) (c_years c) (x_of t0 st) = Ok grid /\
    map (fun d => (d_date d, d_y d)) (en_rows e) = map (fun t => (t, Fin (rdot th0 (phi (IZR (x_of t0 t)) t)))) (map fst grid).
Proof.
  intros Dr Sd Tw Fo Ep Est Esp Ex0 (d0 & Ef & Ed0) Rr Rg L0 Ll De Va.
  assert (Ty : forall r, In r (rows f) -> tame (r_y r)). { intros q Iq. destruct (Fo q Iq) as [->| ->]; [left; eauto|now right]. }
  destruct (prepared_total c freq t0 (on_step step t0) f (steady_settled step freq t0 f Sd) Ty Tw) as (_ & _ & f1' & E1 & _ & C2 & _). rewrite Ep in E1. injection E1 as <-.
  pose proof (sd_step _ _ _ _ Sd) as S. set (u := to_fit f1) in *.
  assert (Cu : clean (on_step step t0) t0 u) by (unfold u, to_fit, positive; now apply clean_filter).
  destruct (clean_increasing (on_step step t0) t0 u (step_aligned step freq t0 S) Cu) as [_ Xu]. pose proof (clean_finite _ _ _ Cu) as Fr. pose proof (cl_date _ _ _ Cu) as Hd.
  destruct (ideal_fit rnd arr num (en_model e) phi u (detect_freq_frame f) source (Some act) (c_cache c) Dr Rg Hd Fr Xu Ll Va) as (d' & Ed' & Fd & _).
  rewrite Ed' in Ef. injection Ef as ->.
  assert (Ne : usable_rows u <> []) by (destruct (usable_rows u); [cbn in Ll; lia|discriminate]).
  destruct (exact_fit (ideal rnd arr num) (en_model e) u (detect_freq_frame f) source (Some act) (c_cache c) d0 (samples u (coef phi)) th0) as (th & Pm & Lt & Co & X); auto.
  { apply ideal_minimizes. } { apply (hd_n _ _ (rg_hardy _ _ Rg)). } { apply (rg_free _ _ Rg). } { now apply rows_fitted. } { now apply regression_linear. } { intros _. eapply regression_neutral; eauto. }
  { intros s Is. unfold samples in Is. apply in_map_iff in Is as (q & <- & Iq). cbn [s_phi s_y]. unfold usable_rows in Iq. apply filter_In in Iq as [Iq Uq].
    destruct (fitted_sample _ _ _ _ Ep Iq) as (q0 & I0 & (S1 & _ & S3 & S4)). unfold usable in Uq. apply andb_prop in Uq as [Uq _]. rewrite S4 in *.
    destruct (Fo q0 I0) as [K|K]; rewrite K in *; [|discriminate]. cbn [real]. unfold coef, x_in. now rewrite (cl_x _ _ _ Cu q Iq), S1. }
  assert (Et : th = th0).
  { apply mix_zero; [lia|]. rewrite Lt. apply De; [rewrite mix_length; lia|]. intros q Iq. rewrite rdot_mix by lia.
    assert (Is : In (mkS (coef phi q) (real (r_y q)) (share u q)) (samples u (coef phi))) by (unfold samples; apply in_map_iff; eauto).
    pose proof (share_pos u q Fr Iq) as Ps. specialize (X _ Is). cbn [s_w s_phi s_y] in X. rewrite X by lra.
    unfold usable_rows in Iq. apply filter_In in Iq as [Iq Uq]. destruct (fitted_sample _ _ _ _ Ep Iq) as (q0 & I0 & (S1 & _ & S3 & S4)). unfold usable in Uq. apply andb_prop in Uq as [Uq _]. rewrite S4 in *.
    destruct (Fo q0 I0) as [K|K]; rewrite K in *; [|discriminate]. cbn [real]. unfold coef, x_in. rewrite (cl_x _ _ _ Cu q Iq), S1. ring. }
  subst th. rewrite Ed0. cbn [set_weights md_fit md_params md_cost]. do 3 (split; [assumption|]).
  assert (Hf : has_date f = true) by apply (sd_date _ _ _ _ Sd).
  assert (Pl : forall l, map (place f) l = map r_date l) by (intros l; apply map_ext; intros q; unfold place; now rewrite Hf).
  assert (Df : detect_freq_frame f = Some freq) by (unfold detect_freq_frame; rewrite Hf; exact (sd_freq _ _ _ _ Sd)).
  destruct (regression_values c source f f1 act st sp x0 t0 e phi th0) as (grid & G & Q); auto.
  - split; [exact Hf|apply (sd_x _ _ _ _ Sd)].
  - left. rewrite Df. destruct S as [[_ ->]|[_ ->]]; [discriminate|].
    intros C. injection C as C. revert C. unfold wday_name. repeat destruct (Z.eqb _ _); discriminate.
  - rewrite Ed0. exact Pm.
  - rewrite Ed0. exact Fd.
  - rewrite Pl in Est, Esp. exists st, sp, grid. split; [exact Est|]. split; [exact Esp|]. split; [|exact Q].
    rewrite <- (x_start_is (rows u) t0 st x0 (cl_x _ _ _ Cu) Est Ex0). now rewrite <- Df.
Qed.
Theorem ideal_continues rnd arr num W c source step freq t0 (f : frame XR) th0 phi : w_env W = ideal rnd arr num -> draws rnd ->
  steady step freq t0 f -> (has_w f = true -> forall r, In r (rows f) -> tame (r_w r)) -> follows phi t0 f th0 ->
  settings c -> enough c f ->
  exists r f1 mode acts (es : list (@entry XR)), run_forecast_single W (set_all true c) source f = Ok r /\ prepared c f = Ok f1 /\
    rs_data r = acts ++ concat (map en_rows es) /\ rs_meta r = map en_meta es /\ Forall (fun d => d_actual d = true) acts /\
    final_mode W c (with_weights f1) = Ok mode /\
    map en_model es = all_models c mode (detect_freq_frame f) (fst (candidate_lists c (with_weights f1))) (snd (candidate_lists c (with_weights f1))) /\
    forall e, In e es -> regression (en_model e) phi -> length th0 = fm_n (en_model e) ->
      (fm_n (en_model e) + 2 <= length (usable_rows (to_fit f1)))%nat -> determined (en_model e) phi (to_fit f1) ->
      accepts (en_model e) (xs_of (en_model e) (to_fit f1)) (ys_of (to_fit f1)) (dates_of (to_fit f1)) ->
      md_fit (m_meta (en_meta e)) = true /\ md_params (m_meta (en_meta e)) = fins th0 /\ md_cost (m_meta (en_meta e)) = Fin 0 /\
      exists st sp grid, zmin_opt (map r_date (rows (to_fit f1))) = Some st /\ zmax_opt (map r_date (rows (start_filter (c_start c) f))) = Some sp /\
        s_x_dates st sp (Some (en_model e)) (Some freq) (c_years c) (x_of t0 st) = Ok grid /\
        map (fun d => (d_date d, d_y d)) (en_rows e) = map (fun t => (t, Fin (rdot th0 (phi (IZR (x_of t0 t)) t)))) (map fst grid).
Proof.
  intros Ew Dr Sd Tw Fo Se En.
  assert (Ty : forall r, In r (rows f) -> tame (r_y r)). { intros q Iq. destruct (Fo q Iq) as [->| ->]; [left; eauto|now right]. }
  assert (Se' : settings (set_all true c)) by (destruct Se as [[A1 A2] A3 A4 A5 A6]; constructor; [constructor; assumption|exact A3|exact A4|exact A5|exact A6]).
  destruct (forecast_completes W (set_all true c) source step freq t0 f Sd Ty Tw) as (r & Er); auto.
  { rewrite Ew. apply ideal_dependable. } { rewrite Ew. exact Dr. } { intros _. rewrite Ew. apply ideal_answers. }
  destruct (fit_table _ _ _ _ _ Er) as (f1 & range & mode & act & st & sp & x0 & acts & es & Ep & _ & Emo & Ea & Est & Esp & Ex0 & Ed & Em & Eml & Fa & Fe).
  exists r, f1, mode, acts, es. do 4 (split; [assumption|]). split; [eapply Forall_impl; [|exact Fa]; intros d K; apply K|]. do 2 (split; [assumption|]).
  intros e Ie Rg L0 Ll De Va. rewrite Forall_forall in Fe. destruct (Fe e Ie) as (De0 & _ & Rr). rewrite Ew in De0.
  exact (ideal_entry rnd arr num c source step freq t0 f th0 phi f1 act st sp x0 e Dr Sd Tw Fo Ep Est Esp Ex0 De0 Rr Rg L0 Ll De Va).
Qed.
