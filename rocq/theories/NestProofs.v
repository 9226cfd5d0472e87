(* Models that contain other models: proofs for C95. *)
From Coq Require Import ZArith String List Bool Lia Reals Lra.
From Verif Require Import Num Py Cal Fmt Model Base Fixed Naive Freq Aic Normalize Fit Interp Select Stats Outliers Pi Forecast.
From Verif Require Import NumProofs ListProofs StringProofs ModelProofs BaseProofs GuessProofs FixedProofs FitProofs SeasonProofs CacheProofs StatsProofs ForecastProofs ForecastProofs2 ExtendProofs MetaProofs LsqProofs TotalProofs AicProofs UniqueProofs RepeatProofs.
From Verif Require ExistProofs HardyProofs.
Import ListNotations.
Local Open Scope string_scope.
Local Open Scope list_scope.
Local Open Scope R_scope.

(* ---- specification ---- *)
(* every curve of the first regression is a curve of the second *)
Definition contained (m : fmodel XR) (phi : R -> Z -> list R) (m' : fmodel XR) (phi' : R -> Z -> list R) : Prop :=
  forall th, length th = fm_n m -> exists th', length th' = fm_n m' /\ forall x t, rdot th' (phi' x t) = rdot th (phi x t).
(* what the score of [n] samples adds for [k] parameters *)
Definition penalty (n k : R) : R := 2 * k + 2 * k * (k + 1) / (n - k - 1).

Lemma rdot_app a b c d : length a = length c -> rdot (a ++ b) (c ++ d) = rdot a c + rdot b d.
Proof.
  revert c. induction a as [|x a IH]; intros [|y c] L; try discriminate; [unfold rdot; cbn; ring|].
  cbn [app]. rewrite !ExistProofs.rdot_cons, IH by (cbn in L; lia). ring.
Qed.
Lemma rdot_zeros n c : rdot (repeat 0 n) c = 0.
Proof. apply rdot_zero. Qed.
Lemma sum_n m1 m2 phi1 phi2 : regression m1 phi1 -> regression m2 phi2 -> fm_n (madd m1 m2) = (fm_n m1 + fm_n m2)%nat.
Proof. intros A B. apply HardyProofs.madd_n; [exact (hd_name _ _ (rg_hardy _ _ A))|exact (hd_name _ _ (rg_hardy _ _ B))]. Qed.
Lemma contained_refl m phi : contained m phi m phi.
Proof. intros th L. exists th. auto. Qed.
Lemma contained_left m1 m2 phi1 phi2 : regression m1 phi1 -> regression m2 phi2 -> contained m1 phi1 (madd m1 m2) (fun x t => phi1 x t ++ phi2 x t).
Proof.
  intros A B th L. exists (th ++ repeat 0 (fm_n m2)). split.
  - rewrite app_length, repeat_length, (sum_n _ _ _ _ A B). lia.
  - intros x t. rewrite rdot_app by (rewrite (rg_len _ _ A); exact L). rewrite rdot_zeros. ring.
Qed.
Lemma contained_right m1 m2 phi1 phi2 : regression m1 phi1 -> regression m2 phi2 -> contained m2 phi2 (madd m1 m2) (fun x t => phi1 x t ++ phi2 x t).
Proof.
  intros A B th L. exists (repeat 0 (fm_n m1) ++ th). split.
  - rewrite app_length, repeat_length, (sum_n _ _ _ _ A B). lia.
  - intros x t. rewrite rdot_app by (rewrite repeat_length, (rg_len _ _ A); reflexivity). rewrite rdot_zeros. ring.
Qed.
Lemma contained_swap m1 m2 phi1 phi2 : regression m1 phi1 -> regression m2 phi2 ->
  contained (madd m1 m2) (fun x t => phi1 x t ++ phi2 x t) (madd m2 m1) (fun x t => phi2 x t ++ phi1 x t).
Proof.
  intros A B th L. rewrite (sum_n _ _ _ _ A B) in L. exists (skipn (fm_n m1) th ++ firstn (fm_n m1) th).
  assert (L1 : length (firstn (fm_n m1) th) = fm_n m1) by (rewrite firstn_length; lia). assert (L2 : length (skipn (fm_n m1) th) = fm_n m2) by (rewrite skipn_length; lia). split.
  - rewrite app_length, (sum_n _ _ _ _ B A). lia.
  - intros x t. rewrite rdot_app by (rewrite (rg_len _ _ B); exact L2). rewrite <- (firstn_skipn (fm_n m1) th) at 3.
    rewrite rdot_app by (rewrite (rg_len _ _ A); exact L1). ring.
Qed.
Lemma contained_trans m1 p1 m2 p2 m3 p3 : contained m1 p1 m2 p2 -> contained m2 p2 m3 p3 -> contained m1 p1 m3 p3.
Proof. intros A B th L. destruct (A th L) as (u & Lu & U). destruct (B u Lu) as (v & Lv & V). exists v. split; [exact Lv|]. intros x t. now rewrite V, U. Qed.
Lemma constant_in_line : contained model_constant (fun _ _ => [1]) model_linear (fun x _ => [x; 1]).
Proof. intros th L. destruct (one_param th L) as (a & ->). exists [0; a]. split; [reflexivity|]. intros x t. unfold rdot. cbn. ring. Qed.

(* ---- costs ---- *)
Lemma contained_loss (phi phi' : R -> Z -> list R) (f : frame XR) th th' : (forall x t, rdot th' (phi' x t) = rdot th (phi x t)) ->
  loss th' (samples f (coef phi')) = loss th (samples f (coef phi)).
Proof. intros V. rewrite !loss_rows. apply ExistProofs.rsum_ext. intros r _. unfold coef. now rewrite V. Qed.
Section Fits.
  Variables (m : fmodel XR) (phi : R -> Z -> list R) (m' : fmodel XR) (phi' : R -> Z -> list R) (f : frame XR) (E E' : env XR)
    (freq freq' : option string) (s s' : string) (a a' : option (frame XR)) (u u' : bool) (d d' : meta XR).
  Hypotheses (Rg : regression m phi) (Rg' : regression m' phi') (Cn : contained m phi m' phi') (Hd : has_date f = true) (Fr : finite_rows f)
    (Mn : minimizes E m f a) (Mn' : minimizes E' m' f a')
    (Ef : fit_model E m f freq s a u = Ok d) (Fd : md_fit d = true) (Ef' : fit_model E' m' f freq' s' a' u' = Ok d') (Fd' : md_fit d' = true).
  Theorem contained_cost : exists c c', md_cost d = Fin c /\ md_cost d' = Fin c' /\ 0 <= c' <= c.
  Proof.
    destruct (regression_fit E m phi f _ _ _ _ _ Rg Hd Fr Mn Ef Fd) as (th & P & L & C & M & Nm).
    destruct (regression_fit E' m' phi' f _ _ _ _ _ Rg' Hd Fr Mn' Ef' Fd') as (th' & P' & L' & C' & M' & Nm').
    exists (loss th (samples f (coef phi)) / 2), (loss th' (samples f (coef phi')) / 2). split; [exact C|]. split; [exact C'|].
    destruct (Cn th L) as (v & Lv & V). pose proof (M' v Lv) as K. rewrite (contained_loss phi phi' f th v V) in K.
    pose proof (loss_nonneg th' (samples f (coef phi'))). lra.
  Qed.
  (* the score changes by what the parameters cost, less the gain *)
  Theorem contained_choice c c' : md_cost d = Fin c -> md_cost d' = Fin c' -> 0 < c' ->
    exists v v', md_aicc d = Fin v /\ md_aicc d' = Fin v' /\
      let n := INR (length (usable_rows f)) in
      v' - v = penalty n (INR (fm_n m')) - penalty n (INR (fm_n m)) - n * ln (c / c').
  Proof.
    intros C C' P. destruct contained_cost as (c0 & c0' & A & A' & Le). rewrite C in A. injection A as <-. rewrite C' in A'. injection A' as <-.
    destruct (fit_score _ _ _ _ _ _ _ _ Ef Fd) as [S1 L1]. destruct (fit_score _ _ _ _ _ _ _ _ Ef' Fd') as [S2 L2].
    rewrite C in S1. rewrite C' in S2. rewrite score_pos in S1 by (try lia; lra). rewrite score_pos in S2 by (try lia; lra).
    injection S1 as S1. injection S2 as S2. rewrite <- S1, <- S2. do 2 eexists. split; [reflexivity|]. split; [reflexivity|]. cbv zeta.
    rewrite <- !INR_IZR_INZ. set (n := INR (length (usable_rows f))). unfold aicc, penalty.
    assert (Hn : 0 < n) by (apply lt_0_INR; lia).
    assert (Ln : ln (c / c') = ln (c / n) - ln (c' / n)).
    { assert (0 < c / n) by (apply Rdiv_lt_0_compat; lra). assert (0 < c' / n) by (apply Rdiv_lt_0_compat; lra).
      replace (c / c') with ((c / n) * / (c' / n)) by (field; lra). rewrite ln_mult, ln_Rinv; try assumption; [ring|]. now apply Rinv_0_lt_compat. }
    rewrite Ln. ring.
  Qed.
End Fits.
(* models with the same curves: same costs and predictions *)
Theorem same_curves_fit m phi m' phi' f E E' freq freq' s s' a a' u u' d d' : regression m phi -> regression m' phi' ->
  contained m phi m' phi' -> contained m' phi' m phi -> has_date f = true -> finite_rows f -> minimizes E m f a -> minimizes E' m' f a' ->
  fit_model E m f freq s a u = Ok d -> md_fit d = true -> fit_model E' m' f freq' s' a' u' = Ok d' -> md_fit d' = true ->
  md_cost d' = md_cost d /\ (fm_n m' = fm_n m -> md_aicc d' = md_aicc d) /\
  exists th th', md_params d = fins th /\ md_params d' = fins th' /\ forall r, In r (usable_rows f) -> rdot th' (coef phi' r) = rdot th (coef phi r).
Proof.
  intros Rg Rg' Cn Cn' Hd Fr Mn Mn' Ef Fd Ef' Fd'.
  assert (Ec : md_cost d' = md_cost d).
  { destruct (contained_cost m phi m' phi' f E E' _ _ _ _ _ _ _ _ _ _ Rg Rg' Cn Hd Fr Mn Mn' Ef Fd Ef' Fd') as (c & c' & B & B' & _ & L).
    destruct (contained_cost m' phi' m phi f E' E _ _ _ _ _ _ _ _ _ _ Rg' Rg Cn' Hd Fr Mn' Mn Ef' Fd' Ef Fd) as (c2 & c2' & A & A' & _ & L').
    rewrite B' in A. rewrite B in A'. injection A as <-. injection A' as <-. rewrite B, B'. f_equal. lra. }
  split; [exact Ec|]. split.
  - intros En. destruct (fit_score _ _ _ _ _ _ _ _ Ef Fd) as [S1 _]. destruct (fit_score _ _ _ _ _ _ _ _ Ef' Fd') as [S2 _]. rewrite Ec, En, S1 in S2. now injection S2.
  - destruct (regression_fit E m phi f _ _ _ _ _ Rg Hd Fr Mn Ef Fd) as (th & P & L & C & M & Nm).
    destruct (regression_fit E' m' phi' f _ _ _ _ _ Rg' Hd Fr Mn' Ef' Fd') as (th' & P' & L' & C' & M' & Nm').
    exists th, th'. split; [exact P|]. split; [exact P'|]. intros r I.
    destruct (Cn' th' L') as (v & Lv & V). assert (Nv : normal v (samples f (coef phi))).
    { intros de Ld. destruct (Cn de ltac:(lia)) as (e & Le & V'). pose proof (Nm' e ltac:(lia)) as K. fold (grad th' e (samples f (coef phi'))) in K. fold (grad v de (samples f (coef phi))).
      rewrite grad_rows in *. rewrite <- K. apply ExistProofs.rsum_ext. intros q _. unfold err, coef. cbn [s_y s_phi]. now rewrite V, V'. }
    assert (Q : rdot v (coef phi r) = rdot th (coef phi r)).
    { refine (normal_unique th v _ ltac:(lia) Nm Nv (mkS (coef phi r) (real (r_y r)) (share f r)) _ _); cbn [s_w].
      - unfold samples. apply in_map_iff. eauto.
      - pose proof (share_pos f r Fr I). lra. }
    rewrite <- Q. unfold coef. now rewrite V.
Qed.
(* the same curves with more parameters: scored worse *)
Theorem redundant_score m phi m' phi' f E E' freq freq' s s' a a' u u' d d' : regression m phi -> regression m' phi' ->
  contained m phi m' phi' -> contained m' phi' m phi -> (fm_n m < fm_n m')%nat -> has_date f = true -> finite_rows f -> minimizes E m f a -> minimizes E' m' f a' ->
  fit_model E m f freq s a u = Ok d -> md_fit d = true -> fit_model E' m' f freq' s' a' u' = Ok d' -> md_fit d' = true -> md_cost d <> Fin 0 ->
  exists v v', md_aicc d = Fin v /\ md_aicc d' = Fin v' /\ v < v'.
Proof.
  intros Rg Rg' Cn Cn' Lt Hd Fr Mn Mn' Ef Fd Ef' Fd' Nz.
  destruct (same_curves_fit m phi m' phi' f E E' _ _ _ _ _ _ _ _ _ _ Rg Rg' Cn Cn' Hd Fr Mn Mn' Ef Fd Ef' Fd') as (Ec & _).
  destruct (contained_cost m phi m' phi' f E E' _ _ _ _ _ _ _ _ _ _ Rg Rg' Cn Hd Fr Mn Mn' Ef Fd Ef' Fd') as (c & c' & B & B' & P & L).
  rewrite B, B' in Ec. injection Ec as ->. assert (0 < c) by (destruct P as [P|P]; [exact P|subst c; contradiction]).
  destruct (fit_score _ _ _ _ _ _ _ _ Ef Fd) as [S1 L1]. destruct (fit_score _ _ _ _ _ _ _ _ Ef' Fd') as [S2 L2].
  rewrite B in S1. rewrite B' in S2. rewrite score_pos in S1 by (try lia; lra). rewrite score_pos in S2 by (try lia; lra).
  injection S1 as S1. injection S2 as S2. rewrite <- S1, <- S2. do 2 eexists. split; [reflexivity|]. split; [reflexivity|].
  apply aicc_mono_k; [split; [apply IZR_le|apply IZR_lt]; lia|]. rewrite <- plus_IZR. apply IZR_lt. lia.
Qed.
(* the order of the components of a sum does not matter *)
Theorem swapped_fit m1 m2 phi1 phi2 f E E' freq freq' s s' a a' u u' d d' : regression m1 phi1 -> regression m2 phi2 -> apart m1 m2 -> apart m2 m1 ->
  has_date f = true -> finite_rows f -> minimizes E (madd m1 m2) f a -> minimizes E' (madd m2 m1) f a' ->
  fit_model E (madd m1 m2) f freq s a u = Ok d -> md_fit d = true -> fit_model E' (madd m2 m1) f freq' s' a' u' = Ok d' -> md_fit d' = true ->
  md_cost d' = md_cost d /\ md_aicc d' = md_aicc d /\
  exists th th', md_params d = fins th /\ md_params d' = fins th' /\
    forall r, In r (usable_rows f) -> rdot th' (coef phi2 r ++ coef phi1 r) = rdot th (coef phi1 r ++ coef phi2 r).
Proof.
  intros R1 R2 A1 A2 Hd Fr Mn Mn' Ef Fd Ef' Fd'.
  destruct (same_curves_fit _ _ _ _ f E E' _ _ _ _ _ _ _ _ _ _ (regression_madd _ _ _ _ R1 R2 A1) (regression_madd _ _ _ _ R2 R1 A2)
              (contained_swap _ _ _ _ R1 R2) (contained_swap _ _ _ _ R2 R1) Hd Fr Mn Mn' Ef Fd Ef' Fd') as (C & S & P).
  split; [exact C|]. split; [|exact P]. apply S. rewrite (sum_n _ _ _ _ R1 R2), (sum_n _ _ _ _ R2 R1). lia.
Qed.
(* no other row of the metadata has the model name and source_long of this one *)
Definition alone (r : result XR) (d : mrow XR) : Prop := forall m, In m (rs_meta r) -> same_fit (m_meta m) (m_meta d) -> m = d.
Lemma no_worse_le w d d' v v' : no_worse (set_weights w d) (set_weights w d') -> md_aicc d = Fin v -> md_aicc d' = Fin v' -> v <= v'.
Proof.
  intros K V V'. unfold no_worse, score_le in K. change (md_aicc (set_weights w d)) with (md_aicc d) in K. change (md_aicc (set_weights w d')) with (md_aicc d') in K.
  rewrite V, V' in K. destruct K as [K|[K|K]]; [injection K as ->; lra|discriminate K|]. change (Rleb v v' = true) in K. destruct (Rleb_spec v v'); [assumption|discriminate].
Qed.
(* among the candidates of a forecast *)
Theorem contained_chosen (W : world XR) c source f r : sorts W -> (forall m g a, minimizes (w_env W) m g a) ->
  run_forecast_single W (ForecastProofs.set_all true c) source f = Ok r ->
  exists f1 mode (es : list (@entry XR)), prepared c f = Ok f1 /\ final_mode W c (with_weights f1) = Ok mode /\ rs_meta r = map en_meta es /\
    map en_model es = all_models c mode (detect_freq_frame f) (fst (candidate_lists c (with_weights f1))) (snd (candidate_lists c (with_weights f1))) /\
    forall e e' phi phi', In e es -> In e' es -> regression (en_model e) phi -> regression (en_model e') phi' -> contained (en_model e) phi (en_model e') phi' ->
      has_date (to_fit f1) = true -> finite_rows (to_fit f1) -> md_fit (m_meta (en_meta e)) = true -> md_fit (m_meta (en_meta e')) = true ->
      exists k k', md_cost (m_meta (en_meta e)) = Fin k /\ md_cost (m_meta (en_meta e')) = Fin k' /\ 0 <= k' <= k /\
        let n := INR (length (usable_rows (to_fit f1))) in
        let gain := n * ln (k / k') in
        let price := penalty n (INR (fm_n (en_model e'))) - penalty n (INR (fm_n (en_model e))) in
        (0 < k' -> m_best (en_meta e') = true -> alone r (en_meta e') -> price <= gain) /\
        (0 < k' -> m_best (en_meta e) = true -> alone r (en_meta e) -> gain <= price).
Proof.
  intros So Mn Er. pose proof (best_unique_minimal W c source f r So Er) as Best.
  destruct (fit_table _ _ _ _ _ Er) as (f1 & range & mode & act & st & sp & x0 & acts & es & E1 & _ & E2 & E3 & _ & _ & _ & E4 & E5 & E6 & _ & E7).
  exists f1, mode, es. split; [exact E1|]. split; [exact E2|]. split; [exact E5|]. split; [exact E6|].
  intros e e' phi phi' I I' Rg Rg' Cn Hd Fr Fe Fe'.
  rewrite Forall_forall in E7. destruct (E7 e I) as ((d & Ed & Md) & _). destruct (E7 e' I') as ((d' & Ed' & Md') & _).
  rewrite Md in *. rewrite Md' in *. change (md_fit d = true) in Fe. change (md_fit d' = true) in Fe'.
  destruct (contained_cost _ phi _ phi' (to_fit f1) (w_env W) (w_env W) _ _ _ _ _ _ _ _ _ _ Rg Rg' Cn Hd Fr (Mn _ _ _) (Mn _ _ _) Ed Fe Ed' Fe') as (k & k' & B & B' & L).
  exists k, k'. split; [exact B|]. split; [exact B'|]. split; [exact L|]. cbv zeta.
  assert (Main : 0 < k' -> forall x y, (x = e /\ y = e' \/ x = e' /\ y = e) -> m_best (en_meta x) = true -> alone r (en_meta x) ->
                 no_worse (m_meta (en_meta x)) (m_meta (en_meta y))).
  { intros P x y XY Bx Al. assert (Ix : In (en_meta x) (rs_meta r)) by (rewrite E5; apply in_map; destruct XY as [[-> _]|[-> _]]; assumption).
    assert (Iy : In (en_meta y) (rs_meta r)) by (rewrite E5; apply in_map; destruct XY as [[_ ->]|[_ ->]]; assumption).
    destruct Best as [(_ & Nb & _)|(b & Ib & _ & _ & Nw & Sm & _)]; [rewrite (Nb _ Ix) in Bx; discriminate|].
    assert (b = en_meta x) as -> by (apply Al; [exact Ib|]; apply Sm in Bx; [|exact Ix]; destruct Bx; split; congruence).
    apply Nw; [exact Iy|]. destruct XY as [[_ ->]|[_ ->]]; [rewrite Md'; exact Fe'|rewrite Md; exact Fe]. }
  assert (Sc : 0 < k' -> exists v v', md_aicc d = Fin v /\ md_aicc d' = Fin v' /\
             v' - v = penalty (INR (length (usable_rows (to_fit f1)))) (INR (fm_n (en_model e'))) - penalty (INR (length (usable_rows (to_fit f1)))) (INR (fm_n (en_model e))) -
                      INR (length (usable_rows (to_fit f1))) * ln (k / k')).
  { intros P. exact (contained_choice _ phi _ phi' (to_fit f1) (w_env W) (w_env W) _ _ _ _ _ _ _ _ _ _ Rg Rg' Cn Hd Fr (Mn _ _ _) (Mn _ _ _) Ed Fe Ed' Fe' k k' B B' P). }
  split; intros P Bx Al; destruct (Sc P) as (v & v' & V & V' & D).
  - pose proof (Main P e' e ltac:(auto) Bx Al) as K. rewrite Md, Md' in K. pose proof (no_worse_le _ _ _ _ _ K V' V). lra.
  - pose proof (Main P e e' ltac:(auto) Bx Al) as K. rewrite Md, Md' in K. pose proof (no_worse_le _ _ _ _ _ K V V'). lra.
Qed.
