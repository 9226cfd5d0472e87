(* How samples pull a fit towards them: proofs for C99. *)
From Coq Require Import ZArith String List Bool Lia Reals Lra Permutation.
From Verif Require Import Num Py Cal Fmt Model Base Fixed Naive Freq Aic Normalize Fit Interp Select Stats Outliers Pi Forecast.
From Verif Require Import NumProofs ListProofs StringProofs ModelProofs BaseProofs GuessProofs FixedProofs FitProofs SeasonProofs CacheProofs StatsProofs LsqProofs TotalProofs AicProofs UniqueProofs RepeatProofs ConfirmProofs.
From Verif Require ExistProofs.
Import ListNotations.
Local Open Scope string_scope.
Local Open Scope list_scope.
Local Open Scope R_scope.

(* ---- specification ---- *)
(* what the curve with parameters [th] misses the sample by *)
Definition miss (phi : R -> Z -> list R) (th : list R) (r : row XR) : R := real (r_y r) - rdot th (coef phi r).
(* [f'] has the samples of [f], except that [r0] has become [r0'] with a larger weight *)
Definition weightier (f f' : frame XR) (r0 r0' : row XR) : Prop :=
  has_w f = true /\ has_w f' = true /\ r_date r0' = r_date r0 /\ r_x r0' = r_x r0 /\ r_y r0' = r_y r0 /\ real (r_w r0) <= real (r_w r0') /\
  exists l1 l2, usable_rows f = l1 ++ r0 :: l2 /\ usable_rows f' = l1 ++ r0' :: l2.

(* ---- a further pull ---- *)
Lemma pulled th th' (l : list sample) y0 phi0 w : length th' = length th -> 0 < w -> normal th l ->
  (forall de, length de = length th -> grad th' de l + w * (y0 - rdot th' phi0) * rdot de phi0 = 0) ->
  exists k, 0 <= k <= 1 /\ y0 - rdot th' phi0 = k * (y0 - rdot th phi0).
Proof.
  intros L W N N'. set (e := mix 1 (-1) th' th).
  assert (Le : length e = length th).
  { unfold e, mix. clear - L. revert th L. induction th' as [|a t IH]; intros [|b u] L; try discriminate; cbn in *; [reflexivity|]. f_equal. apply IH. lia. }
  pose proof (grad_diff th th' e l (eq_sym L)) as G. pose proof (N e Le) as N0. change (grad th e l = 0) in N0. pose proof (N' e Le) as N1.
  assert (Q : 0 <= rsum (map (fun s => s_w s * s_w s * rdot e (s_phi s) * rdot e (s_phi s)) l)).
  { apply rsum_nonneg. intros x I. apply in_map_iff in I as (s & <- & _). pose proof (Rle_0_sqr (s_w s * rdot e (s_phi s))) as K. unfold Rsqr in K. lra. }
  fold e in G. set (q := rsum _) in *. assert (Ee : rdot e phi0 = rdot th' phi0 - rdot th phi0) by (unfold e; rewrite rdot_mix by exact L; ring).
  set (a := y0 - rdot th phi0). set (b := y0 - rdot th' phi0) in *. assert (Eab : rdot e phi0 = a - b) by (unfold a, b; lra). rewrite Eab in N1.
  assert (K : 0 <= b * (a - b)).
  { apply (Rmult_le_reg_l w); [exact W|]. rewrite Rmult_0_r. lra. }
  destruct (Req_dec a 0) as [Z|Z].
  - exists 0. split; [lra|]. rewrite Z in K. assert (b * b <= 0) by lra. pose proof (Rle_0_sqr b) as S. unfold Rsqr in S. assert (b * b = 0) as B by lra. apply Rmult_integral in B. lra.
  - exists (b / a). split; [|field; exact Z]. pose proof (Rsqr_pos_lt _ Z) as A. unfold Rsqr in A.
    replace (b / a) with (a * b / (a * a)) by (field; exact Z). pose proof (Rle_0_sqr b) as S. pose proof (Rle_0_sqr (a - b)) as S'. unfold Rsqr in *. split.
    + apply Rmult_le_pos; [lra|left; now apply Rinv_0_lt_compat].
    + apply (Rmult_le_reg_r (a * a)); [exact A|]. unfold Rdiv. rewrite Rmult_assoc, Rinv_l by lra. lra.
Qed.
Lemma miss_err phi th r w : err th (mkS (coef phi r) (real (r_y r)) w) = miss phi th r.
Proof. reflexivity. Qed.

(* ---- a sample that was left out ---- *)
Section Added.
  Variables (m : fmodel XR) (phi : R -> Z -> list R) (f f' : frame XR) (r0 : row XR) (E E' : env XR)
    (freq freq' : option string) (s s' : string) (a a' : option (frame XR)) (u u' : bool) (d d' : meta XR).
  Hypotheses (Rg : regression m phi) (Ex : extended f [r0] f') (Hd : has_date f = true) (Hd' : has_date f' = true) (Fr' : finite_rows f')
    (Mn : minimizes E m f a) (Mn' : minimizes E' m f' a')
    (Ef : fit_model E m f freq s a u = Ok d) (Fd : md_fit d = true) (Ef' : fit_model E' m f' freq' s' a' u' = Ok d') (Fd' : md_fit d' = true).
  Lemma sum_added (g : row XR -> R) :
    rsum (map (fun r => share f' r * share f' r * g r) (usable_rows f')) = rsum (map (fun r => share f r * share f r * g r) (usable_rows f)) + share f' r0 * share f' r0 * g r0.
  Proof.
    rewrite (rsum_perm _ _ (Permutation_map _ (proj1 (proj2 Ex)))), map_app, rsum_app. cbn [map rsum]. rewrite Rplus_0_r. f_equal.
    apply ExistProofs.rsum_ext. intros r I. now rewrite (share_extended f f' [r0] Ex r I).
  Qed.
  Theorem left_out : exists th th' c c' k, md_params d = fins th /\ md_params d' = fins th' /\ md_cost d = Fin c /\ md_cost d' = Fin c' /\
    0 <= k <= 1 /\ miss phi th' r0 = k * miss phi th r0 /\ c <= c' <= c + share f' r0 ^ 2 * miss phi th r0 ^ 2 / 2.
  Proof.
    destruct (regression_fit E m phi f _ _ _ _ _ Rg Hd (finite_left f f' _ Ex Fr') Mn Ef Fd) as (th & P & Lt & C & M & Nm).
    destruct (regression_fit E' m phi f' _ _ _ _ _ Rg Hd' Fr' Mn' Ef' Fd') as (th' & P' & Lt' & C' & M' & Nm').
    assert (L : length th' = length th) by congruence.
    assert (I0 : In r0 (usable_rows f')) by (apply (Permutation_in _ (Permutation_sym (proj1 (proj2 Ex)))), in_or_app; right; now left).
    pose proof (share_pos f' r0 Fr' I0) as Sp.
    destruct (pulled th th' (samples f (coef phi)) (real (r_y r0)) (coef phi r0) (share f' r0 * share f' r0) L) as (k & Bk & Ek).
    - now apply Rmult_lt_0_compat.
    - exact Nm.
    - intros de Ld. pose proof (Nm' de ltac:(congruence)) as K. change (grad th' de (samples f' (coef phi)) = 0) in K. rewrite grad_rows in K.
      rewrite grad_rows. unfold err in *. cbn [s_y s_phi] in *. rewrite (sum_added (fun r => (real (r_y r) - rdot th' (coef phi r)) * rdot de (coef phi r))) in K. rewrite <- K. ring.
    - eexists th, th', _, _, k. split; [exact P|]. split; [exact P'|]. split; [exact C|]. split; [exact C'|]. split; [exact Bk|]. split; [exact Ek|].
      assert (Lo : forall t, loss t (samples f' (coef phi)) = loss t (samples f (coef phi)) + share f' r0 * share f' r0 * (miss phi t r0 * miss phi t r0)).
      { intros t. rewrite !loss_rows. apply (sum_added (fun r => miss phi t r * miss phi t r)). }
      pose proof (M th' Lt') as K1. pose proof (M' th Lt) as K2. rewrite !Lo in *.
      pose proof (Rle_0_sqr (share f' r0 * miss phi th' r0)) as Q. unfold Rsqr in Q. split; [nra|]. replace (share f' r0 ^ 2 * miss phi th r0 ^ 2) with (share f' r0 * share f' r0 * (miss phi th r0 * miss phi th r0)) by ring. lra.
  Qed.
End Added.

(* ---- a larger weight ---- *)
Section Raised.
  Variables (m : fmodel XR) (phi : R -> Z -> list R) (f f' : frame XR) (r0 r0' : row XR) (E E' : env XR)
    (freq freq' : option string) (s s' : string) (a a' : option (frame XR)) (u u' : bool) (d d' : meta XR).
  Hypotheses (Rg : regression m phi) (We : weightier f f' r0 r0') (Hd : has_date f = true) (Hd' : has_date f' = true) (Fr : finite_rows f) (Fr' : finite_rows f')
    (Mn : minimizes E m f a) (Mn' : minimizes E' m f' a')
    (Ef : fit_model E m f freq s a u = Ok d) (Fd : md_fit d = true) (Ef' : fit_model E' m f' freq' s' a' u' = Ok d') (Fd' : md_fit d' = true).
  Lemma counts_raised x : count_x (usable_rows f') x = count_x (usable_rows f) x.
  Proof.
    destruct We as (_ & _ & _ & Ex & _ & _ & l1 & l2 & -> & ->). rewrite !count_app. f_equal. unfold count_x. cbn [filter]. rewrite Ex. destruct (Z.eqb (r_x r0) x); reflexivity.
  Qed.
  Lemma share_raised r : share f' r = share f r.
  Proof. destruct We as (W1 & W2 & _). unfold share. rewrite W1, W2. now rewrite counts_raised. Qed.
  Lemma share_more : share f r0 <= share f r0'.
  Proof.
    destruct We as (W1 & _ & _ & Ex & _ & Wl & l1 & l2 & Eu & _). unfold share. rewrite W1, Ex. unfold Rdiv. apply Rmult_le_compat_r; [|exact Wl].
    left. apply Rinv_0_lt_compat. apply IZR_lt. apply count_x_pos. rewrite Eu. apply in_or_app. right. now left.
  Qed.
  Lemma sum_raised (g : row XR -> R) : g r0' = g r0 ->
    rsum (map (fun r => share f' r * share f' r * g r) (usable_rows f')) =
    rsum (map (fun r => share f r * share f r * g r) (usable_rows f)) + (share f r0' * share f r0' - share f r0 * share f r0) * g r0.
  Proof.
    intros Eg. pose proof share_raised as Sr. destruct We as (_ & _ & _ & _ & _ & _ & l1 & l2 & -> & ->).
    rewrite (ExistProofs.rsum_ext _ (fun r => share f' r * share f' r * g r) (fun r => share f r * share f r * g r)) by (intros r _; now rewrite Sr).
    rewrite !map_app, !rsum_app. cbn [map rsum]. rewrite Eg. ring.
  Qed.
  Theorem more_weight : exists th th' k, md_params d = fins th /\ md_params d' = fins th' /\ 0 <= k <= 1 /\ miss phi th' r0 = k * miss phi th r0 /\
    loss th (samples f (coef phi)) <= loss th' (samples f (coef phi)).
  Proof.
    destruct (regression_fit E m phi f _ _ _ _ _ Rg Hd Fr Mn Ef Fd) as (th & P & Lt & C & M & Nm).
    destruct (regression_fit E' m phi f' _ _ _ _ _ Rg Hd' Fr' Mn' Ef' Fd') as (th' & P' & Lt' & C' & M' & Nm').
    assert (L : length th' = length th) by congruence.
    assert (Ec : coef phi r0' = coef phi r0) by (destruct We as (_ & _ & A & B & _); unfold coef, x_in; now rewrite A, B).
    assert (Ey : r_y r0' = r_y r0) by apply We.
    assert (I0 : In r0 (usable_rows f)) by (destruct We as (_ & _ & _ & _ & _ & _ & l1 & l2 & -> & _); apply in_or_app; right; now left).
    pose proof (share_pos f r0 Fr I0) as Sp. pose proof share_more as Sm.
    assert (Kd : exists k, 0 <= k <= 1 /\ miss phi th' r0 = k * miss phi th r0).
    { assert (G : forall de, length de = length th -> grad th' de (samples f (coef phi)) + (share f r0' * share f r0' - share f r0 * share f r0) * (real (r_y r0) - rdot th' (coef phi r0)) * rdot de (coef phi r0) = 0).
      { intros de Ld. pose proof (Nm' de ltac:(congruence)) as K. change (grad th' de (samples f' (coef phi)) = 0) in K. rewrite grad_rows in K.
        rewrite grad_rows. unfold err in *. cbn [s_y s_phi] in *. rewrite (sum_raised (fun r => (real (r_y r) - rdot th' (coef phi r)) * rdot de (coef phi r))) in K by (now rewrite Ec, Ey). rewrite <- K. ring. }
      destruct (Req_dec (share f r0') (share f r0)) as [Es|Ns].
      - exists 1. split; [lra|]. rewrite Rmult_1_l. 
        assert (N2 : normal th' (samples f (coef phi))).
        { intros de Ld. change (grad th' de (samples f (coef phi)) = 0). rewrite <- (G de ltac:(congruence)), Es. ring. }
        assert (Er : rdot th' (coef phi r0) = rdot th (coef phi r0)); [|unfold miss; now rewrite Er].
        refine (normal_unique th th' _ ltac:(congruence) Nm N2 (mkS (coef phi r0) (real (r_y r0)) (share f r0)) _ _); cbn [s_w]; [|lra].
        unfold samples. apply in_map_iff. eauto.
      - apply (pulled th th' (samples f (coef phi)) (real (r_y r0)) (coef phi r0) (share f r0' * share f r0' - share f r0 * share f r0) L); [nra|exact Nm|exact G]. }
    destruct Kd as (k & Bk & Ek). exists th, th', k. repeat (split; [assumption|]). now apply M.
  Qed.
End Raised.
