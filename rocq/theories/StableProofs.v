(* How fits react to changed values: proofs for C98. *)
From Coq Require Import ZArith String List Bool Lia Reals Lra Permutation.
From Verif Require Import Num Py Cal Fmt Model Base Fixed Naive Freq Aic Normalize Fit Interp Select Stats Outliers Pi Forecast.
From Verif Require Import NumProofs ListProofs StringProofs ModelProofs BaseProofs GuessProofs FixedProofs FitProofs SeasonProofs CacheProofs StatsProofs LsqProofs TotalProofs AicProofs UniqueProofs RepeatProofs.
From Verif Require ExistProofs ForecastProofs.
Import ListNotations.
Local Open Scope string_scope.
Local Open Scope list_scope.
Local Open Scope R_scope.

(* ---- specification ---- *)
(* the same samples with other values *)
Definition revalued (f f' : frame XR) : Prop :=
  has_w f = has_w f' /\ Forall2 (same_place (has_w f')) (usable_rows f) (usable_rows f').
(* the samples before and after *)
Definition both (f f' : frame XR) : list (row XR * row XR) := combine (usable_rows f) (usable_rows f').
(* sum of the squares of a change, weighted as in the fit *)
Definition size (f f' : frame XR) (g : row XR * row XR -> R) : R :=
  rsum (map (fun p => share f (fst p) * share f (fst p) * (g p * g p)) (both f f')).
(* changes of the values, of the fitted values and of the residuals *)
Definition value_change (p : row XR * row XR) : R := real (r_y (snd p)) - real (r_y (fst p)).
Definition fitted_change (phi : R -> Z -> list R) (th th' : list R) (p : row XR * row XR) : R := rdot th' (coef phi (fst p)) - rdot th (coef phi (fst p)).
Definition residual_change (phi : R -> Z -> list R) (th th' : list R) (p : row XR * row XR) : R := value_change p - fitted_change phi th th' p.

(* ---- the rows before and after ---- *)
Lemma both_fst {A B} (Q : A -> B -> Prop) l l' : Forall2 Q l l' -> map fst (combine l l') = l.
Proof. induction 1 as [|a b l l' _ _ IH]; [reflexivity|]. cbn. now rewrite IH. Qed.
Lemma both_snd {A B} (Q : A -> B -> Prop) l l' : Forall2 Q l l' -> map snd (combine l l') = l'.
Proof. induction 1 as [|a b l l' _ _ IH]; [reflexivity|]. cbn. now rewrite IH. Qed.
Lemma both_in {A B} (Q : A -> B -> Prop) l l' p : Forall2 Q l l' -> In p (combine l l') -> Q (fst p) (snd p).
Proof. induction 1 as [|a b l l' K _ IH]; [intros []|]. cbn. intros [<-|I]; [exact K|now apply IH]. Qed.
Lemma both_split {A} (g : A -> R) c (l : list A) p : In p l -> (forall q, In q l -> 0 <= g q) -> c <= g p -> c <= rsum (map g l).
Proof.
  induction l as [|a l IH]; [intros []|]. intros I P K. cbn [map rsum].
  assert (0 <= rsum (map g l)) by (apply rsum_nonneg; intros q J; apply in_map_iff in J as (z & <- & J); apply P; now right).
  pose proof (P a (or_introl eq_refl)). destruct I as [->|I]; [lra|]. assert (c <= rsum (map g l)) by (apply IH; auto; intros q J; apply P; now right). lra.
Qed.

Lemma cauchy {A} (g h : A -> R) l : rsum (map (fun p => g p * h p) l) <= sqrt (rsum (map (fun p => g p * g p) l)) * sqrt (rsum (map (fun p => h p * h p) l)).
Proof.
  assert (P : forall (k : A -> R) l0, 0 <= rsum (map (fun p => k p * k p) l0)).
  { intros k l0. apply rsum_nonneg. intros x I. apply in_map_iff in I as (q & <- & _). apply Rle_0_sqr. }
  induction l as [|q l IH]; cbn [map rsum]; [rewrite sqrt_0; lra|].
  set (X := rsum (map (fun p => g p * h p) l)) in *. pose proof (P g l) as PA. pose proof (P h l) as PB. set (A0 := rsum (map (fun p => g p * g p) l)) in *. set (B0 := rsum (map (fun p => h p * h p) l)) in *.
  pose proof (sqrt_pos A0) as Sa. pose proof (sqrt_pos B0) as Sb. pose proof (sqrt_sqrt A0 PA) as Qa. pose proof (sqrt_sqrt B0 PB) as Qb. set (a := sqrt A0) in *. set (b := sqrt B0) in *.
  rewrite <- sqrt_mult; [|pose proof (Rle_0_sqr (g q)); unfold Rsqr in *; lra|pose proof (Rle_0_sqr (h q)); unfold Rsqr in *; lra].
  apply Rle_trans with (g q * h q + a * b); [lra|]. destruct (Rle_dec 0 (g q * h q + a * b)) as [N|N].
  - rewrite <- (sqrt_square (g q * h q + a * b) N). apply sqrt_le_1_alt. rewrite <- Qa, <- Qb. pose proof (Rle_0_sqr (g q * b - h q * a)) as K. unfold Rsqr in K. lra.
  - pose proof (sqrt_pos ((g q * g q + A0) * (h q * h q + B0))). lra.
Qed.

Section Changed.
  Variables (f f' : frame XR) (phi : R -> Z -> list R) (th th' : list R).
  Hypotheses (Rv : revalued f f') (L : length th' = length th) (Nm : normal th (samples f (coef phi))) (Nm' : normal th' (samples f' (coef phi))).
  Lemma sum_before (g : row XR -> R) : rsum (map g (usable_rows f)) = rsum (map (fun p => g (fst p)) (both f f')).
  Proof. unfold both. now rewrite <- (both_fst _ _ _ (proj2 Rv)) at 1; rewrite map_map. Qed.
  Lemma sum_after (g : row XR -> R) : rsum (map g (usable_rows f')) = rsum (map (fun p => g (snd p)) (both f f')).
  Proof. unfold both. now rewrite <- (both_snd _ _ _ (proj2 Rv)) at 1; rewrite map_map. Qed.
  Lemma both_place p : In p (both f f') -> share f' (snd p) = share f (fst p) /\ coef phi (snd p) = coef phi (fst p).
  Proof.
    intros I. pose proof (both_in _ _ _ _ (proj2 Rv) I) as K. split.
    - symmetry. exact (share_same f f' _ _ (proj1 Rv) (proj2 Rv) K).
    - destruct K as (A & B & _). unfold coef, x_in. now rewrite A, B.
  Qed.
  (* the change of the residuals is orthogonal to every curve *)
  Lemma change_orthogonal de : length de = length th ->
    rsum (map (fun p => share f (fst p) * share f (fst p) * (residual_change phi th th' p * rdot de (coef phi (fst p)))) (both f f')) = 0.
  Proof.
    intros Ld. pose proof (Nm de Ld) as K. pose proof (Nm' de ltac:(congruence)) as K'.
    change (grad th de (samples f (coef phi)) = 0) in K. change (grad th' de (samples f' (coef phi)) = 0) in K'.
    rewrite grad_rows, sum_before in K. rewrite grad_rows, sum_after in K'.
    assert (E : forall l, (forall p, In p l -> In p (both f f')) ->
      rsum (map (fun p => share f (fst p) * share f (fst p) * (residual_change phi th th' p * rdot de (coef phi (fst p)))) l) =
      rsum (map (fun p => share f' (snd p) * share f' (snd p) * (err th' (mkS (coef phi (snd p)) (real (r_y (snd p))) (share f' (snd p))) * rdot de (coef phi (snd p)))) l) -
      rsum (map (fun p => share f (fst p) * share f (fst p) * (err th (mkS (coef phi (fst p)) (real (r_y (fst p))) (share f (fst p))) * rdot de (coef phi (fst p)))) l)).
    { induction l as [|p l IH]; intros Il; cbn [map rsum]; [ring|]. rewrite IH by (intros q J; apply Il; now right).
      destruct (both_place p (Il p (or_introl eq_refl))) as [A B]. rewrite A, B. unfold err, residual_change, value_change, fitted_change. cbn [s_y s_phi]. ring. }
    rewrite (E (both f f') (fun _ J => J)), K, K'. ring.
  Qed.
  Lemma fitted_mix p : fitted_change phi th th' p = rdot (mix 1 (-1) th' th) (coef phi (fst p)).
  Proof. unfold fitted_change. rewrite rdot_mix by exact L. ring. Qed.
  Lemma mix_len : length (mix 1 (-1) th' th) = length th.
  Proof. unfold mix. rewrite <- L. clear - L. revert th L. induction th' as [|a t IH]; intros [|b t'] L; try discriminate; cbn in *; [reflexivity|]. f_equal. apply IH. lia. Qed.
  Lemma cross_zero : rsum (map (fun p => share f (fst p) * share f (fst p) * (residual_change phi th th' p * fitted_change phi th th' p)) (both f f')) = 0.
  Proof. rewrite <- (change_orthogonal (mix 1 (-1) th' th) mix_len). apply ExistProofs.rsum_ext. intros p _. now rewrite fitted_mix. Qed.
  Lemma change_pythagoras : size f f' value_change = size f f' (fitted_change phi th th') + size f f' (residual_change phi th th').
  Proof.
    pose proof cross_zero as C. unfold size.
    assert (E : forall l, rsum (map (fun p => share f (fst p) * share f (fst p) * (value_change p * value_change p)) l) =
      rsum (map (fun p => share f (fst p) * share f (fst p) * (fitted_change phi th th' p * fitted_change phi th th' p)) l) +
      rsum (map (fun p => share f (fst p) * share f (fst p) * (residual_change phi th th' p * residual_change phi th th' p)) l) +
      2 * rsum (map (fun p => share f (fst p) * share f (fst p) * (residual_change phi th th' p * fitted_change phi th th' p)) l)).
    { induction l as [|p l IH]; cbn [map rsum]; [ring|]. rewrite IH. unfold residual_change. ring. }
    rewrite E, C. ring.
  Qed.
  Lemma size_nonneg g : 0 <= size f f' g.
  Proof.
    unfold size. apply rsum_nonneg. intros a I. apply in_map_iff in I as (p & <- & _).
    replace (share f (fst p) * share f (fst p) * (g p * g p)) with ((share f (fst p) * g p) * (share f (fst p) * g p)) by ring. apply Rle_0_sqr.
  Qed.
  Lemma size_at g p : In p (both f f') -> (share f (fst p) * g p) * (share f (fst p) * g p) <= size f f' g.
  Proof.
    intros I. unfold size. apply (both_split (fun p => share f (fst p) * share f (fst p) * (g p * g p)) _ _ p I); [|right; ring].
    intros q _. replace (share f (fst q) * share f (fst q) * (g q * g q)) with ((share f (fst q) * g q) * (share f (fst q) * g q)) by ring. apply Rle_0_sqr.
  Qed.
  Lemma loss_change : (sqrt (loss th' (samples f' (coef phi))) - sqrt (loss th (samples f (coef phi)))) ^ 2 <= size f f' (residual_change phi th th').
  Proof.
    set (g := fun p : row XR * row XR => share f (fst p) * (real (r_y (fst p)) - rdot th (coef phi (fst p)))).
    set (h := fun p : row XR * row XR => share f (fst p) * (real (r_y (snd p)) - rdot th' (coef phi (fst p)))).
    assert (Eg : loss th (samples f (coef phi)) = rsum (map (fun p => g p * g p) (both f f'))).
    { rewrite loss_rows, sum_before. apply ExistProofs.rsum_ext. intros p _. unfold g. ring. }
    assert (Eh : loss th' (samples f' (coef phi)) = rsum (map (fun p => h p * h p) (both f f'))).
    { rewrite loss_rows, sum_after. apply ExistProofs.rsum_ext. intros p I. destruct (both_place p I) as [-> ->]. unfold h. ring. }
    assert (Es : size f f' (residual_change phi th th') = rsum (map (fun p => g p * g p) (both f f')) + rsum (map (fun p => h p * h p) (both f f')) - 2 * rsum (map (fun p => g p * h p) (both f f'))).
    { unfold size. generalize (both f f'). induction l as [|p l IH]; cbn [map rsum]; [ring|]. rewrite IH. unfold residual_change, value_change, fitted_change, g, h. ring. }
    pose proof (cauchy g h (both f f')) as C. rewrite Eg, Eh, Es.
    assert (P : forall k : row XR * row XR -> R, 0 <= rsum (map (fun p => k p * k p) (both f f'))).
    { intros k. apply rsum_nonneg. intros x I. apply in_map_iff in I as (q & <- & _). apply Rle_0_sqr. }
    pose proof (sqrt_sqrt _ (P g)) as Qg. pose proof (sqrt_sqrt _ (P h)) as Qh. nra.
  Qed.
  (* one changed sample *)
  Lemma one_changed l1 p0 l2 : both f f' = l1 ++ p0 :: l2 -> (forall p, In p (l1 ++ l2) -> value_change p = 0) -> 0 < share f (fst p0) ->
    0 <= value_change p0 * fitted_change phi th th' p0 <= value_change p0 * value_change p0.
  Proof.
    intros Eb Z Sp. pose proof cross_zero as C. rewrite Eb, map_app in C. cbn [map] in C. rewrite rsum_app in C. cbn [rsum] in C.
    assert (G : forall l, (forall p, In p l -> value_change p = 0) ->
      rsum (map (fun p => share f (fst p) * share f (fst p) * (residual_change phi th th' p * fitted_change phi th th' p)) l) <= 0).
    { induction l as [|p l IH]; intros Zl; cbn [map rsum]; [lra|]. assert (rsum (map (fun p => share f (fst p) * share f (fst p) * (residual_change phi th th' p * fitted_change phi th th' p)) l) <= 0)
        by (apply IH; intros q J; apply Zl; now right).
      unfold residual_change at 1. rewrite (Zl p (or_introl eq_refl)).
      pose proof (Rle_0_sqr (share f (fst p) * fitted_change phi th th' p)) as Q. unfold Rsqr in Q. lra. }
    pose proof (G l1 (fun p J => Z p (in_or_app _ _ _ (or_introl J)))) as G1. pose proof (G l2 (fun p J => Z p (in_or_app _ _ _ (or_intror J)))) as G2.
    set (s := share f (fst p0)) in *. set (v := value_change p0) in *. set (e := fitted_change phi th th' p0) in *.
    assert (K : 0 <= s * s * ((v - e) * e)) by (change (residual_change phi th th' p0) with (v - e) in C; lra).
    assert (K' : 0 <= (v - e) * e).
    { apply (Rmult_le_reg_l (s * s)); [now apply Rmult_lt_0_compat|]. rewrite Rmult_0_r. exact K. }
    pose proof (Rle_0_sqr e) as Q1. pose proof (Rle_0_sqr (v - e)) as Q2. unfold Rsqr in *. split; nra.
  Qed.
End Changed.

Section Fits.
  Variables (m : fmodel XR) (phi : R -> Z -> list R) (f f' : frame XR) (E E' : env XR)
    (freq freq' : option string) (s s' : string) (a a' : option (frame XR)) (u u' : bool) (d d' : meta XR).
  Hypotheses (Rg : regression m phi) (Rv : revalued f f') (Hd : has_date f = true) (Hd' : has_date f' = true) (Fr : finite_rows f) (Fr' : finite_rows f')
    (Mn : minimizes E m f a) (Mn' : minimizes E' m f' a')
    (Ef : fit_model E m f freq s a u = Ok d) (Fd : md_fit d = true) (Ef' : fit_model E' m f' freq' s' a' u' = Ok d') (Fd' : md_fit d' = true).
  Theorem stable_fit : exists th th', md_params d = fins th /\ md_params d' = fins th' /\
    size f f' value_change = size f f' (fitted_change phi th th') + size f f' (residual_change phi th th') /\
    0 <= size f f' (fitted_change phi th th') <= size f f' value_change /\ 0 <= size f f' (residual_change phi th th') <= size f f' value_change /\
    forall p, In p (both f f') -> (share f (fst p) * fitted_change phi th th' p) ^ 2 <= size f f' value_change.
  Proof.
    destruct (regression_fit E m phi f _ _ _ _ _ Rg Hd Fr Mn Ef Fd) as (th & P & Lt & C & M & Nm).
    destruct (regression_fit E' m phi f' _ _ _ _ _ Rg Hd' Fr' Mn' Ef' Fd') as (th' & P' & Lt' & C' & M' & Nm').
    exists th, th'. split; [exact P|]. split; [exact P'|]. assert (L : length th' = length th) by congruence.
    pose proof (change_pythagoras f f' phi th th' Rv L Nm Nm') as Py. pose proof (size_nonneg f f' (fitted_change phi th th')) as S1. pose proof (size_nonneg f f' (residual_change phi th th')) as S2.
    split; [exact Py|]. split; [lra|]. split; [lra|]. intros p I. pose proof (size_at f f' (fitted_change phi th th') p I) as K. nra.
  Qed.
  (* the roots of the costs differ by no more than the values *)
  Theorem stable_cost : exists c c', md_cost d = Fin c /\ md_cost d' = Fin c' /\ 0 <= c /\ 0 <= c' /\ (sqrt (2 * c') - sqrt (2 * c)) ^ 2 <= size f f' value_change.
  Proof.
    destruct (regression_fit E m phi f _ _ _ _ _ Rg Hd Fr Mn Ef Fd) as (th & P & Lt & C & M & Nm).
    destruct (regression_fit E' m phi f' _ _ _ _ _ Rg Hd' Fr' Mn' Ef' Fd') as (th' & P' & Lt' & C' & M' & Nm').
    assert (L : length th' = length th) by congruence. eexists _, _. split; [exact C|]. split; [exact C'|].
    assert (Pl : forall t l, 0 <= loss t l).
    { intros t l. unfold loss. apply rsum_nonneg. intros x I. apply in_map_iff in I as (q & <- & _). apply Rle_0_sqr. }
    pose proof (Pl th (samples f (coef phi))). pose proof (Pl th' (samples f' (coef phi))). split; [lra|]. split; [lra|].
    replace (2 * (loss th (samples f (coef phi)) / 2)) with (loss th (samples f (coef phi))) by field. replace (2 * (loss th' (samples f' (coef phi)) / 2)) with (loss th' (samples f' (coef phi))) by field.
    pose proof (change_pythagoras f f' phi th th' Rv L Nm Nm') as Py. pose proof (size_nonneg f f' (fitted_change phi th th')) as S1.
    pose proof (loss_change f f' phi th th' Rv) as K. lra.
  Qed.
  Theorem one_value l1 p0 l2 : both f f' = l1 ++ p0 :: l2 -> (forall p, In p (l1 ++ l2) -> value_change p = 0) ->
    exists th th', md_params d = fins th /\ md_params d' = fins th' /\
      exists k, 0 <= k <= 1 /\ fitted_change phi th th' p0 = k * value_change p0.
  Proof.
    intros Eb Z. destruct (regression_fit E m phi f _ _ _ _ _ Rg Hd Fr Mn Ef Fd) as (th & P & Lt & C & M & Nm).
    destruct (regression_fit E' m phi f' _ _ _ _ _ Rg Hd' Fr' Mn' Ef' Fd') as (th' & P' & Lt' & C' & M' & Nm').
    exists th, th'. split; [exact P|]. split; [exact P'|]. assert (L : length th' = length th) by congruence.
    assert (I0 : In p0 (both f f')) by (rewrite Eb; apply in_or_app; right; now left).
    assert (Sp : 0 < share f (fst p0)).
    { apply (share_pos f (fst p0) Fr). rewrite <- (both_fst _ _ _ (proj2 Rv)). now apply in_map. }
    destruct (one_changed f f' phi th th' Rv L Nm Nm' l1 p0 l2 Eb Z Sp) as [K1 K2].
    destruct (Req_dec (value_change p0) 0) as [Z0|N0].
    - exists 0. split; [lra|]. pose proof (change_pythagoras f f' phi th th' Rv L Nm Nm') as Py.
      assert (size f f' value_change = 0) as S0.
      { unfold size. apply rsum_zero. intros x Ix. apply in_map_iff in Ix as (p & <- & Ip). assert (value_change p = 0) as ->; [|ring].
        rewrite Eb in Ip. apply in_app_or in Ip as [Ip|[<-|Ip]]; [apply Z, in_or_app; now left|exact Z0|apply Z, in_or_app; now right]. }
      pose proof (size_nonneg f f' (residual_change phi th th')) as S2. pose proof (size_at f f' (fitted_change phi th th') p0 I0) as K.
      assert (Q : share f (fst p0) * fitted_change phi th th' p0 = 0) by nra. apply Rmult_integral in Q as [Q|Q]; lra.
    - exists (fitted_change phi th th' p0 / value_change p0). split; [|field; exact N0].
      assert (V : 0 < value_change p0 * value_change p0) by (pose proof (Rsqr_pos_lt _ N0); unfold Rsqr in *; lra).
      assert (Q : fitted_change phi th th' p0 / value_change p0 = value_change p0 * fitted_change phi th th' p0 / (value_change p0 * value_change p0)) by (field; exact N0).
      rewrite Q. split.
      + unfold Rdiv. apply Rmult_le_pos; [exact K1|]. left. now apply Rinv_0_lt_compat.
      + apply (Rmult_le_reg_r (value_change p0 * value_change p0)); [exact V|]. unfold Rdiv. rewrite Rmult_assoc, Rinv_l; lra.
  Qed.
End Fits.
