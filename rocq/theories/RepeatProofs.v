(* Samples that are entered several times: proofs for C94. *)
From Coq Require Import ZArith String List Bool Lia Reals Lra Permutation.
From Verif Require Import Num Py Cal Fmt Model Base Fixed Naive Freq Aic Normalize Fit Interp Select Stats Outliers Pi Forecast.
From Verif Require Import NumProofs ListProofs StringProofs ModelProofs BaseProofs GuessProofs FixedProofs FitProofs SeasonProofs CacheProofs StatsProofs ForecastProofs ForecastProofs2 ExtendProofs MetaProofs LsqProofs TotalProofs AicProofs UniqueProofs.
From Verif Require ExistProofs FewerProofs TotalProofs4.
Import ListNotations.
Local Open Scope string_scope.
Local Open Scope list_scope.
Local Open Scope R_scope.

(* ---- specification ---- *)
(* the rows of [f'] that are fitted are those of [f], each of them [k] times, in any order *)
Definition times (k : nat) (f f' : frame XR) : Prop :=
  has_w f' = has_w f /\ Permutation (usable_rows f') (flat_map (fun r => repeat r k) (usable_rows f)).
(* the rows of [f] at position [x] that are fitted, and a sum over them in which a row counts with the
   square of its shared weight *)
Definition at_x (f : frame XR) (x : Z) : list (row XR) := filter (fun r => Z.eqb (r_x r) x) (usable_rows f).
Definition sum_at (f : frame XR) (x : Z) (h : row XR -> R) : R := rsum (map (fun r => share f r * share f r * h r) (at_x f x)).
(* [f'] has one row for every position of [f]: its value is the mean of the values of [f] there, and
   the square of its weight is the sum of the squares of the shared weights *)
Record averaged (f f' : frame XR) : Prop := {
  av_once : NoDup (map r_x (usable_rows f'));
  av_all : forall r, In r (usable_rows f) -> exists r', In r' (usable_rows f') /\ r_x r' = r_x r /\ r_date r' = r_date r;
  av_w : forall r', In r' (usable_rows f') -> share f' r' * share f' r' = sum_at f (r_x r') (fun _ => 1);
  av_y : forall r', In r' (usable_rows f') -> sum_at f (r_x r') (fun _ => 1) * real (r_y r') = sum_at f (r_x r') (fun r => real (r_y r)) }.
(* how much the values of [f] deviate from the values of [f'] at the same position *)
Definition spread (f f' : frame XR) : R :=
  rsum (map (fun r' => sum_at f (r_x r') (fun r => (real (r_y r) - real (r_y r')) * (real (r_y r) - real (r_y r')))) (usable_rows f')).

(* ---- solutions of the normal equations ---- *)
Definition grad (th de : list R) (l : list sample) : R := rsum (map (fun s => s_w s * s_w s * err th s * rdot de (s_phi s)) l).
Lemma grad_diff th th' de l : length th = length th' ->
  grad th' de l - grad th de l = - rsum (map (fun s => s_w s * s_w s * rdot (mix 1 (-1) th' th) (s_phi s) * rdot de (s_phi s)) l).
Proof.
  intros L. unfold grad. induction l as [|s l IH]; cbn [map rsum]; [ring|]. unfold err in *. rewrite rdot_mix by lia. lra.
Qed.
Lemma normal_unique th th' l : length th = length th' -> normal th l -> normal th' l ->
  forall s, In s l -> s_w s <> 0 -> rdot th' (s_phi s) = rdot th (s_phi s).
Proof.
  intros L Nm Nm' s I W. set (D := mix 1 (-1) th' th). assert (LD : length D = length th) by (unfold D; rewrite mix_length; lia).
  pose proof (grad_diff th th' D l L) as G. unfold grad in G. rewrite (Nm D LD), (Nm' D ltac:(lia)) in G. fold D in G.
  assert (Z : s_w s * s_w s * rdot D (s_phi s) * rdot D (s_phi s) = 0).
  { refine (rsum_nonneg_zero _ _ _ _ (proj2 (in_map_iff (fun s => s_w s * s_w s * rdot D (s_phi s) * rdot D (s_phi s)) _ _) (ex_intro _ s (conj eq_refl I)))).
    - intros a Ia. apply in_map_iff in Ia as (q & <- & _).
      replace (s_w q * s_w q * rdot D (s_phi q) * rdot D (s_phi q)) with ((s_w q * rdot D (s_phi q)) * (s_w q * rdot D (s_phi q))) by ring.
      apply Rle_0_sqr.
    - lra. }
  assert (K2 : s_w s * rdot D (s_phi s) = 0) by nra. apply Rmult_integral in K2 as [K2|K2]; [contradiction|].
  unfold D in K2. rewrite rdot_mix in K2 by lia. lra.
Qed.

(* ---- sums ---- *)
Lemma rsum_app a b : rsum (a ++ b) = rsum a + rsum b.
Proof. induction a as [|x a IH]; cbn; [ring|]. rewrite IH. ring. Qed.
Lemma rsum_perm a b : Permutation a b -> rsum a = rsum b.
Proof. induction 1; cbn; lra. Qed.
Lemma rsum_times {A} (h : A -> R) k l : rsum (map h (flat_map (fun a => repeat a k) l)) = INR k * rsum (map h l).
Proof.
  induction l as [|a l IH]; cbn [flat_map map rsum]; [ring|]. rewrite map_app, rsum_app, IH.
  assert (E : rsum (map h (repeat a k)) = INR k * h a); [|rewrite E; ring].
  clear. induction k as [|k IH]; [cbn; ring|]. cbn [repeat map rsum]. rewrite IH, S_INR. ring.
Qed.
Lemma count_times (l : list (row XR)) k x : count_x (flat_map (fun r => repeat r k) l) x = (Z.of_nat k * count_x l x)%Z.
Proof.
  unfold count_x. induction l as [|r l IH]; [cbn; lia|]. cbn [flat_map filter]. rewrite filter_app, app_length, Nat2Z.inj_add, IH.
  assert (E : length (filter (fun q => Z.eqb (r_x q) x) (repeat r k)) = if Z.eqb (r_x r) x then k else 0%nat).
  { clear. induction k as [|k IH]; cbn; [now destruct (Z.eqb _ _)|]. destruct (Z.eqb (r_x r) x); cbn; now rewrite IH. }
  rewrite E. destruct (Z.eqb (r_x r) x); cbn [length]; lia.
Qed.
Lemma count_perm (l l' : list (row XR)) x : Permutation l l' -> count_x l x = count_x l' x.
Proof. intros P. unfold count_x. now rewrite (Permutation_length (TotalProofs4.perm_filter _ _ _ P)). Qed.
Lemma rsum_one {A} (key : A -> Z) (l : list A) x v : NoDup (map key l) -> In x (map key l) -> rsum (map (fun a => if Z.eqb x (key a) then v else 0) l) = v.
Proof.
  induction l as [|a l IH]; cbn [map rsum]; intros ND I; [destruct I|]. inversion_clear ND as [|? ? Ni ND']. destruct (Z.eqb_spec x (key a)) as [->|Ne].
  - rewrite (rsum_zero (map _ l)); [ring|]. intros b Ib. apply in_map_iff in Ib as (q & <- & Iq). destruct (Z.eqb_spec (key a) (key q)) as [E|]; [|reflexivity].
    exfalso. apply Ni. rewrite E. now apply in_map.
  - destruct I as [E|I]; [congruence|]. rewrite IH by assumption. ring.
Qed.
Lemma rsum_groups {A B} (key : A -> Z) (key' : B -> Z) (h : A -> R) (l : list A) (l' : list B) : NoDup (map key' l') -> (forall a, In a l -> In (key a) (map key' l')) ->
  rsum (map h l) = rsum (map (fun b => rsum (map h (filter (fun a => Z.eqb (key a) (key' b)) l))) l').
Proof.
  intros ND. induction l as [|a l IH]; intros Al.
  - cbn. symmetry. apply rsum_zero. intros b Ib. apply in_map_iff in Ib as (q & <- & _). reflexivity.
  - cbn [map rsum]. rewrite IH by (intros q I; apply Al; now right). rewrite <- (rsum_one key' l' (key a) (h a) ND (Al a (or_introl eq_refl))) at 1.
    rewrite <- rsum_map_add. apply ExistProofs.rsum_ext. intros b _. cbn [filter]. destruct (Z.eqb (key a) (key' b)); cbn [map rsum]; ring.
Qed.

(* ---- every sample k times ---- *)
Section Times.
  Variables (k : nat) (f f' : frame XR) (phi : R -> Z -> list R).
  Hypotheses (Kp : (0 < k)%nat) (Tm : times k f f').
  Lemma times_in r : In r (usable_rows f') <-> In r (usable_rows f).
  Proof.
    destruct Tm as [_ P]. split; intros I.
    - apply (Permutation_in _ P) in I. apply in_flat_map in I as (q & Iq & Ir). now apply repeat_spec in Ir as ->.
    - apply (Permutation_in _ (Permutation_sym P)). apply in_flat_map. exists r. split; [exact I|]. destruct k; [lia|]. now left.
  Qed.
  Lemma times_share r : In r (usable_rows f) -> share f' r = share f r / INR k.
  Proof.
    intros I. destruct Tm as [Hw P]. unfold share. rewrite Hw, (count_perm _ _ _ P), count_times, mult_IZR, <- INR_IZR_INZ.
    pose proof (count_x_pos (usable_rows f) r I) as C. apply IZR_lt in C. assert (0 < INR k) by (apply lt_0_INR; lia). field. lra.
  Qed.
  Lemma times_sum (h : row XR -> R) :
    rsum (map (fun r => share f' r * share f' r * h r) (usable_rows f')) = rsum (map (fun r => share f r * share f r * h r) (usable_rows f)) / INR k.
  Proof.
    assert (0 < INR k) by (apply lt_0_INR; lia). rewrite (rsum_perm _ _ (Permutation_map _ (proj2 Tm))), rsum_times.
    rewrite (ExistProofs.rsum_ext _ _ (fun r => / (INR k * INR k) * (share f r * share f r * h r))).
    - rewrite rsum_map_scale. field. lra.
    - intros r I. rewrite (times_share r I). field. lra.
  Qed.
  Lemma times_finite : finite_rows f -> finite_rows f'.
  Proof.
    intros F. apply Forall_forall. intros r I. apply times_in in I. unfold finite_rows in F. rewrite Forall_forall in F. destruct (F r I) as [A B]. split; [exact A|]. now rewrite (proj1 Tm).
  Qed.
  Lemma grad_rows (g : frame XR) th de : grad th de (samples g (coef phi)) =
    rsum (map (fun r => share g r * share g r * (err th (mkS (coef phi r) (real (r_y r)) (share g r)) * rdot de (coef phi r))) (usable_rows g)).
  Proof. unfold grad, samples. rewrite map_map. apply ExistProofs.rsum_ext. intros r _. cbn [s_w s_phi]. ring. Qed.
  Lemma loss_rows (g : frame XR) th : loss th (samples g (coef phi)) =
    rsum (map (fun r => share g r * share g r * ((real (r_y r) - rdot th (coef phi r)) * (real (r_y r) - rdot th (coef phi r)))) (usable_rows g)).
  Proof. unfold loss, samples. rewrite map_map. apply ExistProofs.rsum_ext. intros r _. unfold err. cbn [s_w s_phi s_y]. ring. Qed.
  Lemma times_grad th de : grad th de (samples f' (coef phi)) = grad th de (samples f (coef phi)) / INR k.
  Proof. rewrite !grad_rows. apply (times_sum (fun r => (real (r_y r) - rdot th (coef phi r)) * rdot de (coef phi r))). Qed.
  Lemma times_loss th : loss th (samples f' (coef phi)) = loss th (samples f (coef phi)) / INR k.
  Proof. rewrite !loss_rows. apply times_sum. Qed.
End Times.

Lemma predictions_params m phi (f : frame XR) th th' : length th = fm_n m -> length th' = fm_n m -> determined m phi f ->
  (forall r, In r (usable_rows f) -> rdot th' (coef phi r) = rdot th (coef phi r)) -> th' = th.
Proof.
  intros L L' Dt V. apply mix_zero; [lia|]. rewrite L'. apply Dt; [rewrite mix_length; lia|]. intros r I. rewrite rdot_mix by lia. rewrite (V r I). ring.
Qed.
Lemma loss_same th th' (l : list sample) : (forall s, In s l -> rdot th' (s_phi s) = rdot th (s_phi s)) -> loss th' l = loss th l.
Proof. intros V. unfold loss. apply ExistProofs.rsum_ext. intros s I. unfold err. now rewrite (V s I). Qed.

Theorem times_fit m phi k f f' E E' freq freq' s s' a a' u u' d d' : regression m phi -> (0 < k)%nat -> times k f f' ->
  has_date f = true -> has_date f' = true -> finite_rows f -> minimizes E m f a -> minimizes E' m f' a' ->
  fit_model E m f freq s a u = Ok d -> md_fit d = true -> fit_model E' m f' freq' s' a' u' = Ok d' -> md_fit d' = true ->
  exists th th' c, md_params d = fins th /\ md_params d' = fins th' /\
    (forall r, In r (usable_rows f) -> rdot th' (coef phi r) = rdot th (coef phi r)) /\
    md_cost d = Fin c /\ md_cost d' = Fin (c / INR k) /\ (determined m phi f -> md_params d' = md_params d).
Proof.
  intros R Kp Tm Hd Hd' F M M' Ef Fd Ef' Fd'. pose proof (times_finite k f f' Kp Tm F) as F'.
  destruct (regression_fit E m phi f _ _ _ _ _ R Hd F M Ef Fd) as (th & P & L & C & _ & Nm).
  destruct (regression_fit E' m phi f' _ _ _ _ _ R Hd' F' M' Ef' Fd') as (th' & P' & L' & C' & _ & Nm').
  assert (Ik : 0 < INR k) by (apply lt_0_INR; lia).
  assert (N2 : normal th' (samples f (coef phi))).
  { intros de Ld. pose proof (Nm' de Ld) as K. fold (grad th' de (samples f' (coef phi))) in K. rewrite (times_grad k f f' phi Kp Tm) in K.
    fold (grad th' de (samples f (coef phi))). apply Rmult_integral in K as [K|K]; [exact K|]. pose proof (Rinv_0_lt_compat _ Ik). lra. }
  assert (V : forall r, In r (usable_rows f) -> rdot th' (coef phi r) = rdot th (coef phi r)).
  { intros r I. refine (normal_unique th th' _ ltac:(lia) Nm N2 (mkS (coef phi r) (real (r_y r)) (share f r)) _ _); cbn [s_w].
    - unfold samples. apply in_map_iff. eauto.
    - pose proof (share_pos f r F I). lra. }
  exists th, th', (loss th (samples f (coef phi)) / 2). do 3 (split; [assumption|]). split; [exact C|]. split.
  - rewrite C', (times_loss k f f' phi Kp Tm), (loss_same th th'); [f_equal; field; lra|]. intros q I. unfold samples in I. apply in_map_iff in I as (r & <- & I). now apply V.
  - intros Dt. rewrite P, P'. now rewrite (predictions_params m phi f th th' L L' Dt V).
Qed.

(* ---- samples at the same position ---- *)
Section Averaged.
  Variables (f f' : frame XR) (phi : R -> Z -> list R).
  Hypotheses (Av : averaged f f').
  Lemma averaged_coef r r' : In r (at_x f (r_x r')) -> In r' (usable_rows f') -> coef phi r = coef phi r'.
  Proof.
    intros I I'. apply filter_In in I as [I E]. apply Z.eqb_eq in E. destruct (av_all _ _ Av r I) as (q & Iq & Ex & Ed).
    assert (q = r'); [|subst q; unfold coef, x_in; now rewrite E, Ed].
    apply (FewerProofs.NoDup_map_inj r_x (usable_rows f')); [apply (av_once _ _ Av)|exact Iq|exact I'|congruence].
  Qed.
  Lemma averaged_sum (h : row XR -> R) : rsum (map (fun r => share f r * share f r * h r) (usable_rows f)) =
    rsum (map (fun r' => sum_at f (r_x r') h) (usable_rows f')).
  Proof.
    apply (rsum_groups r_x r_x); [apply (av_once _ _ Av)|]. intros r I. destruct (av_all _ _ Av r I) as (q & Iq & <- & _). now apply in_map.
  Qed.
  Lemma averaged_grad th de : grad th de (samples f' (coef phi)) = grad th de (samples f (coef phi)).
  Proof.
    rewrite !grad_rows. rewrite (averaged_sum (fun r => err th (mkS (coef phi r) (real (r_y r)) (share f r)) * rdot de (coef phi r))).
    apply ExistProofs.rsum_ext. intros r' I'. rewrite (av_w _ _ Av r' I'). unfold err. cbn [s_y s_phi].
    set (v := rdot th (coef phi r')). set (e := rdot de (coef phi r')).
    transitivity (sum_at f (r_x r') (fun r => real (r_y r)) * e - sum_at f (r_x r') (fun _ => 1) * v * e); [rewrite <- (av_y _ _ Av r' I'); ring|].
    unfold sum_at. rewrite (ExistProofs.rsum_ext _ (fun r => share f r * share f r * ((real (r_y r) - rdot th (coef phi r)) * rdot de (coef phi r)))
      (fun r => e * (share f r * share f r * real (r_y r)) + (- v * e) * (share f r * share f r * 1))).
    - rewrite rsum_map_add, !rsum_map_scale. ring.
    - intros r I. rewrite (averaged_coef r r' I I'). fold v e. ring.
  Qed.
  Lemma averaged_loss th : loss th (samples f (coef phi)) = loss th (samples f' (coef phi)) + spread f f'.
  Proof.
    rewrite !loss_rows. rewrite (averaged_sum (fun r => (real (r_y r) - rdot th (coef phi r)) * (real (r_y r) - rdot th (coef phi r)))).
    unfold spread. rewrite <- rsum_map_add. apply ExistProofs.rsum_ext. intros r' I'. rewrite (av_w _ _ Av r' I').
    set (v := rdot th (coef phi r')). set (y := real (r_y r')). pose proof (av_y _ _ Av r' I') as Y. fold y in Y. revert Y. unfold sum_at. intros Y.
    rewrite (ExistProofs.rsum_ext _ (fun r => share f r * share f r * ((real (r_y r) - rdot th (coef phi r)) * (real (r_y r) - rdot th (coef phi r))))
      (fun r => (share f r * share f r * ((real (r_y r) - y) * (real (r_y r) - y))) + (2 * (y - v) * (share f r * share f r * real (r_y r)) + ((v - y) * (v + y)) * (share f r * share f r * 1)))).
    - rewrite rsum_map_add, rsum_map_add, !rsum_map_scale, <- Y. ring.
    - intros r I. rewrite (averaged_coef r r' I I'). fold v. ring.
  Qed.
End Averaged.

Theorem averaged_fit m phi f f' E E' freq freq' s s' a a' u u' d d' : regression m phi -> averaged f f' ->
  has_date f = true -> has_date f' = true -> finite_rows f -> finite_rows f' -> minimizes E m f a -> minimizes E' m f' a' ->
  fit_model E m f freq s a u = Ok d -> md_fit d = true -> fit_model E' m f' freq' s' a' u' = Ok d' -> md_fit d' = true ->
  exists th th' c, md_params d = fins th /\ md_params d' = fins th' /\
    (forall r, In r (usable_rows f) -> rdot th' (coef phi r) = rdot th (coef phi r)) /\
    md_cost d' = Fin c /\ md_cost d = Fin (c + spread f f' / 2) /\ (determined m phi f -> md_params d' = md_params d).
Proof.
  intros R Av Hd Hd' F F' M M' Ef Fd Ef' Fd'.
  destruct (regression_fit E m phi f _ _ _ _ _ R Hd F M Ef Fd) as (th & P & L & C & _ & Nm).
  destruct (regression_fit E' m phi f' _ _ _ _ _ R Hd' F' M' Ef' Fd') as (th' & P' & L' & C' & _ & Nm').
  assert (N2 : normal th' (samples f (coef phi))).
  { intros de Ld. pose proof (Nm' de Ld) as K. fold (grad th' de (samples f' (coef phi))) in K. now rewrite (averaged_grad f f' phi Av) in K. }
  assert (V : forall r, In r (usable_rows f) -> rdot th' (coef phi r) = rdot th (coef phi r)).
  { intros r I. refine (normal_unique th th' _ ltac:(lia) Nm N2 (mkS (coef phi r) (real (r_y r)) (share f r)) _ _); cbn [s_w].
    - unfold samples. apply in_map_iff. eauto.
    - pose proof (share_pos f r F I). lra. }
  exists th, th', (loss th' (samples f' (coef phi)) / 2). do 3 (split; [assumption|]). split; [exact C'|]. split.
  - rewrite C, <- (loss_same th th'), (averaged_loss f f' phi Av); [f_equal; field|]. intros q I. unfold samples in I. apply in_map_iff in I as (r & <- & I). now apply V.
  - intros Dt. rewrite P, P'. now rewrite (predictions_params m phi f th th' L L' Dt V).
Qed.

(* samples without weights: the mean, with one over the root of their number as its weight *)
Record means (f f' : frame XR) : Prop := {
  mn_plain : has_w f = false;
  mn_weights : has_w f' = true;
  mn_once : NoDup (map r_x (usable_rows f'));
  mn_all : forall r, In r (usable_rows f) -> exists r', In r' (usable_rows f') /\ r_x r' = r_x r /\ r_date r' = r_date r;
  mn_row : forall r', In r' (usable_rows f') -> at_x f (r_x r') <> [] /\
    r_y r' = Fin (rsum (map (fun r => real (r_y r)) (at_x f (r_x r'))) / INR (length (at_x f (r_x r')))) /\
    r_w r' = Fin (1 / sqrt (INR (length (at_x f (r_x r'))))) }.
Lemma count_once (l : list (row XR)) r : NoDup (map r_x l) -> In r l -> count_x l (r_x r) = 1%Z.
Proof.
  unfold count_x. induction l as [|q l IH]; cbn [map]; intros ND I; [destruct I|]. inversion_clear ND as [|? ? Ni ND']. cbn [filter]. destruct I as [->|I].
  - rewrite Z.eqb_refl. cbn [length]. replace (filter (fun q => Z.eqb (r_x q) (r_x r)) l) with (@nil (row XR)); [reflexivity|].
    symmetry. clear - Ni. induction l as [|q l IH]; [reflexivity|]. cbn in *. destruct (Z.eqb_spec (r_x q) (r_x r)) as [E|]; [exfalso; apply Ni; now left|apply IH; tauto].
  - destruct (Z.eqb_spec (r_x q) (r_x r)) as [E|]; [exfalso; apply Ni; rewrite E; now apply in_map|]. now apply IH.
Qed.
Lemma means_averaged f f' : means f f' -> averaged f f'.
Proof.
  intros M. assert (Sh : forall r, In r (usable_rows f') -> share f' r = real (r_w r)).
  { intros r I. unfold share. rewrite (mn_weights _ _ M), (count_once _ _ (mn_once _ _ M) I). field. }
  assert (Sf : forall x r, In r (at_x f x) -> share f r = 1 / INR (length (at_x f x))).
  { intros x r I. apply filter_In in I as [_ E]. apply Z.eqb_eq in E. unfold share. rewrite (mn_plain _ _ M), E. unfold count_x. fold (at_x f x). now rewrite <- INR_IZR_INZ. }
  assert (S : forall x h, at_x f x <> [] -> sum_at f x h = rsum (map h (at_x f x)) / (INR (length (at_x f x)) * INR (length (at_x f x)))).
  { intros x h Ne. assert (0 < INR (length (at_x f x))) by (apply lt_0_INR; destruct (at_x f x); [congruence|cbn; lia]). unfold sum_at.
    rewrite (ExistProofs.rsum_ext _ _ (fun r => / (INR (length (at_x f x)) * INR (length (at_x f x))) * h r)); [rewrite rsum_map_scale; field; lra|].
    intros r I. rewrite (Sf x r I). field. lra. }
  constructor; [apply (mn_once _ _ M)|apply (mn_all _ _ M)| |].
  - intros r' I'. destruct (mn_row _ _ M r' I') as (Ne & _ & Ew). rewrite (Sh r' I'), (S _ _ Ne), Ew, rsum_map_const. cbn [real].
    set (n := length (at_x f (r_x r'))) in *. assert (0 < INR n) by (apply lt_0_INR; unfold n; destruct (at_x f (r_x r')); [congruence|cbn; lia]).
    pose proof (sqrt_lt_R0 _ H). transitivity (/ (sqrt (INR n) * sqrt (INR n))); [field; lra|]. rewrite sqrt_sqrt by lra. field. lra.
  - intros r' I'. destruct (mn_row _ _ M r' I') as (Ne & Ey & _). rewrite !(S _ _ Ne), Ey, rsum_map_const. cbn [real].
    assert (0 < INR (length (at_x f (r_x r')))) by (apply lt_0_INR; destruct (at_x f (r_x r')); [congruence|cbn; lia]). field. lra.
Qed.
Lemma means_finite f f' : means f f' -> finite_rows f'.
Proof. intros M. apply Forall_forall. intros r I. destruct (mn_row _ _ M r I) as (_ & Ey & Ew). rewrite Ey, Ew. now split. Qed.
