(* Further samples on the fitted curve: proofs for C97. *)
From Coq Require Import ZArith String List Bool Lia Reals Lra Permutation.
From Verif Require Import Num Py Cal Fmt Model Base Fixed Naive Freq Aic Normalize Fit Interp Select Stats Outliers Pi Forecast.
From Verif Require Import NumProofs ListProofs StringProofs ModelProofs BaseProofs GuessProofs FixedProofs FitProofs SeasonProofs CacheProofs StatsProofs LsqProofs TotalProofs AicProofs UniqueProofs RepeatProofs.
From Verif Require ExistProofs TotalProofs4.
Import ListNotations.
Local Open Scope string_scope.
Local Open Scope list_scope.
Local Open Scope R_scope.

(* ---- specification ---- *)
(* [f'] has the samples of [f] and, at other positions, the samples [extra], in any order *)
Definition extended (f : frame XR) (extra : list (row XR)) (f' : frame XR) : Prop :=
  has_w f' = has_w f /\ Permutation (usable_rows f') (usable_rows f ++ extra) /\
  forall a b, In a (usable_rows f) -> In b extra -> r_x a <> r_x b.
(* the values of the samples are those of the curve with the parameters [th] *)
Definition on_curve (phi : R -> Z -> list R) (th : list R) (extra : list (row XR)) : Prop :=
  forall r, In r extra -> r_y r = Fin (rdot th (coef phi r)).

Lemma count_app (l k : list (row XR)) x : count_x (l ++ k) x = (count_x l x + count_x k x)%Z.
Proof. unfold count_x. rewrite filter_app, app_length. lia. Qed.
Lemma count_none (k : list (row XR)) x : (forall b, In b k -> x <> r_x b) -> count_x k x = 0%Z.
Proof.
  intros N. unfold count_x. assert (filter (fun r => Z.eqb (r_x r) x) k = []) as ->; [|reflexivity].
  induction k as [|b k IH]; [reflexivity|]. cbn [filter]. destruct (Z.eqb_spec (r_x b) x) as [E|_]; [exfalso; apply (N b); [now left|now symmetry]|].
  apply IH. intros c I. apply N. now right.
Qed.
Section Extended.
  Variables (f f' : frame XR) (extra : list (row XR)) (phi : R -> Z -> list R).
  Hypothesis Ex : extended f extra f'.
  Lemma share_extended r : In r (usable_rows f) -> share f' r = share f r.
  Proof.
    intros I. destruct Ex as (Hw & P & D). unfold share. rewrite Hw, (count_perm _ _ _ P), count_app, (count_none extra); [now rewrite Z.add_0_r|].
    intros b Ib. now apply D.
  Qed.
  (* sums over the samples, where the further ones contribute nothing *)
  Lemma sum_extended (g : row XR -> R) : (forall r, In r extra -> g r = 0) ->
    rsum (map (fun r => share f' r * share f' r * g r) (usable_rows f')) = rsum (map (fun r => share f r * share f r * g r) (usable_rows f)).
  Proof.
    intros Z. rewrite (rsum_perm _ _ (Permutation_map _ (proj1 (proj2 Ex)))), map_app, rsum_app.
    assert (rsum (map (fun r => share f' r * share f' r * g r) extra) = 0) as ->.
    { clear - Z. induction extra as [|r l IH]; [reflexivity|]. cbn [map rsum]. rewrite (Z r (or_introl eq_refl)), IH; [ring|]. intros q I. apply Z. now right. }
    rewrite Rplus_0_r. apply ExistProofs.rsum_ext. intros r I. now rewrite (share_extended r I).
  Qed.
  Lemma on_curve_err th r : on_curve phi th extra -> In r extra -> real (r_y r) - rdot th (coef phi r) = 0.
  Proof. intros O I. rewrite (O r I). cbn. ring. Qed.
  Lemma loss_extended th : on_curve phi th extra -> loss th (samples f' (coef phi)) = loss th (samples f (coef phi)).
  Proof. intros O. rewrite !loss_rows. apply sum_extended. intros r I. rewrite (on_curve_err th r O I). ring. Qed.
  Lemma normal_extended th : on_curve phi th extra -> normal th (samples f' (coef phi)) <-> normal th (samples f (coef phi)).
  Proof.
    intros O. assert (G : forall de, grad th de (samples f' (coef phi)) = grad th de (samples f (coef phi))).
    { intros de. rewrite !grad_rows. apply (sum_extended (fun r => err th (mkS (coef phi r) (real (r_y r)) 0) * rdot de (coef phi r))).
      intros r I. unfold err. cbn [s_y s_phi]. rewrite (on_curve_err th r O I). ring. }
    split; intros N de L; [rewrite <- (N de L); symmetry|rewrite <- (N de L)]; apply G.
  Qed.
  Lemma usable_left r : In r (usable_rows f) -> In r (usable_rows f').
  Proof. intros I. apply (Permutation_in _ (Permutation_sym (proj1 (proj2 Ex)))). apply in_app_iff. now left. Qed.
  Lemma determined_extended m : determined m phi f -> determined m phi f'.
  Proof. intros D de L V. apply D; [exact L|]. intros r I. apply V. now apply usable_left. Qed.
  Lemma finite_left : finite_rows f' -> finite_rows f.
  Proof.
    unfold finite_rows. rewrite !Forall_forall. intros F r I. destruct (F r (usable_left r I)) as [A B]. split; [exact A|]. intros Hw. apply B. now rewrite (proj1 Ex).
  Qed.
End Extended.

Section Fits.
  Variables (m : fmodel XR) (phi : R -> Z -> list R) (f f' : frame XR) (extra : list (row XR)) (E E' : env XR)
    (freq freq' : option string) (s s' : string) (a a' : option (frame XR)) (u u' : bool) (d d' : meta XR).
  Hypotheses (Rg : regression m phi) (Ex : extended f extra f') (Hd : has_date f = true) (Hd' : has_date f' = true) (Fr' : finite_rows f')
    (Mn : minimizes E m f a) (Mn' : minimizes E' m f' a')
    (Ef : fit_model E m f freq s a u = Ok d) (Fd : md_fit d = true) (Ef' : fit_model E' m f' freq' s' a' u' = Ok d') (Fd' : md_fit d' = true).
  (* further samples on the curve of the fit *)
  Theorem confirmed_fit th : md_params d = fins th -> on_curve phi th extra ->
    md_cost d' = md_cost d /\ (exists th', md_params d' = fins th' /\ forall r, In r (usable_rows f') -> rdot th' (coef phi r) = rdot th (coef phi r)) /\
    (determined m phi f' -> md_params d' = md_params d).
  Proof.
    intros P O. destruct (regression_fit E m phi f _ _ _ _ _ Rg Hd (finite_left f f' extra Ex Fr') Mn Ef Fd) as (th0 & P0 & L & C & M & Nm).
    rewrite P in P0. apply fins_inj in P0. subst th0.
    destruct (regression_fit E' m phi f' _ _ _ _ _ Rg Hd' Fr' Mn' Ef' Fd') as (th' & P' & L' & C' & M' & Nm').
    pose proof (proj2 (normal_extended f f' extra phi Ex th O) Nm) as N2.
    assert (V : forall r, In r (usable_rows f') -> rdot th' (coef phi r) = rdot th (coef phi r)).
    { intros r I. refine (normal_unique th th' _ ltac:(lia) N2 Nm' (mkS (coef phi r) (real (r_y r)) (share f' r)) _ _); cbn [s_w].
      - unfold samples. apply in_map_iff. eauto.
      - pose proof (share_pos f' r Fr' I). lra. }
    split; [|split; [eauto|]].
    - rewrite C, C', (loss_same th th'); [now rewrite (loss_extended f f' extra phi Ex th O)|]. intros q I. unfold samples in I. apply in_map_iff in I as (r & <- & I). now apply V.
    - intros Dt. rewrite P, P'. now rewrite (predictions_params m phi f' th th' L L' Dt V).
  Qed.
  (* samples on the curve of the fit taken away *)
  Theorem without_fitted th' : md_params d' = fins th' -> on_curve phi th' extra ->
    md_cost d = md_cost d' /\ (exists th, md_params d = fins th /\ forall r, In r (usable_rows f) -> rdot th (coef phi r) = rdot th' (coef phi r)) /\
    (determined m phi f -> md_params d = md_params d').
  Proof.
    intros P' O. pose proof (finite_left f f' extra Ex Fr') as Fr. destruct (regression_fit E m phi f _ _ _ _ _ Rg Hd Fr Mn Ef Fd) as (th & P & L & C & M & Nm).
    destruct (regression_fit E' m phi f' _ _ _ _ _ Rg Hd' Fr' Mn' Ef' Fd') as (th0 & P0 & L' & C' & M' & Nm').
    rewrite P' in P0. apply fins_inj in P0. subst th0.
    pose proof (proj1 (normal_extended f f' extra phi Ex th' O) Nm') as N2.
    assert (V : forall r, In r (usable_rows f) -> rdot th (coef phi r) = rdot th' (coef phi r)).
    { intros r I. refine (normal_unique th' th _ ltac:(lia) N2 Nm (mkS (coef phi r) (real (r_y r)) (share f r)) _ _); cbn [s_w].
      - unfold samples. apply in_map_iff. eauto.
      - pose proof (share_pos f r Fr I). lra. }
    split; [|split; [eauto|]].
    - rewrite C, C', (loss_same th' th); [now rewrite (loss_extended f f' extra phi Ex th' O)|]. intros q I. unfold samples in I. apply in_map_iff in I as (r & <- & I). now apply V.
    - intros Dt. rewrite P, P'. now rewrite (predictions_params m phi f th' th L' L Dt V).
  Qed.
End Fits.

(* ---- forecasts that come true ---- *)
(* the forecast [l] from date [st], at position [x0], has the values of the samples [extra] at their dates *)
Definition come_true (st x0 : Z) (l : list (Z * XR)) (extra : list (row XR)) : Prop :=
  forall r, In r extra -> In (r_date r, r_y r) l /\ r_x r = ((r_date r - st) / DAY + x0)%Z.
Lemma pairs_fst {A B} (l : list A) : forall l' : list B, length l = length l' -> map fst (combine l l') = l.
Proof. induction l as [|a l IH]; intros [|b l'] L; try discriminate; cbn in *; [reflexivity|]. rewrite IH; [reflexivity|lia]. Qed.
Lemma pairs_snd {A B} (l : list A) : forall l' : list B, length l = length l' -> map snd (combine l l') = l'.
Proof. induction l as [|a l IH]; intros [|b l'] L; try discriminate; cbn in *; [reflexivity|]. rewrite IH; [reflexivity|lia]. Qed.
Theorem forecast_on_curve m phi th st sp freq years x0 act l : regression m phi -> length th = fm_n m ->
  extrapolate_model m (Some (fins th)) (ODate st sp) freq years x0 act = Ok l ->
  forall t v, In (t, v) l -> v = Fin (rdot th (phi (IZR ((t - st) / DAY + x0)) t)).
Proof.
  intros Rg L K t v I. unfold extrapolate_model in K. cbn [s_x_extrapolate] in K. unfold s_x_dates in K.
  destruct (grid_freq st freq) as [fr|]; cbn [rbind] in K; [|discriminate]. destruct (forecast_end sp fr years) as [en|]; cbn [rbind] in K; [|discriminate].
  destruct (date_range st en fr) as [ds|]; cbn [rbind] in K; [|discriminate]. cbv zeta in K.
  assert (Sc : forall xs : list XR, apply_a_x_scaling xs (Some m) = xs) by (intros xs; unfold apply_a_x_scaling; cbn [model_requires_scaling]; now rewrite (rg_scale _ _ Rg)).
  rewrite Sc in K. set (xs := map (fun t0 => IZR ((t0 - st) / DAY + x0)) ds).
  assert (Ex : map (fun t0 => nofZ ((t0 - st) / DAY + x0)) ds = fins xs) by (unfold xs, fins; rewrite map_map; reflexivity).
  rewrite Ex in K. assert (Lx : length ds = length xs) by (unfold xs; now rewrite map_length).
  assert (E1 : map fst (combine ds (fins xs)) = ds) by (apply pairs_fst; unfold fins; now rewrite map_length).
  assert (E2 : map snd (combine ds (fins xs)) = fins xs) by (apply pairs_snd; unfold fins; now rewrite map_length).
  rewrite E1, E2 in K. assert (Ed : ds = [] \/ ds <> []) by (destruct ds; [now left|now right]). destruct Ed as [Ed|Ed].
  - destruct (rg_empty _ _ Rg) as (r & Rv & Re). rewrite Ed in Lx, K. destruct xs; [|discriminate]. cbn [fins map] in K. rewrite (Re act th L) in K. destruct r as [w|]; cbn [rbind] in K; [|discriminate].
    rewrite (Rv w eq_refl) in K. cbn in K. apply ok_inj in K. subst l. destruct I.
  - rewrite (rg_call _ _ Rg xs ds act th Lx Ed L) in K. cbn [rbind] in K.
    destruct (Nat.eqb _ _); [|discriminate]. apply ok_inj in K. subst l.
    assert (Ev : map (fun p => rdot th (phi (fst p) (snd p))) (combine xs ds) = map (fun t0 => rdot th (phi (IZR ((t0 - st) / DAY + x0)) t0)) ds).
    { unfold xs. clear. induction ds as [|b ds IH]; [reflexivity|]. cbn [map combine fst snd]. now rewrite IH. }
    rewrite Ev in I. clear - I. induction ds as [|a ds IH]; [destruct I|]. cbn in I. destruct I as [E|I]; [|now apply IH]. injection E as -> <-. reflexivity.
Qed.
Theorem come_true_on_curve m phi th st sp freq years x0 act l extra : regression m phi -> length th = fm_n m ->
  extrapolate_model m (Some (fins th)) (ODate st sp) freq years x0 act = Ok l -> come_true st x0 l extra -> on_curve phi th extra.
Proof.
  intros Rg L K C r I. destruct (C r I) as [Il Ex]. rewrite (forecast_on_curve m phi th st sp freq years x0 act l Rg L K _ _ Il). unfold coef, x_in. now rewrite Ex.
Qed.
(* the score of the fit with the confirming samples *)
Theorem confirmed_score m phi (f f' : frame XR) extra E E' freq freq' s s' a a' u u' (d d' : meta XR) th c :
  regression m phi -> extended f extra f' -> has_date f = true -> has_date f' = true -> finite_rows f' -> minimizes E m f a -> minimizes E' m f' a' ->
  fit_model E m f freq s a u = Ok d -> md_fit d = true -> fit_model E' m f' freq' s' a' u' = Ok d' -> md_fit d' = true ->
  md_params d = fins th -> on_curve phi th extra -> md_cost d = Fin c -> 0 < c ->
  md_aicc d = Fin (aicc c (INR (length (usable_rows f))) (INR (fm_n m))) /\
  md_aicc d' = Fin (aicc c (INR (length (usable_rows f) + length extra)) (INR (fm_n m))).
Proof.
  intros Rg Ex Hd Hd' Fr Mn Mn' Ef Fd Ef' Fd' P O C Cp.
  destruct (confirmed_fit m phi f f' extra E E' freq freq' s s' a a' u u' d d' Rg Ex Hd Hd' Fr Mn Mn' Ef Fd Ef' Fd' th P O) as (Ec & _ & _).
  destruct (fit_score _ _ _ _ _ _ _ _ Ef Fd) as [S1 L1]. destruct (fit_score _ _ _ _ _ _ _ _ Ef' Fd') as [S2 L2].
  rewrite Ec in S2. rewrite C in S1, S2. rewrite score_pos in S1 by (try lia; lra). rewrite score_pos in S2 by (try lia; lra).
  apply ok_inj in S1, S2. rewrite S1, S2, <- !INR_IZR_INZ. split; [reflexivity|].
  rewrite (Permutation_length (proj1 (proj2 Ex))), app_length. reflexivity.
Qed.
