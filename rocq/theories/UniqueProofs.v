(* Least-squares fits are unique and depend linearly on the data (C72). *)
From Coq Require Import ZArith String List Bool Lia Reals Lra Sorted Permutation QArith_base.
From Verif Require Import Num Py Cal Fmt Model Base Fixed Naive Freq Aic Normalize Fit Interp Select Stats Outliers Pi Forecast.
From Verif Require Import NumProofs ListProofs StringProofs ModelProofs BaseProofs GuessProofs FixedProofs FitProofs SeasonProofs CacheProofs StatsProofs ForecastProofs ForecastProofs2 ExtendProofs MetaProofs LsqProofs TotalProofs AicProofs.
Import ListNotations.
Local Open Scope string_scope.
Local Open Scope list_scope.
Local Open Scope R_scope.

(* ---- specification ---- *)
(* two cache functions with the same result on every sample *)
Definition same_mask (f g : cachefun XR) : Prop := forall x ds, length ds = length x -> ds <> [] -> f x (Some ds) = g x (Some ds).
(* [cached m Rd]: [m] reads no more of the cache than the entries [Rd], and what it puts there itself
   under their names is what it expects *)
Definition cached (m : fmodel XR) (Rd : list (string * cachefun XR)) : Prop :=
  (forall x ds, length ds = length x -> ds <> [] -> transparent x (Some ds) m Rd) /\
  (forall k f, In (k, f) Rd -> dict_get dict_f_cache k = Some f \/
     (dict_get (dict_f_cache (T := XR)) k = None /\ forall g, In (k, g) (fm_dcache m) -> same_mask f g)).
(* [regression m phi]: the prediction of [m] at position x and date t is the combination of its
   parameters with the coefficients [phi x t], and no parameter is bounded. *)
Record regression (m : fmodel XR) (phi : R -> Z -> list R) : Prop := {
  rg_hardy : hardy true m;
  rg_cached : exists Rd, cached m Rd;
  rg_free : unbounded m;
  rg_scale : requires_scaling (fm_name m) = false;
  rg_len : forall x t, length (phi x t) = fm_n m;
  rg_call : forall xs ds act th, length ds = length xs -> ds <> [] -> length th = fm_n m ->
    call m (fins xs) (Some ds) (Some (fins th)) false (mkKw act []) =
    Ok (Ar (fins (map (fun p => rdot th (phi (fst p) (snd p))) (combine xs ds))));
  (* without samples, the outcome is the same for all parameters *)
  rg_empty : exists r, (forall v, r = Ok v -> v = Ar []) /\ forall act th, length th = fm_n m ->
    call m [] (Some []) (Some (fins th)) false (mkKw act []) = r }.
(* two models whose entries in the cache do not disturb each other *)
Definition apart (m1 m2 : fmodel XR) : Prop := exists R1 R2, cached m1 R1 /\ cached m2 R2 /\
  (forall k f g, In (k, f) R1 -> In (k, g) (fm_dcache m2) -> same_mask f g) /\
  (forall k f g, In (k, f) R2 -> In (k, g) (fm_dcache m1) -> same_mask f g).
Definition coef (phi : R -> Z -> list R) (r : row XR) : list R := phi (x_in r) (r_date r).
(* c1 times one list plus c2 times another *)
Definition mix (c1 c2 : R) (a b : list R) : list R := map2 (fun u v => c1 * u + c2 * v) a b.
(* the samples determine the parameters: no other combination vanishes on all of them *)
Definition determined (m : fmodel XR) (phi : R -> Z -> list R) (f : frame XR) : Prop := forall de, length de = fm_n m ->
  (forall r, In r (usable_rows f) -> rdot de (coef phi r) = 0) -> de = repeat 0 (fm_n m).
(* [f] has the samples of [f1] and [f2], which lie at the same positions, dates and weights, with c1
   times the values of [f1] plus c2 times those of [f2] *)
Definition same_place (hw : bool) (r1 r2 : row XR) : Prop :=
  r_date r1 = r_date r2 /\ r_x r1 = r_x r2 /\ (hw = true -> r_w r1 = r_w r2).
Definition mixture (c1 c2 : R) (f1 f2 f : frame XR) : Prop :=
  has_date f1 = true /\ has_date f2 = true /\ has_date f = true /\ has_w f1 = has_w f /\ has_w f2 = has_w f /\
  Forall2 (same_place (has_w f)) (usable_rows f1) (usable_rows f2) /\
  Forall2 (same_place (has_w f)) (usable_rows f1) (usable_rows f) /\
  map (fun r => real (r_y r)) (usable_rows f) =
    mix c1 c2 (map (fun r => real (r_y r)) (usable_rows f1)) (map (fun r => real (r_y r)) (usable_rows f2)).

(* ---- real vectors ---- *)
Lemma mix_length c1 c2 a b : length a = length b -> length (mix c1 c2 a b) = length a.
Proof. intros L. unfold mix. rewrite map2_length; [reflexivity|exact L]. Qed.
Lemma rdot_mix c1 c2 : forall a b c, length a = length b -> rdot (mix c1 c2 a b) c = c1 * rdot a c + c2 * rdot b c.
Proof.
  unfold rdot, mix, map2. induction a as [|x a IH]; intros [|y b] c L; try discriminate; cbn; [ring|].
  destruct c as [|z c]; cbn; [ring|]. rewrite IH by (cbn in L; lia). ring.
Qed.
Lemma mix_zero : forall a b, length a = length b -> mix 1 (-1) a b = repeat 0 (length a) -> a = b.
Proof.
  unfold mix, map2. induction a as [|x a IH]; intros [|y b] L Z; try discriminate; [reflexivity|]. cbn in *. injection Z as Z1 Z2.
  f_equal; [lra|]. apply IH; [lia|exact Z2].
Qed.
Definition normal (th : list R) (l : list sample) : Prop :=
  forall de, length de = length th -> rsum (map (fun s => s_w s * s_w s * err th s * rdot de (s_phi s)) l) = 0.
(* samples with mixed values *)
Inductive mixed (c1 c2 : R) : list sample -> list sample -> list sample -> Prop :=
| mixed_nil : mixed c1 c2 [] [] []
| mixed_cons phi w y1 y2 l1 l2 l : mixed c1 c2 l1 l2 l ->
    mixed c1 c2 (mkS phi y1 w :: l1) (mkS phi y2 w :: l2) (mkS phi (c1 * y1 + c2 * y2) w :: l).
Lemma mixed_gradient c1 c2 th th1 th2 de l1 l2 l : mixed c1 c2 l1 l2 l -> length th1 = length th -> length th2 = length th ->
  let D := mix 1 (-1) (mix c1 c2 th1 th2) th in
  rsum (map (fun s => s_w s * s_w s * rdot D (s_phi s) * rdot de (s_phi s)) l) =
    rsum (map (fun s => s_w s * s_w s * err th s * rdot de (s_phi s)) l)
    - c1 * rsum (map (fun s => s_w s * s_w s * err th1 s * rdot de (s_phi s)) l1)
    - c2 * rsum (map (fun s => s_w s * s_w s * err th2 s * rdot de (s_phi s)) l2).
Proof.
  intros M L1 L2 D. induction M as [|phi w y1 y2 l1 l2 l M IH]; cbn [map rsum]; [ring|]. rewrite IH. unfold err. cbn [s_w s_y s_phi].
  assert (K : rdot D phi = c1 * rdot th1 phi + c2 * rdot th2 phi - rdot th phi).
  { unfold D. rewrite rdot_mix by (rewrite mix_length; lia). rewrite rdot_mix by lia. ring. }
  rewrite K. ring.
Qed.
Theorem mixed_solution c1 c2 th th1 th2 l1 l2 l : mixed c1 c2 l1 l2 l -> length th1 = length th -> length th2 = length th ->
  normal th l -> normal th1 l1 -> normal th2 l2 ->
  forall s, In s l -> s_w s <> 0 -> rdot th (s_phi s) = c1 * rdot th1 (s_phi s) + c2 * rdot th2 (s_phi s).
Proof.
  intros M L1 L2 N N1 N2 s I W. set (D := mix 1 (-1) (mix c1 c2 th1 th2) th).
  assert (Lm : length (mix c1 c2 th1 th2) = length th) by (rewrite mix_length; lia).
  assert (LD : length D = length th) by (unfold D; rewrite mix_length; lia).
  pose proof (mixed_gradient c1 c2 th th1 th2 D _ _ _ M L1 L2) as G. cbv zeta in G. fold D in G.
  rewrite (N D LD), (N1 D ltac:(lia)), (N2 D ltac:(lia)) in G.
  assert (Z : s_w s * s_w s * rdot D (s_phi s) * rdot D (s_phi s) = 0).
  { refine (rsum_nonneg_zero _ _ _ _ (proj2 (in_map_iff (fun s => s_w s * s_w s * rdot D (s_phi s) * rdot D (s_phi s)) _ _) (ex_intro _ s (conj eq_refl I)))).
    - intros a Ia. apply in_map_iff in Ia as (q & <- & _).
      replace (s_w q * s_w q * rdot D (s_phi q) * rdot D (s_phi q)) with ((s_w q * rdot D (s_phi q)) * (s_w q * rdot D (s_phi q))) by ring.
      apply Rle_0_sqr.
    - rewrite G. ring. }
  assert (K : (s_w s * rdot D (s_phi s)) * (s_w s * rdot D (s_phi s)) = 0) by (rewrite <- Z; ring).
  assert (K2 : s_w s * rdot D (s_phi s) = 0) by nra. apply Rmult_integral in K2 as [K2|K2]; [contradiction|].
  unfold D in K2. rewrite rdot_mix in K2 by lia. rewrite rdot_mix in K2 by lia. lra.
Qed.

(* ---- tables ---- *)
Lemma fit_score E m (f : frame XR) freq src act uc d : fit_model E m f freq src act uc = Ok d -> md_fit d = true ->
  get_aic_c (md_cost d) (Z.of_nat (length (usable_rows f))) (Z.of_nat (fm_n m)) = Ok (md_aicc d) /\ (fm_n m + 2 <= length (usable_rows f))%nat.
Proof.
  intros Ef Fd. destruct (fit_status_cases zero_lt_XR _ _ _ _ _ _ _ _ _ Ef) as (_ & St & Iv & Ff & _).
  pose proof (proj2 Ff Fd) as S'. rewrite S' in St, Iv.
  assert (Hl : (fm_n m + 2 <= length (usable_rows f))%nat).
  { destruct (Nat.lt_ge_cases (length (usable_rows f)) (fm_n m + 2)) as [C|C]; [|exact C]. apply St in C. discriminate. }
  split; [|exact Hl].
  assert (Hv : validate_input m (xs_of m f) (ys_of f) (dates_of f) = Ok true).
  { destruct (validate_input m (xs_of m f) (ys_of f) (dates_of f)) as [[|]|e] eqn:Ev; [reflexivity| |].
    - assert (C : "FIT" = "INPUT_ERR") by (apply Iv; auto). discriminate.
    - unfold fit_model in Ef. rewrite (fit_validation_error zero_lt_XR _ _ _ _ _ _ _ _ _ Hl Ev) in Ef. discriminate. }
  destruct (fit_valid zero_lt_XR _ _ _ _ _ _ _ _ _ Hl Hv Ef) as (ms & _ & _ & Sc & _). exact Sc.
Qed.
Lemma regression_linear m phi f act : regression m phi -> has_date f = true -> usable_rows f <> [] -> linear_in m f act (samples f (coef phi)).
Proof.
  intros R Hd Ne th L. rewrite (xs_unscaled m f (rg_scale _ _ R)). unfold dates_of. rewrite Hd.
  assert (Nd : map r_date (usable_rows f) <> []) by (destruct (usable_rows f); [congruence|discriminate]).
  rewrite (rg_call _ _ R) by (rewrite ?map_length; auto). clear Ne Nd. do 3 f_equal. unfold samples. rewrite map_map. unfold coef, x_in.
  induction (usable_rows f) as [|r l IH]; [reflexivity|]. cbn [map combine fst snd s_phi]. now rewrite IH.
Qed.
Lemma cached_neutral m Rd x ds c act p mode : hardy true m -> cached m Rd -> length ds = length x -> ds <> [] -> init_cache m x (Some ds) = Ok c ->
  fm_f m x (Some ds) p mode (mkKw act c) = fm_f m x (Some ds) p mode (mkKw act []).
Proof.
  intros Hm [Tr Ow] L Ne Ec. apply (Tr x ds L Ne). intros k f v I Hv.
  destruct (init_cache_sound _ _ _ _ Ec k v Hv) as (g & [P|[_ P]] & Eg).
  - destruct (Ow k f I) as [G|[_ G]]; [destruct (hd_dcache _ _ Hm k g P) as [G' _]; congruence|]. now rewrite (G g P x ds L Ne).
  - destruct (Ow k f I) as [G|[G _]]; congruence.
Qed.
Lemma regression_neutral m phi f act : regression m phi -> has_date f = true -> usable_rows f <> [] -> cache_neutral m f act.
Proof.
  intros R Hd Ne c p Ec. unfold call, dates_of in *. rewrite Hd in *. destruct (rg_cached _ _ R) as (Rd & Cd).
  apply (cached_neutral m Rd); [apply (rg_hardy _ _ R)|exact Cd|unfold xs_of; now rewrite !map_length| |exact Ec].
  destruct (usable_rows f); [congruence|discriminate].
Qed.
Theorem regression_fit E m phi f freq src act uc d : regression m phi -> has_date f = true -> finite_rows f -> minimizes E m f act ->
  fit_model E m f freq src act uc = Ok d -> md_fit d = true ->
  exists th, md_params d = fins th /\ length th = fm_n m /\ md_cost d = Fin (loss th (samples f (coef phi)) / 2) /\
    (forall th', length th' = fm_n m -> loss th (samples f (coef phi)) <= loss th' (samples f (coef phi))) /\ normal th (samples f (coef phi)).
Proof.
  intros R Hd Fr Mn Ef Fd. destruct (fit_score _ _ _ _ _ _ _ _ Ef Fd) as [_ Ll].
  assert (Ne : usable_rows f <> []) by (destruct (usable_rows f); [cbn in Ll; lia|discriminate]).
  destruct (normal_equations E m f freq src act uc d _ Mn (hd_n _ _ (rg_hardy _ _ R)) (rg_free _ _ R) (rows_fitted f (coef phi) Fr)
              (regression_linear m phi f act R Hd Ne) (fun _ => regression_neutral m phi f act R Hd Ne) Ef Fd) as (th & Ep & Lt & Ec & M & G).
  exists th. do 4 (split; [assumption|]). intros de Ld. apply G. lia.
Qed.
Lemma count_same hw (l1 l2 : list (row XR)) x : Forall2 (same_place hw) l1 l2 -> count_x l1 x = count_x l2 x.
Proof.
  intros F. unfold count_x. f_equal. induction F as [|r1 r2 l1 l2 (_ & X & _) F IH]; [reflexivity|]. cbn [filter]. rewrite X.
  destruct (Z.eqb (r_x r2) x); cbn; congruence.
Qed.
Lemma share_same f1 f2 r1 r2 : has_w f1 = has_w f2 -> Forall2 (same_place (has_w f2)) (usable_rows f1) (usable_rows f2) ->
  same_place (has_w f2) r1 r2 -> share f1 r1 = share f2 r2.
Proof.
  intros Hw F (_ & X & W). unfold share. rewrite (count_same _ _ _ _ F), X, Hw. destruct (has_w f2); [|reflexivity]. now rewrite W.
Qed.
Lemma same_place_sym hw a b : same_place hw a b -> same_place hw b a.
Proof. intros (A & B & C). repeat split; auto. intros K. symmetry. auto. Qed.
Lemma same_places_trans hw a b c : same_place hw a b -> same_place hw a c -> same_place hw b c.
Proof. intros (A & B & C) (D & E & F). repeat split; [congruence|congruence|]. intros K. rewrite <- C, <- F; auto. Qed.
Lemma mixture_samples c1 c2 f1 f2 f phi : mixture c1 c2 f1 f2 f ->
  mixed c1 c2 (samples f1 (coef phi)) (samples f2 (coef phi)) (samples f (coef phi)).
Proof.
  intros (_ & _ & _ & W1 & W2 & F12 & F1 & Y). unfold samples.
  assert (S1 : forall r1 r, same_place (has_w f) r1 r -> share f1 r1 = share f r) by (intros; now apply share_same).
  assert (F2 : Forall2 (same_place (has_w f)) (usable_rows f2) (usable_rows f)).
  { clear - F12 F1. revert F1. generalize (usable_rows f). induction F12 as [|a b l1 l2 S F IH]; intros l F1; inversion F1; subst; constructor; eauto using same_places_trans. }
  assert (S2 : forall r2 r, same_place (has_w f) r2 r -> share f2 r2 = share f r) by (intros; now apply share_same).
  clear F2. revert S1 S2. generalize (share f1) (share f2) (share f). intros h1 h2 h S1 S2. clear W1 W2. revert F1 Y. generalize (usable_rows f).
  induction F12 as [|a b l1 l2 S F IH]; intros l F1 Y; inversion F1; subst; cbn [map] in *; [constructor|].
  unfold mix, map2 in Y. cbn [map combine fst snd] in Y. injection Y as Y1 Y2. rewrite Y1.
  assert (Ea : coef phi a = coef phi y) by (destruct H1 as (A & B & _); unfold coef, x_in; now rewrite A, B).
  assert (Eb : coef phi b = coef phi y) by (destruct (same_places_trans _ _ _ _ S H1) as (A & B & _); unfold coef, x_in; now rewrite A, B).
  rewrite Ea, Eb, (S1 _ _ H1), (S2 _ _ (same_places_trans _ _ _ _ S H1)). constructor. apply IH; [assumption|]. exact Y2.
Qed.
(* superposition *)
Theorem superposition m phi c1 c2 f1 f2 f E1 E2 E freq1 freq2 freq s1 s2 s a1 a2 a u1 u2 u d1 d2 d : regression m phi ->
  mixture c1 c2 f1 f2 f -> finite_rows f1 -> finite_rows f2 -> finite_rows f ->
  minimizes E1 m f1 a1 -> minimizes E2 m f2 a2 -> minimizes E m f a ->
  fit_model E1 m f1 freq1 s1 a1 u1 = Ok d1 -> md_fit d1 = true ->
  fit_model E2 m f2 freq2 s2 a2 u2 = Ok d2 -> md_fit d2 = true ->
  fit_model E m f freq s a u = Ok d -> md_fit d = true ->
  exists th1 th2 th, md_params d1 = fins th1 /\ md_params d2 = fins th2 /\ md_params d = fins th /\
    length th1 = fm_n m /\ length th2 = fm_n m /\ length th = fm_n m /\
    (forall r, In r (usable_rows f) -> rdot th (coef phi r) = c1 * rdot th1 (coef phi r) + c2 * rdot th2 (coef phi r)) /\
    (determined m phi f -> th = mix c1 c2 th1 th2).
Proof.
  intros R Mx F1 F2 F M1 M2 M Ef1 Fd1 Ef2 Fd2 Ef Fd. pose proof Mx as (H1 & H2 & H0 & _).
  destruct (regression_fit E1 m phi f1 _ _ _ _ _ R H1 F1 M1 Ef1 Fd1) as (th1 & P1 & L1 & _ & _ & N1).
  destruct (regression_fit E2 m phi f2 _ _ _ _ _ R H2 F2 M2 Ef2 Fd2) as (th2 & P2 & L2 & _ & _ & N2).
  destruct (regression_fit E m phi f _ _ _ _ _ R H0 F M Ef Fd) as (th & P & L & _ & _ & N).
  exists th1, th2, th. do 6 (split; [assumption|]).
  assert (V : forall r, In r (usable_rows f) -> rdot th (coef phi r) = c1 * rdot th1 (coef phi r) + c2 * rdot th2 (coef phi r)).
  { intros r I. refine (mixed_solution c1 c2 th th1 th2 _ _ _ (mixture_samples c1 c2 f1 f2 f phi Mx) ltac:(lia) ltac:(lia) N N1 N2
      (mkS (coef phi r) (real (r_y r)) (share f r)) _ _).
    - unfold samples. apply in_map_iff. eauto.
    - cbn. pose proof (share_pos f r F I). lra. }
  split; [exact V|]. intros Dt. apply mix_zero; [rewrite mix_length; lia|]. rewrite L. apply Dt.
  - rewrite mix_length by (rewrite mix_length; lia). exact L.
  - intros r I. rewrite rdot_mix by (rewrite mix_length; lia). rewrite rdot_mix by lia. rewrite (V r I). ring.
Qed.
(* the same at any position and date *)
Lemma mix_fins c1 c2 (A : Type) (g h : A -> R) l : mix c1 c2 (map g l) (map h l) = map (fun x => c1 * g x + c2 * h x) l.
Proof. unfold mix, map2. induction l as [|x l IH]; cbn; [reflexivity|]. now rewrite IH. Qed.
Lemma regression_mix m phi c1 c2 th1 th2 xs ds act : regression m phi -> length th1 = fm_n m -> length th2 = fm_n m -> length ds = length xs -> ds <> [] ->
  exists v1 v2, call m (fins xs) (Some ds) (Some (fins th1)) false (mkKw act []) = Ok (Ar (fins v1)) /\
    call m (fins xs) (Some ds) (Some (fins th2)) false (mkKw act []) = Ok (Ar (fins v2)) /\
    call m (fins xs) (Some ds) (Some (fins (mix c1 c2 th1 th2))) false (mkKw act []) = Ok (Ar (fins (mix c1 c2 v1 v2))).
Proof.
  intros R L1 L2 Ld Ne. do 2 eexists. split; [apply (rg_call _ _ R); assumption|]. split; [apply (rg_call _ _ R); assumption|].
  rewrite (rg_call _ _ R) by (rewrite ?mix_length; assumption || lia). do 3 f_equal. rewrite mix_fins. apply map_ext. intros p. apply rdot_mix. lia.
Qed.

(* ---- change of units and added curves ---- *)
(* [f'] has the samples of [f] with k times their value plus the curve with parameters [th0] *)
Definition moved (phi : R -> Z -> list R) (k : R) (th0 : list R) (f f' : frame XR) : Prop :=
  has_date f = true /\ has_date f' = true /\ has_w f = has_w f' /\
  Forall2 (fun r r' => same_place (has_w f') r r' /\ real (r_y r') = k * real (r_y r) + rdot th0 (coef phi r)) (usable_rows f) (usable_rows f').
Definition curve_samples (f : frame XR) (phi : R -> Z -> list R) (th0 : list R) : list sample :=
  map (fun r => mkS (coef phi r) (rdot th0 (coef phi r)) (share f r)) (usable_rows f).
Lemma moved_places phi k th0 f f' : moved phi k th0 f f' -> Forall2 (same_place (has_w f')) (usable_rows f) (usable_rows f').
Proof. intros (_ & _ & _ & F). induction F as [|a b l1 l2 [S _] F IH]; constructor; auto. Qed.
Lemma moved_samples phi k th0 f f' : moved phi k th0 f f' ->
  mixed k 1 (samples f (coef phi)) (curve_samples f phi th0) (samples f' (coef phi)).
Proof.
  intros Mv. pose proof (moved_places _ _ _ _ _ Mv) as Fp. destruct Mv as (_ & _ & Hw & F).
  assert (Sh : forall r r', same_place (has_w f') r r' -> share f r = share f' r') by (intros; now apply share_same).
  unfold samples, curve_samples. revert Sh. generalize (share f) (share f'). intros h h' Sh. clear Fp.
  induction F as [|a b l1 l2 [S Y] F IH]; cbn [map]; [constructor|].
  assert (E : coef phi b = coef phi a) by (destruct S as (A & B & _); unfold coef, x_in; now rewrite A, B).
  rewrite E, <- (Sh _ _ S), Y. replace (k * real (r_y a) + rdot th0 (coef phi a)) with (k * real (r_y a) + 1 * rdot th0 (coef phi a)) by ring.
  constructor. exact IH.
Qed.
Lemma curve_normal f phi th0 : normal th0 (curve_samples f phi th0).
Proof.
  intros de _. apply rsum_zero. intros a I. apply in_map_iff in I as (s & <- & I). unfold curve_samples in I. apply in_map_iff in I as (r & <- & _).
  unfold err. cbn. ring.
Qed.
Lemma moved_loss phi k th0 f f' th th' : moved phi k th0 f f' ->
  (forall r, In r (usable_rows f') -> rdot th' (coef phi r) = k * rdot th (coef phi r) + rdot th0 (coef phi r)) ->
  loss th' (samples f' (coef phi)) = k * k * loss th (samples f (coef phi)).
Proof.
  intros Mv V. pose proof (moved_places _ _ _ _ _ Mv) as Fp. destruct Mv as (_ & _ & Hw & F).
  assert (Sh : forall r r', same_place (has_w f') r r' -> share f r = share f' r') by (intros; now apply share_same).
  unfold samples, loss. revert Sh. generalize (share f) (share f'). intros h h' Sh. clear Fp. rewrite !map_map. cbn [s_w].
  induction F as [|a b l1 l2 [S Y] F IH]; cbn [map rsum]; [ring|]. rewrite IH by (intros r I; apply V; now right).
  assert (E : coef phi b = coef phi a) by (destruct S as (A & B & _); unfold coef, x_in; now rewrite A, B).
  unfold err. cbn [s_y s_phi]. rewrite (V b (or_introl eq_refl)), E, <- (Sh _ _ S), Y. ring.
Qed.
Theorem moved_fit m phi k th0 f f' E E' freq freq' s s' a a' u u' d d' : regression m phi -> length th0 = fm_n m ->
  moved phi k th0 f f' -> finite_rows f -> finite_rows f' -> minimizes E m f a -> minimizes E' m f' a' ->
  fit_model E m f freq s a u = Ok d -> md_fit d = true -> fit_model E' m f' freq' s' a' u' = Ok d' -> md_fit d' = true ->
  exists th th' c, md_params d = fins th /\ md_params d' = fins th' /\ length th = fm_n m /\ length th' = fm_n m /\
    (forall r, In r (usable_rows f') -> rdot th' (coef phi r) = k * rdot th (coef phi r) + rdot th0 (coef phi r)) /\
    md_cost d = Fin c /\ md_cost d' = Fin (k * k * c) /\
    (determined m phi f' -> th' = mix k 1 th th0).
Proof.
  intros R L0 Mv F F' M M' Ef Fd Ef' Fd'. pose proof Mv as (H1 & H2 & _).
  destruct (regression_fit E m phi f _ _ _ _ _ R H1 F M Ef Fd) as (th & P & L & C & _ & N).
  destruct (regression_fit E' m phi f' _ _ _ _ _ R H2 F' M' Ef' Fd') as (th' & P' & L' & C' & _ & N').
  exists th, th', (loss th (samples f (coef phi)) / 2).
  assert (V : forall r, In r (usable_rows f') -> rdot th' (coef phi r) = k * rdot th (coef phi r) + rdot th0 (coef phi r)).
  { intros r I. assert (K : rdot th' (coef phi r) = k * rdot th (coef phi r) + 1 * rdot th0 (coef phi r)); [|rewrite K; ring].
    refine (mixed_solution k 1 th' th th0 _ _ _ (moved_samples phi k th0 f f' Mv) ltac:(lia) ltac:(lia) N' N (curve_normal f phi th0)
      (mkS (coef phi r) (real (r_y r)) (share f' r)) _ _); cbn [s_phi s_w].
    - unfold samples. apply in_map_iff. eauto.
    - pose proof (share_pos f' r F' I). lra. }
  do 5 (split; [assumption|]). split; [assumption|].
  split; [rewrite C', (moved_loss phi k th0 f f' th th' Mv V); f_equal; field|].
  intros Dt. apply mix_zero; [rewrite mix_length; lia|]. rewrite L'. apply Dt.
  - rewrite mix_length by (rewrite mix_length; lia). exact L'.
  - intros r I. rewrite rdot_mix by (rewrite mix_length; lia). rewrite rdot_mix by lia. rewrite (V r I). ring.
Qed.
(* any two minimizing optimizers, caches and random draws agree *)
Lemma rdot_zero n c : rdot (repeat 0 n) c = 0.
Proof. unfold rdot. revert c. induction n as [|n IH]; intros [|x c]; cbn; try reflexivity. rewrite IH. ring. Qed.
Lemma mix_id n : forall a, length a = n -> mix 1 1 a (repeat 0 n) = a.
Proof. unfold mix, map2. induction n as [|n IH]; intros [|x a] L; try discriminate; [reflexivity|]. cbn in *. f_equal; [ring|]. apply IH. lia. Qed.
Theorem fit_unique m phi f E E' freq freq' s s' a a' u u' d d' : regression m phi -> has_date f = true -> finite_rows f ->
  minimizes E m f a -> minimizes E' m f a' ->
  fit_model E m f freq s a u = Ok d -> md_fit d = true -> fit_model E' m f freq' s' a' u' = Ok d' -> md_fit d' = true ->
  exists th th', md_params d = fins th /\ md_params d' = fins th' /\
    (forall r, In r (usable_rows f) -> rdot th' (coef phi r) = rdot th (coef phi r)) /\ md_cost d' = md_cost d /\
    (determined m phi f -> md_params d' = md_params d).
Proof.
  intros R Hd F M M' Ef Fd Ef' Fd'.
  assert (Mv : moved phi 1 (repeat 0 (fm_n m)) f f).
  { split; [exact Hd|]. split; [exact Hd|]. split; [reflexivity|]. induction (usable_rows f) as [|r l IH]; constructor; [|exact IH].
    split; [repeat split|]. rewrite rdot_zero. ring. }
  destruct (moved_fit m phi 1 _ f f E E' _ _ _ _ _ _ _ _ _ _ R (repeat_length _ _) Mv F F M M' Ef Fd Ef' Fd')
    as (th & th' & c & P & P' & L & L' & V & C & C' & Dt).
  exists th, th'. split; [exact P|]. split; [exact P'|]. split.
  { intros r I. rewrite (V r I), rdot_zero. ring. }
  split; [rewrite C', C; f_equal; ring|]. intros K. rewrite P', P, (Dt K), mix_id by exact L. reflexivity.
Qed.

(* ---- the models ---- *)
Lemma combine_map_fst {A B C} (g : A -> C) (xs : list A) (ds : list B) : length ds = length xs ->
  map g xs = map (fun p => g (fst p)) (combine xs ds).
Proof. revert ds. induction xs as [|x xs IH]; intros [|t ds] L; try discriminate; [reflexivity|]. cbn. f_equal. apply IH. cbn in L. lia. Qed.
Lemma combine_map_snd {A B C} (g : B -> C) (xs : list A) (ds : list B) : length ds = length xs ->
  map g ds = map (fun p => g (snd p)) (combine xs ds).
Proof. revert ds. induction xs as [|x xs IH]; intros [|t ds] L; try discriminate; [reflexivity|]. cbn. f_equal. apply IH. cbn in L. lia. Qed.
Lemma dict_get_in {V} (d : dict V) k v : dict_get d k = Some v -> In (k, v) d.
Proof.
  induction d as [|[a b] d IH]; cbn; [discriminate|]. destruct (String.eqb_spec k a) as [->|]; [intros [= ->]; now left|intros E; right; auto].
Qed.
Lemma sturdy_cached m : sturdy m -> cached m dict_f_cache.
Proof.
  intros St. split; [|intros k f I; left; cbn in I; repeat destruct I as [I|I]; try injection I as <- <-; try reflexivity; destruct I].
  intros x ds _ _. destruct (st_reads _ St x (Some ds)) as (Rd & G & Tr). eapply transparent_weaken; [|exact Tr]. intros [k f] I. apply dict_get_in. now apply G.
Qed.
Lemma regression_of m phi : sturdy m -> unbounded m -> requires_scaling (fm_name m) = false -> (forall x t, length (phi x t) = fm_n m) ->
  (forall xs ds act th, length ds = length xs -> length th = fm_n m ->
    call m (fins xs) (Some ds) (Some (fins th)) false (mkKw act []) =
    Ok (Ar (fins (map (fun p => rdot th (phi (fst p) (snd p))) (combine xs ds))))) -> regression m phi.
Proof.
  intros St Un Sc Le Ca. constructor; auto.
  - now apply sturdy_hardy.
  - exists dict_f_cache. now apply sturdy_cached.
  - exists (Ok (Ar [])). split; [intros v [= <-]; reflexivity|]. intros act th L. exact (Ca [] [] act th eq_refl L).
Qed.
Ltac rg_open lem := apply regression_of; [exact lem|intros ? ? ?; eexists; reflexivity|reflexivity|try (intros; reflexivity)|].
Lemma regression_linear_trend : regression model_linear (fun x _ => [x; 1]).
Proof.
  rg_open sturdy_linear. intros xs ds act th Ld L. destruct (two_params th L) as (a & b & ->). rewrite linear_formula.
  do 3 f_equal. rewrite (combine_map_fst _ xs ds Ld). apply map_ext. intros p. unfold rdot. cbn. ring.
Qed.
Lemma regression_constant : regression model_constant (fun _ _ => [1]).
Proof.
  rg_open sturdy_constant. intros xs ds act th Ld L. destruct (one_param th L) as (a & ->). rewrite constant_formula.
  do 3 f_equal. rewrite (combine_map_fst _ xs ds Ld). apply map_ext. intros p. unfold rdot. cbn. ring.
Qed.
Lemma regression_wday : regression model_season_wday (fun _ t => wday_phi t).
Proof.
  rg_open sturdy_wday. intros xs ds act th Ld L. rewrite wday_formula by (unfold fins; now rewrite map_length). do 2 f_equal.
  rewrite (combine_map_snd _ xs ds Ld). unfold fins. rewrite map_map. apply map_ext. intros p.
  destruct (six_params th L) as (a & b & c & d & e & g & ->). unfold wday_value, rdot, wday_phi.
  destruct (weekday_cases (snd p)) as [E|[E|[E|[E|[E|[E|E]]]]]]; rewrite E; cbn; apply (f_equal Fin); ring.
Qed.
Definition month_phi (t : Z) : list R := map (fun i => if Z.eqb (month t) i then 1 else 0) [2; 3; 4; 5; 6; 7; 8; 9; 10; 11; 12]%Z.
Lemma regression_month_old : regression model_season_month_old (fun _ t => month_phi t).
Proof.
  rg_open sturdy_month_old. intros xs ds act th Ld L.
  rewrite (proj2 (month_formula (fins xs) ds (fins th) false act ltac:(unfold fins; now rewrite map_length))). do 2 f_equal.
  rewrite (combine_map_snd _ xs ds Ld). unfold fins. rewrite map_map. apply map_ext. intros p.
  change (fm_n model_season_month_old) with 11%nat in L.
  do 11 (destruct th as [|? th]; [discriminate|]). destruct th; [|discriminate]. unfold month_value, rdot, month_phi.
  pose proof (month_range (snd p)) as Rg.
  assert (C : (month (snd p) = 1 \/ month (snd p) = 2 \/ month (snd p) = 3 \/ month (snd p) = 4 \/ month (snd p) = 5 \/ month (snd p) = 6 \/ month (snd p) = 7 \/
    month (snd p) = 8 \/ month (snd p) = 9 \/ month (snd p) = 10 \/ month (snd p) = 11 \/ month (snd p) = 12)%Z) by lia.
  destruct C as [E|[E|[E|[E|[E|[E|[E|[E|[E|[E|[E|E]]]]]]]]]]]; rewrite E; cbn; apply (f_equal Fin); ring.
Qed.
Lemma regression_month : regression model_season_month (fun _ t => month_phi t).
Proof.
  rg_open sturdy_month. intros xs ds act th Ld L.
  rewrite (proj1 (month_formula (fins xs) ds (fins th) false act ltac:(unfold fins; now rewrite map_length))). do 2 f_equal.
  rewrite (combine_map_snd _ xs ds Ld). unfold fins. rewrite map_map. apply map_ext. intros p.
  change (fm_n model_season_month) with 11%nat in L.
  do 11 (destruct th as [|? th]; [discriminate|]). destruct th; [|discriminate]. unfold month_value, rdot, month_phi.
  pose proof (month_range (snd p)) as Rg.
  assert (C : (month (snd p) = 1 \/ month (snd p) = 2 \/ month (snd p) = 3 \/ month (snd p) = 4 \/ month (snd p) = 5 \/ month (snd p) = 6 \/ month (snd p) = 7 \/
    month (snd p) = 8 \/ month (snd p) = 9 \/ month (snd p) = 10 \/ month (snd p) = 11 \/ month (snd p) = 12)%Z) by lia.
  destruct C as [E|[E|[E|[E|[E|[E|[E|[E|[E|[E|[E|E]]]]]]]]]]]; rewrite E; cbn; apply (f_equal Fin); ring.
Qed.
Definition fourier_phi (t : Z) : list R :=
  map (fun i => sin (fourier_freq i * IZR (day_of t))) (seq 1 10) ++ map (fun i => cos (fourier_freq i * IZR (day_of t))) (seq 1 10).
Lemma regression_fourier : regression model_season_fourier_yearly (fun _ t => fourier_phi t).
Proof.
  rg_open sturdy_fourier. intros xs ds act th Ld L. change (fm_n model_season_fourier_yearly) with 20%nat in L. rewrite fourier_real by exact L. do 3 f_equal.
  rewrite (combine_map_snd _ xs ds Ld). apply map_ext. intros p. unfold fourier_spec, rdot, fourier_phi.
  do 20 (destruct th as [|? th]; [discriminate|]). destruct th; [|discriminate].
  cbn [map seq app combine rsum fst snd nth Nat.sub Nat.add].
  generalize (fun i => sin (fourier_freq i * IZR (day_of (snd p)))) (fun i => cos (fourier_freq i * IZR (day_of (snd p)))). intros. ring.
Qed.
Lemma regression_step_date t0 : regression (get_model_step_date t0) (fun _ t => [if Z_lt_dec t t0 then 0 else 1]).
Proof.
  rg_open (sturdy_step_date t0). intros xs ds act th Ld L. destruct (one_param th L) as (a & ->). rewrite step_date_formula. do 3 f_equal.
  rewrite (combine_map_snd _ xs ds Ld). apply map_ext. intros p. unfold step_date_spec, rdot. cbn. destruct (Z_lt_dec (snd p) t0); cbn; ring.
Qed.
Lemma regression_spike_date t0 t1 : regression (get_model_spike_date t0 t1) (fun _ t => [if Z_lt_dec t t0 then 0 else if Z_lt_dec t t1 then 1 else 0]).
Proof.
  rg_open (sturdy_spike_date t0 t1). intros xs ds act th Ld L. destruct (one_param th L) as (a & ->). rewrite spike_date_formula. do 3 f_equal.
  rewrite (combine_map_snd _ xs ds Ld). apply map_ext. intros p. unfold spike_date_spec, rdot. cbn. destruct (Z_lt_dec (snd p) t0), (Z_lt_dec (snd p) t1); cbn; ring.
Qed.
(* models without entries of their own *)
Lemma apart_plain m1 m2 phi2 : sturdy m1 -> regression m2 phi2 -> apart m1 m2 /\ apart m2 m1.
Proof.
  intros St Rg. pose proof (sturdy_cached _ St) as C1. destruct (rg_cached _ _ Rg) as (R2 & C2).
  assert (A : forall k f g, In (k, f) (dict_f_cache (T := XR)) -> In (k, g) (fm_dcache m2) -> same_mask f g).
  { intros k f g I J. destruct (hd_dcache _ _ (rg_hardy _ _ Rg) k g J) as [N _]. destruct C1 as [_ C1]. destruct (C1 k f I) as [G|[_ G]]; [congruence|].
    rewrite (st_dcache _ St) in G. exfalso. cbn in I. repeat destruct I as [I|I]; try (injection I as <- <-; discriminate N); destruct I. }
  assert (B : forall k f g, In (k, f) R2 -> In (k, g) (fm_dcache m1) -> same_mask f g) by (intros k f g _ J; rewrite (st_dcache _ St) in J; destruct J).
  split; [exists dict_f_cache, R2|exists R2, dict_f_cache]; auto.
Qed.
Lemma cached_madd m1 m2 R1 R2 : fm_name m1 <> "null" -> fm_name m2 <> "null" -> cached m1 R1 -> cached m2 R2 ->
  (forall k f g, In (k, f) R1 -> In (k, g) (fm_dcache m2) -> same_mask f g) ->
  (forall k f g, In (k, f) R2 -> In (k, g) (fm_dcache m1) -> same_mask f g) -> cached (madd m1 m2) (R1 ++ R2).
Proof.
  intros N1 N2 [T1 O1] [T2 O2] X Y. split.
  - intros x ds L Ne. apply transparent_madd; [now apply T1|now apply T2].
  - unfold madd. rewrite !is_null_false by assumption. cbn [combine_models mk_model fm_dcache].
    intros k f I. apply in_app_iff in I as [I|I].
    + destruct (O1 k f I) as [G|[N G]]; [now left|right]. split; [exact N|]. intros g J. apply dict_update_in in J as [J|J]; [now apply G|now apply (X k)].
    + destruct (O2 k f I) as [G|[N G]]; [now left|right]. split; [exact N|]. intros g J. apply dict_update_in in J as [J|J]; [now apply (Y k)|now apply G].
Qed.
Theorem regression_madd m1 m2 phi1 phi2 : regression m1 phi1 -> regression m2 phi2 -> apart m1 m2 -> regression (madd m1 m2) (fun x t => phi1 x t ++ phi2 x t).
Proof.
  intros A B (R1 & R2 & C1 & C2 & X & Y). pose proof (hd_name _ _ (rg_hardy _ _ A)) as N1. pose proof (hd_name _ _ (rg_hardy _ _ B)) as N2. constructor.
  - apply hardy_madd; [apply (rg_hardy _ _ A)|apply (rg_hardy _ _ B)].
  - exists (R1 ++ R2). now apply cached_madd.
  - unfold madd. rewrite !is_null_false by assumption. intros x y d. cbn [fm_bounds combine_models mk_model fm_n]. unfold bounds_combine.
    destruct (rg_free _ _ A x y d) as (nd1 & ->). destruct (rg_free _ _ B x y d) as (nd2 & ->). cbn [rbind]. unfold bounds_concat. cbn [b_lo b_hi].
    rewrite !repeat_length, !Nat.eqb_refl. cbn [andb]. rewrite <- !repeat_app. eauto.
  - unfold madd. rewrite !is_null_false by assumption. reflexivity.
  - intros x t. unfold madd. rewrite !is_null_false by assumption. cbn [fm_n combine_models mk_model]. rewrite app_length, (rg_len _ _ A), (rg_len _ _ B). reflexivity.
  - intros xs ds act th Ld Ne L. unfold madd in *. rewrite !is_null_false in * by assumption. cbn [fm_n combine_models mk_model] in L.
    set (p1 := firstn (fm_n m1) th). set (p2 := skipn (fm_n m1) th).
    assert (A1 : length p1 = fm_n m1) by (unfold p1; rewrite firstn_length; lia).
    assert (B1 : length p2 = fm_n m2) by (unfold p2; rewrite skipn_length; lia).
    pose proof (rg_call _ _ A xs ds act p1 Ld Ne A1) as E1. pose proof (rg_call _ _ B xs ds act p2 Ld Ne B1) as E2.
    unfold call, combine_models, mk_model in *. cbn [fm_f]. unfold f_combine, p_slice. cbn [rbind].
    assert (F1 : firstn (fm_n m1) (fins th) = fins p1) by (unfold fins, p1; now rewrite firstn_map).
    assert (F2 : skipn (fm_n m1) (fins th) = fins p2) by (unfold fins, p2; now rewrite skipn_map).
    rewrite F1, F2, E1. cbn [rbind]. rewrite E2. cbn [rbind bcast2]. unfold fins at 1 2. rewrite !map_length, Nat.eqb_refl. do 2 f_equal.
    clear E1 E2. unfold map2, fins. rewrite !map_map. induction (combine xs ds) as [|p l IH]; [reflexivity|]. cbn [map combine]. rewrite IH. f_equal. cbn [fst snd].
    rewrite add_fin. f_equal. rewrite <- rdot_app by (rewrite A1; symmetry; apply (rg_len _ _ A)). unfold p1, p2. now rewrite firstn_skipn.
  - destruct (rg_empty _ _ A) as (r1 & V1 & E1). destruct (rg_empty _ _ B) as (r2 & V2 & E2).
    exists (let* _ := r1 in let* _ := r2 in Ok (Ar [])). split.
    { intros v K. destruct r1; [|discriminate]. destruct r2; [|discriminate]. cbn [rbind] in K. injection K as <-. reflexivity. }
    intros act th L. unfold madd in *. rewrite !is_null_false in * by assumption. cbn [fm_n combine_models mk_model] in L.
    set (p1 := firstn (fm_n m1) th). set (p2 := skipn (fm_n m1) th).
    assert (A1 : length p1 = fm_n m1) by (unfold p1; rewrite firstn_length; lia).
    assert (B1 : length p2 = fm_n m2) by (unfold p2; rewrite skipn_length; lia).
    specialize (E1 act p1 A1). specialize (E2 act p2 B1). unfold call, combine_models, mk_model in *. cbn [fm_f]. unfold f_combine, p_slice. cbn [rbind].
    assert (F1 : firstn (fm_n m1) (fins th) = fins p1) by (unfold fins, p1; now rewrite firstn_map).
    assert (F2 : skipn (fm_n m1) (fins th) = fins p2) by (unfold fins, p2; now rewrite skipn_map).
    rewrite F1, F2, E1, E2. destruct r1 as [v1|]; [|reflexivity]. cbn [rbind]. destruct r2 as [v2|]; [|reflexivity]. cbn [rbind].
    rewrite (V1 v1 eq_refl), (V2 v2 eq_refl). reflexivity.
Qed.
(* with at least one of them without entries of its own *)
Corollary regression_madd_plain m1 m2 phi1 phi2 : sturdy m1 \/ sturdy m2 -> regression m1 phi1 -> regression m2 phi2 -> regression (madd m1 m2) (fun x t => phi1 x t ++ phi2 x t).
Proof.
  intros [St|St] A B; apply regression_madd; auto; [apply (apart_plain m1 m2 phi2)|apply (apart_plain m2 m1 phi1)]; assumption.
Qed.

(* ---- when the samples determine the parameters ---- *)
Lemma determined_nonempty m phi f : regression m phi -> determined m phi f -> usable_rows f <> [].
Proof.
  intros Rg De E. specialize (De (repeat 1 (fm_n m)) (repeat_length _ _)). rewrite E in De. specialize (De (fun r I => match I with end)).
  pose proof (hd_n _ _ (rg_hardy _ _ Rg)) as Np. destruct (fm_n m); [lia|]. cbn in De. injection De as K _. lra.
Qed.
Lemma line_determined f : two_positions f -> determined model_linear (fun x _ => [x; 1]) f.
Proof.
  intros (r1 & r2 & I1 & I2 & N) de L K. destruct (two_params de L) as (a & b & ->). pose proof (K r1 I1) as K1. pose proof (K r2 I2) as K2.
  unfold coef, rdot, x_in in K1, K2. cbn in K1, K2. apply not_eq_IZR_ in N.
  assert (P : a * (IZR (r_x r1) - IZR (r_x r2)) = 0) by lra. apply Rmult_integral in P as [->|P]; [|lra]. assert (b = 0) by lra. subst. reflexivity.
Qed.
(* a line plus weekdays: every weekday occurs, and one of them at two positions *)
Definition full_week (f : frame XR) : Prop :=
  (forall k, (0 <= k <= 6)%Z -> exists r, In r (usable_rows f) /\ weekday (r_date r) = k) /\
  exists r1 r2, In r1 (usable_rows f) /\ In r2 (usable_rows f) /\ weekday (r_date r1) = weekday (r_date r2) /\ r_x r1 <> r_x r2.
Lemma week_determined f : full_week f -> determined (madd model_linear model_season_wday) (fun x t => [x; 1] ++ wday_phi t) f.
Proof.
  intros [Al (r1 & r2 & I1 & I2 & Ew & N)] de L K. change (fm_n (madd model_linear model_season_wday)) with 8%nat in *.
  do 8 (destruct de as [|? de]; [discriminate|]). destruct de; [|discriminate].
  assert (a : r = 0).
  { pose proof (K r1 I1) as K1. pose proof (K r2 I2) as K2. unfold coef, rdot, x_in, wday_phi in K1, K2. rewrite Ew in K1. cbn in K1, K2. apply not_eq_IZR_ in N.
    assert (P : r * (IZR (r_x r1) - IZR (r_x r2)) = 0) by lra. apply Rmult_integral in P as [P|P]; lra. }
  subst r.
  assert (Q : forall k, (0 <= k <= 6)%Z -> r0 + (if Z.eqb k 1 then r3 else if Z.eqb k 2 then r4 else if Z.eqb k 3 then r5 else if Z.eqb k 4 then r6 else
    if Z.eqb k 5 then r7 else if Z.eqb k 6 then r8 else 0) = 0).
  { intros k Hk. destruct (Al k Hk) as (q & Iq & Wq). pose proof (K q Iq) as Kq. unfold coef, rdot, x_in, wday_phi in Kq.
    assert (C : (k = 0 \/ k = 1 \/ k = 2 \/ k = 3 \/ k = 4 \/ k = 5 \/ k = 6)%Z) by lia.
    destruct C as [->|[->|[->|[->|[->|[->| ->]]]]]]; rewrite Wq in Kq; cbn in Kq |- *; lra. }
  pose proof (Q 0%Z ltac:(lia)) as Q0. pose proof (Q 1%Z ltac:(lia)) as Q1. pose proof (Q 2%Z ltac:(lia)) as Q2. pose proof (Q 3%Z ltac:(lia)) as Q3.
  pose proof (Q 4%Z ltac:(lia)) as Q4. pose proof (Q 5%Z ltac:(lia)) as Q5. pose proof (Q 6%Z ltac:(lia)) as Q6. cbn in Q0, Q1, Q2, Q3, Q4, Q5, Q6.
  assert (r0 = 0) by lra. subst r0. replace r3 with 0 by lra. replace r4 with 0 by lra. replace r5 with 0 by lra. replace r6 with 0 by lra.
  replace r7 with 0 by lra. replace r8 with 0 by lra. reflexivity.
Qed.

(* ---- conversely, a solution of the normal equations is a minimum ---- *)
Theorem normal_minimum th l : normal th l -> forall th', length th' = length th -> loss th l <= loss th' l.
Proof.
  intros N th' L. set (de := mix 1 (-1) th' th). assert (Ld : length de = length th) by (unfold de; rewrite mix_length; lia).
  assert (E : th' = shift th 1 de).
  { unfold shift, de, mix, map2. clear - L. revert th' L. induction th as [|a th IH]; intros [|b th'] L; try discriminate; [reflexivity|].
    cbn. f_equal; [ring|]. apply IH. cbn in L. lia. }
  rewrite E, loss_shift by exact Ld. rewrite (N de Ld).
  assert (0 <= rsum (map (fun s => (s_w s * rdot de (s_phi s)) * (s_w s * rdot de (s_phi s))) l)); [|lra].
  apply rsum_nonneg. intros a I. apply in_map_iff in I as (s & <- & _). apply Rle_0_sqr.
Qed.
(* ---- the score ---- *)
Lemma aicc_units c n p k : 0 < n -> 0 < c -> k <> 0 -> aicc (k * k * c) n p = aicc c n p + n * ln (k * k).
Proof.
  intros Hn Hc Hk. assert (0 < k * k) by nra. unfold aicc. replace (k * k * c / n) with (k * k * (c / n)) by (field; lra).
  rewrite ln_mult by (try assumption; apply Rdiv_lt_0_compat; lra). ring.
Qed.
(* the score moves by an amount that does not depend on the model *)
Theorem moved_score m phi k th0 f f' E E' freq freq' s s' a a' u u' d d' : regression m phi -> length th0 = fm_n m ->
  moved phi k th0 f f' -> finite_rows f -> finite_rows f' -> minimizes E m f a -> minimizes E' m f' a' ->
  fit_model E m f freq s a u = Ok d -> md_fit d = true -> fit_model E' m f' freq' s' a' u' = Ok d' -> md_fit d' = true ->
  k <> 0 -> md_cost d <> Fin 0 ->
  exists v, md_aicc d = Fin v /\ md_aicc d' = Fin (v + INR (length (usable_rows f)) * ln (k * k)).
Proof.
  intros R L0 Mv F F' M M' Ef Fd Ef' Fd' Hk Hc.
  destruct (moved_fit m phi k th0 f f' E E' _ _ _ _ _ _ _ _ _ _ R L0 Mv F F' M M' Ef Fd Ef' Fd') as (th & th' & c & P & P' & L & L' & V & C & C' & _).
  destruct (regression_fit E m phi f _ _ _ _ _ R (proj1 Mv) F M Ef Fd) as (th2 & _ & _ & C2 & _).
  assert (Cp : 0 < c).
  { rewrite C2 in C. injection C as C. pose proof (loss_nonneg th2 (samples f (coef phi))) as Nn. rewrite C2, C in Hc.
    assert (c <> 0) by congruence. lra. }
  destruct (fit_score _ _ _ _ _ _ _ _ Ef Fd) as [S1 L1]. destruct (fit_score _ _ _ _ _ _ _ _ Ef' Fd') as [S2 L2].
  rewrite C in S1. rewrite C' in S2. assert (0 < k * k) by nra.
  rewrite score_pos in S1 by (try lia; exact Cp). rewrite score_pos in S2 by (try lia; nra). injection S1 as S1. injection S2 as S2.
  eexists. split; [symmetry; exact S1|]. rewrite <- S2. f_equal.
  assert (Ln : length (usable_rows f') = length (usable_rows f)) by (symmetry; exact (Forall2_len _ _ _ (moved_places _ _ _ _ _ Mv))).
  rewrite Ln, aicc_units, INR_IZR_INZ; [reflexivity|apply IZR_lt; lia|exact Cp|exact Hk].
Qed.
