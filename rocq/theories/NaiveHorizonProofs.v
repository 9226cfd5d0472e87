(* Naive models over a longer horizon: proofs for C88. *)
From Coq Require Import ZArith String List Bool Lia Sorted Reals QArith.
From Verif Require Import Num Py Cal Model Naive Freq Fit Forecast.
From Verif Require Import NumProofs ListProofs ForecastProofs GridProofs NaiveProofs SnaiveProofs ForecastProofs2 ExtendProofs HorizonProofs TotalProofs TotalProofs2 BandProofs.
Import ListNotations.
Local Open Scope string_scope.
Local Open Scope list_scope.
Local Open Scope Z_scope.

Section NaiveHorizon.
  Context {T : Type} `{N : NumOps T}.
  Implicit Types (A : list (row T)).
  Lemma same_row A (r r' : row T) : NoDup (map r_x A) -> In r A -> In r' A -> r_x r = r_x r' -> r = r'.
  Proof.
    induction A as [|a A IH]; [intros _ []|]. cbn [map]. intros Nd. inversion Nd as [|? ? Na Nd']; subst. intros [->|I] [->|I'] E; auto.
    - exfalso. apply Na. rewrite E. now apply in_map.
    - exfalso. apply Na. rewrite <- E. now apply in_map.
  Qed.
  Lemma null_nn (v : T) : nn v -> null v -> False.
  Proof. unfold nn, null. congruence. Qed.
  Lemma before_unique A z v v' : NoDup (map r_x A) -> before A z v -> before A z v' -> v = v'.
  Proof.
    intros Nd (r & I & L & Y & -> & M) (r' & I' & L' & Y' & -> & M'). destruct (Z.lt_trichotomy (r_x r) (r_x r')) as [C|[C|C]].
    - exfalso. apply (null_nn (r_y r')); [exact Y'|]. apply M; [exact I'|lia].
    - now rewrite (same_row A r r' Nd I I' C).
    - exfalso. apply (null_nn (r_y r)); [exact Y|]. apply M'; [exact I|lia].
  Qed.
  (* the value asked for does not depend on what else is asked for, once a value has a later position *)
  Lemma naive_spec_unique A zs zs' z v v' : NoDup (map r_x A) ->
    (exists r u, In r A /\ nn (r_y r) /\ In u (map r_x A) /\ r_x r < u) ->
    naive_spec A zs z v -> naive_spec A zs' z v' -> v = v'.
  Proof.
    intros Nd (r0 & u & I0 & Y0 & Iu & L0) S S'.
    assert (Ex : forall r, earliest A r -> r_x r < u) by (intros r (_ & _ & M); specialize (M r0 I0 Y0); lia).
    assert (Nn : forall w, before A z w -> none_before A z -> False).
    { intros w (r & I & L & Y & _) Nb. exact (null_nn _ Y (Nb r I L)). }
    assert (Has : exists r, earliest A r).
    { assert (G : forall (n : nat) r, In r A -> nn (r_y r) -> (Z.to_nat (r_x r - fold_right Z.min 0%Z (map r_x A))%Z <= n)%nat -> exists r, earliest A r).
      { assert (B : forall r, In r A -> fold_right Z.min 0%Z (map r_x A) <= r_x r).
        { clear. induction A as [|a A IH]; [intros r []|]. cbn [map fold_right]. intros r [->|I]; [lia|]. specialize (IH r I). lia. }
        induction n as [|n IH]; intros r I Y Ln.
        - exists r. split; [exact I|]. split; [exact Y|]. intros r' I' _. pose proof (B r' I'). pose proof (B r I). lia.
        - destruct (List.existsb (fun r' => negb (nisnan (r_y r')) && (r_x r' <? r_x r)) A) eqn:E.
          + apply existsb_exists in E as (r' & I' & K). apply andb_prop in K as [K1 K2]. apply Z.ltb_lt in K2.
            apply (IH r' I'). { unfold nn. now apply negb_true_iff in K1. } pose proof (B r' I'). lia.
          + exists r. split; [exact I|]. split; [exact Y|]. intros r' I' Y'. destruct (Z.le_gt_cases (r_x r) (r_x r')) as [C|C]; [exact C|exfalso].
            assert (existsb (fun r' => negb (nisnan (r_y r')) && (r_x r' <? r_x r)) A = true) as K; [|congruence].
            apply existsb_exists. exists r'. split; [exact I'|]. unfold nn in Y'. rewrite Y'. cbn. apply Z.ltb_lt. lia. }
      exact (G _ r0 I0 Y0 (Nat.le_refl _)). }
    assert (Un : forall r r', earliest A r -> earliest A r' -> r_y r = r_y r').
    { intros r r' (I & Y & M) (I' & Y' & M'). rewrite (same_row A r r' Nd I I'); [reflexivity|]. specialize (M r' I' Y'). specialize (M' r I Y). lia. }
    destruct Has as (e & He).
    assert (St : forall zs v, naive_spec A zs z v -> before A z v \/ (none_before A z /\ v = r_y e)).
    { intros zs0 v0 [B|(Nb & [(r & Er & -> & _)|(K & _)])]; [now left|right; split; [exact Nb|now apply Un]|].
      exfalso. specialize (K e He u (or_intror Iu)). specialize (Ex e He). lia. }
    apply St in S. apply St in S'. destruct S as [S|[Nb S]], S' as [S'|[Nb' S']].
    - exact (before_unique A z v v' Nd S S').
    - exfalso. eauto.
    - exfalso. eauto.
    - congruence.
  Qed.
  Lemma last_among_unique (P : row T -> Prop) A v v' : NoDup (map r_x A) -> last_among P A v -> last_among P A v' -> v = v'.
  Proof.
    intros Nd [(r & I & Pr & Y & -> & M)|(K & ->)] [(r' & I' & Pr' & Y' & -> & M')|(K' & ->)].
    - destruct (Z.lt_trichotomy (r_x r) (r_x r')) as [C|[C|C]].
      + exfalso. exact (null_nn _ Y' (M r' I' Pr' C)).
      + now rewrite (same_row A r r' Nd I I' C).
      + exfalso. exact (null_nn _ Y (M' r I Pr C)).
    - exfalso. exact (null_nn _ Y (K' r I Pr)).
    - exfalso. exact (null_nn _ Y' (K r' I' Pr')).
    - reflexivity.
  Qed.
  Lemma Forall2_unique {B C} (R R' : B -> C -> Prop) (l : list B) m m' : (forall b c c', In b l -> R b c -> R' b c' -> c = c') ->
    Forall2 R l m -> Forall2 R' l m' -> m = m'.
  Proof.
    intros U F. revert m' U. induction F as [|b c l m Rb F IH]; intros m' U F'; inversion F'; subst; [reflexivity|].
    f_equal; [eapply U; [now left|exact Rb|assumption]|apply IH; [intros; eapply U; [right|..]; eassumption|assumption]].
  Qed.

  (* extrapolation from the values at the two grids alone *)
  Theorem extrapolation_prefix_at m p o freq (y y' : Q) x0 act l l' : (y <= y')%Q ->
    (forall g rest v, s_x_extrapolate o (Some m) freq y x0 = Ok g -> s_x_extrapolate o (Some m) freq y' x0 = Ok (g ++ rest) ->
       let ds (g : list (Z * T)) := match o with ODate _ _ => Some (map fst g) | ONum _ _ => None end in
       call m (map snd (g ++ rest)) (ds (g ++ rest)) p false (mkKw act []) = Ok v ->
       fits_in (length (g ++ rest)) v /\ call m (map snd g) (ds g) p false (mkKw act []) = Ok (cut (length g) v)) ->
    extrapolate_model m p o freq y x0 act = Ok l -> extrapolate_model m p o freq y' x0 act = Ok l' ->
    exists rest, l' = l ++ rest /\ ((0 < y)%Q -> Forall (fun q => stop_of o < fst q) rest).
  Proof.
    intros L C E E'. destruct (extrapolate_inv _ _ _ _ _ _ _ _ E) as (g & v & G & V & S).
    destruct (extrapolate_inv _ _ _ _ _ _ _ _ E') as (g' & v' & G' & V' & S').
    destruct (grid_prefix _ _ _ _ _ _ _ _ L G G') as (rest & -> & R).
    destruct (C g rest v' G G' V') as [F Cv]. rewrite V in Cv. injection Cv as ->. rewrite map_app in S'.
    assert (F' : fits_in (length (map fst g ++ map fst rest)) v') by (rewrite app_length, !map_length; rewrite app_length in F; exact F).
    replace (length g) with (length (map fst g)) in S by apply map_length.
    destruct (series_prefix _ _ _ _ _ F' S' S) as (more & -> & Em). exists more. split; [reflexivity|].
    intros P. specialize (R P). rewrite <- Forall_map in R. rewrite <- Forall_map. now rewrite Em.
  Qed.
End NaiveHorizon.

Lemma Forall2_of_map {A B C} (R : B -> C -> Prop) (h : A -> B) l m : Forall2 R (map h l) m -> Forall2 (fun a c => R (h a) c) l m.
Proof. revert m. induction l as [|a l IH]; intros m F; inversion F; subst; constructor; auto. Qed.
Lemma grid_dates freq t0 (G : Z -> Prop) (m : fmodel XR) start stop years x0 g : ground freq t0 years G -> requires_scaling (fm_name m) = false ->
  G start -> x0 = x_of t0 start -> s_x_extrapolate (ODate start stop) (Some m) (Some freq) years x0 = Ok g ->
  map snd g = map nofZ (map (x_of t0) (map fst g)) /\ StronglySorted Z.lt (map fst g) /\ (forall t, In t (map fst g) -> G t).
Proof.
  intros Gr Sc On Ex E. destruct (gd_grid _ _ _ _ Gr start stop m x0 On Ex) as (ds & Eg & Sg & Og & _). cbn [s_x_extrapolate] in E. rewrite Eg in E. injection E as <-.
  rewrite !map_map. cbn [fst snd]. rewrite map_id. split; [|now split]. apply map_ext. intros t. unfold scaled. cbn [model_requires_scaling]. now rewrite Sc.
Qed.
Section Runs.
  Variables (freq : string) (t0 : Z) (G : Z -> Prop) (f act : frame XR) (start stop x0 : Z) (y y' : Q).
  Hypotheses (Gr : ground freq t0 y G) (Gr' : ground freq t0 y' G) (Tb : table G t0 f act) (On : G start) (Ex : x0 = x_of t0 start) (Ly : (y <= y')%Q).
  Lemma ground_days t : G t -> ((t - t0) mod DAY = 0)%Z.
  Proof. apply (gd_day _ _ _ _ Gr). Qed.
  Lemma actuals_sorted : sorted_x (rows act).
  Proof. exact (act_sorted_x G t0 f act ground_days Tb). Qed.
  Lemma actuals_nodup : NoDup (map r_x (rows act)).
  Proof. apply sorted_x_nodup, actuals_sorted. Qed.
  Lemma naive_call ds p mode : StronglySorted Z.lt ds -> (forall t, In t ds -> G t) ->
    exists out, fm_f (T := XR) model_naive (map nofZ (map (x_of t0) ds)) (Some ds) p mode (mkKw (Some act) []) = Ok (Ar out) /\
      Forall2 (fun t v => naive_spec (rows act) (map (x_of t0) ds) (x_of t0 t) v) ds out.
  Proof.
    intros Sd Og. destruct (naive_correct (N := XROps) eq_refl act (map (x_of t0) ds) (Some ds) p mode) as (out & E & F2).
    - apply xr_exact_ints.
    - exact actuals_nodup.
    - exact (dates_x_sorted G t0 ground_days ds Sd Og).
    - split; [now rewrite map_length|]. intros _ t z r I Ir Er.
      assert (z = x_of t0 t /\ In t ds) as [-> It].
      { clear -I. induction ds as [|a ds IH]; [destruct I|]. cbn in I. destruct I as [[= -> ->]|I]; [split; [reflexivity|now left]|]. destruct (IH I). split; [assumption|now right]. }
      rewrite (tb_x _ _ _ _ Tb r Ir) in Er. pose proof (tb_on _ _ _ _ Tb r Ir) as Or. destruct (Z.lt_trichotomy (r_date r) t) as [L|[L|L]]; [|exact L|].
      + apply (day_x t0) in L; [lia|now apply ground_days|now apply ground_days, Og].
      + apply (day_x t0) in L; [lia|now apply ground_days, Og|now apply ground_days].
    - exists out. split; [exact E|]. now apply Forall2_of_map in F2.
  Qed.
  Lemma Forall2_app_cut {B C} (R : B -> C -> Prop) l l' m : Forall2 R (l ++ l') m -> Forall2 R l (firstn (length l) m) /\ Forall2 R l' (skipn (length l) m).
  Proof.
    revert m. induction l as [|b l IH]; intros m F; [split; [constructor|exact F]|]. cbn [app] in F. inversion F; subst. cbn [length firstn skipn].
    destruct (IH _ H3) as [F1 F2]. split; [now constructor|exact F2].
  Qed.
  Theorem naive_extrapolation p l l' :
    (exists r r', In r (rows act) /\ In r' (rows act) /\ nn (r_y r) /\ r_date r < r_date r') ->
    extrapolate_model model_naive p (ODate start stop) (Some freq) y x0 (Some act) = Ok l ->
    extrapolate_model model_naive p (ODate start stop) (Some freq) y' x0 (Some act) = Ok l' ->
    exists rest, l' = l ++ rest /\ ((0 < y)%Q -> Forall (fun q => stop < fst q) rest).
  Proof.
    intros (r & r' & Ir & Ir' & Yr & Lr). apply (extrapolation_prefix_at (T := XR)); [exact Ly|]. intros g rest v Eg Eg'. cbv zeta. intros V.
    destruct (grid_dates freq t0 G model_naive start stop y x0 g Gr eq_refl On Ex Eg) as (Xg & Sg & Og).
    destruct (grid_dates freq t0 G model_naive start stop y' x0 _ Gr' eq_refl On Ex Eg') as (Xg' & Sg' & Og').
    destruct (naive_call _ p (Some false) Sg Og) as (o & Eo & Fo). destruct (naive_call _ p (Some false) Sg' Og') as (o' & Eo' & Fo').
    unfold call in *. rewrite Xg' in V. rewrite Xg. rewrite Eo' in V. injection V as <-. rewrite Eo. cbn [fits_in cut].
    pose proof (Forall2_len _ _ _ Fo') as Ln. rewrite map_length in Ln. split; [now symmetry|]. do 2 f_equal.
    rewrite map_app in Fo'. destruct (Forall2_app_cut _ _ _ _ Fo') as [Fc _]. rewrite map_length in Fc.
    refine (Forall2_unique _ _ _ _ _ _ Fo Fc). intros t a b It Sa Sb. refine (naive_spec_unique _ _ _ _ _ _ actuals_nodup _ Sa Sb).
    exists r, (r_x r'). split; [exact Ir|]. split; [exact Yr|]. split; [now apply in_map|].
    rewrite !(tb_x _ _ _ _ Tb) by assumption. apply day_x; [now apply ground_days, (tb_on _ _ _ _ Tb)..|exact Lr].
  Qed.
  Lemma snaive_call ds p mode : StronglySorted Z.lt ds -> (forall t, In t ds -> G t) ->
    exists o1 o2, fm_f (T := XR) model_snaive_wday (map nofZ (map (x_of t0) ds)) (Some ds) p mode (mkKw (Some act) []) = Ok (Ar (o1 ++ o2)) /\
      Forall2 (fun t v => snaive_in (rows act) t (x_of t0 t) v) (filter (in_dates (rows act)) ds) o1 /\
      Forall2 (fun t v => snaive_out (rows act) t v) (filter (fun t => negb (in_dates (rows act) t)) ds) o2.
  Proof.
    intros Sd Og. destruct (snaive_correct (N := XROps) eq_refl act ds (map (x_of t0) ds) p mode (tb_date _ _ _ _ Tb) actuals_sorted) as (o1 & o2 & E & F1 & F2).
    - apply xr_exact_ints.
    - now rewrite map_length.
    - exact (dates_x_sorted G t0 ground_days ds Sd Og).
    - intros t z I Id. assert (z = x_of t0 t) as ->.
      { clear -I. induction ds as [|a ds IH]; [destruct I|]. cbn in I. destruct I as [[= -> ->]|I]; [reflexivity|auto]. }
      unfold in_dates in Id. apply existsb_exists in Id as (u & Iu & Er). apply Z.eqb_eq in Er. subst u.
      apply in_map_iff in Iu as (r & Er & Ir). exists r. split; [exact Ir|]. split; [exact Er|]. now rewrite (tb_x _ _ _ _ Tb r Ir), Er.
    - exists o1, o2. split; [exact E|].
      assert (K : forall P : Z -> bool, filter (fun q : Z * Z => P (fst q)) (combine ds (map (x_of t0) ds)) = map (fun t => (t, x_of t0 t)) (filter P ds)).
      { intros P. clear. induction ds as [|t ds IH]; [reflexivity|]. cbn. destruct (P t); cbn; now rewrite IH. }
      rewrite (K (in_dates (rows act))) in F1. rewrite (K (fun t => negb (in_dates (rows act) t))) in F2. split.
      + clear -F1. revert o1 F1. induction (filter _ ds) as [|t l IH]; intros o F; inversion F; subst; constructor; auto.
      + clear -F2. revert o2 F2. induction (filter _ ds) as [|t l IH]; intros o F; inversion F; subst; constructor; auto.
  Qed.
  Theorem snaive_extrapolation p l l' : (0 < y)%Q -> (forall r, In r (rows act) -> r_date r <= stop) ->
    extrapolate_model model_snaive_wday p (ODate start stop) (Some freq) y x0 (Some act) = Ok l ->
    extrapolate_model model_snaive_wday p (ODate start stop) (Some freq) y' x0 (Some act) = Ok l' ->
    exists rest, l' = l ++ rest /\ Forall (fun q => stop < fst q) rest.
  Proof.
    intros Py Hs E E'.
    assert (exists rest, l' = l ++ rest /\ ((0 < y)%Q -> Forall (fun q => stop < fst q) rest)) as (rest & -> & F); [|exists rest; auto].
    revert E E'. apply (extrapolation_prefix_at (T := XR)); [exact Ly|]. intros g rest v Eg Eg'. cbv zeta. intros V.
    destruct (grid_dates freq t0 G model_snaive_wday start stop y x0 g Gr eq_refl On Ex Eg) as (Xg & Sg & Og).
    destruct (grid_dates freq t0 G model_snaive_wday start stop y' x0 _ Gr' eq_refl On Ex Eg') as (Xg' & Sg' & Og').
    destruct (grid_prefix _ _ _ _ _ _ _ _ Ly Eg Eg') as (rest' & Er & R). apply app_inv_head in Er. subst rest'. specialize (R Py). cbn [stop_of] in R.
    destruct (snaive_call _ p (Some false) Sg Og) as (o1 & o2 & Eo & F1 & F2). destruct (snaive_call _ p (Some false) Sg' Og') as (o1' & o2' & Eo' & F1' & F2').
    unfold call in *. rewrite Xg' in V. rewrite Xg. rewrite Eo' in V. injection V as <-. rewrite Eo. cbn [fits_in cut].
    assert (Fresh : forall t, In t (map fst rest) -> in_dates (rows act) t = false).
    { intros t It. apply in_map_iff in It as (q & <- & Iq). rewrite Forall_forall in R. specialize (R q Iq). destruct (in_dates (rows act) (fst q)) eqn:C; [|reflexivity].
      unfold in_dates in C. apply existsb_exists in C as (u & Iu & Er). apply Z.eqb_eq in Er. apply in_map_iff in Iu as (r & Er' & Ir). specialize (Hs r Ir). lia. }
    rewrite map_app, !filter_app in F1', F2'.
    rewrite (BandProofs.filter_nothing (in_dates (rows act)) (map fst rest)), app_nil_r in F1'
      by (apply forallb_forall; intros t It; now rewrite (Fresh t It)).
    rewrite (BandProofs.filter_all _ (map fst rest)) in F2' by (apply forallb_forall; intros t It; now rewrite (Fresh t It)).
    destruct (Forall2_app_cut _ _ _ _ F2') as [Fc Fr].
    assert (o1' = o1) as ->. { refine (Forall2_unique _ _ _ _ _ _ F1' F1). intros t a b _. apply last_among_unique, actuals_nodup. }
    set (n2 := length (filter (fun t => negb (in_dates (rows act) t)) (map fst g))) in *.
    assert (firstn n2 o2' = o2) as E2. { refine (Forall2_unique _ _ _ _ _ _ Fc F2). intros t a b _. apply last_among_unique, actuals_nodup. }
    pose proof (Forall2_len _ _ _ F1) as L1. pose proof (Forall2_len _ _ _ F2) as L2. pose proof (Forall2_len _ _ _ F2') as L2'. fold n2 in L2. rewrite app_length in L2'. fold n2 in L2'.
    pose proof (filter_split_length (in_dates (rows act)) (map fst g)) as Ls. fold n2 in Ls. rewrite map_length in *.
    split; [rewrite !app_length; lia|]. do 2 f_equal. rewrite firstn_app. rewrite firstn_all2 by lia. f_equal. rewrite <- E2. f_equal. lia.
  Qed.
End Runs.
