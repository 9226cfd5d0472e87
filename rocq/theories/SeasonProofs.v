(* Seasonality models (C14-C16). *)
From Coq Require Import ZArith String List Bool Reals Lra Lia.
From Verif Require Import Num Py Cal Model Base NumProofs ListProofs CalSweep CalProofs BaseProofs.
Import ListNotations.

(* ---------- weekdays ---------- *)
Lemma weekday_range t : (0 <= weekday t < 7)%Z.
Proof. unfold weekday, weekday_of_day. apply Z.mod_pos_bound. lia. Qed.
Lemma day_of_add t k : day_of (t + k * DAY) = (day_of t + k)%Z.
Proof. unfold day_of. rewrite Z.div_add; [reflexivity|]. pose proof DAY_pos. lia. Qed.
Lemma weekday_step t k : weekday (t + k * DAY) = ((weekday t + k) mod 7)%Z.
Proof.
  unfold weekday, weekday_of_day. rewrite day_of_add.
  rewrite Zplus_mod_idemp_l. f_equal. ring.
Qed.
Lemma weekday_week t k : weekday (t + k * (7 * DAY)) = weekday t.
Proof.
  replace (t + k * (7 * DAY))%Z with (t + (k * 7) * DAY)%Z by ring.
  rewrite weekday_step, Z.mod_add by lia. apply Z.mod_small. apply weekday_range.
Qed.
Lemma month_range t : (1 <= month t <= 12)%Z.
Proof. unfold month. destruct (civil_of_day (day_of t)) as [[V _] _]. exact V. Qed.

Section Generic.
  Context {T : Type} `{NumOps T}.
  (* specification: value used on a date *)
  Definition wday_value (mult : bool) (p : list T) (t : Z) : T :=
    if Z.eq_dec (weekday t) 0 then (if mult then n1 else n0)
    else nth (Z.to_nat (weekday t) - 1) p nnan.
  Definition month_value (mult : bool) (p : list T) (t : Z) : T :=
    if Z.eq_dec (month t) 1 then (if mult then n1 else n0)
    else nth (Z.to_nat (month t) - 2) p nnan.

  Lemma at_pos_nth (l : list T) i : (i < length l)%nat -> at_pos l i = Ok (nth i l nnan).
  Proof. intros Hi. unfold at_pos. now rewrite (nth_error_nth' l nnan Hi). Qed.

  Lemma season_lookup_ok mult (p : list T) idx :
    (forall i, In i idx -> 0 <= i <= Z.of_nat (length p))%Z ->
    season_lookup mult (Some p) idx =
    Ok (Ar (map (fun i => nth (Z.to_nat i) ((if mult then n1 else n0) :: p) nnan) idx)).
  Proof.
    intros Hr. unfold season_lookup. change (nofbool mult) with (if mult then n1 else n0 : T).
    rewrite (rmapM_ok _ (fun i => nth (Z.to_nat i) ((if mult then n1 else n0) :: p) nnan)); [reflexivity|].
    intros i Hi. specialize (Hr i Hi). apply at_pos_nth. cbn [length]. lia.
  Qed.

  Lemma wday_formula xs ds p mult act : length p = 6%nat ->
    call model_season_wday xs (Some ds) (Some p) mult (mkKw act []) =
    Ok (Ar (map (wday_value mult p) ds)).
  Proof.
    intros Hp. unfold call. cbn [fm_f model_season_wday mk_model]. unfold f_season_wday, cached_ints.
    cbn [kw_cache dict_get cache_a_weekday need_dates rbind mode_of]. rewrite season_lookup_ok.
    - do 2 f_equal. rewrite map_map. apply map_ext. intros t. unfold wday_value.
      pose proof (weekday_range t). destruct (Z.eq_dec (weekday t) 0) as [->|Hn]; [reflexivity|].
      destruct (Z.to_nat (weekday t)) as [|k] eqn:E; [lia|]. cbn [nth]. f_equal. lia.
    - intros i Hi. apply in_map_iff in Hi as (t & <- & _). pose proof (weekday_range t). lia.
  Qed.
  Lemma month_formula xs ds p mult act : length p = 11%nat ->
    call model_season_month xs (Some ds) (Some p) mult (mkKw act []) =
    Ok (Ar (map (month_value mult p) ds)) /\
    call model_season_month_old xs (Some ds) (Some p) mult (mkKw act []) =
    Ok (Ar (map (month_value mult p) ds)).
  Proof.
    intros Hp.
    assert (E : f_season_month xs (Some ds) (Some p) (Some mult) (mkKw act []) =
                Ok (Ar (map (month_value mult p) ds))); [|split; exact E].
    unfold f_season_month, cached_ints.
    cbn [kw_cache dict_get cache_a_month need_dates rbind mode_of]. rewrite season_lookup_ok.
    - do 2 f_equal. unfold months. rewrite map_map. apply map_ext. intros t. unfold month_value.
      pose proof (month_range t). destruct (Z.eq_dec (month t) 1) as [->|Hn]; [reflexivity|].
      destruct (Z.to_nat (month t - 1)) as [|k] eqn:E; [lia|]. cbn [nth]. f_equal. lia.
    - intros i Hi. apply in_map_iff in Hi as (t & <- & _). pose proof (month_range t). lia.
  Qed.
  (* without dates *)
  Lemma season_needs_dates xs p mult act :
    call model_season_wday xs None (Some p) mult (mkKw act []) = Err AttributeError /\
    call model_season_month xs None (Some p) mult (mkKw act []) = Err AttributeError.
  Proof. split; reflexivity. Qed.

  Lemma wday_accepts_iff (xs ys : list T) (d : option (list Z)) :
    validate_input model_season_wday xs ys d = Ok true <->
    exists ds, d = Some ds /\ forall w, (0 <= w < 7)%Z -> exists t, In t ds /\ weekday t = w.
  Proof.
    unfold validate_input. cbn. destruct d as [ds|].
    - set (u := zuniq (map weekday ds)).
      assert (HN : NoDup u) by apply zuniq_nodup.
      assert (HI : forall w, In w u <-> exists t, In t ds /\ weekday t = w).
      { intros w. unfold u. rewrite zuniq_in, in_map_iff. split; intros (t & H1 & H2); eauto. }
      set (week := map Z.of_nat (seq 0 7)).
      assert (HW : forall w, In w week <-> (0 <= w < 7)%Z).
      { intros w. unfold week. rewrite in_map_iff. split.
        - intros (k & <- & Hk). apply in_seq in Hk. lia.
        - intros Hw. exists (Z.to_nat w). split; [lia|]. apply in_seq. lia. }
      assert (HNW : NoDup week) by (unfold week; apply FinFun.Injective_map_NoDup; [exact Nat2Z.inj|apply seq_NoDup]).
      assert (Hsub : incl u week).
      { intros w Hw. apply HI in Hw as (t & _ & <-). apply HW, weekday_range. }
      destruct (Nat.eqb_spec (length u) 7) as [El|El]; cbn; split; try discriminate.
      + intros _. exists ds. split; [reflexivity|]. intros w Hw. apply HI.
        assert (L : (length week <= length u)%nat) by (change (length week) with 7%nat; lia).
        apply (NoDup_length_incl HN L Hsub). now apply HW.
      + intros _. reflexivity.
      + intros (ds' & [= <-] & Hall). exfalso. apply El.
        assert (length week <= length u)%nat.
        { apply NoDup_incl_length; [exact HNW|]. intros w Hw. apply HI, Hall, HW, Hw. }
        pose proof (NoDup_incl_length HN Hsub). change (length week) with 7%nat in *. lia.
    - cbn. split; [discriminate|]. intros (ds & E & _). discriminate.
  Qed.
  Lemma wday_rejects_otherwise (xs ys : list T) (d : option (list Z)) :
    exists b, validate_input model_season_wday xs ys d = Ok b.
  Proof.
    unfold validate_input. cbn. destruct d as [ds|]; [|cbn; eauto].
    destruct (Nat.eqb _ 7); cbn; eauto.
  Qed.

  (* guess of the month model: month means relative to December *)
  Lemma month_guess_formula x ys ds mult rnd : length ys = length ds ->
    match x with Some l => existsb nisnan l | None => false end = false ->
    exists g, fm_init model_season_month x (Some ys) (Some ds) mult rnd = Ok g /\ length g = 11%nat /\
      forall m, (2 <= m <= 12)%Z -> forall t, month t = m ->
        month_value mult g t =
        (if mult then ndiv else nsub) (month_mean ys ds (m - 1)) (month_mean ys ds 12).
  Proof.
    intros Hl Hx. cbn [fm_init model_season_month mk_model]. unfold init_validated.
    assert (E : init_season_month x (Some ys) (Some ds) mult rnd =
      Ok (map (fun m => if mult then ndiv m (month_mean ys ds 12) else nsub m (month_mean ys ds 12))
            (map (fun i => month_mean ys ds (Z.of_nat i)) (seq 1 11)))).
    { unfold init_season_month. rewrite Hl, Nat.eqb_refl. reflexivity. }
    eexists. split; [|split].
    - destruct x as [l|]; [rewrite Hx|]; exact E.
    - now rewrite !map_length, seq_length.
    - intros m Hm t Et. unfold month_value. destruct (Z.eq_dec (month t) 1) as [H1|_]; [lia|].
      set (f := fun m => if mult then ndiv m (month_mean ys ds 12) else nsub m (month_mean ys ds 12)).
      set (g := fun i => month_mean ys ds (Z.of_nat i)).
      rewrite map_map.
      rewrite (nth_indep _ nnan ((fun i => f (g i)) 0%nat)) by (rewrite map_length, seq_length; lia).
      rewrite (map_nth (fun i => f (g i))), seq_nth by lia. unfold f, g.
      replace (Z.of_nat (1 + (Z.to_nat (month t) - 2)))%Z with (m - 1)%Z by lia.
      destruct mult; reflexivity.
  Qed.

  (* Fourier: column of the matrix for a date *)
  Definition fourier_column (t : Z) : list T :=
    (map (fun i => nsin (fourier_arg i (day_of t))) (seq 1 FOURIER_HARMONICS) ++
     map (fun i => ncos (fourier_arg i (day_of t))) (seq 1 FOURIER_HARMONICS))%list.
  Lemma fourier_columns (ds : list Z) j t : nth_error ds j = Some t ->
    column (fourier_matrix ds) j = fourier_column t.
  Proof.
    intros Hj. unfold column, fourier_matrix, fourier_column. rewrite map_app, !map_map.
    assert (E : forall f : Z -> T, nth j (map f ds) nnan = f t).
    { intros f. apply nth_error_nth. now apply map_nth_error. }
    f_equal; apply map_ext; intros i; apply (E (fun t => _ (fourier_arg i (day_of t)))).
  Qed.
  Lemma map_index {A B} (f : nat -> B) (g : A -> B) (l : list A) :
    (forall j a, nth_error l j = Some a -> f j = g a) -> map f (seq 0 (length l)) = map g l.
  Proof.
    revert f. induction l as [|a l IH]; intros f E; [reflexivity|]. cbn.
    rewrite (E 0%nat a eq_refl). f_equal. rewrite <- seq_shift, map_map. apply IH.
    intros j b Hb. now apply E.
  Qed.
  Lemma fourier_formula xs ds p mult act : length p = 20%nat ->
    call model_season_fourier_yearly xs (Some ds) (Some p) mult (mkKw act []) =
    Ok (Ar (map (fun t => dot p (fourier_column t)) ds)).
  Proof.
    intros Hp. unfold call. cbn [fm_f model_season_fourier_yearly mk_model]. unfold f_fourier.
    cbn [kw_cache dict_get cache_a_t_fourier rbind]. unfold matmul.
    replace (length (fourier_matrix ds)) with 20%nat by reflexivity.
    rewrite Hp. cbn [Nat.eqb]. do 2 f_equal.
    replace (n_cols (fourier_matrix ds)) with (length ds)
      by (unfold n_cols, fourier_matrix; cbn; now rewrite map_length).
    apply map_index. intros j t Hj. now rewrite (fourier_columns ds j t Hj).
  Qed.
End Generic.

(* ---------- Fourier over the reals ---------- *)
Open Scope R_scope.
Definition fourier_freq (i : nat) : R := 2 * PI / (36525 / 100) * INR i.
(* documented formula: sum of sines and cosines of the day number *)
Definition fourier_spec (p : list R) (day : Z) : R :=
  rsum (map (fun i => nth (i - 1) p 0 * sin (fourier_freq i * IZR day)) (seq 1 10)) +
  rsum (map (fun i => nth (i + 9) p 0 * cos (fourier_freq i * IZR day)) (seq 1 10)).

Lemma fourier_arg_fin i day : fourier_arg i day = Fin (fourier_freq i * IZR day).
Proof.
  unfold fourier_arg, fourier_k. rewrite dec_fin by lia. rewrite !ofZ_fin.
  change (@npi XR _) with (Fin PI). rewrite mul_fin, div_fin by lra. rewrite !mul_fin.
  unfold fourier_freq. now rewrite INR_IZR_INZ.
Qed.
Lemma dot_fin (p c : list R) : dot (fins p) (fins c) = Fin (rsum (map (fun ab => fst ab * snd ab) (combine p c))).
Proof.
  unfold dot, fins, map2.
  replace (map (fun q : XR * XR => nmul (fst q) (snd q)) (combine (map Fin p) (map Fin c)))
    with (map Fin (map (fun ab => fst ab * snd ab) (combine p c))).
  - apply nsum_fin.
  - rewrite map_map. revert c. induction p as [|a p IH]; intros [|b c]; try reflexivity.
    cbn. f_equal. apply IH.
Qed.
Lemma fourier_value p t : length p = 20%nat ->
  dot (fins p) (fourier_column t) = Fin (fourier_spec p (day_of t)).
Proof.
  intros Hp.
  assert (E : fourier_column t = fins (map (fun i => sin (fourier_freq i * IZR (day_of t))) (seq 1 10) ++
                                       map (fun i => cos (fourier_freq i * IZR (day_of t))) (seq 1 10))).
  { unfold fourier_column, fins. rewrite map_app, !map_map.
    f_equal; apply map_ext; intros i; rewrite fourier_arg_fin; reflexivity. }
  rewrite E, dot_fin. f_equal. unfold fourier_spec.
  do 20 (destruct p as [|? p]; [discriminate|]). destruct p; [|discriminate].
  cbn [map seq app combine rsum fst snd nth Nat.sub Nat.add].
  generalize (fun i => sin (fourier_freq i * IZR (day_of t))) (fun i => cos (fourier_freq i * IZR (day_of t))).
  intros. ring.
Qed.
Lemma fourier_real xs ds p mult act : length p = 20%nat ->
  call model_season_fourier_yearly xs (Some ds) (Some (fins p)) mult (mkKw act []) =
  Ok (Ar (fins (map (fun t => fourier_spec p (day_of t)) ds))).
Proof.
  intros Hp. rewrite fourier_formula by (unfold fins; now rewrite map_length).
  do 2 f_equal. unfold fins at 2. rewrite map_map. apply map_ext. intros t. now apply fourier_value.
Qed.

Lemma sin_2pi_k x (k : nat) : sin (x + 2 * PI * INR k) = sin x.
Proof. rewrite <- (sin_period x k). f_equal. ring. Qed.
Lemma cos_2pi_k x (k : nat) : cos (x + 2 * PI * INR k) = cos x.
Proof. rewrite <- (cos_period x k). f_equal. ring. Qed.
Lemma freq_period i day : fourier_freq i * IZR (day + 1461) = fourier_freq i * IZR day + 2 * PI * INR (4 * i).
Proof.
  unfold fourier_freq. rewrite plus_IZR, mult_INR. cbn [INR]. field.
Qed.
Lemma fourier_period p day : fourier_spec p (day + 1461) = fourier_spec p day.
Proof.
  unfold fourier_spec. f_equal; f_equal; apply map_ext; intros i; rewrite freq_period;
    [rewrite sin_2pi_k|rewrite cos_2pi_k]; reflexivity.
Qed.
Lemma fourier_period_k p day (k : Z) : fourier_spec p (day + 1461 * k) = fourier_spec p day.
Proof.
  assert (N : forall (n : nat) d, fourier_spec p (d + 1461 * Z.of_nat n) = fourier_spec p d).
  { induction n as [|n IH]; intros d.
    - f_equal. lia.
    - replace (d + 1461 * Z.of_nat (S n))%Z with (d + 1461 * Z.of_nat n + 1461)%Z by lia.
      now rewrite fourier_period. }
  destruct (Z_le_gt_dec 0 k) as [Hk|Hk].
  - rewrite <- (Z2Nat.id k Hk). apply N.
  - rewrite <- (N (Z.to_nat (- k)) (day + 1461 * k)%Z). f_equal. lia.
Qed.
Lemma rsum_plus {A} (f g : A -> R) l : rsum (map (fun i => f i + g i) l) = rsum (map f l) + rsum (map g l).
Proof. induction l as [|a l IH]; cbn; [lra|]. rewrite IH. lra. Qed.
Lemma rsum_scale {A} c (f : A -> R) l : rsum (map (fun i => c * f i) l) = c * rsum (map f l).
Proof. induction l as [|a l IH]; cbn; [lra|]. rewrite IH. lra. Qed.
Lemma nth_lin a b p q : length p = length q -> forall i,
  nth i (map (fun uv => a * fst uv + b * snd uv) (combine p q)) 0 = a * nth i p 0 + b * nth i q 0.
Proof.
  revert q. induction p as [|u p IH]; intros [|v q] Hl i; try discriminate.
  - destruct i; cbn; lra.
  - injection Hl as Hl. destruct i as [|i]; cbn; [lra|]. now apply IH.
Qed.
Lemma fourier_linear a b p q day : length p = length q ->
  fourier_spec (map (fun uv => a * fst uv + b * snd uv) (combine p q)) day =
  a * fourier_spec p day + b * fourier_spec q day.
Proof.
  intros Hl. unfold fourier_spec.
  set (P := map (fun uv => a * fst uv + b * snd uv) (combine p q)).
  assert (E : forall (off : nat -> nat) (g : nat -> R),
    rsum (map (fun i => nth (off i) P 0 * g i) (seq 1 10)) =
    a * rsum (map (fun i => nth (off i) p 0 * g i) (seq 1 10)) +
    b * rsum (map (fun i => nth (off i) q 0 * g i) (seq 1 10))).
  { intros off g. rewrite <- !rsum_scale, <- rsum_plus. f_equal. apply map_ext. intros i.
    unfold P. rewrite nth_lin by exact Hl. ring. }
  rewrite (E (fun i => i - 1)%nat (fun i => sin (fourier_freq i * IZR day))).
  rewrite (E (fun i => i + 9)%nat (fun i => cos (fourier_freq i * IZR day))). ring.
Qed.
