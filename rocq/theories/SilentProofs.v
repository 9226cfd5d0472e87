(* The cost of models without parameters (C103). *)
From Coq Require Import ZArith String List Bool Lia Reals Lra Sorted Permutation QArith_base.
From Verif Require Import Num Py Cal Fmt Model Base Fixed Naive Freq Aic Normalize Fit Interp Select Stats Outliers Pi Forecast.
From Verif Require Import NumProofs ListProofs StringProofs ModelProofs BaseProofs FixedProofs FitProofs AicProofs NaiveProofs SnaiveProofs LsqProofs ForecastProofs ForecastProofs RobustProofs TotalProofs TotalProofs2.
Import ListNotations.
Local Open Scope string_scope.
Local Open Scope list_scope.
Local Open Scope R_scope.

(* what a sample with prediction v adds to twice the cost: nothing if there is no prediction *)
Definition miss (f : frame XR) (p : row XR * XR) : R :=
  match snd p with Fin v => (share f (fst p) * (real (r_y (fst p)) - v)) ^ 2 | _ => 0 end.
Definition misses (f : frame XR) (vs : list XR) : R := fold_right Rplus 0 (map (miss f) (combine (usable_rows f) vs)).
(* a residual and the sample it belongs to *)
Definition residual_of (f : frame XR) (p : row XR * XR) (e : XR) : Prop :=
  match snd p with Fin v => exists a, e = Fin a /\ a * a = (share f (fst p) * (real (r_y (fst p)) - v)) ^ 2 | _ => e = XNaN end.
Lemma fold_misses f ps es : Forall2 (residual_of f) ps es -> forall s,
  fold_left nadd (filter (fun a => negb (nisnan a)) (map (fun a => nmul a a) es)) (Fin s) = Fin (s + fold_right Rplus 0 (map (miss f) ps)).
Proof.
  induction 1 as [|[r v] e ps es R F IH]; intros s; [cbn; f_equal; ring|]. cbn [map filter fold_right]. unfold residual_of, miss in *. cbn [fst snd] in *.
  destruct v as [| | |v]; try (subst e; cbn [nmul XROps xmul nisnan xisnan negb]; rewrite IH; f_equal; ring).
  destruct R as (a & -> & Ea). cbn [nmul XROps xmul nisnan xisnan negb fold_left nadd xadd]. rewrite IH, Ea. f_equal. ring.
Qed.
Lemma residuals_of (m : fmodel XR) (f : frame XR) act vs : finite_rows f -> length vs = length (usable_rows f) -> Forall tame vs ->
  call m (xs_of m f) (dates_of f) None false (mkKw act []) = Ok (Ar vs) ->
  exists es, get_residuals None m (xs_of m f) (ys_of f) (dates_of f) (ws_of f) act [] = Ok es /\ Forall2 (residual_of f) (combine (usable_rows f) vs) es.
Proof.
  intros Fr L Tv Ec. destruct (rows_fitted f (fun _ => []) Fr) as [Ey Ew]. unfold get_residuals. rewrite Ec. cbn [rbind].
  assert (Ly : length (ys_of f) = length (usable_rows f)) by apply map_length.
  cbn [bcast2]. rewrite Ly, L, Nat.eqb_refl. cbn [rbind]. destruct (ws_of f) as [ws|] eqn:Eq.
  - pose proof (ws_length _ _ Eq) as Lw. cbn [bcast2]. rewrite map2_length by congruence. rewrite Ly, Lw, Nat.eqb_refl. cbn [rbind nval_list].
    eexists. split; [reflexivity|]. subst ws. rewrite Ey. unfold samples. rewrite !map_map. cbn [s_y s_w]. clear - Tv L. revert vs Tv L.
    generalize (usable_rows f). induction l as [|r l IH]; intros [|v vs] Tv L; try discriminate; [constructor|]. inversion_clear Tv as [|? ? T Ts]. cbn. constructor; [|apply IH; [exact Ts|now injection L]].
    unfold residual_of. cbn [fst snd]. destruct T as [(p & ->)| ->]; [|reflexivity]. cbn. eexists. split; [reflexivity|]. rewrite <- Rabs_mult. rewrite Rabs_pos_eq by apply Rle_0_sqr. ring.
  - cbn [rbind nval_list]. eexists. split; [reflexivity|]. rewrite Ey. unfold samples in *. rewrite Forall_map in Ew. cbn [s_w] in Ew. rewrite map_map. cbn [s_y]. clear - Tv L Ew. revert vs Tv L Ew.
    generalize (usable_rows f). induction l as [|r l IH]; intros [|v vs] Tv L Ew; try discriminate; [constructor|]. inversion_clear Tv as [|? ? T Ts]. inversion_clear Ew as [|? ? W Ws]. cbn. constructor; [|apply IH; [exact Ts|now injection L|exact Ws]].
    unfold residual_of. cbn [fst snd]. rewrite W. destruct T as [(p & ->)| ->]; [|reflexivity]. cbn. eexists. split; [reflexivity|]. rewrite <- Rabs_mult. rewrite Rabs_pos_eq by apply Rle_0_sqr. ring.
Qed.
(* models without parameters, bounds and conditions on the input *)
Definition plain (m : fmodel XR) : Prop := m = model_naive \/ m = model_snaive_wday.
Theorem plain_fit E m f freq src act uc vs : plain m -> finite_rows f -> (2 <= length (usable_rows f))%nat -> length vs = length (usable_rows f) -> Forall tame vs ->
  call m (xs_of m f) (dates_of f) None false (mkKw act []) = Ok (Ar vs) ->
  exists d, fit_model E m f freq src act uc = Ok d /\ md_status d = "FIT" /\ md_fit d = true /\ md_cost d = Fin (misses f vs / 2) /\
    get_aic_c (md_cost d) (Z.of_nat (length (usable_rows f))) 0 = Ok (md_aicc d).
Proof.
  intros Pm Fr L2 L Tv Ec. assert (Hn : usable_rows f <> []) by (intros K; rewrite K in L2; cbn in L2; lia).
  unfold fit_model. rewrite (fit_unfold zero_lt_XR). destruct (range_ok (T := XR) E m f Hn) as (range & ->). cbn [rbind]. cbv zeta.
  assert (Nm : fm_n m = 0%nat) by (destruct Pm as [->| ->]; reflexivity). rewrite Nm.
  destruct (Nat.ltb_spec (length (usable_rows f)) (0 + 2)); [lia|].
  assert (validate_input m (xs_of m f) (ys_of f) (dates_of f) = Ok true) as -> by (destruct Pm as [->| ->]; reflexivity). cbn [rbind negb].
  rewrite (simplify_nothing (e_arr E) m _ _ _ (mkBounds [] [] false)); [|destruct Pm as [->| ->]; reflexivity|reflexivity|intros i (lo & hi & P & _); cbn [b_lo] in P; destruct i; discriminate].
  cbn [rbind]. rewrite Nm, Nat.eqb_refl. destruct (residuals_of m f act vs Fr L Tv Ec) as (es & -> & F2). cbn [rbind].
  assert (Ek : nmul (dec 5 10) (nansum (map (fun a => nmul a a) es)) = Fin (misses f vs / 2)).
  { unfold nansum, nsum. change (n0 : XR) with (Fin 0). rewrite (fold_misses f _ _ F2), NumProofs.dec_fin by lia. cbn. unfold misses. f_equal. field. }
  rewrite Ek. assert (Pk : 0 <= misses f vs).
  { unfold misses. clear. induction (combine (usable_rows f) vs) as [|p l IH]; [cbn; lra|]. cbn [map fold_right]. assert (0 <= miss f p) by (unfold miss; destruct (snd p); try lra; apply pow2_ge_0). lra. }
  destruct (aic_some (Fin (misses f vs / 2)) (Z.of_nat (length (usable_rows f))) (Z.of_nat 0)) as (sc & Es); [lia|lia|left; eexists; split; [reflexivity|lra]|]. rewrite Es. cbn [rbind]. eexists. split; [reflexivity|]. cbn. auto.
Qed.
Lemma misses_none f vs : Forall (fun v => v = XNaN) vs -> misses f vs = 0.
Proof.
  intros F. unfold misses. generalize (usable_rows f). induction F as [|v vs -> F IH]; intros [|r l]; try reflexivity. cbn. unfold miss at 1. cbn. rewrite IH. ring.
Qed.
(* ---- the first week ---- *)
(* the rows that are fitted are rows of the table of actuals, with the same positions; no actual has a
   predecessor on the same weekday *)
Record first_week (f act : frame XR) : Prop := {
  fw_date : has_date f = true; fw_dates : has_date act = true;
  fw_sorted : sorted_x (rows act);
  fw_x : StronglySorted Z.lt (map r_x (usable_rows f));
  fw_in : forall q, In q (usable_rows f) -> exists r, In r (rows act) /\ r_date r = r_date q /\ r_x r = r_x q;
  fw_once : forall r q, In r (rows act) -> In q (usable_rows f) -> weekday (r_date r) = weekday (r_date q) -> (r_x r < r_x q)%Z -> r_y r = XNaN }.
Lemma first_week_silent f act : first_week f act ->
  exists vs, call model_snaive_wday (xs_of model_snaive_wday f) (dates_of f) None false (mkKw (Some act) []) = Ok (Ar vs) /\
    length vs = length (usable_rows f) /\ Forall (fun v => v = XNaN) vs.
Proof.
  intros W. set (ds := map r_date (usable_rows f)). set (zs := map r_x (usable_rows f)).
  assert (Cz : combine ds zs = map (fun q => (r_date q, r_x q)) (usable_rows f)) by (unfold ds, zs; generalize (usable_rows f); clear; induction l as [|a l IH]; [reflexivity|]; cbn; now rewrite IH).
  assert (Kn : forall p, In p (combine ds zs) -> in_dates (rows act) (fst p) = true).
  { rewrite Cz. intros p I. apply in_map_iff in I as (q & <- & Iq). cbn [fst]. destruct (fw_in _ _ W q Iq) as (r & Ir & Er & _). unfold in_dates. apply existsb_exists. exists (r_date r). split; [now apply in_map|]. now rewrite Er, Z.eqb_refl. }
  destruct (snaive_correct (N := XROps) eq_refl act ds zs None (Some false) (fw_dates _ _ W) (fw_sorted _ _ W)) as (o1 & o2 & E & F1 & F2).
  - apply xr_exact_ints.
  - unfold ds, zs. now rewrite !map_length.
  - exact (fw_x _ _ W).
  - rewrite Cz. intros t z I _. apply in_map_iff in I as (q & [= <- <-] & Iq). exact (fw_in _ _ W q Iq).
  - assert (Ef : filter (fun q => negb (in_dates (rows act) (fst q))) (combine ds zs) = []).
    { clear - Kn. induction (combine ds zs) as [|p l IH]; [reflexivity|]. cbn [filter]. rewrite (Kn p) by now left. cbn [negb]. apply IH. intros q I. apply Kn. now right. }
    rewrite Ef in F2. inversion F2; subst o2. rewrite app_nil_r in E.
    assert (Eg : filter (fun q => in_dates (rows act) (fst q)) (combine ds zs) = combine ds zs).
    { clear - Kn. induction (combine ds zs) as [|p l IH]; [reflexivity|]. cbn [filter]. rewrite (Kn p) by now left. f_equal. apply IH. intros q I. apply Kn. now right. }
    rewrite Eg, Cz in F1. exists o1. split; [|split].
    + unfold call, dates_of. rewrite (fw_date _ _ W). replace (xs_of model_snaive_wday f) with (map (@nofZ XR _) zs); [exact E|]. unfold xs_of, zs. now rewrite map_map.
    + rewrite <- (Forall2_len _ _ _ F1). now rewrite map_length.
    + apply Forall_forall. intros v Iv. destruct (Forall2_in_r _ _ _ _ F1 Iv) as (p & Ip & S). apply in_map_iff in Ip as (q & <- & Iq). cbn [fst snd] in S.
      destruct S as [(r & Ir & [Ew Lx] & Nn & _)|[_ ->]]; [|reflexivity]. rewrite (fw_once _ _ W r q Ir Iq Ew Lx) in Nn. discriminate Nn.
Qed.
Theorem first_week_fit E f act freq src uc : first_week f act -> finite_rows f -> (2 <= length (usable_rows f))%nat ->
  exists d, fit_model E model_snaive_wday f freq src (Some act) uc = Ok d /\ md_fit d = true /\ md_cost d = Fin 0 /\
    get_aic_c (Fin 0) (Z.of_nat (length (usable_rows f))) 0 = Ok (md_aicc d).
Proof.
  intros W Fr L2. destruct (first_week_silent f act W) as (vs & Ec & L & S).
  destruct (plain_fit E model_snaive_wday f freq src (Some act) uc vs) as (d & Ed & _ & Hf & Hc & Ha); auto; [now right|eapply Forall_impl; [|exact S]; intros v ->; now right|].
  rewrite (misses_none f vs S) in Hc. replace (0 / 2) with 0 in Hc by field. rewrite Hc in Ha. eauto 6.
Qed.
Lemma below_any c n k : (0 <= k)%Z -> (k + 1 < n)%Z -> Rpower 10 (-320) < c -> below (get_aic_c (Fin 0) n 0) (get_aic_c (Fin c) n k).
Proof.
  intros Hk Hn Hc. pose proof (score_zero_below c n 0 ltac:(lia) ltac:(lia) Hc) as (a & b & Ea & Eb & Lt).
  destruct (Z.eq_dec k 0) as [->|Nk]; [exists a, b; auto|].
  assert (0 < c) by (pose proof (tiny_pos); lra).
  destruct (score_increasing_params c n 0 k) as (b' & e & Eb' & Ee & Lt'); [lia|lia|assumption|]. rewrite Eb in Eb'. apply ok_inj in Eb'. subst b'. exists a, e. split; [exact Ea|]. split; [exact Ee|].
  destruct a as [| | |a], b as [| | |b], e as [| | |e]; cbn in *; try discriminate; try reflexivity. unfold Rltb in *. destruct (Rlt_dec a b), (Rlt_dec b e), (Rlt_dec a e); try discriminate; try reflexivity. lra.
Qed.
