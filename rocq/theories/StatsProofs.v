(* Facts about the automatic choice between additive and multiplicative composition. *)
From Coq Require Import ZArith String List Bool Reals Lra Lia Sorted QArith_base Permutation.
From Verif Require SeasonProofs.
From Verif Require Import Num NumProofs Py Cal Model Base Naive Freq Normalize Fit Select Stats ListProofs FreqProofs SelectProofs.
Import ListNotations.
Local Open Scope list_scope.
Local Open Scope R_scope.

(* ---------- specification: textbook statistics over the reals ---------- *)
Definition point := (Z * Z * R)%type.
Definition pt_date (p : point) : Z := fst (fst p).
Definition pt_x (p : point) : Z := snd (fst p).
Definition pt_y (p : point) : R := snd p.
(* date, x and value of the samples with a value *)
Definition points (f : frame XR) : list point :=
  flat_map (fun r => match r_y r with Fin v => [(r_date r, r_x r, v)] | _ => [] end) (rows f).
Definition finite_or_null (a : XR) : Prop := a = XNaN \/ exists v, a = Fin v.
Definition Rmean (l : list R) : R := rsum l / INR (length l).
(* sample covariance and variance *)
Definition Rcov (l : list (R * R)) : R :=
  rsum (map (fun p => (fst p - Rmean (map fst l)) * (snd p - Rmean (map snd l))) l) / (INR (length l) - 1).
Definition Rvar (l : list R) : R :=
  rsum (map (fun a => (a - Rmean l) * (a - Rmean l)) l) / (INR (length l) - 1).
(* the correlation is defined and at least c *)
Definition correlated (c : R) (l : list (R * R)) : Prop :=
  0 < Rvar (map fst l) /\ 0 < Rvar (map snd l) /\
  c <= Rcov l / (sqrt (Rvar (map fst l)) * sqrt (Rvar (map snd l))).
Definition of_month (k : Z) (l : list point) : list point := filter (fun p => (month_no (pt_date p) =? k)%Z) l.
(* months with at least two samples *)
Definition rich_months (l : list point) : list Z :=
  filter (fun k => Nat.leb 2 (length (of_month k l))) (sort_uniq (map (fun p => month_no (pt_date p)) l)).
(* for each of them, variance about the line a x + b, and mean *)
Definition month_stats (a b : R) (l : list point) : list (R * R) :=
  map (fun k => (Rvar (map (fun p => pt_y p - (a * IZR (pt_x p) + b)) (of_month k l)), Rmean (map pt_y (of_month k l))))
    (rich_months l).

(* ---------- sums ---------- *)
Lemma rsum_map_add {A} (f g : A -> R) l : rsum (map (fun a => f a + g a) l) = rsum (map f l) + rsum (map g l).
Proof. induction l as [|a l IH]; cbn; [lra|]. rewrite IH. lra. Qed.
Lemma rsum_map_scale {A} c (f : A -> R) l : rsum (map (fun a => c * f a) l) = c * rsum (map f l).
Proof. induction l as [|a l IH]; cbn; [lra|]. rewrite IH. lra. Qed.
Lemma rsum_map_const {A} c (l : list A) : rsum (map (fun _ => c) l) = INR (length l) * c.
Proof. induction l as [|a l IH]; [cbn; lra|]. cbn [map rsum length]. rewrite IH, S_INR. lra. Qed.
Lemma rsum_zero l : (forall a, In a l -> a = 0) -> rsum l = 0.
Proof. induction l as [|a l IH]; cbn; intros Z; [reflexivity|]. rewrite IH, (Z a); auto. lra. Qed.
Lemma rsum_nonneg l : (forall a, In a l -> 0 <= a) -> 0 <= rsum l.
Proof. induction l as [|a l IH]; cbn; intros Z; [lra|]. specialize (IH (fun b Ib => Z b (or_intror Ib))). specialize (Z a (or_introl eq_refl)). lra. Qed.
Lemma rsum_nonneg_zero l : (forall a, In a l -> 0 <= a) -> rsum l = 0 -> forall a, In a l -> a = 0.
Proof.
  induction l as [|a l IH]; cbn; intros Z S b; [tauto|].
  assert (0 <= rsum l) by (apply rsum_nonneg; auto). assert (0 <= a) by auto.
  intros [<-|Ib]; [lra|]. apply IH; auto. lra.
Qed.
Lemma INR_ge2 n : (2 <= n)%nat -> 2 <= INR n.
Proof. intros L. apply (le_INR 2) in L. cbn in L. lra. Qed.
Lemma Rmean_affine (c d : R) l : l <> [] -> Rmean (map (fun a => c * a + d) l) = c * Rmean l + d.
Proof.
  intros Hn. unfold Rmean. rewrite map_length, rsum_map_add, rsum_map_scale, map_id, rsum_map_const.
  assert (INR (length l) <> 0). { apply not_0_INR. destruct l; cbn; congruence. } field. assumption.
Qed.
Lemma Rvar_affine (c d : R) l : Rvar (map (fun a => c * a + d) l) = c * c * Rvar l.
Proof.
  destruct l as [|a0 l0]; [unfold Rvar; cbn; unfold Rdiv; ring|]. set (l := a0 :: l0).
  unfold Rvar. rewrite map_length, Rmean_affine by (unfold l; discriminate). rewrite map_map.
  rewrite (map_ext _ (fun a => (c * c) * ((a - Rmean l) * (a - Rmean l)))) by (intros; ring).
  rewrite rsum_map_scale. unfold Rdiv. ring.
Qed.
Lemma Rvar_nonneg l : (2 <= length l)%nat -> 0 <= Rvar l.
Proof.
  intros L. apply INR_ge2 in L. unfold Rvar. apply Rmult_le_pos.
  - apply rsum_nonneg. intros a Ia. apply in_map_iff in Ia as (b & <- & _). apply Rle_0_sqr.
  - apply Rlt_le, Rinv_0_lt_compat. lra.
Qed.
Lemma Rvar_zero l : (2 <= length l)%nat -> Rvar l = 0 -> forall a, In a l -> a - Rmean l = 0.
Proof.
  intros L V a Ia. apply INR_ge2 in L. unfold Rvar in V.
  assert (rsum (map (fun a => (a - Rmean l) * (a - Rmean l)) l) = 0) as S.
  { apply Rmult_integral in V as [V|V]; [exact V|]. exfalso. revert V. apply Rinv_neq_0_compat. lra. }
  assert ((a - Rmean l) * (a - Rmean l) = 0) as Z.
  { refine (rsum_nonneg_zero _ _ S _ (proj2 (in_map_iff _ _ _) (ex_intro _ a (conj eq_refl Ia)))).
    intros b Ib. apply in_map_iff in Ib as (c & <- & _). apply Rle_0_sqr. }
  apply Rmult_integral in Z. tauto.
Qed.
Lemma Rcov_zero l : (2 <= length l)%nat -> Rvar (map fst l) = 0 \/ Rvar (map snd l) = 0 -> Rcov l = 0.
Proof.
  intros L V. unfold Rcov. rewrite rsum_zero; [unfold Rdiv; ring|]. intros a Ia. apply in_map_iff in Ia as (p & <- & Ip).
  destruct V as [V|V].
  - rewrite (Rvar_zero (map fst l)); [ring|now rewrite map_length|exact V|now apply in_map].
  - rewrite (Rvar_zero (map snd l)); [ring|now rewrite map_length|exact V|now apply in_map].
Qed.

(* ---------- the model's statistics on finite values ---------- *)
Definition fin2 (p : R * R) : XR * XR := (Fin (fst p), Fin (snd p)).
Lemma map_fst_fin2 l : map fst (map fin2 l) = map Fin (map fst l).
Proof. rewrite !map_map. reflexivity. Qed.
Lemma map_snd_fin2 l : map snd (map fin2 l) = map Fin (map snd l).
Proof. rewrite !map_map. reflexivity. Qed.
Lemma np_mean_fin l : l <> [] -> np_mean (map Fin l) = Fin (Rmean l).
Proof.
  intros Hn. unfold np_mean, nnat. rewrite nsum_fin, map_length, ofZ_fin, <- INR_IZR_INZ. apply div_fin.
  apply not_0_INR. destruct l; cbn; congruence.
Qed.
Lemma valid_values_fin l : valid_values (map Fin l) = map Fin l.
Proof. unfold valid_values. induction l as [|a l IH]; [reflexivity|]. cbn in *. now rewrite IH. Qed.
Lemma size_fin n : (2 <= n)%nat -> @nofZ XR _ (Z.of_nat n - 1) = Fin (INR n - 1) /\ INR n - 1 <> 0.
Proof. intros L. split; [rewrite ofZ_fin, minus_IZR, <- INR_IZR_INZ; reflexivity|]. apply INR_ge2 in L. lra. Qed.
Lemma two_not_nil {A} (l : list A) : (2 <= length l)%nat -> l <> [].
Proof. destruct l; cbn; [lia|discriminate]. Qed.
Lemma bin_var_fin l : (2 <= length l)%nat -> bin_var (map Fin l) = Fin (Rvar l).
Proof.
  intros L. unfold bin_var. rewrite valid_values_fin, map_length.
  destruct (Nat.ltb_spec (length l) 2); [lia|]. rewrite np_mean_fin by now apply two_not_nil.
  rewrite map_map. rewrite (map_ext _ (fun a => Fin ((a - Rmean l) * (a - Rmean l)))) by reflexivity.
  rewrite <- (map_map (fun a => (a - Rmean l) * (a - Rmean l)) Fin), nsum_fin.
  destruct (size_fin _ L) as [-> Z]. now rewrite div_fin.
Qed.
Lemma bin_var_short l : (length l < 2)%nat -> bin_var (map Fin l) = XNaN.
Proof. intros L. unfold bin_var. rewrite valid_values_fin, map_length. destruct (Nat.ltb_spec (length l) 2); [reflexivity|lia]. Qed.
Lemma cov_fin l : (2 <= length l)%nat -> cov (map fin2 l) = Fin (Rcov l).
Proof.
  intros L. pose proof (two_not_nil l L) as Hn. unfold cov. rewrite map_fst_fin2, map_snd_fin2.
  rewrite !np_mean_fin by (destruct l; cbn; congruence). rewrite map_map, map_length.
  rewrite (map_ext _ (fun p => Fin ((fst p - Rmean (map fst l)) * (snd p - Rmean (map snd l))))) by reflexivity.
  rewrite <- (map_map (fun p => (fst p - Rmean (map fst l)) * (snd p - Rmean (map snd l))) Fin), nsum_fin.
  destruct (size_fin _ L) as [-> Z]. now rewrite div_fin.
Qed.
Lemma cov_diag l : (2 <= length l)%nat -> cov (map (fun a => (a, a)) (map Fin l)) = Fin (Rvar l).
Proof.
  intros L. rewrite map_map. change (fun x => (Fin x, Fin x)) with (fun x => fin2 (x, x)). rewrite <- (map_map (fun x => (x, x)) fin2).
  rewrite cov_fin by now rewrite map_length. f_equal. unfold Rcov, Rvar. rewrite !map_map, !map_length. cbn [fst snd]. now rewrite !map_id.
Qed.
Lemma sqrt_fin v : 0 <= v -> nsqrt (Fin v) = Fin (sqrt v).
Proof. intros L. cbn. destruct (Rltb_spec v 0); [lra|reflexivity]. Qed.
Lemma complete_fin l : filter (fun p : XR * XR => negb (nisnan (fst p)) && negb (nisnan (snd p))) (map fin2 l) = map fin2 l.
Proof. induction l as [|p l IH]; [reflexivity|]. cbn in *. now rewrite IH. Qed.
Lemma Rvar_single a : Rvar [a] = 0.
Proof. unfold Rvar, Rmean. cbn. unfold Rdiv. replace (1 - 1) with 0 by lra. replace ((a + 0) * / 1) with a by field. ring. Qed.

Lemma clip_ge c v : -1 < c <= 1 -> nleb (Fin c) (clip1 (Fin v)) = Rleb c v.
Proof.
  intros B. unfold clip1. rewrite n1_fin. change (nopp (Fin 1)) with (Fin (- 1)). cbn [nltb XROps xltb].
  destruct (Rltb_spec v (- 1)) as [L|L].
  { cbn. destruct (Rleb_spec c (-1)), (Rleb_spec c v); auto; lra. }
  destruct (Rltb_spec 1 v) as [L2|L2]; cbn; [|reflexivity]. destruct (Rleb_spec c 1), (Rleb_spec c v); auto; lra.
Qed.

Definition raw_corr (l : list (R * R)) : XR :=
  ndiv (ndiv (cov (map fin2 l)) (nsqrt (cov (map (fun a => (a, a)) (map Fin (map fst l))))))
       (nsqrt (cov (map (fun a => (a, a)) (map Fin (map snd l))))).
Lemma corr_raw l : l <> [] -> corr (map fin2 l) = clip1 (raw_corr l).
Proof.
  intros Hn. unfold corr. rewrite complete_fin. unfold raw_corr. rewrite <- map_fst_fin2, <- map_snd_fin2. destruct l; [congruence|reflexivity].
Qed.
Lemma cov_single p : cov [fin2 p] = XNaN.
Proof.
  unfold cov. change (map fst [fin2 p]) with (map Fin [fst p]). change (map snd [fin2 p]) with (map Fin [snd p]).
  rewrite !np_mean_fin by discriminate. cbn [map fin2 fst snd length]. rewrite !sub_fin, mul_fin.
  assert (fst p - Rmean [fst p] = 0) as ->. { unfold Rmean. cbn. field. }
  rewrite Rmult_0_l. change [Fin 0] with (map Fin [0]). rewrite nsum_fin. cbn [rsum]. rewrite Rplus_0_r.
  change (Z.of_nat 1 - 1)%Z with 0%Z. rewrite ofZ_fin. cbn. rewrite Reqb_refl. unfold xsgninf. now rewrite Reqb_refl.
Qed.
Lemma zero_over_zero : ndiv (Fin 0) (Fin 0) = XNaN.
Proof. cbn. rewrite Reqb_refl. unfold xsgninf. now rewrite Reqb_refl. Qed.
Lemma nan_div (a : XR) : ndiv XNaN a = XNaN.
Proof. reflexivity. Qed.
Theorem corr_ge l c : -1 < c <= 1 -> (nleb (Fin c) (corr (map fin2 l)) = true <-> correlated c l).
Proof.
  intros B. destruct (Nat.le_gt_cases 2 (length l)) as [L|L].
  2:{ destruct l as [|p0 [|p1 l0]]; [| |cbn in L; lia].
      - split; [discriminate|]. intros (V & _). unfold Rvar in V. cbn in V. unfold Rdiv in V. rewrite Rmult_0_l in V. lra.
      - rewrite corr_raw by discriminate. unfold raw_corr. change (map fin2 [p0]) with [fin2 p0]. rewrite cov_single, !nan_div.
        split; [discriminate|]. intros (V & _). cbn [map] in V. rewrite Rvar_single in V. lra. }
  rewrite corr_raw by now apply two_not_nil. unfold raw_corr.
  rewrite cov_fin by exact L. rewrite !cov_diag by (rewrite map_length; exact L).
  pose proof (Rvar_nonneg (map fst l) ltac:(now rewrite map_length)) as V1. pose proof (Rvar_nonneg (map snd l) ltac:(now rewrite map_length)) as V2.
  rewrite !sqrt_fin by assumption. unfold correlated.
  destruct (Rle_lt_or_eq_dec _ _ V1) as [P1|P1].
  2:{ rewrite <- P1, (Rcov_zero l L) by (left; congruence). rewrite sqrt_0, zero_over_zero, nan_div. split; [discriminate|]. intros (K & _). lra. }
  pose proof (sqrt_lt_R0 _ P1) as S1. rewrite div_fin by lra.
  destruct (Rle_lt_or_eq_dec _ _ V2) as [P2|P2].
  2:{ rewrite <- P2, (Rcov_zero l L) by (right; congruence). rewrite sqrt_0. unfold Rdiv. rewrite Rmult_0_l, zero_over_zero.
      split; [discriminate|]. intros (_ & K & _). lra. }
  pose proof (sqrt_lt_R0 _ P2) as S2. rewrite div_fin by lra. rewrite clip_ge by exact B.
  replace (Rcov l / sqrt (Rvar (map fst l)) / sqrt (Rvar (map snd l))) with (Rcov l / (sqrt (Rvar (map fst l)) * sqrt (Rvar (map snd l)))) by (field; lra).
  destruct (Rleb_spec c (Rcov l / (sqrt (Rvar (map fst l)) * sqrt (Rvar (map snd l))))); split; auto; try discriminate. tauto.
Qed.

(* ---------- monthly statistics ---------- *)
Lemma points_of_month f k (g : point -> R) (h : row XR -> XR) :
  Forall (fun r => finite_or_null (r_y r)) (rows f) ->
  (forall r, r_y r = XNaN -> h r = XNaN) -> (forall r v, r_y r = Fin v -> h r = Fin (g (r_date r, r_x r, v))) ->
  valid_values (map h (filter (fun r => (month_no (r_date r) =? k)%Z) (rows f))) = map Fin (map g (of_month k (points f))).
Proof.
  intros F HN HF. unfold points. induction (rows f) as [|r l IH]; [reflexivity|].
  inversion F as [|? ? Fr Fl]; subst. specialize (IH Fl). cbn [filter flat_map]. unfold of_month in *. rewrite filter_app, !map_app.
  destruct Fr as [Fr|[v Fr]]; rewrite Fr; cbn [filter map app].
  - destruct (_ =? k)%Z; [|exact IH]. unfold valid_values in *. cbn [map filter]. rewrite (HN r Fr). exact IH.
  - change (pt_date (r_date r, r_x r, v)) with (r_date r). destruct (_ =? k)%Z; [|exact IH].
    unfold valid_values in *. cbn [map filter app]. rewrite (HF r v Fr). cbn [nisnan XROps xisnan negb]. f_equal. exact IH.
Qed.
Lemma valid_values_idem (l : list XR) : valid_values (valid_values l) = valid_values l.
Proof. unfold valid_values. induction l as [|a l IH]; [reflexivity|]. cbn in *. destruct (negb (xisnan a)) eqn:K; [cbn; now rewrite K, IH|exact IH]. Qed.
Lemma bin_mean_nn (l : list XR) : bin_mean l = bin_mean (valid_values l).
Proof. unfold bin_mean. now rewrite valid_values_idem. Qed.
Lemma bin_var_nn (l : list XR) : bin_var l = bin_var (valid_values l).
Proof. unfold bin_var. now rewrite valid_values_idem. Qed.
Lemma corr_complete (l : list (XR * XR)) : corr l = corr (filter (fun p : XR * XR => negb (nisnan (fst p)) && negb (nisnan (snd p))) l).
Proof.
  assert (forall m : list (XR * XR), filter (fun p : XR * XR => negb (nisnan (fst p)) && negb (nisnan (snd p))) (filter (fun p => negb (nisnan (fst p)) && negb (nisnan (snd p))) m)
    = filter (fun p => negb (nisnan (fst p)) && negb (nisnan (snd p))) m) as I.
  { induction m as [|a m IH]; [reflexivity|]. cbn in *. destruct (negb (xisnan (fst a)) && negb (xisnan (snd a))) eqn:K; [cbn; now rewrite K, IH|exact IH]. }
  unfold corr. now rewrite I.
Qed.
Lemma sorted_filter {A} (R : A -> A -> Prop) p l : StronglySorted R l -> StronglySorted R (filter p l).
Proof.
  induction 1 as [|a l S IH F]; [constructor|]. cbn. destruct (p a); [|exact IH]. constructor; [exact IH|].
  apply Forall_forall. intros b Ib. apply filter_In in Ib as [Ib _]. rewrite Forall_forall in F. auto.
Qed.
Lemma month_range_sorted l : StronglySorted Z.lt (month_range_of l).
Proof.
  unfold month_range_of. destruct (zmin_opt l) as [lo|]; [|constructor]. destruct (zmax_opt l) as [hi|]; [|constructor].
  generalize (Z.to_nat (hi - lo + 1)), 0%nat. induction n as [|n IH]; intros k; [constructor|]. cbn [seq map]. constructor; [apply IH|].
  apply Forall_forall. intros b Ib. apply in_map_iff in Ib as (i & <- & Ii). apply in_seq in Ii. lia.
Qed.
Lemma month_range_in l k : In k l -> In k (month_range_of l).
Proof.
  intros I. unfold month_range_of. destruct (zmin_opt l) as [lo|] eqn:E1; [|destruct l; [destruct I|discriminate]].
  destruct (zmax_opt l) as [hi|] eqn:E2; [|destruct l; [destruct I|discriminate]].
  apply zmin_opt_iff in E1 as [_ B1]. apply zmax_opt_iff in E2 as [_ B2]. specialize (B1 k I). specialize (B2 k I).
  apply in_map_iff. exists (Z.to_nat (k - lo)). split; [lia|]. apply in_seq. lia.
Qed.
Lemma of_month_in k p l : In p (of_month k l) <-> In p l /\ month_no (pt_date p) = k.
Proof. unfold of_month. now rewrite filter_In, Z.eqb_eq. Qed.
Lemma points_rows f p : In p (points f) -> exists r, In r (rows f) /\ r_date r = pt_date p /\ r_x r = pt_x p /\ r_y r = Fin (pt_y p).
Proof.
  unfold points. intros I. apply in_flat_map in I as (r & Ir & I). exists r. split; [exact Ir|].
  destruct (r_y r) eqn:E; try destruct I as [<-|[]]; try destruct I. auto.
Qed.
Lemma rich_range f : filter (fun k => Nat.leb 2 (length (of_month k (points f)))) (month_range_of (map (fun r => month_no (r_date r)) (rows f))) = rich_months (points f).
Proof.
  apply sorted_lt_unique.
  - apply sorted_filter, month_range_sorted.
  - apply sorted_filter, sort_uniq_lt.
  - intros k. unfold rich_months. rewrite !filter_In. split; intros [I L]; (split; [|exact L]);
      apply Nat.leb_le in L; destruct (of_month k (points f)) as [|p l] eqn:E; try (cbn in L; lia);
      assert (In p (of_month k (points f))) as Ip by (rewrite E; left; reflexivity); apply of_month_in in Ip as [Ip <-].
    + apply sort_uniq_in, in_map_iff. eauto.
    + apply month_range_in, in_map_iff. apply points_rows in Ip as (r & Ir & <- & _). eauto.
Qed.

Lemma monthly_stats f a b lo : Forall (fun r => finite_or_null (r_y r)) (rows f) ->
  filter (fun p : XR * XR => negb (nisnan (fst p)) && negb (nisnan (snd p)))
    (monthly (map (fun r => (r, Fin (a * IZR (r_x r - lo) + b))) (rows f))) = map fin2 (month_stats a b (points f)).
Proof.
  intros F. unfold monthly. rewrite map_map. cbn [fst]. unfold month_stats. rewrite <- rich_range.
  induction (month_range_of (map (fun r => month_no (r_date r)) (rows f))) as [|k l IH]; [reflexivity|].
  cbn [map filter]. rewrite IH. clear IH.
  assert (forall q : row XR -> bool, filter (fun p => q (fst p)) (map (fun r => (r, Fin (a * IZR (r_x r - lo) + b))) (rows f))
    = map (fun r => (r, Fin (a * IZR (r_x r - lo) + b))) (filter q (rows f))) as FM.
  { intros q. induction (rows f) as [|r l' IH]; [reflexivity|]. inversion F; subst. cbn. destruct (q r); cbn; now rewrite IH. }
  rewrite (FM (fun r => (month_no (r_date r) =? k)%Z)), !map_map. cbn [fst snd].
  rewrite bin_mean_nn, bin_var_nn.
  rewrite (points_of_month f k pt_y (fun r => r_y r) F) by auto.
  rewrite (points_of_month f k (fun p => a * IZR (pt_x p - lo) + b - pt_y p) (fun r => nsub (Fin (a * IZR (r_x r - lo) + b)) (r_y r)) F).
  2:{ intros r E. now rewrite E. }
  2:{ intros r v E. now rewrite E. }
  set (ps := of_month k (points f)). destruct (Nat.leb_spec 2 (length ps)) as [L|L].
  - rewrite bin_var_fin by now rewrite map_length. unfold bin_mean. rewrite valid_values_fin, np_mean_fin by (destruct ps; cbn in *; [lia|discriminate]).
    cbn [fst snd nisnan XROps xisnan negb andb map]. f_equal. unfold fin2. cbn [fst snd]. f_equal. f_equal.
    rewrite (map_ext _ (fun p => (-1) * (pt_y p - (a * IZR (pt_x p) + b)) + (- (a * IZR lo)))) by (intros p; rewrite minus_IZR; ring).
    rewrite <- (map_map (fun p => pt_y p - (a * IZR (pt_x p) + b)) (fun v => (-1) * v + (- (a * IZR lo)))), Rvar_affine. fold ps. ring.
  - rewrite bin_var_short by now rewrite map_length. reflexivity.
Qed.

(* ---------- the linear fit ---------- *)
Lemma find_seq_map (g : nat -> XR) lo x : forall n k, (Z.of_nat k <= x - lo < Z.of_nat (k + n))%Z ->
  find (fun p => (fst p =? x)%Z) (map (fun i => ((lo + Z.of_nat i)%Z, g i)) (seq k n)) = Some (x, g (Z.to_nat (x - lo))).
Proof.
  induction n as [|n IH]; intros k B; [lia|]. cbn [seq map find fst]. destruct (Z.eqb_spec (lo + Z.of_nat k) x) as [E|E].
  - f_equal. f_equal; [exact E|]. f_equal. lia.
  - apply IH. lia.
Qed.
Lemma linear_pred a b lo hi : extrapolate_model (T := XR) model_linear (Some [Fin a; Fin b]) (ONum lo (hi + 1)) (Some "W"%string) 0 0 None =
  Ok (map (fun i => ((lo + Z.of_nat i)%Z, Fin (a * IZR (Z.of_nat i) + b))) (seq 0 (Z.to_nat (hi + 1 - lo)))).
Proof.
  unfold extrapolate_model, s_x_extrapolate, s_x_numeric. cbn [rbind].
  assert (numeric_size lo (hi + 1) 0 = Z.to_nat (hi + 1 - lo)) as ->.
  { unfold numeric_size, ceil_div. cbn [Qden Qnum]. f_equal. rewrite Z.div_1_r. lia. }
  set (n := Z.to_nat (hi + 1 - lo)).
  change (apply_a_x_scaling ?l (Some model_linear)) with l.
  set (xs := map (fun i => nofZ (0 + Z.of_nat i + 0)) (seq 0 n)). set (is := map (fun i => (lo + Z.of_nat i)%Z) (seq 0 n)).
  assert (map fst (combine is xs) = is /\ map snd (combine is xs) = xs) as [-> ->].
  { unfold is, xs. generalize (seq 0 n). induction l as [|i l [I1 I2]]; [auto|]. cbn [map combine fst snd]. now rewrite I1, I2. }
  unfold call. cbn [fm_f model_linear mk_model]. unfold f_linear. cbn [unpack2 rbind].
  unfold xs, is. rewrite !map_length, Nat.eqb_refl. f_equal.
  generalize (seq 0 n). induction l as [|i l IH]; [reflexivity|]. cbn [map combine]. rewrite IH. f_equal. f_equal.
  rewrite Z.add_0_r, Z.add_0_l. reflexivity.
Qed.
Lemma fit_linear_eq E f d a b lo : (4 <= length (rows f))%nat -> zmin_opt (map r_x (rows f)) = Some lo ->
  fit_model E model_linear f (Some "W"%string) "test"%string None true = Ok d -> md_params d = [Fin a; Fin b] ->
  fit_linear E f = Ok (map (fun r => (r, Fin (a * IZR (r_x r - lo) + b))) (rows f)).
Proof.
  intros L Lo D P. unfold fit_linear. destruct (Nat.ltb_spec (length (rows f)) 4); [lia|]. rewrite D. cbn [rbind]. rewrite Lo, P.
  destruct (zmax_opt (map r_x (rows f))) as [hi|] eqn:Hi; [|destruct (rows f); [cbn in L; lia|discriminate]].
  rewrite linear_pred. cbn [rbind]. f_equal. apply map_ext_in. intros r Ir. f_equal.
  apply zmin_opt_iff in Lo as [_ B1]. apply zmax_opt_iff in Hi as [_ B2].
  specialize (B1 (r_x r) ltac:(now apply in_map)). specialize (B2 (r_x r) ltac:(now apply in_map)).
  unfold predicted. rewrite (find_seq_map (fun i => Fin (a * IZR (Z.of_nat i) + b)) lo (r_x r)) by lia.
  cbn [snd]. now rewrite Z2Nat.id by lia.
Qed.
Lemma not_must_size {T} `{NumOps T} (f : frame T) : ~ must_add f -> (4 <= length (rows f))%nat.
Proof.
  intros A. destruct (Nat.le_gt_cases 4 (length (rows f))) as [L|L]; [exact L|]. exfalso. apply A. right. right. right.
  eapply Nat.le_lt_trans; [|exact L]. clear. induction (rows f) as [|r l IH]; [cbn; lia|]. cbn. destruct (usable_sample (has_w f) r); cbn; lia.
Qed.

(* ---------- the choice ---------- *)
Theorem choice E f d a b : ~ must_add f -> Forall (fun r => finite_or_null (r_y r)) (rows f) ->
  fit_model E model_linear f (Some "W"%string) "test"%string None true = Ok d -> md_params d = [Fin a; Fin b] ->
  exists m, is_multiplicative (mult_corr E) f = Ok m /\ (m = true <-> correlated (8 / 10) (month_stats a b (points f))).
Proof.
  intros A F D P. pose proof (not_must_size f A) as L. rewrite is_mult_corr by exact A.
  destruct (zmin_opt (map r_x (rows f))) as [lo|] eqn:Lo; [|destruct (rows f); [cbn in L; lia|discriminate]].
  unfold mult_corr. rewrite (fit_linear_eq E f d a b lo L Lo D P). cbn [rbind].
  rewrite corr_complete, monthly_stats by exact F. eexists. split; [reflexivity|].
  rewrite dec_fin by lia. apply corr_ge. lra.
Qed.

(* a linear fit that failed with LinAlgError has no parameters *)
Theorem choice_failure {T} `{NumOps T} E f d : ~ must_add f ->
  fit_model E model_linear f (Some "W"%string) "test"%string None true = Ok d -> md_params d = [] ->
  is_multiplicative (mult_corr E) f = Err ValueError.
Proof.
  intros A D P. pose proof (not_must_size f A) as L. rewrite is_mult_corr by exact A.
  unfold mult_corr, fit_linear. destruct (Nat.ltb_spec (length (rows f)) 4); [lia|]. rewrite D. cbn [rbind]. rewrite P.
  destruct (zmin_opt (map r_x (rows f))) as [lo|]; [|reflexivity]. destruct (zmax_opt (map r_x (rows f))) as [hi|]; reflexivity.
Qed.

Lemma must_add_dec {T} `{NumOps T} (f : frame T) : must_add f \/ ~ must_add f.
Proof.
  destruct (existsb (fun r => nleb (r_y r) n0) (rows f)) eqn:Ey.
  { left. left. apply existsb_exists in Ey. exact Ey. }
  destruct (has_date f) eqn:Ed; [|left; right; left; exact Ed].
  destruct (Nat.lt_ge_cases (length (filter (usable_sample (has_w f)) (rows f))) 4) as [L|L]; [left; right; right; right; exact L|].
  assert (rows f <> []) as Hn. { intros C. rewrite C in L. cbn in L. lia. }
  pose proof (short_span f Hn) as SS. match type of SS with ?b = true <-> _ => destruct b end.
  { left. right. right. left. now apply SS. }
  right. intros [(r & Ir & Hr)|[A|[A|A]]].
  - assert (existsb (fun r => nleb (r_y r) n0) (rows f) = true) by (apply existsb_exists; eauto). congruence.
  - congruence.
  - apply SS in A. discriminate.
  - lia.
Qed.

(* samples on the fitted line *)
Lemma Rvar_const c l : (forall a, In a l -> a = c) -> Rvar l = 0.
Proof.
  intros C. destruct l as [|a0 l0]; [unfold Rvar; cbn; unfold Rdiv; ring|]. set (l := a0 :: l0) in *.
  assert (l = map (fun _ => c) l) as E. { rewrite <- (map_id l) at 1. apply map_ext_in. exact C. }
  assert (Rmean l = c) as M.
  { unfold Rmean. rewrite E at 1. rewrite rsum_map_const. field. apply not_0_INR. discriminate. }
  unfold Rvar. rewrite rsum_zero; [unfold Rdiv; ring|]. intros v I. apply in_map_iff in I as (a & <- & I). rewrite M, (C a I). ring.
Qed.
Theorem choice_line E f d a b : Forall (fun r => finite_or_null (r_y r)) (rows f) ->
  fit_model E model_linear f (Some "W"%string) "test"%string None true = Ok d -> md_params d = [Fin a; Fin b] ->
  (forall r v, In r (rows f) -> r_y r = Fin v -> v = a * IZR (r_x r) + b) ->
  is_multiplicative (mult_corr E) f = Ok false.
Proof.
  intros F D P On. destruct (must_add_dec f) as [A|A]; [now apply is_mult_false|].
  destruct (choice E f d a b A F D P) as (m & -> & I). f_equal. destruct m; [|reflexivity]. exfalso.
  destruct (proj1 I eq_refl) as (V & _). rewrite (Rvar_const 0) in V; [lra|].
  intros v Iv. apply in_map_iff in Iv as (p & <- & Ip). unfold month_stats in Ip. apply in_map_iff in Ip as (k & <- & _). cbn [fst].
  apply (Rvar_const 0). intros w Iw. apply in_map_iff in Iw as (q & <- & Iq). apply of_month_in in Iq as [Iq _].
  apply points_rows in Iq as (r & Ir & _ & Ex & Ey). rewrite (On r _ Ir Ey), Ex. ring.
Qed.

(* scaling *)
Definition scale_y (c : R) (f : frame XR) : frame XR :=
  mkFrame (has_date f) (has_src f) (has_w f) (map (fun r => mkRow (r_date r) (r_src r) (r_x r) (nmul (Fin c) (r_y r)) (r_w r)) (rows f)).
Lemma correlated_scale t c s l : 0 < c -> 0 < s -> correlated t (map (fun p => (c * fst p, s * snd p)) l) <-> correlated t l.
Proof.
  intros C S. unfold correlated. rewrite !map_map. cbn [fst snd].
  assert (Rvar (map (fun p : R * R => c * fst p) l) = c * c * Rvar (map fst l)) as ->.
  { rewrite (map_ext _ (fun p : R * R => c * fst p + 0)) by (intros; ring). rewrite <- (map_map fst (fun v => c * v + 0)). apply Rvar_affine. }
  assert (Rvar (map (fun p : R * R => s * snd p) l) = s * s * Rvar (map snd l)) as ->.
  { rewrite (map_ext _ (fun p : R * R => s * snd p + 0)) by (intros; ring). rewrite <- (map_map snd (fun v => s * v + 0)). apply Rvar_affine. }
  assert (Rcov (map (fun p : R * R => (c * fst p, s * snd p)) l) = c * s * Rcov l) as ->.
  { destruct l as [|p0 l0]; [unfold Rcov; cbn; unfold Rdiv; ring|]. set (l := p0 :: l0). assert (l <> []) as Hn by discriminate.
    unfold Rcov. rewrite !map_map, map_length. cbn [fst snd].
    assert (Rmean (map (fun p : R * R => c * fst p) l) = c * Rmean (map fst l)) as ->.
    { rewrite (map_ext _ (fun p : R * R => c * fst p + 0)) by (intros; ring). rewrite <- (map_map fst (fun v => c * v + 0)), Rmean_affine by discriminate. ring. }
    assert (Rmean (map (fun p : R * R => s * snd p) l) = s * Rmean (map snd l)) as ->.
    { rewrite (map_ext _ (fun p : R * R => s * snd p + 0)) by (intros; ring). rewrite <- (map_map snd (fun v => s * v + 0)), Rmean_affine by discriminate. ring. }
    rewrite (map_ext _ (fun p : R * R => (c * s) * ((fst p - Rmean (map fst l)) * (snd p - Rmean (map snd l))))) by (intros; ring).
    rewrite rsum_map_scale. unfold Rdiv. ring. }
  assert (0 < c * c) as CC by now apply Rmult_lt_0_compat. assert (0 < s * s) as SS by now apply Rmult_lt_0_compat.
  assert (forall k v, 0 < k -> 0 < k * v <-> 0 < v) as PosIff.
  { intros k v K. split; intros V; [|now apply Rmult_lt_0_compat]. apply (Rmult_lt_reg_l k); [exact K|]. now rewrite Rmult_0_r. }
  rewrite !PosIff by assumption. split; intros (V1 & V2 & K); (split; [exact V1|]); (split; [exact V2|]); revert K;
    rewrite (sqrt_mult_alt (c * c)), (sqrt_mult_alt (s * s)), !sqrt_square by lra;
    pose proof (sqrt_lt_R0 _ V1); pose proof (sqrt_lt_R0 _ V2);
    replace (c * s * Rcov l / (c * sqrt (Rvar (map fst l)) * (s * sqrt (Rvar (map snd l))))) with (Rcov l / (sqrt (Rvar (map fst l)) * sqrt (Rvar (map snd l)))) by (field; lra); auto.
Qed.
Lemma points_scale c f : Forall (fun r => finite_or_null (r_y r)) (rows f) ->
  points (scale_y c f) = map (fun p => (pt_date p, pt_x p, c * pt_y p)) (points f).
Proof.
  intros F. unfold points, scale_y. cbn [rows]. induction (rows f) as [|r l IH]; [reflexivity|]. inversion F as [|? ? Fr Fl]; subst.
  cbn [map flat_map]. rewrite IH by exact Fl. rewrite map_app. f_equal. cbn [r_y]. destruct Fr as [->|[v ->]]; reflexivity.
Qed.
Lemma of_month_scale c k l : of_month k (map (fun p => (pt_date p, pt_x p, c * pt_y p)) l) = map (fun p => (pt_date p, pt_x p, c * pt_y p)) (of_month k l).
Proof. unfold of_month. induction l as [|p l IH]; [reflexivity|]. cbn [map filter]. unfold pt_date at 1. cbn [fst]. destruct (_ =? k)%Z; cbn [map]; now rewrite IH. Qed.
Lemma month_stats_scale a b c l : month_stats (c * a) (c * b) (map (fun p => (pt_date p, pt_x p, c * pt_y p)) l) =
  map (fun p => (c * c * fst p, c * snd p)) (month_stats a b l).
Proof.
  unfold month_stats. rewrite map_map. cbn [fst snd].
  assert (rich_months (map (fun p => (pt_date p, pt_x p, c * pt_y p)) l) = rich_months l) as ->.
  { unfold rich_months. rewrite map_map. cbn [pt_date fst]. apply filter_ext. intros k. now rewrite of_month_scale, map_length. }
  apply map_ext_in. intros k Ik. rewrite of_month_scale, !map_map. f_equal.
  - rewrite (map_ext _ (fun p => c * (pt_y p - (a * IZR (pt_x p) + b)) + 0)) by (intros p; unfold pt_y, pt_x; cbn [fst snd]; ring).
    rewrite <- (map_map (fun p => pt_y p - (a * IZR (pt_x p) + b)) (fun v => c * v + 0)). apply Rvar_affine.
  - unfold rich_months in Ik. apply filter_In in Ik as [_ Ik]. apply Nat.leb_le in Ik.
    rewrite (map_ext _ (fun p => c * pt_y p + 0)) by (intros p; unfold pt_y at 1; cbn [snd]; ring).
    rewrite <- (map_map pt_y (fun v => c * v + 0)), Rmean_affine by (destruct (of_month k l); [cbn in Ik; lia|discriminate]). ring.
Qed.
Lemma must_add_scale c f : 0 < c -> must_add (scale_y c f) <-> must_add f.
Proof.
  intros C. unfold must_add, scale_y. cbn [rows has_date has_w]. rewrite map_map. cbn [r_date].
  assert (forall v : XR, nleb (nmul (Fin c) v) n0 = nleb v n0) as LE.
  { intros [| | |v]; try reflexivity; cbn; unfold xsgninf.
    - destruct (Reqb_spec c 0); [lra|]. destruct (Rltb_spec c 0); [lra|]. reflexivity.
    - destruct (Reqb_spec c 0); [lra|]. destruct (Rltb_spec c 0); [lra|]. reflexivity.
    - destruct (Rleb_spec (c * v) 0), (Rleb_spec v 0); auto; exfalso; [|nra]. assert (0 < c * v) by (apply Rmult_lt_0_compat; lra). lra. }
  assert (forall v : XR, nisnan (nmul (Fin c) v) = nisnan v) as NN.
  { intros [| | |v]; try reflexivity; cbn; unfold xsgninf; (destruct (Reqb_spec c 0); [lra|]); destruct (Rltb_spec c 0); try lra; reflexivity. }
  assert (length (filter (usable_sample (has_w f)) (map (fun r => mkRow (r_date r) (r_src r) (r_x r) (nmul (Fin c) (r_y r)) (r_w r)) (rows f)))
    = length (filter (usable_sample (has_w f)) (rows f))) as ->.
  { induction (rows f) as [|r l IH]; [reflexivity|]. cbn [map filter].
    assert (usable_sample (has_w f) (mkRow (r_date r) (r_src r) (r_x r) (nmul (Fin c) (r_y r)) (r_w r)) = usable_sample (has_w f) r) as ->.
    { unfold usable_sample. cbn [r_y r_w]. now rewrite NN. }
    destruct (usable_sample (has_w f) r); cbn [length]; now rewrite IH. }
  apply or_iff_compat_r. split.
  - intros (r & Ir & K). apply in_map_iff in Ir as (r0 & <- & Ir). cbn [r_y] in K. rewrite LE in K. eauto.
  - intros (r & Ir & K). eexists. split; [apply in_map, Ir|]. cbn [r_y]. now rewrite LE.
Qed.
Theorem choice_scale E1 E2 f d1 d2 a b c : 0 < c -> Forall (fun r => finite_or_null (r_y r)) (rows f) ->
  fit_model E1 model_linear f (Some "W"%string) "test"%string None true = Ok d1 -> md_params d1 = [Fin a; Fin b] ->
  fit_model E2 model_linear (scale_y c f) (Some "W"%string) "test"%string None true = Ok d2 -> md_params d2 = [Fin (c * a); Fin (c * b)] ->
  is_multiplicative (mult_corr E2) (scale_y c f) = is_multiplicative (mult_corr E1) f.
Proof.
  intros C F D1 P1 D2 P2. destruct (must_add_dec f) as [A|A].
  { rewrite !is_mult_false; auto. now apply must_add_scale. }
  destruct (choice E1 f d1 a b A F D1 P1) as (m1 & -> & I1).
  assert (Forall (fun r => finite_or_null (r_y r)) (rows (scale_y c f))) as F2.
  { unfold scale_y. cbn [rows]. apply Forall_map. eapply Forall_impl; [|exact F]. intros r [K|[v K]]; cbn [r_y]; rewrite K; [left; reflexivity|right; eexists; reflexivity]. }
  destruct (choice E2 (scale_y c f) d2 (c * a) (c * b)) as (m2 & -> & I2); auto.
  { intros A2. apply A. now apply (must_add_scale c). }
  f_equal. rewrite points_scale, month_stats_scale, correlated_scale in I2; auto; [|now apply Rmult_lt_0_compat].
  destruct m1, m2; auto; exfalso; [assert (false = true) by tauto|assert (false = true) by tauto]; discriminate.
Qed.

(* numbers of calendar months *)
Lemma month_no_spec t t' : (month_no t = month_no t' <-> year t = year t' /\ month t = month t')%Z /\
  (month_no t' = month_no t + 1 <-> (year t' = year t /\ month t' = month t + 1) \/ (year t' = year t + 1 /\ month t' = 1 /\ month t = 12))%Z.
Proof. pose proof (SeasonProofs.month_range t). pose proof (SeasonProofs.month_range t'). unfold month_no. lia. Qed.
