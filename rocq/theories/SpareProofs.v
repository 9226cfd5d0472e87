(* Removal of spikes leaves something to fit. *)
From Coq Require Import ZArith String List Bool Lia Reals Lra Sorted Permutation QArith_base.
From Verif Require Import Num Py Cal Fmt Model Base Fixed Naive Freq Aic Normalize Fit Interp Select Stats Outliers Pi Forecast.
From Verif Require Import NumProofs ListProofs StringProofs GroupProofs NormalizeProofs ModelProofs BaseProofs GuessProofs FitProofs FreqProofs GridProofs InterpProofs NaiveProofs SnaiveProofs ForecastProofs ForecastProofs2 OutlierProofs TotalProofs TotalProofs2 TotalProofs3.
Import ListNotations.
Open Scope Z_scope.

Lemma np_diff_nth (l : list XR) k d : nth_error (np_diff l) k = Some d -> exists a b, nth_error l k = Some a /\ nth_error l (S k) = Some b /\ d = nsub b a.
Proof.
  revert k. induction l as [|a l IH]; intros k E; [destruct k; discriminate|]. destruct l as [|b l]; [destruct k; discriminate|].
  destruct k as [|k]; [cbn in E; injection E as <-; exists a, b; cbn; auto|]. change (nth_error (np_diff (b :: l)) k = Some d) in E. apply IH in E. exact E.
Qed.
(* a change is the difference of two values *)
Lemma change_values (f : frame XR) k : change_at f k -> exists j p q, k = S j /\ nth_error (rows f) j = Some p /\ nth_error (rows f) k = Some q /\ r_y p <> XNaN /\ r_y q <> XNaN.
Proof.
  intros (d & Ed & O). assert (Dn : d <> XNaN). { intros ->. unfold outside in O. revert O. generalize (fst (thresholds f)) (snd (thresholds f)). intros lo hi. destruct lo, hi; intros O; cbn in O; discriminate O. }
  unfold diffs, pd_diff in Ed. destruct (map r_y (rows f)) as [|y l] eqn:El; [destruct k; discriminate|].
  destruct k as [|k]; [cbn in Ed; injection Ed as <-; congruence|].
  change (nth_error (np_diff (y :: l)) k = Some d) in Ed. apply np_diff_nth in Ed as (a & b & Ea & Eb & ->). rewrite <- El, nth_error_map in Ea, Eb.
  destruct (nth_error (rows f) k) as [p|] eqn:Ep; [|discriminate]. destruct (nth_error (rows f) (S k)) as [q|] eqn:Eq1; [|discriminate]. injection Ea as <-. injection Eb as <-.
  exists k, p, q. split; [reflexivity|]. split; [exact Ep|]. split; [reflexivity|]. split; intros C; apply Dn; rewrite C; [now destruct (r_y q)|reflexivity].
Qed.

(* the first and the last sample are never spikes *)
Lemma sorted_nth (l : list Z) i j a b : StronglySorted Z.lt l -> nth_error l i = Some a -> nth_error l j = Some b -> (i < j)%nat -> a < b.
Proof.
  intros St. revert i j. induction St as [|x l St IH F]; intros i j Ea Eb L; [destruct i; discriminate|]. destruct j as [|j]; [lia|]. destruct i as [|i]; cbn in Ea, Eb.
  - injection Ea as <-. rewrite Forall_forall in F. apply F. eapply nth_error_In; eauto.
  - eapply IH; eauto. lia.
Qed.
Lemma ends_kept (f : frame XR) steps spikes i p : StronglySorted Z.lt (positions f) -> model_outliers f = Ok (steps, spikes) ->
  nth_error (positions f) i = Some p -> (forall p', In p' (positions f) -> p <= p') \/ (forall p', In p' (positions f) -> p' <= p) -> nth_error spikes i <> Some true.
Proof.
  intros St E Hp Hi C. destruct (proj1 (outliers_inside f steps spikes E) i C) as (j & k & pj & pi & pk & Cj & Ck & _ & _ & Ej & Ei & Ek & L1 & L2).
  rewrite Hp in Ei. injection Ei as <-. destruct Hi as [Hi|Hi].
  - destruct (change_values f j Cj) as (j' & q' & _ & -> & Eq1 & _). assert (E' : nth_error (positions f) j' = Some (if has_date f then r_date q' else r_x q')) by (unfold positions; rewrite nth_error_map, Eq1; reflexivity).
    specialize (Hi _ (nth_error_In _ _ E')). assert (L3 := sorted_nth _ _ _ _ _ St E' Ej). lia.
  - specialize (Hi _ (nth_error_In _ _ Ek)). lia.
Qed.

(* a usable sample which is not a spike stays usable *)
Lemma usable_kept (f f1 : frame XR) steps spikes k q : model_outliers f = Ok (steps, spikes) -> ignore_spikes f = Ok f1 ->
  nth_error (rows f) k = Some q -> nth_error spikes k <> Some true -> usable (has_w f) q = true -> usable_rows f1 <> [].
Proof.
  intros E E1 Eq1 Es U. pose proof (outliers_length f _ _ E) as L. unfold ignore_spikes in E1. rewrite E in E1. cbn [rbind] in E1. injection E1 as <-.
  assert (Ek : nth_error spikes k = Some false).
  { destruct (nth_error spikes k) as [[|]|] eqn:K; [congruence|reflexivity|]. apply nth_error_None in K. assert (k < length (rows f))%nat by (apply nth_error_Some; congruence). lia. }
  set (q1 := set_w q (if has_w f then nmul (r_w q) n1 else n1)).
  assert (I : In q1 (map (fun p => set_w (fst p) (if has_w f then nmul (r_w (fst p)) (if snd p : bool then n0 else n1) else if snd p then n0 else n1)) (combine (rows f) spikes))).
  { apply in_map_iff. exists (q, false). split; [reflexivity|]. apply (nth_error_In _ k). clear - Eq1 Ek. revert k spikes Eq1 Ek. induction (rows f) as [|a l IH]; intros [|k] [|b sp]; cbn; intros; try discriminate; [congruence|auto]. }
  intros C. assert (I' : In q1 []); [|destruct I']. rewrite <- C. apply filter_In. split; [exact I|]. cbn [has_w]. unfold usable in *. apply andb_true_iff in U as [Uy Uw]. apply andb_true_iff. split; [exact Uy|].
  unfold q1. cbn [set_w r_w]. destruct (has_w f).
  - apply andb_true_iff in Uw as [Un Up]. destruct (r_w q) as [| | |w]; cbn in *; try discriminate.
    + unfold xsgninf. destruct (Reqb_spec 1 0); [lra|]. destruct (Rltb_spec 1 0); [lra|reflexivity].
    + rewrite Rmult_1_r. now rewrite Up.
  - cbn. destruct (Rltb_spec 0 1); [reflexivity|lra].
Qed.
(* spikes never take everything away: each leaves a value behind, so with positive weights at all
   samples with a value, or a usable sample at either end, something is left to fit *)
Definition spare (f : frame XR) : Prop :=
  exists q, In q (rows f) /\ usable (has_w f) q = true /\
    ((forall r, In r (rows f) -> r_y r <> XNaN -> usable (has_w f) r = true) \/
     (forall r, In r (rows f) -> r_date q <= r_date r) \/ (forall r, In r (rows f) -> r_date r <= r_date q)).
Lemma spikes_leave (f f1 : frame XR) : has_date f = true -> StronglySorted Z.lt (map r_date (rows f)) -> ignore_spikes f = Ok f1 -> spare f -> usable_rows f1 <> [].
Proof.
  intros Hd St E1 (q & Iq & Uq & Sp). destruct (model_outliers f) as [[st sp]|e] eqn:E; [|unfold ignore_spikes in E1; rewrite E in E1; discriminate].
  apply In_nth_error in Iq as (i & Ei). assert (Hp : positions f = map r_date (rows f)) by (unfold positions; now rewrite Hd).
  destruct (nth_error sp i) as [[|]|] eqn:Es; [|apply (usable_kept f f1 st sp i q E E1 Ei); [congruence|exact Uq]..].
  destruct Sp as [All|Sp].
  - destruct (outliers_spared f st sp i E Es) as (k & Ek & Ck & _). destruct (change_values f k Ck) as (_ & _ & q' & _ & _ & Eq1 & _ & Yq).
    apply (usable_kept f f1 st sp k q' E E1 Eq1); [congruence|]. apply All; [eapply nth_error_In; eauto|exact Yq].
  - exfalso. rewrite <- Hp in St. assert (Ep : nth_error (positions f) i = Some (r_date q)) by (rewrite Hp, nth_error_map, Ei; reflexivity).
    apply (ends_kept f st sp i (r_date q) St E Ep); [|exact Es]. rewrite Hp. destruct Sp as [Sp|Sp]; [left|right]; intros p' I; apply in_map_iff in I as (r & <- & I); auto.
Qed.
