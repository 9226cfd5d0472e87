(* Quantiles of real numbers, and the fences of the outlier detection (C44). *)
From Coq Require Import ZArith String List Bool Lia Reals Lra Sorted Permutation.
From Verif Require Import Num Py Cal Model Outliers ListProofs NumProofs OutlierProofs OutlierReals.
Import ListNotations.
Local Open Scope list_scope.
Local Open Scope R_scope.

(* q is at position p * (n - 1) of the sorted values, counted from 0, on the straight line between
   the two neighbours *)
Definition quantile_of (p : R) (l : list R) (q : R) : Prop :=
  exists s i, Permutation l s /\ StronglySorted Rle s /\ (i < length s)%nat /\
    INR i <= p * INR (length l - 1) < INR i + 1 /\
    q = nth i s 0 + (p * INR (length l - 1) - INR i) * (nth (S i) s (nth i s 0) - nth i s 0).
Lemma sorted_same : forall s s', StronglySorted Rle s -> StronglySorted Rle s' -> Permutation s s' -> s = s'.
Proof.
  induction s as [|a s IH]; intros s' S S' P; [apply Permutation_nil in P; now subst|]. destruct s' as [|b s']; [symmetry in P; apply Permutation_nil in P; discriminate|].
  inversion S as [|? ? S1 F1]; inversion S' as [|? ? S2 F2]; subst. rewrite Forall_forall in F1, F2.
  assert (a = b) as ->.
  { assert (a <= b). { assert (I : In b (a :: s)) by (apply (Permutation_in _ (Permutation_sym P)); now left). destruct I as [->|I]; [lra|now apply F1]. }
    assert (b <= a). { assert (I : In a (b :: s')) by (apply (Permutation_in _ P); now left). destruct I as [->|I]; [lra|now apply F2]. } lra. }
  f_equal. apply IH; auto. eapply Permutation_cons_inv; eauto.
Qed.
(* the definition picks one number *)
Lemma quantile_of_unique p l q q' : quantile_of p l q -> quantile_of p l q' -> q = q'.
Proof.
  intros (s & i & P & S & L & B & ->) (s' & i' & P' & S' & L' & B' & ->).
  assert (s = s') as -> by (apply sorted_same; auto; now rewrite <- P). 
  assert (i = i') as ->; [|reflexivity]. assert (INR i < INR i' + 1) by lra. assert (INR i' < INR i + 1) by lra. rewrite <- !S_INR in *. apply INR_lt in H, H0. lia.
Qed.
Lemma non_null_fins l : non_null (map Fin l) = map Fin l.
Proof. unfold non_null. induction l as [|a l IH]; [reflexivity|]. cbn [map filter]. change (negb (nisnan (Fin a))) with true. cbv iota. now rewrite IH. Qed.
Theorem quantile_real a b l xs : (0 <= a <= b)%Z -> (0 < b)%Z -> l <> [] -> non_null xs = map Fin l ->
  exists q, quantile a b xs = Fin q /\ quantile_of (IZR a / IZR b) l q.
Proof.
  intros Ha Hb Hn En. unfold quantile. rewrite En, isort_fin. pose proof (Rsorted l) as S. pose proof (isort_perm Rleb l) as P.
  assert (Len : length (isort Rleb l) = length l) by (apply isort_length). generalize dependent (isort Rleb l). intros s S P Len.
  assert (exists v, match map Fin s with [] => False | w :: _ => w = Fin v end) as (v & Ev) by (destruct s; [destruct l; [congruence|discriminate]|cbn; eauto]).
  destruct (map Fin s) as [|w ws] eqn:Em; [contradiction|]. subst w. rewrite <- Em. clear ws Em. cbv zeta. rewrite map_length, Len.
  set (p := (Z.of_nat (length l - 1) * a)%Z). set (i := Z.to_nat (p / b)).
  assert (Hp : (0 <= p)%Z) by (unfold p; nia). assert (M : (p = b * (p / b) + p mod b)%Z) by (apply Z.div_mod; lia). pose proof (Z.mod_pos_bound p b Hb) as B.
  assert (Hi : (Z.of_nat i = p / b)%Z) by (unfold i; rewrite Z2Nat.id; [reflexivity|apply Z.div_pos; lia]).
  assert (Ln : (0 < length l)%nat) by (destruct l; [congruence|cbn; lia]).
  assert (Li : (i < length s)%nat). { rewrite Len. assert (p <= Z.of_nat (length l - 1) * b)%Z by (unfold p; nia). assert (p / b <= Z.of_nat (length l - 1))%Z by (apply Z.div_le_upper_bound; lia). lia. }
  rewrite (map_nth Fin s v i), (nth_default_irrel s i v 0 Li). rewrite map_nth, !ofZ_fin.
  assert (IZR b <> 0) as Nb by (apply not_0_IZR; lia). assert (0 < IZR b) as Pb by (apply IZR_lt; lia).
  assert (Er : IZR (p mod b) / IZR b = IZR a / IZR b * INR (length l - 1) - INR i).
  { rewrite !INR_IZR_INZ, Hi. assert (Q : IZR p = IZR b * IZR (p / b) + IZR (p mod b)) by (rewrite <- mult_IZR, <- plus_IZR; f_equal; exact M).
    unfold p in Q at 1. rewrite mult_IZR in Q. assert (K : IZR (p mod b) = IZR (Z.of_nat (length l - 1)) * IZR a - IZR b * IZR (p / b)) by lra. rewrite K. field. exact Nb. }
  exists (nth i s 0 + (IZR a / IZR b * INR (length l - 1) - INR i) * (nth (Datatypes.S i) s (nth i s 0) - nth i s 0)). split.
  - rewrite <- Er. cbn. unfold Reqb. destruct (Req_EM_T (IZR b) 0); [contradiction|]. reflexivity.
  - exists s, i. split; [exact P|]. split; [exact S|]. split; [exact Li|]. split; [|reflexivity].
    assert (0 <= IZR (p mod b) / IZR b < 1); [|lra]. split.
    + apply Rmult_le_pos; [apply IZR_le; lia|]. left. now apply Rinv_0_lt_compat.
    + apply (Rmult_lt_reg_r (IZR b)); [exact Pb|]. unfold Rdiv. rewrite Rmult_assoc, Rinv_l, Rmult_1_r, Rmult_1_l by exact Nb. apply IZR_lt. lia.
Qed.
Lemma rdiff_length ys : length (rdiff ys) = (length ys - 1)%nat.
Proof. induction ys as [|a ys IH]; [reflexivity|]. destruct ys as [|b ys]; [reflexivity|]. cbn [rdiff length] in *. rewrite IH. lia. Qed.
Lemma rdiff_nth : forall ys i d, nth_error (rdiff ys) i = Some d <-> exists a b, nth_error ys i = Some a /\ nth_error ys (S i) = Some b /\ d = b - a.
Proof.
  induction ys as [|a ys IH]; intros i d.
  - cbn. split; [destruct i; discriminate|]. intros (x & y & E & _). destruct i; discriminate.
  - destruct ys as [|b ys].
    + cbn [rdiff]. split; [destruct i; discriminate|]. intros (x & y & _ & E & _). destruct i; discriminate.
    + destruct i as [|i].
      * cbn. split; [intros [= <-]; eauto|]. intros (x & y & [= <-] & [= <-] & ->). reflexivity.
      * change (nth_error (rdiff (a :: b :: ys)) (S i)) with (nth_error (rdiff (b :: ys)) i). rewrite IH. reflexivity.
Qed.
(* a change is a difference beyond one and a half times the distance of the quartiles *)
Theorem change_fences (f : frame XR) ys : values f ys -> (2 <= length ys)%nat ->
  exists q1 q3, quantile_of (1 / 4) (rdiff ys) q1 /\ quantile_of (3 / 4) (rdiff ys) q3 /\
    forall i, change_at f i <-> exists a b, (1 <= i)%nat /\ nth_error ys (i - 1) = Some a /\ nth_error ys i = Some b /\
                                (b - a < q1 - 3 / 2 * (q3 - q1) \/ q3 + 3 / 2 * (q3 - q1) < b - a).
Proof.
  intros V L. assert (Ny : ys <> []) by (intros ->; cbn in L; lia). pose proof (diffs_fin f ys V Ny) as Ed.
  assert (Nd : rdiff ys <> []). { intros C. pose proof (rdiff_length ys) as K. rewrite C in K. cbn in K. lia. }
  assert (En : non_null (diffs f) = map Fin (rdiff ys)) by (rewrite Ed; apply (non_null_fins (rdiff ys))).
  destruct (quantile_real 1 4 (rdiff ys) (diffs f)) as (q1 & E1 & Q1); [lia|lia|exact Nd|exact En|].
  destruct (quantile_real 3 4 (rdiff ys) (diffs f)) as (q3 & E3 & Q3); [lia|lia|exact Nd|exact En|].
  exists q1, q3. split; [exact Q1|]. split; [exact Q3|]. intros i.
  assert (Et : thresholds f = (Fin (q1 - 3 / 2 * (q3 - q1)), Fin (q3 + 3 / 2 * (q3 - q1)))).
  { unfold thresholds, iqr_thresholds. rewrite E1, E3, dec_fin by lia. cbn. replace (15 / 10) with (3 / 2) by lra. f_equal; f_equal; lra. }
  unfold change_at. rewrite Et, Ed. cbn [fst snd]. destruct i as [|i].
  - split; [intros (d & [= <-] & C); discriminate|]. intros (a & b & C & _). lia.
  - replace (S i - 1)%nat with i by lia. change (nth_error (XNaN :: map Fin (rdiff ys)) (S i)) with (nth_error (map Fin (rdiff ys)) i).
    rewrite nth_error_map. split.
    + intros (d & E & C). destruct (nth_error (rdiff ys) i) as [r|] eqn:Er; [|discriminate]. injection E as <-. apply rdiff_nth in Er as (a & b & Ea & Eb & ->).
      exists a, b. split; [lia|]. split; [exact Ea|]. split; [exact Eb|]. unfold outside in C. apply orb_true_iff in C. cbn in C.
      destruct C as [C|C]; [left|right]; [destruct (Rltb_spec (b - a) (q1 - 3 / 2 * (q3 - q1)))|destruct (Rltb_spec (q3 + 3 / 2 * (q3 - q1)) (b - a))]; auto; discriminate.
    + intros (a & b & _ & Ea & Eb & C). exists (Fin (b - a)). split; [now rewrite (proj2 (rdiff_nth ys i (b - a))) by eauto|]. unfold outside. apply orb_true_iff. cbn.
      destruct C as [C|C]; [left|right]; [destruct (Rltb_spec (b - a) (q1 - 3 / 2 * (q3 - q1)))|destruct (Rltb_spec (q3 + 3 / 2 * (q3 - q1)) (b - a))]; auto.
Qed.
