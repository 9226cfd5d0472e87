(* Binary64: integers below 2^53 are exact and ordered as integers; underflow of a division (C20, C29). *)
From Coq Require Import ZArith Lia Bool List.
From Coq Require Import PrimFloat Uint63 SpecFloat FloatOps FloatAxioms.
From Verif Require Import Num Py NaiveProofs.
Import ListNotations.
Local Open Scope Z_scope.

Lemma digits2_bounds p : 2 ^ (Zpos (digits2_pos p) - 1) <= Zpos p < 2 ^ Zpos (digits2_pos p).
Proof.
  induction p as [p IH|p IH|]; cbn [digits2_pos].
  - rewrite Pos2Z.inj_succ. replace (Z.succ (Zpos (digits2_pos p)) - 1) with (Z.succ (Zpos (digits2_pos p) - 1)) by lia.
    rewrite !Z.pow_succ_r by lia. lia.
  - rewrite Pos2Z.inj_succ. replace (Z.succ (Zpos (digits2_pos p)) - 1) with (Z.succ (Zpos (digits2_pos p) - 1)) by lia.
    rewrite !Z.pow_succ_r by lia. lia.
  - cbn. lia.
Qed.
Lemma digits2_le p k : 0 <= k -> Zpos p < 2 ^ k -> Zpos (digits2_pos p) <= k.
Proof.
  intros Hk H. destruct (Z.le_gt_cases (Zpos (digits2_pos p)) k) as [|G]; [assumption|exfalso].
  pose proof (digits2_bounds p) as [B _].
  assert (2 ^ k <= 2 ^ (Zpos (digits2_pos p) - 1)) by (apply Z.pow_le_mono_r; lia). lia.
Qed.
Lemma shift_pos_mul n m : Zpos (shift_pos n m) = Zpos m * 2 ^ Zpos n.
Proof.
  unfold shift_pos. induction n as [|n IH] using Pos.peano_ind; [cbn; lia|].
  rewrite Pos.iter_succ, Pos2Z.inj_succ, Z.pow_succ_r by lia. rewrite Pos2Z.inj_xO, IH. ring.
Qed.
Lemma shift_pos_digits n m : digits2_pos (shift_pos n m) = (digits2_pos m + n)%positive.
Proof.
  unfold shift_pos. induction n as [|n IH] using Pos.peano_ind; [cbn; lia|].
  rewrite Pos.iter_succ. cbn [digits2_pos]. rewrite IH. lia.
Qed.

(* the 53-digit mantissa and exponent of an integer *)
Definition mant (p : positive) : positive := fst (shl_align p 0 (Zpos (digits2_pos p) - 53)).
Definition expo (p : positive) : Z := Zpos (digits2_pos p) - 53.
Lemma mant_spec p : Zpos (digits2_pos p) <= 53 ->
  shl_align p 0 (expo p) = (mant p, expo p) /\ Zpos (mant p) = Zpos p * 2 ^ (- expo p) /\ Zpos (digits2_pos (mant p)) = 53.
Proof.
  intros H. unfold mant, expo, shl_align. set (d := digits2_pos p) in *. rewrite Z.sub_0_r.
  destruct (Zpos d - 53) as [|q|q] eqn:E; [|lia|].
  - cbn. split; [reflexivity|]. split; [lia|]. fold d. lia.
  - cbn [fst]. split; [reflexivity|]. split; [rewrite shift_pos_mul; reflexivity|].
    rewrite shift_pos_digits. fold d. lia.
Qed.
Lemma shr_fexp_0 m e l : (Z.max (Zdigits2 m + e - 53) (-1074) = e) -> shr_fexp 53 1024 m e l = (shr_record_of_loc m l, e).
Proof.
  intros H. unfold shr_fexp, fexp, emin. change (3 - 1024 - 53) with (-1074). rewrite H, Z.sub_diag. reflexivity.
Qed.
Lemma normalize_int p : Zpos (digits2_pos p) <= 53 ->
  binary_normalize prec emax (Zpos p) 0 false = S754_finite false (mant p) (expo p).
Proof.
  intros H. change prec with 53. change emax with 1024. unfold binary_normalize, binary_round.
  destruct (mant_spec p H) as (E1 & _ & E3).
  assert (Ef : fexp 53 1024 (Zpos (digits2_pos p) + 0) = expo p).
  { unfold fexp, emin, expo. change (3 - 1024 - 53) with (-1074). lia. }
  rewrite Ef, E1. unfold binary_round_aux.
  assert (Ed : Z.max (Zdigits2 (Zpos (mant p)) + expo p - 53) (-1074) = expo p).
  { cbn [Zdigits2]. rewrite E3. unfold expo. lia. }
  rewrite shr_fexp_0 by exact Ed. cbn [shr_record_of_loc shr_m loc_of_shr_record round_nearest_even].
  rewrite shr_fexp_0 by exact Ed. cbn [shr_record_of_loc shr_m].
  assert (Zle_bool (expo p) (1024 - 53) = true) as ->; [|reflexivity]. apply Zle_imp_le_bool. unfold expo. lia.
Qed.
Definition small (z : Z) : Prop := Z.abs z < 2 ^ 53.
Lemma of_uint63_small p : Zpos p < 2 ^ 53 -> Prim2SF (of_uint63 (Uint63.of_Z (Zpos p))) = S754_finite false (mant p) (expo p).
Proof.
  intros H. rewrite of_uint63_spec.
  rewrite Uint63.of_Z_spec, Z.mod_small.
  - apply normalize_int. apply digits2_le; [lia|exact H].
  - split; [lia|]. apply Z.lt_trans with (2 ^ 53); [exact H|]. reflexivity.
Qed.
Lemma float_ofZ_small z : small z -> Prim2SF (float_ofZ z) =
  match z with Z0 => S754_zero false | Zpos p => S754_finite false (mant p) (expo p) | Zneg p => S754_finite true (mant p) (expo p) end.
Proof.
  intros H. unfold small in H. destruct z as [|p|p]; cbn [float_ofZ].
  - vm_compute. reflexivity.
  - apply of_uint63_small. exact H.
  - rewrite opp_spec. change (- Zneg p) with (Zpos p). rewrite of_uint63_small by exact H. reflexivity.
Qed.

(* comparison of two positive integers through their floats *)
Lemma compare_pos p q : Zpos p < 2 ^ 53 -> Zpos q < 2 ^ 53 ->
  match Z.compare (expo p) (expo q) with Lt => Lt | Gt => Gt | Eq => Pcompare (mant p) (mant q) Eq end = (Zpos p ?= Zpos q).
Proof.
  intros Hp Hq. apply digits2_le in Hp; [|lia]. apply digits2_le in Hq; [|lia].
  destruct (mant_spec p Hp) as (_ & Ep & _). destruct (mant_spec q Hq) as (_ & Eqq & _).
  pose proof (digits2_bounds p) as Bp. pose proof (digits2_bounds q) as Bq. unfold expo in *.
  destruct (Z.compare_spec (Zpos (digits2_pos p) - 53) (Zpos (digits2_pos q) - 53)) as [E|L|G].
  - change (Pos.compare_cont Eq (mant p) (mant q)) with (mant p ?= mant q)%positive.
    change (mant p ?= mant q)%positive with (Zpos (mant p) ?= Zpos (mant q)). rewrite Ep, Eqq, <- E.
    rewrite Z.mul_comm, (Z.mul_comm (Zpos q)).
    symmetry. apply Zmult_compare_compat_l. assert (0 < 2 ^ (- (Zpos (digits2_pos p) - 53))) by (apply Z.pow_pos_nonneg; lia). lia.
  - symmetry. apply Z.compare_lt_iff.
    assert (2 ^ Zpos (digits2_pos p) <= 2 ^ (Zpos (digits2_pos q) - 1)) by (apply Z.pow_le_mono_r; lia). lia.
  - symmetry. apply Z.compare_gt_iff.
    assert (2 ^ Zpos (digits2_pos q) <= 2 ^ (Zpos (digits2_pos p) - 1)) by (apply Z.pow_le_mono_r; lia). lia.
Qed.
Lemma float_compare a b : small a -> small b -> SFcompare (Prim2SF (float_ofZ a)) (Prim2SF (float_ofZ b)) = Some (a ?= b).
Proof.
  intros Ha Hb. rewrite !float_ofZ_small by assumption. unfold small in *.
  destruct a as [|p|p], b as [|q|q]; try reflexivity; cbn [SFcompare]; f_equal.
  - now apply compare_pos.
  - change (Zneg p ?= Zneg q) with (CompOpp (Zpos p ?= Zpos q)). rewrite <- (compare_pos p q) by assumption.
    destruct (expo p ?= expo q); reflexivity.
Qed.
Lemma float_exact_ints (m : libm) zs : Forall small zs -> exact_ints (N := floatOps m) zs.
Proof.
  intros F a b Ha Hb. rewrite Forall_forall in F. pose proof (float_compare a b (F a Ha) (F b Hb)) as E. cbn. split.
  - rewrite leb_spec. unfold SFleb. rewrite E. unfold Z.leb. destruct (a ?= b); reflexivity.
  - rewrite eqb_spec. unfold SFeqb. rewrite E. destruct (Z.compare_spec a b) as [->|L|G].
    + now rewrite Z.eqb_refl.
    + symmetry. apply Z.eqb_neq. lia.
    + symmetry. apply Z.eqb_neq. lia.
Qed.

(* 1e-320 = 2024 * 2^-1074 divided by an integer n >= 4048 is below half the smallest subnormal *)
Definition tiny64 : float := 0x1.fap-1064%float.
Lemma tiny64_SF : Prim2SF tiny64 = S754_finite false 2024 (-1074).
Proof. vm_compute. reflexivity. Qed.
Lemma tiny_underflow n : 4048 <= n < 2 ^ 53 -> Prim2SF (tiny64 / float_ofZ n)%float = S754_zero false.
Proof.
  intros Hn. rewrite div_spec, tiny64_SF, float_ofZ_small by (unfold small; lia).
  destruct n as [|p|p]; [lia| |lia].
  assert (Hd : Zpos (digits2_pos p) <= 53) by (apply digits2_le; lia).
  destruct (mant_spec p Hd) as (_ & Em & E3). unfold SF64div, SFdiv. change prec with 53. change emax with 1024.
  assert (Hc : exists c, (c = Lt \/ c = Eq) /\ SFdiv_core_binary 53 1024 2024 (-1074) (Zpos (mant p)) (expo p) = (0, -1074, loc_Inexact c)).
  { unfold SFdiv_core_binary.
    assert (E' : Z.min (fexp 53 1024 (Zdigits2 2024 + -1074 - (Zdigits2 (Zpos (mant p)) + expo p))) (-1074 - expo p) = -1074).
    { cbn [Zdigits2]. rewrite E3. change (Zpos (digits2_pos 2024)) with 11. unfold fexp, emin, expo. lia. }
    rewrite E'. set (s := -1074 - expo p - -1074). assert (Hs : s = - expo p) by (unfold s; lia).
    assert (Em' : match s with Zpos _ => Z.shiftl 2024 s | Z0 => 2024 | Zneg _ => 0 end = 2024 * 2 ^ s).
    { assert (0 <= s) by (unfold expo in *; lia). destruct s as [|q|q]; [reflexivity| |lia].
      now rewrite Z.shiftl_mul_pow2 by lia. }
    rewrite Em'. clear Em'. rewrite Hs. clear s Hs E'. set (w := 2 ^ (- expo p)) in *.
    assert (Hw : 0 < w) by (apply Z.pow_pos_nonneg; unfold expo; lia).
    pose proof (Z_div_mod (2024 * w) (Zpos (mant p)) ltac:(lia)) as D.
    destruct (Z.div_eucl (2024 * w) (Zpos (mant p))) as [q r]. destruct D as [D1 D2].
    assert (Hm : 4048 * w <= Zpos (mant p)) by (rewrite Em; apply Z.mul_le_mono_nonneg_r; lia).
    assert (q = 0) by nia. subst q. assert (r = 2024 * w) by lia. subst r.
    assert (H2 : 2 * (2024 * w) <= Zpos (mant p)) by lia. assert (H0 : Zeq_bool (2024 * w) 0 = false).
    { destruct (Zeq_bool (2024 * w) 0) eqn:Z0; [|reflexivity]. apply Zeq_bool_eq in Z0. lia. }
    unfold new_location. destruct (Z.even (Zpos (mant p))) eqn:Ev.
    - exists (2 * (2024 * w) ?= Zpos (mant p)). unfold new_location_even. rewrite H0. split; [|reflexivity].
      destruct (Z.compare_spec (2 * (2024 * w)) (Zpos (mant p))); auto. lia.
    - unfold new_location_odd. rewrite H0. exists Lt. split; [now left|]. do 2 f_equal.
      assert (2 * (2024 * w) <> Zpos (mant p)).
      { intros Q. rewrite <- Q in Ev. rewrite Z.even_mul in Ev. discriminate. }
      destruct (Z.compare_spec (2 * (2024 * w) + 1) (Zpos (mant p))); auto. lia. }
  destruct Hc as (c & Hc & ->). destruct Hc as [->| ->]; reflexivity.
Qed.
