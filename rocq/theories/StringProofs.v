(* String order: str_leb is a total order (used wherever the code sorts by name or source). *)
From Coq Require Import String Ascii NArith List Bool.
From Verif Require Import Num Py ListProofs.

Lemma ascii_compare_refl a : Ascii.compare a a = Eq.
Proof. unfold Ascii.compare. apply N.compare_refl. Qed.
Lemma ascii_lt_trans a b c : Ascii.compare a b = Lt -> Ascii.compare b c = Lt -> Ascii.compare a c = Lt.
Proof. unfold Ascii.compare. rewrite !N.compare_lt_iff. apply N.lt_trans. Qed.
Lemma str_compare_refl a : String.compare a a = Eq.
Proof. induction a as [|c a IH]; [reflexivity|]. cbn. now rewrite ascii_compare_refl. Qed.
Lemma str_compare_eq a b : String.compare a b = Eq <-> a = b.
Proof. split; [apply String.compare_eq_iff|intros ->; apply str_compare_refl]. Qed.
Lemma str_lt_trans : forall a b c, String.compare a b = Lt -> String.compare b c = Lt -> String.compare a c = Lt.
Proof.
  induction a as [|x a IH]; intros [|y b] [|z c]; cbn; try discriminate; auto.
  destruct (Ascii.compare x y) eqn:E1; intros H1; try discriminate;
  destruct (Ascii.compare y z) eqn:E2; intros H2; try discriminate.
  - apply Ascii.compare_eq_iff in E1, E2. subst. rewrite ascii_compare_refl. eauto.
  - apply Ascii.compare_eq_iff in E1. subst. now rewrite E2.
  - apply Ascii.compare_eq_iff in E2. subst. now rewrite E1.
  - now rewrite (ascii_lt_trans _ _ _ E1 E2).
Qed.
Lemma str_compare_gt a b : String.compare a b = Gt <-> String.compare b a = Lt.
Proof. rewrite (String.compare_antisym a b). destruct (String.compare b a); cbn; split; congruence. Qed.
Lemma str_leb_total : total_leb str_leb.
Proof.
  intros a b. unfold str_leb. destruct (String.compare a b) eqn:E; auto.
  apply str_compare_gt in E. rewrite E. auto.
Qed.
Lemma str_leb_trans : trans_leb str_leb.
Proof.
  intros a b c. unfold str_leb. destruct (String.compare a b) eqn:E1; intros H1; try discriminate;
  destruct (String.compare b c) eqn:E2; intros H2; try discriminate.
  - apply str_compare_eq in E1, E2. subst. now rewrite str_compare_refl.
  - apply str_compare_eq in E1. subst. now rewrite E2.
  - apply str_compare_eq in E2. subst. now rewrite E1.
  - now rewrite (str_lt_trans _ _ _ E1 E2).
Qed.
Lemma str_leb_antisym a b : str_leb a b = true -> str_leb b a = true -> a = b.
Proof.
  unfold str_leb. destruct (String.compare a b) eqn:E; intros H1 H2; try discriminate.
  - now apply str_compare_eq.
  - rewrite String.compare_antisym, E in H2. discriminate.
Qed.
Lemma str_eqb_spec : forall a b, String.eqb a b = true <-> a = b.
Proof. exact String.eqb_eq. Qed.
