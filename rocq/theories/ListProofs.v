(* Generic facts about the list primitives of Py.v: sorting and de-duplication. *)
From Coq Require Import ZArith String List Bool Lia Sorted Permutation.
From Verif Require Import Num Py.
Import ListNotations.

Section Sorting.
  Context {A : Type} (leb : A -> A -> bool).
  Definition total_leb := forall a b, leb a b = true \/ leb b a = true.
  Definition trans_leb := forall a b c, leb a b = true -> leb b c = true -> leb a c = true.
  Definition le_of (a b : A) : Prop := leb a b = true.

  Lemma insert_perm a l : Permutation (a :: l) (insert leb a l).
  Proof.
    induction l as [|b l IH]; [reflexivity|]. cbn. destruct (leb a b); [reflexivity|].
    rewrite perm_swap. now constructor.
  Qed.
  Lemma isort_perm l : Permutation l (isort leb l).
  Proof.
    induction l as [|a l IH]; [constructor|]. cbn. rewrite <- insert_perm. now constructor.
  Qed.
  Lemma isort_length l : length (isort leb l) = length l.
  Proof. symmetry. apply Permutation_length, isort_perm. Qed.
  Lemma isort_in l a : In a (isort leb l) <-> In a l.
  Proof. split; apply Permutation_in; [symmetry|]; apply isort_perm. Qed.

  Lemma insert_sorted a l : total_leb -> trans_leb ->
    StronglySorted le_of l -> StronglySorted le_of (insert leb a l).
  Proof.
    intros Tt Tr. induction l as [|b l IH]; intros S; cbn.
    - repeat constructor.
    - inversion S as [|? ? S1 F1]; subst. destruct (leb a b) eqn:E.
      + constructor; [exact S|]. constructor; [exact E|].
        rewrite Forall_forall in *. intros c Hc. eapply Tr; [exact E|]. now apply F1.
      + constructor; [auto|]. rewrite Forall_forall in *. intros c Hc.
        apply (Permutation_in c (Permutation_sym (insert_perm a l))) in Hc.
        destruct Hc as [<-|Hc]; [|auto]. destruct (Tt a b); [congruence|exact H].
  Qed.
  Lemma isort_sorted l : total_leb -> trans_leb -> StronglySorted le_of (isort leb l).
  Proof.
    intros Tt Tr. induction l as [|a l IH]; [constructor|]. cbn. now apply insert_sorted.
  Qed.
  (* sorting a sorted list changes nothing *)
  Lemma insert_head a l : Forall (fun b => leb a b = true) l -> insert leb a l = a :: l.
  Proof. intros F. destruct l as [|b l]; [reflexivity|]. inversion F; subst. cbn. now rewrite H1. Qed.
  Lemma isort_id l : StronglySorted le_of l -> isort leb l = l.
  Proof.
    induction 1 as [|a l S IH F]; [reflexivity|]. cbn. rewrite IH. now apply insert_head.
  Qed.
  (* stability: filtering commutes with sorting *)
  Lemma insert_filter_out p a l : p a = false -> filter p (insert leb a l) = filter p l.
  Proof.
    intros Hp. induction l as [|b l IH]; cbn; [now rewrite Hp|].
    destruct (leb a b); cbn; [now rewrite Hp|]. now rewrite IH.
  Qed.
  Lemma insert_filter_in p a l : total_leb -> trans_leb -> StronglySorted le_of l ->
    p a = true -> filter p (insert leb a l) = insert leb a (filter p l).
  Proof.
    intros Tt Tr S Hp. induction S as [|b l S IH F]; cbn; [now rewrite Hp|].
    destruct (leb a b) eqn:E.
    - cbn. rewrite Hp. destruct (p b) eqn:Pb.
      + cbn. now rewrite E.
      + rewrite insert_head; [reflexivity|]. rewrite Forall_forall in *.
        intros c Hc. apply filter_In in Hc as [Hc _]. eapply Tr; [exact E|]. now apply F.
    - cbn. destruct (p b) eqn:Pb; rewrite IH; [|reflexivity]. cbn. now rewrite E.
  Qed.
  Lemma isort_filter p l : total_leb -> trans_leb ->
    filter p (isort leb l) = isort leb (filter p l).
  Proof.
    intros Tt Tr. induction l as [|a l IH]; [reflexivity|]. cbn.
    destruct (p a) eqn:Pa.
    - rewrite insert_filter_in by (auto; now apply isort_sorted). now rewrite IH.
    - rewrite insert_filter_out by auto. exact IH.
  Qed.
End Sorting.

Lemma Zleb_total : total_leb Z.leb.
Proof. intros a b. destruct (Z.leb_spec a b), (Z.leb_spec b a); auto. lia. Qed.
Lemma Zleb_trans : trans_leb Z.leb.
Proof. intros a b c. rewrite !Z.leb_le. lia. Qed.
Lemma zsort_sorted l : StronglySorted Z.le (zsort l).
Proof.
  pose proof (isort_sorted Z.leb l Zleb_total Zleb_trans) as S. unfold zsort.
  induction S as [|a l' S IH F]; constructor; auto.
  eapply Forall_impl; [|exact F]. intros b. unfold le_of. apply Z.leb_le.
Qed.
Lemma zsort_in l a : In a (zsort l) <-> In a l.
Proof. apply isort_in. Qed.
Lemma zsort_perm l : Permutation l (zsort l).
Proof. apply isort_perm. Qed.

Section Dedup.
  Context {A : Type} (eqb : A -> A -> bool).
  Lemma dedup_aux_sub : forall l seen a, In a (dedup_aux eqb seen l) -> In a l.
  Proof.
    induction l as [|b l IH]; intros seen a; cbn; [tauto|].
    destruct (existsb (eqb b) seen); [right; eapply IH; eauto|].
    intros [->|Hi]; [now left|right; eapply IH; eauto].
  Qed.
  Context (eqb_iff : forall a b, eqb a b = true <-> a = b).
  Lemma existsb_eqb a l : existsb (eqb a) l = true <-> In a l.
  Proof.
    rewrite existsb_exists. split.
    - intros (b & Hb & E). apply eqb_iff in E. now subst.
    - intros Hi. exists a. split; [exact Hi|]. now apply eqb_iff.
  Qed.
  Lemma dedup_aux_in_iff : forall l seen a,
    In a (dedup_aux eqb seen l) <-> In a l /\ ~ In a seen.
  Proof.
    induction l as [|b l IH]; intros seen a; cbn; [tauto|].
    destruct (existsb (eqb b) seen) eqn:E.
    - apply existsb_eqb in E. rewrite IH. split; [tauto|]. intros [[->|Hi] Hn]; tauto.
    - assert (Hb : ~ In b seen) by (rewrite <- existsb_eqb; congruence).
      cbn. rewrite IH. cbn. split.
      + intros [->|[Hi Hn]]; tauto.
      + intros [[->|Hi] Hn]; [now left|].
        destruct (eqb b a) eqn:Eb; [left; now apply eqb_iff|].
        right. split; [exact Hi|]. intros [->|Hs]; [|tauto].
        rewrite (proj2 (eqb_iff a a) eq_refl) in Eb. discriminate.
  Qed.
  Lemma dedup_aux_nodup : forall l seen, NoDup (dedup_aux eqb seen l).
  Proof.
    induction l as [|b l IH]; intros seen; cbn; [constructor|].
    destruct (existsb (eqb b) seen); [apply IH|]. constructor; [|apply IH].
    rewrite dedup_aux_in_iff. cbn. tauto.
  Qed.
  Lemma dedup_in l a : In a (dedup eqb l) <-> In a l.
  Proof. unfold dedup. rewrite dedup_aux_in_iff. cbn. tauto. Qed.
  Lemma dedup_nodup l : NoDup (dedup eqb l).
  Proof. apply dedup_aux_nodup. Qed.
  Lemma dedup_aux_id : forall l seen, NoDup l -> (forall a, In a l -> ~ In a seen) ->
    dedup_aux eqb seen l = l.
  Proof.
    induction l as [|b l IH]; intros seen Hn Hs; [reflexivity|]. inversion Hn; subst. cbn.
    destruct (existsb (eqb b) seen) eqn:E.
    - apply existsb_eqb in E. exfalso. apply (Hs b); [now left|exact E].
    - f_equal. apply IH; [assumption|]. intros a Ha [->|Hi]; [contradiction|].
      apply (Hs a); [now right|exact Hi].
  Qed.
  Lemma dedup_id l : NoDup l -> dedup eqb l = l.
  Proof. intros Hn. apply dedup_aux_id; auto. Qed.
  Lemma has_dup_iff l : has_dup eqb l = false <-> NoDup l.
  Proof.
    induction l as [|a l IH]; cbn; [split; [constructor|reflexivity]|].
    rewrite orb_false_iff, IH. split.
    - intros [E Hn]. constructor; [|exact Hn]. rewrite <- existsb_eqb. congruence.
    - intros Hn. inversion Hn; subst. split; [|assumption].
      apply not_true_iff_false. now rewrite existsb_eqb.
  Qed.
End Dedup.

Lemma zuniq_in l a : In a (zuniq l) <-> In a l.
Proof. apply dedup_in. apply Z.eqb_eq. Qed.
Lemma zuniq_nodup l : NoDup (zuniq l).
Proof. apply dedup_nodup. apply Z.eqb_eq. Qed.
Lemma sort_uniq_in l a : In a (sort_uniq l) <-> In a l.
Proof. unfold sort_uniq. rewrite zuniq_in. apply zsort_in. Qed.

(* a sublist of a sorted list is sorted *)
Lemma dedup_aux_sorted {A} (eqb : A -> A -> bool) (R : A -> A -> Prop) : forall l seen,
  StronglySorted R l -> StronglySorted R (dedup_aux eqb seen l).
Proof.
  induction l as [|b l IH]; intros seen S; cbn; [constructor|].
  inversion S as [|? ? S1 F1]; subst. destruct (existsb (eqb b) seen); [auto|].
  constructor; [auto|]. rewrite Forall_forall in *. intros c Hc. apply F1.
  eapply dedup_aux_sub; eauto.
Qed.
Lemma sorted_nodup_lt l : StronglySorted Z.le l -> NoDup l -> StronglySorted Z.lt l.
Proof.
  induction 1 as [|a l S IH F]; intros Hn; constructor; inversion Hn; subst; auto.
  rewrite Forall_forall in *. intros b Hb. specialize (F b Hb).
  assert (a <> b) by (intros ->; contradiction). lia.
Qed.
(* the strictly increasing list of the distinct elements *)
Lemma sort_uniq_lt l : StronglySorted Z.lt (sort_uniq l).
Proof.
  apply sorted_nodup_lt; [|apply zuniq_nodup]. apply dedup_aux_sorted, zsort_sorted.
Qed.
(* it is determined by the set of elements *)
Lemma sorted_lt_unique : forall l l', StronglySorted Z.lt l -> StronglySorted Z.lt l' ->
  (forall a, In a l <-> In a l') -> l = l'.
Proof.
  induction l as [|a l IH]; intros [|b l'] S S' E.
  - reflexivity.
  - exfalso. apply (E b). now left.
  - exfalso. apply (E a). now left.
  - inversion S as [|? ? S1 F1]; inversion S' as [|? ? S2 F2]; subst.
    rewrite Forall_forall in F1, F2.
    assert (a = b).
    { assert (Ha : In a (b :: l')) by (apply E; now left).
      assert (Hb : In b (a :: l)) by (apply E; now left).
      destruct Ha as [->|Ha]; [reflexivity|]. destruct Hb as [->|Hb]; [reflexivity|].
      specialize (F1 b Hb). specialize (F2 a Ha). lia. }
    subst b. f_equal. apply IH; auto. intros c. specialize (E c). cbn in E. split; intros Hc.
    + destruct (proj1 E (or_intror Hc)) as [->|]; [|assumption]. specialize (F1 c Hc). lia.
    + destruct (proj2 E (or_intror Hc)) as [->|]; [|assumption]. specialize (F2 c Hc). lia.
Qed.
Lemma sort_uniq_set l l' : (forall a, In a l <-> In a l') -> sort_uniq l = sort_uniq l'.
Proof.
  intros E. apply sorted_lt_unique; try apply sort_uniq_lt.
  intros a. now rewrite !sort_uniq_in.
Qed.
Lemma sort_uniq_id l : StronglySorted Z.lt l -> sort_uniq l = l.
Proof.
  intros S. apply sorted_lt_unique; auto; [apply sort_uniq_lt|]. intros a. apply sort_uniq_in.
Qed.

Lemma rmapM_ok {A B} (f : A -> res B) (g : A -> B) l :
  (forall a, In a l -> f a = Ok (g a)) -> rmapM f l = Ok (map g l).
Proof.
  induction l as [|a l IH]; intros E; [reflexivity|]. cbn. rewrite E by now left. cbn.
  rewrite IH; [reflexivity|]. intros b Hb. apply E. now right.
Qed.
