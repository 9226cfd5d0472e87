(* Grouping rows by a key: one group per distinct key in order of first occurrence. *)
From Coq Require Import ZArith String List Bool Lia Sorted Permutation.
From Verif Require Import Num Py ListProofs StringProofs.
Import ListNotations.

Section Group.
  Context {A : Type} (k : A -> string).
  Definition is (s : string) (a : A) : bool := String.eqb (k a) s.
  Definition keys (l : list A) : list string := dedup String.eqb (map k l).
  Definition parts (l : list A) : list (list A) := map (fun s => filter (is s) l) (keys l).

  Lemma dedup_aux_ext : forall l seen seen', (forall s, In s seen <-> In s seen') ->
    dedup_aux String.eqb seen l = dedup_aux String.eqb seen' l.
  Proof.
    induction l as [|a l IH]; intros seen seen' E; [reflexivity|]. cbn.
    assert (X : existsb (String.eqb a) seen = existsb (String.eqb a) seen').
    { apply eq_true_iff_eq. rewrite !(existsb_eqb _ str_eqb_spec). apply E. }
    rewrite X. destruct (existsb _ seen'); [now apply IH|]. f_equal. apply IH. intros s. cbn. now rewrite E.
  Qed.
  Lemma dedup_aux_filter : forall l s seen,
    dedup_aux String.eqb (s :: seen) l = dedup_aux String.eqb seen (filter (fun a => negb (String.eqb a s)) l).
  Proof.
    induction l as [|a l IH]; intros s seen; [reflexivity|]. cbn [dedup_aux existsb filter].
    destruct (String.eqb a s); cbn [orb negb]; [apply IH|]. cbn [dedup_aux].
    destruct (existsb (String.eqb a) seen); [apply IH|]. f_equal. rewrite <- IH. apply dedup_aux_ext. intros t. cbn. tauto.
  Qed.
  Lemma filter_ext_in' {B} (p q : B -> bool) l : (forall b, In b l -> p b = q b) -> filter p l = filter q l.
  Proof. apply filter_ext_in. Qed.
  Lemma map_filter_key (s : string) l :
    map k (filter (fun a => negb (is s a)) l) = filter (fun t => negb (String.eqb t s)) (map k l).
  Proof.
    induction l as [|a l IH]; [reflexivity|]. cbn. unfold is at 1. destruct (String.eqb (k a) s); cbn; [exact IH|now rewrite IH].
  Qed.
  Lemma keys_cons a l : keys (a :: l) = k a :: keys (filter (fun b => negb (is (k a) b)) l).
  Proof. unfold keys, dedup. cbn [map dedup_aux existsb]. f_equal. rewrite dedup_aux_filter. now rewrite map_filter_key. Qed.
  Lemma keys_in l s : In s (keys l) <-> exists a, In a l /\ k a = s.
  Proof. unfold keys. rewrite (dedup_in _ str_eqb_spec), in_map_iff. split; intros (a & H1 & H2); eauto. Qed.
  Lemma keys_nodup l : NoDup (keys l).
  Proof. apply dedup_nodup, str_eqb_spec. Qed.
  Lemma is_iff s a : is s a = true <-> k a = s.
  Proof. apply str_eqb_spec. Qed.
  Lemma filter_filter_is s t l : s <> t -> filter (is t) (filter (fun b => negb (is s b)) l) = filter (is t) l.
  Proof.
    intros N. induction l as [|a l IH]; [reflexivity|]. cbn. destruct (is s a) eqn:E; cbn; rewrite IH; [|reflexivity].
    apply is_iff in E. destruct (is t a) eqn:E2; [|reflexivity]. apply is_iff in E2. congruence.
  Qed.
  Lemma parts_cons a l : parts (a :: l) = (a :: filter (is (k a)) l) :: parts (filter (fun b => negb (is (k a) b)) l).
  Proof.
    unfold parts. rewrite keys_cons. cbn [map]. f_equal.
    - cbn [filter]. unfold is at 1. now rewrite String.eqb_refl.
    - apply map_ext_in. intros t Ht. apply keys_in in Ht as (b & Hb & <-). apply filter_In in Hb as [_ Hb].
      apply negb_true_iff in Hb. assert (N : k a <> k b).
      { intros E. assert (is (k a) b = true) by (apply is_iff; congruence). congruence. }
      rewrite filter_filter_is by exact N. cbn [filter]. destruct (is (k b) a) eqn:E; [|reflexivity].
      apply is_iff in E. congruence.
  Qed.
  Lemma filter_length_le {B} (p : B -> bool) l : length (filter p l) <= length l.
  Proof. induction l as [|a l IH]; [auto|]. cbn. destruct (p a); cbn; lia. Qed.
  Lemma partition_perm {B} (p : B -> bool) l : Permutation (filter p l ++ filter (fun b => negb (p b)) l) l.
  Proof.
    induction l as [|a l IH]; [constructor|]. cbn. destruct (p a); cbn.
    - now constructor.
    - rewrite <- Permutation_middle. now constructor.
  Qed.
  Lemma parts_perm : forall n l, length l <= n -> Permutation (concat (parts l)) l.
  Proof.
    induction n as [|n IH]; intros [|a l] Hn; try constructor; [cbn in Hn; lia|].
    rewrite parts_cons. cbn [concat app]. constructor.
    rewrite IH; [apply partition_perm|]. cbn in Hn. pose proof (filter_length_le (fun b => negb (is (k a) b)) l). lia.
  Qed.
  Lemma concat_parts_perm l : Permutation (concat (parts l)) l.
  Proof. eapply parts_perm. reflexivity. Qed.

  (* rows already grouped by key *)
  Definition key_sorted (l : list A) : Prop := StronglySorted (fun a b => str_leb (k a) (k b) = true) l.
  Lemma key_sorted_split s : forall l, key_sorted l -> (forall b, In b l -> str_leb s (k b) = true) ->
    filter (is s) l ++ filter (fun b => negb (is s b)) l = l.
  Proof.
    induction l as [|a l IH]; intros S H; [reflexivity|]. inversion S as [|? ? S' F]; subst. cbn.
    destruct (is s a) eqn:E; cbn.
    - f_equal. apply IH; [exact S'|]. intros b Hb. apply H. now right.
    - assert (N : filter (is s) l = []).
      { assert (G : forall b, In b l -> is s b = false).
        { intros b Hb. destruct (is s b) eqn:Eb; [|reflexivity]. exfalso. apply is_iff in Eb.
          rewrite Forall_forall in F. specialize (F b Hb). rewrite Eb in F.
          assert (k a = s) by (apply str_leb_antisym; [exact F|apply H; now left]).
          rewrite (proj2 (is_iff s a)) in E by assumption. discriminate. }
        clear - G. induction l as [|b l IH]; [reflexivity|]. cbn. rewrite G by (now left). apply IH. intros c Hc. apply G. now right. }
      rewrite N. cbn. f_equal. specialize (IH S' (fun b Hb => H b (or_intror Hb))). rewrite N in IH. exact IH.
  Qed.
  Lemma key_sorted_filter p l : key_sorted l -> key_sorted (filter p l).
  Proof.
    induction 1 as [|a l S IH F]; [constructor|]. cbn. destruct (p a); [|exact IH]. constructor; [exact IH|].
    rewrite Forall_forall in *. intros b Hb. apply F. now apply filter_In in Hb.
  Qed.
  Lemma concat_parts_sorted : forall n l, length l <= n -> key_sorted l -> concat (parts l) = l.
  Proof.
    induction n as [|n IH]; intros [|a l] Hn S; try reflexivity; [cbn in Hn; lia|].
    rewrite parts_cons. cbn [concat app]. f_equal. inversion S as [|? ? S' F]; subst.
    rewrite IH.
    - apply key_sorted_split; [exact S'|]. intros b Hb. rewrite Forall_forall in F. now apply F.
    - cbn in Hn. pose proof (filter_length_le (fun b => negb (is (k a) b)) l). lia.
    - now apply key_sorted_filter.
  Qed.

  (* a group is recovered from the concatenation of the groups *)
  Lemma filter_none {B} (p : B -> bool) l : (forall b, In b l -> p b = false) -> filter p l = [].
  Proof.
    induction l as [|a l IH]; intros H; [reflexivity|]. cbn. rewrite H by (now left). apply IH. intros b Hb. apply H. now right.
  Qed.
  Lemma filter_all {B} (p : B -> bool) l : (forall b, In b l -> p b = true) -> filter p l = l.
  Proof.
    induction l as [|a l IH]; intros H; [reflexivity|]. cbn. rewrite H by (now left). f_equal. apply IH. intros b Hb. apply H. now right.
  Qed.
  Lemma filter_concat {B} (p : B -> bool) ls : filter p (concat ls) = concat (map (filter p) ls).
  Proof. induction ls as [|l ls IH]; [reflexivity|]. cbn. now rewrite filter_app, IH. Qed.
  Lemma concat_pick {B} (g : string -> list B) (key : B -> string) (ss : list string) s :
    NoDup ss -> In s ss -> (forall t b, In b (g t) -> key b = t) ->
    filter (fun b => String.eqb (key b) s) (concat (map g ss)) = g s.
  Proof.
    intros N I H. induction ss as [|t ss IH]; [destruct I|]. inversion N as [|? ? Nt N']; subst. cbn. rewrite filter_app.
    destruct (String.eqb_spec t s) as [->|Ne].
    - rewrite (filter_all _ (g s)) by (intros b Hb; rewrite (H s b Hb); apply String.eqb_refl).
      rewrite filter_none; [apply app_nil_r|]. intros b Hb. apply in_concat in Hb as (l & Hl & Hb). apply in_map_iff in Hl as (u & <- & Hu).
      rewrite (H u b Hb). apply String.eqb_neq. intros ->. contradiction.
    - rewrite (filter_none _ (g t)) by (intros b Hb; rewrite (H t b Hb); now apply String.eqb_neq). cbn.
      apply IH; [exact N'|]. destruct I as [E|I]; [contradiction|exact I].
  Qed.
End Group.

(* enumerate and filter *)
Lemma enum_from_filter {A B} (p : A -> bool) (f : nat -> A -> B) : forall l i j,
  map (fun q => f (fst q) (snd q)) (enum_from j (filter p l)) =
  map (fun q => f (j + length (filter p (firstn (fst q - i) l))) (snd q)) (filter (fun q => p (snd q)) (enum_from i l)).
Proof.
  induction l as [|a l IH]; intros i j; [reflexivity|]. cbn [enum_from filter snd].
  assert (R : forall m, map (fun q => f (m + length (filter p (firstn (fst q - i) (a :: l)))) (snd q)) (filter (fun q => p (snd q)) (enum_from (S i) l)) =
              map (fun q => f (m + (if p a then 1 else 0) + length (filter p (firstn (fst q - S i) l))) (snd q)) (filter (fun q => p (snd q)) (enum_from (S i) l))).
  { intros m. apply map_ext_in. intros [n b] Hn. apply filter_In in Hn as [Hn _].
    assert (Hle : S i <= n).
    { clear - Hn. revert Hn. generalize (S i). induction l as [|c l IH]; intros i' Hn; [destruct Hn|]. cbn in Hn.
      destruct Hn as [[= <- _]|Hn]; [lia|]. specialize (IH _ Hn). lia. }
    cbn [fst snd]. replace (n - i) with (S (n - S i)) by lia. cbn [firstn filter]. destruct (p a); cbn [length]; f_equal; lia. }
  destruct (p a) eqn:Pa.
  - cbn [map fst snd enum_from filter]. rewrite Pa || idtac. cbn [map fst snd]. f_equal.
    + rewrite Nat.sub_diag. cbn. f_equal. lia.
    + rewrite R. rewrite (IH (S i) (S j)). apply map_ext. intros q. f_equal. lia.
  - rewrite R. rewrite (IH (S i) j). apply map_ext. intros q. f_equal. lia.
Qed.
Lemma enumerate_filter {A B} (p : A -> bool) (f : nat -> A -> B) l :
  map (fun q => f (fst q) (snd q)) (enumerate (filter p l)) =
  map (fun q => f (length (filter p (firstn (fst q) l))) (snd q)) (filter (fun q => p (snd q)) (enumerate l)).
Proof.
  unfold enumerate. rewrite (enum_from_filter p f l 0 0). apply map_ext. intros q. now rewrite Nat.sub_0_r.
Qed.
