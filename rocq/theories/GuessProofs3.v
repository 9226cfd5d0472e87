(* What the initial guesses contain (C11, continued). *)
From Coq Require Import ZArith String List Bool Reals Lra Lia Sorted Permutation.
From Verif Require Import Num Py Cal Model ModelProofs Base Dummy Fixed NumProofs ListProofs BaseProofs
  SeasonProofs DummyProofs GuessProofs NaiveProofs.
Import ListNotations.
Local Open Scope nat_scope.

(* the first position at which a quantity is largest *)
Definition first_largest (M : nat -> R -> Prop) (i : nat) (r : R) : Prop :=
  M i r /\ forall j s, M j s -> (s <= r)%R /\ (s = r -> i <= j).
(* size of the change from the position before *)
Definition change (ys : list R) (i : nat) (r : R) : Prop :=
  exists j a b, i = S j /\ nth_error ys j = Some a /\ nth_error ys i = Some b /\ r = Rabs (b - a).
(* increase to the next position *)
Definition rise (ys : list R) (i : nat) (r : R) : Prop :=
  exists a b, nth_error ys i = Some a /\ nth_error ys (S i) = Some b /\ r = (b - a)%R.
(* change of the increase, at the last of three positions *)
Definition bend (ys : list R) (i : nat) (r : R) : Prop :=
  exists j a b c, i = S (S j) /\ nth_error ys j = Some a /\ nth_error ys (S j) = Some b /\ nth_error ys i = Some c /\ r = Rabs ((c - b) - (b - a)).

(* sorting keeps the order of equal entries *)
Lemma isort_stable {A} (leb : A -> A -> bool) (Q : A -> A -> Prop) l : total_leb leb -> trans_leb leb ->
  StronglySorted Q l -> StronglySorted (fun a b => leb a b = true /\ (leb b a = true -> Q a b)) (isort leb l).
Proof.
  intros Tt Tr. induction 1 as [|a l _ IH F]; [constructor|]. cbn [isort].
  assert (F' : Forall (Q a) (isort leb l)) by (rewrite Forall_forall in *; intros b I; apply F; exact (proj1 (isort_in leb l b) I)).
  clear F. revert F' IH. generalize (isort leb l) as m. intros m. induction m as [|b m IHm]; intros F' IH; [repeat constructor|]. inversion IH as [|? ? S G]; subst. inversion F' as [|? ? Qb F'']; subst. cbn [insert].
  destruct (leb a b) eqn:E.
  - constructor; [exact IH|]. constructor; [split; auto|]. rewrite Forall_forall in *. intros c I. destruct (G c I) as [L _]. split; [now apply (Tr a b c)|]. intros _. now apply F''.
  - constructor; [now apply IHm|]. rewrite Forall_forall in *. intros c I. apply (Permutation_in c (Permutation_sym (insert_perm leb a m))) in I.
    destruct I as [<-|I]; [|now apply G]. destruct (Tt a b) as [K|K]; [congruence|]. split; [exact K|congruence].
Qed.

Definition fin2 (p : nat * R) : nat * XR := (fst p, Fin (snd p)).
Definition down (a b : nat * R) : bool := Rleb (snd b) (snd a).
Lemma down_total : total_leb down.
Proof. intros a b. unfold down. destruct (Rleb_spec (snd b) (snd a)), (Rleb_spec (snd a) (snd b)); auto. lra. Qed.
Lemma down_trans : trans_leb down.
Proof. intros a b c. unfold down. destruct (Rleb_spec (snd b) (snd a)), (Rleb_spec (snd c) (snd b)), (Rleb_spec (snd c) (snd a)); auto. lra. Qed.
Lemma nlargest_fin2 k l : nlargest k (map fin2 l) = map fin2 (firstn k (isort down l)).
Proof.
  unfold nlargest. assert (E : filter (fun a : nat * XR => negb (nisnan (snd a))) (map fin2 l) = map fin2 l) by (induction l as [|a l IH]; [reflexivity|cbn; f_equal; exact IH]).
  rewrite E, (isort_map down) by reflexivity. apply firstn_map.
Qed.
Lemma enum_from_fin2 l i : enum_from i (fins l) = map fin2 (enum_from i l).
Proof. revert i. induction l as [|a l IH]; intros i; [reflexivity|]. cbn. now rewrite <- IH. Qed.
Lemma enum_from_sorted {A} (l : list A) i : StronglySorted (fun a b => fst a < fst b) (enum_from i l).
Proof.
  revert i. induction l as [|a l IH]; intros i; [constructor|]. cbn. constructor; [apply IH|]. apply Forall_forall. intros [j b] I. apply enum_from_in in I. cbn. lia.
Qed.
Lemma nlargest_abs_diffs_eq k y0 ys : nlargest k (abs_diffs (fins (y0 :: ys))) = map fin2 (firstn k (isort down (enum_from 1 (map Rabs (rdiff (y0 :: ys)))))).
Proof.
  rewrite abs_diffs_fins, enum_from_fin2, <- nlargest_fin2. unfold nlargest. cbn [filter snd nisnan XROps]. reflexivity.
Qed.
Lemma rdiff_nth l i r : nth_error (rdiff l) i = Some r <-> exists a b, nth_error l i = Some a /\ nth_error l (S i) = Some b /\ r = (b - a)%R.
Proof.
  revert i. induction l as [|a [|b l] IH]; intros i; cbn [rdiff].
  - split; [destruct i; discriminate|]. intros (x & y & E & _). destruct i; discriminate.
  - split; [destruct i; discriminate|]. intros (x & y & _ & E & _). destruct i; [discriminate|]. destruct i; discriminate.
  - destruct i as [|i]; cbn [nth_error].
    + split; [intros [= <-]; now exists a, b|]. intros (x & y & [= <-] & [= <-] & ->). reflexivity.
    + apply IH.
Qed.
Lemma change_iff ys i r : In (i, r) (enum_from 1 (map Rabs (rdiff ys))) <-> change ys i r.
Proof.
  rewrite enum_from_in. unfold change. split.
  - intros [L E]. rewrite nth_error_map in E. destruct (nth_error (rdiff ys) (i - 1)) as [d|] eqn:D; [|discriminate]. apply rdiff_nth in D as (a & b & Ea & Eb & ->). injection E as <-.
    exists (i - 1), a, b. replace (S (i - 1)) with i in Eb |- * by lia. auto.
  - intros (j & a & b & -> & Ea & Eb & ->). split; [lia|]. rewrite nth_error_map. replace (S j - 1) with j by lia.
    rewrite (proj2 (rdiff_nth ys j (b - a)%R)); [reflexivity|]. exists a, b. auto.
Qed.
Lemma change_fun ys i r s : change ys i r -> change ys i s -> r = s.
Proof. intros (j & a & b & -> & A & B & ->) (j' & a' & b' & [= <-] & A' & B' & ->). congruence. Qed.
Lemma Rleb_refl_snd (a : nat * R) : down a a = true.
Proof. apply Rleb_refl. Qed.

Definition stable_down (a b : nat * R) : Prop := down a b = true /\ (down b a = true -> fst a < fst b).
Lemma ranked_changes ys : StronglySorted stable_down (isort down (enum_from 1 (map Rabs (rdiff ys)))).
Proof. apply (isort_stable down (fun a b => fst a < fst b)); [apply down_total|apply down_trans|apply enum_from_sorted]. Qed.
Lemma stable_down_le i r j s : stable_down (i, r) (j, s) -> (s <= r)%R /\ (s = r -> i <= j).
Proof.
  intros [L K]. unfold down in L, K. cbn [fst snd] in *. destruct (Rleb_spec s r) as [G|]; [|discriminate]. split; [exact G|]. intros ->. rewrite Rleb_refl in K. specialize (K eq_refl). lia.
Qed.
Lemma largest1_change ys : 2 <= length ys -> exists i r, largest1 (abs_diffs (fins ys)) = Ok (i, Fin r) /\ first_largest (change ys) i r.
Proof.
  intros L. destruct ys as [|y0 ys]; [cbn in L; lia|]. unfold largest1. rewrite nlargest_abs_diffs_eq. pose proof (ranked_changes (y0 :: ys)) as S.
  pose proof (fun i r => change_iff (y0 :: ys) i r) as C.
  assert (Ln : length (isort down (enum_from 1 (map Rabs (rdiff (y0 :: ys))))) = length ys) by (rewrite isort_length, enum_from_length, map_length, rdiff_length; cbn; lia).
  assert (C' : forall i r, In (i, r) (isort down (enum_from 1 (map Rabs (rdiff (y0 :: ys))))) <-> change (y0 :: ys) i r) by (intros i r; rewrite isort_in; apply C).
  clear C. destruct (isort down _) as [|[i r] m]; [cbn in L, Ln; lia|]. cbn [firstn map fin2 fst snd]. exists i, r. split; [reflexivity|].
  inversion S as [|? ? _ F]; subst. split; [apply C'; now left|]. intros j s Hc. apply C' in Hc as [[= <- <-]|I]; [split; [lra|lia]|].
  rewrite Forall_forall in F. apply stable_down_le. now apply F.
Qed.
Lemma nlargest2_change ys : 3 <= length ys -> exists i r j s, nlargest 2 (abs_diffs (fins ys)) = [(i, Fin r); (j, Fin s)] /\
  first_largest (change ys) i r /\ first_largest (fun k v => k <> i /\ change ys k v) j s.
Proof.
  intros L. destruct ys as [|y0 ys]; [cbn in L; lia|]. rewrite nlargest_abs_diffs_eq. pose proof (ranked_changes (y0 :: ys)) as S.
  assert (Ln : length (isort down (enum_from 1 (map Rabs (rdiff (y0 :: ys))))) = length ys) by (rewrite isort_length, enum_from_length, map_length, rdiff_length; cbn; lia).
  assert (C' : forall i r, In (i, r) (isort down (enum_from 1 (map Rabs (rdiff (y0 :: ys))))) <-> change (y0 :: ys) i r) by (intros i r; rewrite isort_in; apply change_iff).
  assert (ND : NoDup (map fst (isort down (enum_from 1 (map Rabs (rdiff (y0 :: ys))))))).
  { apply (Permutation_NoDup (l := map fst (enum_from 1 (map Rabs (rdiff (y0 :: ys)))))); [apply Permutation_map, isort_perm|].
    generalize (map Rabs (rdiff (y0 :: ys))) as l, 1. clear. induction l as [|a l IH]; intros i; cbn; [constructor|]. constructor; [|apply IH].
    intros I. apply in_map_iff in I as ([j b] & <- & I). apply enum_from_in in I. cbn in I. lia. }
  destruct (isort down _) as [|[i r] [|[j s] m]]; [cbn in L, Ln; lia|cbn in L, Ln; lia|]. exists i, r, j, s. split; [reflexivity|].
  inversion S as [|? ? S' F]; subst. inversion S' as [|? ? _ F']; subst. rewrite Forall_forall in F, F'. cbn in ND. inversion ND as [|? ? N1 N2]; subst. split; split.
  - apply C'. now left.
  - intros k v Hc. apply C' in Hc as [[= <- <-]|I]; [split; [lra|lia]|]. apply stable_down_le. now apply F.
  - split; [|apply C'; right; now left]. intros ->. apply N1. now left.
  - intros k v [Hn Hc]. apply C' in Hc as [[= <- <-]|[[= <- <-]|I]]; [congruence|split; [lra|lia]|]. apply stable_down_le. now apply F'.
Qed.

(* np.argmax and max of the increases *)
Lemma find_index_least (f : XR -> bool) l : forall i j, find_index f i l = Some j -> i <= j /\ (exists a, nth_error l (j - i) = Some a /\ f a = true) /\
  forall k a, i <= k < j -> nth_error l (k - i) = Some a -> f a = false.
Proof.
  induction l as [|b l IH]; intros i j; [discriminate|]. cbn [find_index]. destruct (f b) eqn:E.
  - intros [= <-]. split; [lia|]. split; [exists b; rewrite Nat.sub_diag; auto|]. intros k a K. lia.
  - intros Hf. destruct (IH (S i) j Hf) as (L & (a & Ea & Fa) & M). split; [lia|]. replace (j - i) with (S (j - S i)) by lia. split; [now exists a|].
    intros k c K Ec. destruct (Nat.eq_dec k i) as [->|Hn]; [rewrite Nat.sub_diag in Ec; injection Ec as <-; exact E|].
    apply (M k); [lia|]. now replace (k - i) with (S (k - S i)) in Ec by lia.
Qed.
Lemma spike_choice ys : 2 <= length ys -> exists i r, py_max (np_diff (fins ys)) = Ok (Fin r) /\ np_argmax (np_diff (fins ys)) = Ok i /\ first_largest (rise ys) i r.
Proof.
  intros L. rewrite np_diff_fins. unfold np_argmax. rewrite (find_index_none nisnan) by apply no_nan_fins. pose proof (rdiff_nonempty ys L) as Hn. pose proof (rdiff_nth ys) as D.
  change (forall i r, nth_error (rdiff ys) i = Some r <-> rise ys i r) in D. destruct (rdiff ys) as [|a l]; [contradiction|]. cbn [fins map py_max rbind]. rewrite nmax_fin. fold (fins l). change (Fin a :: fins l) with (fins (a :: l)).
  set (mx := fold_left Rmax l a). assert (Imx : In mx (a :: l)) by apply fold_max_in.
  assert (B : forall v, In v (a :: l) -> (v <= mx)%R) by (intros v [<-|I]; [apply (proj1 (fold_max_bound l a))|now apply (proj2 (fold_max_bound l a))]).
  destruct (find_index_some (fun x => neqb x (Fin mx)) (fins (a :: l)) 0) as (i & Ei).
  { exists (Fin mx). split; [now apply in_map|apply Reqb_refl]. }
  rewrite Ei. exists i, mx. split; [reflexivity|]. split; [reflexivity|]. apply find_index_least in Ei as (_ & (v & Ev & Fv) & M). rewrite Nat.sub_0_r in Ev.
  unfold fins in Ev. rewrite nth_error_map in Ev. destruct (nth_error (a :: l) i) as [v'|] eqn:Ei; [|discriminate]. cbn in Ev. injection Ev as <-.
  change (Reqb v' mx = true) in Fv. destruct (Reqb_spec v' mx) as [->|]; [|discriminate]. split; [now apply D|].
  intros j s Hs. apply D in Hs. split; [apply B; now apply (nth_error_In _ j)|]. intros ->. destruct (Nat.le_gt_cases i j) as [K|K]; [exact K|]. exfalso.
  assert (Q : neqb (Fin mx) (Fin mx) = false).
  { apply (M j (Fin mx)); [lia|]. rewrite Nat.sub_0_r. unfold fins. now rewrite nth_error_map, Hs. }
  change (Reqb mx mx = false) in Q. rewrite Reqb_refl in Q. discriminate.
Qed.

(* ---- the bend of a ramp ---- *)
Definition down_g {L} (a b : L * R) : bool := Rleb (snd b) (snd a).
Lemma nlargest_head {L M} (Q : L -> L -> Prop) (g : L -> M) (l : list (L * R)) : StronglySorted (fun a b => Q (fst a) (fst b)) l -> l <> [] ->
  exists a, In a l /\ largest1 (map (fun p => (g (fst p), Fin (snd p))) l) = Ok (g (fst a), Fin (snd a)) /\
    forall b, In b l -> b = a \/ ((snd b <= snd a)%R /\ (snd b = snd a -> Q (fst a) (fst b))).
Proof.
  intros S Hn. unfold largest1, nlargest.
  assert (E : filter (fun a : M * XR => negb (nisnan (snd a))) (map (fun p : L * R => (g (fst p), Fin (snd p))) l) = map (fun p => (g (fst p), Fin (snd p))) l) by (clear; induction l as [|a l IH]; [reflexivity|cbn; f_equal; exact IH]).
  rewrite E, (isort_map down_g) by reflexivity. rewrite firstn_map.
  assert (Tt : total_leb (down_g (L := L))) by (intros a b; unfold down_g; destruct (Rleb_spec (snd b) (snd a)), (Rleb_spec (snd a) (snd b)); auto; lra).
  assert (Tr : trans_leb (down_g (L := L))) by (intros a b c; unfold down_g; destruct (Rleb_spec (snd b) (snd a)), (Rleb_spec (snd c) (snd b)), (Rleb_spec (snd c) (snd a)); auto; lra).
  pose proof (isort_stable down_g _ l Tt Tr S) as P. pose proof (isort_in down_g l) as I. pose proof (isort_length down_g l) as Ln.
  destruct (isort down_g l) as [|a m]; [destruct l; [contradiction|discriminate]|]. exists a. split; [apply I; now left|]. split; [reflexivity|].
  intros b Hb. apply I in Hb as [<-|Hb]; [now left|]. right. inversion P as [|? ? _ F]; subst. rewrite Forall_forall in F. destruct (F b Hb) as [K1 K2]. unfold down_g in K1, K2.
  destruct (Rleb_spec (snd b) (snd a)) as [K|]; [|discriminate]. split; [exact K|]. intros E'. apply K2. rewrite E'. apply Rleb_refl.
Qed.
Lemma sorted_filter {A} (Q : A -> A -> Prop) (p : A -> bool) l : StronglySorted Q l -> StronglySorted Q (filter p l).
Proof.
  induction 1 as [|a l S IH F]; [constructor|]. cbn. destruct (p a); [|exact IH]. constructor; [exact IH|]. rewrite Forall_forall in *. intros b I. apply filter_In in I. now apply F.
Qed.
Lemma sorted_app_inv {A} (Q : A -> A -> Prop) l l' : StronglySorted Q (l ++ l') -> StronglySorted Q l /\ StronglySorted Q l'.
Proof.
  induction l as [|a l IH]; cbn; intros S; [split; [constructor|exact S]|]. inversion S as [|? ? S' F]; subst. destruct (IH S') as [I1 I2]. split; [|exact I2]. constructor; [exact I1|].
  apply Forall_app in F. tauto.
Qed.
Lemma sorted_inner {A} (Q : A -> A -> Prop) k l : StronglySorted Q l -> StronglySorted Q (tail_neg k (head_neg k l)).
Proof.
  unfold tail_neg, head_neg. intros S. rewrite <- (firstn_skipn (length l - k) l) in S. apply sorted_app_inv in S as [S _].
  rewrite <- (firstn_skipn k (firstn (length l - k) l)) in S. now apply sorted_app_inv in S.
Qed.
Lemma sorted_combine (xs : list R) {B} (l : list B) : StronglySorted Rlt xs -> StronglySorted (fun a b => (fst a < fst b)%R) (combine xs l).
Proof.
  intros S. revert l. induction S as [|a xs S IH F]; intros [|b l]; try constructor; [apply IH|]. apply Forall_forall. intros [x c] I. apply in_combine_l in I. rewrite Forall_forall in F. now apply F.
Qed.
Lemma bend_iff (y0 y1 : R) ys i r : nth_error (XNaN :: XNaN :: fins (map Rabs (rdiff (rdiff (y0 :: y1 :: ys))))) i = Some (Fin r) <-> bend (y0 :: y1 :: ys) i r.
Proof.
  set (l := y0 :: y1 :: ys). unfold bend. split.
  - destruct i as [|[|i]]; cbn [nth_error]; [discriminate|discriminate|]. unfold fins. rewrite nth_error_map. rewrite nth_error_map. destruct (nth_error (rdiff (rdiff l)) i) as [d|] eqn:D; [|discriminate]. cbn. intros [= <-].
    apply rdiff_nth in D as (u & v & Eu & Ev & ->). apply rdiff_nth in Eu as (a & b & Ea & Eb & ->). apply rdiff_nth in Ev as (b' & c & Eb' & Ec & ->). rewrite Eb in Eb'. injection Eb' as <-. exists i, a, b, c. auto.
  - intros (j & a & b & c & -> & Ea & Eb & Ec & ->). cbn [nth_error]. unfold fins. rewrite !nth_error_map. rewrite (proj2 (rdiff_nth (rdiff l) j ((c - b) - (b - a))%R)); [reflexivity|].
    exists (b - a)%R, (c - b)%R. split; [|split; [|reflexivity]]; apply rdiff_nth; [now exists a, b|now exists b, c].
Qed.
Lemma skip15_le n i : skip15 n <= i <-> 15 * n <= 100 * i.
Proof. unfold skip15. pose proof (Nat.div_mod (15 * n + 99) 100 ltac:(lia)). pose proof (Nat.mod_upper_bound (15 * n + 99) 100 ltac:(lia)). lia. Qed.
Lemma ramp_guess xs ys d mult rnd : length xs = length ys -> StronglySorted Rlt xs -> 4 <= length xs ->
  exists i x r, fm_init model_ramp (Some (fins xs)) (Some (fins ys)) d mult rnd = Ok [Fin x; Fin r] /\ nth_error xs i = Some x /\
    first_largest (fun j s => bend ys j s /\ 15 * length xs <= 100 * j /\ 15 * length xs <= 100 * (length xs - 1 - j)) i r.
Proof.
  intros Le S L4. cbn [fm_init model_ramp mk_model]. rewrite init_fins. unfold init_ramp. rewrite !fins_length, Le, Nat.eqb_refl. cbn [rbind].
  unfold dedup_key, dedup. rewrite combine_fins. change (@nil (XR * XR)) with (map (fun p : R * R => (Fin (fst p), Fin (snd p))) []). rewrite dedup_points.
  assert (Hd : dedup_aux same_x [] (combine xs ys) = combine xs ys).
  { assert (G : forall l seen, length (dedup_aux same_x seen l) = length l -> dedup_aux same_x seen l = l).
    { clear. induction l as [|a l IH]; intros seen E; [reflexivity|]. cbn in *. destruct (existsb _ _).
      - pose proof (dedup_aux_le same_x l seen). lia.
      - f_equal. apply IH. cbn in E. lia. }
    apply G. transitivity (n_distinct xs); [rewrite dedup_points_length, map_fst_combine by exact Le; reflexivity|]. unfold n_distinct. rewrite dedup_increasing by exact S. rewrite combine_length. lia. }
  rewrite Hd, map_length, !map_map. cbn [fst snd]. rewrite <- (map_map fst Fin), <- (map_map snd Fin), map_fst_combine by exact Le.
  assert (E2 : map snd (combine xs ys) = ys) by (clear - Le; revert ys Le; induction xs as [|x xs IH]; intros [|y ys] Le; try discriminate; [reflexivity|cbn; f_equal; apply IH; now injection Le]).
  rewrite E2. fold (fins xs) (fins ys). assert (Lc : length (combine xs ys) = length xs) by (rewrite combine_length; lia). rewrite Lc.
  destruct (skip15_spec _ L4) as [K1 K2]. set (k := skip15 (length xs)) in *.
  destruct ys as [|y0 [|y1 ys]]; [cbn in Le; lia|cbn in Le; lia|]. rewrite pd_diff2_fins. pose proof (bend_iff y0 y1 ys) as B. assert (L2 : length (rdiff (rdiff (y0 :: y1 :: ys))) = length ys) by (rewrite !rdiff_length; cbn; lia).
  set (yl := y0 :: y1 :: ys) in *. set (dd := XNaN :: XNaN :: fins (map Rabs (rdiff (rdiff yl)))) in *.
  assert (Ld : length dd = length xs) by (unfold dd; cbn [length]; unfold fins; rewrite !map_length, L2, Le; unfold yl; cbn; lia).
  assert (Fd : Forall (fun v => v = XNaN \/ exists r, v = Fin r) dd).
  { unfold dd. constructor; [now left|]. constructor; [now left|]. apply Forall_forall. intros v I. apply in_map_iff in I as (r & <- & _). right. now exists r. }
  clearbody dd. set (real := fun v : XR => match v with Fin r => r | _ => 0%R end).
  set (L0 := map (fun p => (fst p, real (snd p))) (filter (fun p : R * XR => negb (nisnan (snd p))) (tail_neg k (head_neg k (combine xs dd))))).
  assert (In0 : forall x r, In (x, r) L0 <-> exists i, nth_error xs i = Some x /\ k <= i < length xs - k /\ bend yl i r).
  { intros x r. unfold L0. rewrite in_map_iff. split.
    - intros ([x' v] & [= -> Er] & I). apply filter_In in I as [I Nn]. apply In_nth_error in I as (j & Ej). apply inner_nth in Ej as [J1 J2]. rewrite combine_length, Ld, Nat.min_id in J1.
      apply nth_error_combine in J2 as [J2 J3]. exists (k + j). split; [exact J2|]. split; [lia|]. apply B. rewrite J3. f_equal.
      rewrite Forall_forall in Fd. destruct (Fd v) as [->|(s & ->)]; [now apply (nth_error_In _ (k + j))|discriminate|]. cbn in Er. now subst.
    - intros (i & Ex & Hi & Hb). apply B in Hb. exists (x, Fin r). split; [reflexivity|]. apply filter_In. split; [|reflexivity]. apply (nth_error_In _ (i - k)). apply inner_nth.
      replace (k + (i - k)) with i by lia. rewrite combine_length, Ld, Nat.min_id. split; [lia|]. apply nth_error_combine. auto. }
  assert (S0 : StronglySorted (fun a b => (fst a < fst b)%R) L0).
  { unfold L0. pose proof (sorted_filter _ (fun p : R * XR => negb (nisnan (snd p))) _ (sorted_inner _ k _ (sorted_combine xs dd S))) as S1. clear - S1.
    induction S1 as [|a l S1 IH F]; [constructor|]. cbn [map]. constructor; [exact IH|]. rewrite Forall_forall in *. intros b I. apply in_map_iff in I as (c & <- & I). cbn. now apply F. }
  assert (N0 : L0 <> []).
  { assert (exists i, 2 <= i /\ k <= i < length xs - k) as (i & Hi & Hk) by (exists (Nat.max 2 k); lia).
    destruct (nth_error xs i) as [x|] eqn:Ex; [|apply nth_error_None in Ex; lia]. destruct i as [|[|j]]; try lia.
    destruct (nth_error yl j) as [a|] eqn:Ea; [|apply nth_error_None in Ea; lia]. destruct (nth_error yl (1 + j)) as [b|] eqn:Eb; [|apply nth_error_None in Eb; lia]. destruct (nth_error yl (2 + j)) as [c|] eqn:Ec; [|apply nth_error_None in Ec; lia].
    assert (I : In (x, Rabs ((c - b) - (b - a))) L0) by (apply In0; exists (2 + j); split; [exact Ex|]; split; [exact Hk|]; exists j, a, b, c; auto). intros E. rewrite E in I. destruct I. }
  assert (E0 : largest1 (tail_neg k (head_neg k (combine (fins xs) dd))) = largest1 (map (fun p => (Fin (fst p), Fin (snd p))) L0)).
  { unfold largest1, nlargest.
    assert (Ef : filter (fun a : XR * XR => negb (nisnan (snd a))) (tail_neg k (head_neg k (combine (fins xs) dd))) = filter (fun a : XR * XR => negb (nisnan (snd a))) (map (fun p => (Fin (fst p), Fin (snd p))) L0)); [|now rewrite Ef].
    assert (Ec : combine (fins xs) dd = map (fun p => (Fin (fst p), snd p)) (combine xs dd)) by (clear; revert dd; induction xs as [|x xs IH]; intros [|v dd]; try reflexivity; cbn; f_equal; apply IH).
    rewrite Ec. unfold tail_neg, head_neg. rewrite map_length, firstn_map, skipn_map. unfold L0, tail_neg, head_neg.
    assert (Fi : Forall (fun p : R * XR => snd p = XNaN \/ exists r, snd p = Fin r) (skipn k (firstn (length (combine xs dd) - k) (combine xs dd)))).
    { apply Forall_forall. intros [x v] I. cbn. rewrite Forall_forall in Fd. apply Fd. assert (I' : In (x, v) (combine xs dd)).
      { rewrite <- (firstn_skipn (length (combine xs dd) - k)). apply in_or_app. left. rewrite <- (firstn_skipn k). apply in_or_app. now right. }
      now apply in_combine_r in I'. }
    induction Fi as [|[x v] l [Ev|(r & Ev)] _ IH]; [reflexivity| |]; cbn [snd] in Ev; subst v; cbn [map filter fst snd real]; [change (nisnan XNaN) with true; cbn [negb]; exact IH|].
    change (nisnan (Fin r)) with false. cbn [negb map filter fst snd real]. change (nisnan (Fin r)) with false. cbn [negb]. f_equal. exact IH. }
  rewrite E0. destruct (nlargest_head Rlt Fin L0 S0 N0) as ([x r] & Ia & -> & Mx). cbn [rbind fst snd]. apply In0 in Ia as (i & Ex & Hk & Hb).
  assert (Kk : forall j, k <= j < length xs - k <-> 15 * length xs <= 100 * j /\ 15 * length xs <= 100 * (length xs - 1 - j)).
  { intros j. unfold k. rewrite <- !skip15_le. fold k. lia. }
  exists i, x, r. split; [reflexivity|]. split; [exact Ex|]. rewrite <- ?Le. split; [split; [exact Hb|]; apply Kk; lia|].
  intros j s [Hj Hjk]. apply Kk in Hjk. destruct (nth_error xs j) as [x'|] eqn:Ej; [|apply nth_error_None in Ej; lia].
  destruct (Mx (x', s)) as [[= -> ->]|[M1 M2]]; [apply In0; exists j; split; [exact Ej|]; split; [lia|exact Hj]| |].
  - split; [lra|]. intros _. destruct (Nat.le_gt_cases i j) as [K|K]; [exact K|]. exfalso.
    assert (Hlt : forall (l : list R) p q a b, StronglySorted Rlt l -> p < q -> nth_error l p = Some a -> nth_error l q = Some b -> (a < b)%R).
    { clear. induction l as [|c l IH]; intros p q a b S K A Bq; [destruct p; discriminate|]. inversion S as [|? ? S' F]; subst. destruct p as [|p], q as [|q]; try lia; cbn in A, Bq.
      - injection A as <-. rewrite Forall_forall in F. apply F. now apply (nth_error_In _ q).
      - apply (IH p q); auto; lia. }
    pose proof (Hlt xs j i x x S K Ej Ex). lra.
  - cbn [fst snd] in *. split; [exact M1|]. intros ->. specialize (M2 eq_refl). destruct (Nat.le_gt_cases i j) as [K|K]; [exact K|]. exfalso.
    pose proof (rsorted_nth xs S j i x' x ltac:(lia) Ej Ex). lra.
Qed.
