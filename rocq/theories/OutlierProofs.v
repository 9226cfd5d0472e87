(* Proofs about outlier detection (C44). *)
From Coq Require Import ZArith String List Bool Lia Reals Lra Sorted Permutation.
From Verif Require Import Num Py Cal Model Outliers ListProofs NumProofs.
Import ListNotations.
Local Open Scope list_scope.

Lemma nth_error_combine {A B} (l : list A) (l' : list B) i a b :
  nth_error l i = Some a -> nth_error l' i = Some b -> nth_error (combine l l') i = Some (a, b).
Proof. revert l' i. induction l as [|x l IH]; intros [|y l'] [|i] E1 E2; try discriminate; cbn in *; [congruence|]. now apply IH. Qed.
Lemma nth_error_combine_inv {A B} (l : list A) (l' : list B) i a b :
  nth_error (combine l l') i = Some (a, b) -> nth_error l i = Some a /\ nth_error l' i = Some b.
Proof. revert l' i. induction l as [|x l IH]; intros [|y l'] [|i] E; try discriminate; cbn in *; [inversion E; auto|]. now apply IH. Qed.

(* ---------- windows and groups ---------- *)
Lemma roll_from_length l : forall b, length (roll_from b l) = length l.
Proof. induction l as [|a l IH]; intros b; [reflexivity|]. destruct l as [|c l]; [reflexivity|]. cbn [roll_from length] in *. now rewrite IH. Qed.
Lemma rolling3_length l : length (rolling3 l) = length l.
Proof. destruct l as [|a [|b l]]; [reflexivity|reflexivity|]. cbn [rolling3 length]. now rewrite roll_from_length. Qed.
Lemma group_from_length l : forall g b, length (group_from g b l) = length l.
Proof. induction l as [|a l IH]; intros g b; [reflexivity|]. cbn. now rewrite IH. Qed.
Lemma groups_length l : length (groups l) = length l.
Proof. destruct l as [|a l]; [reflexivity|]. cbn. now rewrite group_from_length. Qed.

(* a window around sample i: not the first or last sample; changed itself, before or after *)
Definition in_window (chg : list bool) (i : nat) : Prop :=
  (1 <= i)%nat /\ (i + 1 < length chg)%nat /\
  (nth (i - 1) chg false = true \/ nth i chg false = true \/ nth (i + 1) chg false = true).
Lemma roll_from_spec l : forall b i, nth i (roll_from b l) false = true <->
  (i + 1 < length l)%nat /\ (nth i (b :: l) false = true \/ nth i l false = true \/ nth (i + 1) l false = true).
Proof.
  induction l as [|a l IH]; intros b i.
  - cbn. destruct i; split; try discriminate; intros [L _]; lia.
  - destruct l as [|c l].
    + cbn [roll_from length]. destruct i as [|[|i]]; cbn; split; try discriminate; intros [L _]; lia.
    + change (roll_from b (a :: c :: l)) with ((b || a || c) :: roll_from a (c :: l)). destruct i as [|i].
      * cbn [nth length Nat.add]. rewrite !orb_true_iff. split; [intros K; split; [lia|tauto]|tauto].
      * cbn [nth]. rewrite IH. cbn [length]. replace (S i + 1)%nat with (S (i + 1)) by lia. cbn [nth]. split; intros [L K]; (split; [lia|exact K]).
Qed.
Lemma rolling3_spec l i : nth i (rolling3 l) false = true <-> in_window l i.
Proof.
  unfold in_window. destruct l as [|a [|b l]].
  - cbn. destruct i; split; try discriminate; intros (_ & L & _); lia.
  - cbn. destruct i as [|[|i]]; split; try discriminate; intros (K & L & _); lia.
  - cbn [rolling3]. destruct i as [|i].
    + cbn [nth]. split; [discriminate|lia].
    + cbn [nth]. rewrite roll_from_spec. replace (S i - 1)%nat with i by lia. replace (S i + 1)%nat with (S (i + 1)) by lia. cbn [length nth].
      split; [intros [L K]; split; [lia|]; split; [lia|exact K]|intros (L1 & L2 & K); split; [lia|exact K]].
Qed.
(* group numbers: equal exactly within a run of equal flags *)
Lemma group_from_mono l : forall g b i x, nth_error (group_from g b l) i = Some x -> (g <= x)%nat.
Proof.
  induction l as [|a l IH]; intros g b i x E; [destruct i; discriminate|]. cbn in E.
  destruct i as [|i].
  - cbn in E. injection E as <-. destruct (Bool.eqb a b); lia.
  - cbn in E. apply IH in E. destruct (Bool.eqb a b); lia.
Qed.
Lemma group_from_same l : forall g b i x, nth_error (group_from g b l) i = Some x ->
  (x = g <-> forall m, (m <= i)%nat -> nth_error l m = Some b).
Proof.
  induction l as [|a l IH]; intros g b i x E; [destruct i; discriminate|]. cbn in E.
  destruct i as [|i].
  - cbn in E. injection E as <-. destruct (Bool.eqb a b) eqn:Eb.
    + apply Bool.eqb_prop in Eb. subst. split; [|auto]. intros _ m Hm. replace m with 0%nat by lia. reflexivity.
    + apply Bool.eqb_false_iff in Eb. split; [intros C; exfalso; lia|]. intros F. specialize (F 0%nat ltac:(lia)). cbn in F. congruence.
  - cbn in E. destruct (Bool.eqb a b) eqn:Eb.
    + apply Bool.eqb_prop in Eb. subst a. rewrite (IH _ _ _ _ E). split.
      * intros F [|m] Hm; [reflexivity|]. cbn. apply F. lia.
      * intros F m Hm. apply (F (S m)). lia.
    + pose proof (group_from_mono _ _ _ _ _ E) as M. apply Bool.eqb_false_iff in Eb. split; [intros C; exfalso; lia|].
      intros F. specialize (F 0%nat ltac:(lia)). cbn in F. congruence.
Qed.
Lemma group_from_shift l : forall g b i, exists g' b', skipn (S i) (group_from g b l) = group_from g' b' (skipn (S i) l) /\
  (forall x, nth_error (group_from g b l) i = Some x -> x = g') /\ (forall c, nth_error l i = Some c -> c = b').
Proof.
  induction l as [|a l IH]; intros g b i.
  - exists g, b. split; [reflexivity|]. split; intros x E; destruct i; discriminate.
  - destruct i as [|i].
    + cbn. eexists _, a. split; [reflexivity|]. split; intros x E; congruence.
    + cbn [group_from]. destruct (IH (if Bool.eqb a b then g else S g) a i) as (g' & b' & E1 & E2 & E3).
      exists g', b'. split; [exact E1|]. split; [exact E2|exact E3].
Qed.
Lemma skipn_nth_error {A} (l : list A) : forall n e, nth_error (skipn n l) e = nth_error l (n + e).
Proof. induction l as [|a l IH]; intros [|n] e; try reflexivity; [destruct e; reflexivity|]. cbn. apply IH. Qed.
Lemma groups_same l i j gi gj wi : (i <= j)%nat -> nth_error (groups l) i = Some gi -> nth_error (groups l) j = Some gj ->
  nth_error l i = Some wi -> (gi = gj <-> forall m, (i <= m <= j)%nat -> nth_error l m = Some wi).
Proof.
  intros L Ei Ej Wi. destruct (Nat.eq_dec i j) as [<-|N].
  - split; [|congruence]. intros _ m Hm. now replace m with i by lia.
  - destruct l as [|a l]; [destruct i; discriminate|]. cbn [groups] in Ei, Ej. destruct j as [|j]; [lia|]. cbn [nth_error] in Ej. destruct i as [|i].
    + cbn in Ei, Wi. injection Ei as <-. injection Wi as <-. pose proof (group_from_same _ _ _ _ _ Ej) as S. split.
      * intros E [|m] Hm; [reflexivity|]. cbn. apply (proj1 S); [congruence|lia].
      * intros F. symmetry. apply S. intros m Hm. apply (F (Datatypes.S m)). lia.
    + cbn [nth_error] in Ei, Wi. destruct (group_from_shift l 0%nat a i) as (g' & b' & E1 & E2 & E3).
      apply E2 in Ei. subst gi. apply E3 in Wi. subst wi.
      assert (Ej' : nth_error (group_from g' b' (skipn (S i) l)) (j - S i) = Some gj).
      { rewrite <- E1, skipn_nth_error. replace (S i + (j - S i))%nat with j by lia. exact Ej. }
      pose proof (group_from_same _ _ _ _ _ Ej') as S. split.
      * intros E m Hm. destruct (Nat.eq_dec m (Datatypes.S i)) as [->|].
        { cbn. assert (exists c, nth_error l i = Some c) as (c & Hc).
          { destruct (nth_error l i) eqn:K; [eauto|]. apply nth_error_None in K.
            assert (nth_error (group_from 0 a l) j = None) by (apply nth_error_None; rewrite group_from_length; lia). congruence. }
          rewrite Hc. f_equal. now apply E3. }
        destruct m as [|m]; [lia|]. cbn. assert (nth_error (skipn (Datatypes.S i) l) (m - Datatypes.S i) = Some b') as K by (apply (proj1 S); [congruence|lia]).
        rewrite skipn_nth_error in K. now replace (Datatypes.S i + (m - Datatypes.S i))%nat with m in K by lia.
      * intros F. symmetry. apply S. intros m Hm. rewrite skipn_nth_error. apply (F (Datatypes.S (Datatypes.S i + m))). lia.
Qed.

Section O.
  Context {T : Type} `{NumOps T}.
  Definition positions (f : frame T) : list Z := map (fun r => if has_date f then r_date r else r_x r) (rows f).
  Definition diffs (f : frame T) : list T := pd_diff (map r_y (rows f)).
  Definition outside (lo hi d : T) : bool := nltb d lo || nltb hi d.
  Lemma np_diff_length (l : list T) : length (np_diff l) = (length l - 1)%nat.
  Proof. induction l as [|a l IH]; [reflexivity|]. destruct l as [|b l]; [reflexivity|]. cbn [np_diff length] in *. lia. Qed.
  Lemma pd_diff_length (l : list T) : length (pd_diff l) = length l.
  Proof. destruct l as [|a l]; [reflexivity|]. unfold pd_diff. cbn [length]. rewrite np_diff_length. cbn [length]. lia. Qed.

  Lemma osamples_length lo hi pos dif : length pos = length dif -> length (osamples (T := T) lo hi pos dif) = length pos.
  Proof.
    intros E. unfold osamples. rewrite map_length, !combine_length, groups_length, rolling3_length, map_length. lia.
  Qed.
  Lemma osamples_nth lo hi pos dif i s : length pos = length dif -> nth_error (osamples (T := T) lo hi pos dif) i = Some s ->
    nth_error pos i = Some (o_pos s) /\ nth_error dif i = Some (o_dif s) /\ o_chg s = outside lo hi (o_dif s) /\
    nth_error (rolling3 (map (outside lo hi) dif)) i = Some (o_win s) /\
    nth_error (groups (rolling3 (map (outside lo hi) dif))) i = Some (o_grp s).
  Proof.
    intros L E. unfold osamples in E. fold (outside lo hi) in E. rewrite nth_error_map in E.
    destruct (nth_error (combine _ _) i) as [[[[[x d] c] w] g]|] eqn:K; [|discriminate]. cbn in E. injection E as <-. cbn.
    apply nth_error_combine_inv in K as [K Kg]. apply nth_error_combine_inv in K as [K Kw]. apply nth_error_combine_inv in K as [K Kc].
    apply nth_error_combine_inv in K as [Kp Kd]. split; [exact Kp|]. split; [exact Kd|]. split; [|split; [exact Kw|exact Kg]].
    change (fun d0 => nltb d0 lo || nltb hi d0) with (outside lo hi) in Kc. rewrite nth_error_map, Kd in Kc. cbn in Kc. congruence.
  Qed.

  (* what a mask refers to: sample i, its difference and the thresholds *)
  Definition thresholds (f : frame T) : T * T := iqr_thresholds (diffs f).
  Definition change_at (f : frame T) (i : nat) : Prop :=
    exists d, nth_error (diffs f) i = Some d /\ outside (fst (thresholds f)) (snd (thresholds f)) d = true.
  Definition window_at (f : frame T) (i : nat) : Prop :=
    (1 <= i)%nat /\ (i + 1 < length (rows f))%nat /\ (change_at f (i - 1) \/ change_at f i \/ change_at f (i + 1)).
  (* i and j are in the same run of samples near changes, or away from them *)
  Definition same_run (f : frame T) (i j : nat) : Prop :=
    forall m, (Nat.min i j <= m <= Nat.max i j)%nat -> (window_at f m <-> window_at f i).

  Lemma outliers_error f : model_outliers f = Err ValueError <-> ~ NoDup (positions f).
  Proof.
    unfold model_outliers. fold (positions f). destruct (has_dup Z.eqb (positions f)) eqn:E.
    - split; [|reflexivity]. intros _ N. apply (has_dup_iff Z.eqb Z.eqb_eq) in N. congruence.
    - apply (has_dup_iff Z.eqb Z.eqb_eq) in E. split; [|tauto]. destruct (iqr_thresholds _) as [lo hi]. destruct (existsb _ _); discriminate.
  Qed.
  Lemma outliers_shape f : NoDup (positions f) -> exists steps spikes,
    model_outliers f = Ok (steps, spikes) /\ length steps = length (rows f) /\ length spikes = length (rows f).
  Proof.
    intros N. unfold model_outliers. fold (positions f). rewrite (proj2 (has_dup_iff Z.eqb Z.eqb_eq _) N).
    destruct (iqr_thresholds _) as [lo hi]. destruct (existsb _ _).
    - eexists _, _. split; [reflexivity|]. rewrite !map_length, osamples_length; [unfold positions; rewrite map_length; auto|].
      unfold positions. now rewrite pd_diff_length, !map_length.
    - eexists _, _. split; [reflexivity|]. now rewrite !repeat_length.
  Qed.

  Section Masks.
    Variable f : frame T.
    Variable lo hi : T.
    Hypothesis Hthr : thresholds f = (lo, hi).
    Let l := osamples lo hi (positions f) (diffs f).
    Let chg := map (outside lo hi) (diffs f).
    Let win := rolling3 chg.
    Lemma Lpd : length (positions f) = length (diffs f).
    Proof. unfold positions, diffs. now rewrite pd_diff_length, !map_length. Qed.
    Lemma Llen : length (diffs f) = length (rows f).
    Proof. unfold diffs. now rewrite pd_diff_length, map_length. Qed.
    Lemma chg_at i : nth i chg false = true <-> change_at f i.
    Proof.
      unfold change_at. rewrite Hthr. cbn [fst snd]. unfold chg. split.
      - intros E. destruct (nth_error (diffs f) i) as [d|] eqn:K.
        + exists d. split; [reflexivity|]. apply (map_nth_error (outside lo hi)) in K. apply (nth_error_nth _ _ false) in K. congruence.
        + apply nth_error_None in K. rewrite nth_overflow in E by (rewrite map_length; lia). discriminate.
      - intros (d & K & E). apply (map_nth_error (outside lo hi)) in K. apply (nth_error_nth _ _ false) in K. congruence.
    Qed.
    Lemma win_at i : nth i win false = true <-> window_at f i.
    Proof.
      unfold win. rewrite rolling3_spec. unfold in_window, window_at. rewrite !chg_at. unfold chg. rewrite map_length, Llen. tauto.
    Qed.
    Lemma sample_at i : (i < length (rows f))%nat -> exists s, nth_error l i = Some s.
    Proof.
      intros L. destruct (nth_error l i) eqn:E; [eauto|]. apply nth_error_None in E. unfold l in E.
      rewrite osamples_length in E by exact Lpd. unfold positions in E. rewrite map_length in E. lia.
    Qed.
    Lemma sample_props i s : nth_error l i = Some s ->
      nth_error (positions f) i = Some (o_pos s) /\ nth_error (diffs f) i = Some (o_dif s) /\
      (o_chg s = true <-> change_at f i) /\ (o_win s = true <-> window_at f i) /\ nth_error win i = Some (o_win s) /\ nth_error (groups win) i = Some (o_grp s).
    Proof.
      intros E. destruct (osamples_nth _ _ _ _ _ _ Lpd E) as (P1 & P2 & P3 & P4 & P5). split; [exact P1|]. split; [exact P2|]. split; [|split; [|split; [exact P4|exact P5]]].
      - rewrite P3. unfold change_at. rewrite Hthr. cbn [fst snd]. split; [eauto|]. intros (d & Ed & K). congruence.
      - rewrite <- win_at. fold chg in P4. fold win in P4. apply (nth_error_nth _ _ false) in P4. rewrite P4. tauto.
    Qed.
    Lemma same_group i j s t : nth_error l i = Some s -> nth_error l j = Some t -> (o_grp s = o_grp t <-> same_run f i j).
    Proof.
      intros Ei Ej. destruct (sample_props i s Ei) as (_ & _ & _ & Wi & Ni & Gi). destruct (sample_props j t Ej) as (_ & _ & _ & Wj & Nj & Gj).
      assert (K : forall a b ga gb wa, (a <= b)%nat -> nth_error (groups win) a = Some ga -> nth_error (groups win) b = Some gb -> nth_error win a = Some wa ->
                  (ga = gb <-> forall m, (a <= m <= b)%nat -> (window_at f m <-> window_at f a))).
      { intros a b ga gb wa L Ga Gb Wa. rewrite (groups_same win a b ga gb wa L Ga Gb Wa).
        assert (Lb : (b < length win)%nat). { rewrite <- groups_length. apply nth_error_Some. congruence. }
        split; intros F m Hm; specialize (F m Hm).
        - rewrite <- !win_at. apply (nth_error_nth _ _ false) in F, Wa. rewrite F, Wa. tauto.
        - destruct (nth_error win m) as [wm|] eqn:Wm; [|apply nth_error_None in Wm; lia]. f_equal.
          rewrite <- !win_at in F. apply (nth_error_nth _ _ false) in Wm, Wa. rewrite Wm, Wa in F. destruct wm, wa; intuition congruence. }
      unfold same_run. destruct (Nat.le_ge_cases i j) as [L|L].
      - rewrite Nat.min_l, Nat.max_r by lia. now apply (K i j _ _ (o_win s)).
      - rewrite Nat.min_r, Nat.max_l by lia. split.
        + intros E. symmetry in E. pose proof (proj1 (K j i _ _ (o_win t) L Gj Gi Nj) E) as F. intros m Hm.
          rewrite (F m Hm). rewrite (F i ltac:(lia)). tauto.
        + intros F. symmetry. apply (K j i _ _ (o_win t) L Gj Gi Nj). intros m Hm. rewrite (F m Hm). rewrite (F j ltac:(lia)). tauto.
    Qed.
    Lemma changed_in i s c : nth_error l i = Some s -> In c (changed l (o_grp s)) ->
      exists j, nth_error l j = Some c /\ change_at f j /\ same_run f i j /\ nth_error (positions f) j = Some (o_pos c).
    Proof.
      intros Ei I. unfold changed in I. apply filter_In in I as [I K]. apply andb_true_iff in K as [K1 K2]. apply Nat.eqb_eq in K1.
      apply In_nth_error in I as (j & Ej). exists j. destruct (sample_props j c Ej) as (P1 & _ & P3 & _). split; [exact Ej|]. split; [now apply P3|]. split; [|exact P1].
      apply (same_group i j s c Ei Ej). congruence.
    Qed.
    Lemma last_in {A} (c : A) ch : In (last (c :: ch) c) (c :: ch).
    Proof. revert c. induction ch as [|b ch IH]; intros c; [now left|]. right. change (last (c :: b :: ch) c) with (last (b :: ch) c).
      destruct ch as [|d ch]; [now left|]. replace (last (b :: d :: ch) c) with (last (b :: d :: ch) b); [apply IH|].
      clear. revert d. induction ch as [|e ch IH]; intros d; [reflexivity|]. cbn in *. apply IH. Qed.
  End Masks.

  (* a flagged sample lies between two changes of its run *)
  Definition between_changes (f : frame T) (i : nat) (strict : bool) : Prop :=
    exists j k pj pi pk, change_at f j /\ change_at f k /\ same_run f i j /\ same_run f i k /\
      nth_error (positions f) j = Some pj /\ nth_error (positions f) i = Some pi /\ nth_error (positions f) k = Some pk /\
      (pj <= pi)%Z /\ (if strict then pi < pk else pi <= pk)%Z.
  Lemma outliers_inside f steps spikes : model_outliers f = Ok (steps, spikes) ->
    (forall i, nth_error spikes i = Some true -> between_changes f i true) /\
    (forall i p, nth_error steps i = Some true -> nth_error (positions f) i = Some p -> has_date f = true \/ p <> 0%Z ->
       window_at f i /\ between_changes f i false).
  Proof.
    unfold model_outliers. fold (positions f). fold (diffs f). destruct (has_dup _ _); [discriminate|].
    destruct (iqr_thresholds (diffs f)) as [lo hi] eqn:Et. assert (Ht : thresholds f = (lo, hi)) by exact Et.
    destruct (existsb _ _).
    - intros E. injection E as <- <-. split.
      + intros i E. rewrite nth_error_map in E. destruct (nth_error (osamples lo hi (positions f) (diffs f)) i) as [s|] eqn:Es; [|discriminate].
        cbn in E. injection E as E. unfold spike_at in E. apply andb_true_iff in E as [_ E].
        destruct (changed _ (o_grp s)) as [|c ch] eqn:Ec; [exfalso; apply andb_true_iff in E as [E1 E2]; apply andb_true_iff in E1 as [_ E1]; lia|].
        apply andb_true_iff in E as [E1 E2]. apply Z.leb_le in E1. apply Z.ltb_lt in E2.
        destruct (changed_in f lo hi Ht i s c Es) as (j & Ej & Cj & Sj & Pj); [rewrite Ec; now left|].
        destruct (changed_in f lo hi Ht i s (last (c :: ch) c) Es) as (k & Ek & Ck & Sk & Pk); [rewrite Ec; apply last_in|].
        destruct (sample_props f lo hi Ht i s Es) as (Pi & _).
        exists j, k, (o_pos c), (o_pos s), (o_pos (last (c :: ch) c)). auto 12.
      + intros i p E Hp Hz. rewrite nth_error_map in E. destruct (nth_error (osamples lo hi (positions f) (diffs f)) i) as [s|] eqn:Es; [|discriminate].
        cbn in E. injection E as E. destruct (sample_props f lo hi Ht i s Es) as (Pi & _ & _ & Wi & _).
        unfold step_at in E. apply andb_true_iff in E as [Ew E]. apply andb_true_iff in Ew as [Ew _]. split; [now apply Wi|].
        destruct (changed _ (o_grp s)) as [|c ch] eqn:Ec.
        { exfalso. apply andb_true_iff in E as [E1 E2]. apply andb_true_iff in E1 as [E0 E1].
          destruct Hz as [Hz|Hz]; [rewrite Hz in E0; discriminate|]. assert (p = o_pos s) by congruence. lia. }
        apply andb_true_iff in E as [E1 E2]. apply Z.leb_le in E1. apply Z.leb_le in E2.
        destruct (changed_in f lo hi Ht i s c Es) as (j & Ej & Cj & Sj & Pj); [rewrite Ec; now left|].
        destruct (changed_in f lo hi Ht i s (last (c :: ch) c) Es) as (k & Ek & Ck & Sk & Pk); [rewrite Ec; apply last_in|].
        exists j, k, (o_pos c), (o_pos s), (o_pos (last (c :: ch) c)). auto 12.
    - intros E. injection E as <- <-. assert (K : forall n i, nth_error (repeat false n) i = Some true -> False).
      { intros n i E. apply nth_error_In in E. apply repeat_spec in E. discriminate. }
      split; [intros i E|intros i p E]; exfalso; eapply K; exact E.
  Qed.

  (* the masks depend on y through the differences, up to a change of unit that keeps comparisons *)
  Lemma outliers_no_change f : NoDup (positions f) -> (forall i, ~ change_at f i) ->
    model_outliers f = Ok (repeat false (length (rows f)), repeat false (length (rows f))).
  Proof.
    intros N C. unfold model_outliers. fold (positions f). fold (diffs f). rewrite (proj2 (has_dup_iff Z.eqb Z.eqb_eq _) N).
    destruct (iqr_thresholds (diffs f)) as [lo hi] eqn:Et. assert (Ht : thresholds f = (lo, hi)) by exact Et.
    destruct (existsb _ _) eqn:E; [|reflexivity]. exfalso. apply existsb_exists in E as (s & I & K). apply In_nth_error in I as (i & Ei).
    destruct (sample_props f lo hi Ht i s Ei) as (_ & _ & P & _). apply (C i). now apply P.
  Qed.
  (* a run with a flagged spike keeps its last changed sample *)
  Lemma outliers_spared f steps spikes i : model_outliers f = Ok (steps, spikes) -> nth_error spikes i = Some true ->
    exists k, nth_error spikes k = Some false /\ change_at f k /\ same_run f i k.
  Proof.
    unfold model_outliers. fold (positions f). fold (diffs f). destruct (has_dup _ _); [discriminate|].
    destruct (iqr_thresholds (diffs f)) as [lo hi] eqn:Et. assert (Ht : thresholds f = (lo, hi)) by exact Et.
    destruct (existsb _ _); intros E; injection E as <- <-; intros E.
    - rewrite nth_error_map in E. destruct (nth_error (osamples lo hi (positions f) (diffs f)) i) as [s|] eqn:Es; [|discriminate].
      cbn in E. injection E as E. unfold spike_at in E. apply andb_true_iff in E as [_ E].
      destruct (changed _ (o_grp s)) as [|c ch] eqn:Ec; [exfalso; apply andb_true_iff in E as [E1 E2]; apply andb_true_iff in E1 as [_ E1]; lia|].
      assert (Il : In (last (c :: ch) c) (changed (osamples lo hi (positions f) (diffs f)) (o_grp s))) by (rewrite Ec; apply last_in).
      destruct (changed_in f lo hi Ht i s _ Es Il) as (k & Ek & Ck & Sk & Pk).
      apply filter_In in Il as [_ Il]. apply andb_true_iff in Il as [Ig _]. apply Nat.eqb_eq in Ig.
      exists k. split; [|auto]. rewrite nth_error_map, Ek. cbn [option_map]. f_equal. unfold spike_at. rewrite Ig, Ec. rewrite Z.ltb_irrefl, !andb_false_r. reflexivity.
    - exfalso. apply nth_error_In in E. apply repeat_spec in E. discriminate.
  Qed.
End O.
