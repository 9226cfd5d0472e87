(* Naive models: lemmas for C20 and C21. *)
From Coq Require Import ZArith String List Bool Lia Sorted Permutation Reals.
From Verif Require Import Num Py Cal Model Naive ListProofs NumProofs.
Import ListNotations.
Local Open Scope nat_scope.
Local Open Scope list_scope.

Lemma isort_map {A B} (la : A -> A -> bool) (lb : B -> B -> bool) (f : A -> B) l :
  (forall a b, In a l -> In b l -> lb (f a) (f b) = la a b) ->
  isort lb (map f l) = map f (isort la l).
Proof.
  induction l as [|a l IH]; intros E; [reflexivity|]. cbn [map isort]. rewrite IH.
  2: { intros; apply E; now right. }
  assert (Hin : forall b, In b (isort la l) -> lb (f a) (f b) = la a b).
  { intros b Hb. apply isort_in in Hb. apply E; cbn; auto. }
  clear E IH. induction (isort la l) as [|b s IH]; [reflexivity|]. cbn [map insert].
  rewrite Hin by now left. destruct (la a b); [reflexivity|]. cbn [map]. rewrite IH; [reflexivity|].
  intros; apply Hin. now right.
Qed.
Lemma filter_map {A B} (p : B -> bool) (f : A -> B) l :
  filter p (map f l) = map f (filter (fun a => p (f a)) l).
Proof. induction l as [|a l IH]; [reflexivity|]. cbn. destruct (p (f a)); cbn; now rewrite IH. Qed.
Lemma combine_map_l {A B C} (f : A -> B) (l : list A) (l' : list C) :
  combine (map f l) l' = map (fun p => (f (fst p), snd p)) (combine l l').
Proof. revert l'. induction l as [|a l IH]; intros [|c l']; try reflexivity. cbn. now rewrite IH. Qed.

Lemma NoDup_app_iff' {A} (l l' : list A) :
  NoDup l /\ NoDup l' /\ (forall a, In a l -> In a l' -> False) -> NoDup (l ++ l').
Proof.
  intros (H1 & H2 & H3). induction l as [|a l IH]; [exact H2|]. inversion H1; subst. cbn. constructor.
  - rewrite in_app_iff. intros [Hi|Hi]; [contradiction|]. apply (H3 a); [now left|exact Hi].
  - apply IH; auto. intros b Hb. apply H3. now right.
Qed.

Section Fill.
  Context {T : Type} `{N : NumOps T}.
  Definition nn (v : T) : Prop := nisnan v = false.
  Definition null (v : T) : Prop := nisnan v = true.

  Fixpoint last_valid (l : list T) : option T :=
    match l with
    | [] => None
    | a :: l' => match last_valid l' with
                 | Some v => Some v
                 | None => if nisnan a then None else Some a
                 end
    end.
  Fixpoint first_valid (l : list T) : option T :=
    match l with [] => None | a :: l' => if nisnan a then first_valid l' else Some a end.
  Definition or_nan (o : option T) : T := match o with Some v => v | None => nnan end.

  Lemma last_valid_app l l' : last_valid (l ++ l') =
    match last_valid l' with Some v => Some v | None => last_valid l end.
  Proof.
    induction l as [|a l IH]; cbn; [destruct (last_valid l'); reflexivity|]. rewrite IH.
    destruct (last_valid l'); reflexivity.
  Qed.
  Lemma last_valid_rev l : last_valid (rev l) = first_valid l.
  Proof.
    induction l as [|a l IH]; [reflexivity|]. cbn [rev]. rewrite last_valid_app, IH. cbn.
    destruct (nisnan a); reflexivity.
  Qed.
  Lemma last_valid_none l : last_valid l = None <-> Forall null l.
  Proof.
    induction l as [|a l IH]; cbn; [split; auto|]. destruct (last_valid l) as [v|].
    - split; [discriminate|]. intros F. inversion F; subst. apply IH in H2. discriminate.
    - destruct (nisnan a) eqn:E; split; intros Q; try discriminate; auto.
      + constructor; [exact E|]. now apply IH.
      + inversion Q; subst. unfold null in *. congruence.
  Qed.
  Lemma first_valid_none l : first_valid l = None <-> Forall null l.
  Proof.
    rewrite <- last_valid_rev, last_valid_none. rewrite !Forall_forall.
    split; intros F a Ha; apply F; now rewrite <- in_rev in *.
  Qed.
  Lemma last_valid_some l v : last_valid l = Some v ->
    exists l1 l2, l = l1 ++ v :: l2 /\ nn v /\ Forall null l2.
  Proof.
    induction l as [|a l IH]; [discriminate|]. cbn. destruct (last_valid l) as [w|] eqn:E.
    - intros [= ->]. destruct (IH eq_refl) as (l1 & l2 & -> & Hv & F). exists (a :: l1), l2. auto.
    - destruct (nisnan a) eqn:Ea; [discriminate|]. intros [= <-]. exists [], l. split; [reflexivity|].
      split; [exact Ea|]. now apply last_valid_none.
  Qed.
  Lemma first_valid_some l v : first_valid l = Some v ->
    exists l1 l2, l = l1 ++ v :: l2 /\ nn v /\ Forall null l1.
  Proof.
    induction l as [|a l IH]; [discriminate|]. cbn. destruct (nisnan a) eqn:Ea.
    - intros E. destruct (IH E) as (l1 & l2 & -> & Hv & F). exists (a :: l1), l2. auto.
    - intros [= <-]. exists [], l. auto.
  Qed.

  Lemma ffill_from_length : forall l last, length (ffill_from last l) = length l.
  Proof. induction l as [|a l IH]; intros last; [reflexivity|]. cbn. destruct (nisnan a); cbn; now rewrite IH. Qed.
  Lemma ffill_from_nth : forall l last i, i < length l ->
    nth_error (ffill_from last l) i =
    Some (match last_valid (firstn (S i) l) with Some v => v | None => last end).
  Proof.
    induction l as [|a l IH]; intros last i Hi; [cbn in Hi; lia|]. cbn [ffill_from].
    change (firstn (S i) (a :: l)) with (a :: firstn i l). cbn [last_valid].
    destruct i as [|i].
    - cbn. destruct (nisnan a); reflexivity.
    - cbn in Hi. destruct (nisnan a) eqn:Ea; cbn [nth_error]; rewrite IH by lia.
      + destruct (last_valid (firstn (S i) l)); reflexivity.
      + destruct (last_valid (firstn (S i) l)); reflexivity.
  Qed.

  Hypothesis nan_null : nisnan (nnan : T) = true.

  Lemma shift1_length l : length (shift1 l) = length l.
  Proof.
    destruct l as [|a l]; [reflexivity|]. cbn [shift1 length]. f_equal.
    revert a. induction l as [|b l IH]; intros a; [reflexivity|]. cbn [removelast].
    cbn [length]. f_equal. apply IH.
  Qed.
  Lemma firstn_removelast : forall (l : list T) i, i < length l -> firstn i (removelast l) = firstn i l.
  Proof.
    induction l as [|a l IH]; intros i Hi; [cbn in Hi; lia|]. destruct i as [|i]; [reflexivity|].
    destruct l as [|b l]; [cbn in Hi; lia|]. cbn [removelast firstn]. f_equal. apply IH. cbn in *. lia.
  Qed.
  (* shift, then fill forward: the last valid entry strictly before i *)
  Lemma shift_ffill_nth l i : i < length l ->
    nth_error (ffill (shift1 l)) i = Some (or_nan (last_valid (firstn i l))).
  Proof.
    intros Hi. unfold ffill. rewrite ffill_from_nth by now rewrite shift1_length.
    destruct l as [|a l]; [cbn in Hi; lia|]. cbn [shift1 firstn last_valid].
    rewrite firstn_removelast by exact Hi. rewrite nan_null.
    destruct (last_valid (firstn i (a :: l))); reflexivity.
  Qed.
  Lemma bfill_nth l i : i < length l ->
    nth_error (bfill l) i = Some (or_nan (first_valid (skipn i l))).
  Proof.
    intros Hi. unfold bfill, ffill.
    rewrite <- (Nat.add_0_l i), <- (Nat.sub_diag (length l)).
    assert (L : length (ffill_from nnan (rev l)) = length l) by now rewrite ffill_from_length, rev_length.
    assert (E : forall (s : list T) k, k < length s -> nth_error (rev s) k = nth_error s (length s - 1 - k)).
    { clear. induction s as [|a s IH]; intros k Hk; [cbn in Hk; lia|]. cbn [rev].
      destruct (Nat.eq_dec k (length s)) as [->|Hne].
      - rewrite nth_error_app2 by (rewrite rev_length; lia). rewrite rev_length, Nat.sub_diag. cbn.
        replace (length s - 0 - length s) with 0 by lia. reflexivity.
      - cbn in Hk. rewrite nth_error_app1 by (rewrite rev_length; lia). rewrite IH by lia.
        replace (length (a :: s) - 1 - k) with (S (length s - 1 - k)) by (cbn; lia). reflexivity. }
    replace (length l - length l + i) with i by lia.
    rewrite E by (rewrite L; lia). rewrite L, ffill_from_nth by (rewrite rev_length; lia).
    replace (S (length l - 1 - i)) with (length l - i) by lia.
    rewrite firstn_rev. replace (length l - (length l - i)) with i by lia.
    rewrite last_valid_rev. reflexivity.
  Qed.
  Lemma bfill_length l : length (bfill l) = length l.
  Proof. unfold bfill, ffill. now rewrite rev_length, ffill_from_length, rev_length. Qed.

  (* the whole fill of the naive model *)
  Lemma naive_fill_nth l i : i < length l ->
    nth_error (bfill (ffill (shift1 l))) i = Some
      match last_valid (firstn i l) with
      | Some v => v
      | None => or_nan (first_valid (removelast l))
      end.
  Proof.
    intros Hi. assert (Lg : length (ffill (shift1 l)) = length l)
      by (unfold ffill; now rewrite ffill_from_length, shift1_length).
    rewrite bfill_nth by now rewrite Lg. f_equal.
    assert (D : skipn i (ffill (shift1 l)) =
                map (fun k => or_nan (last_valid (firstn k l))) (seq i (length l - i))).
    { apply nth_ext with (d := nnan) (d' := nnan).
      - rewrite skipn_length, map_length, seq_length, Lg. reflexivity.
      - intros k Hk. rewrite skipn_length, Lg in Hk.
        assert (E : nth_error (skipn i (ffill (shift1 l))) k = Some (or_nan (last_valid (firstn (i + k) l)))).
        { rewrite <- (shift_ffill_nth l (i + k)) by lia. clear.
          revert k. generalize (ffill (shift1 l)). induction i as [|i IH]; intros s k; [reflexivity|].
          destruct s as [|a s]; [now destruct k|]. cbn. apply IH. }
        rewrite (nth_error_nth _ _ _ E). symmetry.
        rewrite nth_indep with (d' := (fun k => or_nan (last_valid (firstn k l))) 0)
          by (rewrite map_length, seq_length; lia).
        rewrite (map_nth (fun k => or_nan (last_valid (firstn k l)))). now rewrite seq_nth by lia. }
    rewrite D. clear D Lg. destruct (last_valid (firstn i l)) as [v|] eqn:Ei.
    - replace (length l - i) with (S (length l - i - 1)) by lia. cbn [seq map first_valid]. rewrite Ei. cbn.
      destruct (last_valid_some _ _ Ei) as (_ & _ & _ & Hv & _). now rewrite Hv.
    - (* nothing valid before i *)
      f_equal. remember (length l - i) as n eqn:En. revert i Hi Ei En.
      induction n as [|n IH]; intros i Hi Ei En; [lia|]. cbn [seq map first_valid]. rewrite Ei. cbn [or_nan].
      rewrite nan_null. destruct (Nat.eq_dec (S i) (length l)) as [El|El].
      + assert (n = 0) as -> by lia. cbn. symmetry. apply first_valid_none.
        apply last_valid_none in Ei. replace (removelast l) with (firstn i l); [exact Ei|].
        rewrite <- (firstn_removelast l i Hi). apply firstn_all2.
        pose proof (shift1_length l) as Ls. destruct l as [|a l]; [cbn; lia|]. cbn [shift1 length] in Ls.
        cbn [length] in *. lia.
      + destruct (last_valid (firstn (S i) l)) as [v|] eqn:Es.
        * assert (n <> 0) by lia. destruct n as [|n]; [lia|]. cbn [seq map first_valid]. rewrite Es. cbn [or_nan].
          destruct (last_valid_some _ _ Es) as (l1 & l2 & E & Hv & Hn2). rewrite Hv.
          apply last_valid_none in Ei.
          assert (Hr : firstn (S i) l = firstn (S i) (removelast l)) by (symmetry; apply firstn_removelast; lia).
          assert (Fs : first_valid (firstn (S i) l) = Some v).
          { assert (F1 : firstn (S i) l = firstn i l ++ [v]).
            { assert (Hlen : length (firstn (S i) l) = S i) by (rewrite firstn_length; lia).
              assert (l2 = []) as ->.
              { destruct l2 as [|b l2]; [reflexivity|]. exfalso.
                assert (Hin : In v (firstn i l)).
                { assert (firstn i l = firstn i (l1 ++ v :: b :: l2)) as ->.
                  { rewrite <- E, firstn_firstn. f_equal. lia. }
                  rewrite E, app_length in Hlen. cbn in Hlen. rewrite firstn_app.
                  apply in_or_app. right. replace (i - length l1) with (S (i - length l1 - 1)) by lia. now left. }
                rewrite Forall_forall in Ei. specialize (Ei v Hin). unfold null, nn in *. congruence. }
              rewrite E. f_equal.
              assert (firstn i l = firstn i (l1 ++ [v])) as ->.
              { rewrite <- E, firstn_firstn. f_equal. lia. }
              rewrite E, app_length in Hlen. cbn in Hlen. rewrite firstn_app.
              replace (i - length l1) with 0 by lia. rewrite firstn_all2 by lia. cbn. now rewrite app_nil_r. }
            rewrite F1. clear - Ei Hv. induction (firstn i l) as [|a s IH]; cbn; [now rewrite Hv|].
            inversion Ei; subst. unfold null in *. rewrite H1. now apply IH. }
          symmetry. rewrite <- (firstn_skipn (S i) (removelast l)), <- Hr. clear - Fs.
          revert Fs. generalize (firstn (S i) l) as s. induction s as [|a s IH]; [discriminate|]. cbn.
          destruct (nisnan a); [apply IH|auto].
        * apply IH; auto; lia.
  Qed.
End Fill.

(* ---- positions ---- *)
Section Positions.
  Context {T : Type} `{N : NumOps T}.

  (* the carrier represents these integers faithfully *)
  Definition exact_ints (zs : list Z) : Prop := forall a b, In a zs -> In b zs ->
    nleb (nofZ a) (nofZ b : T) = (a <=? b)%Z /\ neqb (nofZ a) (nofZ b : T) = (a =? b)%Z.

  (* request dates agree with the dates of the actuals at the same position *)
  Definition dates_agree (df : frame T) (zs : list Z) (a_date : option (list Z)) : Prop :=
    match a_date with
    | None => has_date df = false
    | Some ds => length ds = length zs /\
        (has_date df = true -> forall t z r, In (t, z) (combine ds zs) -> In r (rows df) ->
           r_x r = z -> r_date r = t)
    end.

  (* last non-null entry before z; earliest entry of all; null, in this order of preference *)
  Definition before (A : list (row T)) (z : Z) (v : T) : Prop :=
    exists r, In r A /\ (r_x r < z)%Z /\ nn (r_y r) /\ v = r_y r /\
      forall r', In r' A -> (r_x r < r_x r' < z)%Z -> null (r_y r').
  Definition none_before (A : list (row T)) (z : Z) : Prop :=
    forall r, In r A -> (r_x r < z)%Z -> null (r_y r).
  Definition earliest (A : list (row T)) (r : row T) : Prop :=
    In r A /\ nn (r_y r) /\ forall r', In r' A -> nn (r_y r') -> (r_x r <= r_x r')%Z.
  Definition naive_spec (A : list (row T)) (zs : list Z) (z : Z) (v : T) : Prop :=
    before A z v \/
    (none_before A z /\
     ((exists r, earliest A r /\ v = r_y r /\ exists u, (In u zs \/ In u (map r_x A)) /\ (r_x r < u)%Z) \/
      ((forall r, earliest A r -> forall u, In u zs \/ In u (map r_x A) -> (u <= r_x r)%Z) /\ v = nnan))).

  Lemma sorted_firstn (S : list (Z * T)) i z v :
    StronglySorted (fun a b => (fst a < fst b)%Z) S -> nth_error S i = Some (z, v) ->
    firstn i S = filter (fun p => (fst p <? z)%Z) S.
  Proof.
    intros HS. revert i. induction HS as [|a s HS IH F]; intros [|i] E; try discriminate; cbn in *.
    - injection E as ->. cbn. rewrite Z.ltb_irrefl. symmetry.
      clear - F. induction s as [|b s IH]; [reflexivity|]. inversion F; subst. cbn in *.
      destruct (Z.ltb_spec (fst b) z); [lia|]. now apply IH.
    - rewrite Forall_forall in F. pose proof (F _ (nth_error_In _ _ E)) as Ha. cbn in Ha.
      destruct (Z.ltb_spec (fst a) z); [|lia]. f_equal. now apply IH.
  Qed.

  Lemma filter_sorted {A} (R : A -> A -> Prop) p (l : list A) : StronglySorted R l -> StronglySorted R (filter p l).
  Proof.
    induction 1 as [|a l S IH F]; cbn; [constructor|]. destruct (p a); [|exact IH]. constructor; [exact IH|].
    rewrite Forall_forall in *. intros b Hb. apply filter_In in Hb. now apply F.
  Qed.

  Lemma valid_split (S : list (Z * T)) v :
    StronglySorted (fun a b => (fst a < fst b)%Z) S -> last_valid (map snd S) = Some v ->
    exists x, In (x, v) S /\ nn v /\ forall x' v', In (x', v') S -> (x < x')%Z -> null v'.
  Proof.
    intros HS. induction HS as [|a s HS IH F]; [discriminate|]. cbn. destruct (last_valid (map snd s)) eqn:E.
    - intros [= ->]. destruct (IH eq_refl) as (x & Hx & Hv & Hl). exists x. split; [now right|]. split; [exact Hv|].
      intros x' v' [->|Hin] Hlt; [|eauto]. exfalso. rewrite Forall_forall in F. specialize (F _ Hx). cbn in F. lia.
    - destruct (nisnan (snd a)) eqn:Ea; [discriminate|]. intros [= <-]. exists (fst a). split; [left; now destruct a|].
      split; [exact Ea|]. intros x' v' [->|Hin] Hlt; [cbn in Hlt; lia|].
      apply last_valid_none in E. rewrite Forall_forall in E. apply E. apply in_map_iff. now exists (x', v').
  Qed.
  Lemma first_split (S : list (Z * T)) v :
    StronglySorted (fun a b => (fst a < fst b)%Z) S -> first_valid (map snd S) = Some v ->
    exists x, In (x, v) S /\ nn v /\ forall x' v', In (x', v') S -> nn v' -> (x <= x')%Z.
  Proof.
    intros HS. induction HS as [|a s HS IH F]; [discriminate|]. cbn. destruct (nisnan (snd a)) eqn:Ea.
    - intros E. destruct (IH E) as (x & Hx & Hv & Hl). exists x. split; [now right|]. split; [exact Hv|].
      intros x' v' [->|Hin] Hn; [unfold nn in Hn; cbn in Ea; congruence|eauto].
    - intros [= <-]. exists (fst a). split; [left; now destruct a|]. split; [exact Ea|].
      intros x' v' [->|Hin] _; [cbn; lia|]. rewrite Forall_forall in F. specialize (F _ Hin). cbn in F. lia.
  Qed.
  Lemma in_removelast {A} (l : list A) a : In a (removelast l) -> In a l.
  Proof.
    induction l as [|b l IH]; [tauto|]. destruct l as [|c l]; [intros []|].
    intros [->|Hi]; [now left|right; now apply IH].
  Qed.
  Lemma removelast_map {A B} (f : A -> B) (l : list A) : removelast (map f l) = map f (removelast l).
  Proof. induction l as [|b l IH]; [reflexivity|]. destruct l; [reflexivity|]. cbn in *. now rewrite IH. Qed.
  Lemma removelast_sorted {A} (R : A -> A -> Prop) (l : list A) : StronglySorted R l -> StronglySorted R (removelast l).
  Proof.
    induction 1 as [|a l S IH F]; [constructor|]. destruct l as [|b l]; [constructor|].
    cbn [removelast]. constructor; [exact IH|]. rewrite Forall_forall in *. intros c Hc. apply F. now apply in_removelast.
  Qed.
  (* in a strictly sorted list an element survives removelast iff it has a successor *)
  Lemma removelast_succ (S : list (Z * T)) p : StronglySorted (fun a b => (fst a < fst b)%Z) S -> In p S ->
    (In p (removelast S) <-> exists q, In q S /\ (fst p < fst q)%Z).
  Proof.
    intros HS. induction HS as [|a s HS IH F]; [intros []|]. intros Hp. rewrite Forall_forall in F.
    destruct s as [|b s].
    - cbn. destruct Hp as [->|[]]. split; [tauto|]. intros (q & [->|[]] & Hlt). lia.
    - cbn [removelast]. destruct Hp as [->|Hp].
      + split; [|now left]. intros _. exists b. split; [right; now left|]. apply F. now left.
      + split.
        * intros [->|Hi]; [exists b; split; [right; now left|]; apply F; now left|].
          apply IH in Hi; [|exact Hp]. destruct Hi as (q & Hq & Hlt). exists q. split; [now right|exact Hlt].
        * intros (q & [<-|Hq] & Hlt); [specialize (F p Hp); lia|]. right. apply IH; [exact Hp|eauto].
  Qed.
End Positions.

Section NaiveMain.
  Context {T : Type} `{N : NumOps T}.
  Hypothesis nan_null : nisnan (nnan : T) = true.

  Definition all_pos (df : frame T) (zs : list Z) : list Z := map r_x (rows df) ++ zs.

  (* the merged table: rows of the actuals, then fresh positions *)
  Definition merged_pos (A : list (row T)) (zs : list Z) : list (Z * T) :=
    map (fun r => (r_x r, r_y r)) A ++
    map (fun z => (z, nnan)) (filter (fun z => negb (existsb (fun r => (r_x r =? z)%Z) A)) zs).
  Definition lift (p : Z * T) : T * T := (nofZ (fst p), snd p).

  Lemma requests_pos zs a_date : (forall ds, a_date = Some ds -> length ds = length zs) ->
    exists qs, requests (map nofZ zs) a_date = Ok qs /\ map snd qs = map (nofZ : Z -> T) zs /\
      length qs = length zs /\
      forall i z, nth_error zs i = Some z ->
        nth_error qs i = Some (match a_date with Some ds => Some (nth i ds 0%Z) | None => None end, nofZ z).
  Proof.
    intros L. unfold requests. destruct a_date as [ds|].
    - specialize (L ds eq_refl). rewrite map_length, L, Nat.eqb_refl. eexists. split; [reflexivity|].
      revert ds L. induction zs as [|z zs IH]; intros [|t ds] L; try discriminate.
      + cbn. split; [reflexivity|]. split; [reflexivity|]. intros [|i]; discriminate.
      + injection L as L. destruct (IH ds L) as (E1 & E2 & E3). cbn. split; [now rewrite E1|].
        split; [now rewrite E2|]. intros [|i] z' E; cbn in *; [injection E as ->; reflexivity|now apply E3].
    - eexists. split; [reflexivity|]. split; [rewrite !map_map; reflexivity|]. split; [now rewrite !map_length|].
      intros i z E. rewrite !nth_error_map, E. reflexivity.
  Qed.

  Lemma filter_at_most_one {A} (p : A -> bool) (l : list A) :
    (forall i j a b, nth_error l i = Some a -> nth_error l j = Some b -> p a = true -> p b = true -> i = j) ->
    length (filter p l) <= 1.
  Proof.
    induction l as [|a l IH]; intros U; [cbn; lia|]. cbn. destruct (p a) eqn:Ea.
    - assert (filter p l = []) as ->; [|cbn; lia]. destruct (filter p l) as [|b s] eqn:E; [reflexivity|].
      assert (Hb : In b (filter p l)) by (rewrite E; now left). apply filter_In in Hb as [Hb Pb].
      apply In_nth_error in Hb as (j & Ej). specialize (U 0 (S j) a b eq_refl Ej Ea Pb). discriminate.
    - apply IH. intros i j x y Ei Ej Px Py. specialize (U (S i) (S j) x y Ei Ej Px Py). lia.
  Qed.

  Lemma outer_merge_pos (df : frame T) zs a_date qs :
    exact_ints (T:=T) (all_pos df zs) -> NoDup zs -> dates_agree df zs a_date ->
    requests (map nofZ zs) a_date = Ok qs ->
    (has_date df = true -> a_date <> None) ->
    outer_merge (has_date df) (rows df) qs = map lift (merged_pos (rows df) zs).
  Proof.
    intros X Nd Da Eq Hd.
    assert (L : forall ds, a_date = Some ds -> length ds = length zs).
    { intros ds ->. apply Da. }
    destruct (requests_pos zs a_date L) as (qs' & E' & Es & Lq & Q). rewrite E' in Eq. injection Eq as ->.
    assert (K : forall r i z, In r (rows df) -> nth_error zs i = Some z ->
      exists q, nth_error qs i = Some q /\ same_key (has_date df) r q = (r_x r =? z)%Z).
    { intros r i z Hr Ei. exists (match a_date with Some ds => Some (nth i ds 0%Z) | None => None end, nofZ z).
      split; [now apply Q|]. unfold same_key. cbn [fst snd].
      assert (Hz : In z zs) by (eapply nth_error_In; eauto).
      destruct (X (r_x r) z) as [_ ->].
      { unfold all_pos. apply in_or_app. left. now apply in_map. }
      { unfold all_pos. apply in_or_app. now right. }
      destruct (Z.eqb_spec (r_x r) z) as [Ez|Ez]; [|reflexivity]. cbn.
      destruct (has_date df) eqn:Eh; [|reflexivity]. destruct a_date as [ds|]; [|now specialize (Hd eq_refl)].
      apply Z.eqb_eq. destruct Da as [Ld Da]. apply (Da Eh _ z r); auto.
      assert (Hi : i < length ds) by (rewrite Ld; apply nth_error_Some; congruence).
      clear - Ei Hi Ld. revert i zs Ei Hi Ld. induction ds as [|t ds IH]; intros i [|z' zs] Ei Hi Ld; cbn in *; try lia.
      destruct i as [|i]; cbn in *; [left; congruence|right; apply IH; auto; lia]. }
    unfold outer_merge, merged_pos. rewrite map_app. f_equal.
    - rewrite map_map. rewrite flat_map_concat_map.
      assert (M : map (fun r => repeat (nofZ (r_x r) : T, r_y r) (Nat.max 1 (length (filter (same_key (has_date df) r) qs)))) (rows df)
                = map (fun r => [lift (r_x r, r_y r)]) (rows df)).
      { apply map_ext_in. intros r Hr.
        assert (H1 : length (filter (same_key (has_date df) r) qs) <= 1).
        { apply filter_at_most_one. intros i j a b Ei Ej Pa Pb.
          assert (Hi : i < length zs) by (rewrite <- Lq; apply nth_error_Some; congruence).
          assert (Hj : j < length zs) by (rewrite <- Lq; apply nth_error_Some; congruence).
          destruct (nth_error zs i) as [zi|] eqn:Zi; [|apply nth_error_None in Zi; lia].
          destruct (nth_error zs j) as [zj|] eqn:Zj; [|apply nth_error_None in Zj; lia].
          destruct (K r i zi Hr Zi) as (qi & Ei' & Ki). destruct (K r j zj Hr Zj) as (qj & Ej' & Kj).
          assert (qi = a) by congruence. assert (qj = b) by congruence. subst qi qj.
          rewrite Ki in Pa. rewrite Kj in Pb. apply Z.eqb_eq in Pa, Pb.
          rewrite NoDup_nth_error in Nd. apply Nd; [exact Hi|]. congruence. }
        replace (Nat.max 1 (length (filter (same_key (has_date df) r) qs))) with 1 by lia. reflexivity. }
      rewrite M. clear. induction (rows df) as [|r l IH]; [reflexivity|]. cbn. now rewrite IH.
    - rewrite map_map.
      assert (K2 : forall i z q, nth_error zs i = Some z -> nth_error qs i = Some q ->
        snd q = nofZ z /\ existsb (fun r => same_key (has_date df) r q) (rows df) = existsb (fun r => (r_x r =? z)%Z) (rows df)).
      { intros i z q Ei Ejq. split; [rewrite (Q i z Ei) in Ejq; injection Ejq as <-; reflexivity|].
        assert (F : forall r, In r (rows df) -> same_key (has_date df) r q = (r_x r =? z)%Z).
        { intros r Hr. destruct (K r i z Hr Ei) as (q' & Eq' & Kq). assert (q' = q) by congruence. now subst. }
        clear - F. induction (rows df) as [|r l IH]; [reflexivity|]. cbn. rewrite F by now left. f_equal. apply IH.
        intros; apply F. now right. }
      clear - K2 Lq. revert qs Lq K2. induction zs as [|z zs IH]; intros [|q qs] Lq K2; try discriminate; [reflexivity|].
      injection Lq as Lq. cbn [filter]. destruct (K2 0 z q eq_refl eq_refl) as [E1 E2]. rewrite E2.
      destruct (existsb (fun r => (r_x r =? z)%Z) (rows df)); cbn [negb map].
      + apply IH; [exact Lq|]. intros i. apply (K2 (S i)).
      + f_equal; [unfold lift; cbn; now rewrite E1|]. apply IH; [exact Lq|]. intros i. apply (K2 (S i)).
  Qed.

  Lemma dedup_key_id {A} (key : A -> Z) : forall (l : list A) seen, NoDup (map key l) ->
    (forall a s, In a l -> In s seen -> key a <> key s) ->
    dedup_aux (fun a b => (key a =? key b)%Z) seen l = l.
  Proof.
    induction l as [|b l IH]; intros seen Hn Hs; [reflexivity|]. inversion Hn; subst. cbn.
    assert (existsb (fun s => (key b =? key s)%Z) seen = false) as ->.
    { destruct (existsb _ seen) eqn:E; [|reflexivity]. exfalso. apply existsb_exists in E as (s & Hin & Es).
      apply Z.eqb_eq in Es. apply (Hs b s); auto. now left. }
    f_equal. apply IH; [assumption|]. intros a s Ha [<-|Hs']; [|apply Hs; auto; now right].
    intros E. apply H1. rewrite <- E. now apply in_map.
  Qed.

  Lemma merged_in (df : frame T) zs p : In p (merged_pos (rows df) zs) <->
    (exists r, In r (rows df) /\ p = (r_x r, r_y r)) \/
    (exists z, In z zs /\ ~ In z (map r_x (rows df)) /\ p = (z, nnan)).
  Proof.
    unfold merged_pos. rewrite in_app_iff, !in_map_iff. split.
    - intros [(r & <- & Hr)|(z & <- & Hz)]; [left; eauto|right]. apply filter_In in Hz as [Hz Hn].
      exists z. split; [exact Hz|]. split; [|reflexivity]. rewrite in_map_iff. intros (r & Er & Hr).
      apply negb_true_iff in Hn. assert (existsb (fun r => (r_x r =? z)%Z) (rows df) = true); [|congruence].
      apply existsb_exists. exists r. split; [exact Hr|]. now apply Z.eqb_eq.
    - intros [(r & Hr & ->)|(z & Hz & Hn & ->)]; [left; eauto|right]. exists z. split; [reflexivity|].
      apply filter_In. split; [exact Hz|]. apply negb_true_iff. destruct (existsb _ _) eqn:E; [|reflexivity].
      exfalso. apply Hn. apply existsb_exists in E as (r & Hr & Er). apply Z.eqb_eq in Er. subst. now apply in_map.
  Qed.
  Lemma merged_fst (df : frame T) zs u : In u (map fst (merged_pos (rows df) zs)) <-> In u (map r_x (rows df)) \/ In u zs.
  Proof.
    rewrite in_map_iff. split.
    - intros (p & <- & Hp). apply merged_in in Hp as [(r & Hr & ->)|(z & Hz & _ & ->)]; cbn [fst]; [left; now apply in_map|now right].
    - intros [Hu|Hu].
      + apply in_map_iff in Hu as (r & <- & Hr). exists (r_x r, r_y r). split; [reflexivity|]. apply merged_in. left. eauto.
      + destruct (in_dec Z.eq_dec u (map r_x (rows df))) as [Hi|Hi].
        * apply in_map_iff in Hi as (r & <- & Hr). exists (r_x r, r_y r). split; [reflexivity|]. apply merged_in. left. eauto.
        * exists (u, nnan). split; [reflexivity|]. apply merged_in. right. eauto.
  Qed.
  Lemma merged_nodup (df : frame T) zs : NoDup (map r_x (rows df)) -> NoDup zs -> NoDup (map fst (merged_pos (rows df) zs)).
  Proof.
    intros H1 H2. unfold merged_pos. rewrite map_app, !map_map. cbn [fst]. rewrite map_id.
    apply NoDup_app_iff'. 
    split; [exact H1|]. split; [now apply NoDup_filter|].
    intros a Ha Hb. apply filter_In in Hb as [Hb Hn]. apply negb_true_iff in Hn.
    assert (existsb (fun r => (r_x r =? a)%Z) (rows df) = true); [|congruence].
    apply in_map_iff in Ha as (r & <- & Hr). apply existsb_exists. exists r. split; [exact Hr|]. apply Z.eqb_refl.
  Qed.

  Lemma sort_merged (df : frame T) zs : exact_ints (T:=T) (all_pos df zs) ->
    isort (fun a b : T * T => nleb (fst a) (fst b)) (map lift (merged_pos (rows df) zs)) =
    map lift (isort (fun a b => (fst a <=? fst b)%Z) (merged_pos (rows df) zs)).
  Proof.
    intros X. apply isort_map. intros a b Ha Hb. unfold lift. cbn [fst].
    apply X; apply in_or_app; [assert (Hm := in_map fst _ _ Ha)|assert (Hm := in_map fst _ _ Hb)];
      apply merged_fst in Hm; tauto.
  Qed.
  Lemma sorted_merged (df : frame T) zs : NoDup (map r_x (rows df)) -> NoDup zs ->
    StronglySorted (fun a b => (fst a < fst b)%Z) (isort (fun a b => (fst a <=? fst b)%Z) (merged_pos (rows df) zs)).
  Proof.
    intros H1 H2. pose proof (merged_nodup df zs H1 H2) as Nd. remember (merged_pos (rows df) zs) as M eqn:EM. clear EM.
    assert (Tt : total_leb (fun a b : Z * T => (fst a <=? fst b)%Z)) by (intros a b; apply Zleb_total).
    assert (Tr : trans_leb (fun a b : Z * T => (fst a <=? fst b)%Z)) by (intros a b c; apply Zleb_trans).
    pose proof (isort_sorted _ M Tt Tr) as S.
    assert (Nd' : NoDup (map fst (isort (fun a b => (fst a <=? fst b)%Z) M))).
    { eapply Permutation_NoDup; [|exact Nd]. apply Permutation_map, isort_perm. }
    clear Nd. induction S as [|a l S IH F]; constructor; inversion Nd'; subst; auto.
    rewrite Forall_forall in *. intros b Hb. specialize (F b Hb). unfold le_of in F. apply Z.leb_le in F.
    assert (fst a <> fst b); [|lia]. intros E. apply H3. rewrite E. now apply in_map.
  Qed.

  Theorem naive_correct (df : frame T) zs a_date p mode :
    exact_ints (T:=T) (all_pos df zs) -> NoDup (map r_x (rows df)) -> StronglySorted Z.lt zs ->
    dates_agree df zs a_date ->
    exists out, fm_f model_naive (map nofZ zs) a_date p mode (mkKw (Some df) []) = Ok (Ar out) /\
      Forall2 (naive_spec (rows df) zs) zs out.
  Proof.
    intros X Nd Sz Da.
    assert (Nz : NoDup zs).
    { clear - Sz. induction Sz as [|z zs S IH F]; constructor; auto. intros Hi. rewrite Forall_forall in F.
      specialize (F z Hi). lia. }
    assert (L : forall ds, a_date = Some ds -> length ds = length zs) by (intros ds ->; apply Da).
    destruct (requests_pos zs a_date L) as (qs & Eq & _).
    cbn [fm_f model_naive mk_model]. unfold f_naive. cbn [kw_cache kw_actuals]. rewrite Eq. cbn [rbind].
    assert (Hd : has_date df = true -> a_date <> None).
    { intros Eh ->. cbn in Da. congruence. }
    unfold dedup_key at 1. 
    assert (Ed : dedup (fun a b : row T => (r_x a =? r_x b)%Z) (rows df) = rows df) by (apply dedup_key_id; auto).
    set (S := isort (fun a b => (fst a <=? fst b)%Z) (merged_pos (rows df) zs)).
    assert (Hs := sorted_merged df zs Nd Nz). fold S in Hs.
    set (ys := bfill (ffill (shift1 (map snd S)))).
    assert (Ly : length ys = length S).
    { unfold ys. rewrite bfill_length. unfold ffill. now rewrite ffill_from_length, shift1_length, map_length. }
    exists (map snd (filter (fun p => existsb (Z.eqb (fst p)) zs) (combine (map fst S) ys))). split.
    - assert (G : match has_date df, a_date with true, None => false | _, _ => true end = true).
      { destruct (has_date df); [|reflexivity]. destruct a_date; [reflexivity|]. now specialize (Hd eq_refl). }
      unfold dedup_key. rewrite Ed, (outer_merge_pos df zs a_date qs X Nz Da Eq Hd), (sort_merged df zs X). fold S.
      assert (E : Ok (Ar (map snd (filter (fun p : T * T => existsb (neqb (fst p)) (map nofZ zs))
                    (combine (map fst (map lift S)) (bfill (ffill (shift1 (map snd (map lift S)))))))))
                = Ok (Ar (map snd (filter (fun p => existsb (Z.eqb (fst p)) zs) (combine (map fst S) ys))))).
      { assert (Es : map snd (map lift S) = map snd S) by (rewrite map_map; reflexivity).
        assert (Ef : map fst (map lift S) = map (nofZ : Z -> T) (map fst S)) by (rewrite !map_map; reflexivity).
        rewrite Es, Ef. fold ys. f_equal. f_equal. rewrite combine_map_l, filter_map, map_map. cbn [snd fst]. f_equal.
        apply filter_ext_in. intros [u v] Hu. cbn [fst].
        assert (Hu' : In u (map r_x (rows df)) \/ In u zs).
        { apply in_combine_l in Hu. apply (merged_fst df). apply in_map_iff in Hu as (q & <- & Hq).
          apply in_map. unfold S in Hq. now apply isort_in in Hq. }
        assert (Hz : forall z, In z zs -> neqb (nofZ u) (nofZ z : T) = (u =? z)%Z).
        { intros z Hz. apply X; apply in_or_app; tauto. }
        clear - Hz. induction zs as [|z zs IH]; [reflexivity|]. cbn. rewrite Hz by now left. f_equal.
        apply IH. intros; apply Hz; now right. }
      destruct (has_date df); [|exact E]. destruct a_date; [exact E|discriminate].
    - (* values *)
      assert (V : forall i z y, nth_error S i = Some (z, y) -> exists v, nth_error ys i = Some v /\ naive_spec (rows df) zs z v).
      { intros i z y Ei. assert (Hi : i < length (map snd S)) by (rewrite map_length; apply nth_error_Some; congruence).
        unfold ys. rewrite (naive_fill_nth nan_null _ _ Hi). eexists. split; [reflexivity|].
        rewrite firstn_map, (sorted_firstn S i z y Hs Ei).
        assert (InS : forall q, In q S <-> In q (merged_pos (rows df) zs)) by (intros q; apply isort_in).
        assert (Row : forall r, In r (rows df) -> In (r_x r, r_y r) S) by (intros r Hr; apply InS, merged_in; left; eauto).
        assert (Val : forall u v, In (u, v) S -> nn v -> exists r, In r (rows df) /\ u = r_x r /\ v = r_y r).
        { intros u v Hu Hv. apply InS, merged_in in Hu as [(r & Hr & [= -> ->])|(w & _ & _ & [= -> ->])]; [eauto|].
          unfold nn in Hv. congruence. }
        destruct (last_valid _) as [v|] eqn:El.
        - left. apply valid_split in El as (x & Hx & Hv & Hl); [|now apply filter_sorted].
          apply filter_In in Hx as [Hx Hlt]. cbn in Hlt. apply Z.ltb_lt in Hlt.
          destruct (Val x v Hx Hv) as (r & Hr & -> & ->). exists r. split; [exact Hr|]. split; [exact Hlt|].
          split; [exact Hv|]. split; [reflexivity|]. intros r' Hr' [Q1 Q2]. apply (Hl (r_x r') (r_y r')); [|exact Q1].
          apply filter_In. split; [now apply Row|]. cbn. now apply Z.ltb_lt.
        - right. apply last_valid_none in El. rewrite Forall_forall in El. split.
          { intros r Hr Hlt. apply El. apply in_map_iff. exists (r_x r, r_y r). split; [reflexivity|].
            apply filter_In. split; [now apply Row|]. cbn. now apply Z.ltb_lt. }
          rewrite removelast_map. destruct (first_valid _) as [v|] eqn:Ef.
          + left. pose proof Ef as Ef'. apply first_split in Ef as (x & Hx & Hv & Hl); [|now apply removelast_sorted].
            assert (HxS : In (x, v) S) by now apply in_removelast. destruct (Val x v HxS Hv) as (r & Hr & -> & ->).
            exists r. split; [|split; [reflexivity|]].
            * split; [exact Hr|]. split; [exact Hv|]. intros r' Hr' Hn.
              destruct (Z.le_gt_cases (r_x r) (r_x r')) as [|Hgt]; [assumption|].
              apply (Hl (r_x r') (r_y r')); [|exact Hn]. apply removelast_succ; [exact Hs|now apply Row|].
              exists (r_x r, r_y r). split; [exact HxS|]. cbn. lia.
            * apply (proj1 (removelast_succ S _ Hs HxS)) in Hx. destruct Hx as ((u & w) & Hu & Hlt). cbn in Hlt.
              exists u. split; [|exact Hlt]. assert (Hm := in_map fst _ _ (proj1 (InS _) Hu)). apply merged_fst in Hm. tauto.
          + right. split; [|reflexivity]. intros r (Hr & Hn & _) u Hu.
            destruct (Z.le_gt_cases u (r_x r)) as [|Hgt]; [assumption|]. exfalso.
            apply first_valid_none in Ef. rewrite Forall_forall in Ef.
            assert (Hb : In (r_x r, r_y r) (removelast S)).
            { apply removelast_succ; [exact Hs|now apply Row|].
              assert (Hm : In u (map fst (merged_pos (rows df) zs))) by (apply merged_fst; tauto).
              apply in_map_iff in Hm as (q & Eq' & Hq). exists q. split; [now apply InS|]. cbn. lia. }
            specialize (Ef _ (in_map snd _ _ Hb)). cbn in Ef. unfold null, nn in *. congruence. }
      (* alignment *)
      assert (Sub : forall z, In z zs -> In z (map fst S)).
      { intros z Hz. assert (Hm : In z (map fst (merged_pos (rows df) zs))) by (apply merged_fst; tauto).
        apply in_map_iff in Hm as (q & <- & Hq). apply in_map. now apply isort_in. }
      clear - Hs Sz V Sub Ly. remember (naive_spec (rows df) zs) as P eqn:EP. clear EP.
      clearbody ys. clearbody S. revert zs Sz Sub ys Ly V. induction Hs as [|[u w] s HS IH F]; intros zs Sz Sub ys Ly V.
      + destruct zs as [|z zs]; [destruct ys; constructor|]. destruct (Sub z (or_introl eq_refl)).
      + destruct ys as [|v ys]; [discriminate|]. injection Ly as Ly. cbn [map fst combine filter].
        rewrite Forall_forall in F.
        assert (V' : forall i z y, nth_error s i = Some (z, y) -> exists v, nth_error ys i = Some v /\ P z v)
          by (intros i; apply (V (Datatypes.S i))).
        destruct zs as [|z zs]; cbn [existsb].
        * cbn [map]. assert (E := IH [] Sz (fun z (Hz : In z []) => match Hz with end) ys Ly V'). exact E.
        * inversion Sz as [|? ? Sz' Fz]; subst. rewrite Forall_forall in Fz.
          destruct (Z.eqb_spec u z) as [->|Hne]; cbn [orb].
          { cbn [map snd]. destruct (V 0 z w eq_refl) as (v' & [= <-] & Pv). constructor; [exact Pv|].
            replace (filter (fun p => (fst p =? z)%Z || existsb (Z.eqb (fst p)) zs) (combine (map fst s) ys))
              with (filter (fun p => existsb (Z.eqb (fst p)) zs) (combine (map fst s) ys)).
            2: { apply filter_ext_in. intros [a b] Hab. cbn [fst]. apply in_combine_l in Hab.
                 apply in_map_iff in Hab as (q & <- & Hq). specialize (F q Hq). cbn in F.
                 destruct (Z.eqb_spec (fst q) z); [lia|reflexivity]. }
            apply IH; auto. intros y Hy. destruct (Sub y (or_intror Hy)) as [E|E]; [|exact E]. cbn in E. subst.
            specialize (Fz _ Hy). lia. }
          { assert (Hz : (u < z)%Z).
            { destruct (Sub z (or_introl eq_refl)) as [E|E]; [cbn in E; congruence|].
              apply in_map_iff in E as (q & <- & Hq). now apply (F q). }
            assert (existsb (Z.eqb u) zs = false) as ->.
            { destruct (existsb _ _) eqn:E; [|reflexivity]. apply existsb_exists in E as (y & Hy & Ey).
              apply Z.eqb_eq in Ey. subst. specialize (Fz _ Hy). lia. }
            apply (IH (z :: zs)); auto. intros y Hy. destruct (Sub y Hy) as [E|E]; [|exact E]. cbn in E. subst.
            destruct Hy as [->|Hy]; [lia|]. specialize (Fz _ Hy). lia. }
  Qed.

  (* without actuals *)
  Lemma naive_needs_actuals a_x a_date p mode :
    fm_f model_naive a_x a_date p mode (mkKw None []) = Err ValueError.
  Proof. reflexivity. Qed.
  (* every later position gets the last non-null actual *)
  Lemma naive_beyond (A : list (row T)) zs z v r :
    naive_spec A zs z v -> (forall r', In r' A -> (r_x r' < z)%Z) ->
    In r A -> nn (r_y r) -> (forall r', In r' A -> (r_x r < r_x r')%Z -> null (r_y r')) ->
    NoDup (map r_x A) -> v = r_y r.
  Proof.
    intros S Hz Hr Hn Hl Nd. destruct S as [(r0 & H0 & _ & N0 & -> & L0)|(Nb & _)].
    - destruct (Z.lt_trichotomy (r_x r) (r_x r0)) as [Hlt|[E|Hgt]].
      + specialize (Hl r0 H0 Hlt). unfold null, nn in *. congruence.
      + f_equal. clear - Nd H0 Hr E. induction A as [|a A IH]; [destruct H0|]. inversion Nd as [|? ? Hq Nd']; subst.
        destruct H0 as [->|H0], Hr as [->|Hr]; auto.
        * exfalso. apply Hq. rewrite <- E. now apply in_map.
        * exfalso. apply Hq. rewrite E. now apply in_map.
      + assert (Q : null (r_y r)) by (apply (L0 r Hr); split; [lia|auto]). unfold null, nn in *. congruence.
    - specialize (Nb r Hr (Hz r Hr)). unfold null, nn in *. congruence.
  Qed.
End NaiveMain.

(* real numbers represent every integer faithfully *)
Lemma xr_exact_ints zs : exact_ints (T:=XR) zs.
Proof.
  intros a b _ _. split; cbn.
  - destruct (Rleb_spec (IZR a) (IZR b)) as [Hr|Hr], (Z.leb_spec a b) as [Hz|Hz]; try reflexivity.
    + apply le_IZR in Hr. lia.
    + apply IZR_le in Hz. contradiction.
  - destruct (Reqb_spec (IZR a) (IZR b)) as [Hr|Hr], (Z.eqb_spec a b) as [Hz|Hz]; try reflexivity.
    + apply eq_IZR in Hr. contradiction.
    + subst. contradiction.
Qed.
