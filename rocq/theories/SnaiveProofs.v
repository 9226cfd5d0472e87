(* Seasonal naive model: lemmas for C21. *)
From Coq Require Import ZArith String List Bool Lia Sorted Permutation.
From Verif Require Import Num Py Cal Model Naive ListProofs NaiveProofs.
Import ListNotations.
Local Open Scope nat_scope.
Local Open Scope list_scope.

Section Snaive.
  Context {T : Type} `{N : NumOps T}.
  Hypothesis nan_null : nisnan (nnan : T) = true.

  Definition sorted_x (A : list (row T)) : Prop := StronglySorted (fun a b => (r_x a < r_x b)%Z) A.
  (* last non-null y among the rows of A satisfying P; null if there is none *)
  Definition last_among (P : row T -> Prop) (A : list (row T)) (v : T) : Prop :=
    (exists r, In r A /\ P r /\ nn (r_y r) /\ v = r_y r /\
       forall r', In r' A -> P r' -> (r_x r < r_x r')%Z -> null (r_y r')) \/
    ((forall r, In r A -> P r -> null (r_y r)) /\ v = nnan).
  Definition same_wday (t : Z) (r : row T) : Prop := weekday (r_date r) = weekday t.
  Definition snaive_in (A : list (row T)) (t z : Z) (v : T) : Prop :=
    last_among (fun r => same_wday t r /\ (r_x r < z)%Z) A v.
  Definition snaive_out (A : list (row T)) (t : Z) (v : T) : Prop := last_among (same_wday t) A v.

  Lemma last_among_filter (p : row T -> bool) A : sorted_x A ->
    last_among (fun r => p r = true) A (or_nan (last_valid (map r_y (filter p A)))).
  Proof.
    intros HS. assert (HF := filter_sorted _ p A HS). 
    assert (Sm : StronglySorted (fun a b => (fst a < fst b)%Z) (map (fun r => (r_x r, r_y r)) (filter p A))).
    { clear - HF. induction HF as [|a l S IH F]; cbn; constructor; auto. rewrite Forall_forall in *.
      intros q Hq. apply in_map_iff in Hq as (r & <- & Hr). cbn. now apply F. }
    assert (E : map snd (map (fun r => (r_x r, r_y r)) (filter p A)) = map r_y (filter p A)) by (now rewrite map_map).
    rewrite <- E. destruct (last_valid _) as [v|] eqn:El; cbn [or_nan].
    - left. apply valid_split in El as (x & Hx & Hv & Hl); [|exact Sm].
      apply in_map_iff in Hx as (r & [= <- <-] & Hr). apply filter_In in Hr as [Hr Pr]. exists r.
      repeat (split; [assumption || reflexivity|]). intros r' Hr' Pr' Hlt.
      apply (Hl (r_x r') (r_y r')); [|exact Hlt]. apply in_map_iff. exists r'. split; [reflexivity|].
      apply filter_In. auto.
    - right. split; [|reflexivity]. apply last_valid_none in El. rewrite Forall_forall in El.
      intros r Hr Pr. apply El. rewrite map_map. apply in_map_iff. exists r. split; [reflexivity|].
      apply filter_In. auto.
  Qed.
  Lemma last_among_iff (P Q : row T -> Prop) A v : (forall r, In r A -> (P r <-> Q r)) -> last_among P A v -> last_among Q A v.
  Proof.
    intros E [(r & Hr & Pr & Hn & -> & Hl)|(Hn & ->)].
    - left. exists r. split; [exact Hr|]. split; [now apply E|]. split; [exact Hn|]. split; [reflexivity|].
      intros r' Hr' Q'. apply Hl; auto. now apply E.
    - right. split; [|reflexivity]. intros r Hr Q'. apply Hn; auto. now apply E.
  Qed.

  Lemma weekday_range t : (0 <= weekday t < 7)%Z.
  Proof. unfold weekday, weekday_of_day. apply Z.mod_pos_bound. lia. Qed.

  (* one weekday group *)
  Lemma sorted_filter_before (A : list (row T)) i r : sorted_x A -> nth_error A i = Some r ->
    firstn i A = filter (fun q => (r_x q <? r_x r)%Z) A.
  Proof.
    intros HS. revert i. induction HS as [|a s HS IH F]; intros [|i] E; try discriminate; cbn in *.
    - injection E as ->. rewrite Z.ltb_irrefl. symmetry.
      clear - F. induction s as [|b s IH]; [reflexivity|]. inversion F; subst. cbn in *.
      destruct (Z.ltb_spec (r_x b) (r_x r)); [lia|]. now apply IH.
    - rewrite Forall_forall in F. pose proof (F _ (nth_error_In _ _ E)) as Ha.
      destruct (Z.ltb_spec (r_x a) (r_x r)); [|lia]. f_equal. now apply IH.
  Qed.
  Lemma nth_error_combine' {A B} : forall (l : list A) (l' : list B) i,
    nth_error (combine l l') i = match nth_error l i, nth_error l' i with Some a, Some b => Some (a, b) | _, _ => None end.
  Proof.
    induction l as [|a l IH]; intros [|b l'] [|i]; try reflexivity.
    - cbn. destruct (nth_error l i); reflexivity.
    - cbn. apply IH.
  Qed.
  Lemma filter_filter' {A} (p q : A -> bool) l : filter p (filter q l) = filter (fun a => q a && p a) l.
  Proof. induction l as [|a l IH]; [reflexivity|]. cbn. destruct (q a); cbn; [destruct (p a)|]; now rewrite IH. Qed.

  Lemma wday_group_in (A : list (row T)) w r v : sorted_x A -> In (r, v) (wday_group w A) ->
    In r A /\ weekday (r_date r) = w /\ snaive_in A (r_date r) (r_x r) v.
  Proof.
    intros HS Hi. unfold wday_group in Hi.
    set (g := filter (fun r => (weekday (r_date r) =? w)%Z) A) in *.
    assert (Hg : In r g) by (eapply in_combine_l; exact Hi).
    pose proof Hg as Hg'. unfold g in Hg'. apply filter_In in Hg' as [Hr Hw]. apply Z.eqb_eq in Hw.
    split; [exact Hr|]. split; [exact Hw|].
    apply In_nth_error in Hi as (i & Ei). rewrite nth_error_combine' in Ei.
    destruct (nth_error g i) as [r'|] eqn:Eg; [|discriminate].
    assert (Hl : i < length (map r_y g)) by (rewrite map_length; apply nth_error_Some; congruence).
    rewrite (shift_ffill_nth nan_null _ _ Hl) in Ei. injection Ei as -> <-.
    rewrite firstn_map, (sorted_filter_before g i r (filter_sorted _ _ _ HS) Eg). unfold g. rewrite filter_filter'.
    eapply last_among_iff; [|apply last_among_filter, HS]. intros q Hq. cbn. unfold same_wday.
    rewrite andb_true_iff, Z.eqb_eq, Z.ltb_lt, Hw. tauto.
  Qed.
  Lemma wday_group_fst (A : list (row T)) w : map fst (wday_group w A) = filter (fun r => (weekday (r_date r) =? w)%Z) A.
  Proof.
    unfold wday_group. set (g := filter _ A).
    assert (L : length (ffill (shift1 (map r_y g))) = length g)
      by (unfold ffill; now rewrite ffill_from_length, shift1_length, map_length).
    clearbody g. revert L. generalize (ffill (shift1 (map r_y g))). intros l L. clear - L.
    revert l L. induction g as [|a g IH]; intros [|b l] L; try discriminate; [reflexivity|].
    cbn. f_equal. apply IH. now injection L.
  Qed.

  Definition groups (A : list (row T)) := flat_map (fun w => wday_group (Z.of_nat w) A) (seq 0 7).
  Lemma groups_fst_in A r : In r (map fst (groups A)) <-> In r A.
  Proof.
    unfold groups. rewrite in_map_iff. split.
    - intros (p & <- & Hp). apply in_flat_map in Hp as (w & _ & Hp). apply (in_map fst) in Hp.
      rewrite wday_group_fst in Hp. now apply filter_In in Hp.
    - intros Hr. assert (B := weekday_range (r_date r)).
      assert (Hm : In r (map fst (wday_group (Z.of_nat (Z.to_nat (weekday (r_date r)))) A))).
      { rewrite wday_group_fst. apply filter_In. split; [exact Hr|]. apply Z.eqb_eq. lia. }
      apply in_map_iff in Hm as (p & Ep & Hp). exists p. split; [exact Ep|]. apply in_flat_map.
      exists (Z.to_nat (weekday (r_date r))). split; [apply in_seq; lia|exact Hp].
  Qed.
  Lemma map_flat_map {A B C} (f : B -> C) (g : A -> list B) l : map f (flat_map g l) = flat_map (fun a => map f (g a)) l.
  Proof. induction l as [|a l IH]; [reflexivity|]. cbn. now rewrite map_app, IH. Qed.
  Lemma sorted_x_nodup (A : list (row T)) : sorted_x A -> NoDup (map r_x A).
  Proof.
    induction 1 as [|a l S IH F]; cbn; constructor; auto. rewrite in_map_iff. intros (b & E & Hb).
    rewrite Forall_forall in F. specialize (F b Hb). lia.
  Qed.
  Lemma nodup_map_inj {B} (f : row T -> B) l a b : NoDup (map f l) -> In a l -> In b l -> f a = f b -> a = b.
  Proof.
    induction l as [|c l IH]; [intros _ []|]. intros Nd Ha Hb E. inversion Nd as [|? ? Hq Nd']; subst.
    destruct Ha as [->|Ha], Hb as [->|Hb]; auto.
    - exfalso. apply Hq. rewrite E. now apply in_map.
    - exfalso. apply Hq. rewrite <- E. now apply in_map.
  Qed.
  Lemma groups_nodup A : NoDup (map r_x A) -> NoDup (map (fun p => r_x (fst p)) (groups A)).
  Proof.
    intros Nd. unfold groups. rewrite map_flat_map.
    assert (E : forall w, map (fun p : row T * T => r_x (fst p)) (wday_group w A) =
                map r_x (filter (fun r => (weekday (r_date r) =? w)%Z) A)).
    { intros w. rewrite <- wday_group_fst, map_map. reflexivity. }
    rewrite (flat_map_ext _ (fun w => map r_x (filter (fun r => (weekday (r_date r) =? Z.of_nat w)%Z) A))) by (intros; apply E).
    assert (Nf : forall p, NoDup (map r_x (filter p A))).
    { clear - Nd. intros p. induction A as [|a l IH]; [constructor|]. inversion Nd; subst. cbn. destruct (p a); auto.
      cbn. constructor; auto. intros Hi. apply in_map_iff in Hi as (b & Eb & Hb). apply filter_In in Hb as [Hb _].
      match goal with H : ~ In _ _ |- _ => apply H end. rewrite <- Eb. now apply in_map. }
    assert (Ns : NoDup (seq 0 7)) by apply seq_NoDup. revert Ns. generalize (seq 0 7) as ws.
    induction ws as [|w ws IH]; intros Ns; [constructor|]. inversion Ns as [|? ? Hw Ns']; subst. cbn.
    apply NoDup_app_iff'. split; [apply Nf|]. split; [now apply IH|].
    intros x H1 H2. apply in_map_iff in H1 as (a & Ea & Ha). apply filter_In in Ha as [Ha Wa]. apply Z.eqb_eq in Wa.
    apply in_flat_map in H2 as (w' & Hw' & H2). apply in_map_iff in H2 as (b & Eb & Hb).
    apply filter_In in Hb as [Hb Wb]. apply Z.eqb_eq in Wb.
    assert (a = b) by (apply (nodup_map_inj r_x A); auto; congruence). subst b.
    assert (w = w') by lia. subst. contradiction.
  Qed.

  (* the filled table: one entry per row, in order of x, with its weekly predecessor *)
  Lemma fillna_sorted A : sorted_x A -> StronglySorted (fun a b => (r_x (fst a) < r_x (fst b))%Z) (fillna_wday A).
  Proof.
    intros HS. unfold fillna_wday. fold (groups A). pose proof (groups_nodup A (sorted_x_nodup A HS)) as Nd.
    set (le := fun a b : row T * T => (r_x (fst a) <=? r_x (fst b))%Z).
    assert (Tt : total_leb le) by (intros a b; apply Zleb_total).
    assert (Tr : trans_leb le) by (intros a b c; apply Zleb_trans).
    pose proof (isort_sorted le (groups A) Tt Tr) as S.
    assert (Nd' : NoDup (map (fun p => r_x (fst p)) (isort le (groups A)))).
    { eapply Permutation_NoDup; [|exact Nd]. apply Permutation_map, isort_perm. }
    clear Nd. induction S as [|a l S IH F]; constructor; inversion Nd' as [|? ? Hq Nd'']; subst; auto.
    rewrite Forall_forall in *. intros b Hb. specialize (F b Hb). unfold le_of, le in F. apply Z.leb_le in F.
    assert (r_x (fst a) <> r_x (fst b)); [|lia]. intros E. apply Hq. rewrite E.
    now apply (in_map (fun p => r_x (fst p))).
  Qed.
  Lemma sorted_x_unique : forall A B : list (row T), sorted_x A -> sorted_x B -> (forall r, In r A <-> In r B) -> A = B.
  Proof.
    induction A as [|a A IH]; intros B HA HB E.
    - destruct B as [|b B]; [reflexivity|]. destruct (proj2 (E b) (or_introl eq_refl)).
    - destruct B as [|b B]; [destruct (proj1 (E a) (or_introl eq_refl))|].
      inversion HA as [|? ? HA' FA]; subst. inversion HB as [|? ? HB' FB]; subst. rewrite Forall_forall in *.
      assert (a = b).
      { destruct (proj1 (E a) (or_introl eq_refl)) as [->|Ha]; [reflexivity|].
        destruct (proj2 (E b) (or_introl eq_refl)) as [->|Hb]; [reflexivity|].
        specialize (FA b Hb). specialize (FB a Ha). lia. }
      subst b. f_equal. apply IH; auto. intros r. split; intros Hr.
      + destruct (proj1 (E r) (or_intror Hr)) as [->|]; auto. specialize (FA r Hr). lia.
      + destruct (proj2 (E r) (or_intror Hr)) as [->|]; auto. specialize (FB r Hr). lia.
  Qed.
  Lemma fillna_fst A : sorted_x A -> map fst (fillna_wday A) = A.
  Proof.
    intros HS. apply sorted_x_unique; [|exact HS|].
    - pose proof (fillna_sorted A HS) as S. clear - S. induction S as [|a l S IH F]; cbn; constructor; auto.
      rewrite Forall_forall in *. intros q Hq. apply in_map_iff in Hq as (p & <- & Hp). now apply F.
    - intros r. rewrite <- (groups_fst_in A r). unfold fillna_wday. fold (groups A). rewrite !in_map_iff.
      split; intros (p & Ep & Hp); exists p; (split; [exact Ep|]); first [now apply isort_in in Hp|apply isort_in; exact Hp].
  Qed.
  Lemma fillna_values A r v : sorted_x A -> In (r, v) (fillna_wday A) -> In r A /\ snaive_in A (r_date r) (r_x r) v.
  Proof.
    intros HS Hi. unfold fillna_wday in Hi. apply isort_in, in_flat_map in Hi. destruct Hi as (w & _ & Hi).
    apply wday_group_in in Hi; [|exact HS]. tauto.
  Qed.

  Lemma last_week_spec A t : sorted_x A -> snaive_out A t (last_week (fillna_wday A) (weekday t)).
  Proof.
    intros HS. unfold last_week. set (m := fillna_wday A). assert (Sm : StronglySorted (fun a b => (r_x (fst a) < r_x (fst b))%Z) m) by now apply fillna_sorted.
    assert (Hm : forall r, In r A -> exists v, In (r, v) m).
    { intros r Hr. rewrite <- (fillna_fst A HS) in Hr. apply in_map_iff in Hr as ((r' & v) & <- & Hp). now exists v. }
    assert (Hv : forall r v, In (r, v) m -> In r A /\ snaive_in A (r_date r) (r_x r) v) by (intros; now apply fillna_values).
    destruct (find _ (rev m)) as [[r v]|] eqn:Ef.
    - assert (Hf := find_some _ _ Ef). destruct Hf as [Hi Hw]. cbn in Hw. apply Z.eqb_eq in Hw. rewrite <- in_rev in Hi.
      destruct (Hv r v Hi) as [Hr Sv].
      assert (Last : forall r', In r' A -> same_wday t r' -> (r_x r' <= r_x r)%Z).
      { intros r' Hr' W. destruct (Hm r' Hr') as (v' & Hp). unfold same_wday in W.
        destruct (Z.le_gt_cases (r_x r') (r_x r)) as [|Hgt]; [assumption|exfalso]. clear - Ef Sm Hp Hgt W Hi Hw.
        assert (Sr : StronglySorted (fun a b => (r_x (fst b) < r_x (fst a))%Z) (rev m)).
        { clear - Sm. induction Sm as [|a l S IH F]; [constructor|]. cbn. rewrite Forall_forall in F.
          assert (G : forall b, In b (rev l) -> (r_x (fst a) < r_x (fst b))%Z) by (intros b Hb; apply F; now apply in_rev).
          clear - IH G. induction IH as [|b s S IH F]; cbn; [constructor; [constructor|constructor]|].
          constructor; [apply IH; intros; apply G; now right|]. apply Forall_app. split; [exact F|].
          constructor; [apply G; now left|constructor]. }
        apply in_rev in Hp. clear Sm Hi. induction Sr as [|a l S IH F]; [destruct Hp|]. cbn in Ef. rewrite Forall_forall in F.
        destruct (Z.eqb_spec (weekday (r_date (fst a))) (weekday t)) as [Ea|Ea].
        - injection Ef as ->. destruct Hp as [Ep|Hp]; [injection Ep as <- <-; lia|]. specialize (F _ Hp). cbn in F. lia.
        - destruct Hp as [->|Hp]; [cbn in Ea; congruence|]. now apply IH. }
      destruct (nisnan (r_y r)) eqn:En.
      + destruct Sv as [(r0 & H0 & [W0 L0] & N0 & -> & Hl)|(Hn & ->)].
        * left. exists r0. split; [exact H0|]. split; [unfold same_wday in *; congruence|]. split; [exact N0|].
          split; [reflexivity|]. intros r' Hr' W Hlt. specialize (Last r' Hr' W).
          destruct (Z.eq_dec (r_x r') (r_x r)) as [E|E].
          { assert (r' = r) by (apply (nodup_map_inj r_x A); auto using sorted_x_nodup). subst. exact En. }
          apply Hl; auto. split; [unfold same_wday in *; congruence|lia].
        * right. split; [|reflexivity]. intros r' Hr' W. specialize (Last r' Hr' W).
          destruct (Z.eq_dec (r_x r') (r_x r)) as [E|E].
          { assert (r' = r) by (apply (nodup_map_inj r_x A); auto using sorted_x_nodup). subst. exact En. }
          apply Hn; auto. split; [unfold same_wday in *; congruence|lia].
      + left. exists r. split; [exact Hr|]. split; [exact Hw|]. split; [exact En|]. split; [reflexivity|].
        intros r' Hr' W Hlt. specialize (Last r' Hr' W). lia.
    - right. split; [|reflexivity]. intros r Hr W. destruct (Hm r Hr) as (v & Hp). exfalso.
      apply in_rev in Hp. apply (find_none _ _ Ef) in Hp. cbn in Hp. apply Z.eqb_neq in Hp. apply Hp. exact W.
  Qed.

  (* selecting sorted keys from a sorted table *)
  Lemma align {B} (m : list (Z * B)) zs : StronglySorted (fun a b => (fst a < fst b)%Z) m ->
    StronglySorted Z.lt zs -> (forall z, In z zs -> In z (map fst m)) ->
    Forall2 (fun z v => In (z, v) m) zs (flat_map (fun p => if existsb (Z.eqb (fst p)) zs then [snd p] else []) m).
  Proof.
    intros Sm. revert zs. induction Sm as [|[u w] s HS IH F]; intros zs Sz Sub.
    - destruct zs as [|z zs]; [constructor|]. destruct (Sub z (or_introl eq_refl)).
    - rewrite Forall_forall in F. cbn [flat_map fst snd].
      assert (W : forall zs l, Forall2 (fun z v => In (z, v) s) zs l -> Forall2 (fun z v => In (z, v) ((u, w) :: s)) zs l).
      { intros ? ? Q. induction Q; constructor; auto. now right. }
      destruct zs as [|z zs]; cbn [existsb].
      + apply W. apply IH; auto. intros z [].
      + inversion Sz as [|? ? Sz' Fz]; subst. rewrite Forall_forall in Fz. destruct (Z.eqb_spec u z) as [->|Hne]; cbn [orb app].
        * constructor; [now left|]. apply W.
          rewrite (flat_map_ext_in _ (fun p => if existsb (Z.eqb (fst p)) zs then [snd p] else []))
            || idtac.
          assert (E : flat_map (fun p => if (fst p =? z)%Z || existsb (Z.eqb (fst p)) zs then [snd p] else []) s =
                      flat_map (fun p => if existsb (Z.eqb (fst p)) zs then [snd p] else []) s).
          { clear - F. induction s as [|q s IH]; [reflexivity|]. cbn. rewrite IH by (intros; apply F; now right).
            specialize (F q (or_introl eq_refl)). cbn in F. destruct (Z.eqb_spec (fst q) z); [lia|reflexivity]. }
          rewrite E. apply IH; auto. intros y Hy. destruct (Sub y (or_intror Hy)) as [Ey|Ey]; [|exact Ey]. cbn in Ey. subst.
          specialize (Fz _ Hy). lia.
        * assert (Hz : (u < z)%Z).
          { destruct (Sub z (or_introl eq_refl)) as [E|E]; [cbn in E; congruence|].
            apply in_map_iff in E as (q & <- & Hq). now apply (F q). }
          assert (existsb (Z.eqb u) zs = false) as ->.
          { destruct (existsb _ _) eqn:E; [|reflexivity]. apply existsb_exists in E as (y & Hy & Ey).
            apply Z.eqb_eq in Ey. subst. specialize (Fz _ Hy). lia. }
          cbn [app]. apply W. apply (IH (z :: zs)); auto. intros y Hy. destruct (Sub y Hy) as [E|E]; [|exact E].
          cbn in E. subst. destruct Hy as [->|Hy]; [lia|]. specialize (Fz _ Hy). lia.
  Qed.

  Definition in_dates (A : list (row T)) (t : Z) : bool := existsb (Z.eqb t) (map r_date A).
  (* a requested date among the actuals comes with the position it has there *)
  Definition consistent (A : list (row T)) (reqs : list (Z * Z)) : Prop :=
    forall t z, In (t, z) reqs -> in_dates A t = true -> exists r, In r A /\ r_date r = t /\ r_x r = z.

  Theorem snaive_correct (df : frame T) ds zs p mode :
    has_date df = true -> sorted_x (rows df) ->
    exact_ints (T:=T) (map r_x (rows df) ++ zs) -> length ds = length zs -> StronglySorted Z.lt zs ->
    consistent (rows df) (combine ds zs) ->
    let known := filter (fun q => in_dates (rows df) (fst q)) (combine ds zs) in
    let fresh := filter (fun q => negb (in_dates (rows df) (fst q))) (combine ds zs) in
    exists o1 o2,
      fm_f model_snaive_wday (map nofZ zs) (Some ds) p mode (mkKw (Some df) []) = Ok (Ar (o1 ++ o2)) /\
      Forall2 (fun q v => snaive_in (rows df) (fst q) (snd q) v) known o1 /\
      Forall2 (fun q v => snaive_out (rows df) (fst q) v) fresh o2.
  Proof.
    intros Hd HS X L Sz C known fresh. set (A := rows df) in *.
    assert (Nd := sorted_x_nodup A HS).
    cbn [fm_f model_snaive_wday mk_model]. unfold f_snaive_wday. cbn [kw_cache kw_actuals]. rewrite Hd. cbn [negb].
    unfold requests. rewrite map_length, L, Nat.eqb_refl. cbn [rbind].
    assert (Ed : dedup_key Z.eqb r_x A = A) by (apply (dedup_key_id r_x A []); [exact Nd|intros ? ? ? []]).
    fold A. rewrite Ed. set (m := fillna_wday A).
    assert (Sm : StronglySorted (fun a b => (r_x (fst a) < r_x (fst b))%Z) m) by now apply fillna_sorted.
    assert (Ef : map fst m = A) by now apply fillna_fst.
    assert (Et : map (fun p => r_date (fst p)) m = map r_date A) by (rewrite <- Ef, map_map; reflexivity).
    rewrite Et.
    (* requests, on integers *)
    assert (Eqz : combine ds (map (nofZ : Z -> T) zs) = map (fun q => (fst q, nofZ (snd q))) (combine ds zs)).
    { clear. revert zs. induction ds as [|d ds IH]; intros [|z zs]; try reflexivity. cbn. now rewrite IH. }
    assert (Eqs : combine (map Some ds) (map (nofZ : Z -> T) zs) = map (fun q => (Some (fst q), nofZ (snd q))) (combine ds zs)).
    { clear. revert zs. induction ds as [|d ds IH]; intros [|z zs]; try reflexivity. cbn. now rewrite IH. }
    rewrite Eqz, Eqs.
    assert (Esnd : map snd (combine ds zs) = zs).
    { clear - L. revert zs L. induction ds as [|d ds IH]; intros [|z zs] L; try discriminate; [reflexivity|].
      cbn. f_equal. apply IH. now injection L. }
    set (reqs := combine ds zs) in *.
    assert (Sr : StronglySorted (fun a b => (snd a < snd b)%Z) reqs).
    { clear - Sz Esnd. clearbody reqs. subst zs. induction reqs as [|a l IH]; [constructor|]. cbn in Sz.
      inversion Sz as [|? ? S F]; subst. constructor; auto. rewrite Forall_forall in *. intros b Hb. apply F. now apply in_map. }
    assert (Xr : forall q, In q reqs -> In (snd q) zs) by (intros q Hq; rewrite <- Esnd; now apply in_map).
    (* fresh part *)
    assert (Efr : isort (fun a b => nleb (snd a) (snd b))
              (filter (fun q : Z * T => negb (existsb (Z.eqb (fst q)) (map r_date A))) (map (fun q => (fst q, nofZ (snd q))) reqs))
            = map (fun q => (fst q, nofZ (snd q))) fresh).
    { rewrite filter_map. cbn [fst]. fold (in_dates A).
      change (filter (fun a : Z * Z => negb (existsb (Z.eqb (fst a)) (map r_date A))) reqs) with fresh.
      rewrite (isort_map (fun a b : Z * Z => (snd a <=? snd b)%Z)).
      - f_equal. apply isort_id. assert (Sf : StronglySorted (fun a b => (snd a < snd b)%Z) fresh) by now apply filter_sorted.
        clear - Sf. induction Sf as [|a l S IH F]; constructor; auto. rewrite Forall_forall in *.
        intros b Hb. unfold le_of. apply Z.leb_le. specialize (F b Hb). lia.
      - intros a b Ha Hb. cbn [snd]. apply filter_In in Ha as [Ha _]. apply filter_In in Hb as [Hb _].
        apply X; apply in_or_app; right; now apply Xr. }
    rewrite Efr, map_map. cbn [fst].
    eexists. eexists. split; [reflexivity|]. split.
    2: { clear - HS nan_null. induction fresh as [|q l IH]; cbn; constructor; auto. now apply last_week_spec. }
    (* known part *)
    assert (Kz : forall r v, In (r, v) m ->
      length (filter (same_key true r) (map (fun q : Z * Z => (Some (fst q), nofZ (snd q) : T)) reqs)) =
      if existsb (Z.eqb (r_x r)) (map snd known) then 1 else 0).
    { intros r v Hp. assert (Hr : In r A) by (rewrite <- Ef; apply (in_map fst) in Hp; exact Hp).
      rewrite filter_map, map_length.
      rewrite (filter_ext_in _ (fun q => (r_x r =? snd q)%Z && (r_date r =? fst q)%Z)).
      2: { intros q Hq. unfold same_key. cbn [fst snd]. f_equal. apply X; apply in_or_app; [left; now apply in_map|right; now apply Xr]. }
      destruct (existsb (Z.eqb (r_x r)) (map snd known)) eqn:Ek.
      - apply existsb_exists in Ek as (z & Hz & Ez). apply Z.eqb_eq in Ez. subst z.
        apply in_map_iff in Hz as ((t & z) & Ez & Hz). cbn in Ez. subst z. apply filter_In in Hz as [Hz Hin]. cbn in Hin.
        destruct (C t (r_x r) Hz Hin) as (r' & Hr' & Et' & Ex').
        assert (r' = r) by (apply (nodup_map_inj r_x A); auto). subst r'.
        assert (U : forall q, In q reqs -> snd q = r_x r -> q = (t, r_x r)).
        { intros q Hq Eq. clear - Sr Hq Hz Eq. induction Sr as [|a l S IH F]; [destruct Hq|]. rewrite Forall_forall in F.
          destruct Hq as [->|Hq], Hz as [E|Hz]; subst; auto.
          - specialize (F _ Hz). cbn in F. lia.
          - specialize (F _ Hq). cbn in F. lia. }
        assert (Nr : NoDup reqs).
        { clear - Sr. induction Sr as [|a l S IH F]; constructor; auto. intros Hi. rewrite Forall_forall in F. specialize (F _ Hi). lia. }
        clear - U Nr Hz Et'. revert U Nr Hz. induction reqs as [|q l IH]; intros U Nr Hz; [destruct Hz|].
        inversion Nr as [|? ? Hq Nr']; subst. cbn.
        destruct (Z.eqb_spec (r_x r) (snd q)) as [E|E]; cbn [andb].
        + specialize (U q (or_introl eq_refl) (eq_sym E)) as Uq. subst q. cbn. rewrite Z.eqb_refl. cbn. f_equal.
          assert (filter (fun q => (r_x r =? snd q)%Z && (r_date r =? fst q)%Z) l = []) as ->; [|reflexivity].
          destruct (filter _ l) as [|b s] eqn:Eb; [reflexivity|]. exfalso.
          assert (Hb : In b (b :: s)) by now left. rewrite <- Eb in Hb. apply filter_In in Hb as [Hb Pb].
          apply andb_prop in Pb as [Pb _]. apply Z.eqb_eq in Pb. apply Hq. rewrite <- (U b); [exact Hb|now right|congruence].
        + destruct Hz as [->|Hz]; [cbn in E; congruence|]. apply IH; auto. intros q0 Hq0. apply U. now right.
      - destruct (filter (fun q : Z * Z => (r_x r =? snd q)%Z && (r_date r =? fst q)%Z) reqs) as [|b s] eqn:Eb; [reflexivity|]. exfalso.
        assert (Hb : In b (b :: s)) by now left. rewrite <- Eb in Hb. apply filter_In in Hb as [Hb Pb].
        apply andb_prop in Pb as [P1 P2]. apply Z.eqb_eq in P1, P2.
        assert (existsb (Z.eqb (r_x r)) (map snd known) = true); [|congruence].
        apply existsb_exists. exists (snd b). split; [|now apply Z.eqb_eq]. apply in_map. apply filter_In. split; [exact Hb|].
        unfold in_dates. apply existsb_exists. exists (r_date r). split; [now apply in_map|]. apply Z.eqb_eq. congruence. }
    assert (Ein : flat_map (fun p0 : row T * T => repeat (snd p0) (length (filter (same_key true (fst p0))
                    (map (fun q : Z * Z => (Some (fst q), nofZ (snd q) : T)) reqs)))) m =
                  flat_map (fun q => if existsb (Z.eqb (fst q)) (map snd known) then [snd q] else []) (map (fun p => (r_x (fst p), snd p)) m)).
    { clear - Kz. induction m as [|[r v] m IH]; [reflexivity|]. cbn [map flat_map fst snd].
      rewrite (Kz r v) by now left. rewrite IH by (intros; apply Kz with (v := v0); now right).
      destruct (existsb _ _); reflexivity. }
    rewrite Ein.
    assert (Al := align (map (fun p => (r_x (fst p), snd p)) m) (map snd known)).
    assert (R : Forall2 (fun z v => In (z, v) (map (fun p => (r_x (fst p), snd p)) m)) (map snd known)
       (flat_map (fun q => if existsb (Z.eqb (fst q)) (map snd known) then [snd q] else []) (map (fun p => (r_x (fst p), snd p)) m))).
    { apply Al.
      - clear - Sm. induction Sm as [|a l S IH F]; cbn; constructor; auto. rewrite Forall_forall in *. intros q Hq.
        apply in_map_iff in Hq as (p & <- & Hp). cbn. now apply F.
      - assert (Sk : StronglySorted (fun a b => (snd a < snd b)%Z) known) by now apply filter_sorted.
        clear - Sk. induction Sk as [|a l S IH F]; cbn; constructor; auto. rewrite Forall_forall in *. intros q Hq.
        apply in_map_iff in Hq as (p & <- & Hp). now apply F.
      - intros z Hz. apply in_map_iff in Hz as ((t & z') & Ez & Hz). cbn in Ez. subst z'. apply filter_In in Hz as [Hz Hin].
        destruct (C t z Hz Hin) as (r & Hr & _ & <-). rewrite map_map. cbn [fst]. rewrite <- (map_map fst r_x), Ef. now apply in_map. }
    revert R. generalize (flat_map (fun q => if existsb (Z.eqb (fst q)) (map snd known) then [snd q] else []) (map (fun p => (r_x (fst p), snd p)) m)) as out.
    assert (Vk : forall t z v, In (t, z) known -> In (z, v) (map (fun p => (r_x (fst p), snd p)) m) -> snaive_in A t z v).
    { intros t z v Hk Hv. apply in_map_iff in Hv as ((r & v') & [= <- <-] & Hp).
      destruct (fillna_values A r v' HS Hp) as [Hr Sv]. apply filter_In in Hk as [Hk Hin].
      destruct (C t (r_x r) Hk Hin) as (r' & Hr' & <- & Ex). assert (r' = r) by (apply (nodup_map_inj r_x A); auto). subst r'. exact Sv. }
    clear - Vk. induction known as [|[t z] l IH]; intros out R; cbn [map] in R; inversion R; subst; constructor.
    - cbn. apply Vk; auto. now left.
    - apply IH; auto. intros; eapply Vk; eauto. now right.
  Qed.

  (* requests covering (a part of) the actuals and then fresh dates: one value each, in order *)
  Theorem snaive_extends (df : frame T) ds zs k p mode :
    has_date df = true -> sorted_x (rows df) ->
    exact_ints (T:=T) (map r_x (rows df) ++ zs) -> length ds = length zs -> StronglySorted Z.lt zs ->
    consistent (rows df) (combine ds zs) ->
    Forall (fun t => in_dates (rows df) t = true) (firstn k ds) ->
    Forall (fun t => in_dates (rows df) t = false) (skipn k ds) ->
    exists out,
      fm_f model_snaive_wday (map nofZ zs) (Some ds) p mode (mkKw (Some df) []) = Ok (Ar out) /\
      Forall2 (fun q v => if in_dates (rows df) (fst q) then snaive_in (rows df) (fst q) (snd q) v
                          else snaive_out (rows df) (fst q) v) (combine ds zs) out.
  Proof.
    intros Hd HS X L Sz C F1 F2. destruct (snaive_correct df ds zs p mode Hd HS X L Sz C) as (o1 & o2 & E & H1 & H2).
    exists (o1 ++ o2). split; [exact E|].
    assert (Es : combine ds zs = combine (firstn k ds) (firstn k zs) ++ combine (skipn k ds) (skipn k zs)).
    { clear. revert ds zs. induction k as [|k IH]; intros [|d ds] [|z zs]; try reflexivity.
      - cbn. now destruct (skipn k ds).
      - cbn. now rewrite <- IH. }
    assert (Eq1 : forall b l l', Forall (fun t => in_dates (rows df) t = b) l ->
      filter (fun q : Z * Z => in_dates (rows df) (fst q)) (combine l l') = if b then combine l l' else []).
    { clear. intros b l. induction l as [|t l IH]; intros [|z l'] F; try (destruct b; reflexivity).
      inversion F as [|? ? Ht Fl]; subst. cbn. rewrite IH by assumption. destruct (in_dates (rows df) t); reflexivity. }
    assert (Eq2 : forall b l l', Forall (fun t => in_dates (rows df) t = b) l ->
      filter (fun q : Z * Z => negb (in_dates (rows df) (fst q))) (combine l l') = if b then [] else combine l l').
    { clear. intros b l. induction l as [|t l IH]; intros [|z l'] F; try (destruct b; reflexivity).
      inversion F as [|? ? Ht Fl]; subst. cbn. rewrite IH by assumption. destruct (in_dates (rows df) t); reflexivity. }
    rewrite Es, filter_app, (Eq1 true), (Eq1 false), app_nil_r in H1 by assumption.
    rewrite Es, filter_app, (Eq2 true), (Eq2 false) in H2 by assumption. cbn [app] in H2.
    rewrite Es. apply Forall2_app.
    - clear - H1 F1. assert (G : forall q, In q (combine (firstn k ds) (firstn k zs)) -> in_dates (rows df) (fst q) = true).
      { intros [t z] Hq. rewrite Forall_forall in F1. apply F1. now apply in_combine_l in Hq. }
      clear F1. induction H1; constructor; try (rewrite G by (now left); assumption). apply IHForall2; intros; apply G; now right.
    - clear - H2 F2. assert (G : forall q, In q (combine (skipn k ds) (skipn k zs)) -> in_dates (rows df) (fst q) = false).
      { intros [t z] Hq. rewrite Forall_forall in F2. apply F2. now apply in_combine_l in Hq. }
      clear F2. induction H2; constructor; try (rewrite G by (now left); assumption). apply IHForall2; intros; apply G; now right.
  Qed.
End Snaive.
