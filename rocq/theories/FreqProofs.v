(* Frequencies, x from dates, grids: lemmas for C22-C27, C57. *)
From Coq Require Import ZArith String List Bool Lia Sorted QArith_base.
From Verif Require Import Num Py Cal Model CalSweep CalProofs ListProofs Freq.
Import ListNotations.
Local Open Scope string_scope.
Local Open Scope list_scope.
Local Open Scope Z_scope.
Local Ltac dm := Z.div_mod_to_equations; lia.

(* ---- minima and maxima ---- *)
Lemma fold_min_spec l : forall a, (In (fold_left Z.min l a) (a :: l)) /\ (forall x, In x (a :: l) -> fold_left Z.min l a <= x).
Proof.
  induction l as [|b l IH]; intros a; cbn [fold_left].
  - split; [now left|]. intros x [->|[]]. lia.
  - destruct (IH (Z.min a b)) as [H1 H2]. split.
    + destruct H1 as [H1|H1]; [|right; now right]. rewrite <- H1.
      destruct (Z.min_spec a b) as [[_ ->]|[_ ->]]; [now left|right; now left].
    + intros x [->|[->|Hx]].
      * specialize (H2 _ (or_introl eq_refl)). lia.
      * specialize (H2 _ (or_introl eq_refl)). lia.
      * apply H2. now right.
Qed.
Lemma fold_max_spec l : forall a, (In (fold_left Z.max l a) (a :: l)) /\ (forall x, In x (a :: l) -> x <= fold_left Z.max l a).
Proof.
  induction l as [|b l IH]; intros a; cbn [fold_left].
  - split; [now left|]. intros x [->|[]]. lia.
  - destruct (IH (Z.max a b)) as [H1 H2]. split.
    + destruct H1 as [H1|H1]; [|right; now right]. rewrite <- H1.
      destruct (Z.max_spec a b) as [[_ ->]|[_ ->]]; [right; now left|now left].
    + intros x [->|[->|Hx]].
      * specialize (H2 _ (or_introl eq_refl)). lia.
      * specialize (H2 _ (or_introl eq_refl)). lia.
      * apply H2. now right.
Qed.
Lemma zmin_opt_iff l m : zmin_opt l = Some m <-> In m l /\ forall x, In x l -> m <= x.
Proof.
  destruct l as [|a l]; cbn [zmin_opt]; [split; [discriminate|intros [[] _]]|].
  destruct (fold_min_spec l a) as [H1 H2]. split.
  - intros [= <-]. split; assumption.
  - intros [H3 H4]. f_equal. specialize (H2 _ H3). specialize (H4 _ H1). lia.
Qed.
Lemma zmax_opt_iff l m : zmax_opt l = Some m <-> In m l /\ forall x, In x l -> x <= m.
Proof.
  destruct l as [|a l]; cbn [zmax_opt]; [split; [discriminate|intros [[] _]]|].
  destruct (fold_max_spec l a) as [H1 H2]. split.
  - intros [= <-]. split; assumption.
  - intros [H3 H4]. f_equal. specialize (H2 _ H3). specialize (H4 _ H1). lia.
Qed.

(* ---- gaps ---- *)
Definition min_gap (ds : list Z) (g : Z) : Prop :=
  (exists a b, In a ds /\ In b ds /\ a < b /\ b - a = g) /\
  (forall a b, In a ds -> In b ds -> a < b -> g <= b - a).
Lemma zdiff_in s : StronglySorted Z.lt s -> forall g, In g (zdiff s) ->
  exists a b, In a s /\ In b s /\ a < b /\ b - a = g.
Proof.
  induction 1 as [|a s HS IH F]; [intros g []|]. destruct s as [|b s]; [intros g []|]. intros g [<-|Hg].
  - exists a, b. inversion F; subst. cbn. split; [tauto|]. split; [tauto|]. split; [assumption|reflexivity].
  - destruct (IH g Hg) as (c & d & Hc & Hd & Hlt & E). exists c, d. cbn in *. tauto.
Qed.
Lemma zdiff_covers s : StronglySorted Z.lt s -> forall a b, In a s -> In b s -> a < b ->
  exists g, In g (zdiff s) /\ g <= b - a.
Proof.
  induction 1 as [|x s HS IH F]; [intros a b []|]. intros a b Ha Hb Hlt. rewrite Forall_forall in F.
  destruct s as [|y s].
  - destruct Ha as [->|[]], Hb as [->|[]]. lia.
  - destruct Ha as [->|Ha].
    + destruct Hb as [->|Hb]; [lia|]. exists (y - a). split; [now left|].
      destruct Hb as [->|Hb]; [lia|]. inversion HS as [|? ? _ Fy]; subst. rewrite Forall_forall in Fy.
      specialize (Fy b Hb). lia.
    + destruct Hb as [->|Hb]; [specialize (F a Ha); lia|].
      destruct (IH a b Ha Hb Hlt) as (g & Hg & Le). exists g. split; [now right|exact Le].
Qed.
Lemma zmin_zdiff ds g : zmin_opt (zdiff (sort_uniq ds)) = Some g <-> min_gap ds g.
Proof.
  pose proof (sort_uniq_lt ds) as S. rewrite zmin_opt_iff. unfold min_gap. split.
  - intros [Hg Hm]. split.
    + destruct (zdiff_in _ S g Hg) as (a & b & Ha & Hb & Q). exists a, b. rewrite sort_uniq_in in Ha, Hb. tauto.
    + intros a b Ha Hb Hlt. destruct (zdiff_covers _ S a b) as (g' & Hg' & Le); try (now apply sort_uniq_in); [exact Hlt|].
      specialize (Hm g' Hg'). lia.
  - intros [(a & b & Ha & Hb & Hlt & E) Hm].
    destruct (zdiff_covers _ S a b) as (g' & Hg' & Le); try (now apply sort_uniq_in); [exact Hlt|].
    assert (M : forall x, In x (zdiff (sort_uniq ds)) -> g <= x).
    { intros x Hx. destruct (zdiff_in _ S x Hx) as (c & d & Hc & Hd & Hlt' & <-).
      rewrite sort_uniq_in in Hc, Hd. now apply Hm. }
    split; [|exact M]. specialize (M g' Hg'). assert (g = g') by lia. now subst.
Qed.
Lemma zmin_zdiff_none ds : zmin_opt (zdiff (sort_uniq ds)) = None <-> forall a b, In a ds -> In b ds -> a = b.
Proof.
  pose proof (sort_uniq_lt ds) as S. split.
  - intros E a b Ha Hb. destruct (Z.lt_trichotomy a b) as [Hlt|[|Hlt]]; [|assumption|]; exfalso.
    + destruct (zdiff_covers _ S a b) as (g' & Hg' & _); try (now apply sort_uniq_in); [exact Hlt|].
      destruct (zdiff (sort_uniq ds)); [destruct Hg'|discriminate].
    + destruct (zdiff_covers _ S b a) as (g' & Hg' & _); try (now apply sort_uniq_in); [exact Hlt|].
      destruct (zdiff (sort_uniq ds)); [destruct Hg'|discriminate].
  - intros E. destruct (zmin_opt _) as [g|] eqn:Eg; [|reflexivity]. apply zmin_zdiff in Eg.
    destruct Eg as [(a & b & Ha & Hb & Hlt & _) _]. specialize (E a b Ha Hb). lia.
Qed.

(* ---- detect_freq ---- *)
Lemma detect_freq_set ds ds' : (forall t, In t ds <-> In t ds') -> detect_freq ds = detect_freq ds'.
Proof. intros E. unfold detect_freq. now rewrite (sort_uniq_set ds ds' E). Qed.
Lemma dom_ge1 t : 1 <= dom t.
Proof. unfold dom. destruct (civil_of_day (day_of t)) as [[_ V] _]. lia. Qed.
Lemma month_ge1 t : 1 <= month t.
Proof. unfold month. destruct (civil_of_day (day_of t)) as [[V _] _]. lia. Qed.
(* .max() == 1 on a column of numbers >= 1 *)
Lemma max_one (f : Z -> Z) s : (forall t, 1 <= f t) -> s <> [] ->
  (zmax_opt (map f s) = Some 1 <-> forall t, In t s -> f t = 1).
Proof.
  intros F Hs. rewrite zmax_opt_iff. split.
  - intros [_ M] t Ht. specialize (M _ (in_map f _ _ Ht)). specialize (F t). lia.
  - intros A. split.
    + destruct s as [|t s]; [contradiction|]. left. apply A. now left.
    + intros x Hx. apply in_map_iff in Hx as (t & <- & Ht). rewrite A by assumption. lia.
Qed.
Lemma match_one {A} (o : option Z) (a b : A) :
  match o with Some 1 => a | _ => b end = if match o with Some v => v =? 1 | None => false end then a else b.
Proof. destruct o as [[|p|p]|]; try reflexivity. destruct p; reflexivity. Qed.
Lemma max_one_dec (f : Z -> Z) s : (forall t, 1 <= f t) -> s <> [] ->
  match zmax_opt (map f s) with Some v => v =? 1 | None => false end = forallb (fun t => f t =? 1) s.
Proof.
  intros F Hs. apply eq_true_iff_eq. rewrite forallb_forall.
  destruct (zmax_opt (map f s)) as [v|] eqn:E.
  - rewrite Z.eqb_eq. split.
    + intros ->. intros t Ht. apply Z.eqb_eq. now apply (proj1 (max_one f s F Hs) E).
    + intros A. assert (E1 : zmax_opt (map f s) = Some 1).
      { apply (max_one f s F Hs). intros t Ht. apply Z.eqb_eq. now apply A. }
      congruence.
  - destruct s; [contradiction|discriminate].
Qed.

Section Table.
  Variables (ds : list Z) (g : Z).
  Hypothesis G : min_gap ds g.
  Let s_nonempty : sort_uniq ds <> [].
  Proof.
    destruct G as [(a & _ & Ha & _) _]. intros E. apply sort_uniq_in in Ha. rewrite E in Ha. destruct Ha.
  Qed.
  Lemma detect_table :
    detect_freq ds =
      if g =? HOUR then Some "H"
      else if g =? 7 * DAY then
        Some (match zmin_opt (sort_uniq ds) with Some t => wday_name (weekday t) | None => "W" end)
      else if (28 * DAY <=? g) && (g <=? 31 * DAY) then
        (if forallb (fun t => dom t =? 1) (sort_uniq ds) then Some "MS" else Some "M")
      else if (89 * DAY <=? g) && (g <=? 92 * DAY) then Some "Q"
      else if (365 * DAY <=? g) && (g <=? 366 * DAY) then
        (if forallb (fun t => dom t =? 1) (sort_uniq ds) && forallb (fun t => month t =? 1) (sort_uniq ds)
         then Some "YS" else Some "Y")
      else if 23 * HOUR <=? g then Some "D" else None.
  Proof.
    unfold detect_freq. rewrite (proj2 (zmin_zdiff ds g) G).
    destruct (g =? HOUR); [reflexivity|]. destruct (g =? 7 * DAY); [reflexivity|].
    destruct ((28 * DAY <=? g) && (g <=? 31 * DAY)).
    { rewrite match_one, (max_one_dec dom) by (exact dom_ge1 || exact s_nonempty). reflexivity. }
    destruct ((89 * DAY <=? g) && (g <=? 92 * DAY)); [reflexivity|].
    destruct ((365 * DAY <=? g) && (g <=? 366 * DAY)); [|reflexivity].
    rewrite <- (max_one_dec dom _ dom_ge1 s_nonempty), <- (max_one_dec month _ month_ge1 s_nonempty).
    rewrite match_one. destruct (zmax_opt (map dom _)) as [v|]; [|reflexivity].
    destruct (v =? 1); [|reflexivity]. cbn [andb]. now rewrite match_one.
  Qed.
  Let all_s (P : Z -> Z) : forallb (fun t => P t =? 1) (sort_uniq ds) = true <-> forall t, In t ds -> P t = 1.
  Proof.
    rewrite forallb_forall. split; intros A t Ht.
    - apply Z.eqb_eq, A. now apply sort_uniq_in.
    - apply Z.eqb_eq, A. exact (proj1 (sort_uniq_in _ _) Ht).
  Qed.
  Let all_no (P : Z -> Z) t : In t ds -> P t <> 1 -> forallb (fun t => P t =? 1) (sort_uniq ds) = false.
  Proof.
    intros Ht E. destruct (forallb _ _) eqn:F; [|reflexivity]. exfalso. apply E. now apply (proj1 (all_s P) F).
  Qed.
  Ltac bd := repeat match goal with
    | |- context [?a =? ?b] => destruct (Z.eqb_spec a b); try lia
    | |- context [?a <=? ?b] => destruct (Z.leb_spec a b); try lia
    end; cbn [andb].
  Lemma detect_hour : g = HOUR -> detect_freq ds = Some "H".
  Proof. intros E. rewrite detect_table, E. reflexivity. Qed.
  Lemma detect_week t0 : g = 7 * DAY -> In t0 ds -> (forall t, In t ds -> t0 <= t) ->
    detect_freq ds = Some (wday_name (weekday t0)).
  Proof.
    intros E Ht Hm. rewrite detect_table, E. change (7 * DAY =? HOUR) with false. cbv iota. rewrite Z.eqb_refl.
    assert (zmin_opt (sort_uniq ds) = Some t0) as ->; [|reflexivity]. apply zmin_opt_iff. split; [now apply sort_uniq_in|].
    intros x Hx. apply Hm. exact (proj1 (sort_uniq_in _ _) Hx).
  Qed.
  Lemma detect_month_start : 28 * DAY <= g <= 31 * DAY -> (forall t, In t ds -> dom t = 1) -> detect_freq ds = Some "MS".
  Proof.
    intros B A. rewrite detect_table. rewrite (proj2 (all_s dom) A). unfold DAY, HOUR in *. bd. reflexivity.
  Qed.
  Lemma detect_month t : 28 * DAY <= g <= 31 * DAY -> In t ds -> dom t <> 1 -> detect_freq ds = Some "M".
  Proof.
    intros B Ht E. rewrite detect_table. rewrite (all_no dom t Ht E). unfold DAY, HOUR in *. bd. reflexivity.
  Qed.
  Lemma detect_quarter : 89 * DAY <= g <= 92 * DAY -> detect_freq ds = Some "Q".
  Proof. intros B. rewrite detect_table. unfold DAY, HOUR in *. bd. reflexivity. Qed.
  Lemma detect_year_start : 365 * DAY <= g <= 366 * DAY -> (forall t, In t ds -> dom t = 1 /\ month t = 1) ->
    detect_freq ds = Some "YS".
  Proof.
    intros B A. rewrite detect_table. rewrite (proj2 (all_s dom)), (proj2 (all_s month)) by (intros; now apply A).
    unfold DAY, HOUR in *. bd. reflexivity.
  Qed.
  Lemma detect_year t : 365 * DAY <= g <= 366 * DAY -> In t ds -> dom t <> 1 \/ month t <> 1 -> detect_freq ds = Some "Y".
  Proof.
    intros B Ht E. rewrite detect_table.
    assert (forallb (fun t => dom t =? 1) (sort_uniq ds) && forallb (fun t => month t =? 1) (sort_uniq ds) = false) as ->.
    { apply andb_false_iff. destruct E as [E|E]; [left|right]; eapply all_no; eauto. }
    unfold DAY, HOUR in *. bd. reflexivity.
  Qed.
  Definition tabulated : Prop :=
    g = HOUR \/ g = 7 * DAY \/ 28 * DAY <= g <= 31 * DAY \/ 89 * DAY <= g <= 92 * DAY \/ 365 * DAY <= g <= 366 * DAY.
  Lemma detect_other : ~ tabulated -> detect_freq ds = if 23 * HOUR <=? g then Some "D" else None.
  Proof. intros B. rewrite detect_table. unfold tabulated, DAY, HOUR in *. bd; reflexivity. Qed.
End Table.
Lemma detect_none ds : (forall a b, In a ds -> In b ds -> a = b) -> detect_freq ds = None.
Proof. intros E. unfold detect_freq. now rewrite (proj2 (zmin_zdiff_none ds) E). Qed.
(* the table covers every column: either at most one distinct date or a smallest gap *)
Lemma gap_cases ds : (forall a b, In a ds -> In b ds -> a = b) \/ exists g, min_gap ds g.
Proof.
  destruct (zmin_opt (zdiff (sort_uniq ds))) as [g|] eqn:E.
  - right. exists g. now apply zmin_zdiff.
  - left. now apply zmin_zdiff_none.
Qed.

(* ---- months ---- *)
Lemma month_parts k : exists q r, k = 12 * q + r /\ 0 <= r < 12 /\ k / 12 = q /\ k mod 12 = r.
Proof. exists (k / 12), (k mod 12). split; [dm|]. split; [dm|]. tauto. Qed.
Definition dim (k : Z) : Z := days_in_month (k / 12) (k mod 12 + 1).
Lemma month_start_next k : month_start (k + 1) = month_start k + dim k.
Proof.
  destruct (month_parts k) as (q & r & -> & Hr & Eq & Er). unfold month_start, dim. rewrite Eq, Er.
  destruct (Z.eq_dec r 11) as [->|Hne].
  - replace ((12 * q + 11 + 1) / 12) with (q + 1) by dm. replace ((12 * q + 11 + 1) mod 12) with 0 by dm.
    change (0 + 1) with 1. change (11 + 1) with 12. rewrite next_year.
    change (days_in_month q 12) with 31. reflexivity.
  - replace ((12 * q + r + 1) / 12) with q by dm. replace ((12 * q + r + 1) mod 12) with (r + 1) by dm.
    apply next_month. lia.
Qed.
Lemma dim_bounds k : 28 <= dim k <= 31.
Proof.
  unfold dim, days_in_month. destruct (_ =? 2); [destruct (leap _); lia|]. destruct (_ || _); lia.
Qed.
Lemma month_start_civil k : civil_from_days (month_start k) = (k / 12, k mod 12 + 1, 1).
Proof.
  unfold month_start. apply date_roundtrip. split; [assert (0 <= k mod 12 < 12) by dm; lia|].
  pose proof (dim_bounds k) as B. unfold dim in B. lia.
Qed.
Lemma month_last_civil k : civil_from_days (month_last k) = (k / 12, k mod 12 + 1, dim k).
Proof.
  unfold month_last. rewrite month_start_next. unfold month_start.
  assert (E : days_from_civil (k / 12) (k mod 12 + 1) (dim k) = days_from_civil (k / 12) (k mod 12 + 1) 1 + dim k - 1).
  { rewrite (days_from_civil_day _ _ 1). lia. }
  rewrite <- E. apply date_roundtrip. split; [assert (0 <= k mod 12 < 12) by dm; lia|].
  pose proof (dim_bounds k) as B. unfold dim in *. lia.
Qed.
Lemma month_start_mono k l : k < l -> month_start k < month_start l.
Proof.
  intros H. replace l with (k + Z.of_nat (Z.to_nat (l - k))) by lia.
  assert (0 < Z.of_nat (Z.to_nat (l - k))) as P by lia. revert P. generalize (Z.to_nat (l - k)) as n.
  induction n as [|n IH]; [lia|]. intros _. destruct n as [|n].
  - rewrite month_start_next. pose proof (dim_bounds k). lia.
  - replace (k + Z.of_nat (S (S n))) with (k + Z.of_nat (S n) + 1) by lia. rewrite month_start_next.
    pose proof (dim_bounds (k + Z.of_nat (S n))). lia.
Qed.
Ltac months r Hr :=
  assert (r = 0 \/ r = 1 \/ r = 2 \/ r = 3 \/ r = 4 \/ r = 5 \/ r = 6 \/ r = 7 \/ r = 8 \/ r = 9 \/ r = 10 \/ r = 11) as Hr' by lia;
  clear Hr; repeat (destruct Hr' as [->|Hr']; [|]); try subst r.
Lemma dim_parts q r : 0 <= r < 12 -> dim (12 * q + r) = days_in_month q (r + 1).
Proof. intros Hr. unfold dim. replace ((12 * q + r) / 12) with q by dm. now replace ((12 * q + r) mod 12) with r by dm. Qed.
Lemma quarter_bounds k : 89 <= month_start (k + 3) - month_start k <= 92.
Proof.
  replace (k + 3) with (k + 1 + 1 + 1) by ring. rewrite !month_start_next.
  destruct (month_parts k) as (q & r & -> & Hr & _).
  assert (E : dim (12 * q + r) = days_in_month q (r + 1) /\
     dim (12 * q + r + 1) = (if r =? 11 then days_in_month (q + 1) 1 else days_in_month q (r + 2)) /\
     dim (12 * q + r + 1 + 1) = (if r =? 11 then days_in_month (q + 1) 2 else if r =? 10 then days_in_month (q + 1) 1 else days_in_month q (r + 3))).
  { split; [now apply dim_parts|]. split.
    - destruct (Z.eqb_spec r 11).
      + subst. replace (12 * q + 11 + 1) with (12 * (q + 1) + 0) by ring. now rewrite dim_parts by lia.
      + replace (12 * q + r + 1) with (12 * q + (r + 1)) by ring. rewrite dim_parts by lia. f_equal; lia.
    - destruct (Z.eqb_spec r 11); [|destruct (Z.eqb_spec r 10)].
      + subst. replace (12 * q + 11 + 1 + 1) with (12 * (q + 1) + 1) by ring. now rewrite dim_parts by lia.
      + subst. replace (12 * q + 10 + 1 + 1) with (12 * (q + 1) + 0) by ring. now rewrite dim_parts by lia.
      + replace (12 * q + r + 1 + 1) with (12 * q + (r + 2)) by ring. rewrite dim_parts by lia. f_equal; lia. }
  destruct E as (-> & -> & ->).
  assert (C : r = 0 \/ r = 1 \/ r = 2 \/ r = 3 \/ r = 4 \/ r = 5 \/ r = 6 \/ r = 7 \/ r = 8 \/ r = 9 \/ r = 10 \/ r = 11) by lia.
  repeat (destruct C as [->|C]; [cbn; destruct (leap q); try destruct (leap (q + 1)); lia|]). subst.
  cbn. destruct (leap (q + 1)); lia.
Qed.
Lemma year_length y : month_start (12 * (y + 1)) - month_start (12 * y) = if leap y then 366 else 365.
Proof.
  replace (12 * (y + 1)) with (12 * y + 11 + 1) by ring. rewrite month_start_next.
  replace (12 * y + 11) with (12 * y + 10 + 1) by ring. rewrite month_start_next.
  replace (12 * y + 10) with (12 * y + 9 + 1) by ring. rewrite month_start_next.
  replace (12 * y + 9) with (12 * y + 8 + 1) by ring. rewrite month_start_next.
  replace (12 * y + 8) with (12 * y + 7 + 1) by ring. rewrite month_start_next.
  replace (12 * y + 7) with (12 * y + 6 + 1) by ring. rewrite month_start_next.
  replace (12 * y + 6) with (12 * y + 5 + 1) by ring. rewrite month_start_next.
  replace (12 * y + 5) with (12 * y + 4 + 1) by ring. rewrite month_start_next.
  replace (12 * y + 4) with (12 * y + 3 + 1) by ring. rewrite month_start_next.
  replace (12 * y + 3) with (12 * y + 2 + 1) by ring. rewrite month_start_next.
  replace (12 * y + 2) with (12 * y + 1 + 1) by ring. rewrite month_start_next.
  replace (12 * y + 1) with (12 * y + 0 + 1) by ring. rewrite month_start_next.
  replace (12 * y + 0 + 1) with (12 * y + 1) by ring.
  replace (12 * y + 1 + 1) with (12 * y + 2) by ring. replace (12 * y + 2 + 1) with (12 * y + 3) by ring.
  replace (12 * y + 3 + 1) with (12 * y + 4) by ring. replace (12 * y + 4 + 1) with (12 * y + 5) by ring.
  replace (12 * y + 5 + 1) with (12 * y + 6) by ring. replace (12 * y + 6 + 1) with (12 * y + 7) by ring.
  replace (12 * y + 7 + 1) with (12 * y + 8) by ring. replace (12 * y + 8 + 1) with (12 * y + 9) by ring.
  replace (12 * y + 9 + 1) with (12 * y + 10) by ring. replace (12 * y + 10 + 1) with (12 * y + 11) by ring.
  rewrite !dim_parts by lia. replace (12 * y + 0) with (12 * y) by ring.
  cbn. destruct (leap y); lia.
Qed.

(* ---- regular series ---- *)
Definition series_of (f : Z -> Z) (n : nat) : list Z := map (fun i => f (Z.of_nat i)) (seq 0 n).
Lemma series_in f n t : In t (series_of f n) <-> exists i, 0 <= i < Z.of_nat n /\ t = f i.
Proof.
  unfold series_of. rewrite in_map_iff. split.
  - intros (i & <- & Hi). apply in_seq in Hi. exists (Z.of_nat i). split; [lia|reflexivity].
  - intros (i & Hi & ->). exists (Z.to_nat i). split; [now rewrite Z2Nat.id by lia|]. apply in_seq. lia.
Qed.
(* steps between lo and hi: so is the smallest gap *)
Lemma series_gap f n lo hi : (2 <= n)%nat -> 0 < lo ->
  (forall i, 0 <= i -> lo <= f (i + 1) - f i <= hi) -> exists g, min_gap (series_of f n) g /\ lo <= g <= hi.
Proof.
  intros Hn Hlo St.
  assert (Far : forall (n : nat) i, 0 <= i -> lo <= f (i + 1 + Z.of_nat n) - f i).
  { clear - St Hlo. induction n as [|n IH]; intros i Hi.
    - replace (i + 1 + Z.of_nat 0) with (i + 1) by lia. now apply St.
    - specialize (IH i Hi). specialize (St (i + 1 + Z.of_nat n) ltac:(lia)).
      replace (i + 1 + Z.of_nat (S n)) with (i + 1 + Z.of_nat n + 1) by lia. lia. }
  assert (Inc : forall i j, 0 <= i < j -> lo <= f j - f i).
  { intros i j Hij. replace j with (i + 1 + Z.of_nat (Z.to_nat (j - i - 1))) by lia. apply Far. lia. }
  destruct (gap_cases (series_of f n)) as [E|(g & G)].
  - exfalso. assert (f 0 = f 1); [|specialize (St 0 ltac:(lia)); change (0 + 1) with 1 in St; lia].
    apply E; apply series_in; [exists 0|exists 1]; split; auto; lia.
  - exists g. split; [exact G|]. destruct G as [(a & b & Ha & Hb & Hlt & <-) M].
    apply series_in in Ha as (i & Hi & ->). apply series_in in Hb as (j & Hj & ->). split.
    + destruct (Z.lt_trichotomy i j) as [|[->|]]; [apply Inc; lia|lia|]. specialize (Inc j i ltac:(lia)). lia.
    + transitivity (f 1 - f 0).
      * apply M; try (apply series_in; eexists; split; [|reflexivity]; lia).
        specialize (St 0 ltac:(lia)). change (0 + 1) with 1 in St. lia.
      * specialize (St 0 ltac:(lia)). change (0 + 1) with 1 in St. lia.
Qed.
Lemma regular_hour t0 n : (2 <= n)%nat -> detect_freq (series_of (fun i => t0 + i * HOUR) n) = Some "H".
Proof.
  intros Hn. destruct (series_gap (fun i => t0 + i * HOUR) n HOUR HOUR Hn) as (g & G & B); [reflexivity|intros; lia|].
  apply (detect_hour _ g G). lia.
Qed.
Lemma regular_day t0 n : (2 <= n)%nat -> detect_freq (series_of (fun i => t0 + i * DAY) n) = Some "D".
Proof.
  intros Hn. destruct (series_gap (fun i => t0 + i * DAY) n DAY DAY Hn) as (g & G & B); [reflexivity|intros; lia|].
  assert (g = DAY) as -> by lia. rewrite (detect_other _ _ G); [reflexivity|]. unfold tabulated, DAY, HOUR. lia.
Qed.
Lemma regular_week t0 n : (2 <= n)%nat ->
  detect_freq (series_of (fun i => t0 + i * (7 * DAY)) n) = Some (wday_name (weekday t0)).
Proof.
  intros Hn. destruct (series_gap (fun i => t0 + i * (7 * DAY)) n (7 * DAY) (7 * DAY) Hn) as (g & G & B); [reflexivity|intros; lia|].
  apply (detect_week _ g G); [lia| |].
  - apply series_in. exists 0. split; lia.
  - intros t Ht. apply series_in in Ht as (i & Hi & ->). unfold DAY, HOUR. lia.
Qed.
Lemma dom_day d : dom (d * DAY) = dom_of_day d.
Proof. unfold dom, day_of. now rewrite Z.div_mul by (unfold DAY, HOUR; lia). Qed.
Lemma month_day d : month (d * DAY) = month_of_day d.
Proof. unfold month, day_of. now rewrite Z.div_mul by (unfold DAY, HOUR; lia). Qed.
Lemma dom_start k : dom (month_start k * DAY) = 1.
Proof. rewrite dom_day. unfold dom_of_day. now rewrite month_start_civil. Qed.
Lemma dom_last k : dom (month_last k * DAY) = dim k.
Proof. rewrite dom_day. unfold dom_of_day. now rewrite month_last_civil. Qed.
Lemma regular_month_start k n : (2 <= n)%nat ->
  detect_freq (series_of (fun i => month_start (k + i) * DAY) n) = Some "MS".
Proof.
  intros Hn. destruct (series_gap (fun i => month_start (k + i) * DAY) n (28 * DAY) (31 * DAY) Hn) as (g & G & B); [reflexivity| |].
  - intros i Hi. replace (k + (i + 1)) with (k + i + 1) by ring. rewrite month_start_next.
    pose proof (dim_bounds (k + i)). unfold DAY, HOUR. lia.
  - apply (detect_month_start _ g G B). intros t Ht. apply series_in in Ht as (i & _ & ->). apply dom_start.
Qed.
Lemma regular_month_end k n : (2 <= n)%nat ->
  detect_freq (series_of (fun i => month_last (k + i) * DAY) n) = Some "M".
Proof.
  intros Hn. destruct (series_gap (fun i => month_last (k + i) * DAY) n (28 * DAY) (31 * DAY) Hn) as (g & G & B); [reflexivity| |].
  - intros i Hi. unfold month_last. replace (k + (i + 1)) with (k + i + 1) by ring. rewrite (month_start_next (k + i + 1)).
    pose proof (dim_bounds (k + i + 1)). unfold DAY, HOUR. lia.
  - apply (detect_month _ g G (month_last (k + 0) * DAY) B).
    + apply series_in. exists 0. split; [lia|reflexivity].
    + rewrite dom_last. pose proof (dim_bounds (k + 0)). lia.
Qed.
Lemma regular_quarter_start k n : (2 <= n)%nat ->
  detect_freq (series_of (fun i => month_start (k + 3 * i) * DAY) n) = Some "Q".
Proof.
  intros Hn. destruct (series_gap (fun i => month_start (k + 3 * i) * DAY) n (89 * DAY) (92 * DAY) Hn) as (g & G & B); [reflexivity| |].
  - intros i Hi. replace (k + 3 * (i + 1)) with (k + 3 * i + 3) by ring.
    pose proof (quarter_bounds (k + 3 * i)). unfold DAY, HOUR. lia.
  - apply (detect_quarter _ g G B).
Qed.
Lemma regular_quarter_end k n : (2 <= n)%nat ->
  detect_freq (series_of (fun i => month_last (k + 3 * i) * DAY) n) = Some "Q".
Proof.
  intros Hn. destruct (series_gap (fun i => month_last (k + 3 * i) * DAY) n (89 * DAY) (92 * DAY) Hn) as (g & G & B); [reflexivity| |].
  - intros i Hi. unfold month_last. replace (k + 3 * (i + 1) + 1) with (k + 3 * i + 1 + 3) by ring.
    pose proof (quarter_bounds (k + 3 * i + 1)). unfold DAY, HOUR. lia.
  - apply (detect_quarter _ g G B).
Qed.
Lemma regular_year_start y n : (2 <= n)%nat ->
  detect_freq (series_of (fun i => ts (y + i) 1 1) n) = Some "YS".
Proof.
  intros Hn.
  assert (E : forall i, ts (y + i) 1 1 = month_start (12 * (y + i)) * DAY).
  { intros i. unfold ts, month_start. replace (12 * (y + i) / 12) with (y + i) by dm.
    now replace (12 * (y + i) mod 12) with 0 by dm. }
  destruct (series_gap (fun i => ts (y + i) 1 1) n (365 * DAY) (366 * DAY) Hn) as (g & G & B); [reflexivity| |].
  - intros i Hi. rewrite !E. replace (y + (i + 1)) with (y + i + 1) by ring.
    pose proof (year_length (y + i)) as L. destruct (leap (y + i)); unfold DAY, HOUR; lia.
  - apply (detect_year_start _ g G B). intros t Ht. apply series_in in Ht as (i & _ & ->). rewrite E.
    split; [apply dom_start|]. rewrite month_day. unfold month_of_day. rewrite month_start_civil.
    replace (12 * (y + i) mod 12) with 0 by dm. reflexivity.
Qed.
Lemma regular_year_end y n : (2 <= n)%nat ->
  detect_freq (series_of (fun i => ts (y + i) 12 31) n) = Some "Y".
Proof.
  intros Hn.
  assert (E : forall i, ts (y + i) 12 31 = month_last (12 * (y + i) + 11) * DAY).
  { intros i. unfold ts. f_equal. unfold month_last. rewrite month_start_next, dim_parts by lia.
    unfold month_start. replace ((12 * (y + i) + 11) / 12) with (y + i) by dm.
    replace ((12 * (y + i) + 11) mod 12) with 11 by dm. rewrite (days_from_civil_day _ _ 1 31).
    change (11 + 1) with 12. change (days_in_month (y + i) 12) with 31. lia. }
  destruct (series_gap (fun i => ts (y + i) 12 31) n (365 * DAY) (366 * DAY) Hn) as (g & G & B); [reflexivity| |].
  - intros i Hi. rewrite !E. unfold month_last. replace (12 * (y + (i + 1)) + 11 + 1) with (12 * (y + i + 1 + 1)) by ring.
    replace (12 * (y + i) + 11 + 1) with (12 * (y + i + 1)) by ring.
    pose proof (year_length (y + i + 1)) as L. destruct (leap (y + i + 1)); unfold DAY, HOUR; lia.
  - apply (detect_year _ g G (ts (y + 0) 12 31) B); [apply series_in; exists 0; split; [lia|reflexivity]|]. left.
    rewrite E, dom_last, dim_parts by lia. change (days_in_month (y + 0) (11 + 1)) with 31. lia.
Qed.
