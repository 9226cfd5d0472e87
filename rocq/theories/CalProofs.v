(* The calendar functions are the Gregorian calendar: round trip in both directions, and
   successor days, for every year. *)
From Coq Require Import ZArith List Bool Lia.
From Verif Require Import Cal CalSweep.
Import ListNotations.
Open Scope Z_scope.
Ltac dm := Z.div_mod_to_equations; lia.

(* ---- periodicity ---- *)
Lemma days_from_civil_era y m d k :
  days_from_civil (y + 400 * k) m d = days_from_civil y m d + 146097 * k.
Proof.
  unfold days_from_civil.
  set (y' := if m <=? 2 then y - 1 else y).
  replace (if m <=? 2 then y + 400 * k - 1 else y + 400 * k) with (y' + k * 400)
    by (subst y'; destruct (m <=? 2); lia).
  rewrite Z.div_add by lia.
  replace (y' + k * 400 - (y' / 400 + k) * 400) with (y' - y' / 400 * 400) by ring.
  ring.
Qed.

Lemma civil_from_days_era n k :
  civil_from_days (n + 146097 * k) =
  let '(y, m, d) := civil_from_days n in (y + 400 * k, m, d).
Proof.
  unfold civil_from_days.
  replace (n + 146097 * k + 719468) with (n + 719468 + k * 146097) by lia.
  rewrite Z.div_add by lia.
  set (z := n + 719468).
  replace (z + k * 146097 - (z / 146097 + k) * 146097) with (z - z / 146097 * 146097) by ring.
  set (doe := z - z / 146097 * 146097).
  set (yoe := (doe - doe / 1460 + doe / 36524 - doe / 146096) / 365).
  set (mp := (5 * (doe - (365 * yoe + yoe / 4 - yoe / 100)) + 2) / 153).
  set (m := if mp <? 10 then mp + 3 else mp - 9).
  cbv beta iota zeta.
  replace ((if m <=? 2 then yoe + (z / 146097 + k) * 400 + 1 else yoe + (z / 146097 + k) * 400))
    with ((if m <=? 2 then yoe + z / 146097 * 400 + 1 else yoe + z / 146097 * 400) + 400 * k)
    by (destruct (m <=? 2); ring).
  reflexivity.
Qed.

Lemma leap_era y k : leap (y + 400 * k) = leap y.
Proof.
  unfold leap.
  replace ((y + 400 * k) mod 4) with (y mod 4) by dm.
  replace ((y + 400 * k) mod 100) with (y mod 100) by dm.
  replace ((y + 400 * k) mod 400) with (y mod 400) by dm.
  reflexivity.
Qed.
Lemma days_in_month_era y m k : days_in_month (y + 400 * k) m = days_in_month y m.
Proof. unfold days_in_month. now rewrite leap_era. Qed.

(* ---- main facts ---- *)
Lemma ynum_mono a b : 0 <= a -> a <= b -> b <= 146096 -> ynum a <= ynum b.
Proof.
  unfold ynum. intros Ha Hab Hb.
  assert (E : b / 146096 = (if b =? 146096 then 1 else 0)).
  { destruct (Z.eqb_spec b 146096) as [->|]; [reflexivity|]. apply Z.div_small. lia. }
  assert (E' : a / 146096 = (if a =? 146096 then 1 else 0)).
  { destruct (Z.eqb_spec a 146096) as [->|]; [reflexivity|]. apply Z.div_small. lia. }
  rewrite E, E'. destruct (Z.eqb_spec b 146096), (Z.eqb_spec a 146096); try lia; subst; dm.
Qed.

Lemma year_facts yoe : 0 <= yoe < 400 ->
  0 <= ystart yoe /\ ystart yoe + ylen yoe - 1 <= 146096 /\
  (forall doy, 0 <= doy < ylen yoe -> ynum (ystart yoe + doy) / 365 = yoe) /\
  (yoe = 399 \/ ystart (yoe + 1) = ystart yoe + ylen yoe).
Proof.
  intros Hy. pose proof (upto_forallb _ _ sweep_years yoe ltac:(lia)) as S.
  unfold check_year in S. rewrite !andb_true_iff, orb_true_iff, !Z.eqb_eq, !Z.leb_le in S.
  destruct S as [[[[S1 S2] S3] S4] S5]. repeat split; auto.
  intros doy Hd.
  pose proof (ynum_mono (ystart yoe) (ystart yoe + doy) ltac:(lia) ltac:(lia) ltac:(lia)) as M1.
  pose proof (ynum_mono (ystart yoe + doy) (ystart yoe + ylen yoe - 1) ltac:(lia) ltac:(lia) ltac:(lia)) as M2.
  pose proof (Z.div_le_mono _ _ 365 ltac:(lia) M1). pose proof (Z.div_le_mono _ _ 365 ltac:(lia) M2).
  lia.
Qed.

Lemma ylen_bounds yoe : 365 <= ylen yoe <= 366.
Proof. unfold ylen. destruct (leap (yoe + 1)); lia. Qed.

(* every day of an era falls in one of its years *)
Lemma find_year doe : 0 <= doe < 146097 ->
  exists yoe doy, 0 <= yoe < 400 /\ 0 <= doy < ylen yoe /\ doe = ystart yoe + doy.
Proof.
  intros Hd.
  assert (G : forall k, (k <= 400)%nat -> doe < (if Z.of_nat k =? 400 then 146097 else ystart (Z.of_nat k)) ->
    exists yoe doy, 0 <= yoe < 400 /\ 0 <= doy < ylen yoe /\ doe = ystart yoe + doy).
  { induction k as [|k IH]; intros Hk Hlt.
    - cbn in Hlt. unfold ystart in Hlt. cbn in Hlt. lia.
    - destruct (year_facts (Z.of_nat k) ltac:(lia)) as (F1 & F2 & _ & F4).
      destruct (Z_lt_le_dec doe (ystart (Z.of_nat k))) as [L|L].
      + apply IH; [lia|]. destruct (Z.eqb_spec (Z.of_nat k) 400); lia.
      + exists (Z.of_nat k), (doe - ystart (Z.of_nat k)).
        repeat split; try lia.
        destruct (Z.eqb_spec (Z.of_nat (S k)) 400) as [E|E].
        * assert (E9 : Z.of_nat k = 399) by lia. rewrite E9 in *.
          change (ystart 399) with 145731 in *. change (ylen 399) with 366. lia.
        * replace (Z.of_nat (S k)) with (Z.of_nat k + 1) in Hlt by lia. lia. }
  apply (G 400%nat); [lia|]. change (Z.of_nat 400 =? 400) with true. cbv iota. lia.
Qed.

Lemma civil_of_parts era yoe doy : 0 <= yoe < 400 -> 0 <= doy < ylen yoe ->
  civil_from_days (era * 146097 + ystart yoe + doy - 719468) =
  (let mp := (5 * doy + 2) / 153 in
   ((if m_of mp <=? 2 then yoe + era * 400 + 1 else yoe + era * 400), m_of mp, doy - mdoy mp + 1)).
Proof.
  intros Hy Hd. destruct (year_facts yoe Hy) as (F1 & F2 & F3 & _).
  unfold civil_from_days.
  replace (era * 146097 + ystart yoe + doy - 719468 + 719468)
    with (ystart yoe + doy + era * 146097) by ring.
  rewrite Z.div_add by lia. rewrite (Z.div_small (ystart yoe + doy) 146097) by lia.
  replace (ystart yoe + doy + era * 146097 - (0 + era) * 146097) with (ystart yoe + doy) by ring.
  fold (ynum (ystart yoe + doy)). rewrite F3 by assumption. cbv zeta.
  replace (ystart yoe + doy - (365 * yoe + yoe / 4 - yoe / 100)) with doy
    by (unfold ystart; ring).
  reflexivity.
Qed.

Lemma days_of_parts era yoe m d : 0 <= yoe < 400 ->
  days_from_civil (if m <=? 2 then yoe + era * 400 + 1 else yoe + era * 400) m d
  = era * 146097 + ystart yoe + (mdoy (mp_of m) + d - 1) - 719468.
Proof.
  intros Hy. unfold days_from_civil.
  replace (if m <=? 2 then (if m <=? 2 then yoe + era * 400 + 1 else yoe + era * 400) - 1
           else (if m <=? 2 then yoe + era * 400 + 1 else yoe + era * 400))
    with (yoe + era * 400) by (destruct (m <=? 2); ring).
  rewrite Z.div_add, (Z.div_small yoe) by lia.
  replace (yoe + era * 400 - (0 + era) * 400) with yoe by ring.
  unfold ystart, mdoy, mp_of. ring.
Qed.

Lemma leap_year_parts era yoe : leap (yoe + era * 400 + 1) = leap (yoe + 1).
Proof. replace (yoe + era * 400 + 1) with (yoe + 1 + 400 * era) by ring. apply leap_era. Qed.

Lemma civil_valid_roundtrip n :
  let '(y, m, d) := civil_from_days n in valid_date y m d /\ days_from_civil y m d = n.
Proof.
  assert (exists era doe, 0 <= doe < 146097 /\ n = era * 146097 + doe - 719468)
    as (era & doe & Hdoe & En).
  { exists ((n + 719468) / 146097), ((n + 719468) mod 146097). split; dm. }
  destruct (find_year doe Hdoe) as (yoe & doy & Hy & Hd & Ed).
  replace n with (era * 146097 + ystart yoe + doy - 719468) by lia.
  rewrite civil_of_parts by assumption. cbv zeta.
  pose proof (ylen_bounds yoe) as Ly.
  pose proof (upto_forallb _ _ sweep_doy doy ltac:(lia)) as S. unfold check_doy in S.
  cbv zeta in S. set (mp := (5 * doy + 2) / 153) in *.
  rewrite !andb_true_iff, !Z.leb_le in S. destruct S as [[[[S1 S2] S3] S4] S5].
  assert (Hm : 1 <= m_of mp <= 12 /\ mp_of (m_of mp) = mp).
  { unfold m_of, mp_of. destruct (Z.ltb_spec mp 10).
    - destruct (Z.ltb_spec 2 (mp + 3)); lia.
    - destruct (Z.ltb_spec 2 (mp - 9)); lia. }
  split.
  - split; [tauto|]. split; [lia|].
    unfold dim_max in S4. unfold days_in_month. destruct (Z.eqb_spec (m_of mp) 2) as [E2|E2]; [|lia].
    rewrite E2. change (2 <=? 2) with true. cbv iota. rewrite leap_year_parts.
    destruct (leap (yoe + 1)) eqn:Lp; [lia|].
    destruct (Z.eqb_spec (doy - mdoy mp + 1) 29) as [E29|E29]; [|lia].
    cbn [andb] in S5. rewrite Z.eqb_eq in S5. unfold ylen in Hd. rewrite Lp in Hd. lia.
  - rewrite days_of_parts by assumption. rewrite (proj2 Hm). ring.
Qed.

Lemma date_roundtrip y m d :
  valid_date y m d -> civil_from_days (days_from_civil y m d) = (y, m, d).
Proof.
  intros [Vm Vd].
  set (Y := if m <=? 2 then y - 1 else y).
  assert (exists era yoe, 0 <= yoe < 400 /\ Y = yoe + era * 400) as (era & yoe & Hy & EY).
  { exists (Y / 400), (Y mod 400). clearbody Y. split; dm. }
  assert (Ey : y = if m <=? 2 then yoe + era * 400 + 1 else yoe + era * 400).
  { subst Y. destruct (m <=? 2); lia. }
  assert (Hdim : days_in_month y m <= dim_max m).
  { unfold days_in_month, dim_max. destruct (m =? 2), (leap y); lia. }
  assert (Hmax : dim_max m <= 31).
  { unfold dim_max. destruct (m =? 2), ((m =? 4) || (m =? 6) || (m =? 9) || (m =? 11)); lia. }
  pose proof (upto_forallb _ _ sweep_md m ltac:(lia)) as S1. cbv beta in S1.
  pose proof (upto_forallb _ _ S1 d ltac:(lia)) as S. clear S1. unfold check_md in S.
  rewrite (proj2 (Z.ltb_ge m 1)), (proj2 (Z.ltb_ge d 1)), (proj2 (Z.ltb_ge (dim_max m) d)) in S by lia.
  cbn [orb] in S. rewrite !andb_true_iff, !Z.eqb_eq, !Z.leb_le in S.
  destruct S as [[[S1 S2] S3] S4].
  rewrite Ey at 1. rewrite days_of_parts by assumption.
  rewrite civil_of_parts; [|assumption|].
  - cbv zeta. rewrite S2, S1, <- Ey.
    replace (mdoy (mp_of m) + d - 1 - mdoy (mp_of m) + 1) with d by ring. reflexivity.
  - split; [lia|]. unfold ylen.
    destruct (Z.eqb_spec m 2) as [E2|E2].
    + subst m. change (2 <=? 2) with true in Ey. cbv iota in Ey.
      rewrite <- (leap_year_parts era yoe), <- Ey.
      unfold days_in_month in Vd. change (2 =? 2) with true in Vd. cbv iota in Vd.
      destruct (Z.eqb_spec d 29); cbn [andb] in S4; destruct (leap y); lia.
    + cbn [andb] in S4. destruct (leap (yoe + 1)); lia.
Qed.

Lemma year_of_date y m d : valid_date y m d -> year_of_day (days_from_civil y m d) = y.
Proof. intros V. unfold year_of_day. now rewrite date_roundtrip. Qed.
Lemma month_of_date y m d : valid_date y m d -> month_of_day (days_from_civil y m d) = m.
Proof. intros V. unfold month_of_day. now rewrite date_roundtrip. Qed.
Lemma dom_of_date y m d : valid_date y m d -> dom_of_day (days_from_civil y m d) = d.
Proof. intros V. unfold dom_of_day. now rewrite date_roundtrip. Qed.

Lemma civil_of_day n :
  valid_date (year_of_day n) (month_of_day n) (dom_of_day n) /\
  days_from_civil (year_of_day n) (month_of_day n) (dom_of_day n) = n.
Proof.
  pose proof (civil_valid_roundtrip n) as Hn. unfold year_of_day, month_of_day, dom_of_day.
  destruct (civil_from_days n) as [[y m] d]. exact Hn.
Qed.

(* day numbers within a month, month starts, year starts *)
Lemma days_from_civil_day y m d e : days_from_civil y m e = days_from_civil y m d + (e - d).
Proof. unfold days_from_civil. ring. Qed.

Definition yday (Y : Z) : Z :=
  Y / 400 * 146097 + ((Y - Y / 400 * 400) * 365 + (Y - Y / 400 * 400) / 4 - (Y - Y / 400 * 400) / 100)
  - 719468.
Lemma days_from_civil_yday y m d :
  days_from_civil y m d = yday (if m <=? 2 then y - 1 else y) + (mdoy (mp_of m) + d - 1).
Proof. unfold days_from_civil, yday, mdoy, mp_of. destruct (m <=? 2); ring. Qed.

Lemma next_month y m : 1 <= m < 12 ->
  days_from_civil y (m + 1) 1 = days_from_civil y m 1 + days_in_month y m.
Proof.
  intros Hm.
  assert (C : m = 1 \/ m = 2 \/ m = 3 \/ m = 4 \/ m = 5 \/ m = 6 \/ m = 7 \/ m = 8 \/ m = 9 \/
              m = 10 \/ m = 11) by lia.
  assert (M2 : days_from_civil y 3 1 = days_from_civil y 2 1 + (if leap y then 29 else 28)).
  { pose proof (upto_forallb _ _ sweep_march (y mod 400) ltac:(dm)) as S. unfold check_march in S.
    rewrite Z.eqb_eq in S.
    assert (Ey : y = y mod 400 + 400 * (y / 400)) by (clear; dm).
    rewrite Ey, !days_from_civil_era, leap_era. lia. }
  destruct C as [->|[->|C]]; [|exact M2|].
  - rewrite !days_from_civil_yday. change (mdoy (mp_of (1 + 1))) with 337.
    change (mdoy (mp_of 1)) with 306. change (days_in_month y 1) with 31. cbn [Z.leb Z.compare Pos.compare Pos.compare_cont].
    change (1 + 1 <=? 2) with true. change (1 <=? 2) with true. cbv iota. ring.
  - destruct C as [->|[->|[->|[->|[->|[->|[->|[->| ->]]]]]]]]; rewrite !days_from_civil_yday;
      repeat match goal with
      | |- context [mdoy (mp_of ?a)] =>
        let v := eval compute in (mdoy (mp_of a)) in change (mdoy (mp_of a)) with v
      | |- context [days_in_month y ?a] =>
        let v := eval compute in (days_in_month y a) in change (days_in_month y a) with v
      | |- context [?a <=? 2] => change (a <=? 2) with false
      end; cbv iota; ring.
Qed.

Lemma next_year y : days_from_civil (y + 1) 1 1 = days_from_civil y 12 1 + 31.
Proof.
  rewrite !days_from_civil_yday. change (mdoy (mp_of 1)) with 306. change (mdoy (mp_of 12)) with 275.
  change (1 <=? 2) with true. change (12 <=? 2) with false. cbv iota.
  replace (y + 1 - 1) with y by ring. ring.
Qed.

(* the day after a date, by the rules of the calendar *)
Definition next_date (y m d : Z) : Z * Z * Z :=
  if d <? days_in_month y m then (y, m, d + 1)
  else if m <? 12 then (y, m + 1, 1) else (y + 1, 1, 1).

Lemma next_date_day y m d : valid_date y m d ->
  let '(y', m', d') := next_date y m d in
  days_from_civil y' m' d' = days_from_civil y m d + 1.
Proof.
  intros [Vm Vd]. unfold next_date.
  destruct (Z.ltb_spec d (days_in_month y m)).
  - rewrite (days_from_civil_day y m d). lia.
  - assert (d = days_in_month y m) by lia.
    destruct (Z.ltb_spec m 12).
    + rewrite next_month by lia. rewrite (days_from_civil_day y m 1 d). lia.
    + assert (m = 12) by lia. subst m. rewrite next_year.
      rewrite (days_from_civil_day y 12 1 d).
      change (days_in_month y 12) with 31 in *. lia.
Qed.

Lemma epoch : days_from_civil 1970 1 1 = 0 /\ weekday_of_day 0 = 3.
Proof. vm_compute. auto. Qed.

(* timestamps *)
Lemma day_of_ts y m d : day_of (ts y m d) = days_from_civil y m d.
Proof. unfold day_of, ts. apply Z.div_mul. discriminate. Qed.
Lemma midnight_day t : midnight t = true -> t = day_of t * DAY.
Proof.
  unfold midnight, day_of. rewrite Z.eqb_eq. intros E.
  pose proof (Z.div_mod t DAY ltac:(discriminate)). lia.
Qed.
Lemma DAY_pos : 0 < DAY. Proof. reflexivity. Qed.
