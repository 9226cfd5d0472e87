(* x from dates and forecast grids: lemmas for C24-C27, C57. *)
From Coq Require Import ZArith String Ascii List Bool Lia Sorted QArith_base.
From Verif Require Import Num Py Cal Model CalSweep CalProofs ListProofs NaiveProofs SnaiveProofs Freq FreqProofs.
Import ListNotations.
Local Open Scope string_scope.
Local Open Scope list_scope.
Local Open Scope Z_scope.
Local Ltac dm := Z.div_mod_to_equations; lia.

(* ---- x from dates ---- *)
Lemma DAYp : 0 < DAY. Proof. reflexivity. Qed.
Lemma x_of_date t0 t : (t - x_origin t0) / DAY = weekday t0 + (t - t0) / DAY.
Proof.
  unfold x_origin. replace (t - (t0 - weekday t0 * DAY)) with ((t - t0) + weekday t0 * DAY) by ring.
  rewrite Z.div_add by (pose proof DAYp; lia). ring.
Qed.
Lemma normalized_x t0 ds : get_normalized_x_from_date (t0 :: ds) =
  Ok (map (fun t => weekday t0 + (t - t0) / DAY) (t0 :: ds)).
Proof. unfold get_normalized_x_from_date. f_equal. apply map_ext. intros t. apply x_of_date. Qed.
Lemma day_diff t t0 : midnight t0 = true -> (t - t0) / DAY = day_of t - day_of t0.
Proof.
  intros M. apply midnight_day in M. unfold day_of in *. set (d0 := t0 / DAY) in *.
  replace (t - t0) with (t + (- d0) * DAY) by (rewrite M; ring).
  rewrite Z.div_add by (pose proof DAYp; lia). ring.
Qed.
Lemma weekday_shift t0 t : weekday t = (weekday t0 + (day_of t - day_of t0)) mod 7.
Proof. unfold weekday, weekday_of_day. dm. Qed.
Lemma normalized_x_ok t0 ds : midnight t0 = true ->
  exists xs, get_normalized_x_from_date (t0 :: ds) = Ok xs /\ hd_error xs = Some (weekday t0) /\
    Forall2 (fun t x => x = weekday t0 + (day_of t - day_of t0) /\ x mod 7 = weekday t) (t0 :: ds) xs.
Proof.
  intros M. rewrite normalized_x. eexists. split; [reflexivity|].
  assert (E : forall t, weekday t0 + (t - t0) / DAY = weekday t0 + (day_of t - day_of t0)) by (intros; now rewrite day_diff).
  split.
  - cbn [map hd_error]. rewrite E, Z.sub_diag, Z.add_0_r. reflexivity.
  - generalize (t0 :: ds) as l. induction l as [|t l IH]; cbn [map]; constructor; auto.
    rewrite E. split; [reflexivity|]. symmetry. apply weekday_shift.
Qed.
(* rows dated before the Monday of the first row's week get negative x *)
Lemma normalized_x_negative t0 ds t x : midnight t0 = true ->
  In (t, x) (combine (t0 :: ds) (map (fun t => weekday t0 + (t - t0) / DAY) (t0 :: ds))) ->
  (x < 0 <-> day_of t < day_of t0 - weekday t0).
Proof.
  intros M Hi. assert (x = weekday t0 + (t - t0) / DAY) as ->.
  { revert Hi. generalize (t0 :: ds) as l. induction l as [|u l IH]; [intros []|]. intros [[= <- <-]|Hi]; auto. }
  rewrite day_diff by assumption. lia.
Qed.

(* ---- fixed step grids ---- *)
Lemma fixed_range_in start step stop t : 0 < step ->
  (In t (fixed_range start step stop) <-> exists k, 0 <= k /\ t = start + k * step /\ t <= stop).
Proof.
  intros Hs. unfold fixed_range. destruct (Z.ltb_spec stop start) as [Hlt|Hge].
  - split; [intros []|]. intros (k & Hk & -> & Hle). assert (0 <= k * step) by (apply Z.mul_nonneg_nonneg; lia). lia.
  - rewrite in_map_iff. split.
    + intros (i & <- & Hi). apply in_seq in Hi. exists (Z.of_nat i). split; [lia|]. split; [reflexivity|].
      assert (0 <= (stop - start) / step) by (apply Z.div_pos; lia).
      assert (Z.of_nat i <= (stop - start) / step) by lia.
      assert ((stop - start) / step * step <= stop - start) by (rewrite Z.mul_comm; apply Z.mul_div_le; lia).
      assert (Z.of_nat i * step <= (stop - start) / step * step) by (apply Z.mul_le_mono_nonneg_r; lia). lia.
    + intros (k & Hk & -> & Hle). exists (Z.to_nat k). rewrite Z2Nat.id by lia. split; [reflexivity|].
      apply in_seq. assert (k <= (stop - start) / step) by (apply Z.div_le_lower_bound; lia). lia.
Qed.
Lemma map_seq_sorted f n : (forall i j, (i < j)%nat -> f i < f j) -> forall s, StronglySorted Z.lt (map f (seq s n)).
Proof.
  intros M. induction n as [|n IH]; intros s; cbn; constructor; auto. rewrite Forall_forall. intros x Hx.
  apply in_map_iff in Hx as (j & <- & Hj). apply in_seq in Hj. apply M. lia.
Qed.
Lemma fixed_range_sorted start step stop : 0 < step -> StronglySorted Z.lt (fixed_range start step stop).
Proof.
  intros Hs. unfold fixed_range. destruct (stop <? start); [constructor|]. apply map_seq_sorted. intros i j Hij. nia.
Qed.
Lemma fixed_range_nth start step stop i : start <= stop -> (Z.of_nat i <= (stop - start) / step) ->
  nth_error (fixed_range start step stop) i = Some (start + Z.of_nat i * step).
Proof.
  intros Hle Hi. unfold fixed_range. destruct (Z.ltb_spec stop start); [lia|]. rewrite nth_error_map.
  assert (E : nth_error (seq 0 (Z.to_nat ((stop - start) / step) + 1)) i = Some i).
  { rewrite (nth_error_nth' _ 0%nat) by (rewrite seq_length; lia). rewrite seq_nth by lia. reflexivity. }
  now rewrite E.
Qed.

(* ---- month grids ---- *)
Lemma month_index_bounds d : month_start (month_index d) <= d <= month_last (month_index d).
Proof.
  destruct (civil_of_day d) as [[Vm Vd] E]. unfold month_last. rewrite month_start_next.
  assert (Ed : month_index d = 12 * year_of_day d + (month_of_day d - 1)) by reflexivity.
  set (y := year_of_day d) in *. set (m := month_of_day d) in *. rewrite Ed, dim_parts by lia.
  unfold month_start. replace ((12 * y + (m - 1)) / 12) with y by dm.
  replace ((12 * y + (m - 1)) mod 12) with (m - 1) by dm. replace (m - 1 + 1) with m by ring.
  rewrite (days_from_civil_day y m 1) in E. lia.
Qed.
Lemma apart a b c d e : a <= d <= b - 1 -> b <= c -> c <= d <= e -> False.
Proof. lia. Qed.
Lemma month_start_le k l : k <= l -> month_start k <= month_start l.
Proof.
  intros L. destruct (Z.eq_dec k l) as [->|N]; [apply Z.le_refl|]. apply Z.lt_le_incl, month_start_mono. clear - L N. lia.
Qed.
Lemma month_last_eq k : month_last k = month_start (k + 1) - 1.
Proof. unfold month_last. reflexivity. Qed.
Lemma succ_le a b : a < b -> a + 1 <= b.
Proof. lia. Qed.
Lemma before_next a d d' b : d' <= a - 1 -> a <= b -> b <= d -> d <= d' -> False.
Proof. lia. Qed.
Lemma month_index_unique k d : month_start k <= d <= month_last k -> month_index d = k.
Proof.
  intros B. pose proof (month_index_bounds d) as B'. rewrite month_last_eq in B, B'.
  destruct (Z.lt_trichotomy (month_index d) k) as [H|[H|H]]; [|exact H|]; exfalso.
  - exact (apart _ _ _ _ _ B' (month_start_le _ _ (succ_le _ _ H)) B).
  - exact (apart _ _ _ _ _ B (month_start_le _ _ (succ_le _ _ H)) B').
Qed.
Lemma month_index_mono d d' : d <= d' -> month_index d <= month_index d'.
Proof.
  intros H. pose proof (month_index_bounds d) as [B _]. pose proof (month_index_bounds d') as [_ B']. rewrite month_last_eq in B'.
  destruct (Z.le_gt_cases (month_index d) (month_index d')) as [G|G]; [exact G|exfalso].
  exact (before_next _ _ _ _ B' (month_start_le _ _ (succ_le _ _ G)) B H).
Qed.
Lemma zrange_in a b k : In k (zrange a b) <-> a <= k <= b.
Proof.
  unfold zrange. rewrite in_map_iff. split.
  - intros (i & <- & Hi). apply in_seq in Hi. lia.
  - intros H. exists (Z.to_nat (k - a)). split; [lia|]. apply in_seq. lia.
Qed.
Lemma day_of_parts d r : 0 <= r < DAY -> day_of (d * DAY + r) = d.
Proof. intros H. unfold day_of. rewrite Z.add_comm, Z.div_add by (pose proof DAYp; lia). rewrite Z.div_small by assumption. lia. Qed.
Definition in_month (day : Z -> Z) : Prop := forall k, month_start k <= day k <= month_last k.
Lemma month_start_in : in_month month_start.
Proof. intros k. unfold month_last. rewrite month_start_next. pose proof (dim_bounds k). lia. Qed.
Lemma month_last_in : in_month month_last.
Proof. intros k. unfold month_last. rewrite month_start_next. pose proof (dim_bounds k). lia. Qed.
Lemma month_range_in start stop sel day t : in_month day ->
  (In t (month_range start stop sel day) <->
   exists k, sel k = true /\ t = day k * DAY + start mod DAY /\ start <= t <= stop).
Proof.
  intros D. unfold month_range. rewrite filter_In, in_map_iff, andb_true_iff, !Z.leb_le. split.
  - intros [(k & <- & Hk) B]. apply filter_In in Hk as [_ Hk]. exists k. auto.
  - intros (k & Hk & -> & B). split; [|exact B]. exists k. split; [reflexivity|]. apply filter_In. split; [|exact Hk].
    apply zrange_in. assert (R : 0 <= start mod DAY < DAY) by (apply Z.mod_pos_bound, DAYp).
    assert (E : month_index (day k) = k) by (apply month_index_unique, D). rewrite <- E.
    rewrite <- (day_of_parts (day k) (start mod DAY) R). split; apply month_index_mono; unfold day_of; apply Z.div_le_mono; try apply DAYp; lia.
Qed.
Lemma zrange_sorted a b : StronglySorted Z.lt (zrange a b).
Proof. apply map_seq_sorted. intros; lia. Qed.
Lemma month_range_sorted start stop sel day : in_month day -> StronglySorted Z.lt (month_range start stop sel day).
Proof.
  intros D. unfold month_range. apply filter_sorted.
  assert (S : StronglySorted Z.lt (filter sel (zrange (month_index (day_of start)) (month_index (day_of stop)))))
    by apply filter_sorted, zrange_sorted.
  induction S as [|a l S IH F]; cbn; constructor; auto. rewrite Forall_forall in *. intros x Hx.
  apply in_map_iff in Hx as (k & <- & Hk). specialize (F k Hk).
  assert (day a < day k); [|pose proof DAYp; nia]. pose proof (D a). pose proof (D k). unfold month_last in *.
  destruct (Z.eq_dec (a + 1) k) as [<-|]; [lia|]. pose proof (month_start_mono (a + 1) k ltac:(lia)). lia.
Qed.

(* ---- horizons ---- *)
Lemma round_half_even_err a b : 0 < b -> 2 * Z.abs (round_half_even a b * b - a) <= b.
Proof.
  intros Hb. unfold round_half_even. assert (E := Z.div_mod a b ltac:(lia)). assert (B := Z.mod_pos_bound a b Hb).
  destruct (Z.ltb_spec (2 * (a mod b)) b); [nia|]. destruct (Z.ltb_spec b (2 * (a mod b))); [nia|].
  destruct (Z.even (a / b)); nia.
Qed.
(* the offset differs from the exact number of units by at most half a microsecond *)
Lemma timedelta_err u unit_ns : unit_ns mod MICRO = 0 ->
  2 * Z.abs (timedelta_ns u unit_ns * Zpos (Qden u) - Qnum u * unit_ns) <= MICRO * Zpos (Qden u).
Proof.
  intros Hu. unfold timedelta_ns. set (b := Zpos (Qden u)). assert (Hb : 0 < b) by reflexivity.
  assert (Eu : unit_ns = unit_ns / MICRO * MICRO) by (unfold MICRO in *; dm).
  set (v := unit_ns / MICRO) in *. rewrite Eu. pose proof (round_half_even_err (Qnum u * v) b Hb) as R.
  set (w := round_half_even (Qnum u * v) b) in *. unfold MICRO.
  replace (w * 1000 * b - Qnum u * (v * 1000)) with (1000 * (w * b - Qnum u * v)) by ring. rewrite Z.abs_mul.
  change (Z.abs 1000) with 1000. nia.
Qed.
Lemma timedelta_nonneg u unit_ns : 0 <= Qnum u -> 0 <= unit_ns -> 0 <= timedelta_ns u unit_ns.
Proof.
  intros H1 H2. unfold timedelta_ns, MICRO.
  assert (0 <= round_half_even (Qnum u * (unit_ns / 1000)) (Zpos (Qden u))); [|lia].
  assert (H : 0 <= Qnum u * (unit_ns / 1000)) by (apply Z.mul_nonneg_nonneg; [lia|apply Z.div_pos; lia]).
  unfold round_half_even. assert (0 <= Qnum u * (unit_ns / 1000) / Zpos (Qden u)) by (apply Z.div_pos; lia).
  repeat match goal with |- context [if ?b then _ else _] => destruct b end; lia.
Qed.

(* frequencies with a fixed step; nanoseconds per forecast year *)
Inductive fixed_freq (start : Z) : option string -> Z -> Z -> Prop :=
| ff_hour : fixed_freq start (Some "H") HOUR (365 * DAY)
| ff_day : fixed_freq start (Some "D") DAY (365 * DAY)
| ff_week : fixed_freq start (Some (wday_name (weekday start))) (7 * DAY) (364 * DAY)
| ff_none : fixed_freq start None (7 * DAY) (364 * DAY).
Inductive month_freq : string -> (Z -> bool) -> (Z -> Z) -> Z -> Prop :=
| mf_ms : month_freq "MS" any_month month_start 1
| mf_m : month_freq "M" any_month month_last 1
| mf_ys : month_freq "YS" january month_start 12
| mf_y : month_freq "Y" december month_last 12.

Lemma wday_name_cases w : 0 <= w < 7 ->
  wday_name w = "W-MON" \/ wday_name w = "W-TUE" \/ wday_name w = "W-WED" \/ wday_name w = "W-THU" \/
  wday_name w = "W-FRI" \/ wday_name w = "W-SAT" \/ wday_name w = "W-SUN".
Proof.
  intros Hw. assert (C : w = 0 \/ w = 1 \/ w = 2 \/ w = 3 \/ w = 4 \/ w = 5 \/ w = 6) by lia.
  repeat (destruct C as [->|C]; [cbn; tauto|]). subst. cbn. tauto.
Qed.
Lemma weekday_name_cases t : wday_name (weekday t) = "W-MON" \/ wday_name (weekday t) = "W-TUE" \/ wday_name (weekday t) = "W-WED" \/
  wday_name (weekday t) = "W-THU" \/ wday_name (weekday t) = "W-FRI" \/ wday_name (weekday t) = "W-SAT" \/ wday_name (weekday t) = "W-SUN".
Proof. apply wday_name_cases, weekday_range. Qed.
Ltac wname t := destruct (weekday_name_cases t) as [E|[E|[E|[E|[E|[E|E]]]]]].

Section GridT.
  Context {T : Type} `{N : NumOps T}.
  Definition scaled (m : option (fmodel T)) (x : Z) : T :=
    if model_requires_scaling m then ndiv (nofZ x) (nofZ 100) else nofZ x.
  Lemma scaling_map m (l : list Z) : apply_a_x_scaling (map nofZ l) m = map (scaled m) l.
  Proof.
    unfold apply_a_x_scaling, scaled. destruct (model_requires_scaling m); [now rewrite map_map|reflexivity].
  Qed.
  Lemma combine_map_r {A B} (f : A -> B) (l : list A) : combine l (map f l) = map (fun a => (a, f a)) l.
  Proof. induction l as [|a l IH]; [reflexivity|]. cbn. now rewrite IH. Qed.
  Lemma grid_pairs start x0 m ds :
    combine ds (apply_a_x_scaling (map (fun t => nofZ ((t - start) / DAY + x0)) ds) m) =
    map (fun t => (t, scaled m ((t - start) / DAY + x0))) ds.
  Proof.
    rewrite <- (map_map (fun t => (t - start) / DAY + x0) nofZ), scaling_map, map_map. apply combine_map_r.
  Qed.

  Lemma fixed_grid start stop m freq step per_year years x0 : fixed_freq start freq step per_year ->
    exists e g, s_x_dates start stop m freq years x0 = Ok (map (fun t => (t, scaled m ((t - start) / DAY + x0))) g) /\
      2 * Z.abs ((e - stop) * Zpos (Qden years) - Qnum years * per_year) <= MICRO * Zpos (Qden years) /\
      (0 <= Qnum years -> stop <= e) /\
      StronglySorted Z.lt g /\
      forall t, In t g <-> exists k, 0 <= k /\ t = start + k * step /\ t <= e.
  Proof.
    intros F.
    assert (Gen : forall f u unit_ns per, 0 < step ->
       grid_freq start freq = Ok f -> dateoffset_input (freq_short f) = Some u -> units_per_year (freq_short f) = per ->
       (forall t q, add_dateoffset t (Some u) q = Ok (t + timedelta_ns q unit_ns)) ->
       unit_ns mod MICRO = 0 -> 0 <= unit_ns -> per * unit_ns = per_year -> 0 <= per ->
       (forall e, date_range start e f = Ok (fixed_range start step e)) ->
       exists e g, s_x_dates start stop m freq years x0 = Ok (map (fun t => (t, scaled m ((t - start) / DAY + x0))) g) /\
      2 * Z.abs ((e - stop) * Zpos (Qden years) - Qnum years * per_year) <= MICRO * Zpos (Qden years) /\
      (0 <= Qnum years -> stop <= e) /\
      StronglySorted Z.lt g /\
      forall t, In t g <-> exists k, 0 <= k /\ t = start + k * step /\ t <= e).
    { intros f u unit_ns per Hs Ef Eu Ep Ea Hm Hn Ey Hp Ed.
      set (q := Qmake (Qnum years * per) (Qden years)).
      exists (stop + timedelta_ns q unit_ns), (fixed_range start step (stop + timedelta_ns q unit_ns)).
      split; [|split; [|split; [|split]]].
      - unfold s_x_dates. rewrite Ef. cbn [rbind]. unfold forecast_end. rewrite Eu, Ep. fold q. rewrite Ea. cbn [rbind].
        rewrite Ed. cbn [rbind]. now rewrite grid_pairs.
      - pose proof (timedelta_err q unit_ns Hm) as R. cbn [Qnum Qden q] in R.
        replace (stop + timedelta_ns q unit_ns - stop) with (timedelta_ns q unit_ns) by ring.
        replace (Qnum years * per_year) with (Qnum years * per * unit_ns) by (rewrite <- Ey; ring). exact R.
      - intros Hy. assert (0 <= timedelta_ns q unit_ns); [|lia]. apply timedelta_nonneg; [|exact Hn]. cbn. nia.
      - now apply fixed_range_sorted.
      - intros t. now apply fixed_range_in. }
    destruct F.
    - apply (Gen "H" OHours HOUR 8760); try reflexivity; try discriminate.
    - apply (Gen "D" ODays DAY 365); try reflexivity; try discriminate.
    - wname start; rewrite E in *.
      all: match goal with |- context [Some ?f] => apply (Gen f OWeeks (7 * DAY) 52) end; try reflexivity; try discriminate.
      all: unfold grid_freq, date_range; rewrite ?E; try reflexivity; intros; rewrite E; reflexivity.
    - apply (Gen (wday_name (weekday start)) OWeeks (7 * DAY) 52); try reflexivity; try discriminate.
      all: wname start; unfold date_range; rewrite ?E; try reflexivity; intros; rewrite E; reflexivity.
  Qed.

  (* an undetected frequency is treated as weekly *)
  Lemma none_is_weekly start stop m years x0 :
    s_x_dates (T:=T) start stop m None years x0 = s_x_dates start stop m (Some (wday_name (weekday start))) years x0.
  Proof.
    unfold s_x_dates, grid_freq. wname start; rewrite E; reflexivity.
  Qed.

  Lemma month_grid start stop m f sel day mult years x0 : month_freq f sel day mult ->
    Qnum years * units_per_year (freq_short f) mod Zpos (Qden years) = 0 ->
    let n := Qnum years * units_per_year (freq_short f) / Zpos (Qden years) in
    exists g, s_x_dates start stop m (Some f) years x0 = Ok (map (fun t => (t, scaled m ((t - start) / DAY + x0))) g) /\
      StronglySorted Z.lt g /\
      forall t, In t g <-> exists k, sel k = true /\ t = day k * DAY + start mod DAY /\ start <= t <= add_months stop (mult * n).
  Proof.
    intros F Hd n. exists (month_range start (add_months stop (mult * n)) sel day).
    assert (D : in_month day) by (destruct F; auto using month_start_in, month_last_in).
    split; [|split; [now apply month_range_sorted|intros t; now apply month_range_in]].
    assert (Er : date_range start (add_months stop (mult * n)) f = Ok (month_range start (add_months stop (mult * n)) sel day)).
    { unfold date_range. destruct F; wname start; rewrite E; reflexivity. }
    unfold s_x_dates.
    assert (Eg : grid_freq start (Some f) = Ok f) by (destruct F; reflexivity). rewrite Eg. cbn [rbind].
    assert (Ee : forecast_end stop f years = Ok (add_months stop (mult * n))).
    { unfold forecast_end. destruct F; cbn -[Z.mul Z.div Z.modulo add_months] in *; rewrite Hd; cbn [Z.eqb];
        f_equal; f_equal; unfold n; cbn -[Z.mul Z.div]; ring. }
    rewrite Ee. cbn [rbind]. rewrite Er. cbn [rbind]. now rewrite grid_pairs.
  Qed.

  (* ---- errors ---- *)
  Lemma add_dateoffset_err t u q e : add_dateoffset t u q = Err e -> (u = None /\ e = TypeError) \/
    ((u = Some OMonths \/ u = Some OYears) /\ Qnum q mod Zpos (Qden q) <> 0 /\ e = ValueError).
  Proof.
    destruct u as [[| | | |]|]; cbn; try discriminate; try (intros [= <-]; left; auto; fail).
    - destruct (Z.eqb_spec (Qnum q mod Zpos (Qden q)) 0); [discriminate|]. intros [= <-]. right. auto.
    - destruct (Z.eqb_spec (Qnum q mod Zpos (Qden q)) 0); [discriminate|]. intros [= <-]. right. auto.
  Qed.
  Lemma date_range_err s e f x : date_range s e f = Err x -> x = ValueError.
  Proof.
    unfold date_range. repeat match goal with |- context [if ?b then _ else _] => destruct b; try discriminate end. congruence.
  Qed.
  Lemma weekday_mismatch start stop m freq years x0 :
    s_x_dates (T:=T) start stop m freq years x0 = Err AssertionError <->
    exists f, freq = Some f /\ startswith f "W" = true /\ f <> wday_name (weekday start).
  Proof.
    unfold s_x_dates, grid_freq. split.
    - destruct freq as [f|]; [destruct (startswith f "W") eqn:Ew|].
      + destruct (String.eqb_spec (wday_name (weekday start)) f) as [E|E]; [|intros _; exists f; auto].
        cbn [rbind]. destruct (forecast_end stop f years) as [e|x] eqn:Ee; cbn [rbind].
        * destruct (date_range start e f) as [l|x] eqn:Ed; cbn [rbind]; [discriminate|].
          apply date_range_err in Ed. congruence.
        * apply add_dateoffset_err in Ee as [[_ ->]|(_ & _ & ->)]; discriminate.
      + cbn [rbind]. destruct (forecast_end stop f years) as [e|x] eqn:Ee; cbn [rbind].
        * destruct (date_range start e f) as [l|x] eqn:Ed; cbn [rbind]; [discriminate|].
          apply date_range_err in Ed. congruence.
        * apply add_dateoffset_err in Ee as [[_ ->]|(_ & _ & ->)]; discriminate.
      + cbn [rbind]. destruct (forecast_end stop _ years) as [e|x] eqn:Ee; cbn [rbind].
        * destruct (date_range start e _) as [l|x] eqn:Ed; cbn [rbind]; [discriminate|].
          apply date_range_err in Ed. congruence.
        * apply add_dateoffset_err in Ee as [[_ ->]|(_ & _ & ->)]; discriminate.
    - intros (f & -> & -> & Hne). destruct (String.eqb_spec (wday_name (weekday start)) f); [congruence|reflexivity].
  Qed.
  Lemma quarter_error start stop m years x0 : s_x_dates (T:=T) start stop m (Some "Q") years x0 = Err TypeError.
  Proof. reflexivity. Qed.
  (* TypeError: exactly the frequencies whose first letter has no DateOffset keyword *)
  Lemma type_error start stop m f years x0 : startswith f "W" = false ->
    (s_x_dates (T:=T) start stop m (Some f) years x0 = Err TypeError <-> dateoffset_input (freq_short f) = None).
  Proof.
    intros Ew. unfold s_x_dates, grid_freq. rewrite Ew. cbn [rbind]. split.
    - destruct (forecast_end stop f years) as [e|x] eqn:Ee; cbn [rbind].
      + destruct (date_range start e f) as [l|x] eqn:Ed; cbn [rbind]; [discriminate|].
        apply date_range_err in Ed. congruence.
      + intros [= ->]. apply add_dateoffset_err in Ee as [[E _]|(_ & _ & E)]; [exact E|discriminate].
    - intros E. unfold forecast_end. rewrite E. reflexivity.
  Qed.
  Lemma fractional_error start stop m f sel day mult years x0 : month_freq f sel day mult ->
    (Qnum years * units_per_year (freq_short f)) mod Zpos (Qden years) <> 0 ->
    s_x_dates (T:=T) start stop m (Some f) years x0 = Err ValueError.
  Proof.
    intros F Hd. unfold s_x_dates.
    assert (Eg : grid_freq start (Some f) = Ok f) by (destruct F; reflexivity). rewrite Eg. cbn [rbind].
    assert (Ee : forecast_end stop f years = Err ValueError).
    { unfold forecast_end. destruct F; cbn -[Z.mul Z.div Z.modulo add_months] in *;
        (match goal with |- context [?a =? 0] => destruct (Z.eqb_spec a 0) end; [contradiction|reflexivity]). }
    now rewrite Ee.
  Qed.

  (* ---- numeric grid ---- *)
  Lemma numeric_grid start stop m years x0 :
    s_x_numeric start stop m years x0 =
    map (fun i => (start + Z.of_nat i, scaled m (x0 + Z.of_nat i + x0))) (seq 0 (numeric_size start stop years)).
  Proof.
    unfold s_x_numeric. rewrite <- (map_map (fun i => x0 + Z.of_nat i + x0) nofZ), scaling_map, map_map.
    generalize (seq 0 (numeric_size start stop years)) as l. induction l as [|i l IH]; [reflexivity|]. cbn. now rewrite IH.
  Qed.
  Lemma numeric_size_iff start stop years (i : nat) :
    ((i < numeric_size start stop years)%nat <->
     (start + Z.of_nat i) * Zpos (Qden years) < stop * Zpos (Qden years) + 100 * Qnum years).
  Proof.
    unfold numeric_size, ceil_div. set (b := Zpos (Qden years)). assert (Hb : 0 < b) by reflexivity.
    set (a := (stop - start) * b + 100 * Qnum years).
    assert (E : - (- a / b) * b - b < a <= - (- a / b) * b) by dm || (assert (Q := Z.div_mod (- a) b ltac:(lia)); assert (R := Z.mod_pos_bound (- a) b Hb); nia).
    set (c := - (- a / b)) in *. unfold a in *.
    split; intros Hi.
    - assert (Z.of_nat i + 1 <= c) by lia. nia.
    - assert (Z.of_nat i < c) by nia. lia.
  Qed.
End GridT.

(* ---------- grid x and fitted x ---------- *)
Lemma fit_x_matches t0 start t : midnight t0 = true -> midnight start = true ->
  (t - start) / DAY + (start - x_origin t0) / DAY = (t - x_origin t0) / DAY.
Proof.
  unfold midnight. intros H0 Hs. apply Z.eqb_eq in H0, Hs. unfold x_origin.
  rewrite (Z.div_mod t0 DAY) by discriminate. rewrite (Z.div_mod start DAY) by discriminate. rewrite H0, Hs.
  set (a := t0 / DAY). set (b := start / DAY). set (w := weekday _). pose proof DAYp.
  replace (t - (DAY * b + 0)) with (t + (- b) * DAY) by ring.
  replace (DAY * b + 0 - (DAY * a + 0 - w * DAY)) with ((b - a + w) * DAY) by ring.
  replace (t - (DAY * a + 0 - w * DAY)) with (t + (w - a) * DAY) by ring.
  rewrite !Z.div_add, Z.div_mul by lia. ring.
Qed.
Lemma fixed_grid_covers start step e g : 0 < step -> start <= e ->
  (forall t, In t g <-> exists k, 0 <= k /\ t = start + k * step /\ t <= e) ->
  In start g /\ (exists t, In t g /\ e - step < t <= e) /\ (forall t, In t g -> start <= t <= e).
Proof.
  intros Hs He H. split; [|split].
  - apply H. exists 0. lia.
  - exists (start + (e - start) / step * step). pose proof (Z.div_mod (e - start) step). pose proof (Z.mod_pos_bound (e - start) step Hs).
    assert (0 <= (e - start) / step) by (apply Z.div_pos; lia).
    assert ((e - start) / step * step = e - start - (e - start) mod step) as E by lia.
    split; [apply H; exists ((e - start) / step); repeat split; lia|lia].
  - intros t Ht. apply H in Ht as (k & Hk & -> & Hle). assert (0 <= k * step) by (apply Z.mul_nonneg_nonneg; lia). lia.
Qed.
Lemma fixed_step_pos start freq step per : fixed_freq start freq step per -> 0 < step.
Proof. now destruct 1. Qed.
