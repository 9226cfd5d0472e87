(* Dummy models, holiday rules, calendar models (C17-C19). *)
From Coq Require Import ZArith String List Bool Reals Lra Lia Permutation.
From Verif Require Import Num Py Cal Model ModelProofs Base Dummy NumProofs ListProofs CalSweep CalProofs
  BaseProofs SeasonProofs.
Import ListNotations.
Local Open Scope string_scope.

(* ---------- C17: effect of a dummy ---------- *)
(* specification *)
Definition dummy_effect (mult : bool) (A : R) (on : bool) : R :=
  (if mult then (if on then A + 1 else 1) else (if on then A else 0))%R.

Lemma dummy_effect_fin (mult : bool) A (b : bool) :
  (if mult then nadd (nmul (Fin A) (nofbool b)) n1 else nmul (Fin A) (nofbool b) : XR)
  = Fin (dummy_effect mult A b).
Proof.
  rewrite ofbool_fin. destruct mult, b; cbn; f_equal; ring.
Qed.

Lemma dummy_prediction name (f : dummyfun XR) xs d bs A mult act :
  f xs d = Ok (map nofbool bs) ->
  call (dummy_model_of name f) xs d (Some [Fin A]) mult (mkKw act []) =
  Ok (Ar (fins (map (dummy_effect mult A) bs))).
Proof.
  intros E. unfold call. cbn [fm_f dummy_model_of mk_model]. unfold f_model_dummy.
  cbn [kw_cache dict_get]. rewrite E. cbn [rmap rbind unpack1 mode_of]. do 2 f_equal.
  unfold fins. destruct mult; rewrite !map_map; apply map_ext; intros b.
  - apply (dummy_effect_fin true).
  - apply (dummy_effect_fin false).
Qed.

Lemma mask_is_valid (bs : list bool) :
  forallb (fun v : XR => neqb v n0 || neqb v n1) (map nofbool bs) = true.
Proof.
  induction bs as [|b bs IH]; [reflexivity|]. cbn [map forallb]. rewrite IH, ofbool_fin.
  rewrite n0_fin, n1_fin. destruct b; cbn; rewrite !Reqb_refl; now rewrite ?orb_true_r.
Qed.
(* a dummy whose mask on the probe is boolean is accepted *)
Lemma get_model_dummy_ok name (dm : dummy XR) f bs :
  get_f_dummy dm = Ok f -> f probe_x (Some probe_dates) = Ok (map nofbool bs) ->
  get_model_dummy name dm = Ok (dummy_model_of name f).
Proof.
  intros E Ep. unfold get_model_dummy. rewrite E. cbn [rbind]. unfold validate_f_dummy.
  rewrite Ep. cbn [rbind]. rewrite mask_is_valid. reflexivity.
Qed.

Definition in_list_R (l : list R) (x : R) : bool := existsb (Reqb x) l.
Lemma in_list_R_iff l x : in_list_R l x = true <-> In x l.
Proof.
  unfold in_list_R. rewrite existsb_exists. split.
  - intros (y & Hy & E). destruct (Reqb_spec x y); [now subst|discriminate].
  - intros Hi. exists x. split; [exact Hi|apply Reqb_refl].
Qed.
Definition in_list_Z (l : list Z) (t : Z) : bool := existsb (Z.eqb t) l.
Lemma in_list_Z_iff l t : in_list_Z l t = true <-> In t l.
Proof. apply existsb_eqb. apply Z.eqb_eq. Qed.

Lemma isin_nums_fin (xs l : list R) :
  isin_nums (fins xs) (fins l) = map nofbool (map (in_list_R l) xs).
Proof.
  unfold isin_nums, fins. rewrite !map_map. apply map_ext. intros x. f_equal.
  unfold in_list_R. induction l as [|a l IH]; [reflexivity|]. cbn [map existsb]. now rewrite <- IH.
Qed.
Lemma isin_dates_bool {T} `{NumOps T} ds l :
  isin_dates ds l = map (@nofbool T _) (map (in_list_Z l) ds).
Proof. unfold isin_dates. rewrite map_map. reflexivity. Qed.

(* numeric list *)
Lemma dummy_nums name (l : list R) : l <> [] ->
  exists m, get_model_dummy name (DNums (fins l)) = Ok m /\ fm_n m = 1%nat /\ fm_name m = name /\
    forall xs d A mult act,
      call m (fins xs) d (Some [Fin A]) mult (mkKw act []) =
      Ok (Ar (fins (map (fun x => dummy_effect mult A (in_list_R l x)) xs))).
Proof.
  intros Hl.
  assert (E : get_f_dummy (DNums (fins l)) = Ok (fun a_x _ => Ok (isin_nums a_x (fins l)))).
  { destruct l; [contradiction|]. reflexivity. }
  exists (dummy_model_of name (fun a_x _ => Ok (isin_nums a_x (fins l)))). split.
  - eapply get_model_dummy_ok; [exact E|]. f_equal.
    apply (isin_nums_fin (map (fun i => IZR (Z.of_nat i)) (seq 0 10)) l).
  - repeat split. intros xs d A mult act.
    rewrite (dummy_prediction name _ (fins xs) d (map (in_list_R l) xs)).
    + now rewrite map_map.
    + now rewrite isin_nums_fin.
Qed.
(* date list *)
Lemma dummy_dates name (l : list Z) : l <> [] ->
  exists m, get_model_dummy name (DDates l) = Ok m /\ fm_n m = 1%nat /\ fm_name m = name /\
    forall xs ds A mult act,
      call m xs (Some ds) (Some [Fin A]) mult (mkKw act []) =
      Ok (Ar (fins (map (fun t => dummy_effect mult A (in_list_Z l t)) ds))).
Proof.
  intros Hl.
  set (f := fun (_ : list XR) a_date => match a_date with
              | Some d => Ok (isin_dates d l) | None => Err TypeError end).
  assert (E : get_f_dummy (DDates l) = Ok f) by (destruct l; [contradiction|]; reflexivity).
  exists (dummy_model_of name f). split.
  - eapply get_model_dummy_ok; [exact E|]. unfold f. rewrite isin_dates_bool. reflexivity.
  - repeat split. intros xs ds A mult act.
    rewrite (dummy_prediction name f xs (Some ds) (map (in_list_Z l) ds)).
    + now rewrite map_map.
    + unfold f. now rewrite isin_dates_bool.
Qed.
Lemma dummy_empty_list (T : Type) (N : NumOps T) name :
  get_model_dummy (T:=T) name (DNums []) = Err AssertionError /\
  get_model_dummy (T:=T) name (DDates []) = Err AssertionError.
Proof. split; reflexivity. Qed.
(* a user function whose probe mask is not boolean is refused *)
Lemma dummy_fun_refused name (f : dummyfun XR) mask v :
  f probe_x (Some probe_dates) = Ok mask -> In v mask -> v <> Fin 0 -> v <> Fin 1 ->
  get_model_dummy name (DFun f) = Err AssertionError.
Proof.
  intros E Hi H0 H1. unfold get_model_dummy. cbn [get_f_dummy rbind]. unfold validate_f_dummy.
  rewrite E. cbn [rbind].
  assert (forallb (fun v => neqb v n0 || neqb v n1) mask = false) as ->; [|reflexivity].
  apply not_true_iff_false. rewrite forallb_forall. intros Hf. specialize (Hf v Hi).
  rewrite n0_fin, n1_fin in Hf. destruct v as [| | |r]; try discriminate Hf. cbn in Hf.
  destruct (Reqb_spec r 0); [subst; contradiction|]. destruct (Reqb_spec r 1); [subst; contradiction|].
  discriminate.
Qed.
(* shipped dummies *)
Lemma dummy_date_mask name (test : Z -> bool) :
  exists m, get_model_dummy name (DFun (date_mask (T:=XR) test)) = Ok m /\ fm_n m = 1%nat /\
    fm_name m = name /\
    forall xs ds A mult act,
      call m xs (Some ds) (Some [Fin A]) mult (mkKw act []) =
      Ok (Ar (fins (map (fun t => dummy_effect mult A (test t)) ds))).
Proof.
  exists (dummy_model_of name (date_mask test)). split.
  - eapply get_model_dummy_ok; [reflexivity|]. unfold date_mask. cbn [need_dates rbind].
    now rewrite <- (map_map test).
  - repeat split. intros xs ds A mult act.
    rewrite (dummy_prediction name (date_mask test) xs (Some ds) (map test ds)).
    + now rewrite map_map.
    + unfold date_mask. cbn [need_dates rbind]. now rewrite <- (map_map test).
Qed.

(* ---------- C18: holiday rules ---------- *)
Ltac dm := Z.div_mod_to_equations; lia.
Open Scope Z_scope.
(* specification: d is a Monday in month m of year y, with a range for the day of the month *)
Definition monday_of (y m lo hi d : Z) : Prop :=
  weekday_of_day d = 0 /\ year_of_day d = y /\ month_of_day d = m /\ lo <= dom_of_day d <= hi.

Lemma in_month y m d n : valid_date y m d -> n = days_from_civil y m d ->
  year_of_day n = y /\ month_of_day n = m /\ dom_of_day n = d.
Proof.
  intros V ->. repeat split; [apply year_of_date|apply month_of_date|apply dom_of_date]; exact V.
Qed.
Lemma may_31 y : days_in_month y 5 = 31. Proof. reflexivity. Qed.
Lemma aug_31 y : days_in_month y 8 = 31. Proof. reflexivity. Qed.
Lemma dec_31 y : days_in_month y 12 = 31. Proof. reflexivity. Qed.
Lemma jan_31 y : days_in_month y 1 = 31. Proof. reflexivity. Qed.

Lemma early_may y : monday_of y 5 1 7 (holiday_in_year hol_early_may y).
Proof.
  unfold holiday_in_year, hol_early_may, mo_first. cbn [h_apply h_month h_day].
  set (d0 := days_from_civil y 5 1). set (k := (7 - weekday_of_day d0) mod 7).
  assert (Hk : 0 <= k <= 6) by (subst k; clear; dm).
  assert (E : d0 + k = days_from_civil y 5 (1 + k))
    by (subst d0; rewrite (days_from_civil_day y 5 1 (1 + k)); ring).
  destruct (in_month y 5 (1 + k) (d0 + k)) as (H1 & H2 & H3).
  { split; [lia|]. rewrite may_31. lia. }
  { exact E. }
  repeat split; try assumption; try lia.
  clear - k. subst k. unfold weekday_of_day in *. clearbody d0. dm.
Qed.
Lemma spring y : monday_of y 5 25 31 (holiday_in_year hol_spring y).
Proof.
  unfold holiday_in_year, hol_spring, mo_last. cbn [h_apply h_month h_day].
  set (d0 := days_from_civil y 5 31). set (k := weekday_of_day d0).
  assert (Hk : 0 <= k <= 6) by (subst k; unfold weekday_of_day; clear; dm).
  destruct (in_month y 5 (31 - k) (d0 - k)) as (H1 & H2 & H3).
  { split; [lia|]. rewrite may_31. lia. }
  { subst d0. rewrite (days_from_civil_day y 5 31 (31 - k)). ring. }
  repeat split; try assumption; try lia.
  clear - k. subst k. unfold weekday_of_day in *. clearbody d0. dm.
Qed.
Lemma august y :
  monday_of y 8 24 30 (holiday_in_year hol_august y) /\
  (weekday_of_day (days_from_civil y 8 31) <> 0 <-> 25 <= dom_of_day (holiday_in_year hol_august y)) /\
  (weekday_of_day (days_from_civil y 8 31) = 0 ->
     holiday_in_year hol_august y = days_from_civil y 8 31 - 7).
Proof.
  unfold holiday_in_year, hol_august, mo_last. cbn [h_apply h_month h_day].
  set (d0 := days_from_civil y 8 30). set (k := weekday_of_day d0).
  assert (Hk : 0 <= k <= 6) by (subst k; unfold weekday_of_day; clear; dm).
  destruct (in_month y 8 (30 - k) (d0 - k)) as (H1 & H2 & H3).
  { split; [lia|]. rewrite aug_31. lia. }
  { subst d0. rewrite (days_from_civil_day y 8 30 (30 - k)). ring. }
  assert (E : days_from_civil y 8 31 = d0 + 1)
    by (subst d0; rewrite (days_from_civil_day y 8 30 31); ring).
  assert (W : weekday_of_day (days_from_civil y 8 31) = (if k =? 6 then 0 else k + 1)).
  { rewrite E. subst k. clearbody d0. clear. unfold weekday_of_day.
    destruct (Z.eqb_spec ((d0 + 3) mod 7) 6); dm. }
  rewrite W, H3. split; [|split].
  - repeat split; try assumption; try lia.
    clear - k. subst k. unfold weekday_of_day in *. clearbody d0. dm.
  - destruct (Z.eqb_spec k 6); lia.
  - destruct (Z.eqb_spec k 6); [intros _; lia|lia].
Qed.

(* observance rules *)
Lemma next_monday_spec d : weekday_of_day (next_monday d) < 5 /\ d <= next_monday d <= d + 2 /\
  (weekday_of_day d < 5 -> next_monday d = d).
Proof.
  unfold next_monday, weekday_of_day. destruct (Z.eqb_spec ((d + 3) mod 7) 5); [|destruct (Z.eqb_spec ((d + 3) mod 7) 6)]; dm.
Qed.
Lemma next_monday_or_tuesday_spec d :
  weekday_of_day (next_monday_or_tuesday d) < 5 /\ d <= next_monday_or_tuesday d <= d + 2 /\
  next_monday (d - 1) < next_monday_or_tuesday d.
Proof.
  unfold next_monday_or_tuesday, next_monday, weekday_of_day.
  destruct (Z.eqb_spec ((d + 3) mod 7) 5), (Z.eqb_spec ((d + 3) mod 7) 6), (Z.eqb_spec ((d + 3) mod 7) 0),
    (Z.eqb_spec ((d - 1 + 3) mod 7) 5), (Z.eqb_spec ((d - 1 + 3) mod 7) 6); cbn [orb]; dm.
Qed.
Lemma christmas_rules y :
  let ny := holiday_in_year hol_new_year y in
  let xm := holiday_in_year hol_christmas y in
  let bx := holiday_in_year hol_boxing_day y in
  weekday_of_day ny < 5 /\ weekday_of_day xm < 5 /\ weekday_of_day bx < 5 /\ xm < bx /\
  days_from_civil y 1 1 <= ny <= days_from_civil y 1 1 + 2 /\
  days_from_civil y 12 25 <= xm <= days_from_civil y 12 25 + 2 /\
  days_from_civil y 12 26 <= bx <= days_from_civil y 12 26 + 2.
Proof.
  cbv zeta. unfold holiday_in_year. cbn [h_apply h_month h_day hol_new_year hol_christmas hol_boxing_day].
  pose proof (next_monday_spec (days_from_civil y 1 1)) as (A1 & A2 & _).
  pose proof (next_monday_spec (days_from_civil y 12 25)) as (B1 & B2 & _).
  pose proof (next_monday_or_tuesday_spec (days_from_civil y 12 26)) as (C1 & C2 & C3).
  assert (E : days_from_civil y 12 26 - 1 = days_from_civil y 12 25)
    by (rewrite (days_from_civil_day y 12 25 26); ring).
  rewrite E in C3. repeat split; lia.
Qed.
Lemma ita_christmas_rules y :
  let xm := holiday_in_year hol_christmas y in
  let ss := holiday_in_year hol_santo_stefano y in
  let ep := holiday_in_year hol_epiphany y in
  weekday_of_day ss < 5 /\ weekday_of_day ep < 5 /\ xm < ss /\
  days_from_civil y 12 26 <= ss <= days_from_civil y 12 26 + 2 /\
  days_from_civil y 1 6 <= ep <= days_from_civil y 1 6 + 2.
Proof.
  destruct (christmas_rules y) as (_ & _ & C1 & C2 & _ & _ & C3). cbv zeta in *.
  change (holiday_in_year hol_santo_stefano y) with (holiday_in_year hol_boxing_day y).
  pose proof (next_monday_spec (days_from_civil y 1 6)) as (A1 & A2 & _).
  change (holiday_in_year hol_epiphany y) with (next_monday (days_from_civil y 1 6)). repeat split; lia.
Qed.

(* ---- Easter ---- *)
Lemma yday_closed y : yday y = 365 * y + y / 4 - y / 100 + y / 400 - 719468.
Proof. unfold yday. dm. Qed.
Definition easter_i (h g : Z) : Z := h - (h / 28) * (1 - (h / 28) * (29 / (h + 1)) * ((21 - g) / 11)).
Lemma easter_i_sweep :
  forallb (fun h => forallb (fun g => (0 <=? easter_i h g) && (easter_i h g <=? 28)) (upto 19)) (upto 30) = true.
Proof. vm_cast_no_check (eq_refl true). Qed.
Definition easter_md (p : Z) : Z * Z := (3 + (p + 26) / 30, 1 + (p + 27 + (p + 6) / 40) mod 31).
Lemma easter_md_spec p y : -6 <= p <= 28 ->
  let '(m, d) := easter_md p in
  days_from_civil y m d = days_from_civil y 3 28 + p /\ valid_date y m d /\
  (m = 3 /\ 22 <= d <= 31 \/ m = 4 /\ 1 <= d <= 25).
Proof.
  intros Hp. unfold easter_md.
  destruct (Z_le_gt_dec p 3) as [L|L].
  - replace ((p + 26) / 30) with 0 by dm. replace ((p + 27 + (p + 6) / 40) mod 31) with (p + 27) by dm.
    change (3 + 0) with 3. repeat split; try lia.
    + rewrite (days_from_civil_day y 3 28 (1 + (p + 27))). ring.
    + change (days_in_month y 3) with 31. lia.
  - replace ((p + 26) / 30) with 1 by dm. replace ((p + 27 + (p + 6) / 40) mod 31) with (p - 4) by dm.
    change (3 + 1) with 4. repeat split; try lia.
    + rewrite (days_from_civil_day y 4 1 (1 + (p - 4))).
      pose proof (next_month y 3 ltac:(lia)) as N. change (3 + 1) with 4 in N.
      change (days_in_month y 3) with 31 in N. rewrite N.
      rewrite (days_from_civil_day y 3 28 1). ring.
    + change (days_in_month y 4) with 30. lia.
Qed.
(* Easter is a Sunday between 22 March and 25 April *)
Lemma easter_spec y :
  weekday_of_day (easter_day y) = 6 /\ year_of_day (easter_day y) = y /\
  days_from_civil y 3 22 <= easter_day y <= days_from_civil y 4 25.
Proof.
  unfold easter_day. set (g := y mod 19). set (c := y / 100).
  set (h := (c - c / 4 - (8 * c + 13) / 25 + 19 * g + 15) mod 30).
  change (h - h / 28 * (1 - h / 28 * (29 / (h + 1)) * ((21 - g) / 11))) with (easter_i h g).
  assert (Hi : 0 <= easter_i h g <= 28).
  { assert (Hg : 0 <= g < 19) by (subst g; apply Z.mod_pos_bound; lia).
    assert (Hh : 0 <= h < 30) by (subst h; apply Z.mod_pos_bound; lia).
    pose proof (upto_forallb _ _ easter_i_sweep h ltac:(lia)) as S1. cbv beta in S1.
    pose proof (upto_forallb _ _ S1 g ltac:(lia)) as S2. cbv beta in S2.
    rewrite andb_true_iff, !Z.leb_le in S2. exact S2. }
  set (i := easter_i h g) in *. clearbody i. clear h.
  set (j := (y + y / 4 + i + 2 - c + c / 4) mod 7).
  assert (Hj : 0 <= j < 7) by (subst j; apply Z.mod_pos_bound; lia).
  cbv zeta. set (p := i - j). assert (Hp : -6 <= p <= 28) by lia.
  pose proof (easter_md_spec p y Hp) as M. unfold easter_md in M.
  set (m := 3 + (p + 26) / 30) in *. set (d := 1 + (p + 27 + (p + 6) / 40) mod 31) in *.
  destruct M as (E & V & R). rewrite E.
  assert (B : days_from_civil y 3 28 = 365 * y + y / 4 - c + c / 4 - 719468 + 27).
  { rewrite days_from_civil_yday. change (3 <=? 2) with false. cbv iota.
    change (mdoy (mp_of 3)) with 0. rewrite yday_closed.
    replace (c / 4) with (y / 400) by (subst c; rewrite Z.div_div by lia; reflexivity).
    fold c. ring. }
  split; [|split].
  - rewrite B. unfold weekday_of_day. subst p j. clear. clearbody c. dm.
  - rewrite <- E. now apply year_of_date.
  - assert (E22 : days_from_civil y 3 22 = days_from_civil y 3 28 - 6)
      by (rewrite (days_from_civil_day y 3 28 22); ring).
    assert (E25 : days_from_civil y 4 25 = days_from_civil y 3 28 + 28).
    { rewrite (days_from_civil_day y 4 1 25). pose proof (next_month y 3 ltac:(lia)) as N.
      change (3 + 1) with 4 in N. change (days_in_month y 3) with 31 in N. rewrite N.
      rewrite (days_from_civil_day y 3 28 1). ring. }
    lia.
Qed.
Lemma easter_holidays y :
  weekday_of_day (holiday_in_year good_friday y) = 4 /\
  weekday_of_day (holiday_in_year easter_monday y) = 0 /\
  holiday_in_year easter_monday y = holiday_in_year good_friday y + 3 /\
  days_from_civil y 3 20 <= holiday_in_year good_friday y <= days_from_civil y 4 23.
Proof.
  unfold holiday_in_year. cbn [h_apply h_month h_day good_friday easter_monday].
  rewrite year_of_date by (split; [lia|rewrite jan_31; lia]).
  destruct (easter_spec y) as (E1 & _ & E2).
  rewrite (days_from_civil_day y 3 22 20), (days_from_civil_day y 4 25 23).
  set (e := easter_day y) in *. clearbody e. repeat split; try lia; clear - E1;
    unfold weekday_of_day in *; dm.
Qed.

(* ---- calendars: exactly the rule days of every year within the range ---- *)
Lemma zrange_in a b y : In y (zrange a b) <-> a <= y <= b.
Proof.
  unfold zrange. rewrite in_map_iff. split.
  - intros (k & <- & Hk). apply in_seq in Hk. lia.
  - intros Hy. exists (Z.to_nat (y - a)). split; [lia|]. apply in_seq. lia.
Qed.
(* a rule moves the reference day by less than a year *)
Definition local_rule (h : holiday) : Prop :=
  forall y, Z.abs (year_of_day (holiday_in_year h y) - y) <= 1.

Lemma jan1 y : valid_date y 1 1. Proof. split; [lia|rewrite jan_31; lia]. Qed.
Lemma year_bounds n : days_from_civil (year_of_day n) 1 1 <= n < days_from_civil (year_of_day n + 1) 1 1.
Proof.
  destruct (civil_of_day n) as ([Vm Vd] & E). set (y := year_of_day n) in *.
  set (m := month_of_day n) in *. set (d := dom_of_day n) in *. rewrite <- E.
  assert (M : forall k, (k <= 11)%nat ->
    days_from_civil y 1 1 + 28 * Z.of_nat k <= days_from_civil y (1 + Z.of_nat k) 1).
  { induction k as [|k IH]; intros Hk; [cbn; lia|].
    specialize (IH ltac:(lia)). pose proof (next_month y (1 + Z.of_nat k) ltac:(lia)) as N.
    replace (1 + Z.of_nat (S k)) with (1 + Z.of_nat k + 1) by lia. rewrite N.
    assert (28 <= days_in_month y (1 + Z.of_nat k)); [|lia].
    unfold days_in_month. destruct (_ =? 2); [destruct (leap y); lia|].
    destruct (_ || _); lia. }
  assert (M2 : forall k, (k <= 11)%nat ->
    days_from_civil y (12 - Z.of_nat k) 1 + days_in_month y (12 - Z.of_nat k) <= days_from_civil (y + 1) 1 1).
  { induction k as [|k IH]; intros Hk.
    - rewrite next_year. change (12 - Z.of_nat 0) with 12. rewrite dec_31. lia.
    - specialize (IH ltac:(lia)). pose proof (next_month y (12 - Z.of_nat (S k)) ltac:(lia)) as N.
      replace (12 - Z.of_nat (S k) + 1) with (12 - Z.of_nat k) in N by lia.
      assert (28 <= days_in_month y (12 - Z.of_nat k)); [|lia].
      unfold days_in_month. destruct (_ =? 2); [destruct (leap y); lia|].
      destruct (_ || _); lia. }
  rewrite (days_from_civil_day y m 1 d).
  specialize (M (Z.to_nat (m - 1)) ltac:(lia)). specialize (M2 (Z.to_nat (12 - m)) ltac:(lia)).
  replace (1 + Z.of_nat (Z.to_nat (m - 1))) with m in M by lia.
  replace (12 - Z.of_nat (Z.to_nat (12 - m))) with m in M2 by lia. lia.
Qed.
Lemma year_start_mono y y' : y <= y' -> days_from_civil y 1 1 <= days_from_civil y' 1 1.
Proof.
  intros Hy. rewrite !days_from_civil_yday. change (1 <=? 2) with true. cbv iota.
  rewrite !yday_closed. change (mdoy (mp_of 1)) with 306. dm.
Qed.
Lemma year_mono n n' : n <= n' -> year_of_day n <= year_of_day n'.
Proof.
  intros Hn. pose proof (year_bounds n). pose proof (year_bounds n').
  destruct (Z_le_gt_dec (year_of_day n) (year_of_day n')) as [|G]; [assumption|].
  pose proof (year_start_mono (year_of_day n' + 1) (year_of_day n) ltac:(lia)). lia.
Qed.
Lemma holiday_dates_in h t0 t1 t : local_rule h ->
  (In t (holiday_dates h t0 t1) <-> t0 <= t <= t1 /\ exists y, t = holiday_in_year h y * DAY).
Proof.
  intros L. unfold holiday_dates. rewrite filter_In, in_map_iff, andb_true_iff, !Z.leb_le. split.
  - intros [(y & <- & _) Hb]. eauto.
  - intros [Hb (y & ->)]. split; [|exact Hb]. exists y. split; [reflexivity|].
    apply zrange_in. set (n := holiday_in_year h y) in *. pose proof (L y) as Ly. fold n in Ly.
    assert (Hd : day_of (n * DAY) = n) by (unfold day_of; apply Z.div_mul; pose proof DAY_pos; lia).
    assert (H0 : day_of t0 <= n) by (rewrite <- Hd; apply Z.div_le_mono; [pose proof DAY_pos; lia|lia]).
    assert (H1 : n <= day_of t1) by (rewrite <- Hd; apply Z.div_le_mono; [pose proof DAY_pos; lia|lia]).
    apply year_mono in H0, H1. unfold year. lia.
Qed.
Lemma calendar_holidays_in c t0 t1 t : Forall local_rule (cal_rules c) ->
  (In t (calendar_holidays c t0 t1) <->
   t0 <= t <= t1 /\ exists h y, In h (cal_rules c) /\ t = holiday_in_year h y * DAY).
Proof.
  intros F. unfold calendar_holidays. rewrite zsort_in, in_flat_map. rewrite Forall_forall in F. split.
  - intros (h & Hh & Ht). apply holiday_dates_in in Ht as [Hb (y & ->)]; [eauto 6|auto].
  - intros [Hb (h & y & Hh & ->)]. exists h. split; [exact Hh|]. apply holiday_dates_in; eauto.
Qed.
Lemma local_near h : (forall y, exists m d, valid_date y m d /\ 
   days_from_civil y m d <= holiday_in_year h y <= days_from_civil y m d + 300) -> local_rule h.
Proof.
  intros Hn y. destruct (Hn y) as (m & d & V & B).
  set (a := days_from_civil y m d) in *. set (n := holiday_in_year h y) in *.
  assert (Ya : year_of_day a = y) by now apply year_of_date.
  pose proof (year_bounds a) as Ba. rewrite Ya in Ba.
  assert (H1 : y <= year_of_day n) by (rewrite <- Ya; apply year_mono; lia).
  assert (H2 : year_of_day n <= y + 1).
  { pose proof (year_bounds n) as Bn.
    destruct (Z_le_gt_dec (year_of_day n) (y + 1)) as [|G]; [assumption|].
    pose proof (year_start_mono (y + 2) (year_of_day n) ltac:(lia)).
    assert (days_from_civil (y + 1) 1 1 + 365 <= days_from_civil (y + 2) 1 1); [|lia].
    rewrite !days_from_civil_yday. change (1 <=? 2) with true. cbv iota.
    rewrite !yday_closed. change (mdoy (mp_of 1)) with 306. clear. dm. }
  lia.
Qed.
Lemma shipped_local : Forall local_rule (cal_rules CalendarBankHolUK ++ cal_rules CalendarChristmasUK ++
  cal_rules CalendarBankHolIta ++ cal_rules CalendarChristmasIta)%list.
Proof.
  assert (Hv : forall y m d, In (m, d) [(1,1);(1,6);(3,20);(3,22);(4,25);(5,1);(6,2);(8,15);(11,1);(12,8);(12,25);(12,26);(5,24);(8,23)] ->
     valid_date y m d).
  { intros y m d Hi. cbn in Hi. repeat destruct Hi as [[= <- <-]|Hi]; try destruct Hi;
      split; try lia; unfold days_in_month; cbn; lia. }
  assert (Fx : forall name m d, In (m, d) [(1,1);(1,6);(3,20);(3,22);(4,25);(5,1);(6,2);(8,15);(11,1);(12,8);(12,25);(12,26);(5,24);(8,23)] ->
     local_rule (fixed_holiday name m d)).
  { intros name m d Hi. apply local_near. intros y. exists m, d. split; [now apply Hv|].
    unfold holiday_in_year. cbn. lia. }
  assert (Ny : local_rule hol_new_year).
  { apply local_near. intros y. exists 1, 1. split; [apply Hv; cbn; tauto|].
    destruct (christmas_rules y) as (_ & _ & _ & _ & H1 & _). lia. }
  assert (Xm : local_rule hol_christmas).
  { apply local_near. intros y. exists 12, 25. split; [apply Hv; cbn; tauto|].
    destruct (christmas_rules y) as (_ & _ & _ & _ & _ & H1 & _). lia. }
  assert (Bx : local_rule hol_boxing_day).
  { apply local_near. intros y. exists 12, 26. split; [apply Hv; cbn; tauto|].
    destruct (christmas_rules y) as (_ & _ & _ & _ & _ & _ & H1). lia. }
  assert (Ss : local_rule hol_santo_stefano) by exact Bx.
  assert (Ep : local_rule hol_epiphany).
  { apply local_near. intros y. exists 1, 6. split; [apply Hv; cbn; tauto|].
    destruct (ita_christmas_rules y) as (_ & _ & _ & _ & H1). lia. }
  assert (Gf : local_rule good_friday).
  { apply local_near. intros y. exists 3, 20. split; [apply Hv; cbn; tauto|].
    destruct (easter_holidays y) as (_ & _ & _ & H1).
    pose proof (next_month y 3 ltac:(lia)) as N. change (3 + 1) with 4 in N.
    change (days_in_month y 3) with 31 in N.
    rewrite (days_from_civil_day y 4 1 23) in H1. rewrite (days_from_civil_day y 3 1 20) in *. lia. }
  assert (Em : local_rule easter_monday).
  { apply local_near. intros y. exists 3, 20. split; [apply Hv; cbn; tauto|].
    destruct (easter_holidays y) as (_ & _ & H0 & H1).
    pose proof (next_month y 3 ltac:(lia)) as N. change (3 + 1) with 4 in N.
    change (days_in_month y 3) with 31 in N.
    rewrite (days_from_civil_day y 4 1 23) in H1. rewrite (days_from_civil_day y 3 1 20) in *. lia. }
  assert (G : forall h, (forall y, year_of_day (holiday_in_year h y) = y) -> local_rule h).
  { intros h E y. rewrite E. lia. }
  assert (M1 : local_rule hol_early_may) by (apply G; intros y; apply (early_may y)).
  assert (M2 : local_rule hol_spring) by (apply G; intros y; apply (spring y)).
  assert (M3 : local_rule hol_august) by (apply G; intros y; apply (august y)).
  cbn [cal_rules CalendarBankHolUK CalendarChristmasUK CalendarBankHolIta CalendarChristmasIta app].
  repeat (apply Forall_cons; [try assumption; try (apply Fx; cbn; tauto)|]). constructor.
Qed.

(* ---------- C19: calendar and date-list models ---------- *)
Local Open Scope nat_scope.
(* specification: effects of several dummies combine by + (additive) or * (multiplicative) *)
Fixpoint total (mult : bool) (l : list R) : R :=
  match l with
  | [] => neutral mult
  | a :: l => (if mult then a * total mult l else a + total mult l)%R
  end.

Definition mcomb (mult : bool) : fmodel XR -> fmodel XR -> fmodel XR := if mult then mmul else madd.
Definition ncomb (mult : bool) : XR -> XR -> XR := if mult then nmul else nadd.
Definition rcomb (mult : bool) : R -> R -> R := if mult then Rmult else Rplus.

Lemma map2_fins f g (l1 l2 : list R) : (forall a b, f (Fin a) (Fin b) = Fin (g a b)) ->
  map2 f (fins l1) (fins l2) = fins (map (fun ab => g (fst ab) (snd ab)) (combine l1 l2)).
Proof.
  intros E. unfold map2, fins. revert l2. induction l1 as [|a l1 IH]; intros [|b l2]; cbn; auto.
  rewrite IH, E. reflexivity.
Qed.
Lemma comb_fin mult a b : ncomb mult (Fin a) (Fin b) = Fin (rcomb mult a b).
Proof. destruct mult; reflexivity. Qed.

Definition fcall (mult : bool) (m : fmodel XR) xs d p kw : res (nval XR) :=
  fm_f m xs d (Some p) (Some mult) kw.

Lemma mcomb_props mult (m1 m2 : fmodel XR) : fm_name m1 <> "null" -> fm_name m2 <> "null" ->
  fm_n (mcomb mult m1 m2) = fm_n m1 + fm_n m2 /\ fm_name (mcomb mult m1 m2) <> "null" /\
  (forall xs d p kw, fcall mult (mcomb mult m1 m2) xs d p kw =
     let* a := fcall mult m1 xs d (firstn (fm_n m1) p) kw in
     let* b := fcall mult m2 xs d (skipn (fm_n m1) p) kw in
     bcast2 (ncomb mult) a b).
Proof.
  intros H1 H2. apply String.eqb_neq in H1, H2.
  destruct mult; unfold mcomb, ncomb, madd, mmul, is_null, fcall; rewrite H1, H2; repeat split; discriminate.
Qed.

(* folding one-parameter models onto m0 *)
Lemma fold_call mult xs (ds : list Z) kw n (ms : list (fmodel XR)) : forall m0 p0 v0 (as_ : list R) (vs : list (list R)),
  fm_name m0 <> "null" -> length p0 = fm_n m0 -> fcall mult m0 xs (Some ds) p0 kw = Ok (Ar (fins v0)) -> length v0 = n ->
  Forall (fun m => fm_name m <> "null" /\ fm_n m = 1) ms ->
  Forall2 (fun ma v => fcall mult (fst ma) xs (Some ds) [Fin (snd ma)] kw = Ok (Ar (fins v)) /\ length v = n)
    (combine ms as_) vs -> length as_ = length ms ->
  fm_n (fold_left (mcomb mult) ms m0) = fm_n m0 + length ms /\
  fm_name (fold_left (mcomb mult) ms m0) <> "null" /\
  fcall mult (fold_left (mcomb mult) ms m0) xs (Some ds) (p0 ++ fins as_) kw =
  Ok (Ar (fins (fold_left (fun acc v => map (fun ab => rcomb mult (fst ab) (snd ab)) (combine acc v)) vs v0))).
Proof.
  induction ms as [|m ms IH]; intros m0 p0 v0 as_ vs Hn Hp E Hl F F2 La.
  - destruct as_; [|discriminate]. inversion F2; subst. cbn. rewrite app_nil_r. repeat split; auto.
  - destruct as_ as [|a as_]; [discriminate|]. inversion F2 as [|? v ? vs' [Ev Lv] F2' ]; subst.
    inversion F as [|? ? [Nm Cm] F']; subst. cbn [fst snd] in Ev.
    destruct (mcomb_props mult m0 m Hn Nm) as (P1 & P2 & P3).
    destruct (IH (mcomb mult m0 m) (p0 ++ [Fin a])%list
      (map (fun ab => rcomb mult (fst ab) (snd ab)) (combine v0 v)) as_ vs') as (Q1 & Q2 & Q3).
    + exact P2.
    + rewrite app_length, P1, Hp, Cm. reflexivity.
    + rewrite P3, <- Hp, firstn_app, Nat.sub_diag, firstn_all, skipn_app, skipn_all, Nat.sub_diag.
      cbn [firstn skipn]. rewrite app_nil_r, app_nil_l, E, Ev. cbn [rbind bcast2].
      unfold fins at 1 2. rewrite !map_length, Lv, Nat.eqb_refl.
      fold (fins v0). fold (fins v). now rewrite (map2_fins _ (rcomb mult)) by apply comb_fin.
    + rewrite map_length, combine_length. lia.
    + exact F'.
    + exact F2'.
    + cbn in La. lia.
    + cbn [fold_left length]. rewrite Q1, P1, Cm. split; [lia|]. split; [exact Q2|].
      cbn [fins map]. unfold fins in Q3 at 1. rewrite <- app_assoc in Q3. exact Q3.
Qed.

(* pointwise reading of the fold *)
Lemma fold_pointwise mult (ds : list Z) (gs : list (Z -> R)) : forall g0 : Z -> R,
  fold_left (fun acc v => map (fun ab => rcomb mult (fst ab) (snd ab)) (combine acc v))
    (map (fun g => map g ds) gs) (map g0 ds) =
  map (fun t => rcomb mult (g0 t) (total mult (map (fun g => g t) gs))) ds.
Proof.
  induction gs as [|g gs IH]; intros g0.
  - cbn. apply map_ext. intros t. destruct mult; cbn; unfold neutral; ring.
  - cbn [map fold_left].
    assert (E : map (fun ab => rcomb mult (fst ab) (snd ab)) (combine (map g0 ds) (map g ds)) =
                map (fun t => rcomb mult (g0 t) (g t)) ds).
    { clear. induction ds as [|t ds IH]; [reflexivity|]. cbn. now rewrite IH. }
    rewrite E, (IH (fun t => rcomb mult (g0 t) (g t))). apply map_ext. intros t. cbn.
    destruct mult; cbn; ring.
Qed.

(* effect of list/calendar i with parameter a on timestamp t; [ins] = one membership test each *)
Definition effects (mult : bool) (ins : list (Z -> bool)) (ps : list R) (t : Z) : list R :=
  map (fun ia => dummy_effect mult (snd ia) (fst ia t)) (combine ins ps).

Lemma dummies_sum mult xs ds act (ms : list (fmodel XR)) (ins : list (Z -> bool)) ps :
  ms <> [] ->
  Forall2 (fun m i => fm_name m <> "null" /\ fm_n m = 1 /\
     forall A, fcall mult m xs (Some ds) [Fin A] (mkKw act []) =
       Ok (Ar (fins (map (fun t => dummy_effect mult A (i t)) ds)))) ms ins ->
  length ps = length ms ->
  fcall mult (reduce (mcomb mult) ms) xs (Some ds) (fins ps) (mkKw act []) =
  Ok (Ar (fins (map (fun t => total mult (effects mult ins ps t)) ds))).
Proof.
  intros Hne F Lp. destruct F as [|m0 i0 ms ins (N0 & C0 & E0) F]; [contradiction|].
  destruct ps as [|a0 ps]; [discriminate|]. cbn [reduce].
  assert (Lps : length ps = length ms) by (cbn in Lp; lia). clear Lp Hne.
  pose proof (fold_call mult xs ds (mkKw act []) (length ds) ms m0 [Fin a0]
    (map (fun t => dummy_effect mult a0 (i0 t)) ds) ps
    (map (fun g => map g ds) (map (fun ia t => dummy_effect mult (snd ia) (fst ia t)) (combine ins ps)))) as K.
  destruct K as (_ & _ & K).
  - exact N0.
  - now rewrite C0.
  - apply E0.
  - now rewrite map_length.
  - clear - F. induction F as [|m i ms ins (A & B & _) F IH]; constructor; auto.
  - clear - F Lps. revert ps Lps. induction F as [|m i ms ins (A & B & E) F IH]; intros [|a ps] L; try discriminate.
    + constructor.
    + cbn [combine map]. constructor.
      * split; [apply E|now rewrite map_length].
      * apply IH. cbn in L. lia.
  - exact Lps.
  - rewrite fold_pointwise in K. change (fins (a0 :: ps)) with ([Fin a0] ++ fins ps)%list. rewrite K.
    do 3 f_equal. apply map_ext. intros t. cbn [effects combine map total fst snd].
    unfold effects. rewrite !map_map. destruct mult; reflexivity.
Qed.
Lemma reduce_n mult (ms : list (fmodel XR)) : ms <> [] ->
  Forall (fun m => fm_name m <> "null" /\ fm_n m = 1) ms ->
  fm_n (reduce (mcomb mult) ms) = length ms /\ fm_name (reduce (mcomb mult) ms) <> "null".
Proof.
  intros Hne F. destruct F as [|m0 ms (N0 & C0) F]; [contradiction|]. cbn [reduce length]. clear Hne.
  assert (G : forall k, fm_n m0 = k -> fm_n (fold_left (mcomb mult) ms m0) = k + length ms /\
    fm_name (fold_left (mcomb mult) ms m0) <> "null").
  { clear C0. revert m0 N0. induction F as [|m ms (Nm & Cm) F IH]; intros m0 N0 k C0.
    - cbn. split; [lia|exact N0].
    - cbn [fold_left length]. destruct (mcomb_props mult m0 m N0 Nm) as (P1 & P2 & _).
      destruct (IH _ P2 (k + 1) ltac:(lia)) as [Q1 Q2]. split; [lia|exact Q2]. }
  destruct (G 1 C0). auto.
Qed.

(* --- calendars --- *)
Definition cal_in (c : calendar) (ds : list Z) (t : Z) : bool :=
  match zmin_opt ds, zmax_opt ds with
  | Some a, Some b => in_list_Z (calendar_holidays c a b) t
  | _, _ => false
  end.
Lemma zmin_max_some ds : ds <> [] -> exists a b, zmin_opt ds = Some a /\ zmax_opt ds = Some b /\
  forall t, In t ds -> (a <= t <= b)%Z.
Proof.
  destruct ds as [|t0 ds]; [contradiction|]. intros _. cbn [zmin_opt zmax_opt]. do 2 eexists.
  split; [reflexivity|]. split; [reflexivity|]. intros t Ht.
  assert (B : forall l a b, (fold_left Z.min l a <= a)%Z /\ (b <= fold_left Z.max l b)%Z /\
     forall t, In t l -> (fold_left Z.min l a <= t <= fold_left Z.max l b)%Z).
  { induction l as [|u l IH]; intros a b; cbn; [repeat split; try lia; contradiction|].
    destruct (IH (Z.min a u) (Z.max b u)) as (I1 & I2 & I3). repeat split; try lia;
      destruct H as [->|H]; try (specialize (I3 _ H)); lia. }
  destruct (B ds t0 t0) as (B1 & B2 & B3). destruct Ht as [<-|Ht]; [lia|auto].
Qed.
(* membership does not depend on the range of the sampled dates *)
Lemma cal_in_iff c ds t : Forall local_rule (cal_rules c) -> In t ds ->
  (cal_in c ds t = true <-> exists h y, In h (cal_rules c) /\ t = (holiday_in_year h y * DAY)%Z).
Proof.
  intros L Ht. destruct (zmin_max_some ds) as (a & b & Ea & Eb & B); [destruct ds; [destruct Ht|discriminate]|].
  unfold cal_in. rewrite Ea, Eb, in_list_Z_iff, calendar_holidays_in by exact L. specialize (B t Ht).
  split; [tauto|]. intros E. split; [lia|exact E].
Qed.

Lemma cal_mask c (xs : list XR) ds : ds <> [] ->
  exists f, get_f_dummy (DCal c) = Ok f /\ f xs (Some ds) = Ok (map nofbool (map (cal_in c ds) ds)).
Proof.
  intros Hd. eexists. split; [reflexivity|]. cbn beta.
  destruct (zmin_max_some ds Hd) as (a & b & Ea & Eb & _). unfold date_range_of. rewrite Ea, Eb.
  cbn [rbind]. rewrite isin_dates_bool. do 2 f_equal. apply map_ext. intros t. unfold cal_in.
  now rewrite Ea, Eb.
Qed.
Lemma cal_dummy c : exists m, get_model_dummy (T:=XR) (cal_name c) (DCal c) = Ok m /\
  fm_name m = cal_name c /\ fm_n m = 1 /\
  forall xs ds A mult act, ds <> [] ->
    fcall mult m xs (Some ds) [Fin A] (mkKw act []) =
      Ok (Ar (fins (map (fun t => dummy_effect mult A (cal_in c ds t)) ds))).
Proof.
  destruct (cal_mask c probe_x probe_dates ltac:(discriminate)) as (f & Ef & Em).
  exists (dummy_model_of (cal_name c) f). split; [now apply (get_model_dummy_ok _ _ f (map (cal_in c probe_dates) probe_dates))|].
  repeat split. intros xs ds A mult act Hd.
  destruct (cal_mask c xs ds Hd) as (f' & Ef' & Em'). rewrite Ef in Ef'. injection Ef' as <-.
  pose proof (dummy_prediction (cal_name c) f xs (Some ds) _ A mult act Em') as P.
  unfold call in P. unfold fcall. rewrite P. now rewrite map_map.
Qed.

(* the x column, if given, has no null *)
Definition no_nan_opt (x : option (list XR)) : Prop :=
  match x with Some l => existsb nisnan l | None => false end = false.
Lemma neutral_guess x y d mult rnd n : no_nan_opt x ->
  init_validated (init_neutral (T:=XR) n) x y d mult rnd = Ok (fins (repeat (neutral mult) n)).
Proof.
  intros Hx. unfold init_validated, no_nan_opt in *.
  assert (E : init_neutral (T:=XR) n x y d mult rnd = Ok (fins (repeat (neutral mult) n))).
  { unfold init_neutral. f_equal. clear. induction n; [reflexivity|]. cbn [repeat fins map].
    unfold fins in IHn. rewrite <- IHn, ofbool_fin. destruct mult; reflexivity. }
  destruct x; [now rewrite Hx|exact E].
Qed.
Definition has_rules (c : calendar) : bool := match cal_rules c with [] => false | _ => true end.

Lemma rmapM_exists {A B} (f : A -> res B) (P : A -> B -> Prop) l :
  (forall a, In a l -> exists b, f a = Ok b /\ P a b) ->
  exists bs, rmapM f l = Ok bs /\ Forall2 P l bs.
Proof.
  induction l as [|a l IH]; intros Hl.
  - exists []. split; [reflexivity|constructor].
  - destruct (Hl a (or_introl eq_refl)) as (b & Eb & Pb).
    destruct IH as (bs & Ebs & Fbs); [intros; apply Hl; now right|].
    exists (b :: bs). cbn [rmapM]. rewrite Eb. cbn [rbind]. rewrite Ebs. split; [reflexivity|now constructor].
Qed.

Lemma forall2_length {A B} (P : A -> B -> Prop) l l' : Forall2 P l l' -> length l = length l'.
Proof. induction 1; cbn; auto. Qed.
Lemma calendars_ok cals name :
  filter has_rules cals <> [] -> Forall (fun c => cal_name c <> "null") cals ->
  exists m, get_model_from_calendars (T:=XR) cals name = Ok m /\
    fm_n m = length (filter has_rules cals) /\
    (forall c0, name = None -> hd_error (filter has_rules cals) = Some c0 -> fm_name m = cal_name c0) /\
    (forall s, name = Some s -> fm_name m = s) /\
    (forall xs ds ps mult act, ds <> [] -> length ps = fm_n m ->
       call m xs (Some ds) (Some (fins ps)) mult (mkKw act []) =
       Ok (Ar (fins (map (fun t => total mult
          (effects mult (map (fun c => cal_in c ds) (filter has_rules cals)) ps t)) ds)))) /\
    (forall x y d mult rnd, no_nan_opt x ->
       fm_init m x y d mult rnd = Ok (fins (repeat (neutral mult) (fm_n m)))).
Proof.
  intros Hne Hnull.
  assert (Hnull' : Forall (fun c => cal_name c <> "null") (filter has_rules cals)).
  { rewrite Forall_forall in *. intros c Hc. apply filter_In in Hc. now apply Hnull. }
  destruct (rmapM_exists (fun c => get_model_dummy (T:=XR) (cal_name c) (DCal c))
     (fun c m => cal_name c = fm_name m /\ fm_n m = 1 /\
        forall xs ds A mult act, ds <> [] ->
          fcall mult m xs (Some ds) [Fin A] (mkKw act []) =
          Ok (Ar (fins (map (fun t => dummy_effect mult A (cal_in c ds t)) ds))))
     (filter has_rules cals)) as (ms & Ems & F).
  { intros c _. destruct (cal_dummy c) as (m & E & N1 & N2 & P). exists m. repeat split; auto. }
  unfold get_model_from_calendars. change (fun c => match cal_rules c with [] => false | _ => true end) with has_rules.
  set (l := filter has_rules cals) in *. clearbody l. destruct l as [|c0 l]; [contradiction|].
  rewrite Ems. cbn [rbind].
  assert (Lm : length (c0 :: l) = length ms) by exact (forall2_length _ _ _ F).
  assert (Hm : ms <> []) by (destruct ms; [discriminate|discriminate]).
  assert (F1 : Forall (fun m => fm_name m <> "null" /\ fm_n m = 1) ms).
  { clear - F Hnull'. induction F as [|c m cs ms (A & B & _) F IH]; [constructor|].
    inversion Hnull'; subst. constructor; [split; [congruence|exact B]|auto]. }
  eexists. split; [reflexivity|]. cbn [fm_n fm_name fm_init mk_model]. split; [now rewrite Lm|].
  split; [intros c ->; cbn; congruence|]. split; [intros s ->; reflexivity|]. split.
  - intros xs ds ps mult act Hd Lp. unfold call. cbn [fm_f mk_model]. unfold f_all_dummies. cbn [mode_of].
    assert (G : fcall mult (reduce (mcomb mult) ms) xs (Some ds) (fins ps) (mkKw act []) =
      Ok (Ar (fins (map (fun t => total mult (effects mult (map (fun c => cal_in c ds) (c0 :: l)) ps t)) ds)))).
    { apply dummies_sum; [exact Hm| |exact Lp].
      clear - F Hd Hnull'. induction F as [|c m cs ms (A & B & E) F IH]; cbn [map]; [constructor|].
      inversion Hnull'; subst. constructor; [|auto]. repeat split; [congruence|exact B|].
      intros A'. now apply E. }
    unfold fcall in G. unfold call. destruct mult; exact G.
  - intros x y d mult rnd Hx. now apply neutral_guess.
Qed.
Lemma calendars_none (T : Type) (N : NumOps T) cals name : filter has_rules cals = [] ->
  get_model_from_calendars (T:=T) cals name = Err AssertionError.
Proof.
  intros E. unfold get_model_from_calendars.
  change (fun c => match cal_rules c with [] => false | _ => true end) with has_rules. now rewrite E.
Qed.

(* --- date lists --- *)
Lemma datelists_ok name args : args <> [] -> Forall (fun l => l <> []) args ->
  exists m, get_model_from_datelist (T:=XR) name args = Ok m /\
    fm_n m = length args /\ fm_name m = name /\
    (forall xs ds ps mult act, length ps = fm_n m ->
       call m xs (Some ds) (Some (fins ps)) mult (mkKw act []) =
       Ok (Ar (fins (map (fun t => total mult (effects mult (map in_list_Z args) ps t)) ds)))) /\
    (forall x y d mult rnd, no_nan_opt x ->
       fm_init m x y d mult rnd = Ok (fins (repeat (neutral mult) (fm_n m)))).
Proof.
  intros Hne Hl.
  destruct (rmapM_exists (fun l => get_model_dummy (T:=XR) "model_dummy" (DDates l))
     (fun l m => fm_name m = "model_dummy" /\ fm_n m = 1 /\
        forall xs ds A mult act,
          fcall mult m xs (Some ds) [Fin A] (mkKw act []) =
          Ok (Ar (fins (map (fun t => dummy_effect mult A (in_list_Z l t)) ds))))
     args) as (ms & Ems & F).
  { intros l Hi. rewrite Forall_forall in Hl. destruct (dummy_dates "model_dummy" l (Hl l Hi)) as (m & E & N1 & N2 & P).
    exists m. repeat split; auto. }
  unfold get_model_from_datelist. rewrite Ems. cbn [rbind].
  assert (Lm : length args = length ms) by exact (forall2_length _ _ _ F).
  destruct ms as [|m0 ms]; [destruct args; [contradiction|discriminate]|].
  set (l := m0 :: ms) in *. assert (Hm : l <> []) by discriminate. clearbody l.
  eexists. split; [reflexivity|]. cbn [fm_n fm_name fm_init mk_model]. split; [now rewrite Lm|].
  split; [reflexivity|]. split.
  - intros xs ds ps mult act Lp. unfold call. cbn [fm_f mk_model]. unfold f_all_dummies. cbn [mode_of].
    assert (G : fcall mult (reduce (mcomb mult) l) xs (Some ds) (fins ps) (mkKw act []) =
      Ok (Ar (fins (map (fun t => total mult (effects mult (map in_list_Z args) ps t)) ds)))).
    { apply dummies_sum; [exact Hm| |exact Lp].
      clear - F. induction F as [|c m cs ms (A & B & E) F IH]; cbn [map]; [constructor|].
      constructor; [|auto]. repeat split; [rewrite A; discriminate|exact B|].
      intros A'. now apply E. }
    unfold fcall in G. unfold call. destruct mult; exact G.
  - intros x y d mult rnd Hx. now apply neutral_guess.
Qed.
Lemma dates_dummy_err {T} `{NumOps T} name l e :
  get_model_dummy (T:=T) name (DDates l) = Err e -> e = AssertionError.
Proof.
  unfold get_model_dummy. destruct l as [|t l]; [now intros [= <-]|]. cbn [get_f_dummy rbind].
  unfold validate_f_dummy. cbn [rbind]. destruct (forallb _ _); [discriminate|now intros [= <-]].
Qed.
Lemma datelists_refused (T : Type) (N : NumOps T) name args :
  args = [] \/ In [] args -> get_model_from_datelist (T:=T) name args = Err AssertionError.
Proof.
  unfold get_model_from_datelist. intros [->|Hi]; [reflexivity|].
  assert (rmapM (fun l => get_model_dummy (T:=T) "model_dummy" (DDates l)) args = Err AssertionError) as ->;
    [|reflexivity].
  induction args as [|l args IH]; [destruct Hi|]. cbn [rmapM].
  destruct l as [|t l]; [reflexivity|]. destruct Hi as [Hi|Hi]; [discriminate|]. specialize (IH Hi).
  destruct (get_model_dummy (T:=T) "model_dummy" (DDates (t :: l))) as [m|e] eqn:E.
  - cbn [rbind]. now rewrite IH.
  - cbn [rbind]. f_equal. now apply dates_dummy_err in E.
Qed.

(* only dates of list i feel parameter i *)
Lemma total_ext mult (l l' : list R) : l = l' -> total mult l = total mult l'.
Proof. now intros ->. Qed.
Lemma nth_error_ext {A} : forall l l' : list A, (forall n, nth_error l n = nth_error l' n) -> l = l'.
Proof.
  induction l as [|a l IH]; intros [|b l'] E; auto; try (specialize (E 0); discriminate E).
  f_equal; [specialize (E 0); cbn in E; congruence|]. apply IH. intros n. apply (E (S n)).
Qed.
Lemma effects_locality mult ins ps ps' t i : length ps = length ins -> length ps' = length ins ->
  (forall j, j <> i -> nth_error ps j = nth_error ps' j) ->
  (forall f, nth_error ins i = Some f -> f t = false) ->
  total mult (effects mult ins ps t) = total mult (effects mult ins ps' t).
Proof.
  intros L L' Hj Hi. apply total_ext. unfold effects. revert ps ps' i L L' Hj Hi.
  induction ins as [|f ins IH]; intros [|a ps] [|a' ps'] i L L' Hj Hi; try discriminate; [reflexivity|].
  cbn [combine map fst snd]. destruct i as [|i].
  - rewrite (Hi f eq_refl). f_equal.
    f_equal. f_equal. apply nth_error_ext. intros n. apply (Hj (S n)). discriminate.
  - f_equal.
    + specialize (Hj 0 ltac:(discriminate)). cbn in Hj. congruence.
    + apply (IH ps ps' i); try (cbn in L, L'; lia).
      * intros j Hne. apply (Hj (S j)). congruence.
      * exact Hi.
Qed.
(* the multiplicative guess doubles a date lying in exactly one list *)
Fixpoint count_in (ins : list (Z -> bool)) (t : Z) : nat :=
  match ins with [] => 0 | f :: ins => (if f t then 1 else 0) + count_in ins t end.
Lemma guess_effect mult ins t :
  total mult (effects mult ins (repeat (neutral mult) (length ins)) t) =
  (if mult then 2 ^ count_in ins t else 0)%R.
Proof.
  unfold effects. induction ins as [|f ins IH]; cbn [length repeat combine map fst snd count_in total].
  - destruct mult; cbn; unfold neutral; lra.
  - rewrite IH. destruct mult, (f t); cbn; unfold neutral; ring.
Qed.
Lemma shipped_calendar_complete c t0 t1 t :
  In c [CalendarBankHolUK; CalendarChristmasUK; CalendarBankHolIta; CalendarChristmasIta] ->
  (In t (calendar_holidays c t0 t1) <->
   (t0 <= t <= t1)%Z /\ exists h y, In h (cal_rules c) /\ t = (holiday_in_year h y * DAY)%Z).
Proof.
  intros Hc. apply calendar_holidays_in. pose proof shipped_local as F. rewrite !Forall_app in F.
  destruct F as (F1 & F2 & F3 & F4). repeat destruct Hc as [<-|Hc]; try assumption. destruct Hc.
Qed.
