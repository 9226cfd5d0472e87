(* Specifications and lemmas for C82: names of dated models and labels of date ranges identify days
   and sort by date. *)
From Coq Require Import ZArith String Ascii NArith List Bool Lia.
From Verif Require Import Num Py Cal Fmt Model Base Naive Dummy Fixed.
From Verif Require Import ListProofs StringProofs CalSweep CalProofs ModelProofs.
Import ListNotations.
Local Open Scope string_scope.
Local Open Scope Z_scope.

(* dates that str() writes with four digits of the year *)
Definition written (t : Z) : Prop := 0 <= year t <= 9999.

(* ---- digits ---- *)
Lemma compare_app : forall a b x y, String.length a = String.length b ->
  String.compare (a ++ x) (b ++ y) = match String.compare a b with Eq => String.compare x y | c => c end.
Proof.
  induction a as [|c a IH]; intros [|d b] x y L; try discriminate; [reflexivity|]. cbn in *. destruct (Ascii.compare c d); [|reflexivity|reflexivity].
  apply IH. now injection L.
Qed.
Lemma length_app_s a b : String.length (a ++ b) = (String.length a + String.length b)%nat.
Proof. induction a; cbn; congruence. Qed.
Lemma digits_length k : forall z, String.length (digits k z) = k.
Proof. induction k as [|k IH]; intros z; [reflexivity|]. cbn [digits]. rewrite length_app_s, IH. cbn. lia. Qed.
Lemma digit_compare a b : 0 <= a < 10 -> 0 <= b < 10 -> String.compare (digit a) (digit b) = (a ?= b).
Proof.
  intros A B. assert (Ca : a = 0 \/ a = 1 \/ a = 2 \/ a = 3 \/ a = 4 \/ a = 5 \/ a = 6 \/ a = 7 \/ a = 8 \/ a = 9) by lia.
  assert (Cb : b = 0 \/ b = 1 \/ b = 2 \/ b = 3 \/ b = 4 \/ b = 5 \/ b = 6 \/ b = 7 \/ b = 8 \/ b = 9) by lia.
  destruct Ca as [->|[->|[->|[->|[->|[->|[->|[->|[->| ->]]]]]]]]]; destruct Cb as [->|[->|[->|[->|[->|[->|[->|[->|[->| ->]]]]]]]]]; reflexivity.
Qed.
Lemma digits_compare k : forall a b, 0 <= a < 10 ^ Z.of_nat k -> 0 <= b < 10 ^ Z.of_nat k -> String.compare (digits k a) (digits k b) = (a ?= b).
Proof.
  induction k as [|k IH]; intros a b A B.
  - cbn in A, B. assert (a = 0) as -> by lia. assert (b = 0) as -> by lia. reflexivity.
  - rewrite Nat2Z.inj_succ, Z.pow_succ_r in A, B by lia. cbn [digits]. rewrite compare_app by (now rewrite !digits_length).
    assert (Q : forall z, 0 <= z < 10 * 10 ^ Z.of_nat k -> 0 <= z / 10 < 10 ^ Z.of_nat k).
    { intros z Hz. split; [apply Z.div_pos; lia|apply Z.div_lt_upper_bound; lia]. }
    rewrite IH by auto. pose proof (Z.mod_pos_bound a 10 ltac:(lia)). pose proof (Z.mod_pos_bound b 10 ltac:(lia)).
    pose proof (Z.div_mod a 10 ltac:(lia)). pose proof (Z.div_mod b 10 ltac:(lia)).
    rewrite digit_compare by lia. destruct (Z.compare_spec (a / 10) (b / 10)) as [E|E|E].
    + destruct (Z.compare_spec (a mod 10) (b mod 10)); symmetry; [apply Z.compare_eq_iff|apply Z.compare_lt_iff|apply Z.compare_gt_iff]; lia.
    + symmetry. apply Z.compare_lt_iff. lia.
    + symmetry. apply Z.compare_gt_iff. lia.
Qed.

(* ---- days in calendar order ---- *)
Definition rank (n : Z) : Z := (12 * year_of_day n + (month_of_day n - 1)) * 32 + dom_of_day n.
Lemma days_in_month_le y m : days_in_month y m <= 31.
Proof. unfold days_in_month. destruct (leap y); repeat (destruct (_ =? _); cbn [orb]); lia. Qed.
Lemma rank_next n : rank n < rank (n + 1).
Proof.
  destruct (civil_of_day n) as [V E]. unfold rank at 1. set (y := year_of_day n) in *. set (m := month_of_day n) in *. set (d := dom_of_day n) in *.
  pose proof (next_date_day y m d V) as N. pose proof (days_in_month_le y m) as Le. rewrite E in N. destruct V as [Vm Vd]. unfold next_date in N.
  assert (One : forall y m, 1 <= m <= 12 -> valid_date y m 1).
  { intros y' m' H. split; [exact H|]. unfold days_in_month. destruct (leap y'); repeat (destruct (_ =? _); cbn [orb]); lia. }
  destruct (Z.ltb_spec d (days_in_month y m)).
  - rewrite <- N. unfold rank. assert (V : valid_date y m (d + 1)) by (split; lia). rewrite year_of_date, month_of_date, dom_of_date by exact V. lia.
  - destruct (Z.ltb_spec m 12).
    + rewrite <- N. unfold rank. rewrite year_of_date, month_of_date, dom_of_date by (apply One; lia). lia.
    + rewrite <- N. unfold rank. rewrite year_of_date, month_of_date, dom_of_date by (apply One; lia). lia.
Qed.
Lemma rank_lt a b : a < b -> rank a < rank b.
Proof.
  intros L. assert (G : forall k, (0 < k)%nat -> rank a < rank (a + Z.of_nat k)).
  { induction k as [|k IH]; [lia|]. intros _. rewrite Nat2Z.inj_succ. replace (a + Z.succ (Z.of_nat k)) with (a + Z.of_nat k + 1) by lia.
    pose proof (rank_next (a + Z.of_nat k)). destruct k; [replace (a + Z.of_nat 0) with a in * by lia; lia|]. specialize (IH ltac:(lia)). lia. }
  specialize (G (Z.to_nat (b - a)) ltac:(lia)). rewrite Z2Nat.id in G by lia. now replace (a + (b - a)) with b in G by lia.
Qed.
Lemma rank_compare a b : (rank a ?= rank b) = (a ?= b).
Proof.
  destruct (Z.compare_spec a b) as [->|L|L]; [apply Z.compare_refl|apply Z.compare_lt_iff; now apply rank_lt|apply Z.compare_gt_iff; now apply rank_lt].
Qed.
Theorem date_compare a b : written a -> written b -> String.compare (fmt_date a) (fmt_date b) = (day_of a ?= day_of b).
Proof.
  intros A B. rewrite <- rank_compare. unfold fmt_date, written, year, month, dom in *. generalize (day_of a) (day_of b) A B. clear. intros a b A B.
  destruct (civil_of_day a) as [[Ma Da] _]. destruct (civil_of_day b) as [[Mb Db] _].
  pose proof (days_in_month_le (year_of_day a) (month_of_day a)). pose proof (days_in_month_le (year_of_day b) (month_of_day b)).
  rewrite compare_app by (now rewrite !digits_length). rewrite digits_compare by (change (10 ^ Z.of_nat 4) with 10000; lia).
  rewrite (compare_app "-" "-") by reflexivity. change (String.compare "-" "-") with Eq. cbv iota.
  rewrite compare_app by (now rewrite !digits_length). rewrite digits_compare by (change (10 ^ Z.of_nat 2) with 100; lia).
  rewrite (compare_app "-" "-") by reflexivity. change (String.compare "-" "-") with Eq. cbv iota.
  rewrite digits_compare by (change (10 ^ Z.of_nat 2) with 100; lia). unfold rank.
  destruct (Z.compare_spec (year_of_day a) (year_of_day b)) as [Ey|Ey|Ey]; [|symmetry; apply Z.compare_lt_iff; lia|symmetry; apply Z.compare_gt_iff; lia].
  destruct (Z.compare_spec (month_of_day a) (month_of_day b)) as [Em|Em|Em]; [|symmetry; apply Z.compare_lt_iff; lia|symmetry; apply Z.compare_gt_iff; lia].
  destruct (Z.compare_spec (dom_of_day a) (dom_of_day b)) as [Ed|Ed|Ed]; symmetry; [apply Z.compare_eq_iff|apply Z.compare_lt_iff|apply Z.compare_gt_iff]; lia.
Qed.
Lemma date_inj a b : written a -> written b -> fmt_date a = fmt_date b -> day_of a = day_of b.
Proof. intros A B E. apply Z.compare_eq_iff. rewrite <- (date_compare a b A B), E. apply str_compare_refl. Qed.
Lemma date_day a b : day_of a = day_of b -> fmt_date a = fmt_date b.
Proof. intros E. unfold fmt_date, year, month, dom. now rewrite E. Qed.
Lemma date_length t : String.length (fmt_date t) = 10%nat.
Proof. unfold fmt_date. rewrite !length_app_s, !digits_length. reflexivity. Qed.

(* ---- names ---- *)
Lemma app_inj_len : forall a b x y, String.length a = String.length b -> a ++ x = b ++ y -> a = b /\ x = y.
Proof.
  induction a as [|c a IH]; intros [|d b] x y L E; try discriminate; [auto|]. cbn in L, E. injection E as <- E. injection L as L. destruct (IH b x y L E) as [-> ->]. auto.
Qed.
Lemma plain_app a b : plain a -> plain b -> plain (a ++ b).
Proof. induction a as [|c a IH]; cbn; [auto|]. intros [H K] B. auto. Qed.
Lemma plain_digits k : forall z, plain (digits k z).
Proof.
  induction k as [|k IH]; intros z; [exact I|]. cbn [digits]. apply plain_app; [apply IH|].
  pose proof (Z.mod_pos_bound z 10 ltac:(lia)) as B. generalize dependent (z mod 10). intros a A.
  assert (Ca : a = 0 \/ a = 1 \/ a = 2 \/ a = 3 \/ a = 4 \/ a = 5 \/ a = 6 \/ a = 7 \/ a = 8 \/ a = 9) by lia.
  destruct Ca as [->|[->|[->|[->|[->|[->|[->|[->|[->| ->]]]]]]]]]; split; constructor.
Qed.
Lemma plain_date t : plain (fmt_date t).
Proof.
  unfold fmt_date. apply plain_app; [apply plain_digits|]. apply plain_app; [repeat split|]. apply plain_app; [apply plain_digits|].
  apply plain_app; [repeat split|apply plain_digits].
Qed.

Section Dated.
  Context {T : Type} `{NumOps T}.
  Lemma step_compare a b : written a -> written b ->
    String.compare (fm_name (get_model_step_date (T := T) a)) (fm_name (get_model_step_date (T := T) b)) = (day_of a ?= day_of b).
  Proof.
    intros A B. cbn [get_model_step_date mk_model fm_name]. rewrite compare_app by reflexivity. rewrite str_compare_refl.
    rewrite compare_app by (now rewrite !date_length). rewrite date_compare by assumption. destruct (day_of a ?= day_of b); reflexivity.
  Qed.
  Lemma spike_compare a b a' b' : written a -> written b -> written a' -> written b' ->
    String.compare (fm_name (get_model_spike_date (T := T) a b)) (fm_name (get_model_spike_date (T := T) a' b')) =
    match day_of a ?= day_of a' with Eq => day_of b ?= day_of b' | c => c end.
  Proof.
    intros A B A' B'. cbn [get_model_spike_date mk_model fm_name]. rewrite compare_app by reflexivity. rewrite str_compare_refl.
    rewrite compare_app by (now rewrite !date_length). rewrite date_compare by assumption. destruct (day_of a ?= day_of a'); [|reflexivity|reflexivity].
    rewrite compare_app by reflexivity. rewrite str_compare_refl. rewrite compare_app by (now rewrite !date_length). rewrite date_compare by assumption.
    destruct (day_of b ?= day_of b'); reflexivity.
  Qed.
  (* step models: equal exactly for the same day, sorted by day *)
  Theorem step_names a b : written a -> written b ->
    (model_eqb (get_model_step_date (T := T) a) (get_model_step_date b) = true <-> day_of a = day_of b) /\
    (model_leb (get_model_step_date (T := T) a) (get_model_step_date b) = true <-> day_of a <= day_of b).
  Proof.
    intros A B. pose proof (step_compare a b A B) as C. unfold model_eqb, model_leb, str_leb. rewrite C. split.
    - rewrite String.eqb_eq, <- str_compare_eq, C. apply Z.compare_eq_iff.
    - unfold Z.le. destruct (day_of a ?= day_of b); split; congruence.
  Qed.
  (* spike models: by first and then by last day *)
  Theorem spike_names a b a' b' : written a -> written b -> written a' -> written b' ->
    (model_eqb (get_model_spike_date (T := T) a b) (get_model_spike_date a' b') = true <-> day_of a = day_of a' /\ day_of b = day_of b') /\
    (model_leb (get_model_spike_date (T := T) a b) (get_model_spike_date a' b') = true <->
       day_of a < day_of a' \/ (day_of a = day_of a' /\ day_of b <= day_of b')).
  Proof.
    intros A B A' B'. pose proof (spike_compare a b a' b' A B A' B') as C. unfold model_eqb, model_leb, str_leb. rewrite C. split.
    - rewrite String.eqb_eq, <- str_compare_eq, C. destruct (Z.compare_spec (day_of a) (day_of a')); [|split; [discriminate|lia]|split; [discriminate|lia]].
      rewrite Z.compare_eq_iff. lia.
    - destruct (Z.compare_spec (day_of a) (day_of a')); [|split; [lia|reflexivity]|split; [discriminate|lia]].
      destruct (Z.compare_spec (day_of b) (day_of b')); split; try discriminate; try reflexivity; lia.
  Qed.
  Definition shipped : list (fmodel T) :=
    [model_null; model_constant; model_naive; model_snaive_wday; model_spike; model_linear; model_linear_nondec; model_quasilinear; model_exp; model_decay;
     model_step; model_two_steps; model_sigmoid_step; model_sigmoid; model_ramp; model_season_wday; model_season_month; model_season_month_old; model_season_fourier_yearly].
  Definition shipped_names : list string :=
    ["null"; "constant"; "naive"; "snaive_wday"; "spike"; "linear"; "linear_nondec"; "quasilinear"; "exponential"; "decay";
     "step"; "two_steps"; "sigmoid_step"; "sigmoid"; "ramp"; "season_wday"; "season_month"; "season_month_old"; "season_fourier_yearly"].
  Lemma shipped_named : map fm_name shipped = shipped_names.
  Proof. reflexivity. Qed.
  Lemma dummy_named name dm (m : fmodel T) : get_model_dummy name dm = Ok m -> fm_name m = name.
  Proof.
    unfold get_model_dummy. intros E. destruct (get_f_dummy dm); [|discriminate E]. cbn [rbind] in E. destruct (validate_f_dummy _); [|discriminate E]. cbn [rbind] in E. injection E as <-. reflexivity.
  Qed.
  Lemma calendars_named l name (m : fmodel T) : get_model_from_calendars l (Some name) = Ok m -> fm_name m = name.
  Proof.
    unfold get_model_from_calendars. intros E. destruct (filter _ l); [discriminate E|]. destruct (rmapM _ _); [|discriminate E]. cbn [rbind] in E. injection E as <-. reflexivity.
  Qed.
End Dated.
Lemma names_plain : NoDup (shipped_names ++ ["season_wday_2"; "dummy_christmas"; "dummy_month_start"; "calendar_uk"; "calendar_ita"]) /\
  Forall plain (shipped_names ++ ["season_wday_2"; "dummy_christmas"; "dummy_month_start"; "calendar_uk"; "calendar_ita"]).
Proof.
  split.
  - repeat (constructor; [cbn; intuition discriminate|]). constructor.
  - repeat (constructor; [cbn; tauto|]). constructor.
Qed.
Lemma dated_plain (T : Type) (N : NumOps T) a b : plain (fm_name (get_model_step_date (T := T) a)) /\ plain (fm_name (get_model_spike_date (T := T) a b)).
Proof.
  cbn [get_model_step_date get_model_spike_date mk_model fm_name]. split.
  - apply plain_app; [repeat split|]. apply plain_app; [apply plain_date|repeat split].
  - apply plain_app; [repeat split|]. apply plain_app; [apply plain_date|]. apply plain_app; [repeat split|]. apply plain_app; [apply plain_date|repeat split].
Qed.
Lemma dated_apart (T : Type) (N : NumOps T) a b c m : In m (shipped (T := T)) ->
  fm_name (get_model_step_date (T := T) a) <> fm_name m /\ fm_name (get_model_spike_date (T := T) b c) <> fm_name m /\
  fm_name (get_model_step_date (T := T) a) <> fm_name (get_model_spike_date (T := T) b c).
Proof.
  intros I. apply (in_map fm_name) in I. rewrite shipped_named in I. cbn [get_model_step_date get_model_spike_date mk_model fm_name]. generalize (fm_name m) I. clear. intros n I.
  assert (K : forall s, ("step_date[" ++ s <> n) /\ ("spike_date[" ++ s <> n)).
  { intros s. cbn in I. decompose [or] I; try contradiction; subst n; split; discriminate. }
  split; [apply K|]. split; [apply K|discriminate].
Qed.
(* labels of date ranges *)
Lemma range_inj a b a' b' : written a -> written b -> written a' -> written b' ->
  fmt_date a ++ "::" ++ fmt_date b = fmt_date a' ++ "::" ++ fmt_date b' <-> day_of a = day_of a' /\ day_of b = day_of b'.
Proof.
  intros A B A' B'. split.
  - intros E. apply app_inj_len in E as [E1 E]; [|now rewrite !date_length]. apply app_inj_len in E as [_ E2]; [|reflexivity]. split; now apply date_inj.
  - intros [E1 E2]. now rewrite (date_day a a' E1), (date_day b b' E2).
Qed.
