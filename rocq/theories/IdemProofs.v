(* Filling gaps twice: proofs for C93. *)
From Coq Require Import ZArith String List Bool Lia Reals Lra Sorted.
From Verif Require Import Num Py Cal Model Freq Normalize Fit Interp Mask ListProofs NumProofs CalProofs GridProofs FreqProofs InterpProofs.
Import ListNotations.
Local Open Scope string_scope.
Local Open Scope list_scope.
Local Open Scope Z_scope.

(* ---- equally spaced grids ---- *)
Definition steps (a s : Z) (n : nat) : list Z := map (fun i => a + Z.of_nat i * s) (seq 0 n).
Lemma steps_cons a s n : steps a s (Datatypes.S n) = a :: steps (a + s) s n.
Proof.
  unfold steps. cbn [seq map]. f_equal; [lia|]. rewrite <- seq_shift, map_map. apply map_ext. intros i. lia.
Qed.
Lemma steps_sorted a s n : 0 < s -> StronglySorted Z.lt (steps a s n).
Proof.
  intros P. revert a. induction n as [|n IH]; intros a; [constructor|]. rewrite steps_cons. constructor; [apply IH|].
  apply Forall_forall. intros t It. unfold steps in It. apply in_map_iff in It as (i & <- & _). nia.
Qed.
Lemma sorted_nodup l : StronglySorted Z.lt l -> NoDup l.
Proof.
  induction 1 as [|a l S IH F]; constructor; auto. intros I. rewrite Forall_forall in F. specialize (F a I). lia.
Qed.
Lemma steps_diff a s n d : In d (zdiff (steps a s n)) -> d = s.
Proof.
  revert a. induction n as [|n IH]; intros a; [intros []|]. rewrite steps_cons. destruct n as [|n]; [intros []|]. rewrite steps_cons. cbn [zdiff].
  intros [<-|I]; [lia|]. apply (IH (a + s)). rewrite steps_cons. exact I.
Qed.
Lemma zuniq_sorted l : StronglySorted Z.lt l -> zuniq l = l.
Proof. intros S. unfold zuniq. apply dedup_id; [apply Z.eqb_eq|]. now apply sorted_nodup. Qed.
Lemma steps_spaced a s n : 0 < s -> equally_spaced (steps a s n).
Proof. intros P d d' I I'. rewrite zuniq_sorted in I, I' by now apply steps_sorted. apply steps_diff in I, I'. congruence. Qed.
Lemma few_spaced l : StronglySorted Z.lt l -> (forall a b, In a l -> In b l -> a = b) -> equally_spaced l /\ zdiff (zuniq l) = [].
Proof.
  intros S E. rewrite (zuniq_sorted l S). destruct l as [|a [|b l]]; [split; [intros x y []|reflexivity]..|].
  exfalso. inversion S as [|? ? _ F]; subst. rewrite Forall_forall in F. specialize (F b (or_introl eq_refl)).
  rewrite (E a b) in F; [lia|now left|right; now left].
Qed.

(* ---- months ---- *)
Local Opaque month_range month_start.
Lemma day_parts (day : Z -> Z) k c : 0 <= c < DAY -> (day k * DAY + c) mod DAY = c.
Proof. intros B. rewrite Z.add_comm, Z.mod_add by (unfold DAY, HOUR; lia). now apply Z.mod_small. Qed.
Lemma mod_day t : 0 <= t mod DAY < DAY.
Proof. apply Z.mod_pos_bound. reflexivity. Qed.
Lemma month_again lo hi sel day a b : in_month day -> In a (month_range lo hi sel day) -> In b (month_range lo hi sel day) ->
  (forall t, In t (month_range lo hi sel day) -> a <= t <= b) -> month_range a b sel day = month_range lo hi sel day.
Proof.
  intros D Ia Ib B. apply sorted_lt_unique; [now apply month_range_sorted|now apply month_range_sorted|]. intros t.
  assert (a mod DAY = lo mod DAY) as Ea.
  { apply (month_range_in _ _ _ _ _ D) in Ia as (k & _ & -> & _). apply day_parts, mod_day. }
  split.
  - intros I. apply (month_range_in _ _ _ _ _ D) in I as (k & Sk & -> & Bt). apply (month_range_in _ _ _ _ _ D). exists k. split; [exact Sk|]. rewrite Ea in *. split; [reflexivity|].
    apply (month_range_in _ _ _ _ _ D) in Ia as (_ & _ & _ & Ba). apply (month_range_in _ _ _ _ _ D) in Ib as (_ & _ & _ & Bb). lia.
  - intros I. pose proof (B t I) as Bt. apply (month_range_in _ _ _ _ _ D) in I as (k & Sk & -> & _). apply (month_range_in _ _ _ _ _ D). exists k. rewrite Ea. now split.
Qed.
Lemma day_mono day k k' : in_month day -> k <= k' -> day k <= day k'.
Proof.
  intros D L. destruct (Z.eq_dec k k') as [->|N]; [lia|]. pose proof (D k) as B. pose proof (D k') as B'. rewrite month_last_eq in B.
  pose proof (month_start_le (k + 1) k' ltac:(lia)). lia.
Qed.
Lemma periodic_gap lo hi sel day p L U g : in_month day -> 1 <= p -> 1 <= L ->
  (forall k, sel k = true -> sel (k + p) = true) -> (forall k k', sel k = true -> sel k' = true -> k < k' -> k + p <= k') ->
  (forall k, sel k = true -> L <= day (k + p) - day k <= U) -> min_gap (month_range lo hi sel day) g -> L * DAY <= g <= U * DAY.
Proof.
  intros D Hp HL Sn Sp B ((a & b & Ia & Ib & Lab & Eg) & Mn).
  pose proof Ia as Ia'. pose proof Ib as Ib'. apply (month_range_in _ _ _ _ _ D) in Ia' as (k & Sk & Ea & Ba). apply (month_range_in _ _ _ _ _ D) in Ib' as (k' & Sk' & Eb & Bb).
  assert (0 < DAY) as PD by reflexivity.
  assert (k < k') as Lk. { destruct (Z.lt_ge_cases k k') as [C|C]; [exact C|exfalso]. pose proof (day_mono day k' k D C). nia. }
  pose proof (Sp k k' Sk Sk' Lk) as Lp. pose proof (day_mono day (k + p) k' D Lp) as Ld. specialize (B k Sk).
  split; [nia|]. specialize (Mn a (day (k + p) * DAY + lo mod DAY) Ia). assert (g <= day (k + p) * DAY + lo mod DAY - a) as K; [|nia]. apply Mn; [|nia].
  apply (month_range_in _ _ _ _ _ D). exists (k + p). split; [now apply Sn|]. split; [reflexivity|]. nia.
Qed.
Lemma dom_parts d c : 0 <= c < DAY -> dom (d * DAY + c) = dom_of_day d.
Proof. intros B. unfold dom. now rewrite day_of_parts. Qed.
Lemma month_parts d c : 0 <= c < DAY -> month (d * DAY + c) = month_of_day d.
Proof. intros B. unfold month. now rewrite day_of_parts. Qed.

Lemma month_case sel p r : (forall k, sel k = (k mod p =? r)) -> 1 <= p -> (forall k, sel k = true -> sel (k + p) = true) /\ (forall k k', sel k = true -> sel k' = true -> k < k' -> k + p <= k').
Proof.
  intros E Hp. split.
  - intros k. rewrite !E, !Z.eqb_eq. intros K. replace (k + p) with (k + 1 * p) by ring. now rewrite Z.mod_add by lia.
  - intros k k'. rewrite !E, !Z.eqb_eq. intros K K' L. pose proof (Z.div_mod k p ltac:(lia)) as D. pose proof (Z.div_mod k' p ltac:(lia)) as D'. rewrite K in D. rewrite K' in D'.
    assert (k / p < k' / p) by nia. nia.
Qed.
Lemma any_month_eq k : any_month k = (k mod 1 =? 0).
Proof. now rewrite Z.mod_1_r. Qed.

Ltac name_neq t := destruct (weekday_name_cases t) as [->|[->|[->|[->|[->|[->| ->]]]]]]; cbn [String.eqb Ascii.eqb Bool.eqb orb]; reflexivity.
Lemma range_ms a b : asfreq_range a b (Some "MS") = Ok (month_range a b any_month month_start).
Proof. unfold asfreq_range, date_range. name_neq a. Qed.
Lemma range_m a b : asfreq_range a b (Some "M") = Ok (month_range a b any_month month_last).
Proof. unfold asfreq_range, date_range. name_neq a. Qed.
Lemma range_ys a b : asfreq_range a b (Some "YS") = Ok (month_range a b january month_start).
Proof. unfold asfreq_range, date_range. name_neq a. Qed.
Lemma range_y a b : asfreq_range a b (Some "Y") = Ok (month_range a b december month_last).
Proof. unfold asfreq_range, date_range. name_neq a. Qed.

(* the frequency of a grid of months is the one it was made with *)
Lemma detect_ms lo hi g : min_gap (month_range lo hi any_month month_start) g -> detect_freq (month_range lo hi any_month month_start) = Some "MS".
Proof.
  intros G. destruct (month_case any_month 1 0 any_month_eq ltac:(lia)) as [S1 S2]. apply (detect_month_start _ g G).
  - apply (periodic_gap lo hi any_month month_start 1 28 31 g month_start_in); auto; [lia|lia|]. intros k _. rewrite month_start_next. pose proof (dim_bounds k). lia.
  - intros t I. apply (month_range_in _ _ _ _ _ month_start_in) in I as (k & _ & -> & _). rewrite dom_parts by apply mod_day. unfold dom_of_day. now rewrite month_start_civil.
Qed.
Lemma last_dom k c : 0 <= c < DAY -> dom (month_last k * DAY + c) <> 1.
Proof. intros B. rewrite dom_parts by exact B. unfold dom_of_day. rewrite month_last_civil. cbn [snd]. pose proof (dim_bounds k). lia. Qed.
Lemma gap_member ds g : min_gap ds g -> exists t, In t ds.
Proof. intros ((a & _ & I & _) & _). eauto. Qed.
Lemma detect_m lo hi g : min_gap (month_range lo hi any_month month_last) g -> detect_freq (month_range lo hi any_month month_last) = Some "M".
Proof.
  intros G. destruct (month_case any_month 1 0 any_month_eq ltac:(lia)) as [S1 S2]. destruct (gap_member _ _ G) as (t & I). apply (detect_month _ g G t).
  - apply (periodic_gap lo hi any_month month_last 1 28 31 g month_last_in); auto; [lia|lia|]. intros k _. unfold month_last. rewrite (month_start_next (k + 1)). pose proof (dim_bounds (k + 1)). lia.
  - exact I.
  - apply (month_range_in _ _ _ _ _ month_last_in) in I as (k & _ & -> & _). apply last_dom, mod_day.
Qed.
Lemma detect_q lo hi g : min_gap (month_range lo hi quarter month_last) g -> detect_freq (month_range lo hi quarter month_last) = Some "Q".
Proof.
  intros G. destruct (month_case quarter 3 2 (fun k => eq_refl) ltac:(lia)) as [S1 S2]. apply (detect_quarter _ g G).
  apply (periodic_gap lo hi quarter month_last 3 89 92 g month_last_in); auto; [lia|lia|]. intros k _. unfold month_last. pose proof (quarter_bounds (k + 1)).
  replace (k + 3 + 1) with (k + 1 + 3) by ring. lia.
Qed.
Lemma year_gap k : k mod 12 = 0 -> 365 <= month_start (k + 12) - month_start k <= 366.
Proof.
  intros M. pose proof (Z.div_mod k 12 ltac:(lia)) as D. rewrite M in D. pose proof (year_length (k / 12)) as Y. replace (12 * (k / 12 + 1)) with (k + 12) in Y by lia. replace (12 * (k / 12)) with k in Y by lia.
  rewrite Y. match goal with |- context [if ?b then _ else _] => destruct b end; lia.
Qed.
Lemma detect_ys lo hi g : min_gap (month_range lo hi january month_start) g -> detect_freq (month_range lo hi january month_start) = Some "YS".
Proof.
  intros G. destruct (month_case january 12 0 (fun k => eq_refl) ltac:(lia)) as [S1 S2]. apply (detect_year_start _ g G).
  - apply (periodic_gap lo hi january month_start 12 365 366 g month_start_in); auto; [lia|lia|]. intros k Sk. apply year_gap. now apply Z.eqb_eq in Sk.
  - intros t I. apply (month_range_in _ _ _ _ _ month_start_in) in I as (k & Sk & -> & _). rewrite dom_parts, month_parts by apply mod_day.
    unfold dom_of_day, month_of_day. rewrite month_start_civil. apply Z.eqb_eq in Sk. cbn [fst snd]. split; [reflexivity|lia].
Qed.
Lemma detect_y lo hi g : min_gap (month_range lo hi december month_last) g -> detect_freq (month_range lo hi december month_last) = Some "Y".
Proof.
  intros G. destruct (month_case december 12 11 (fun k => eq_refl) ltac:(lia)) as [S1 S2]. destruct (gap_member _ _ G) as (t & I). apply (detect_year _ g G t).
  - apply (periodic_gap lo hi december month_last 12 365 366 g month_last_in); auto; [lia|lia|]. intros k Sk. apply Z.eqb_eq in Sk. unfold month_last.
    replace (k + 12 + 1) with (k + 1 + 12) by ring. assert ((k + 1) mod 12 = 0) as M. { pose proof (Z.div_mod k 12 ltac:(lia)). rewrite Sk in *. replace (k + 1) with ((k / 12 + 1) * 12) by lia. apply Z.mod_mul. lia. }
    pose proof (year_gap (k + 1) M). lia.
  - exact I.
  - left. apply (month_range_in _ _ _ _ _ month_last_in) in I as (k & _ & -> & _). apply last_dom, mod_day.
Qed.

(* a grid is either equally spaced, and not by more than a day when it counts as daily, or it is its own grid *)
Lemma fixed_steps a s b : 0 < s -> exists n, fixed_range a s b = steps a s n.
Proof. intros P. unfold fixed_range. destruct (b <? a); [now exists 0%nat|]. eexists. reflexivity. Qed.
Lemma steps_detect a s n : (s = HOUR \/ s = DAY \/ s = 7 * DAY) -> (2 <= n)%nat -> detect_freq (steps a s n) = Some "D" -> s <= DAY.
Proof.
  intros [->|[->| ->]] Hn; [discriminate|lia|]. intros E. change (steps a (7 * DAY) n) with (series_of (fun i => a + i * (7 * DAY)) n) in E.
  rewrite (regular_week a n Hn) in E. exfalso. destruct (weekday_name_cases a) as [K|[K|[K|[K|[K|[K|K]]]]]]; rewrite K in E; discriminate.
Qed.
Lemma same_value {A} (a b : A) : Ok a = Ok b -> a = b.
Proof. now intros [= ->]. Qed.
Theorem grid_again lo hi fr grid : asfreq_range lo hi fr = Ok grid ->
  (equally_spaced grid /\ forall a b l, detect_freq grid = Some "D" -> zuniq grid = a :: b :: l -> b - a <= DAY) \/
  (StronglySorted Z.lt grid /\ forall a b, In a grid -> In b grid -> (forall t, In t grid -> a <= t <= b) -> asfreq_range a b (detect_freq grid) = Ok grid).
Proof.
  intros E.
  assert (Ff : forall s, s = HOUR \/ s = DAY \/ s = 7 * DAY -> forall grid, fixed_range lo s hi = grid ->
    equally_spaced grid /\ forall a b l, detect_freq grid = Some "D" -> zuniq grid = a :: b :: l -> b - a <= DAY).
  { intros s Hs g <-. assert (P : 0 < s) by (destruct Hs as [->|[->| ->]]; reflexivity). destruct (fixed_steps lo s hi P) as (n & ->).
    split; [now apply steps_spaced|]. intros a b l Ed Eu. rewrite zuniq_sorted in Eu by now apply steps_sorted.
    destruct n as [|[|n]]; [discriminate|discriminate|]. pose proof (steps_detect lo s (Datatypes.S (Datatypes.S n)) Hs ltac:(lia) Ed) as L. rewrite !steps_cons in Eu. injection Eu as <- <- _. lia. }
  assert (Fm : forall sel day fr', in_month day -> (forall a b, asfreq_range a b (Some fr') = Ok (month_range a b sel day)) ->
      (forall g, min_gap (month_range lo hi sel day) g -> detect_freq (month_range lo hi sel day) = Some fr') ->
      forall grid, month_range lo hi sel day = grid ->
      (equally_spaced grid /\ forall a b l, detect_freq grid = Some "D" -> zuniq grid = a :: b :: l -> b - a <= DAY) \/
      (StronglySorted Z.lt grid /\ forall a b, In a grid -> In b grid -> (forall t, In t grid -> a <= t <= b) -> asfreq_range a b (detect_freq grid) = Ok grid)).
  { intros sel day fr' D Ra De g <-. pose proof (month_range_sorted lo hi sel day D) as S. destruct (gap_cases (month_range lo hi sel day)) as [One|(g & G)].
    - left. destruct (few_spaced _ S One) as [Sp Z0]. split; [exact Sp|]. intros a b l _ Eu. rewrite Eu in Z0. discriminate.
    - right. split; [exact S|]. intros a b Ia Ib B. rewrite (De g G), Ra, (month_again lo hi sel day a b D Ia Ib B). reflexivity. }
  unfold asfreq_range, date_range in E. destruct fr as [f|]; [|apply same_value in E; left; exact (Ff DAY (or_intror (or_introl eq_refl)) _ E)].
  destruct (String.eqb f "Q"); [apply same_value in E; exact (Fm _ _ "Q" month_last_in (fun _ _ => eq_refl) (detect_q lo hi) _ E)|].
  destruct (String.eqb f "H"); [apply same_value in E; left; exact (Ff HOUR (or_introl eq_refl) _ E)|]. destruct (String.eqb f "D"); [apply same_value in E; left; exact (Ff DAY (or_intror (or_introl eq_refl)) _ E)|].
  destruct (String.eqb f (wday_name (weekday lo))); [apply same_value in E; left; exact (Ff (7 * DAY) (or_intror (or_intror eq_refl)) _ E)|].
  destruct (String.eqb f "MS"); [apply same_value in E; exact (Fm _ _ "MS" month_start_in range_ms (detect_ms lo hi) _ E)|].
  destruct (String.eqb f "M"); [apply same_value in E; exact (Fm _ _ "M" month_last_in range_m (detect_m lo hi) _ E)|].
  destruct (_ || _); [apply same_value in E; exact (Fm _ _ "YS" month_start_in range_ys (detect_ys lo hi) _ E)|].
  destruct (_ || _); [apply same_value in E; exact (Fm _ _ "Y" month_last_in range_y (detect_y lo hi) _ E)|discriminate].
Qed.

(* ---- columns ---- *)
Section Refill.
  Context {T : Type} `{NumOps T}.

  Lemma interp_self l : (forall a : T, In a l -> nisnan a = false) -> forall prev i, interp_from prev i l = l.
  Proof.
    induction l as [|a l IH]; intros F prev i; [reflexivity|]. cbn [interp_from]. rewrite (F a (or_introl eq_refl)). f_equal. apply IH. intros b Hb. apply F. now right.
  Qed.
  Lemma to_ints_exact zs : (forall z, In z zs -> exact_int (T := T) z) -> to_ints (map (fun z => nofZ z : T) zs) = Ok zs.
  Proof.
    unfold to_ints. induction zs as [|z zs IH]; intros F; [reflexivity|]. cbn. destruct (F z (or_introl eq_refl)) as [_ ->]. cbn. rewrite IH by (intros y Hy; apply F; now right). reflexivity.
  Qed.
  Lemma mk_rows_self (rs : list (row T)) : mk_rows (map r_date rs) (map r_src rs) (map r_x rs) (map r_y rs) (map r_w rs) = rs.
  Proof. induction rs as [|r rs IH]; [reflexivity|]. cbn [map]. rewrite mk_rows_cons, IH. now destruct r. Qed.
  Lemma lookup_self (key : row T -> Z) rs : NoDup (map key rs) -> map (lookup key rs) (map key rs) = map Some rs.
  Proof. intros D. rewrite map_map. apply map_ext_in. intros r Ir. now apply lookup_in. Qed.

  (* a table on its own grid *)
  Lemma refill iy f lo hi : has_date f = true -> StronglySorted Z.lt (map r_date (rows f)) ->
    zmin_opt (map r_date (rows f)) = Some lo -> zmax_opt (map r_date (rows f)) = Some hi ->
    asfreq_range lo hi (detect_freq (map r_date (rows f))) = Ok (map r_date (rows f)) ->
    (forall r, In r (rows f) -> exact_int (T := T) (r_x r)) ->
    (iy = true -> interp (map r_y (rows f)) = map r_y (rows f) /\ interp (map r_w (rows f)) = map r_w (rows f)) ->
    interpolate_df iy f = Ok f.
  Proof.
    intros Hd S E1 E2 Eg X C. pose proof (sorted_nodup _ S) as D. unfold interpolate_df. rewrite Hd. cbn [negb].
    match goal with |- (if ?b then _ else _) = _ => destruct b; [reflexivity|] end.
    rewrite (proj2 (has_dup_iff Z.eqb Z.eqb_eq _) D), E1, E2, Eg. cbn [rbind]. rewrite (lookup_self r_date _ D).
    assert (Cx : column (fun r => nofZ (r_x r) : T) (map Some (rows f)) = map (fun z => nofZ z) (map r_x (rows f))) by (unfold column; now rewrite !map_map).
    assert (Xs : forall z, In z (map r_x (rows f)) -> exact_int (T := T) z) by (intros z I; apply in_map_iff in I as (r & <- & I); auto).
    rewrite Cx. unfold interp at 1. rewrite interp_self by (intros a I; apply in_map_iff in I as (z & <- & I); apply (Xs z I)). rewrite (to_ints_exact _ Xs). cbn [rbind].
    assert (Cs : src_column (map Some (rows f)) = map r_src (rows f)) by (unfold src_column; now rewrite map_map).
    assert (Cy : column r_y (map Some (rows f)) = map r_y (rows f)) by (unfold column; now rewrite map_map).
    assert (Cw : column r_w (map Some (rows f)) = map r_w (rows f)) by (unfold column; now rewrite map_map).
    rewrite Cs, Cy, Cw. destruct iy.
    - destruct (C eq_refl) as [-> ->]. rewrite mk_rows_self. destruct f; cbn in *; now subst.
    - rewrite mk_rows_self. destruct f; cbn in *; now subst.
  Qed.
  Lemma zrange_steps a b : exists n, Freq.zrange a b = steps a 1 n.
  Proof. eexists. unfold Freq.zrange, steps. apply map_ext. intros i. lia. Qed.

  (* the table with its gaps filled: equally spaced, or a table on its own grid *)
  Lemma filled_shape iy (f g : frame T) : interpolate_df iy f = Ok g ->
    complete g \/ has_date g = true /\ StronglySorted Z.lt (map r_date (rows g)) /\
      exists lo hi, zmin_opt (map r_date (rows g)) = Some lo /\ zmax_opt (map r_date (rows g)) = Some hi /\
        asfreq_range lo hi (detect_freq (map r_date (rows g))) = Ok (map r_date (rows g)) /\
        exists key, map r_y (rows g) = (if iy then interp (column r_y key) else column r_y key) /\
          map r_w (rows g) = (if iy then interp (column r_w key) else column r_w key) /\ forall r, In (Some r) key -> In r (rows f).
  Proof.
    intros E. unfold interpolate_df in E. destruct (has_date f) eqn:Hd; cbn [negb] in E.
    - match type of E with (if ?b then _ else _) = _ => destruct b eqn:K end.
      { injection E as <-. left. apply andb_true_iff in K as [R S]. split; [rewrite pos_date by exact Hd; now apply regular_iff|].
        intros _ C. apply sparse_iff in C. rewrite C in S. discriminate. }
      destruct (has_dup Z.eqb _); [discriminate|]. destruct (zmin_opt _) as [lo|]; [|discriminate]. destruct (zmax_opt _) as [hi|]; [|discriminate].
      destruct (asfreq_range lo hi _) as [grid|] eqn:Eg; [|discriminate]. cbn [rbind] in E. destruct (to_ints _) as [xs|] eqn:Ex; [|discriminate]. cbn [rbind] in E.
      set (found := map (lookup r_date (rows f)) grid) in *. apply (f_equal (fun r => match r with Ok a => a | Err _ => g end)) in E. cbn beta iota in E.
      destruct (to_ints_nth _ _ Ex) as [Lx _]. unfold interp in Lx. rewrite interp_length in Lx. unfold column in Lx. rewrite map_length in Lx.
      assert (Lf : length found = length grid) by (unfold found; now rewrite map_length). rewrite Lf in Lx.
      set (ys := if iy then interp (column r_y found) else column r_y found) in *. set (ws := if iy then interp (column r_w found) else column r_w found) in *.
      assert (Ly : length ys = length grid) by (unfold ys, interp, column; destruct iy; rewrite ?interp_length, map_length; exact Lf).
      assert (Lw : length ws = length grid) by (unfold ws, interp, column; destruct iy; rewrite ?interp_length, map_length; exact Lf).
      assert (Ls : length (src_column found) = length grid) by (unfold src_column; now rewrite map_length).
      destruct (mk_rows_proj (length grid) grid (src_column found) xs ys ws eq_refl Ls Lx Ly Lw) as (P1 & _ & P3).
      destruct (mk_rows_interp (length grid) grid (src_column found) xs ys ws eq_refl Ls Lx Ly Lw) as (_ & P4).
      subst g. cbn [rows has_date]. rewrite P1, P3, P4.
      assert (Cp : forall gr, equally_spaced gr -> (forall a b l, detect_freq gr = Some "D" -> zuniq gr = a :: b :: l -> b - a <= DAY) -> gr = grid ->
        complete (mkFrame true (has_src f) (has_w f) (mk_rows grid (src_column found) xs ys ws))).
      { intros gr Sp N ->. split; [rewrite pos_date by reflexivity; cbn [rows]; now rewrite P1|]. intros _ (D1 & a & b & l & D2 & D3). cbn [rows] in D1, D2. rewrite P1 in D1, D2. specialize (N a b l D1 D2). lia. }
      destruct (grid_again _ _ _ _ Eg) as [[Sp N]|[S Again]]; [left; now apply (Cp grid)|].
      destruct grid as [|d0 grid']; [left; apply (Cp []); [intros a b []|discriminate|reflexivity]|].
      right. split; [reflexivity|]. split; [exact S|].
      destruct (zmin_zmax (d0 :: grid')) as (a & b & E1 & E2 & I1 & I2 & B); [discriminate|]. exists a, b. split; [exact E1|]. split; [exact E2|]. split; [now apply Again|].
      exists found. split; [reflexivity|]. split; [reflexivity|]. intros r I. unfold found in I. apply in_map_iff in I as (t & Et & _). now apply lookup_some in Et as [I _].
    - destruct (regular (map r_x (rows f))) eqn:K.
      { injection E as <-. left. split; [rewrite pos_num by exact Hd; now apply regular_iff|congruence]. }
      destruct (has_dup Z.eqb _); [discriminate|]. destruct (zmin_opt _) as [lo|]; [|discriminate]. destruct (zmax_opt _) as [hi|]; [|discriminate].
      apply (f_equal (fun r => match r with Ok a => a | Err _ => g end)) in E. cbn beta iota in E. left. subst g. set (found := map (lookup r_x (rows f)) _) in *.
      split; [|discriminate]. rewrite pos_num by reflexivity. cbn [rows].
      match goal with |- context [mk_rows ?a ?b ?c ?d ?e] => destruct (mk_rows_proj (length c) a b c d e) as (_ & -> & _); try reflexivity end;
        try (unfold src_column; rewrite ?map_length; unfold found; now rewrite map_length);
        try (destruct iy; unfold interp, column; rewrite ?interp_length, ?map_length; unfold found; now rewrite map_length).
      destruct (zrange_steps lo hi) as (n & ->). now apply steps_spaced.
  Qed.

  (* the values stay: any kind of numbers *)
  Theorem fill_again (f g : frame T) iy : interpolate_df iy f = Ok g -> (forall r, In r (rows g) -> exact_int (T := T) (r_x r)) -> interpolate_df false g = Ok g.
  Proof.
    intros E X. destruct (filled_shape iy f g E) as [C|(Hd & S & lo & hi & E1 & E2 & Eg & _)]; [now apply interp_complete|].
    apply (refill false g lo hi); auto. discriminate.
  Qed.
  Lemma mask_of iy (g : frame T) m : interpolate_df iy g = Ok g -> interpolate_df_mask iy g = Ok (g, Some m) -> Forall (eq false) m.
  Proof.
    intros E. unfold interpolate_df_mask. rewrite E. cbn [rbind]. intros M. apply same_value in M. apply (f_equal snd) in M. cbn [snd] in M. destruct (no_gaps g); [discriminate|].
    apply (f_equal (fun o => match o with Some l => l | None => [] end)) in M. cbn beta iota in M. subst m. apply Forall_forall. intros b I. apply in_map_iff in I as (r & <- & I).
    symmetry. apply negb_false_iff, existsb_exists. exists (r_x r). split; [now apply in_map|apply Z.eqb_refl].
  Qed.
  Lemma mask_again iy (g : frame T) : interpolate_df iy g = Ok g -> exists m, interpolate_df_mask iy g = Ok (g, m) /\ forall l, m = Some l -> Forall (eq false) l.
  Proof.
    intros E. unfold interpolate_df_mask. rewrite E. cbn [rbind]. eexists. split; [reflexivity|]. intros l El. apply (mask_of iy g l E). unfold interpolate_df_mask. rewrite E. cbn [rbind]. now rewrite El.
  Qed.
End Refill.

(* ---- real numbers ---- *)
Definition tame (a : XR) : Prop := finite a \/ a = XNaN.
Lemma interp_twice_from (l : list XR) : (forall a, In a l -> tame a) -> forall i, interp_from None i (interp_from None i l) = interp_from None i l.
Proof.
  induction l as [|a l IH]; intros F i; [reflexivity|]. assert (F' : forall b, In b l -> tame b) by (intros b Hb; apply F; now right).
  cbn [interp_from]. destruct (nisnan a) eqn:Ea.
  - cbn [interp_from]. change (nisnan (nnan : XR)) with true. cbn iota. f_equal. now apply IH.
  - cbn [interp_from]. rewrite Ea. f_equal. apply interp_self. intros b Ib.
    assert (Fa : finite a). { destruct (F a (or_introl eq_refl)) as [Fa| ->]; [exact Fa|discriminate]. }
    destruct (interp_finite_from l F' i a (Datatypes.S i) ltac:(lia) Fa b Ib) as [r ->]. reflexivity.
Qed.
Lemma interp_twice (l : list XR) : (forall a, In a l -> tame a) -> interp (interp l) = interp l.
Proof. intros F. now apply interp_twice_from. Qed.
Lemma column_tame (get : row XR -> XR) key : (forall r, In (Some r) key -> tame (get r)) -> forall a, In a (column get key) -> tame a.
Proof. intros F a I. unfold column in I. apply in_map_iff in I as ([r|] & <- & I); [now apply F|now right]. Qed.
Theorem fill_twice iy (f g : frame XR) : (iy = true -> forall r, In r (rows f) -> tame (r_y r) /\ tame (r_w r)) ->
  interpolate_df iy f = Ok g -> interpolate_df iy g = Ok g.
Proof.
  intros Ft E. destruct (filled_shape iy f g E) as [C|(Hd & S & lo & hi & E1 & E2 & Eg & key & Ky & Kw & Kr)]; [now apply interp_complete|].
  apply (refill iy g lo hi); auto using exact_int_real. intros ->. rewrite Ky, Kw. specialize (Ft eq_refl).
  split; apply interp_twice; apply column_tame; intros r I; apply Ft; now apply Kr.
Qed.
Theorem mask_twice iy (f g : frame XR) m : (iy = true -> forall r, In r (rows f) -> tame (r_y r) /\ tame (r_w r)) ->
  interpolate_df_mask iy f = Ok (g, m) -> exists m', interpolate_df_mask iy g = Ok (g, m') /\ forall l, m' = Some l -> Forall (eq false) l.
Proof.
  intros Ft E. apply mask_again. apply (fill_twice iy f g Ft). unfold interpolate_df_mask in E. destruct (interpolate_df iy f) as [g'|e]; [|discriminate]. cbn [rbind] in E.
  apply same_value in E. apply (f_equal fst) in E. cbn [fst] in E. now subst.
Qed.
