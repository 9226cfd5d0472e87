(* A daily series is forecast without an exception (C71): the actuals table, the fits without
   parameters, the grid and the prediction intervals. *)
From Coq Require Import ZArith String List Bool Lia Reals Lra Sorted Permutation QArith_base.
From Verif Require Import Num Py Cal Fmt Model Base Fixed Naive Freq Aic Normalize Fit Interp Select Stats Outliers Pi Forecast.
From Verif Require Import NumProofs ListProofs StringProofs ModelProofs BaseProofs GuessProofs FixedProofs FitProofs SeasonProofs CacheProofs AicProofs StatsProofs FreqProofs GridProofs InterpProofs NaiveProofs SnaiveProofs ForecastProofs ForecastProofs2 ExtendProofs MetaProofs LsqProofs RobustProofs TotalProofs.
Import ListNotations.
Local Open Scope string_scope.
Local Open Scope list_scope.
Local Open Scope R_scope.

(* ---- interpolation of a straight line is exact ---- *)
Definition on_line (a s : R) (i : nat) (l : list XR) : Prop :=
  forall k v, nth_error l k = Some v -> v = XNaN \/ v = Fin (a + s * INR (i + k)).
Lemma on_line_tail a s i v l : on_line a s i (v :: l) -> on_line a s (S i) l.
Proof. intros O k w E. specialize (O (S k) w E). replace (i + S k)%nat with (S i + k)%nat in O by lia. exact O. Qed.
Lemma next_on_line a s l : forall i k v, on_line a s i l -> next_valid i l = Some (k, v) -> (i <= k)%nat /\ v = Fin (a + s * INR k).
Proof.
  induction l as [|w l IH]; intros i k v O E; [discriminate|]. cbn [next_valid] in E.
  destruct (O 0%nat w eq_refl) as [->| ->]; cbn [nisnan XROps xisnan] in E.
  - destruct (IH (S i) k v (on_line_tail _ _ _ _ _ O) E). split; [lia|assumption].
  - injection E as <- <-. split; [lia|]. now rewrite Nat.add_0_r.
Qed.
Lemma next_exists l : forall i, (exists k v, nth_error l k = Some (Fin v)) -> exists k v, next_valid i l = Some (k, v).
Proof.
  induction l as [|w l IH]; intros i (k & v & E); [destruct k; discriminate|]. cbn [next_valid].
  destruct k as [|k]; [cbn in E; injection E as ->; cbn; eauto|].
  destruct (nisnan w); [|eauto]. apply IH. exists k, v. exact E.
Qed.
Lemma interp_line_from a s l : forall i j, (j < i)%nat -> on_line a s i l -> (l = [] \/ exists v, nth_error l (length l - 1) = Some (Fin v)) ->
  interp_from (Some (j, Fin (a + s * INR j))) i l = map (fun k => Fin (a + s * INR k)) (seq i (length l)).
Proof.
  induction l as [|w l IH]; intros i j L O La; [reflexivity|]. cbn [interp_from length seq map].
  assert (La' : l = [] \/ exists v, nth_error l (length l - 1) = Some (Fin v)).
  { destruct l as [|w' l']; [now left|right]. destruct La as [C|(v & E)]; [discriminate|]. exists v. cbn [length] in E |- *.
    replace (S (S (length l')) - 1)%nat with (S (S (length l') - 1)) in E by lia. exact E. }
  destruct (O 0%nat w eq_refl) as [->| ->]; cbn [nisnan XROps xisnan].
  - assert (Ex : exists k v, nth_error l k = Some (Fin v)).
    { destruct La' as [->|(v & E)]; [|eauto]. destruct La as [C|(v & E)]; [discriminate|]. cbn in E. discriminate. }
    destruct (next_exists l (S i) Ex) as (k & v & En). rewrite En. destruct (next_on_line a s l (S i) k v (on_line_tail _ _ _ _ _ O) En) as [Lk ->].
    f_equal; [|now apply (IH (S i) j); [lia|eapply on_line_tail; exact O|]].
    rewrite between_line by lia. f_equal. assert (INR k - INR j <> 0). { assert (INR j < INR k) by (apply lt_INR; lia). lra. } field. exact H.
  - rewrite Nat.add_0_r. f_equal. apply (IH (S i) i); [lia|eapply on_line_tail; exact O|exact La'].
Qed.
Lemma interp_line a s l : on_line a s 0 l -> (exists v, nth_error l 0 = Some (Fin v)) -> (exists v, nth_error l (length l - 1) = Some (Fin v)) ->
  interp l = map (fun k => Fin (a + s * INR k)) (seq 0 (length l)).
Proof.
  intros O (v & Ef) La. destruct l as [|w l]; [discriminate|]. cbn in Ef. injection Ef as ->.
  unfold interp. cbn [interp_from nisnan XROps xisnan length seq map]. destruct (O 0%nat _ eq_refl) as [C|C]; [discriminate|]. rewrite C.
  f_equal. apply interp_line_from; [lia|eapply on_line_tail; exact O|].
  destruct l as [|w' l']; [now left|right]. destruct La as (u & E). exists u. cbn [length] in E |- *.
  replace (S (S (length l')) - 1)%nat with (S (S (length l') - 1)) in E by lia. exact E.
Qed.

(* ---- series observed every day or every week, possibly with gaps ---- *)
Record steady (step : Z) (freq : string) (t0 : Z) (f : frame XR) : Prop := {
  sd_step : (step = DAY /\ freq = "D") \/ (step = 7 * DAY /\ freq = wday_name (weekday t0))%Z;
  sd_date : has_date f = true;
  sd_freq : detect_freq (map r_date (rows f)) = Some freq;
  sd_sorted : StronglySorted Z.lt (map r_date (rows f));
  sd_on : forall q, In q (rows f) -> ((r_date q - t0) mod step = 0)%Z;
  sd_x : forall q, In q (rows f) -> r_x q = x_of t0 (r_date q) }.

Section Steady.
  Local Open Scope Z_scope.
  Variables (step : Z) (freq : string) (t0 : Z).
  Hypothesis S : (step = DAY /\ freq = "D") \/ (step = 7 * DAY /\ freq = wday_name (weekday t0)).
  Lemma step_days : exists n, 0 < n /\ step = n * DAY /\ (n = 1 \/ n = 7).
  Proof. destruct S as [[-> _]|[-> _]]; [exists 1|exists 7]; lia. Qed.
  Lemma step_pos : 0 < step.
  Proof. destruct step_days as (n & P & -> & _). pose proof DAYp. nia. Qed.
  Lemma step_aligned t : (t - t0) mod step = 0 -> aligned t t0.
  Proof.
    intros A. destruct step_days as (n & P & E & _). pose proof DAYp. apply Z.mod_divide in A as (k & A); [|pose proof step_pos; lia].
    unfold aligned. rewrite A, E. replace (k * (n * DAY)) with (k * n * DAY) by ring. apply Z.mod_mul. lia.
  Qed.
  Lemma step_x a b : (a - t0) mod step = 0 -> (b - t0) mod step = 0 -> a < b -> x_of t0 a < x_of t0 b.
  Proof.
    intros A B L. apply step_aligned in A, B. rewrite <- (aligned_x t0 t0 a), <- (aligned_x t0 t0 b) by now left.
    unfold aligned in *. pose proof DAYp. apply Z.mod_divide in A as (i & A), B as (j & B); try lia. rewrite A, B, !Z.div_mul by lia. nia.
  Qed.
  Lemma step_add lo k : (lo - t0) mod step = 0 -> x_of t0 (lo + k * step) = x_of t0 lo + k * (step / DAY).
  Proof.
    intros A. destruct step_days as (n & P & E & _). pose proof DAYp as D. rewrite <- (aligned_x t0 lo (lo + k * step)) by (right; now apply step_aligned).
    rewrite E. replace (lo + k * (n * DAY) - lo) with (k * n * DAY) by ring. rewrite !Z.div_mul by lia. ring.
  Qed.
  Lemma step_mod a b : (a - t0) mod step = 0 -> (b - t0) mod step = 0 -> (a - b) mod step = 0.
  Proof.
    intros A B. pose proof step_pos. replace (a - b) with ((a - t0) - (b - t0)) by ring. rewrite Zminus_mod, A, B. reflexivity.
  Qed.
  Lemma step_weekday a : step = 7 * DAY -> (a - t0) mod step = 0 -> weekday a = weekday t0.
  Proof.
    intros E A. apply Z.mod_divide in A as (k & A); [|pose proof step_pos; lia]. assert (a = t0 + 7 * k * DAY) as -> by lia.
    unfold weekday, weekday_of_day, day_of. pose proof DAYp. rewrite Z.div_add by lia. replace (t0 / DAY + 7 * k + 3) with (t0 / DAY + 3 + k * 7) by ring.
    apply Z.mod_add. lia.
  Qed.
  Lemma step_on_grid lo t : (lo - t0) mod step = 0 -> (t - t0) mod step = 0 -> on_grid lo (Some freq) t.
  Proof.
    intros A B. pose proof (step_mod t lo B A) as M. cbn [on_grid]. destruct S as [[Es Ef]|[Es Ef]]; rewrite Ef; [left; rewrite <- Es; now split|].
    right. right. left. split; [|now rewrite <- Es]. now rewrite (step_weekday lo Es A).
  Qed.
  Lemma step_range lo hi : (lo - t0) mod step = 0 -> asfreq_range lo hi (Some freq) = Ok (fixed_range lo step hi).
  Proof.
    intros A. unfold asfreq_range, date_range. destruct S as [[Es Ef]|[Es Ef]]; rewrite Ef; [now rewrite Es|].
    rewrite <- (step_weekday lo Es A). rewrite String.eqb_refl. destruct (weekday_name_cases lo) as [->|[->|[->|[->|[->|[->| ->]]]]]]; cbn; now rewrite Es.
  Qed.
End Steady.

Lemma sorted_dates_nodup l : StronglySorted Z.lt l -> NoDup l.
Proof.
  induction 1 as [|a l _ IH F]; constructor; [|exact IH]. intros I. rewrite Forall_forall in F. pose proof (F a I). lia.
Qed.
Lemma sorted_map_via {A} (f g : A -> Z) l : StronglySorted Z.lt (map f l) ->
  (forall a b, In a l -> In b l -> (f a < f b)%Z -> (g a < g b)%Z) -> StronglySorted (fun a b => (g a < g b)%Z) l.
Proof.
  induction l as [|a l IH]; cbn [map]; intros St M; [constructor|]. inversion St as [|? ? S1 F1]; subst. constructor.
  - apply IH; [exact S1|]. intros b c Ib Ic. apply M; now right.
  - rewrite Forall_forall in *. intros b Ib. apply M; [now left|now right|]. apply F1. now apply in_map.
Qed.
(* ---- the dates of a regular calendar ---- *)
(* [ground freq t0 years G]: the dates [G] are whole days from [t0], and the forecast grid of that
   frequency that starts at one of them consists of some of them *)
Record ground (freq : string) (t0 : Z) (years : Q) (G : Z -> Prop) : Prop := {
  gd_day : forall t, G t -> ((t - t0) mod DAY = 0)%Z;
  gd_grid : forall start stop (m : fmodel XR) x0, G start -> x0 = x_of t0 start ->
    exists g, s_x_dates start stop (Some m) (Some freq) years x0 = Ok (map (fun t => (t, scaled (Some m) (x_of t0 t))) g) /\
      StronglySorted Z.lt g /\ (forall t, In t g -> G t) /\ ((0 <= Qnum years)%Z -> (start <= stop)%Z -> g <> []) }.
Lemma day_x t0 a b : ((a - t0) mod DAY = 0)%Z -> ((b - t0) mod DAY = 0)%Z -> (a < b)%Z -> (x_of t0 a < x_of t0 b)%Z.
Proof. intros A B. apply (step_x DAY "D" t0); [now left|exact A|exact B]. Qed.
Definition on_step (step t0 t : Z) : Prop := ((t - t0) mod step = 0)%Z.
Record filled (G : Z -> Prop) (t0 : Z) (f g : frame XR) : Prop := {
  fl_ok : interpolate_df false f = Ok g;
  fl_sorted : StronglySorted Z.lt (map r_date (rows g));
  fl_on : forall q, In q (rows g) -> G (r_date q);
  fl_x : forall q, In q (rows g) -> r_x q = x_of t0 (r_date q);
  fl_y : forall q, In q (rows g) -> In q (rows f) \/ r_y q = XNaN;
  fl_all : forall q, In q (rows f) -> In q (rows g) }.
Lemma steady_filled step freq t0 (f : frame XR) : steady step freq t0 f -> exists g, filled (on_step step t0) t0 f g.
Proof.
  intros D. destruct D as [S Hd Hf St On Hx].
  destruct (Classical_Prop.classic (complete f)) as [C|C].
  { exists f. constructor; auto. now apply interp_complete. }
  pose proof (sorted_dates_nodup _ St) as Nd. pose proof (irregular_nonempty f C) as Ne.
  destruct (zmin_zmax (map r_date (rows f))) as (lo & hi0 & _ & _ & Ilo & _ & B); [intros E; now apply map_eq_nil in E|].
  assert (Al : ((lo - t0) mod step = 0)%Z). { apply in_map_iff in Ilo as (q & <- & Iq). now apply On. }
  destruct (interp_dates_ok f lo Hd C Nd Ilo) as (hi & grid & rs & Eg & Ihi & Bh & Er & Re & All).
  { intros t It. split; [now apply B|]. rewrite Hf. apply in_map_iff in It as (q & <- & Iq). now apply (step_on_grid step freq t0 S); [|apply On]. }
  exists (mkFrame true (has_src f) (has_w f) rs). destruct (interp_dates_x false f _ Hd C Nd Eg) as (grid' & Ed & Ex). cbn [rows] in *.
  destruct Re as (Rg & _ & Ry). rewrite Rg in Ed. subst grid'. rewrite Hf, (step_range step freq t0 S lo hi Al) in Er. apply ok_inj in Er. symmetry in Er.
  pose proof (step_pos step freq t0 S) as Ps. assert (Lh : (lo <= hi)%Z) by now apply Bh.
  assert (Ah : ((hi - t0) mod step = 0)%Z). { apply in_map_iff in Ihi as (q & <- & Iq). now apply On. }
  assert (Gon : forall t, In t grid -> ((t - t0) mod step = 0)%Z).
  { intros t It. rewrite <- Er in It. apply fixed_range_in in It as (k & _ & -> & _); [|exact Ps]. replace (lo + k * step - t0)%Z with (lo - t0 + k * step)%Z by ring.
    rewrite Z.mod_add by lia. exact Al. }
  set (n := Z.to_nat ((hi - lo) / step)). assert (Ln : length grid = (n + 1)%nat).
  { rewrite <- Er. unfold fixed_range. destruct (Z.ltb_spec hi lo); [lia|]. now rewrite map_length, seq_length. }
  assert (Nth : forall i t, nth_error grid i = Some t -> t = (lo + Z.of_nat i * step)%Z).
  { intros i t Ei. assert (i < n + 1)%nat by (rewrite <- Ln; apply nth_error_Some; congruence). rewrite <- Er in Ei.
    rewrite fixed_range_nth in Ei; [now injection Ei as <-|lia|]. unfold n in H. assert (0 <= (hi - lo) / step)%Z by (apply Z.div_pos; lia). lia. }
  set (s := (step / DAY)%Z) in *. set (look := fun t => match lookup r_date (rows f) t with Some r => nofZ (r_x r) | None => nnan end : XR) in *.
  (* the x column lies on a line in the position divided by nothing: slope s *)
  assert (Lk : forall t, In t grid -> look t = XNaN \/ look t = Fin (IZR (x_of t0 t))).
  { intros t It. unfold look. destruct (lookup r_date (rows f) t) as [r|] eqn:E; [right|now left].
    apply lookup_some in E as [Ir <-]. rewrite ofZ_fin, Hx by exact Ir. reflexivity. }
  assert (Xs : map r_x rs = map (x_of t0) grid).
  { assert (Ei : interp (map look grid) = map (fun t => Fin (IZR (x_of t0 t))) grid).
    { assert (Hl : forall t, In t (map r_date (rows f)) -> look t = Fin (IZR (x_of t0 t))).
      { intros t It. apply in_map_iff in It as (q & <- & Iq). unfold look. rewrite (lookup_in r_date _ q Nd Iq), ofZ_fin, Hx by exact Iq. reflexivity. }
      assert (Po : forall i t, nth_error grid i = Some t -> IZR (x_of t0 t) = IZR (x_of t0 lo) + IZR s * INR i).
      { intros i t Ei. apply Nth in Ei. subst t. rewrite (step_add step freq t0 S lo _ Al), plus_IZR, mult_IZR, <- INR_IZR_INZ. fold s. ring. }
      assert (L0 : nth_error grid 0 = Some lo).
      { rewrite <- Er, fixed_range_nth; [f_equal; lia|lia|]. apply Z.div_pos; lia. }
      assert (Lz : nth_error grid n = Some hi).
      { assert (Dv : (step * ((hi - lo) / step) = hi - lo)%Z). { symmetry. apply Z_div_exact_full_2; [lia|]. now apply (step_mod step freq t0 S). }
        assert (0 <= (hi - lo) / step)%Z by (apply Z.div_pos; lia).
        rewrite <- Er, fixed_range_nth; [f_equal|lia|]; unfold n; rewrite Z2Nat.id; lia. }
      rewrite (interp_line (IZR (x_of t0 lo)) (IZR s)).
      - rewrite map_length. apply nth_ext with (d := XNaN) (d' := XNaN); rewrite !map_length, ?seq_length; [reflexivity|]. intros i Hi.
        destruct (nth_error grid i) as [t|] eqn:Et; [|apply nth_error_None in Et; lia].
        erewrite !nth_error_nth; [reflexivity| |]; swap 1 2.
        + apply map_nth_error with (f := fun k => Fin (IZR (x_of t0 lo) + IZR s * INR k)). rewrite (nth_error_nth' _ 0%nat) by (rewrite seq_length; lia). now rewrite seq_nth.
        + rewrite (map_nth_error _ _ _ Et). now rewrite (Po _ _ Et).
      - intros i v Ev. cbn [Nat.add]. rewrite nth_error_map in Ev. destruct (nth_error grid i) as [t|] eqn:Et; [|discriminate]. injection Ev as <-.
        rewrite <- (Po _ _ Et). apply Lk. eapply nth_error_In; exact Et.
      - exists (IZR (x_of t0 lo)). now rewrite (map_nth_error look _ _ L0), Hl.
      - rewrite map_length, Ln. replace (n + 1 - 1)%nat with n by lia. exists (IZR (x_of t0 hi)). now rewrite (map_nth_error look _ _ Lz), Hl. }
    rewrite Ei in Ex. clear -Ex. revert Ex. generalize (map r_x rs) as zs. unfold to_ints. induction grid as [|t grid IH]; intros zs E; cbn [map rmapM] in E.
    - now apply ok_inj in E.
    - cbn [ntrunc XROps] in E. rewrite Rtrunc_IZR in E. cbn [rbind] in E. destruct (rmapM _ _) as [zs'|] eqn:Ez; [|discriminate]. cbn [rbind] in E.
      apply ok_inj in E. subst zs. cbn [map]. f_equal. now apply IH. }
  assert (Rx : forall q, In q rs -> r_x q = x_of t0 (r_date q)).
  { rewrite <- Rg, map_map in Xs. intros q Iq. clear -Xs Iq. revert Xs Iq. induction rs as [|r rs IH]; [intros _ []|]. cbn [map]. intros [= E1 E2] [<-|I]; auto. }
  constructor; cbn [rows]; auto.
  - rewrite Rg, <- Er. now apply fixed_range_sorted.
  - intros q Iq. apply Gon. rewrite <- Rg. now apply in_map.
  - intros q Iq. destruct (Ry q Iq) as [I|(_ & Y & _)]; auto.
Qed.

(* ---- the actuals table handed to the models ---- *)
Definition tame (v : XR) : Prop := (exists r, v = Fin r) \/ v = XNaN.
Record table (G : Z -> Prop) (t0 : Z) (f act : frame XR) : Prop := {
  tb_date : has_date act = true;
  tb_sorted : StronglySorted Z.lt (map r_date (rows act));
  tb_on : forall q, In q (rows act) -> G (r_date q);
  tb_x : forall q, In q (rows act) -> r_x q = x_of t0 (r_date q);
  tb_y : forall q, In q (rows act) -> r_y q = XNaN \/ exists r, In r (rows f) /\ r_y q = r_y r }.
Lemma same_x_one (u : list (row XR)) x : NoDup (map r_x u) ->
  filter (fun r => (r_x r =? x)%Z) u = [] \/ exists r, filter (fun r => (r_x r =? x)%Z) u = [r].
Proof.
  induction u as [|a u IH]; cbn [map filter]; intros N; [now left|]. inversion N as [|? ? Na Nu]; subst.
  destruct (Z.eqb_spec (r_x a) x) as [E|E]; [|now apply IH]. right. exists a. f_equal.
  assert (filter (fun r => (r_x r =? x)%Z) u = []); [|assumption]. clear IH N. induction u as [|b u IHu]; [reflexivity|]. cbn [filter].
  inversion Nu; subst. destruct (Z.eqb_spec (r_x b) (r_x a)) as [C|C]; [exfalso; apply Na; cbn; now left|].
  apply IHu; [intros I; apply Na; now right|assumption].
Qed.
Lemma flat_map_single {A B} (F : A -> list B) (l : list A) : (forall a, In a l -> exists b, F a = [b]) ->
  Forall2 (fun a b => F a = [b]) l (flat_map F l).
Proof.
  induction l as [|a l IH]; intros H; [constructor|]. cbn. destruct (H a (or_introl eq_refl)) as (b & E). rewrite E. cbn.
  constructor; [exact E|]. apply IH. intros c Ic. apply H. now right.
Qed.
Lemma actuals_on (G : Z -> Prop) t0 (f u : frame XR) : has_date f = true -> (forall t, G t -> ((t - t0) mod DAY = 0)%Z) -> (exists g, filled G t0 f g) -> NoDup (map r_x (rows u)) ->
  exists act, model_actuals f u = Ok act /\ table G t0 f act.
Proof.
  intros Hd Gd (g & Fl) Nu. unfold model_actuals. rewrite (fl_ok _ _ _ _ Fl). cbn [rbind]. cbv zeta.
  assert (Sx : StronglySorted (fun a b => (r_x a < r_x b)%Z) (rows g)).
  { apply (sorted_map_via r_date); [exact (fl_sorted _ _ _ _ Fl)|]. intros a b Ia Ib L. rewrite !(fl_x _ _ _ _ Fl) by assumption.
    apply day_x; [now apply Gd, (fl_on _ _ _ _ Fl)..|exact L]. }
  rewrite isort_id; swap 1 2.
  { clear -Sx. induction Sx as [|a l S IH F]; constructor; auto. eapply Forall_impl; [|exact F]. intros b L. cbn in *. apply Z.leb_le. lia. }
  eexists. split; [reflexivity|]. set (F := fun r : row XR => map _ _).
  assert (F2 : Forall2 (fun a b => F a = [b]) (rows g) (flat_map F (rows g))).
  { apply flat_map_single. intros r Ir. unfold F. destruct (same_x_one (rows u) (r_x r) Nu) as [->|(q & ->)]; cbn; eauto. }
  assert (K : Forall2 (fun a b => r_date b = r_date a /\ r_x b = r_x a /\ (r_y b = r_y a \/ r_y b = XNaN)) (rows g) (flat_map F (rows g))).
  { eapply Forall2_impl'; [|exact F2]. clear -Nu. intros r b E. unfold F in E. destruct (same_x_one (rows u) (r_x r) Nu) as [Eq|(q & Eq)]; rewrite Eq in E; cbn in E; injection E as <-; cbn.
    - split; [reflexivity|]. split; [reflexivity|]. match goal with |- (if ?b then _ else _) = _ \/ _ => destruct b; auto end.
    - split; [reflexivity|]. split; [reflexivity|]. match goal with |- (if ?b then _ else _) = _ \/ _ => destruct b; auto end. }
  assert (Ki : forall b, In b (flat_map F (rows g)) -> exists a, In a (rows g) /\ r_date b = r_date a /\ r_x b = r_x a /\ (r_y b = r_y a \/ r_y b = XNaN)).
  { clear -K. induction K as [|a b l l' P K IH]; [intros c []|]. intros c [<-|Ic]; [exists a; split; [now left|exact P]|].
    destruct (IH c Ic) as (a' & Ia & P'). exists a'. split; [now right|exact P']. }
  assert (Kd : map r_date (flat_map F (rows g)) = map r_date (rows g)).
  { clear -K. induction K as [|a b l l' (P & _) K IH]; [reflexivity|]. cbn [map]. now rewrite P, IH. }
  constructor; cbn [has_date rows].
  - exact Hd.
  - rewrite Kd. exact (fl_sorted _ _ _ _ Fl).
  - intros b Ib. destruct (Ki b Ib) as (a & Ia & -> & _). now apply (fl_on _ _ _ _ Fl).
  - intros b Ib. destruct (Ki b Ib) as (a & Ia & -> & -> & _). now apply (fl_x _ _ _ _ Fl).
  - intros b Ib. destruct (Ki b Ib) as (a & Ia & _ & _ & [->|Y]); [|now left]. destruct (fl_y _ _ _ _ Fl a Ia) as [I|Y]; [right; eauto|now left].
Qed.

(* ---- models without parameters ---- *)
Record effortless (G : Z -> Prop) (t0 : Z) (act : frame XR) (m : fmodel XR) : Prop := {
  ef_n : fm_n m = 0%nat;
  ef_scale : requires_scaling (fm_name m) = false;
  ef_val : forall x y ds, validate_input m x y (Some ds) = Ok true;
  ef_bounds : forall x y d, fm_bounds m x y d = Ok (mkBounds [] [] false);
  ef_calls : forall ds p mode, StronglySorted Z.lt ds -> (forall t, In t ds -> G t) ->
    exists v, fm_f m (map nofZ (map (x_of t0) ds)) (Some ds) p mode (mkKw (Some act) []) = Ok v /\
      match v with Sc a => tame a | Ar l => length l = length ds /\ Forall tame l end }.

Lemma tame_sub a b : tame a -> tame b -> tame (nsub a b).
Proof. intros [(x & ->)| ->] [(y & ->)| ->]; cbn; [left; eexists; reflexivity|now right..]. Qed.
Lemma tame_mul a b : tame a -> tame b -> tame (nmul a b).
Proof. intros [(x & ->)| ->] [(y & ->)| ->]; cbn; [left; eexists; reflexivity|now right..]. Qed.
Lemma tame_abs a : tame a -> tame (nabs a).
Proof. intros [(x & ->)| ->]; cbn; [left; eexists; reflexivity|now right]. Qed.
Lemma fold_squares (l : list XR) : Forall tame l -> forall s, 0 <= s -> exists v, fold_left nadd (filter (fun a => negb (nisnan a)) (map (fun a => nmul a a) l)) (Fin s) = Fin v /\ 0 <= v.
Proof.
  induction 1 as [|a l T F IH]; intros s P; [cbn; eauto|]. cbn [map filter]. destruct T as [(x & ->)| ->].
  - cbn [nmul XROps xmul nisnan xisnan negb filter fold_left nadd xadd]. apply IH. nra.
  - cbn [nmul XROps xmul nisnan xisnan negb filter]. now apply IH.
Qed.

Lemma tame_fins l : Forall tame (fins l).
Proof. apply Forall_forall. intros a I. apply in_map_iff in I as (r & <- & _). left. eauto. Qed.
Lemma tame_map2 op (l l' : list XR) : (forall a b, tame a -> tame b -> tame (op a b)) -> Forall tame l -> Forall tame l' -> Forall tame (map2 op l l').
Proof.
  intros O F. revert l'. unfold map2. induction F as [|a l T F IH]; intros l' F'; [constructor|]. destruct F' as [|b l' T' F']; [constructor|].
  cbn [combine map fst snd]. constructor; [now apply O|now apply IH].
Qed.
Lemma residuals_tame (m : fmodel XR) (f : frame XR) act p v : finite_rows f ->
  call m (xs_of m f) (dates_of f) p false (mkKw act []) = Ok v ->
  match v with Sc a => tame a | Ar l => length l = length (usable_rows f) /\ Forall tame l end ->
  exists rs, get_residuals p m (xs_of m f) (ys_of f) (dates_of f) (ws_of f) act [] = Ok rs /\ Forall tame rs.
Proof.
  intros Fr Ec Tv. destruct (rows_fitted f (fun _ => []) Fr) as [Ey Ew]. unfold get_residuals. rewrite Ec. cbn [rbind].
  assert (Ly : length (ys_of f) = length (usable_rows f)) by apply map_length.
  assert (Ty : Forall tame (ys_of f)) by (rewrite Ey; apply tame_fins).
  assert (exists r, bcast2 nsub (Ar (ys_of f)) v = Ok (Ar r) /\ length r = length (usable_rows f) /\ Forall tame r) as (r & -> & Lr & Tr).
  { destruct v as [a|l]; cbn [bcast2].
    - eexists. split; [reflexivity|]. split; [now rewrite map_length|]. apply Forall_map. eapply Forall_impl; [|exact Ty]. intros b Tb. now apply tame_sub.
    - destruct Tv as [Ll Tl]. rewrite Ly, Ll, Nat.eqb_refl. eexists. split; [reflexivity|]. split; [rewrite map2_length; congruence|].
      apply tame_map2; [exact tame_sub|exact Ty|exact Tl]. }
  cbn [rbind]. destruct (ws_of f) as [ws|] eqn:Eq.
  - pose proof (ws_length _ _ Eq) as Lw. cbn [bcast2]. rewrite Lr, Lw, Nat.eqb_refl. cbn [rbind nval_list]. eexists. split; [reflexivity|].
    apply Forall_map. eapply Forall_impl; [exact tame_abs|]. apply tame_map2; [exact tame_mul|exact Tr|]. subst ws. apply tame_fins.
  - cbn [rbind nval_list]. eexists. split; [reflexivity|]. apply Forall_map. eapply Forall_impl; [exact tame_abs|exact Tr].
Qed.
(* the frame whose rows are fitted lies on the grid *)
Record on_steps (G : Z -> Prop) (t0 : Z) (f : frame XR) : Prop := {
  os_date : has_date f = true;
  os_sorted : StronglySorted Z.lt (map r_date (usable_rows f));
  os_on : forall q, In q (usable_rows f) -> G (r_date q);
  os_x : forall q, In q (usable_rows f) -> r_x q = x_of t0 (r_date q) }.
Lemma xs_dates (G : Z -> Prop) t0 (f : frame XR) m : on_steps G t0 f -> requires_scaling (fm_name m) = false ->
  xs_of m f = map nofZ (map (x_of t0) (map r_date (usable_rows f))).
Proof.
  intros O Sc. unfold xs_of. rewrite !map_map. apply map_ext_in. intros r Ir. unfold FitProofs.x_of. rewrite Sc. now rewrite (os_x _ _ _ O r Ir).
Qed.
Lemma effortless_fit E (G : Z -> Prop) t0 act m f freq src uc : effortless G t0 act m -> on_steps G t0 f ->
  usable_rows f <> [] -> finite_rows f ->
  exists d, fit_model E m f freq src (Some act) uc = Ok d.
Proof.
  intros Ef O Hn Fr.
  destruct (Nat.lt_ge_cases (length (usable_rows f)) (fm_n m + 2)) as [Ls|Ll].
  { destruct (fit_short zero_lt_XR get_aic_c E m f freq src (Some act) uc Hn Ls) as (d & Ed & _). eauto. }
  unfold fit_model. rewrite (fit_unfold zero_lt_XR).
  destruct (range_ok (T := XR) E m f Hn) as (range & ->). cbn [rbind]. cbv zeta.
  destruct (Nat.ltb_spec (length (usable_rows f)) (fm_n m + 2)); [lia|].
  assert (Eds : dates_of f = Some (map r_date (usable_rows f))) by (unfold dates_of; now rewrite (os_date _ _ _ O)).
  assert (validate_input m (xs_of m f) (ys_of f) (dates_of f) = Ok true) as -> by (rewrite Eds; apply (ef_val _ _ _ _ Ef)). cbn [rbind negb].
  rewrite (simplify_nothing (e_arr E) m _ _ _ (mkBounds [] [] false) (ef_bounds _ _ _ _ Ef _ _ _) eq_refl); swap 1 2.
  { intros i (lo & hi & P & _). cbn [b_lo] in P. destruct i; discriminate. }
  cbn [rbind]. rewrite (ef_n _ _ _ _ Ef), Nat.eqb_refl.
  destruct (ef_calls _ _ _ _ Ef (map r_date (usable_rows f)) None (Some false) (os_sorted _ _ _ O)) as (v & Ev & Tv).
  { intros t It. apply in_map_iff in It as (q & <- & Iq). now apply (os_on _ _ _ O). }
  destruct (residuals_tame m f (Some act) None v Fr) as (rs & Er & Tr).
  { unfold call. rewrite Eds, (xs_dates G t0 f m O (ef_scale _ _ _ _ Ef)). exact Ev. }
  { destruct v; [exact Tv|]. destruct Tv as [L T]. rewrite map_length in L. now split. }
  rewrite Er. cbn [rbind]. unfold nansum, nsum. destruct (fold_squares rs Tr 0 ltac:(lra)) as (s & Es & Ps).
  change (n0 : XR) with (Fin 0). rewrite Es. 
  assert (exists c, (nmul (dec 5 10) (Fin s) : XR) = Fin c /\ 0 <= c) as (c & -> & Pc).
  { rewrite NumProofs.dec_fin by lia. cbn. eexists. split; [reflexivity|]. nra. }
  destruct (aic_some (Fin c) (Z.of_nat (length (usable_rows f))) (Z.of_nat 0)) as (sc & ->); [lia|lia|left; eauto|]. cbn [rbind]. eauto.
Qed.

Lemma filter_split_length {A} (p : A -> bool) l : (length (filter p l) + length (filter (fun a => negb (p a)) l))%nat = length l.
Proof. induction l as [|a l IH]; [reflexivity|]. cbn [filter]. destruct (p a); cbn [negb length]; lia. Qed.
(* the three models of the library without parameters *)
Section Instances.
  Variables (G : Z -> Prop) (t0 : Z) (f act : frame XR).
  Hypothesis Gd : forall t, G t -> ((t - t0) mod DAY = 0)%Z.
  Hypothesis Ft : forall r, In r (rows f) -> tame (r_y r).
  Hypothesis Tb : table G t0 f act.
  Lemma act_tame q : In q (rows act) -> tame (r_y q).
  Proof. intros I. destruct (tb_y _ _ _ _ Tb q I) as [->|(r & Ir & ->)]; [now right|now apply Ft]. Qed.
  Lemma act_sorted_x : sorted_x (rows act).
  Proof.
    apply (sorted_map_via r_date); [exact (tb_sorted _ _ _ _ Tb)|]. intros a b Ia Ib L. rewrite !(tb_x _ _ _ _ Tb) by assumption.
    apply day_x; [now apply Gd, (tb_on _ _ _ _ Tb)..|exact L].
  Qed.
  Lemma dates_x_sorted ds : StronglySorted Z.lt ds -> (forall t, In t ds -> G t) -> StronglySorted Z.lt (map (x_of t0) ds).
  Proof.
    induction 1 as [|t ds Sd IH F]; intros On; cbn [map]; constructor.
    - apply IH. intros u Iu. apply On. now right.
    - apply Forall_map. rewrite Forall_forall in *. intros u Iu. apply day_x; [apply Gd, On; now left|apply Gd, On; now right|now apply F].
  Qed.
  Lemma effortless_null : effortless G t0 act model_null.
  Proof.
    constructor; try reflexivity. intros ds p mode _ _. eexists. split; [reflexivity|]. left. unfold nofbool. destruct (mode_of false mode); cbn; eauto.
  Qed.
  Lemma effortless_naive : effortless G t0 act model_naive.
  Proof.
    constructor; try reflexivity. intros ds p mode Sd On.
    destruct (naive_correct (N := XROps) eq_refl act (map (x_of t0) ds) (Some ds) p mode) as (out & E & F2).
    - apply xr_exact_ints.
    - apply sorted_x_nodup. exact act_sorted_x.
    - now apply dates_x_sorted.
    - split; [now rewrite map_length|]. intros _ t z r I Ir Ex.
      assert (z = x_of t0 t /\ In t ds) as [-> It].
      { clear -I. induction ds as [|a ds IH]; [destruct I|]. cbn in I. destruct I as [[= -> ->]|I]; [split; [reflexivity|now left]|]. destruct (IH I). split; [assumption|now right]. }
      rewrite (tb_x _ _ _ _ Tb r Ir) in Ex. destruct (Z.lt_trichotomy (r_date r) t) as [L|[L|L]]; [|exact L|].
      + apply (day_x t0) in L; [lia|now apply Gd, (tb_on _ _ _ _ Tb)|now apply Gd, On].
      + apply (day_x t0) in L; [lia|now apply Gd, On|now apply Gd, (tb_on _ _ _ _ Tb)].
    - eexists. split; [exact E|]. split; [pose proof (Forall2_len _ _ _ F2) as L; now rewrite map_length in L|].
      apply Forall_forall. intros v Iv. destruct (Forall2_in_r _ _ _ _ F2 Iv) as (z & _ & [(r & Ir & _ & _ & -> & _)|(_ & [(r & (Ir & _) & -> & _)|(_ & ->)])]).
      + now apply act_tame.
      + now apply act_tame.
      + now right.
  Qed.
  Lemma last_tame P v : last_among P (rows act) v -> tame v.
  Proof. intros [(r & Ir & _ & _ & -> & _)|(_ & ->)]; [now apply act_tame|now right]. Qed.
  Lemma effortless_snaive : effortless G t0 act model_snaive_wday.
  Proof.
    constructor; try reflexivity. intros ds p mode Sd On.
    destruct (snaive_correct (N := XROps) eq_refl act ds (map (x_of t0) ds) p mode (tb_date _ _ _ _ Tb) act_sorted_x) as (o1 & o2 & E & F1 & F2).
    - apply xr_exact_ints.
    - now rewrite map_length.
    - now apply dates_x_sorted.
    - intros t z I Id. assert (z = x_of t0 t) as ->.
      { clear -I. induction ds as [|a ds IH]; [destruct I|]. cbn in I. destruct I as [[= -> ->]|I]; [reflexivity|auto]. }
      unfold in_dates in Id. apply existsb_exists in Id as (u & Iu & Er). apply Z.eqb_eq in Er. subst u.
      apply in_map_iff in Iu as (r & Er & Ir). exists r. split; [exact Ir|]. split; [exact Er|]. now rewrite (tb_x _ _ _ _ Tb r Ir), Er.
    - eexists. split; [exact E|]. split.
      + rewrite app_length, <- (Forall2_len _ _ _ F1), <- (Forall2_len _ _ _ F2). rewrite filter_split_length, combine_length, map_length. lia.
      + apply Forall_app. split; apply Forall_forall; intros v Iv.
        * destruct (Forall2_in_r _ _ _ _ F1 Iv) as (z & _ & L). eapply last_tame; exact L.
        * destruct (Forall2_in_r _ _ _ _ F2 Iv) as (z & _ & L). eapply last_tame; exact L.
  Qed.
End Instances.

(* ---- the grid and the forecast of one model ---- *)
Lemma steady_grid step freq t0 start stop (m : fmodel XR) years x0 :
  (step = DAY /\ freq = "D") \/ (step = 7 * DAY /\ freq = wday_name (weekday t0))%Z ->
  on_step step t0 start -> x0 = x_of t0 start ->
  exists g, s_x_dates start stop (Some m) (Some freq) years x0 = Ok (map (fun t => (t, scaled (Some m) (x_of t0 t))) g) /\
    StronglySorted Z.lt g /\ (forall t, In t g -> on_step step t0 t) /\ ((0 <= Qnum years)%Z -> (start <= stop)%Z -> g <> []).
Proof.
  intros S On ->.
  assert (FF : exists per, fixed_freq start (Some freq) step per).
  { pose proof S as S0. destruct S0 as [[Es Ef]|[Es Ef]]; rewrite Ef; [rewrite Es; eexists; constructor|]. rewrite <- (step_weekday step freq t0 S start Es On), Es. eexists. constructor. }
  destruct FF as (per & FF). destruct (fixed_grid start stop (Some m) (Some freq) step per years (x_of t0 start) FF) as (e & g & E & _ & He & Sg & G).
  pose proof (step_pos step freq t0 S) as Ps.
  exists g. rewrite E. split; [|split; [exact Sg|split]].
  - f_equal. apply map_ext_in. intros t It. apply G in It as (k & _ & -> & _). do 2 f_equal. apply aligned_x. right. now apply (step_aligned step freq t0 S).
  - intros t It. apply G in It as (k & _ & -> & _). unfold on_step. replace (start + k * step - t0)%Z with (start - t0 + k * step)%Z by ring. rewrite Z.mod_add by lia. exact On.
  - intros Hy Hs C. assert (I : In start g) by (apply G; exists 0%Z; specialize (He Hy); lia). rewrite C in I. destruct I.
Qed.
Lemma steady_ground step freq t0 years : (step = DAY /\ freq = "D") \/ (step = 7 * DAY /\ freq = wday_name (weekday t0))%Z ->
  ground freq t0 years (on_step step t0).
Proof.
  intros S. constructor.
  - intros t Ht. exact (step_aligned step freq t0 S t Ht).
  - intros start stop m x0 On Ex. now apply (steady_grid step freq t0).
Qed.

Lemma effortless_forecast freq t0 (G : Z -> Prop) act m start stop years x0 p : ground freq t0 years G ->
  effortless G t0 act m -> G start -> x0 = x_of t0 start ->
  exists l, extrapolate_model m p (ODate start stop) (Some freq) years x0 (Some act) = Ok l /\ forall q, In q l -> G (fst q).
Proof.
  intros S Ef On Ex. destruct (gd_grid _ _ _ _ S start stop m x0 On Ex) as (g & Eg & Sg & Og & _).
  unfold extrapolate_model. cbn [s_x_extrapolate]. rewrite Eg. cbn [rbind]. cbv zeta. rewrite !map_map. cbn [fst snd]. rewrite map_id.
  destruct (ef_calls _ _ _ _ Ef g p (Some false) Sg Og) as (v & Ev & Tv). unfold call.
  assert (map (fun t => scaled (Some m) (x_of t0 t)) g = map nofZ (map (x_of t0) g)) as ->.
  { rewrite map_map. apply map_ext. intros t. unfold scaled. cbn [model_requires_scaling]. now rewrite (ef_scale _ _ _ _ Ef). }
  rewrite Ev. cbn [rbind]. destruct v as [a|l].
  - eexists. split; [reflexivity|]. intros q I. apply in_map_iff in I as (t & <- & It). now apply Og.
  - destruct Tv as [-> _]. rewrite Nat.eqb_refl. eexists. split; [reflexivity|]. intros [t v] I. apply in_combine_l in I. now apply Og.
Qed.
Lemma hardy_forecast ne freq t0 (G : Z -> Prop) act m start stop years x0 p : ground freq t0 years G ->
  hardy ne m -> (ne = true -> (0 <= Qnum years)%Z /\ (start <= stop)%Z) -> G start -> x0 = x_of t0 start -> length p = fm_n m ->
  exists l, extrapolate_model m (Some p) (ODate start stop) (Some freq) years x0 (Some act) = Ok l /\ forall q, In q l -> G (fst q).
Proof.
  intros S St Hy On Ex Lp. destruct (gd_grid _ _ _ _ S start stop m x0 On Ex) as (g & Eg & Sg & Og & Ng).
  unfold extrapolate_model. cbn [s_x_extrapolate]. rewrite Eg. cbn [rbind]. cbv zeta. rewrite !map_map. cbn [fst snd]. rewrite map_id.
  destruct (hd_calls _ _ St (map (fun t => scaled (Some m) (x_of t0 t)) g) g [] (Some act) p false) as (l & El & Ll); [now rewrite map_length|intros N; destruct (Hy N); auto|apply in_order_nil|exact Lp|].
  unfold call. rewrite El. cbn [rbind]. rewrite map_length in Ll. rewrite Ll, Nat.eqb_refl. eexists. split; [reflexivity|]. intros [t v] I. apply in_combine_l in I. now apply Og.
Qed.
