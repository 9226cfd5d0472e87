(* Groups of samples: balanced residuals, levels and days of their own: proofs for C100. *)
From Coq Require Import ZArith String List Bool Lia Reals Lra Permutation.
From Verif Require Import Num Py Cal Fmt Model Base Dummy Fixed Naive Freq Aic Normalize Fit Interp Select Stats Outliers Pi Forecast.
From Verif Require Import NumProofs ListProofs StringProofs ModelProofs BaseProofs GuessProofs FixedProofs FitProofs SeasonProofs CacheProofs DummyProofs StatsProofs LsqProofs TotalProofs AicProofs UniqueProofs RepeatProofs HolidayProofs ConfirmProofs PullProofs.
From Verif Require ExistProofs.
Import ListNotations.
Local Open Scope string_scope.
Local Open Scope list_scope.
Local Open Scope R_scope.

(* ---- specification ---- *)
(* a group of days; the model has a curve that is 1 on these days and 0 on all others *)
Definition tells (m : fmodel XR) (phi : R -> Z -> list R) (G : Z -> bool) : Prop :=
  exists de, length de = fm_n m /\ forall x t, rdot de (phi x t) = mark (G t).
(* sum over the samples of the group, weighted as in the fit *)
Definition group_sum (f : frame XR) (G : Z -> bool) (g : row XR -> R) : R := wsum f (fun r => mark (G (r_date r)) * g r).

Lemma wsum_ext f g h : (forall r, In r (usable_rows f) -> g r = h r) -> wsum f g = wsum f h.
Proof. intros K. unfold wsum. apply ExistProofs.rsum_ext. intros r I. now rewrite K. Qed.
Lemma wsum_minus f g h : wsum f (fun r => g r - h r) = wsum f g - wsum f h.
Proof. unfold wsum. induction (usable_rows f) as [|r l IH]; cbn [map rsum]; [ring|]. rewrite IH. ring. Qed.
Lemma wsum_scale f c g : wsum f (fun r => c * g r) = c * wsum f g.
Proof. unfold wsum. induction (usable_rows f) as [|r l IH]; cbn [map rsum]; [ring|]. rewrite IH. ring. Qed.

Section Fits.
  Variables (m : fmodel XR) (phi : R -> Z -> list R) (f : frame XR) (E : env XR) (freq : option string) (s : string) (a : option (frame XR)) (u : bool) (d : meta XR) (G : Z -> bool).
  Hypotheses (Rg : regression m phi) (Tl : tells m phi G) (Hd : has_date f = true) (Fr : finite_rows f)
    (Mn : minimizes E m f a) (Ef : fit_model E m f freq s a u = Ok d) (Fd : md_fit d = true).
  (* over the group, what the fit misses adds up to nothing *)
  Theorem group_balance : exists th, md_params d = fins th /\ length th = fm_n m /\ group_sum f G (miss phi th) = 0 /\
    group_sum f G (fun r => rdot th (coef phi r)) = group_sum f G (fun r => real (r_y r)).
  Proof.
    destruct (regression_fit E m phi f _ _ _ _ _ Rg Hd Fr Mn Ef Fd) as (th & P & Lt & C & M & Nm). exists th. split; [exact P|]. split; [exact Lt|].
    destruct Tl as (de & Ld & Ed). pose proof (Nm de ltac:(congruence)) as K. change (grad th de (samples f (coef phi)) = 0) in K. rewrite grad_rows in K.
    assert (B : group_sum f G (miss phi th) = 0).
    { rewrite <- K. unfold group_sum, wsum. apply ExistProofs.rsum_ext. intros r _. rewrite miss_err. unfold coef at 1. rewrite (Ed (x_in r) (r_date r)). ring. }
    split; [exact B|]. symmetry. apply Rminus_diag_uniq. rewrite <- B. unfold group_sum. rewrite <- wsum_minus. apply wsum_ext. intros r _. unfold miss. ring.
  Qed.
  (* where the curves of the model are constant on the group, the fitted level is the mean of the group *)
  Theorem group_level c0 : (forall r, In r (usable_rows f) -> G (r_date r) = true -> coef phi r = c0) ->
    exists th, md_params d = fins th /\ (forall r, In r (usable_rows f) -> G (r_date r) = true -> rdot th (coef phi r) = rdot th c0) /\
      rdot th c0 * group_sum f G (fun _ => 1) = group_sum f G (fun r => real (r_y r)).
  Proof.
    intros C0. destruct group_balance as (th & P & Lt & _ & B). exists th. split; [exact P|]. split; [intros r I Gr; now rewrite (C0 r I Gr)|].
    rewrite <- B. unfold group_sum. rewrite <- wsum_scale. apply wsum_ext. intros r I. destruct (G (r_date r)) eqn:Gr; unfold mark; [|ring]. rewrite (C0 r I Gr). ring.
  Qed.
  (* a group with a single sample is fitted exactly *)
  Theorem group_alone l1 r0 l2 : usable_rows f = l1 ++ r0 :: l2 -> G (r_date r0) = true -> (forall r, In r (l1 ++ l2) -> G (r_date r) = false) ->
    exists th, md_params d = fins th /\ r_y r0 = Fin (rdot th (coef phi r0)).
  Proof.
    intros Eu G0 Gl. destruct group_balance as (th & P & Lt & B & _). exists th. split; [exact P|].
    assert (I0 : In r0 (usable_rows f)) by (rewrite Eu; apply in_or_app; right; now left).
    assert (Z : forall l, (forall r, In r l -> G (r_date r) = false) -> rsum (map (fun r => share f r * share f r * (mark (G (r_date r)) * miss phi th r)) l) = 0).
    { intros l K. apply rsum_zero. intros x Ix. apply in_map_iff in Ix as (r & <- & Ir). rewrite (K r Ir). unfold mark. ring. }
    unfold group_sum, wsum in B. rewrite Eu, map_app, rsum_app in B. cbn [map rsum] in B.
    rewrite (Z l1) in B by (intros r Ir; apply Gl, in_or_app; now left). rewrite (Z l2) in B by (intros r Ir; apply Gl, in_or_app; now right).
    rewrite G0 in B. unfold mark in B. pose proof (share_pos f r0 Fr I0) as Sp.
    assert (Q : share f r0 * share f r0 * miss phi th r0 = 0) by lra. apply Rmult_integral in Q as [Q|Q]; [apply Rmult_integral in Q; lra|].
    unfold finite_rows in Fr. rewrite Forall_forall in Fr. rewrite (proj1 (Fr r0 I0)). f_equal. unfold miss in Q. lra.
  Qed.
End Fits.

(* ---- groups that the shipped models tell from the others ---- *)
Lemma dot_zeros n c : rdot (repeat 0 n) c = 0.
Proof. apply rdot_zero. Qed.
Theorem tells_left m1 m2 phi1 phi2 G : (forall x t, length (phi1 x t) = fm_n m1) -> fm_n (madd m1 m2) = (fm_n m1 + fm_n m2)%nat -> tells m1 phi1 G -> tells (madd m1 m2) (fun x t => phi1 x t ++ phi2 x t) G.
Proof.
  intros L1 Ln (de & Ld & Ed). exists (de ++ repeat 0 (fm_n m2)). split; [rewrite app_length, repeat_length, Ld; now symmetry|].
  intros x t. rewrite rdot_app by (rewrite L1; exact Ld). rewrite Ed, dot_zeros. ring.
Qed.
Theorem tells_right m1 m2 phi1 phi2 G : (forall x t, length (phi1 x t) = fm_n m1) -> fm_n (madd m1 m2) = (fm_n m1 + fm_n m2)%nat -> tells m2 phi2 G -> tells (madd m1 m2) (fun x t => phi1 x t ++ phi2 x t) G.
Proof.
  intros L1 Ln (de & Ld & Ed). exists (repeat 0 (fm_n m1) ++ de). split; [rewrite app_length, repeat_length, Ld; now symmetry|].
  intros x t. rewrite rdot_app by (rewrite L1; apply repeat_length). rewrite Ed, dot_zeros. ring.
Qed.
(* with a group, and all days, also the other days *)
Theorem tells_others m phi G H : (forall t, H t = true -> G t = true) -> tells m phi G -> tells m phi H -> tells m phi (fun t => G t && negb (H t)).
Proof.
  intros Sub (de & Ld & Ed) (e & Le & Ee). exists (mix 1 (-1) de e). split.
  - unfold mix. rewrite <- Ld. assert (L : length de = length e) by congruence. clear - L. revert e L. induction de as [|x de IH]; intros [|y e] L; try discriminate; cbn in *; [reflexivity|]. f_equal. apply IH. lia.
  - intros x t. rewrite rdot_mix by congruence. rewrite Ed, Ee. specialize (Sub t). destruct (G t), (H t); cbn; try lra; discriminate (Sub eq_refl).
Qed.
Theorem tells_constant : tells model_constant (fun _ _ => [1]) (fun _ => true).
Proof. exists [1]. split; [reflexivity|]. intros x t. unfold rdot. cbn. lra. Qed.
Theorem tells_linear : tells model_linear (fun x _ => [x; 1]) (fun _ => true).
Proof. exists [0; 1]. split; [reflexivity|]. intros x t. unfold rdot. cbn. lra. Qed.
Lemma dot_pick k M l : NoDup l -> In k l ->
  rdot (map (fun i => if Z.eqb k i then 1 else 0) l) (map (fun i => if Z.eqb M i then 1 else 0) l) = mark (Z.eqb M k).
Proof.
  intros N. induction N as [|i l Ni N IH]; [intros []|]. intros I. cbn [map]. rewrite ExistProofs.rdot_cons.
  assert (Z0 : ~ In k l -> rdot (map (fun i => if Z.eqb k i then 1 else 0) l) (map (fun i => if Z.eqb M i then 1 else 0) l) = 0).
  { intros Nk. assert (map (fun i => if Z.eqb k i then 1 else 0) l = repeat 0 (length l)) as ->; [|apply dot_zeros].
    clear - Nk. induction l as [|j l IH]; [reflexivity|]. cbn. destruct (Z.eqb_spec k j) as [->|_]; [exfalso; apply Nk; now left|]. f_equal. apply IH. intros K. apply Nk. now right. }
  destruct (Z.eqb_spec k i) as [->|Nk].
  - rewrite (Z0 Ni). unfold mark. destruct (Z.eqb M i); ring.
  - destruct I as [->|I]; [congruence|]. rewrite (IH I). ring.
Qed.
Theorem tells_wday k : (1 <= k <= 6)%Z -> tells model_season_wday (fun _ t => wday_phi t) (fun t => Z.eqb (weekday t) k).
Proof.
  intros K. exists (map (fun i => if Z.eqb k i then 1 else 0) [1; 2; 3; 4; 5; 6]%Z). split; [reflexivity|]. intros x t. unfold wday_phi. apply dot_pick.
  - repeat constructor; cbn; intuition discriminate.
  - cbn. lia.
Qed.
Theorem tells_month k : (2 <= k <= 12)%Z -> tells model_season_month (fun _ t => month_phi t) (fun t => Z.eqb (month t) k).
Proof.
  intros K. exists (map (fun i => if Z.eqb k i then 1 else 0) [2; 3; 4; 5; 6; 7; 8; 9; 10; 11; 12]%Z). split; [reflexivity|]. intros x t. unfold month_phi. apply dot_pick.
  - repeat constructor; cbn; intuition discriminate.
  - cbn. lia.
Qed.
Theorem tells_step t0 : tells (get_model_step_date t0) (fun _ t => [if Z_lt_dec t t0 then 0 else 1]) (fun t => Z.leb t0 t).
Proof. exists [1]. split; [reflexivity|]. intros x t. unfold rdot, mark. cbn. destruct (Z_lt_dec t t0), (Z.leb_spec t0 t); try lia; lra. Qed.
Theorem tells_spike t0 t1 : tells (get_model_spike_date t0 t1) (fun _ t => [if Z_lt_dec t t0 then 0 else if Z_lt_dec t t1 then 1 else 0]) (fun t => Z.leb t0 t && Z.ltb t t1).
Proof. exists [1]. split; [reflexivity|]. intros x t. unfold rdot, mark. cbn. destruct (Z_lt_dec t t0), (Z.leb_spec t0 t); try lia; destruct (Z_lt_dec t t1), (Z.ltb_spec t t1); try lia; cbn; lra. Qed.
(* one parameter per list of marked days *)
Lemma dot_marks {A} (g : A -> bool) l i b : nth_error l i = Some b -> rdot (map (fun j => if Nat.eqb j i then 1 else 0) (seq 0 (length l))) (map (fun c => mark (g c)) l) = mark (g b).
Proof.
  assert (Gen : forall l k i b, nth_error l i = Some b -> rdot (map (fun j => if Nat.eqb j (k + i) then 1 else 0) (seq k (length l))) (map (fun c => mark (g c)) l) = mark (g b)).
  { clear. induction l as [|c l IH]; intros k i b K; [destruct i; discriminate|]. cbn [length seq map]. rewrite ExistProofs.rdot_cons. destruct i as [|i].
    - cbn in K. injection K as ->. rewrite Nat.add_0_r, Nat.eqb_refl.
      assert (map (fun j => if Nat.eqb j k then 1 else 0) (seq (S k) (length l)) = repeat 0 (length l)) as ->; [|rewrite dot_zeros; ring].
      assert (Lt : forall n z, (k < z)%nat -> map (fun j => if Nat.eqb j k then 1 else 0) (seq z n) = repeat 0 n).
      { induction n as [|n IHn]; intros z Hz; [reflexivity|]. cbn. destruct (Nat.eqb_spec z k); [lia|]. f_equal. apply IHn. lia. }
      apply Lt. lia.
    - cbn in K. destruct (Nat.eqb_spec k (k + S i)); [lia|]. replace (k + S i)%nat with (S k + i)%nat by lia. rewrite (IH (S k) i b K). ring. }
  intros K. exact (Gen l 0%nat i b K).
Qed.
Theorem tells_dates m ls i ds : fm_n m = length ls -> nth_error ls i = Some ds -> tells m (fun _ t => dates_phi ls t) (fun t => in_list_Z ds t).
Proof.
  intros Ln K. exists (map (fun j => if Nat.eqb j i then 1 else 0) (seq 0 (length ls))). split; [now rewrite map_length, seq_length|].
  intros x t. unfold dates_phi. exact (dot_marks (fun l => in_list_Z l t) ls i ds K).
Qed.
Theorem tells_holidays m cs i c : fm_n m = length cs -> nth_error cs i = Some c -> tells m (fun _ t => holiday_phi cs t) (fun t => marked (DCal c) 0 t).
Proof.
  intros Ln K. exists (map (fun j => if Nat.eqb j i then 1 else 0) (seq 0 (length cs))). split; [now rewrite map_length, seq_length|].
  intros x t. unfold holiday_phi. exact (dot_marks (fun l => marked (DCal l) 0 t) cs i c K).
Qed.

(* ---- a constant with weekday or month seasonality: the levels are the means of their days ---- *)
Lemma dot_none M (l : list Z) : NoDup l -> rdot (map (fun _ => - 1) l) (map (fun i => if Z.eqb M i then 1 else 0) l) = if existsb (Z.eqb M) l then - 1 else 0.
Proof.
  intros N. induction N as [|i l Ni N IH]; [reflexivity|]. cbn [map existsb]. rewrite ExistProofs.rdot_cons, IH. destruct (Z.eqb_spec M i) as [->|_]; cbn [orb]; [|ring].
  destruct (existsb (Z.eqb i) l) eqn:K; [|ring]. apply existsb_exists in K as (j & Ij & Ej). apply Z.eqb_eq in Ej. congruence.
Qed.
Theorem tells_weekdays k : (0 <= k <= 6)%Z -> tells (madd model_constant model_season_wday) (fun _ t => [1] ++ wday_phi t) (fun t => Z.eqb (weekday t) k).
Proof.
  intros K. destruct (Z.eq_dec k 0) as [->|N].
  - exists (1 :: map (fun _ => - 1) [1; 2; 3; 4; 5; 6]%Z). split; [reflexivity|]. intros x t. cbn [app]. rewrite ExistProofs.rdot_cons. unfold wday_phi.
    rewrite dot_none by (repeat constructor; cbn; intuition discriminate). unfold mark. destruct (weekday_cases t) as [E|[E|[E|[E|[E|[E|E]]]]]]; rewrite E; cbn; lra.
  - apply (tells_right model_constant model_season_wday (fun _ _ => [1]) (fun _ t => wday_phi t)); [reflexivity|reflexivity|apply tells_wday; lia].
Qed.
Theorem tells_months k : (1 <= k <= 12)%Z -> tells (madd model_constant model_season_month) (fun _ t => [1] ++ month_phi t) (fun t => Z.eqb (month t) k).
Proof.
  intros K. destruct (Z.eq_dec k 1) as [->|N].
  - exists (1 :: map (fun _ => - 1) [2; 3; 4; 5; 6; 7; 8; 9; 10; 11; 12]%Z). split; [reflexivity|]. intros x t. cbn [app]. rewrite ExistProofs.rdot_cons. unfold month_phi.
    rewrite dot_none by (repeat constructor; cbn; intuition discriminate). unfold mark. pose proof (month_range t) as B.
    assert (C : (month t = 1 \/ month t = 2 \/ month t = 3 \/ month t = 4 \/ month t = 5 \/ month t = 6 \/ month t = 7 \/ month t = 8 \/ month t = 9 \/ month t = 10 \/ month t = 11 \/ month t = 12)%Z) by lia.
    repeat destruct C as [C|C]; rewrite C; cbn; lra.
  - apply (tells_right model_constant model_season_month (fun _ _ => [1]) (fun _ t => month_phi t)); [reflexivity|reflexivity|apply tells_month; lia].
Qed.
Theorem weekday_levels f E freq s a u d k : has_date f = true -> finite_rows f -> minimizes E (madd model_constant model_season_wday) f a ->
  fit_model E (madd model_constant model_season_wday) f freq s a u = Ok d -> md_fit d = true -> (0 <= k <= 6)%Z ->
  exists th, md_params d = fins th /\ forall t, weekday t = k ->
    rdot th ([1] ++ wday_phi t) * group_sum f (fun t => Z.eqb (weekday t) k) (fun _ => 1) = group_sum f (fun t => Z.eqb (weekday t) k) (fun r => real (r_y r)).
Proof.
  intros Hd Fr Mn Ef Fd K.
  pose proof (regression_madd_plain model_constant model_season_wday _ _ (or_introl sturdy_constant) regression_constant regression_wday) as Rg.
  set (c0 := [1] ++ map (fun i => if Z.eqb k i then 1 else 0) [1; 2; 3; 4; 5; 6]%Z).
  assert (C0 : forall t, weekday t = k -> [1] ++ wday_phi t = c0) by (intros t W; unfold c0, wday_phi; now rewrite W).
  destruct (group_level _ _ f E freq s a u d _ Rg (tells_weekdays k K) Hd Fr Mn Ef Fd c0) as (th & P & _ & Q).
  { intros r _ Gr. apply Z.eqb_eq in Gr. now apply C0. }
  exists th. split; [exact P|]. intros t W. rewrite (C0 t W). exact Q.
Qed.
Theorem month_levels f E freq s a u d k : has_date f = true -> finite_rows f -> minimizes E (madd model_constant model_season_month) f a ->
  fit_model E (madd model_constant model_season_month) f freq s a u = Ok d -> md_fit d = true -> (1 <= k <= 12)%Z ->
  exists th, md_params d = fins th /\ forall t, month t = k ->
    rdot th ([1] ++ month_phi t) * group_sum f (fun t => Z.eqb (month t) k) (fun _ => 1) = group_sum f (fun t => Z.eqb (month t) k) (fun r => real (r_y r)).
Proof.
  intros Hd Fr Mn Ef Fd K.
  pose proof (regression_madd_plain model_constant model_season_month _ _ (or_introl sturdy_constant) regression_constant regression_month) as Rg.
  set (c0 := [1] ++ map (fun i => if Z.eqb k i then 1 else 0) [2; 3; 4; 5; 6; 7; 8; 9; 10; 11; 12]%Z).
  assert (C0 : forall t, month t = k -> [1] ++ month_phi t = c0) by (intros t W; unfold c0, month_phi; now rewrite W).
  destruct (group_level _ _ f E freq s a u d _ Rg (tells_months k K) Hd Fr Mn Ef Fd c0) as (th & P & _ & Q).
  { intros r _ Gr. apply Z.eqb_eq in Gr. now apply C0. }
  exists th. split; [exact P|]. intros t W. rewrite (C0 t W). exact Q.
Qed.
