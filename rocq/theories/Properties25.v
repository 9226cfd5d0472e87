(* What the initial guesses of the shipped models contain (C11); the days of the shipped dummy models
   (C17). *)
From Coq Require Import ZArith String List Bool Reals Lia Lra Sorted Floats.
From Verif Require Import Num Py Cal Model Base NumProofs BaseProofs GuessProofs GuessProofs3 StatsProofs Ex Dummy DummyProofs CalSweep CalProofs.
Import ListNotations.
Local Open Scope string_scope.
Local Open Scope list_scope.

(* the values that are there *)
Definition known (l : list XR) : list R := flat_map (fun v => match v with Fin r => [r] | _ => [] end) l.
Definition real_or_missing (v : XR) : Prop := v = XNaN \/ exists r, v = Fin r.
Lemma init_real i x y d mult rnd : init_validated i (option_map fins x) y d mult rnd = i (option_map fins x) y d mult rnd.
Proof. destruct x as [xs|]; [apply init_fins|reflexivity]. Qed.
(* constant: the mean of the values that are there, plus a number between 0 and 1 *)
Theorem C11_constant_guess : forall x ys d mult rnd, Forall real_or_missing ys -> known ys <> [] -> draws rnd ->
  exists u, (0 <= u < 1)%R /\ fm_init model_constant (option_map fins x) (Some ys) d mult rnd = Ok [Fin (Rmean (known ys) + u)].
Proof.
  intros x ys d mult rnd F Hn D. destruct (D 0%nat) as (u & Eu & Hu). exists u. split; [exact Hu|]. cbn [fm_init model_constant mk_model].
  rewrite init_real. unfold init_constant, nanmean.
  assert (Ef : filter (fun a => negb (nisnan a)) ys = map Fin (known ys)).
  { clear Hn. induction F as [|v l [->|(r & ->)] F IH]; [reflexivity|exact IH|]. cbn [filter known flat_map app map]. change (nisnan (Fin r)) with false. cbn [negb]. now rewrite IH. }
  rewrite Ef, nsum_fin, map_length, ofZ_fin. rewrite div_fin.
  - unfold uniform. rewrite Eu, <- INR_IZR_INZ. unfold Rmean. cbn. do 3 f_equal. lra.
  - destruct (known ys); [contradiction|]. apply not_0_IZR. cbn. lia.
Qed.
Print Assumptions C11_constant_guess.

(* number of different values *)
Definition n_different (l : list R) (n : nat) : Prop := exists d, NoDup d /\ (forall v, In v d <-> In v l) /\ length d = n.
Lemma n_distinct_different l : n_different l (n_distinct l).
Proof.
  exists (dedup Reqb l). split; [|split; [|reflexivity]].
  - apply (ListProofs.dedup_nodup Reqb). intros a b. destruct (Reqb_spec a b); split; congruence.
  - intros v. apply (ListProofs.dedup_in Reqb). intros a b. destruct (Reqb_spec a b); split; congruence.
Qed.
Lemma different_fun l m n : n_different l m -> n_different l n -> m = n.
Proof.
  intros (d & D1 & D2 & <-) (e & E1 & E2 & <-). apply Nat.le_antisymm; apply NoDup_incl_length; auto; intros v I; [apply E2, D2, I|apply D2, E2, I].
Qed.
(* line: from the first value to the last in as many steps as there are different x (or values), less
   one; for the non-decreasing line a negative slope is replaced by 0 *)
Theorem C11_linear_guess : forall x y0 yl ys n d mult rnd, (2 <= n)%nat ->
  nth_error ys 0 = Some y0 -> nth_error ys (length ys - 1) = Some yl -> match x with Some xs => n_different xs n | None => length ys = n end ->
  let slope := ((yl - y0) / (INR n - 1))%R in
  fm_init model_linear (option_map fins x) (Some (fins ys)) d mult rnd = Ok (fins [slope; y0]) /\
  fm_init model_linear_nondec (option_map fins x) (Some (fins ys)) d mult rnd = Ok (fins [Rmax 0 slope; y0]).
Proof.
  intros x y0 yl ys n d mult rnd N E0 El Hx slope.
  assert (E : forall mult, init_linear (option_map fins x) (Some (fins ys)) d mult rnd = Ok (fins [slope; y0])).
  { intros mu. unfold init_linear, at_neg, at_pos. unfold fins. rewrite map_length, !nth_error_map, E0, El.
    assert (L : (1 <= length ys)%nat) by (destruct ys; [discriminate|cbn; lia]). rewrite (proj2 (Nat.leb_le _ _) L). cbn [option_map rbind].
    match goal with |- Ok [ndiv _ (nofZ ?z); _] = _ => assert (Hz : z = (Z.of_nat n - 1)%Z) end.
    { destruct x as [xs|]; cbn [option_map]; [|now rewrite Hx]. fold (fins xs). rewrite n_unique_fins. fold (n_distinct xs). now rewrite (different_fun xs _ _ (n_distinct_different xs) Hx). }
    rewrite Hz, sub_fin, ofZ_fin, div_fin by (apply not_0_IZR; lia). unfold slope. cbn [map]. now rewrite minus_IZR, <- INR_IZR_INZ. }
  cbn [fm_init model_linear model_linear_nondec mk_model]. rewrite !init_real. split; [apply E|]. unfold init_linear_nondec. rewrite E. cbn [rbind fins map]. rewrite n0_fin. do 2 f_equal.
  change (nltb (Fin slope) (Fin 0)) with (Rltb slope 0). destruct (Rltb_spec slope 0) as [K|K]; f_equal; [rewrite Rmax_left; lra|rewrite Rmax_right; lra].
Qed.
Print Assumptions C11_linear_guess.

(* steps: at the position with the largest change (the first of them), twice as high as the change; two
   steps: at the two largest changes, as high as them *)
Theorem C11_step_guess : forall x ys d mult rnd, (2 <= length ys)%nat ->
  exists i r, first_largest (change ys) i r /\
    fm_init model_step (option_map fins x) (Some (fins ys)) d mult rnd = Ok (fins [INR i; 2 * r])%R /\
    (forall t, fm_init (get_model_step_date t) (option_map fins x) (Some (fins ys)) d mult rnd = Ok (fins [2 * r])%R) /\
    (forall b, nth_error ys i = Some b -> fm_init model_sigmoid_step (option_map fins x) (Some (fins ys)) d mult rnd = Ok (fins [b; INR i; b * b])%R) /\
    ((3 <= length ys)%nat -> exists j s, first_largest (fun k v => k <> i /\ change ys k v) j s /\
      fm_init model_two_steps (option_map fins x) (Some (fins ys)) d mult rnd = Ok (fins [INR i; r; INR j; s])).
Proof.
  intros x ys d mult rnd L. destruct (largest1_change ys L) as (i & r & E & F). exists i, r. split; [exact F|].
  cbn [fm_init model_step get_model_step_date model_sigmoid_step model_two_steps mk_model]. split; [|split; [|split]].
  - rewrite init_real. unfold init_step. rewrite E. cbn [rbind]. unfold nnat. rewrite !ofZ_fin, mul_fin, <- INR_IZR_INZ. unfold fins. cbn [map]. now rewrite (Rmult_comm r 2).
  - intros t. rewrite init_real. unfold init_step_date. rewrite E. cbn [rbind]. rewrite !ofZ_fin, mul_fin. unfold fins. cbn [map]. now rewrite (Rmult_comm r 2).
  - intros b Eb. rewrite init_real. unfold init_sigmoid_step. rewrite E. cbn [rbind]. unfold at_pos, nnat. unfold fins at 1. rewrite nth_error_map, Eb. cbn [option_map rbind]. rewrite ofZ_fin, mul_fin, <- INR_IZR_INZ. reflexivity.
  - intros L3. destruct (nlargest2_change ys L3) as (i' & r' & j & s & E2 & F1 & F2).
    assert (Ei : i' = i /\ r' = r).
    { destruct F as [A1 A2], F1 as [B1 B2]. destruct (A2 _ _ B1) as [C1 C2], (B2 _ _ A1) as [D1 D2]. assert (r' = r) by lra. subst r'. split; [|reflexivity]. specialize (C2 eq_refl). specialize (D2 eq_refl). lia. }
    destruct Ei as [-> ->]. exists j, s. split; [exact F2|]. rewrite init_real. unfold init_n_steps. rewrite E2. cbn [length Nat.eqb flat_map fst snd app]. unfold nnat. rewrite !ofZ_fin, <- !INR_IZR_INZ. reflexivity.
Qed.
Print Assumptions C11_step_guess.
(* spike: from the position before the largest increase to that after it, as high as the increase *)
Theorem C11_spike_guess : forall x ys d mult rnd, (2 <= length ys)%nat ->
  exists i r, first_largest (rise ys) i r /\
    fm_init model_spike (option_map fins x) (Some (fins ys)) d mult rnd = Ok (fins [r; INR i; INR i + 1])%R /\
    (forall t0 t1, fm_init (get_model_spike_date t0 t1) (option_map fins x) (Some (fins ys)) d mult rnd = Ok (fins [r])).
Proof.
  intros x ys d mult rnd L. destruct (spike_choice ys L) as (i & r & E1 & E2 & F). exists i, r. split; [exact F|]. cbn [fm_init model_spike get_model_spike_date mk_model]. split.
  - rewrite init_real. unfold init_spike. rewrite E1, E2. cbn [rbind]. unfold nnat. rewrite ofZ_fin, <- INR_IZR_INZ. reflexivity.
  - intros t0 t1. rewrite init_real. unfold init_spike_date. rewrite E1. reflexivity.
Qed.
Print Assumptions C11_spike_guess.
(* ramp: from the x of the sharpest bend that is not among the first or last 15% of the samples *)
Theorem C11_ramp_guess : forall xs ys d mult rnd, length xs = length ys -> StronglySorted Rlt xs -> (4 <= length xs)%nat ->
  exists i x r, fm_init model_ramp (Some (fins xs)) (Some (fins ys)) d mult rnd = Ok [Fin x; Fin r] /\ nth_error xs i = Some x /\
    first_largest (fun j s => bend ys j s /\ (15 * length xs <= 100 * j)%nat /\ (15 * length xs <= 100 * (length xs - 1 - j))%nat) i r.
Proof. exact ramp_guess. Qed.
Print Assumptions C11_ramp_guess.
(* month season: mean of each of the months January to November, relative to December *)
Definition of_month (ys : list R) (ds : list Z) (m : nat) : list R := map fst (filter (fun yt => Z.eqb (month (snd yt)) (Z.of_nat m)) (combine ys ds)).
Theorem C11_month_guess_content : forall x ys ds rnd, length ds = length ys -> (forall i, (1 <= i <= 12)%nat -> of_month ys ds i <> []) ->
  let mean i := Rmean (of_month ys ds i) in
  fm_init model_season_month (option_map fins x) (Some (fins ys)) (Some ds) false rnd = Ok (fins (map (fun i => (mean i - mean 12%nat)%R) (seq 1 11))) /\
  (mean 12%nat <> 0%R -> fm_init model_season_month (option_map fins x) (Some (fins ys)) (Some ds) true rnd = Ok (fins (map (fun i => (mean i / mean 12%nat)%R) (seq 1 11)))).
Proof.
  intros x ys ds rnd L H mean.
  assert (M : forall i, (1 <= i <= 12)%nat -> month_mean (fins ys) ds (Z.of_nat i) = Fin (mean i)).
  { intros i Hi. unfold month_mean. assert (E : map fst (filter (fun yt : XR * Z => Z.eqb (month (snd yt)) (Z.of_nat i)) (combine (fins ys) ds)) = fins (of_month ys ds i)).
    { clear. unfold of_month. revert ds. induction ys as [|y ys IH]; intros [|t ds]; try reflexivity. cbn [fins map combine filter snd]. destruct (Z.eqb (month t) (Z.of_nat i)); [cbn [map fst fins]; f_equal|]; apply IH. }
    rewrite E. unfold np_mean, nnat. rewrite fins_length. unfold fins. rewrite nsum_fin, ofZ_fin. rewrite div_fin; [unfold mean, Rmean; now rewrite INR_IZR_INZ|]. apply not_0_IZR. specialize (H i Hi). destruct (of_month ys ds i); [contradiction|cbn; lia]. }
  cbn [fm_init model_season_month mk_model]. rewrite !init_real. unfold init_season_month. rewrite fins_length, L, Nat.eqb_refl. change 12%Z with (Z.of_nat 12). rewrite (M 12%nat) by lia.
  assert (S : forall (f : XR -> XR) (g : R -> R), (forall a, f (Fin a) = Fin (g a)) -> map f (map (fun i => month_mean (fins ys) ds (Z.of_nat i)) (seq 1 11)) = fins (map (fun i => g (mean i)) (seq 1 11))).
  { intros f g E. unfold fins. rewrite !map_map. apply map_ext_in. intros i I. apply in_seq in I. rewrite M by lia. apply E. }
  split.
  - f_equal. apply (S _ (fun a => (a - mean 12%nat)%R)). reflexivity.
  - intros N. f_equal. apply (S _ (fun a => (a / mean 12%nat)%R)). intros a. now apply div_fin.
Qed.
Print Assumptions C11_month_guess_content.
(* Fourier: numbers between 1/1000 and 1 times the range of the values *)
Theorem C11_fourier_guess : forall x ys mn mx d mult rnd, In mn ys -> In mx ys -> (forall v, In v ys -> (mn <= v <= mx)%R) -> draws rnd ->
  exists us, length us = 20%nat /\ Forall (fun u => (1 / 1000 <= u < 1)%R) us /\
    fm_init model_season_fourier_yearly (option_map fins x) (Some (fins ys)) d mult rnd = Ok (fins (map (fun u => ((mx - mn) * u)%R) us)).
Proof.
  intros x ys mn mx d mult rnd Imn Imx B D. assert (Hn : ys <> []) by (intros ->; destruct Imn).
  assert (U : forall n k, exists us, map (uniform (Fin (1 / 1000)) (Fin 1) rnd) (seq k n) = fins us /\ length us = n /\ Forall (fun u => (1 / 1000 <= u < 1)%R) us).
  { induction n as [|n IH]; intros k; [exists []; repeat split; constructor|]. destruct (IH (S k)) as (us & E & Ln & F). destruct (D k) as (r & Er & Hr). exists ((1 / 1000 + (1 - 1 / 1000) * r)%R :: us).
    cbn [seq map length fins]. rewrite E, Ln. split; [unfold uniform; rewrite Er; reflexivity|]. split; [reflexivity|]. constructor; [lra|exact F]. }
  destruct (U 20%nat 0%nat) as (us & E & Ln & F). exists us. split; [exact Ln|]. split; [exact F|]. cbn [fm_init model_season_fourier_yearly mk_model]. rewrite init_real. unfold init_fourier.
  unfold uniforms. rewrite dec_1_1000, n1_fin, E. unfold np_max, np_min. rewrite no_nan_fins.
  destruct (py_max_fins ys Hn) as (a & Ea & Ia), (py_min_fins ys Hn) as (b & Eb & Ib).
  assert (a = mx /\ b = mn) as [-> ->].
  { destruct ys as [|y ys]; [contradiction|]. cbn [py_max py_min fins map] in Ea, Eb. rewrite nmax_fin in Ea. rewrite nmin_fin in Eb. injection Ea as Ea. injection Eb as Eb.
    assert (mx <= a)%R by (rewrite <- Ea; destruct Imx as [<-|I]; [apply (proj1 (fold_max_bound ys y))|now apply (proj2 (fold_max_bound ys y))]).
    assert (b <= mn)%R by (rewrite <- Eb; destruct Imn as [<-|I]; [apply (proj1 (fold_min_bound ys y))|now apply (proj2 (fold_min_bound ys y))]).
    destruct (B a Ia), (B b Ib). split; lra. }
  rewrite Ea, Eb. cbn [rbind]. f_equal. unfold fins. rewrite !map_map. apply map_ext. intros u. reflexivity.
Qed.
Print Assumptions C11_fourier_guess.
Example C11_content_example : let N := fops in
  let y := Some [1; 1; 6; 5; 9; 9]%float in
  fm_init (T := float) model_constant None (Some [1; nan; 3]%float) None false (fun _ => 0.5%float) = Ok [2.5]%float /\
  fm_init (T := float) model_linear (Some [0; 1; 1; 2; 3; 4]%float) y None false (fun _ => 0.5%float) = Ok [2; 1]%float /\
  fm_init (T := float) model_step None y None false (fun _ => 0.5%float) = Ok [2; 10]%float /\
  fm_init (T := float) model_two_steps None y None false (fun _ => 0.5%float) = Ok [2; 5; 4; 4]%float /\
  fm_init (T := float) model_spike None y None false (fun _ => 0.5%float) = Ok [5; 1; 2]%float /\
  fm_init (T := float) model_ramp (Some [0; 10; 20; 30; 40; 50]%float) y None false (fun _ => 0.5%float) = Ok [30; 6]%float.
Proof. vm_compute. repeat split. Qed.
Example C11_content_hypotheses :
  first_largest (change [1; 1; 6; 5; 9; 9]%R) 2 5 /\ n_different [0; 1; 1; 2]%R 3 /\ Forall real_or_missing [Fin 1; XNaN; Fin 3] /\ known [Fin 1; XNaN; Fin 3] = [1; 3]%R.
Proof.
  split; [|split; [|split; [|reflexivity]]].
  - split; [exists 1%nat, 1%R, 6%R; repeat split; rewrite Rabs_pos_eq; lra|]. intros j s (k & a & b & -> & A & B & ->).
    destruct k as [|[|[|[|[|k]]]]]; cbn in A, B; try (destruct k; discriminate); injection A as <-; injection B as <-; (split; [apply Rabs_le; lra|]); intros E; try lia; exfalso; revert E; unfold Rabs; destruct (Rcase_abs _); lra.
  - exists [0; 1; 2]%R. split; [|split; [|reflexivity]].
    + repeat constructor; cbn; intros I; decompose [or] I; try lra; contradiction.
    + intros v. cbn. tauto.
  - apply Forall_cons; [right; now exists 1%R|]. apply Forall_cons; [now left|]. apply Forall_cons; [right; now exists 3%R|]. apply Forall_nil.
Qed.

(* ================= C17 ================= *)
(* a time of a day: year, month, day, nanoseconds since midnight *)
Definition moment : Type := Z * Z * Z * Z.
Definition moment_ok (q : moment) : Prop := let '(y, m, d, s) := q in valid_date y m d /\ (0 <= s < 86400000000000)%Z.
Definition stamp (q : moment) : Z := let '(y, m, d, s) := q in (ts y m d + s)%Z.
Definition at_christmas (q : moment) : bool := let '(y, m, d, s) := q in andb (Z.eqb m 12) (Z.eqb d 25).
Definition at_month_start (q : moment) : bool := let '(y, m, d, s) := q in Z.eqb d 1.
(* Monday to Friday: 2018-01-01 was a Monday *)
Definition workday (q : moment) : bool := let '(y, m, d, s) := q in ((days_from_civil y m d - days_from_civil 2018 1 1) mod 7 <? 5)%Z.
Definition marks (m : fmodel XR) (test : moment -> bool) : Prop := forall xs qs A mult act, Forall moment_ok qs ->
  call m xs (Some (map stamp qs)) (Some [Fin A]) mult (mkKw act []) = Ok (Ar (fins (map (fun q => dummy_effect mult A (test q)) qs))).
Lemma day_of_stamp y m d s : (0 <= s < 86400000000000)%Z -> day_of (ts y m d + s) = days_from_civil y m d.
Proof. intros B. unfold day_of, ts. change DAY with 86400000000000%Z. rewrite Z.add_comm, Z.div_add by lia. rewrite Z.div_small by lia. lia. Qed.
Lemma date_mask_marks name (test : Z -> bool) (spec : moment -> bool) : (forall q, moment_ok q -> test (stamp q) = spec q) ->
  exists m, get_model_dummy name (DFun (date_mask (T := XR) test)) = Ok m /\ marks m spec.
Proof.
  intros E. destruct (dummy_date_mask name test) as (m & Em & _ & _ & C). exists m. split; [exact Em|]. intros xs qs A mult act F. rewrite C, map_map. do 3 f_equal.
  apply map_ext_in. intros q I. rewrite Forall_forall in F. now rewrite E by now apply F.
Qed.
Theorem C17_shipped : exists christmas month_start wday_2, model_dummy_christmas = Ok christmas /\ model_dummy_month_start = Ok month_start /\ model_season_wday_2 = Ok wday_2 /\
  marks christmas at_christmas /\ marks month_start at_month_start /\ marks wday_2 workday.
Proof.
  destruct (date_mask_marks "dummy_christmas" (fun t => (month t =? 12)%Z && (dom t =? 25)%Z) at_christmas) as (a & Ea & Ma).
  { intros [[[y m] d] s] [V B]. unfold stamp, at_christmas, month, dom. rewrite day_of_stamp by exact B. now rewrite month_of_date, dom_of_date. }
  destruct (date_mask_marks "dummy_month_start" (fun t => (dom t =? 1)%Z) at_month_start) as (b & Eb & Mb).
  { intros [[[y m] d] s] [V B]. unfold stamp, at_month_start, dom. rewrite day_of_stamp by exact B. now rewrite dom_of_date. }
  destruct (date_mask_marks "season_wday_2" (fun t => (weekday t <? 5)%Z) workday) as (c & Ec & Mc).
  { intros [[[y m] d] s] [V B]. unfold stamp, workday, weekday. rewrite day_of_stamp by exact B. unfold weekday_of_day. f_equal.
    change (days_from_civil 2018 1 1) with 17532%Z. rewrite (Z.mod_eq (_ - _)), (Z.mod_eq (_ + _)) by lia.
    set (n := days_from_civil y m d). replace (n - 17532)%Z with (n + 3 + (-2505) * 7)%Z by lia. rewrite Z.div_add by lia. lia. }
  exists a, b, c. split; [exact Ea|]. split; [exact Eb|]. split; [exact Ec|]. split; [exact Ma|]. split; [exact Mb|exact Mc].
Qed.
Print Assumptions C17_shipped.
Example C17_shipped_example : moment_ok (2018, 12, 25, 3600000000000)%Z /\ at_christmas (2018, 12, 25, 3600000000000)%Z = true /\ workday (2018, 1, 6, 0)%Z = false /\ at_month_start (2018, 2, 1, 5)%Z = true.
Proof. split; [unfold moment_ok, valid_date; change (days_in_month 2018 12) with 31%Z; lia|]. repeat split. Qed.
