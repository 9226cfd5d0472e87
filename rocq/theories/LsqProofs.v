(* What a fit computes when the optimizer does its job: least squares over the reals (C65, C66). *)
From Coq Require Import ZArith String List Bool Lia Reals Lra Sorted Permutation QArith_base.
From Verif Require Import Num Py Cal Fmt Model Base Fixed Naive Freq Aic Normalize Fit Interp Select Stats Outliers Pi Forecast.
From Verif Require Import NumProofs ListProofs StringProofs ModelProofs BaseProofs GuessProofs FixedProofs FitProofs SeasonProofs CacheProofs StatsProofs ForecastProofs ForecastProofs2 ExtendProofs MetaProofs.
Import ListNotations.
Local Open Scope string_scope.
Local Open Scope list_scope.
Local Open Scope R_scope.

(* ---- specification ---- *)
(* A fitted sample: the coefficients of the parameters in the prediction, the value, the weight. *)
Record sample := mkS { s_phi : list R; s_y : R; s_w : R }.
Definition rdot (p c : list R) : R := rsum (map (fun ab => fst ab * snd ab) (combine p c)).
Definition err (th : list R) (s : sample) : R := s_y s - rdot th (s_phi s).
(* sum of the squared weighted errors *)
Definition loss (th : list R) (l : list sample) : R := rsum (map (fun s => (s_w s * err th s) * (s_w s * err th s)) l).

(* values and residual weights of the samples that are fitted *)
Definition fitted (f : frame XR) (l : list sample) : Prop :=
  ys_of f = fins (map s_y l) /\
  match ws_of f with Some ws => ws = fins (map s_w l) | None => Forall (fun s => s_w s = 1) l end.
(* the prediction is the combination of the coefficients *)
Definition linear_in (m : fmodel XR) (f : frame XR) (act : option (frame XR)) (l : list sample) : Prop :=
  forall th, length th = fm_n m ->
    call m (xs_of m f) (dates_of f) (Some (fins th)) false (mkKw act []) = Ok (Ar (fins (map (fun s => rdot th (s_phi s)) l))).
Definition unbounded (m : fmodel XR) : Prop := forall x y d, exists nd,
  fm_bounds m x y d = Ok (mkBounds (repeat XNInf (fm_n m)) (repeat XPInf (fm_n m)) nd).
(* the values stored before the optimization do not change the prediction (C07) *)
Definition cache_neutral (m : fmodel XR) (f : frame XR) (act : option (frame XR)) : Prop := forall c p,
  init_cache m (xs_of m f) (dates_of f) = Ok c ->
  call m (xs_of m f) (dates_of f) p false (mkKw act c) = call m (xs_of m f) (dates_of f) p false (mkKw act []).
(* On the residuals of this fit, what the optimizer reports as a success are real parameters for which
   no other admissible parameters have a smaller sum of squares, and its cost is half that sum. *)
Definition ssq (rs : list R) : R := rsum (map (fun r => r * r) rs).
Definition minimizes (E : env XR) (m : fmodel XR) (f : frame XR) (act : option (frame XR)) : Prop :=
  forall cache g b c x,
  let F := fun p => get_residuals (Some p) m (xs_of m f) (ys_of f) (dates_of f) (ws_of f) act cache in
  e_lsq E F g b = LDone true c x ->
  exists th rs, x = fins th /\ length th = length g /\ F x = Ok (fins rs) /\ c = Fin (ssq rs / 2) /\
    forall th' rs', entries_within (fins th') b -> F (fins th') = Ok (fins rs') -> ssq rs <= ssq rs'.

(* ---- lemmas about real numbers ---- *)
Lemma quadratic_flat S P : (forall t, 0 <= - 2 * t * S + t * t * P) -> S = 0.
Proof.
  intros K. destruct (Req_dec P 0) as [->|N].
  - specialize (K S). nra.
  - assert (Pp : 0 < P).
    { destruct (Rlt_or_le 0 P) as [|L]; [assumption|]. exfalso. assert (P < 0) by lra.
      pose proof (K 1) as K1. pose proof (K (-1)) as K2. nra. }
    specialize (K (S / P)). assert (E : - 2 * (S / P) * S + S / P * (S / P) * P = - (S * S / P)) by (field; lra).
    rewrite E in K. assert (0 <= S * S / P).
    { unfold Rdiv. apply Rmult_le_pos; [nra|]. left. now apply Rinv_0_lt_compat. }
    assert (Z : S * S / P = 0) by lra. assert (S * S = 0). { replace (S * S) with (S * S / P * P) by (field; lra). rewrite Z. ring. }
    nra.
Qed.
Definition shift (th : list R) (t : R) (de : list R) : list R := map (fun p => fst p + t * snd p) (combine th de).
Lemma shift_length th t de : length de = length th -> length (shift th t de) = length th.
Proof. intros L. unfold shift. rewrite map_length, combine_length, L. apply Nat.min_id. Qed.
Lemma rdot_shift t : forall th de c, length de = length th -> rdot (shift th t de) c = rdot th c + t * rdot de c.
Proof.
  unfold rdot, shift. induction th as [|a th IH]; intros [|b de] c L; try discriminate; cbn; [ring|].
  destruct c as [|x c]; cbn; [ring|]. rewrite IH by (cbn in L; lia). ring.
Qed.
Lemma loss_shift th t de l : length de = length th ->
  loss (shift th t de) l = loss th l + (- 2 * t * rsum (map (fun s => s_w s * s_w s * err th s * rdot de (s_phi s)) l) +
                                        t * t * rsum (map (fun s => (s_w s * rdot de (s_phi s)) * (s_w s * rdot de (s_phi s))) l)).
Proof.
  intros L. unfold loss, err. induction l as [|s l IH]; cbn [map rsum]; [ring|]. rewrite IH, rdot_shift by exact L. ring.
Qed.
(* a minimum of the loss is a zero of its gradient *)
Lemma minimum_gradient th l : (forall th', length th' = length th -> loss th l <= loss th' l) ->
  forall de, length de = length th -> rsum (map (fun s => s_w s * s_w s * err th s * rdot de (s_phi s)) l) = 0.
Proof.
  intros Min de L. set (P := rsum (map (fun s => (s_w s * rdot de (s_phi s)) * (s_w s * rdot de (s_phi s))) l)).
  apply (quadratic_flat _ P). intros t. specialize (Min (shift th t de) (shift_length th t de L)). rewrite loss_shift in Min by exact L.
  fold P in Min. lra.
Qed.
Definition unit (n j : nat) : list R := map (fun i => if Nat.eqb i j then 1 else 0) (seq 0 n).
Lemma unit_length n j : length (unit n j) = n.
Proof. unfold unit. now rewrite map_length, seq_length. Qed.
Lemma rdot_unit_from c : forall s n j, length c = n -> (s <= j < s + n)%nat ->
  rdot (map (fun i => if Nat.eqb i j then 1 else 0) (seq s n)) c = nth (j - s) c 0.
Proof.
  assert (Z : forall c s n j, (j < s)%nat -> rdot (map (fun i => if Nat.eqb i j then 1 else 0) (seq s n)) c = 0).
  { unfold rdot. induction c0 as [|x c0 IH]; intros s n j L; destruct n as [|n]; cbn; try reflexivity.
    destruct (Nat.eqb_spec s j); [lia|]. cbn. rewrite (IH (S s) n j) by lia. ring. }
  induction c as [|x c IH]; intros s [|n] j L I; cbn in L; try discriminate; try lia. unfold rdot. cbn [seq map combine rsum].
  change (rsum (map (fun ab => fst ab * snd ab) (combine (map (fun i => if Nat.eqb i j then 1 else 0) (seq (S s) n)) c)))
    with (rdot (map (fun i => if Nat.eqb i j then 1 else 0) (seq (S s) n)) c). cbn [fst snd].
  destruct (Nat.eqb_spec s j) as [->|N].
  - rewrite Z by lia. rewrite Nat.sub_diag. cbn. ring.
  - rewrite (IH (S s) n j) by lia. replace (j - s)%nat with (S (j - S s)) by lia. cbn [nth]. ring.
Qed.
Lemma rdot_unit n j c : length c = n -> (j < n)%nat -> rdot (unit n j) c = nth j c 0.
Proof. intros L J. unfold unit. rewrite (rdot_unit_from c 0 n j L) by lia. now rewrite Nat.sub_0_r. Qed.

(* ---- residuals of a model that is linear in its parameters ---- *)
Lemma map2_sub_fin (g h : sample -> R) l : map2 nsub (fins (map g l)) (fins (map h l)) = fins (map (fun s => g s - h s) l).
Proof. unfold map2, fins. induction l as [|s l IH]; cbn; [reflexivity|]. now rewrite <- IH. Qed.
Lemma map2_mul_fin (g h : sample -> R) l : map2 nmul (fins (map g l)) (fins (map h l)) = fins (map (fun s => g s * h s) l).
Proof. unfold map2, fins. induction l as [|s l IH]; cbn; [reflexivity|]. now rewrite <- IH. Qed.
Lemma abs_fins l : map nabs (fins l) = fins (map Rabs l).
Proof. unfold fins. rewrite !map_map. reflexivity. Qed.
Lemma residuals_linear m f act l th cache : fitted f l ->
  call m (xs_of m f) (dates_of f) (Some (fins th)) false (mkKw act cache) = Ok (Ar (fins (map (fun s => rdot th (s_phi s)) l))) ->
  get_residuals (Some (fins th)) m (xs_of m f) (ys_of f) (dates_of f) (ws_of f) act cache =
    Ok (fins (map (fun s => Rabs (err th s * s_w s)) l)).
Proof.
  intros [Ey Ew] Ec. unfold get_residuals. rewrite Ec, Ey. cbn [rbind bcast2].
  assert (Ll : length (fins (map s_y l)) = length (fins (map (fun s => rdot th (s_phi s)) l))) by (unfold fins; now rewrite !map_length).
  rewrite Ll, Nat.eqb_refl, map2_sub_fin. cbn [rbind]. destruct (ws_of f) as [ws|].
  - subst ws. cbn [bcast2].
    assert (L2 : length (fins (map (fun s => s_y s - rdot th (s_phi s)) l)) = length (fins (map s_w l))) by (unfold fins; now rewrite !map_length).
    rewrite L2, Nat.eqb_refl, map2_mul_fin. cbn [rbind nval_list]. rewrite abs_fins, map_map. reflexivity.
  - cbn [rbind nval_list]. rewrite abs_fins, map_map. do 2 f_equal. apply map_ext_in. intros s I. rewrite Forall_forall in Ew.
    rewrite (Ew s I). unfold err. f_equal. ring.
Qed.
Lemma ssq_loss th l : ssq (map (fun s => Rabs (err th s * s_w s)) l) = loss th l.
Proof.
  unfold ssq, loss. rewrite map_map. f_equal. apply map_ext. intros s. rewrite <- Rabs_mult, Rabs_pos_eq by apply Rle_0_sqr. ring.
Qed.
Lemma fins_inj a b : fins a = fins b -> a = b.
Proof. unfold fins. revert b. induction a as [|x a IH]; intros [|y b] E; try discriminate; [reflexivity|]. injection E as -> E. f_equal. auto. Qed.
Lemma nth_error_repeat' {A} (a : A) n i v : nth_error (repeat a n) i = Some v -> v = a.
Proof. intros E. apply nth_error_In in E. now apply repeat_spec in E. Qed.
Lemma unbounded_within n nd th : length th = n -> entries_within (fins th) (mkBounds (repeat XNInf n) (repeat XPInf n) nd).
Proof.
  intros L. unfold entries_within, fins. cbn [b_lo b_hi]. rewrite map_length, !repeat_length. split; [exact L|]. split; [exact L|].
  intros i v lo hi E1 E2 E3. apply nth_error_repeat' in E2, E3. subst. rewrite nth_error_map in E1. destruct (nth_error th i); [|discriminate].
  injection E1 as <-. split; reflexivity.
Qed.
Lemma unbounded_simplify E m f : unbounded m -> simplify_model (e_arr E) m (Some (xs_of m f)) (Some (ys_of f)) (dates_of f) = Ok m.
Proof.
  intros U. destruct (U (Some (xs_of m f)) (Some (ys_of f)) (dates_of f)) as [nd Eb].
  apply (simplify_nothing _ _ _ _ _ _ Eb); cbn [b_lo b_hi]; [now rewrite !repeat_length|].
  intros i (lo & hi & E1 & E2 & K). cbn [b_lo b_hi] in *. apply nth_error_repeat' in E1, E2. subst. discriminate.
Qed.

(* C66: the weighted errors of a fit are orthogonal to every coefficient *)
Theorem normal_equations E m f freq src act uc d l :
  minimizes E m f act -> (0 < fm_n m)%nat -> unbounded m -> fitted f l -> linear_in m f act l ->
  (uc = true -> cache_neutral m f act) ->
  fit_model E m f freq src act uc = Ok d -> md_fit d = true ->
  exists th, md_params d = fins th /\ length th = fm_n m /\ md_cost d = Fin (loss th l / 2) /\
    (forall th', length th' = fm_n m -> loss th l <= loss th' l) /\
    (forall de, length de = fm_n m -> rsum (map (fun s => s_w s * s_w s * err th s * rdot de (s_phi s)) l) = 0).
Proof.
  intros Mn Np U Ft Li Cn Ef Fd.
  destruct (fit_status_cases zero_lt_XR _ _ _ _ _ _ _ _ _ Ef) as (_ & St & Iv & Ff & _).
  pose proof (proj2 Ff Fd) as S'. rewrite S' in St, Iv.
  assert (Hl : (fm_n m + 2 <= length (usable_rows f))%nat).
  { destruct (Nat.lt_ge_cases (length (usable_rows f)) (fm_n m + 2)) as [C|C]; [|exact C]. apply St in C. discriminate. }
  assert (Hv : validate_input m (xs_of m f) (ys_of f) (dates_of f) = Ok true).
  { destruct (validate_input m (xs_of m f) (ys_of f) (dates_of f)) as [[|]|e] eqn:Ev; [reflexivity| |].
    - assert (C : "FIT" = "INPUT_ERR") by (apply Iv; auto). discriminate.
    - unfold fit_model in Ef. rewrite (fit_validation_error zero_lt_XR _ _ _ _ _ _ _ _ _ Hl Ev) in Ef. discriminate. }
  destruct (fit_valid zero_lt_XR _ _ _ _ _ _ _ _ _ Hl Hv Ef) as (ms & Es & _ & _ & K).
  rewrite (unbounded_simplify E m f U) in Es. injection Es as <-.
  destruct (Nat.eqb_spec (fm_n m) 0) as [C|_]; [lia|]. destruct K as (cost & p & Eo & Ec & _ & Ep). rewrite Fd in Eo.
  unfold optimize_least_squares in Eo.
  destruct (fm_init m _ _ _ _ _) as [g|]; [|discriminate]. cbn [rbind] in Eo.
  destruct (U (Some (xs_of m f)) (Some (ys_of f)) None) as [nd Eb]. rewrite Eb in Eo. cbn [rbind] in Eo.
  destruct (validate_initial_guess g _) as [[|]|] eqn:Eg; cbn [rbind negb] in Eo; try discriminate.
  apply validate_iff in Eg. destruct Eg as [Lg _]. cbn [b_lo] in Lg. rewrite repeat_length in Lg.
  destruct (if uc then init_cache m (xs_of m f) (dates_of f) else Ok []) as [cache|] eqn:Eca; [|discriminate]. cbn [rbind] in Eo.
  assert (Call : forall th, length th = fm_n m -> call m (xs_of m f) (dates_of f) (Some (fins th)) false (mkKw act cache) =
                                       Ok (Ar (fins (map (fun s => rdot th (s_phi s)) l)))).
  { intros th Lt. destruct uc; [rewrite (Cn eq_refl cache _ Eca)|injection Eca as <-]; now apply Li. }
  match type of Eo with match ?e with _ => _ end = _ => destruct e as [s c x|e'] eqn:Eq' end; [|destruct e'; discriminate].
  injection Eo as -> <- <-. destruct (Mn cache g _ c x Eq') as (th & rs & -> & Lt & Er & -> & Min). rewrite Lg in Lt.
  rewrite (residuals_linear m f act l th cache Ft (Call th Lt)) in Er. injection Er as Er. apply fins_inj in Er.
  assert (M : forall th', length th' = fm_n m -> loss th l <= loss th' l).
  { intros th' L'. rewrite <- !ssq_loss, Er. apply (Min th').
    - now apply unbounded_within.
    - exact (residuals_linear m f act l th' cache Ft (Call th' L')). }
  exists th. split; [now rewrite Ep|]. split; [exact Lt|]. split; [now rewrite Ec, <- Er, ssq_loss|]. split; [exact M|].
  rewrite <- Lt. apply minimum_gradient. rewrite Lt. exact M.
Qed.

(* ---- the samples of a table ---- *)
Definition real (v : XR) : R := match v with Fin r => r | _ => 0 end.
(* the weight of a usable row, shared among the usable rows at the same x *)
Definition share (f : frame XR) (r : row XR) : R :=
  (if has_w f then real (r_w r) else 1) / IZR (count_x (usable_rows f) (r_x r)).
Definition finite_rows (f : frame XR) : Prop :=
  Forall (fun r => r_y r = Fin (real (r_y r)) /\ (has_w f = true -> r_w r = Fin (real (r_w r)))) (usable_rows f).
Definition samples (f : frame XR) (phi : row XR -> list R) : list sample :=
  map (fun r => mkS (phi r) (real (r_y r)) (share f r)) (usable_rows f).

Lemma count_x_pos {T} (l : list (row T)) r : In r l -> (0 < count_x l (r_x r))%Z.
Proof.
  intros I. unfold count_x. assert (K : In r (filter (fun q => Z.eqb (r_x q) (r_x r)) l)) by (apply filter_In; split; [exact I|apply Z.eqb_refl]).
  destruct (filter _ l); [destruct K|cbn; lia].
Qed.
Lemma count_x_one {T} (l : list (row T)) r : has_dup Z.eqb (map r_x l) = false -> In r l -> count_x l (r_x r) = 1%Z.
Proof.
  intros D I. assert (N : NoDup (map r_x l)).
  { apply (has_dup_iff Z.eqb Z.eqb_eq) in D. exact D. }
  unfold count_x. induction l as [|q l IH]; [destruct I|]. cbn [map] in N. inversion_clear N as [|? ? Ni Nd]. cbn [filter].
  destruct (Z.eqb_spec (r_x q) (r_x r)) as [E|E].
  - assert (Z0 : filter (fun p => Z.eqb (r_x p) (r_x r)) l = []).
    { destruct (filter (fun p => Z.eqb (r_x p) (r_x r)) l) as [|p k] eqn:Ek; [reflexivity|]. exfalso. apply Ni.
      assert (Ip : In p (filter (fun p => Z.eqb (r_x p) (r_x r)) l)) by (rewrite Ek; now left).
      apply filter_In in Ip as [Ip Ep]. apply Z.eqb_eq in Ep. rewrite E, <- Ep. now apply in_map. }
    now rewrite Z0.
  - destruct I as [->|I]; [congruence|]. apply IH; auto. cbn in D. now apply orb_false_elim in D.
Qed.

Lemma rows_fitted f phi : finite_rows f -> fitted f (samples f phi).
Proof.
  intros F. unfold fitted, samples, finite_rows in *. rewrite Forall_forall in F. rewrite !map_map. cbn [s_y s_w]. split.
  - unfold ys_of, fins. rewrite map_map. apply map_ext_in. intros r I. apply (F r I).
  - unfold ws_of, fit_rows. rewrite (fitted_eq zero_lt_XR). destruct (has_dup Z.eqb (map r_x (usable_rows f))) eqn:D; cbn [has_w rows].
    + unfold fins. rewrite !map_map. cbn [set_w r_w]. apply map_ext_in. intros r I. unfold share. rewrite ofZ_fin.
      assert (P := count_x_pos (usable_rows f) r I). apply IZR_lt in P.
      destruct (has_w f); [rewrite (proj2 (F r I) eq_refl) at 1|rewrite n1_fin]; rewrite div_fin by lra; reflexivity.
    + destruct (has_w f) eqn:Hw.
      * unfold fins. rewrite map_map. apply map_ext_in. intros r I. unfold share. rewrite Hw, (count_x_one _ _ D I).
        rewrite (proj2 (F r I) eq_refl) at 1. f_equal. field.
      * rewrite Forall_forall. intros s I. apply in_map_iff in I as (r & <- & I). cbn. unfold share. rewrite Hw, (count_x_one _ _ D I). field.
Qed.
Lemma xs_unscaled m f : requires_scaling (fm_name m) = false -> xs_of m f = fins (map (fun r => IZR (r_x r)) (usable_rows f)).
Proof. intros E. unfold xs_of, fins. rewrite map_map. apply map_ext. intros r. unfold FitProofs.x_of. rewrite E. reflexivity. Qed.

(* ---- models that are linear in their parameters ---- *)
Definition x_in (r : row XR) : R := IZR (r_x r).
Lemma two_params (th : list R) : length th = 2%nat -> exists a b, th = [a; b].
Proof. destruct th as [|a [|b [|]]]; try discriminate. eauto. Qed.
Lemma one_param (th : list R) : length th = 1%nat -> exists a, th = [a].
Proof. destruct th as [|a [|]]; try discriminate. eauto. Qed.
Lemma linear_is_linear f act : linear_in model_linear f act (samples f (fun r => [x_in r; 1])).
Proof.
  intros th L. destruct (two_params th L) as (a & b & ->). rewrite (xs_unscaled model_linear f eq_refl), linear_formula. unfold samples.
  rewrite !map_map. do 3 f_equal. apply map_ext. intros r. unfold rdot, x_in. cbn. ring.
Qed.
Lemma constant_is_linear f act : linear_in model_constant f act (samples f (fun r => [1])).
Proof.
  intros th L. destruct (one_param th L) as (a & ->). rewrite (xs_unscaled model_constant f eq_refl), constant_formula. unfold samples.
  rewrite !map_map. do 3 f_equal. apply map_ext. intros r. unfold rdot. cbn. ring.
Qed.
(* coefficients of the six weekday parameters *)
Definition wday_phi (t : Z) : list R := map (fun i => if Z.eqb (weekday t) i then 1 else 0) [1; 2; 3; 4; 5; 6]%Z.
Lemma weekday_cases t : (weekday t = 0 \/ weekday t = 1 \/ weekday t = 2 \/ weekday t = 3 \/ weekday t = 4 \/ weekday t = 5 \/ weekday t = 6)%Z.
Proof. pose proof (weekday_range t). lia. Qed.
Lemma six_params (th : list R) : length th = 6%nat -> exists a b c d e g, th = [a; b; c; d; e; g].
Proof. destruct th as [|a [|b [|c [|d [|e [|g [|]]]]]]]; try discriminate. intros _. now exists a, b, c, d, e, g. Qed.
Lemma wday_is_linear f act : has_date f = true -> linear_in model_season_wday f act (samples f (fun r => wday_phi (r_date r))).
Proof.
  intros Hd th L. unfold dates_of. rewrite Hd, wday_formula by (unfold fins; now rewrite map_length). unfold samples, fins.
  rewrite !map_map. do 2 f_equal. apply map_ext. intros r. cbn [s_phi]. destruct (six_params th L) as (a & b & c & d & e & g & ->).
  unfold wday_value, rdot, wday_phi.
  destruct (weekday_cases (r_date r)) as [E|[E|[E|[E|[E|[E|E]]]]]]; rewrite E; cbn; apply (f_equal Fin); ring.
Qed.
Lemma rdot_app p1 c1 p2 c2 : length p1 = length c1 -> rdot (p1 ++ p2) (c1 ++ c2) = rdot p1 c1 + rdot p2 c2.
Proof.
  unfold rdot. revert c1. induction p1 as [|a p1 IH]; intros [|b c1] L; try discriminate; cbn; [ring|]. rewrite IH by (cbn in L; lia). ring.
Qed.
Lemma sum_is_linear m1 m2 f act phi1 phi2 : fm_name m1 <> "null" -> fm_name m2 <> "null" ->
  requires_scaling (fm_name m1) = false -> requires_scaling (fm_name m2) = false ->
  (forall r, length (phi1 r) = fm_n m1) ->
  linear_in m1 f act (samples f phi1) -> linear_in m2 f act (samples f phi2) ->
  linear_in (madd m1 m2) f act (samples f (fun r => phi1 r ++ phi2 r)).
Proof.
  intros N1 N2 S1 S2 L1 I1 I2 th L. unfold madd in *. rewrite !is_null_false in * by assumption. cbn [fm_n combine_models mk_model] in L.
  set (m := combine_models "+" nadd false m1 m2).
  assert (X : forall k : fmodel XR, requires_scaling (fm_name k) = false -> xs_of m f = xs_of k f)
    by (intros k K; rewrite (xs_unscaled m f eq_refl), (xs_unscaled k f K); reflexivity).
  set (p1 := firstn (fm_n m1) th). set (p2 := skipn (fm_n m1) th).
  assert (A : length p1 = fm_n m1) by (unfold p1; rewrite firstn_length; lia).
  assert (B : length p2 = fm_n m2) by (unfold p2; rewrite skipn_length; lia).
  pose proof (I1 p1 A) as E1. pose proof (I2 p2 B) as E2. rewrite <- (X m1 S1) in E1. rewrite <- (X m2 S2) in E2.
  unfold call, m, combine_models, mk_model. cbn [fm_f]. unfold f_combine, p_slice. cbn [rbind].
  assert (F1 : firstn (fm_n m1) (fins th) = fins p1) by (unfold fins, p1; now rewrite firstn_map).
  assert (F2 : skipn (fm_n m1) (fins th) = fins p2) by (unfold fins, p2; now rewrite skipn_map).
  rewrite F1, F2. unfold call in E1, E2. change (xs_of (mkModel _ _ _ _ _ _ _ _) f) with (xs_of m f). rewrite E1. cbn [rbind]. rewrite E2. cbn [rbind bcast2].
  assert (Le : length (fins (map (fun s => rdot p1 (s_phi s)) (samples f phi1))) = length (fins (map (fun s => rdot p2 (s_phi s)) (samples f phi2))))
    by (unfold fins, samples; now rewrite !map_length).
  rewrite Le, Nat.eqb_refl. do 2 f_equal. unfold map2, fins, samples. rewrite !map_map. cbn [s_phi].
  induction (usable_rows f) as [|r rs IH]; cbn [map combine]; [reflexivity|]. rewrite IH. f_equal. cbn [fst snd]. rewrite add_fin. f_equal.
  rewrite <- rdot_app by (now rewrite A, L1). unfold p1, p2. now rewrite firstn_skipn.
Qed.

Lemma tree_cache_neutral (t : ctree) f act : Forall cleaf_ok (cleaves t) -> flat_map masks_read (cleaves t) = [] -> cache_neutral (cbuild t) f act.
Proof. intros O R c p E. apply cache_invisible; auto. rewrite R. intros ? ? ? []. Qed.
Lemma linear_neutral f act : cache_neutral model_linear f act.
Proof.
  apply (tree_cache_neutral (CLeaf (CBlind model_linear))); [|reflexivity]. constructor; [|constructor].
  pose proof (trends_blind (T := XR)) as B. rewrite Forall_forall in B. apply B. cbn. auto.
Qed.
Lemma constant_neutral f act : cache_neutral model_constant f act.
Proof.
  apply (tree_cache_neutral (CLeaf (CBlind model_constant))); [|reflexivity]. constructor; [|constructor].
  pose proof (trends_blind (T := XR)) as B. rewrite Forall_forall in B. apply B. cbn. auto.
Qed.
Lemma week_neutral f act : cache_neutral (madd model_linear model_season_wday) f act.
Proof.
  apply (tree_cache_neutral (CAdd (CLeaf (CBlind model_linear)) (CLeaf CWday))); [|reflexivity].
  constructor; [|constructor; [exact I|constructor]].
  pose proof (trends_blind (T := XR)) as B. rewrite Forall_forall in B. apply B. cbn. auto.
Qed.
Lemma week_is_linear f act : has_date f = true ->
  linear_in (madd model_linear model_season_wday) f act (samples f (fun r => [x_in r; 1] ++ wday_phi (r_date r))).
Proof.
  intros Hd. apply sum_is_linear; try discriminate; try reflexivity; [apply linear_is_linear|now apply wday_is_linear].
Qed.

(* sum over the usable rows, each with the square of its share of the weight *)
Definition wsum (f : frame XR) (g : row XR -> R) : R := rsum (map (fun r => share f r * share f r * g r) (usable_rows f)).
Lemma wsum_samples f phi (h : sample -> R) : rsum (map (fun s => s_w s * s_w s * h s) (samples f phi)) =
  wsum f (fun r => h (mkS (phi r) (real (r_y r)) (share f r))).
Proof. unfold wsum, samples. now rewrite map_map. Qed.
Lemma wsum_ext f g h : (forall r, In r (usable_rows f) -> g r = h r) -> wsum f g = wsum f h.
Proof. intros E. unfold wsum. f_equal. apply map_ext_in. intros r I. now rewrite E. Qed.
Lemma wsum_lin f g h c : wsum f (fun r => g r + c * h r) = wsum f g + c * wsum f h.
Proof. unfold wsum. induction (usable_rows f) as [|r l IH]; cbn [map rsum]; [ring|]. rewrite IH. ring. Qed.
Lemma gradient_rows f phi th de l : samples f phi = l ->
  rsum (map (fun s => s_w s * s_w s * err th s * rdot de (s_phi s)) l) = 0 ->
  wsum f (fun r => (real (r_y r) - rdot th (phi r)) * rdot de (phi r)) = 0.
Proof.
  intros <- K. rewrite <- K. unfold wsum, samples. rewrite map_map. f_equal. apply map_ext. intros r. cbn. unfold err. cbn. ring.
Qed.

(* C66: constant model *)
Theorem constant_fit E f freq src act uc d : minimizes E model_constant f act -> finite_rows f ->
  fit_model E model_constant f freq src act uc = Ok d -> md_fit d = true ->
  exists a, md_params d = [Fin a] /\ a * wsum f (fun _ => 1) = wsum f (fun r => real (r_y r)).
Proof.
  intros Mn Fr Ef Fd.
  destruct (normal_equations E model_constant f freq src act uc d _ Mn ltac:(repeat constructor) (fun _ _ _ => ex_intro _ false eq_refl) (rows_fitted f (fun _ => [1]) Fr)
              (constant_is_linear f act) (fun _ => constant_neutral f act) Ef Fd) as (th & Ep & Lt & _ & _ & G).
  destruct (one_param th Lt) as (a & ->). exists a. split; [exact Ep|].
  pose proof (gradient_rows f _ _ [1] _ eq_refl (G [1] eq_refl)) as K.
  rewrite (wsum_ext f _ (fun r => real (r_y r) + (- a) * 1)) in K by (intros r _; unfold rdot; cbn; ring).
  rewrite (wsum_lin f (fun r => real (r_y r)) (fun _ => 1) (- a)) in K. lra.
Qed.
(* C66: straight line *)
Theorem line_fit E f freq src act uc d : minimizes E model_linear f act -> finite_rows f ->
  fit_model E model_linear f freq src act uc = Ok d -> md_fit d = true ->
  exists a b, md_params d = [Fin a; Fin b] /\
    wsum f (fun r => real (r_y r) - (a * x_in r + b)) = 0 /\
    wsum f (fun r => (real (r_y r) - (a * x_in r + b)) * x_in r) = 0.
Proof.
  intros Mn Fr Ef Fd.
  destruct (normal_equations E model_linear f freq src act uc d _ Mn ltac:(repeat constructor) (fun _ _ _ => ex_intro _ false eq_refl) (rows_fitted f (fun r => [x_in r; 1]) Fr)
              (linear_is_linear f act) (fun _ => linear_neutral f act) Ef Fd) as (th & Ep & Lt & _ & _ & G).
  destruct (two_params th Lt) as (a & b & ->). exists a, b. split; [exact Ep|]. split.
  - rewrite <- (gradient_rows f _ _ [0; 1] _ eq_refl (G [0; 1] eq_refl)). apply wsum_ext. intros r _. unfold rdot. cbn. ring.
  - rewrite <- (gradient_rows f _ _ [1; 0] _ eq_refl (G [1; 0] eq_refl)). apply wsum_ext. intros r _. unfold rdot. cbn. ring.
Qed.
(* ... in closed form *)
Definition line_det (f : frame XR) : R := wsum f (fun _ => 1) * wsum f (fun r => x_in r * x_in r) - wsum f x_in * wsum f x_in.
Lemma line_sums f a b : wsum f (fun r => real (r_y r) - (a * x_in r + b)) = 0 ->
  wsum f (fun r => (real (r_y r) - (a * x_in r + b)) * x_in r) = 0 ->
  wsum f (fun r => real (r_y r)) = a * wsum f x_in + b * wsum f (fun _ => 1) /\
  wsum f (fun r => x_in r * real (r_y r)) = a * wsum f (fun r => x_in r * x_in r) + b * wsum f x_in.
Proof.
  intros K1 K2. split.
  - rewrite (wsum_ext f _ (fun r => (real (r_y r) + (- a) * x_in r) + (- b) * 1)) in K1 by (intros; ring).
    rewrite (wsum_lin f (fun r => real (r_y r) + - a * x_in r) (fun _ => 1) (- b)), (wsum_lin f (fun r => real (r_y r)) x_in (- a)) in K1. lra.
  - rewrite (wsum_ext f _ (fun r => (x_in r * real (r_y r) + (- a) * (x_in r * x_in r)) + (- b) * x_in r)) in K2 by (intros; ring).
    rewrite (wsum_lin f (fun r => x_in r * real (r_y r) + - a * (x_in r * x_in r)) x_in (- b)),
      (wsum_lin f (fun r => x_in r * real (r_y r)) (fun r => x_in r * x_in r) (- a)) in K2. lra.
Qed.
Theorem line_closed_form E f freq src act uc d : minimizes E model_linear f act -> finite_rows f -> line_det f <> 0 ->
  fit_model E model_linear f freq src act uc = Ok d -> md_fit d = true ->
  md_params d = [Fin ((wsum f (fun _ => 1) * wsum f (fun r => x_in r * real (r_y r)) - wsum f x_in * wsum f (fun r => real (r_y r))) / line_det f);
                 Fin ((wsum f (fun r => x_in r * x_in r) * wsum f (fun r => real (r_y r)) - wsum f x_in * wsum f (fun r => x_in r * real (r_y r))) / line_det f)].
Proof.
  intros Mn Fr D Ef Fd. destruct (line_fit E f freq src act uc d Mn Fr Ef Fd) as (a & b & Ep & K1 & K2).
  destruct (line_sums f a b K1 K2) as [S1 S2]. rewrite Ep, S1, S2. unfold line_det in *. do 2 f_equal; [|f_equal]; f_equal; field; exact D.
Qed.
(* C66: a line plus a weekly season: the weighted errors of each weekday add up to zero *)
Theorem week_fit E f freq src act uc d : minimizes E (madd model_linear model_season_wday) f act -> finite_rows f -> has_date f = true ->
  fit_model E (madd model_linear model_season_wday) f freq src act uc = Ok d -> md_fit d = true ->
  exists a b ws, md_params d = fins (a :: b :: ws) /\ length ws = 6%nat /\
    let e := fun r => real (r_y r) - (a * x_in r + b + (if Z.eqb (weekday (r_date r)) 0 then 0 else nth (Z.to_nat (weekday (r_date r)) - 1) ws 0)) in
    wsum f (fun r => e r * x_in r) = 0 /\
    forall k, (0 <= k <= 6)%Z -> wsum f (fun r => e r * (if Z.eqb (weekday (r_date r)) k then 1 else 0)) = 0.
Proof.
  intros Mn Fr Hd Ef Fd.
  destruct (normal_equations E (madd model_linear model_season_wday) f freq src act uc d _ Mn ltac:(repeat constructor) (fun _ _ _ => ex_intro _ true eq_refl)
              (rows_fitted f (fun r => [x_in r; 1] ++ wday_phi (r_date r)) Fr)
              (week_is_linear f act Hd) (fun _ => week_neutral f act) Ef Fd) as (th & Ep & Lt & _ & _ & G).
  destruct th as [|a [|b ws]]; try discriminate. exists a, b, ws. split; [exact Ep|]. assert (Lw : length ws = 6%nat) by (cbn in Lt; lia). split; [exact Lw|].
  destruct (six_params ws Lw) as (w1 & w2 & w3 & w4 & w5 & w6 & ->). cbv zeta.
  assert (P : forall r, rdot (a :: b :: [w1; w2; w3; w4; w5; w6]) ([x_in r; 1] ++ wday_phi (r_date r)) =
     a * x_in r + b + (if Z.eqb (weekday (r_date r)) 0 then 0 else nth (Z.to_nat (weekday (r_date r)) - 1) [w1; w2; w3; w4; w5; w6] 0)).
  { intros r. unfold rdot, wday_phi. destruct (weekday_cases (r_date r)) as [K|[K|[K|[K|[K|[K|K]]]]]]; rewrite K; unfold Z.to_nat, Pos.to_nat; cbn; ring. }
  assert (Q : forall de, length de = 8%nat -> wsum f (fun r => (real (r_y r) - (a * x_in r + b +
                (if Z.eqb (weekday (r_date r)) 0 then 0 else nth (Z.to_nat (weekday (r_date r)) - 1) [w1; w2; w3; w4; w5; w6] 0))) *
                rdot de ([x_in r; 1] ++ wday_phi (r_date r))) = 0).
  { intros de Ld. etransitivity; [|exact (gradient_rows f _ _ de _ eq_refl (G de Ld))]. apply wsum_ext. intros r _. rewrite <- P. reflexivity. }
  split.
  - etransitivity; [|exact (Q [1; 0; 0; 0; 0; 0; 0; 0] eq_refl)]. apply wsum_ext. intros r _. f_equal. unfold rdot, wday_phi. cbn. ring.
  - intros k Hk.
    assert (D : exists de, length de = 8%nat /\ forall r, rdot de ([x_in r; 1] ++ wday_phi (r_date r)) = if Z.eqb (weekday (r_date r)) k then 1 else 0).
    { assert (C : (k = 0 \/ k = 1 \/ k = 2 \/ k = 3 \/ k = 4 \/ k = 5 \/ k = 6)%Z) by lia.
      destruct C as [->|[->|[->|[->|[->|[->| ->]]]]]];
        [exists [0; 1; -1; -1; -1; -1; -1; -1]|exists [0; 0; 1; 0; 0; 0; 0; 0]|exists [0; 0; 0; 1; 0; 0; 0; 0]|exists [0; 0; 0; 0; 1; 0; 0; 0]
        |exists [0; 0; 0; 0; 0; 1; 0; 0]|exists [0; 0; 0; 0; 0; 0; 1; 0]|exists [0; 0; 0; 0; 0; 0; 0; 1]]; (split; [reflexivity|]);
        intros r; unfold rdot, wday_phi; destruct (weekday_cases (r_date r)) as [K|[K|[K|[K|[K|[K|K]]]]]]; rewrite K; cbn; ring. }
    destruct D as (de & Ld & Dd). etransitivity; [|exact (Q de Ld)]. apply wsum_ext. intros r _. now rewrite Dd.
Qed.

(* ---- C65: data that the model can reproduce exactly ---- *)
Lemma loss_zero th l : loss th l = 0 -> forall s, In s l -> s_w s <> 0 -> rdot th (s_phi s) = s_y s.
Proof.
  intros Z s I W. unfold loss in Z.
  assert (K : (s_w s * err th s) * (s_w s * err th s) = 0).
  { refine (rsum_nonneg_zero _ _ Z _ (proj2 (in_map_iff _ _ _) (ex_intro _ s (conj eq_refl I)))).
    intros a Ia. apply in_map_iff in Ia as (q & <- & _). apply Rle_0_sqr. }
  assert (s_w s * err th s = 0) by nra. assert (err th s = 0) by (apply Rmult_integral in H; tauto). unfold err in H0. lra.
Qed.
Lemma loss_exact th l : (forall s, In s l -> rdot th (s_phi s) = s_y s) -> loss th l = 0.
Proof. intros K. unfold loss. apply rsum_zero. intros a I. apply in_map_iff in I as (s & <- & I). unfold err. rewrite (K s I). ring. Qed.
Lemma loss_nonneg th l : 0 <= loss th l.
Proof. unfold loss. apply rsum_nonneg. intros a I. apply in_map_iff in I as (s & <- & _). apply Rle_0_sqr. Qed.
Theorem exact_fit E m f freq src act uc d l th0 :
  minimizes E m f act -> (0 < fm_n m)%nat -> unbounded m -> fitted f l -> linear_in m f act l ->
  (uc = true -> cache_neutral m f act) -> length th0 = fm_n m -> (forall s, In s l -> rdot th0 (s_phi s) = s_y s) ->
  fit_model E m f freq src act uc = Ok d -> md_fit d = true ->
  exists th, md_params d = fins th /\ length th = fm_n m /\ md_cost d = Fin 0 /\
    forall s, In s l -> s_w s <> 0 -> rdot th (s_phi s) = s_y s.
Proof.
  intros Mn Np U Ft Li Cn L0 X Ef Fd. destruct (normal_equations E m f freq src act uc d l Mn Np U Ft Li Cn Ef Fd) as (th & Ep & Lt & Ec & M & _).
  exists th. split; [exact Ep|]. split; [exact Lt|].
  assert (Z : loss th l = 0). { pose proof (M th0 L0) as K. rewrite (loss_exact th0 l X) in K. pose proof (loss_nonneg th l). lra. }
  split; [rewrite Ec, Z; f_equal; field|]. now apply loss_zero.
Qed.
(* usable weights are positive *)
Lemma share_pos f r : finite_rows f -> In r (usable_rows f) -> 0 < share f r.
Proof.
  intros F I. unfold share. pose proof (count_x_pos _ _ I) as P. apply IZR_lt in P. apply Rmult_lt_0_compat; [|now apply Rinv_0_lt_compat].
  destruct (has_w f) eqn:Hw; [|lra]. unfold finite_rows in F. rewrite Forall_forall in F. destruct (F r I) as [_ E]. specialize (E Hw).
  unfold usable_rows in I. apply filter_In in I as [_ U]. unfold usable in U. rewrite Hw in U. apply andb_prop in U as [_ U]. apply andb_prop in U as [_ U].
  rewrite E in U. cbn in U. destruct (Rltb_spec 0 (real (r_w r))); [assumption|discriminate].
Qed.
Definition on_line (f : frame XR) (a b : R) : Prop := forall r, In r (usable_rows f) -> r_y r = Fin (a * x_in r + b).
Definition finite_weights (f : frame XR) : Prop := has_w f = true -> forall r, In r (usable_rows f) -> exists w, r_w r = Fin w.
Definition two_positions (f : frame XR) : Prop := exists r1 r2, In r1 (usable_rows f) /\ In r2 (usable_rows f) /\ r_x r1 <> r_x r2.
Lemma on_line_finite f a b : on_line f a b -> finite_weights f -> finite_rows f.
Proof.
  intros O W. unfold finite_rows. rewrite Forall_forall. intros r I. split; [rewrite (O r I); reflexivity|].
  intros Hw. destruct (W Hw r I) as [w Ew]. rewrite Ew. reflexivity.
Qed.
Lemma not_eq_IZR_ (a b : Z) : a <> b -> IZR a <> IZR b.
Proof. intros N E. apply N. now apply eq_IZR. Qed.
Theorem line_recovered E f freq src act uc d a b : minimizes E model_linear f act -> on_line f a b -> finite_weights f -> two_positions f ->
  fit_model E model_linear f freq src act uc = Ok d -> md_fit d = true -> md_params d = [Fin a; Fin b] /\ md_cost d = Fin 0.
Proof.
  intros Mn O W (r1 & r2 & I1 & I2 & N) Ef Fd. pose proof (on_line_finite f a b O W) as Fr.
  assert (X0 : forall s, In s (samples f (fun r => [x_in r; 1])) -> rdot [a; b] (s_phi s) = s_y s).
  { intros s I. unfold samples in I. apply in_map_iff in I as (r & <- & I). cbn [s_phi s_y]. rewrite (O r I). unfold rdot. cbn. ring. }
  destruct (exact_fit E model_linear f freq src act uc d _ [a; b] Mn ltac:(repeat constructor) (fun _ _ _ => ex_intro _ false eq_refl)
              (rows_fitted f (fun r => [x_in r; 1]) Fr) (linear_is_linear f act) (fun _ => linear_neutral f act) eq_refl X0 Ef Fd)
    as (th & Ep & Lt & Ec & X).
  split; [|exact Ec]. destruct (two_params th Lt) as (a' & b' & ->). rewrite Ep.
  assert (P : forall r, In r (usable_rows f) -> a' * x_in r + b' = a * x_in r + b).
  { intros r I. assert (Is : In (mkS [x_in r; 1] (real (r_y r)) (share f r)) (samples f (fun r => [x_in r; 1]))).
    { unfold samples. apply in_map_iff. exists r. auto. }
    pose proof (share_pos f r Fr I) as Ps. specialize (X _ Is). cbn [s_w s_phi s_y] in X. rewrite (O r I) in X. unfold rdot in X. cbn in X.
    assert (share f r <> 0) by lra. specialize (X H). lra. }
  pose proof (P r1 I1) as P1. pose proof (P r2 I2) as P2. unfold x_in in P1, P2. apply not_eq_IZR_ in N.
  assert (K : (a' - a) * (IZR (r_x r1) - IZR (r_x r2)) = 0) by lra. apply Rmult_integral in K as [K|K]; [|lra].
  assert (a' = a) by lra. subst a'. assert (b' = b) by lra. now subst b'.
Qed.

(* ---- C65, whole forecasts: a series on a line is continued on that line ---- *)
Definition straight (t0 : Z) (f : frame XR) (a b : R) : Prop := forall q, In q (rows f) ->
  (r_y q = Fin (a * IZR (x_of t0 (r_date q)) + b) \/ nisnan (r_y q) = true) /\
  (has_w f = true -> nisnan (r_w q) = true \/ exists w, r_w q = Fin w).
Lemma prepared_finite c (f f1 : frame XR) : prepared c f = Ok f1 ->
  (forall q, In q (rows f) -> has_w f = true -> nisnan (r_w q) = true \/ exists w, r_w q = Fin w) ->
  forall q, In q (rows (to_fit f1)) -> nisnan (r_w q) = true \/ exists w, r_w q = Fin w.
Proof.
  intros Ep Hw q Iq. unfold to_fit in Iq. apply positive_in in Iq as [Iq _]. unfold with_weights in Iq.
  destruct (has_w f1) eqn:H1; [|cbn in Iq; apply in_map_iff in Iq as (q0 & <- & _); right; exists 1; cbn [set_w r_w]; apply n1_fin].
  assert (S0 : forall k, In k (rows (start_filter (c_start c) f)) -> In k (rows f)).
  { intros k I. unfold start_filter in I. destruct (c_start c); [|exact I]. destruct (has_date f); [|exact I]. cbn in I. now apply filter_In in I. }
  assert (S1 : has_w (start_filter (c_start c) f) = has_w f).
  { unfold start_filter. destruct (c_start c); [destruct (has_date f)|]; reflexivity. }
  destruct (c_outliers c) eqn:Ho.
  - destruct (spikes_weighted c f f1 Ho Ep) as (st & sp & _ & L1 & L2 & N). apply In_nth_error in Iq as [i Ei].
    assert (Li : (i < length (rows f1))%nat) by (apply nth_error_Some; congruence).
    destruct (nth_error (rows (start_filter (c_start c) f)) i) as [k|] eqn:Ek; [|apply nth_error_None in Ek; lia].
    destruct (nth_error sp i) as [s|] eqn:Es; [|apply nth_error_None in Es; lia].
    rewrite (N i k s Ek Es) in Ei. injection Ei as <-. cbn [set_w r_w]. apply nth_error_In in Ek. apply S0 in Ek.
    destruct (has_w f) eqn:Hf.
    + destruct (Hw k Ek eq_refl) as [K|[w Kw]].
      * left. destruct (r_w k); try discriminate. reflexivity.
      * right. rewrite Kw. destruct s; [exists (w * 0)|exists (w * 1)]; reflexivity.
    + right. destruct s; [exists 0|exists 1]; reflexivity.
  - rewrite (no_outliers c f f1 Ho Ep) in *. apply (Hw q); [now apply S0|]. now rewrite <- S1.
Qed.
Theorem line_continued W c source (f : frame XR) r t0 a b : x_counts_days t0 f -> same_hour t0 f -> straight t0 f a b ->
  run_forecast_single W (set_all true c) source f = Ok r ->
  exists f1 act acts (es : list (@entry XR)), prepared c f = Ok f1 /\ model_actuals f (to_fit f1) = Ok act /\
    rs_data r = acts ++ concat (map en_rows es) /\ rs_meta r = map en_meta es /\ Forall (fun d => d_actual d = true) acts /\
    (two_positions (to_fit f1) -> minimizes (w_env W) model_linear (to_fit f1) (Some act) ->
     forall e, In e es -> en_model e = model_linear -> md_fit (m_meta (en_meta e)) = true ->
       md_params (m_meta (en_meta e)) = [Fin a; Fin b] /\
       forall d, In d (en_rows e) -> d_y d = Fin (a * IZR (x_of t0 (d_date d)) + b)).
Proof.
  intros Hx Hh Hs E.
  destruct (fit_table _ _ _ _ _ E) as (f1 & range & mode & act & st & sp & x0 & acts & es & Ep & _ & _ & Ea & Est & _ & Ex0 & Ed & Em & _ & Fa & Fe).
  exists f1, act, acts, es. do 4 (split; [assumption|]). split; [eapply Forall_impl; [|exact Fa]; intros d K; apply K|].
  intros Tp Mn e Ie Ee Fd. rewrite Forall_forall in Fe. destruct (Fe e Ie) as ((d0 & Ef & Ed0) & _ & Rr).
  rewrite Ed0 in Fd. cbn [set_weights md_fit] in Fd. rewrite Ee in Ef.
  assert (U : forall q, In q (usable_rows (to_fit f1)) -> r_x q = x_of t0 (r_date q) /\ r_y q = Fin (a * x_in q + b)).
  { intros q Iq. unfold usable_rows in Iq. apply filter_In in Iq as [Iq Uq]. destruct (fitted_sample _ _ _ _ Ep Iq) as (q0 & I0 & (S1 & _ & S3 & S4)).
    assert (X : r_x q = x_of t0 (r_date q)) by (rewrite S1, S3; now apply Hx). split; [exact X|].
    unfold usable in Uq. apply andb_prop in Uq as [Uq _]. rewrite S4 in *. destruct (Hs q0 I0) as [[K|K] _].
    - rewrite K. unfold x_in. now rewrite X, <- S1.
    - rewrite K in Uq. discriminate. }
  assert (O : on_line (to_fit f1) a b) by (intros q Iq; apply (U q Iq)).
  assert (Fw : finite_weights (to_fit f1)).
  { intros _ q Iq. unfold usable_rows in Iq. apply filter_In in Iq as [Iq Uq].
    destruct (prepared_finite c f f1 Ep (fun k Ik => proj2 (Hs k Ik)) q Iq) as [K|K]; [|exact K].
    apply positive_in in Iq as [_ Pq]. destruct (r_w q); discriminate. }
  destruct (line_recovered (w_env W) (to_fit f1) _ _ _ _ _ a b Mn O Fw Tp Ef Fd) as [Pa _].
  assert (Pm : md_params (m_meta (en_meta e)) = [Fin a; Fin b]) by (rewrite Ed0; exact Pa). split; [exact Pm|].
  intros d Id. rewrite (entry_values c source f f1 act st sp x0 t0 e (fun _ p x _ => nadd (nmul (nth 0 p nnan) x) (nth 1 p nnan)) Hx Hh Ep Est Ex0 Rr);
    [|rewrite Ee; exact linear_pointwise|now rewrite Pm, Ee|exact Id].
  rewrite Pm, Ee. reflexivity.
Qed.
