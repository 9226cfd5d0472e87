(* Shapes of fitted trends when the parameters are within the model's own bounds (C13), behaviour
   of the fixed spike (C09), and counterexamples. *)
From Coq Require Import ZArith String List Bool Reals Lra Lia.
From Verif Require Import Num Py Cal Model Base Fixed NumProofs BaseProofs GuessProofs FixedProofs.
Import ListNotations.
Local Open Scope string_scope.
Local Open Scope R_scope.

(* specification *)
Definition related (P : R -> R -> R -> R -> Prop) (xs ys : list R) : Prop :=
  length ys = length xs /\
  forall i j x x' y y', nth_error xs i = Some x -> nth_error xs j = Some x' ->
    nth_error ys i = Some y -> nth_error ys j = Some y' -> P x x' y y'.

Lemma related_map (P : R -> R -> R -> R -> Prop) f xs :
  (forall x x', P x x' (f x) (f x')) -> related P xs (map f xs).
Proof.
  intros HP. split; [apply map_length|]. intros i j x x' y y' Ei Ej Fi Fj.
  rewrite nth_error_map, Ei in Fi. rewrite nth_error_map, Ej in Fj. cbn in *. injection Fi as <-. injection Fj as <-.
  apply HP.
Qed.

Lemma within_nth g (b : bounds XR) i v lo hi : entries_within (fins g) b ->
  nth_error g i = Some v -> nth_error (b_lo b) i = Some lo -> nth_error (b_hi b) i = Some hi ->
  nleb lo (Fin v) = true /\ nleb (Fin v) hi = true.
Proof.
  intros (_ & _ & W) Ev El Eh. apply (W i); auto. unfold fins. now rewrite nth_error_map, Ev.
Qed.

Lemma nondec_in_bounds x y dd b A B xs d mult kw :
  fm_bounds model_linear_nondec x y dd = Ok b -> entries_within (fins [A; B]) b ->
  exists ys, call model_linear_nondec (fins xs) d (Some (fins [A; B])) mult kw = Ok (Ar (fins ys)) /\
    related (fun x x' y y' => x <= x' -> y <= y') xs ys.
Proof.
  intros [= <-] W. exists (map (fun x => A * x + B) xs). split; [apply linear_nondec_formula|].
  destruct (within_nth _ _ 0 A _ _ W eq_refl eq_refl eq_refl) as [HA _]. cbn in HA.
  destruct (Rleb_spec 0 A); [|discriminate]. apply related_map. intros u u' Hu. now apply nondec_shape.
Qed.
Lemma decay_in_bounds x y dd b A B D xs d mult kw :
  fm_bounds model_decay x y dd = Ok b -> entries_within (fins [A; B; D]) b ->
  exists ys, call model_decay (fins xs) d (Some (fins [A; B; D])) mult kw = Ok (Ar (fins ys)) /\
    related (fun x x' y y' => x <= x' -> Rabs (y' - D) <= Rabs (y - D) /\ 0 <= (y' - D) * (y - D)) xs ys.
Proof.
  intros [= <-] W. exists (map (decay_spec A B D) xs). split; [apply decay_formula|].
  destruct (within_nth _ _ 1 B _ _ W eq_refl eq_refl eq_refl) as [_ HB]. cbn in HB.
  destruct (Rleb_spec B 0); [|discriminate]. apply related_map. intros u u' Hu. now apply decay_shape.
Qed.
Lemma sigmoid_in_bounds x y dd b B C D xs d mult kw :
  fm_bounds model_sigmoid_step x y dd = Ok b -> entries_within (fins [B; C; D]) b ->
  exists ys, call model_sigmoid_step (fins xs) d (Some (fins [B; C; D])) mult kw = Ok (Ar (fins ys)) /\
    related (fun x x' y y' =>
      Rmin (neutral mult) B <= y <= Rmax (neutral mult) B /\
      (x <= x' -> (neutral mult <= B -> y <= y') /\ (B <= neutral mult -> y' <= y))) xs ys.
Proof.
  intros E W. exists (map (sigmoid_spec mult B C D) xs). split; [apply (sigmoid_formula xs d B C D mult kw)|].
  assert (HD : 0 <= D).
  { assert (El : nth_error (b_lo b) 2 = Some (Fin 0) /\ exists hi, nth_error (b_hi b) 2 = Some hi).
    { revert E. cbn [fm_bounds model_sigmoid_step mk_model]. unfold bounds_sigmoid_step.
      destruct y as [y|]; [|intros E; injection E as <-; cbn; eauto]. destruct x as [x|]; [|discriminate].
      destruct (py_max y); [|discriminate]. destruct (py_min y); [|discriminate].
      destruct (py_min x); [|discriminate]. destruct (py_max x); [|discriminate]. cbn [rbind]. intros E. injection E as <-. cbn. eauto. }
    destruct El as [El (hi & Eh)].
    destruct (within_nth _ _ 2 D _ _ W eq_refl El Eh) as [HB _]. cbn in HB.
    destruct (Rleb_spec 0 D); [assumption|discriminate]. }
  apply related_map. intros u u'. split.
  - apply (sigmoid_shape mult B C D u u HD). lra.
  - intros Hu. now apply sigmoid_shape.
Qed.

Lemma Int_part_of r z : IZR z <= r < IZR z + 1 -> Int_part r = z.
Proof.
  intros Hr. unfold Int_part. assert (up r = (z + 1)%Z) as ->; [|lia]. symmetry. apply tech_up; rewrite plus_IZR; lra.
Qed.
(* fractional spike parameters: 2 samples in, 1 value out *)
Lemma spike_fraction :
  call model_spike (fins [0; 1]) None (Some (fins [5; 3/4; 5/4])) false no_kw = Ok (Ar (fins [0])).
Proof.
  assert (I0 : forall r, 0 <= r < 1 -> py_int (Fin r) = Ok 0%Z).
  { intros r Hr. unfold py_int. cbn. unfold Rtrunc. destruct (Rltb_spec r 0); [lra|]. do 2 f_equal.
    apply Int_part_of. lra. }
  assert (I1 : py_int (Fin (5 / 4)) = Ok 1%Z).
  { unfold py_int. cbn. unfold Rtrunc. destruct (Rltb_spec (5 / 4) 0); [lra|]. do 2 f_equal.
    apply Int_part_of. lra. }
  unfold call. cbn [fm_f model_spike mk_model]. unfold f_spike. cbn [fins map unpack3 rbind].
  rewrite (I0 (3 / 4)) by lra. cbn [rbind np_full Z.ltb Z.compare]. rewrite sub_fin, (I0 (5 / 4 - 3 / 4)) by lra.
  cbn [rbind np_full Z.ltb Z.compare]. rewrite I1. reflexivity.
Qed.

(* create_fixed_spike_ignored *)
Lemma spike_ignored (i j : nat) (xs : list XR) : (i <= j)%nat -> (j <= length xs)%nat ->
  exists m, create_fixed_spike_ignored (Fin (INR i)) (Fin (INR j - INR i)) = Ok m /\ fm_n m = 0%nat /\
    forall d p kw,
      call m xs d p false kw = Ok (Ar (fins (map (fun _ => 0) (seq 0 (length xs))))) /\
      call m xs d p true kw = Ok (Ar (fins (map (spike_spec true i j 0) (seq 0 (length xs))))) /\
      fm_f m xs d p None kw = Ok (Ar (fins (map (spike_spec true i j 0) (seq 0 (length xs))))).
Proof.
  intros Hij Hj. unfold create_fixed_spike_ignored. rewrite add_fin.
  replace (INR i + (INR j - INR i)) with (INR j) by ring.
  destruct (fixed_model_spec (model_spike (T:=XR)) [n0; Fin (INR i); Fin (INR j)] true) as (_ & _ & S).
  destruct (S ltac:(discriminate) eq_refl) as (m & E & _ & N & C1 & C2). exists m.
  split; [exact E|]. split; [exact N|]. intros d p kw. rewrite n0_fin in C1, C2.
  rewrite !C1, C2, !spike_formula by assumption. repeat split. do 3 f_equal. apply map_ext. intros k.
  unfold spike_spec, neutral. destruct (le_dec i k); [destruct (lt_dec k j)|]; reflexivity.
Qed.

(* one value for two free parameters is accepted and used twice *)
Lemma single_value_broadcast fmt : exists m', fix_params_fmodel (T:=XR) fmt model_linear [XNaN; XNaN] = Ok m' /\
  fm_n m' = 2%nat /\
  call m' (fins [10]) None (Some [Fin 3]) false no_kw = Ok (Ar (fins [3 * 10 + 3])).
Proof. eexists. split; [reflexivity|]. split; reflexivity. Qed.

(* a month without samples makes the guess NaN and the fit is refused *)
Lemma no_nan_within p (b : bounds XR) : In XNaN p -> ~ entries_within p b.
Proof.
  intros Hi (L1 & L2 & W). apply In_nth_error in Hi as (i & Ei).
  assert (Hl : (i < length p)%nat) by (apply nth_error_Some; congruence).
  destruct (nth_error (b_lo b) i) as [lo|] eqn:El; [|apply nth_error_None in El; lia].
  destruct (nth_error (b_hi b) i) as [hi|] eqn:Eh; [|apply nth_error_None in Eh; lia].
  destruct (W i XNaN lo hi Ei El Eh) as [H1 _]. destruct lo; discriminate.
Qed.

(* the sigmoid guess is rejected whenever the values are large compared to their spread *)
Lemma sigmoid_guess_rejected xs ys d : (2 <= length ys)%nat -> (1 <= length xs)%nat ->
  (forall u v w, In u ys -> In v ys -> In w ys -> 2 * (u - v) < w) ->
  forall mult rnd, exists p b,
    fm_init model_sigmoid_step (Some (fins xs)) (Some (fins ys)) d mult rnd = Ok p /\
    fm_bounds model_sigmoid_step (Some (fins xs)) (Some (fins ys)) d = Ok b /\
    validate_initial_guess p b = Ok false.
Proof.
  intros L Lx Hy mult rnd.
  destruct (py_max_fins ys) as (mx & Emx & Imx); [destruct ys; [cbn in L; lia|discriminate]|].
  destruct (py_min_fins ys) as (mn & Emn & Imn); [destruct ys; [cbn in L; lia|discriminate]|].
  destruct (py_max_fins xs) as (xx & Exx & _); [destruct xs; [cbn in Lx; lia|discriminate]|].
  destruct (py_min_fins xs) as (xn & Exn & _); [destruct xs; [cbn in Lx; lia|discriminate]|].
  cbn [fm_bounds fm_n fm_init model_sigmoid_step mk_model]. rewrite init_fins.
  unfold bounds_sigmoid_step, init_sigmoid_step. rewrite Emx, Emn, Exx, Exn. cbn [rbind].
  destruct (largest1_abs_diffs ys L) as (j & r & -> & Hj). cbn [rbind].
  destruct (at_pos_fins ys j ltac:(lia)) as (b & -> & Eb). cbn [rbind]. do 2 eexists.
  split; [reflexivity|]. split; [reflexivity|].
  unfold validate_initial_guess. cbn [length b_lo b_hi Nat.eqb andb]. f_equal.
  apply andb_false_iff. right. cbn [combine forallb fst snd]. apply andb_false_iff. left.
  rewrite sub_fin, ofZ_fin, mul_fin. cbn. destruct (Rleb_spec b (2 * (mx - mn))); [|reflexivity].
  apply nth_error_In in Eb. pose proof (Hy mx mn b Imx Imn Eb). lra.
Qed.

Lemma month_guess_good xs ys l mult rnd : length l = length ys ->
  (forall i, (1 <= i <= 12)%Z -> exists t, In t l /\ month t = i) ->
  (mult = true -> month_mean (fins ys) l 12 <> Fin 0) -> draws rnd ->
  exists p b, fm_init model_season_month (Some (fins xs)) (Some (fins ys)) (Some l) mult rnd = Ok p /\
    fm_bounds model_season_month (Some (fins xs)) (Some (fins ys)) (Some l) = Ok b /\
    validate_initial_guess p b = Ok true.
Proof.
  intros L HM HB D. destruct (leaf_month xs ys (Some l) L) as (b & E & _ & _ & G).
  destruct (G mult rnd) as (p & Ep & _ & W). exists p, b. split; [exact Ep|]. split; [exact E|].
  apply validate_iff, W; auto.
Qed.
Lemma month_mean_missing ys l i : (forall t, In t l -> month t <> i) -> month_mean (fins ys) l i = XNaN.
Proof.
  intros Hm. unfold month_mean.
  assert (filter (fun yt : XR * Z => (month (snd yt) =? i)%Z) (combine (fins ys) l) = []) as ->.
  { unfold fins. revert ys. induction l as [|t l IH]; intros [|y ys]; try reflexivity. cbn [map combine filter snd].
    destruct (Z.eqb_spec (month t) i) as [E|_]; [exfalso; apply (Hm t); [now left|exact E]|].
    apply IH. intros t' Ht. apply Hm. now right. }
  unfold np_mean, nsum, nnat. cbn. unfold xdiv. destruct (Reqb_spec 0 0); [|lra].
  unfold xsgninf. destruct (Reqb_spec 0 0); [reflexivity|lra].
Qed.
Lemma month_guess_missing xs ys l rnd i : length l = length ys ->
  (1 <= i <= 12)%Z -> (forall t, In t l -> month t <> i) ->
  exists p b, fm_init model_season_month (Some (fins xs)) (Some (fins ys)) (Some l) false rnd = Ok p /\
    fm_bounds model_season_month (Some (fins xs)) (Some (fins ys)) (Some l) = Ok b /\
    validate_initial_guess p b = Ok false.
Proof.
  intros L Hi Hm. destruct (leaf_month xs ys (Some l) L) as (b & E & L1 & L2 & G).
  destruct (G false rnd) as (p & Ep & Lp & _). exists p, b. split; [exact Ep|]. split; [exact E|].
  assert (Hn : In XNaN p).
  { revert Ep. cbn [fm_init model_season_month mk_model]. rewrite init_fins. unfold init_season_month.
    rewrite fins_length, (proj2 (Nat.eqb_eq _ _)) by lia. intros Ep.
    assert (Ep' : map (fun m => nsub m (month_mean (fins ys) l 12)) (map (fun i => month_mean (fins ys) l (Z.of_nat i)) (seq 1 11)) = p) by congruence.
    rewrite <- Ep', map_map. clear Ep Ep'.
    destruct (Z.eq_dec i 12) as [->|Hne].
    - apply in_map_iff. exists 1%nat. split; [|apply in_seq; lia]. rewrite (month_mean_missing ys l 12 Hm).
      destruct (month_mean (fins ys) l (Z.of_nat 1)); reflexivity.
    - apply in_map_iff. exists (Z.to_nat i). split; [|apply in_seq; lia].
      rewrite Z2Nat.id by lia. now rewrite (month_mean_missing ys l i Hm). }
  assert (V : exists v, validate_initial_guess p b = Ok v).
  { unfold validate_initial_guess. rewrite L1, L2, Lp, Nat.eqb_refl. cbn. eauto. }
  destruct V as ([|] & V); [|exact V]. apply validate_iff in V. now apply no_nan_within in V.
Qed.
