(* Initial guesses and bounds of the shipped models: sizes (C03) and validity (C11). *)
From Coq Require Import ZArith String List Bool Reals Lra Lia Sorted Permutation.
From Verif Require Import Num Py Cal Model ModelProofs Base Dummy Fixed NumProofs ListProofs BaseProofs
  SeasonProofs DummyProofs.
Import ListNotations.
Local Open Scope string_scope.
Local Open Scope R_scope.
Local Open Scope nat_scope.

(* ---------- validate_initial_guess ---------- *)
Section Any.
  Context {T : Type} `{NumOps T}.
  (* specification: entry by entry *)
  Definition entries_within (g : list T) (b : bounds T) : Prop :=
    length g = length (b_lo b) /\ length g = length (b_hi b) /\
    forall i v lo hi, nth_error g i = Some v -> nth_error (b_lo b) i = Some lo ->
      nth_error (b_hi b) i = Some hi -> nleb lo v = true /\ nleb v hi = true.

  Lemma forallb_combine {A B} (f : A * B -> bool) : forall (l : list A) (l' : list B),
    length l = length l' ->
    (forallb f (combine l l') = true <->
     forall i a b, nth_error l i = Some a -> nth_error l' i = Some b -> f (a, b) = true).
  Proof.
    induction l as [|a l IH]; intros [|b l'] L; try discriminate; cbn.
    - split; [|auto]. intros _ [|i] a b E; discriminate.
    - rewrite andb_true_iff, IH by (cbn in L; lia). split.
      + intros [Hf Ht] [|i] a' b' Ea Eb; cbn in *; [congruence|eauto].
      + intros Hi. split; [apply (Hi 0); reflexivity|]. intros i a' b'. apply (Hi (S i)).
  Qed.
  Lemma validate_iff g b :
    validate_initial_guess g b = Ok true <-> entries_within g b.
  Proof.
    unfold validate_initial_guess, entries_within.
    destruct (Nat.eqb_spec (length g) (length (b_lo b))) as [E1|E1]; [|split; [discriminate|intros (? & _); contradiction]].
    destruct (Nat.eqb_spec (length g) (length (b_hi b))) as [E2|E2]; [|split; [discriminate|intros (_ & ? & _); contradiction]].
    cbn [andb]. split.
    - intros [= Hv]. apply andb_true_iff in Hv as [V1 V2]. rewrite forallb_combine in V1 by assumption.
      rewrite forallb_combine in V2 by assumption. repeat split; auto.
      + apply (V1 i v lo); auto.
      + apply (V2 i v hi); auto.
    - intros (_ & _ & V). f_equal. apply andb_true_iff. rewrite !forallb_combine by assumption.
      split; intros i v c Ev Ec.
      + destruct (nth_error (b_hi b) i) as [hi|] eqn:Eh; [now apply (V i v c hi)|].
        apply nth_error_None in Eh. assert (i < length g) by (apply nth_error_Some; congruence). lia.
      + destruct (nth_error (b_lo b) i) as [lo|] eqn:Eh; [now apply (V i v lo c)|].
        apply nth_error_None in Eh. assert (i < length g) by (apply nth_error_Some; congruence). lia.
  Qed.
  Lemma validate_wrong_size g b :
    length g <> length (b_lo b) \/ length g <> length (b_hi b) <->
    validate_initial_guess g b = Err ValueError.
  Proof.
    unfold validate_initial_guess.
    destruct (Nat.eqb_spec (length g) (length (b_lo b))), (Nat.eqb_spec (length g) (length (b_hi b)));
      cbn; split; try discriminate; try tauto; intros [?|?]; contradiction.
  Qed.

  (* the guess of m for this series lies within the bounds of m for this series *)
  Definition good_guess (P : (nat -> T) -> Prop) x y d (m : fmodel T) : Prop :=
    forall is_mult rnd, P rnd ->
    exists p b, fm_init m x y d is_mult rnd = Ok p /\ fm_bounds m x y d = Ok b /\
      length p = fm_n m /\ entries_within p b.

  Lemma within_app g1 g2 b1 b2 nd : entries_within g1 b1 -> entries_within g2 b2 ->
    entries_within (g1 ++ g2) (mkBounds (b_lo b1 ++ b_lo b2) (b_hi b1 ++ b_hi b2) nd).
  Proof.
    intros (A1 & A2 & A3) (B1 & B2 & B3). repeat split; cbn [b_lo b_hi] in *; rewrite ?app_length; try lia.
    - rename H0 into E1, H1 into E2, H2 into E3. destruct (Nat.lt_ge_cases i (length g1)) as [L|L].
      + rewrite nth_error_app1 in E1, E2, E3 by lia. now apply (A3 i v lo hi).
      + rewrite nth_error_app2 in E1, E2, E3 by lia.
        rewrite <- A1 in E2. rewrite <- A2 in E3. now apply (B3 (i - length g1) v lo hi).
    - rename H0 into E1, H1 into E2, H2 into E3. destruct (Nat.lt_ge_cases i (length g1)) as [L|L].
      + rewrite nth_error_app1 in E1, E2, E3 by lia. now apply (A3 i v lo hi).
      + rewrite nth_error_app2 in E1, E2, E3 by lia.
        rewrite <- A1 in E2. rewrite <- A2 in E3. now apply (B3 (i - length g1) v lo hi).
  Qed.
  Lemma good_guess_combine (P : (nat -> T) -> Prop) sep op mode (m1 m2 : fmodel T) x y d :
    (forall rnd, P rnd -> P (rnd_l rnd) /\ P (rnd_r rnd)) ->
    match x with Some l => existsb nisnan l | None => false end = false ->
    good_guess P x y d m1 -> good_guess P x y d m2 ->
    good_guess P x y d (combine_models sep op mode m1 m2).
  Proof.
    intros HP Hx H1 H2 is_mult rnd Hr. destruct (HP rnd Hr) as [Pl Pr].
    destruct (H1 mode _ Pl) as (p1 & b1 & I1 & B1 & L1 & V1).
    destruct (H2 mode _ Pr) as (p2 & b2 & I2 & B2 & L2 & V2).
    cbn [combine_models mk_model fm_init fm_n fm_bounds]. rewrite init_sized_no_nan by assumption.
    unfold init_combine, bounds_combine. rewrite I1, I2, B1, B2. cbn [rbind]. unfold bounds_concat.
    pose proof V1 as (W1 & W2 & _). pose proof V2 as (X1 & X2 & _).
    rewrite (proj2 (Nat.eqb_eq _ _)) by lia. rewrite (proj2 (Nat.eqb_eq _ _)) by lia. cbn [andb].
    do 2 eexists. split; [reflexivity|]. split; [reflexivity|]. split; [rewrite app_length; lia|].
    now apply within_app.
  Qed.
  Lemma good_guess_tree (P : (nat -> T) -> Prop) x y d (t : tree T) :
    (forall rnd, P rnd -> P (rnd_l rnd) /\ P (rnd_r rnd)) ->
    match x with Some l => existsb nisnan l | None => false end = false ->
    prune t <> None -> Forall (good_guess P x y d) (leaves t) -> good_guess P x y d (build t).
  Proof.
    intros HP Hx Hp. destruct (prune t) as [t'|] eqn:E; [clear Hp|congruence].
    rewrite (prune_build _ _ E), (leaves_prune _ _ E). apply prune_null_free in E. clear t.
    induction E as [m Hm|a b Ha IHa Hb IHb|a b Ha IHa Hb IHb]; cbn [leaves build].
    - rewrite (proj2 (String.eqb_neq _ _) Hm). intros F. now inversion F.
    - rewrite Forall_app. intros [F1 F2]. unfold madd. rewrite !is_null_false by now apply null_free_name.
      apply good_guess_combine; auto.
    - rewrite Forall_app. intros [F1 F2]. unfold mmul. rewrite !is_null_false by now apply null_free_name.
      apply good_guess_combine; auto.
  Qed.
End Any.

(* ---------- over the reals ---------- *)
Open Scope nat_scope.
Definition draws (rnd : nat -> XR) : Prop := forall i, exists r, rnd i = Fin r /\ (0 <= r < 1)%R.
Lemma draws_split rnd : draws rnd -> draws (rnd_l rnd) /\ draws (rnd_r rnd).
Proof. intros D. split; intros i; apply D. Qed.

Lemma uniform_fin a b rnd i : draws rnd -> exists r, uniform (Fin a) (Fin b) rnd i = Fin r.
Proof. intros D. destruct (D i) as (r & E & _). unfold uniform. rewrite E. cbn. eauto. Qed.
Lemma dec_1_1000 : @dec XR _ 1 1000 = Fin (1 / 1000).
Proof. rewrite dec_fin by discriminate. reflexivity. Qed.
Lemma uniforms_fin a b rnd n : draws rnd -> exists l, uniforms (Fin a) (Fin b) rnd n = fins l /\ length l = n.
Proof.
  intros D. unfold uniforms.
  cut (exists l, map (uniform (Fin a) (Fin b) rnd) (seq 0 n) = fins l /\ length l = length (seq 0 n));
    [now rewrite seq_length|].
  induction (seq 0 n) as [|i s IH].
  - exists []. split; reflexivity.
  - destruct (uniform_fin a b rnd i D) as (r & E). destruct IH as (l & El & Ll).
    exists (r :: l). cbn [map length]. rewrite E, El. split; [reflexivity|]. cbn. now rewrite Ll.
Qed.

Lemma default_within l n : length l = n ->
  entries_within (fins l) (mkBounds (repeat nninf n) (repeat npinf n) false).
Proof.
  intros L. repeat split; cbn [b_lo b_hi]; try (unfold fins; now rewrite map_length, repeat_length);
    rename H into E1, H0 into E2, H1 into E3; unfold fins in E1; apply nth_error_In in E1, E2, E3;
    apply in_map_iff in E1 as (r & <- & _); apply repeat_spec in E2, E3; subst; reflexivity.
Qed.

(* data: real values, one per sample *)
Definition series (xs ys : list R) (od : option (list Z)) : Prop :=
  length ys = length xs /\ match od with Some d => length d = length xs | None => True end.

Lemma no_nan_fins l : existsb nisnan (fins l) = false.
Proof. apply map_fin_no_nan. Qed.
Lemma init_fins i xs y d mult rnd :
  init_validated i (Some (fins xs)) y d mult rnd = i (Some (fins xs)) y d mult rnd.
Proof. unfold init_validated. now rewrite no_nan_fins. Qed.

Lemma filter_not_nan l : filter (fun a => negb (nisnan a)) (fins l) = fins l.
Proof. induction l as [|a l IH]; [reflexivity|]. cbn. f_equal. exact IH. Qed.

(* n_unique over the reals = number of distinct entries *)
Lemma n_unique_fins l : n_unique (fins l) = length (dedup Reqb l).
Proof.
  unfold n_unique, dedup.
  assert (G : forall l seen, dedup_aux neqb (fins seen) (fins l) = fins (dedup_aux Reqb seen l)).
  { clear. induction l as [|a l IH]; intros seen; [reflexivity|]. cbn [fins map dedup_aux].
    assert (E : existsb (neqb (Fin a)) (fins seen) = existsb (Reqb a) seen).
    { clear. induction seen as [|b s IH]; [reflexivity|]. cbn. unfold fins in IH. now rewrite <- IH. }
    unfold fins in *. rewrite E. destruct (existsb (Reqb a) seen); [apply IH|].
    cbn [map]. f_equal. apply (IH (a :: seen)). }
  change (length (dedup_aux neqb (fins []) (fins l)) = length (dedup_aux Reqb [] l)).
  rewrite G. unfold fins. apply map_length.
Qed.
Definition n_distinct (l : list R) : nat := length (dedup Reqb l).
Lemma dedup_aux_le {A} (eqb : A -> A -> bool) : forall l seen, length (dedup_aux eqb seen l) <= length l.
Proof.
  induction l as [|a l IH]; intros seen; cbn; [lia|].
  destruct (existsb _ _); [specialize (IH seen)|specialize (IH (a :: seen)); cbn]; lia.
Qed.
Lemma n_distinct_le l : n_distinct l <= length l.
Proof. apply dedup_aux_le. Qed.

(* np_diff, abs_diffs *)
Fixpoint rdiff (l : list R) : list R :=
  match l with a :: ((b :: _) as l') => (b - a)%R :: rdiff l' | _ => [] end.
Lemma np_diff_fins l : np_diff (fins l) = fins (rdiff l).
Proof.
  induction l as [|a [|b l] IH]; [reflexivity|reflexivity|]. cbn [fins map np_diff rdiff] in *.
  rewrite IH. reflexivity.
Qed.
Lemma rdiff_length l : length (rdiff l) = length l - 1.
Proof.
  induction l as [|a [|b l] IH]; [reflexivity|reflexivity|]. cbn [rdiff length] in *. lia.
Qed.

Lemma nlargest_in {L} k (l : list (L * XR)) a : In a (nlargest k l) -> In a l /\ nisnan (snd a) = false.
Proof.
  unfold nlargest. intros Hi.
  assert (Hi' : In a (isort (fun a b => nleb (snd b) (snd a)) (filter (fun a => negb (nisnan (snd a))) l))).
  { rewrite <- (firstn_skipn k). apply in_or_app. now left. }
  apply isort_in, filter_In in Hi' as [H1 H2]. split; [exact H1|now apply negb_true_iff].
Qed.
Lemma nlargest_length {L} k (l : list (L * XR)) :
  length (nlargest k l) = min k (length (filter (fun a => negb (nisnan (snd a))) l)).
Proof. unfold nlargest. now rewrite firstn_length, isort_length. Qed.

Lemma enum_from_app {A} (l l' : list A) i :
  enum_from i (l ++ l') = (enum_from i l ++ enum_from (i + length l) l')%list.
Proof.
  revert i. induction l as [|a l IH]; intros i; cbn; [now rewrite Nat.add_0_r|].
  rewrite IH. now rewrite Nat.add_succ_r.
Qed.
Lemma enum_from_in {A} (l : list A) i j a : In (j, a) (enum_from i l) <-> i <= j /\ nth_error l (j - i) = Some a.
Proof.
  revert i. induction l as [|b l IH]; intros i; cbn.
  - split; [contradiction|]. intros [_ E]. destruct (j - i); discriminate.
  - split.
    + intros [[= <- <-]|Hi]; [rewrite Nat.sub_diag; auto|]. apply IH in Hi as [H1 H2].
      split; [lia|]. replace (j - i) with (S (j - S i)) by lia. exact H2.
    + intros [H1 H2]. destruct (Nat.eq_dec i j) as [->|Hne].
      * rewrite Nat.sub_diag in H2. cbn in H2. left. congruence.
      * right. apply IH. split; [lia|]. replace (j - i) with (S (j - S i)) in H2 by lia. exact H2.
Qed.

Lemma abs_diffs_fins y0 ys : abs_diffs (fins (y0 :: ys)) =
  (0, XNaN) :: enum_from 1 (fins (map Rabs (rdiff (y0 :: ys)))).
Proof.
  unfold abs_diffs, enumerate. change (pd_diff (fins (y0 :: ys))) with (nnan :: np_diff (fins (y0 :: ys))).
  rewrite np_diff_fins. cbn [map enum_from]. f_equal. unfold fins. now rewrite !map_map.
Qed.
Lemma filter_enum_fins l i :
  filter (fun a : nat * XR => negb (nisnan (snd a))) (enum_from i (fins l)) = enum_from i (fins l).
Proof. revert i. induction l as [|a l IH]; intros i; [reflexivity|]. cbn. f_equal. apply IH. Qed.
Lemma enum_from_length {A} (l : list A) i : length (enum_from i l) = length l.
Proof. revert i. induction l; intros; cbn; auto. Qed.

Lemma nlargest_abs_diffs k ys : length (nlargest k (abs_diffs (fins ys))) = min k (length ys - 1).
Proof.
  rewrite nlargest_length. destruct ys as [|y0 ys]; [reflexivity|]. rewrite abs_diffs_fins.
  cbn [filter snd]. change (nisnan XNaN) with true. cbn [negb]. rewrite filter_enum_fins, enum_from_length.
  unfold fins. now rewrite !map_length, rdiff_length.
Qed.
Lemma nlargest_abs_diffs_in k ys a : In a (nlargest k (abs_diffs (fins ys))) ->
  1 <= fst a < length ys /\ exists r, snd a = Fin r.
Proof.
  intros Hi. apply nlargest_in in Hi as [Hi Hn]. destruct ys as [|y0 ys]; [destruct Hi|].
  rewrite abs_diffs_fins in Hi. destruct Hi as [<-|Hi]; [discriminate|]. destruct a as [j v].
  apply enum_from_in in Hi as [H1 H2]. cbn [fst snd].
  assert (Hl : j - 1 < length (fins (map Rabs (rdiff (y0 :: ys))))) by (apply nth_error_Some; congruence).
  unfold fins in Hl. rewrite !map_length, rdiff_length in Hl. split; [lia|].
  apply nth_error_In in H2. apply in_map_iff in H2 as (r & <- & _). eauto.
Qed.
Lemma largest1_abs_diffs ys : 2 <= length ys ->
  exists j r, largest1 (abs_diffs (fins ys)) = Ok (j, Fin r) /\ 1 <= j < length ys.
Proof.
  intros L. unfold largest1. pose proof (nlargest_abs_diffs 1 ys) as N.
  destruct (nlargest 1 (abs_diffs (fins ys))) as [|[j v] l] eqn:E; [cbn [length] in N; lia|].
  destruct (nlargest_abs_diffs_in 1 ys (j, v)) as [B (r & Er)]; [rewrite E; now left|].
  cbn in B, Er. subst. exists j, r. auto.
Qed.

Lemma at_pos_fins l i : i < length l -> exists r, at_pos (fins l) i = Ok (Fin r) /\ nth_error l i = Some r.
Proof.
  intros L. unfold at_pos, fins. rewrite nth_error_map. destruct (nth_error l i) as [r|] eqn:E; cbn; [eauto|].
  apply nth_error_None in E. lia.
Qed.
Lemma at_neg_fins l i : 1 <= i <= length l -> exists r, at_neg (fins l) i = Ok (Fin r) /\ nth_error l (length l - i) = Some r.
Proof.
  intros L. unfold at_neg. assert (length (fins l) = length l) as -> by apply map_length.
  rewrite (proj2 (Nat.leb_le _ _)) by lia. apply at_pos_fins. lia.
Qed.

(* What is shown about a model m and a series: the bounds have the right size; for all draws the
   guess has the right size, and (under C) it lies within the bounds. *)
Definition leaf_fact (C : bool -> Prop) x y d (m : fmodel XR) : Prop :=
  exists b, fm_bounds m x y d = Ok b /\ length (b_lo b) = fm_n m /\ length (b_hi b) = fm_n m /\
    forall mult rnd, exists p, fm_init m x y d mult rnd = Ok p /\ length p = fm_n m /\
      (C mult -> draws rnd -> entries_within p b).
Definition always (_ : bool) := True.

Lemma leaf_sized C x y d m : leaf_fact C x y d m -> init_sized x y d m /\ bounds_sized x y d m.
Proof.
  intros (b & E & L1 & L2 & G). split.
  - intros mult rnd. destruct (G mult rnd) as (p & Ep & Lp & _). eauto.
  - exists b. auto.
Qed.
Lemma leaf_good (C : bool -> Prop) x y d m : leaf_fact C x y d m -> (forall mult, C mult) ->
  good_guess draws x y d m.
Proof.
  intros (b & E & L1 & L2 & G) HC mult rnd D. destruct (G mult rnd) as (p & Ep & Lp & W).
  exists p, b. auto.
Qed.

Lemma uniforms_length {T} `{NumOps T} (a b : T) rnd n : length (uniforms a b rnd n) = n.
Proof. unfold uniforms. now rewrite map_length, seq_length. Qed.

(* default guess and default bounds *)
Lemma leaf_default xs y d (m : fmodel XR) name n f vals cvars dcache :
  m = mk_model name n f None None vals cvars dcache -> leaf_fact always (Some (fins xs)) y d m.
Proof.
  intros ->. exists (mkBounds (repeat nninf n) (repeat npinf n) false).
  cbn [fm_bounds fm_n fm_init mk_model b_lo b_hi]. rewrite !repeat_length.
  split; [reflexivity|]. repeat split. intros mult rnd. rewrite init_fins.
  unfold init_default. eexists. split; [reflexivity|]. rewrite uniforms_length. split; [reflexivity|].
  intros _ D. rewrite dec_1_1000, n1_fin. destruct (uniforms_fin (1 / 1000) 1 rnd n D) as (l & -> & L).
  now apply default_within.
Qed.
(* own guess, default bounds: enough that the guess has the right size and is real *)
Lemma leaf_init (C : bool -> Prop) xs y d (m : fmodel XR) name n f i vals cvars dcache :
  m = mk_model name n f (Some i) None vals cvars dcache ->
  (forall mult rnd, exists p, i (Some (fins xs)) y d mult rnd = Ok p /\ length p = n /\
      (C mult -> draws rnd -> exists l, p = fins l)) ->
  leaf_fact C (Some (fins xs)) y d m.
Proof.
  intros -> G. exists (mkBounds (repeat nninf n) (repeat npinf n) false).
  cbn [fm_bounds fm_n fm_init mk_model b_lo b_hi]. rewrite !repeat_length.
  split; [reflexivity|]. repeat split. intros mult rnd. rewrite init_fins.
  destruct (G mult rnd) as (p & E & L & W). exists p. split; [exact E|]. split; [exact L|].
  intros HC D. destruct (W HC D) as (l & ->). apply default_within. unfold fins in L. now rewrite map_length in L.
Qed.

Lemma fins_length l : length (fins l) = length l.
Proof. apply map_length. Qed.
Lemma INR_IZR n : (0 < n)%nat -> IZR (Z.of_nat n) <> 0%R.
Proof. intros L. apply not_0_IZR. lia. Qed.

Lemma leaf_constant xs ys d : 1 <= length ys ->
  leaf_fact always (Some (fins xs)) (Some (fins ys)) d model_constant.
Proof.
  intros L. eapply leaf_init; [reflexivity|]. intros mult rnd. cbn [init_constant].
  eexists. split; [reflexivity|]. split; [reflexivity|]. intros _ D.
  unfold nanmean. rewrite filter_not_nan, fins_length. unfold fins at 1. rewrite nsum_fin, ofZ_fin.
  rewrite div_fin by (apply INR_IZR; lia).
  rewrite n0_fin, n1_fin. destruct (uniform_fin 0 1 rnd 0 D) as (r & ->). cbn. eexists [_]. reflexivity.
Qed.

Lemma at_neg1_fins ys : 1 <= length ys -> exists r, at_neg (fins ys) 1 = Ok (Fin r).
Proof. intros L. destruct (at_neg_fins ys 1 ltac:(lia)) as (r & E & _). eauto. Qed.
Lemma at_pos0_fins ys : 1 <= length ys -> exists r, at_pos (fins ys) 0 = Ok (Fin r).
Proof. intros L. destruct (at_pos_fins ys 0 ltac:(lia)) as (r & E & _). eauto. Qed.

Lemma init_linear_ok xs ys d mult rnd : 1 <= length ys ->
  exists a b, init_linear (Some (fins xs)) (Some (fins ys)) d mult rnd = Ok [a; Fin b] /\
    (2 <= n_distinct xs -> exists r, a = Fin r).
Proof.
  intros L. unfold init_linear. destruct (at_neg1_fins ys L) as (yl & ->). destruct (at_pos0_fins ys L) as (yf & ->).
  cbn [rbind]. do 2 eexists. split; [reflexivity|]. intros U. rewrite n_unique_fins. fold (n_distinct xs).
  rewrite sub_fin, ofZ_fin, div_fin by (apply not_0_IZR; lia). eauto.
Qed.
Lemma leaf_linear xs ys d : 1 <= length ys ->
  leaf_fact (fun _ => 2 <= n_distinct xs) (Some (fins xs)) (Some (fins ys)) d model_linear.
Proof.
  intros L. eapply leaf_init; [reflexivity|]. intros mult rnd.
  destruct (init_linear_ok xs ys d mult rnd L) as (a & b & -> & Ha). eexists. split; [reflexivity|].
  split; [reflexivity|]. intros U _. destruct (Ha U) as (r & ->). now exists [r; b].
Qed.
Lemma within_2 a b (lo1 lo2 hi1 hi2 : XR) nd :
  nleb lo1 a = true -> nleb a hi1 = true -> nleb lo2 b = true -> nleb b hi2 = true ->
  entries_within [a; b] (mkBounds [lo1; lo2] [hi1; hi2] nd).
Proof.
  intros. apply validate_iff. unfold validate_initial_guess. cbn [length b_lo b_hi Nat.eqb andb combine forallb fst snd].
  now rewrite H, H0, H1, H2.
Qed.
Lemma within_3 a b c (lo1 lo2 lo3 hi1 hi2 hi3 : XR) nd :
  nleb lo1 a = true -> nleb a hi1 = true -> nleb lo2 b = true -> nleb b hi2 = true ->
  nleb lo3 c = true -> nleb c hi3 = true ->
  entries_within [a; b; c] (mkBounds [lo1; lo2; lo3] [hi1; hi2; hi3] nd).
Proof.
  intros. apply validate_iff. unfold validate_initial_guess. cbn [length b_lo b_hi Nat.eqb andb combine forallb fst snd].
  now rewrite H, H0, H1, H2, H3, H4.
Qed.

Lemma leaf_linear_nondec xs ys d : 1 <= length ys ->
  leaf_fact (fun _ => 2 <= n_distinct xs) (Some (fins xs)) (Some (fins ys)) d model_linear_nondec.
Proof.
  intros L. eexists. cbn [fm_bounds fm_n fm_init model_linear_nondec mk_model]. split; [reflexivity|].
  repeat split. intros mult rnd. rewrite init_fins. unfold init_linear_nondec.
  destruct (init_linear_ok xs ys d false rnd L) as (a & b & -> & Ha). cbn [rbind]. eexists.
  split; [reflexivity|]. split; [reflexivity|]. intros U _. destruct (Ha U) as (r & ->).
  rewrite n0_fin. change (nltb (Fin r) (Fin 0)) with (Rltb r 0).
  destruct (Rltb_spec r 0); apply within_2; try reflexivity; cbn.
  - apply Rleb_refl.
  - destruct (Rleb_spec 0 r); [reflexivity|lra].
Qed.

Lemma leaf_decay xs ys d : 2 <= length ys ->
  leaf_fact (fun _ => Forall (fun v => 0 < v)%R ys) (Some (fins xs)) (Some (fins ys)) d model_decay.
Proof.
  intros L. eexists. cbn [fm_bounds fm_n fm_init model_decay mk_model]. split; [reflexivity|].
  repeat split. intros mult rnd. rewrite init_fins. unfold init_decay.
  destruct (at_neg1_fins ys ltac:(lia)) as (yl & ->). destruct (at_pos0_fins ys ltac:(lia)) as (yf & ->).
  cbn [rbind]. unfold np_min, np_max. rewrite no_nan_fins.
  destruct ys as [|y0 ys]; [cbn in L; lia|]. cbn [fins map py_min py_max]. rewrite nmin_fin, nmax_fin. cbn [rbind].
  eexists. split; [reflexivity|]. split; [reflexivity|]. intros P _.
  set (mn := fold_left Rmin ys y0). set (mx := fold_left Rmax ys y0).
  assert (Hmn : (0 < mn)%R).
  { pose proof (fold_min_in ys y0) as Hi. fold mn in Hi. rewrite Forall_forall in P. now apply P. }
  assert (Hle : (mn <= mx)%R).
  { pose proof (proj1 (fold_min_bound ys y0)). pose proof (proj1 (fold_max_bound ys y0)). fold mn in H. fold mx in H0. lra. }
  rewrite div_fin by lra.
  assert (Hq : (0 < mn / mx <= 1)%R).
  { split; [apply Rdiv_lt_0_compat; lra|]. apply Rmult_le_reg_r with mx; [lra|].
    unfold Rdiv. rewrite Rmult_assoc, Rinv_l by lra. lra. }
  assert (Hln : nln (Fin (mn / mx)) = Fin (ln (mn / mx))).
  { cbn. unfold xln. destruct (Reqb_spec (mn / mx) 0); [lra|]. destruct (Rltb_spec (mn / mx) 0); [lra|reflexivity]. }
  rewrite Hln, ofZ_fin, div_fin by (apply not_0_IZR; cbn [length] in *; rewrite map_length; lia).
  cbn [length]. rewrite map_length.
  assert (Hb : (ln (mn / mx) / IZR (Z.of_nat (S (length ys)) - 1) <= 0)%R).
  { assert (Hl : (ln (mn / mx) <= 0)%R).
    { destruct (Req_dec (mn / mx) 1) as [->|]; [rewrite ln_1; lra|]. left. rewrite <- ln_1. apply ln_increasing; lra. }
    assert (Hz : (0 < IZR (Z.of_nat (S (length ys)) - 1))%R) by (apply IZR_lt; cbn [length] in L; lia).
    unfold Rdiv. apply Rmult_le_reg_r with (IZR (Z.of_nat (S (length ys)) - 1)); [exact Hz|].
    rewrite Rmult_assoc, Rinv_l by lra. lra. }
  set (q := (ln (mn / mx) / IZR (Z.of_nat (S (length ys)) - 1))%R) in *. rewrite n0_fin.
  change (nltb (Fin 0) (Fin q)) with (Rltb 0 q). destruct (Rltb_spec 0 q); [lra|].
  change (neqb (Fin q) nninf) with false. cbn [orb].
  apply within_3; try reflexivity. cbn. destruct (Rleb_spec q 0); [reflexivity|lra].
Qed.

Lemma leaf_step xs ys d : 2 <= length ys ->
  leaf_fact always (Some (fins xs)) (Some (fins ys)) d model_step.
Proof.
  intros L. eapply leaf_init; [reflexivity|]. intros mult rnd. unfold init_step.
  destruct (largest1_abs_diffs ys L) as (j & r & -> & _). cbn [rbind]. eexists. split; [reflexivity|].
  split; [reflexivity|]. intros _ _. now eexists [_; _].
Qed.
Lemma leaf_step_date xs ys d t : 2 <= length ys ->
  leaf_fact always (Some (fins xs)) (Some (fins ys)) d (get_model_step_date t).
Proof.
  intros L. eapply leaf_init; [reflexivity|]. intros mult rnd. unfold init_step_date.
  destruct (largest1_abs_diffs ys L) as (j & r & -> & _). cbn [rbind]. eexists. split; [reflexivity|].
  split; [reflexivity|]. intros _ _. now eexists [_].
Qed.
Lemma py_max_fins l : l <> [] -> exists r, py_max (fins l) = Ok (Fin r) /\ In r l.
Proof.
  destruct l as [|a l]; [contradiction|]. intros _. cbn [fins map py_max]. rewrite nmax_fin.
  eexists. split; [reflexivity|]. apply fold_max_in.
Qed.
Lemma py_min_fins l : l <> [] -> exists r, py_min (fins l) = Ok (Fin r) /\ In r l.
Proof.
  destruct l as [|a l]; [contradiction|]. intros _. cbn [fins map py_min]. rewrite nmin_fin.
  eexists. split; [reflexivity|]. apply fold_min_in.
Qed.
Lemma rdiff_nonempty ys : 2 <= length ys -> rdiff ys <> [].
Proof. intros L E. apply (f_equal (@length R)) in E. rewrite rdiff_length in E. cbn in E. lia. Qed.
Lemma leaf_spike_date xs ys d t0 t1 : 2 <= length ys ->
  leaf_fact always (Some (fins xs)) (Some (fins ys)) d (get_model_spike_date t0 t1).
Proof.
  intros L. eapply leaf_init; [reflexivity|]. intros mult rnd. unfold init_spike_date.
  rewrite np_diff_fins. destruct (py_max_fins _ (rdiff_nonempty ys L)) as (r & -> & _). cbn [rbind].
  eexists. split; [reflexivity|]. split; [reflexivity|]. intros _ _. now exists [r].
Qed.
Lemma find_index_some (f : XR -> bool) l i : (exists a, In a l /\ f a = true) -> exists j, find_index f i l = Some j.
Proof.
  revert i. induction l as [|b l IH]; intros i (a & Hi & Hf); [destruct Hi|]. cbn.
  destruct (f b) eqn:E; [eauto|]. apply IH. destruct Hi as [->|Hi]; [congruence|eauto].
Qed.
Lemma find_index_none (f : XR -> bool) l i : existsb f l = false -> find_index f i l = None.
Proof.
  revert i. induction l as [|b l IH]; intros i E; [reflexivity|]. cbn in *. apply orb_false_iff in E as [-> E]. auto.
Qed.
Lemma leaf_spike xs ys d : 2 <= length ys ->
  leaf_fact always (Some (fins xs)) (Some (fins ys)) d model_spike.
Proof.
  intros L. eapply leaf_init; [reflexivity|]. intros mult rnd. unfold init_spike.
  rewrite np_diff_fins. pose proof (rdiff_nonempty ys L) as Hn.
  unfold np_argmax. rewrite (find_index_none nisnan) by apply no_nan_fins.
  destruct (rdiff ys) as [|a l]; [contradiction|]. cbn [fins map py_max rbind]. rewrite nmax_fin.
  destruct (find_index_some (fun x => neqb x (Fin (fold_left Rmax l a))) (fins (a :: l)) 0) as (j & Ej).
  { exists (Fin (fold_left Rmax l a)). split; [apply in_map, fold_max_in|apply Reqb_refl]. }
  cbn [fins map] in Ej. rewrite Ej. cbn [rbind]. eexists. split; [reflexivity|]. split; [reflexivity|].
  intros _ _. now eexists [_; _; _].
Qed.
Lemma leaf_two_steps xs ys d : 3 <= length ys ->
  leaf_fact always (Some (fins xs)) (Some (fins ys)) d model_two_steps.
Proof.
  intros L. eapply leaf_init; [reflexivity|]. intros mult rnd. unfold init_n_steps.
  pose proof (nlargest_abs_diffs 2 ys) as N. rewrite N.
  replace (Nat.min 2 (length ys - 1)) with 2 in * by lia. cbn [Nat.eqb].
  pose proof (nlargest_abs_diffs_in 2 ys) as F.
  destruct (nlargest 2 (abs_diffs (fins ys))) as [|[i u] [|[j v] [|]]]; try discriminate N.
  destruct (F (i, u)) as [_ (r & Er)]; [now left|]. destruct (F (j, v)) as [_ (r' & Er')]; [right; now left|].
  cbn [snd] in Er, Er'. subst. eexists. split; [reflexivity|]. split; [reflexivity|].
  intros _ _. now eexists [_; _; _; _].
Qed.
Lemma leaf_sigmoid_step xs ys d : 2 <= length ys -> 1 <= length xs ->
  leaf_fact (fun _ => False) (Some (fins xs)) (Some (fins ys)) d model_sigmoid_step.
Proof.
  intros L Lx. destruct (py_max_fins ys) as (mx & Emx & _); [destruct ys; [cbn in L; lia|discriminate]|].
  destruct (py_min_fins ys) as (mn & Emn & _); [destruct ys; [cbn in L; lia|discriminate]|].
  destruct (py_max_fins xs) as (xx & Exx & _); [destruct xs; [cbn in Lx; lia|discriminate]|].
  destruct (py_min_fins xs) as (xn & Exn & _); [destruct xs; [cbn in Lx; lia|discriminate]|].
  eexists. cbn [fm_bounds fm_n fm_init model_sigmoid_step mk_model bounds_sigmoid_step].
  rewrite Emx, Emn, Exx, Exn. cbn [rbind]. split; [reflexivity|]. repeat split. intros mult rnd.
  rewrite init_fins. unfold init_sigmoid_step. destruct (largest1_abs_diffs ys L) as (j & r & -> & Hj).
  cbn [rbind]. destruct (at_pos_fins ys j ltac:(lia)) as (b & -> & _). cbn [rbind]. eexists.
  split; [reflexivity|]. split; [reflexivity|]. contradiction.
Qed.
Lemma leaf_fourier xs ys d : 1 <= length ys ->
  leaf_fact always (Some (fins xs)) (Some (fins ys)) d model_season_fourier_yearly.
Proof.
  intros L. eexists. cbn [fm_bounds fm_n fm_init model_season_fourier_yearly mk_model].
  split; [reflexivity|]. repeat split. intros mult rnd. rewrite init_fins. unfold init_fourier, np_max, np_min.
  rewrite no_nan_fins. destruct (py_max_fins ys) as (mx & -> & _); [destruct ys; [cbn in L; lia|discriminate]|].
  destruct (py_min_fins ys) as (mn & -> & _); [destruct ys; [cbn in L; lia|discriminate]|]. cbn [rbind].
  eexists. split; [reflexivity|]. rewrite map_length, uniforms_length. split; [reflexivity|]. intros _ D.
  rewrite dec_1_1000, n1_fin. destruct (uniforms_fin (1 / 1000) 1 rnd 20 D) as (l & -> & Ll).
  unfold fins. rewrite map_map. cbn [nsub nmul XROps xsub xmul xadd xopp].
  rewrite <- map_map with (g := Fin) (f := fun x => _). apply default_within. now rewrite map_length.
Qed.
Lemma leaf_month xs ys d : match d with Some l => length l = length ys | None => True end ->
  leaf_fact (fun mult => match d with
     | None => True
     | Some l => (forall i, (1 <= i <= 12)%Z -> exists t, In t l /\ month t = i) /\
                 (mult = true -> month_mean (fins ys) l 12 <> Fin 0)
     end) (Some (fins xs)) (Some (fins ys)) d model_season_month.
Proof.
  intros L. eapply leaf_init; [reflexivity|]. intros mult rnd. unfold init_season_month. destruct d as [l|].
  - rewrite fins_length, (proj2 (Nat.eqb_eq _ _)) by lia. eexists. split; [reflexivity|].
    rewrite !map_length, seq_length. split; [reflexivity|]. intros [HM HB] D.
    assert (F : forall i, (1 <= i <= 12)%Z -> exists r, month_mean (fins ys) l i = Fin r).
    { intros i Hi. destruct (HM i Hi) as (t & Ht & Mt). unfold month_mean, np_mean.
      assert (E : exists vs, map fst (filter (fun yt => (month (snd yt) =? i)%Z) (combine (fins ys) l)) = fins vs).
      { clear. revert l. induction ys as [|y ys IH]; intros [|t l]; try (now exists []).
        destruct (IH l) as (vs & E). cbn [fins map combine filter snd]. destruct (month t =? i)%Z.
        - exists (y :: vs). cbn [map fst]. unfold fins in *. now rewrite E.
        - exists vs. exact E. }
      destruct E as (vs & E).
      assert (Hv : vs <> []).
      { intros ->. apply In_nth_error in Ht as (k & Ek).
        assert (Hk : k < length ys) by (rewrite <- L; apply nth_error_Some; congruence).
        destruct (nth_error ys k) as [y|] eqn:Ey; [|apply nth_error_None in Ey; lia].
        assert (Hc : In (Fin y, t) (combine (fins ys) l)).
        { clear - Ek Ey. revert l k Ek Ey. induction ys as [|y0 ys IH]; intros [|t0 l] [|k] Ek Ey; try discriminate; cbn in *.
          - left. congruence.
          - right. eapply IH; eauto. }
        assert (Hin : In (Fin y) (map fst (filter (fun yt => (month (snd yt) =? i)%Z) (combine (fins ys) l)))).
        { apply in_map_iff. exists (Fin y, t). split; [reflexivity|]. apply filter_In. split; [exact Hc|].
          cbn. now apply Z.eqb_eq. }
        rewrite E in Hin. destruct Hin. }
      rewrite E. rewrite fins_length. unfold fins. rewrite nsum_fin. unfold nnat. rewrite ofZ_fin.
      destruct vs as [|v vs]; [contradiction|].
      rewrite div_fin by (apply INR_IZR; cbn; lia). eauto. }
    destruct (F 12%Z ltac:(lia)) as (base & Eb). rewrite Eb in *.
    assert (G : forall i, (1 <= i <= 11)%nat -> exists r,
      (if mult then ndiv (month_mean (fins ys) l (Z.of_nat i)) (Fin base)
       else nsub (month_mean (fins ys) l (Z.of_nat i)) (Fin base)) = Fin r).
    { intros i Hi. destruct (F (Z.of_nat i) ltac:(lia)) as (r & ->). destruct mult.
      - rewrite div_fin by (intros ->; now apply HB). eauto.
      - cbn. eauto. }
    clear - G. rewrite map_map. assert (S : forall i, In i (seq 1 11) -> 1 <= i <= 11)
      by (intros i Hi; apply in_seq in Hi; lia). revert S. generalize (seq 1 11) as s.
    induction s as [|i s IH]; intros S; [now exists []|]. cbn [map].
    destruct (G i (S i (or_introl eq_refl))) as (r & ->). destruct IH as (l' & ->); [intros; apply S; now right|].
    now exists (r :: l').
  - eexists. split; [reflexivity|]. rewrite uniforms_length. split; [reflexivity|]. intros _ D.
    rewrite ofZ_fin, n1_fin. destruct (uniforms_fin (IZR (-1)) 1 rnd 11 D) as (l & -> & _). eauto.
Qed.

(* ---- ramp ---- *)
Lemma skip15_spec n : 4 <= n -> 1 <= skip15 n /\ Nat.max 2 (skip15 n) < n - skip15 n.
Proof. unfold skip15. intros L. pose proof (Nat.div_mod (15 * n + 99) 100 ltac:(lia)). pose proof (Nat.mod_upper_bound (15 * n + 99) 100 ltac:(lia)). lia. Qed.

Lemma pd_diff2_fins (y0 y1 : R) ys :
  map nabs (pd_diff (pd_diff (fins (y0 :: y1 :: ys)))) =
  XNaN :: XNaN :: fins (map Rabs (rdiff (rdiff (y0 :: y1 :: ys)))).
Proof.
  change (pd_diff (fins (y0 :: y1 :: ys))) with (XNaN :: np_diff (fins (y0 :: y1 :: ys))).
  rewrite np_diff_fins. change (rdiff (y0 :: y1 :: ys)) with ((y1 - y0)%R :: rdiff (y1 :: ys)).
  set (l := rdiff (y1 :: ys)). change (fins ((y1 - y0)%R :: l)) with (Fin (y1 - y0) :: map Fin l).
  change (pd_diff (XNaN :: Fin (y1 - y0) :: map Fin l)) with
    (XNaN :: XNaN :: np_diff (fins ((y1 - y0)%R :: l))).
  rewrite np_diff_fins. cbn [map]. change (nabs XNaN) with XNaN. do 2 f_equal.
  unfold fins. now rewrite !map_map.
Qed.

(* the slice of inner positions *)
Lemma inner_nth {A} k (l : list A) j a : nth_error (tail_neg k (head_neg k l)) j = Some a <->
  k + j < length l - k /\ nth_error l (k + j) = Some a.
Proof.
  unfold tail_neg, head_neg.
  assert (E : nth_error (skipn k (firstn (length l - k) l)) j = nth_error (firstn (length l - k) l) (k + j)).
  { generalize (firstn (length l - k) l) as m. clear. induction k as [|k IH]; intros m; [reflexivity|].
    destruct m as [|a m]; [destruct j; reflexivity|]. cbn. apply IH. }
  rewrite E. clear E. generalize (k + j) as i, (length l - k) as n. clear. intros i n. revert i l.
  induction n as [|n IH]; intros i l; cbn.
  - split; [destruct i; discriminate|intros [H _]; lia].
  - destruct l as [|b l]; [split; [destruct i; discriminate|intros [_ E]; destruct i; discriminate]|].
    destruct i as [|i]; cbn; [split; [intros E; split; [lia|exact E]|tauto]|]. rewrite IH. split; intros [? ?]; split; auto; lia.
Qed.

Lemma nth_error_combine {A B} : forall (l : list A) (l' : list B) i a b,
  nth_error (combine l l') i = Some (a, b) <-> nth_error l i = Some a /\ nth_error l' i = Some b.
Proof.
  induction l as [|x l IH]; intros [|y l'] [|i] a b; cbn; split; try discriminate; try tauto;
    try (intros [? ?]; congruence); try (intros [= <- <-]; auto); apply IH.
Qed.

(* choice of the ramp start among real points *)
Lemma ramp_choice (pts : list (R * R)) : 4 <= length pts ->
  exists i a b,
    largest1 (tail_neg (skip15 (length pts)) (head_neg (skip15 (length pts))
      (combine (map Fin (map fst pts)) (map nabs (pd_diff (pd_diff (map Fin (map snd pts)))))))) = Ok (Fin a, Fin b) /\
    nth_error (map fst pts) i = Some a /\
    skip15 (length pts) <= i < length pts - skip15 (length pts).
Proof.
  intros L. set (k := skip15 (length pts)). destruct (skip15_spec _ L) as [K1 K2]. fold k in K1, K2.
  set (xs := map fst pts). set (ys := map snd pts).
  assert (Lx : length xs = length pts) by apply map_length. assert (Ly : length ys = length pts) by apply map_length.
  clearbody xs ys. fold (fins xs). fold (fins ys).
  destruct ys as [|y0 [|y1 ys]]; [cbn in Ly; lia|cbn in Ly; lia|]. rewrite pd_diff2_fins.
  set (d2 := map Rabs (rdiff (rdiff (y0 :: y1 :: ys)))).
  assert (Ld : length d2 = length pts - 2).
  { subst d2. rewrite map_length, !rdiff_length. lia. }
  clearbody d2. set (full := combine (fins xs) (XNaN :: XNaN :: fins d2)).
  assert (Lf : length full = length pts).
  { subst full. rewrite combine_length, fins_length. cbn [length]. rewrite fins_length. lia. }
  unfold largest1.
  assert (Ne : exists p, In p (filter (fun a => negb (nisnan (snd a))) (tail_neg k (head_neg k full)))).
  { set (i := Nat.max 2 k). assert (Hi : 2 <= i /\ k <= i < length pts - k) by lia. clearbody i. destruct (nth_error xs i) as [x|] eqn:Ex; [|apply nth_error_None in Ex; lia].
    destruct (nth_error d2 (i - 2)) as [v|] eqn:Ev; [|apply nth_error_None in Ev; lia].
    exists (Fin x, Fin v). apply filter_In. split; [|reflexivity].
    apply (nth_error_In _ (i - k)). apply inner_nth. rewrite Lf. split; [lia|].
    replace (k + (i - k)) with i by lia. subst full. apply nth_error_combine. split.
    - unfold fins. now rewrite nth_error_map, Ex.
    - replace i with (S (S (i - 2))) by lia. cbn [nth_error]. unfold fins. now rewrite nth_error_map, Ev. }
  pose proof (nlargest_length 1 (tail_neg k (head_neg k full))) as N.
  destruct (nlargest 1 (tail_neg k (head_neg k full))) as [|[a v] rest] eqn:E.
  { exfalso. destruct Ne as (p & Hp). apply In_nth_error in Hp as (q & Hq).
    assert (q < length (filter (fun a => negb (nisnan (snd a))) (tail_neg k (head_neg k full)))) by (apply nth_error_Some; congruence).
    cbn [length] in N. lia. }
  destruct (nlargest_in 1 (tail_neg k (head_neg k full)) (a, v)) as [Hi Hn]; [rewrite E; now left|].
  apply In_nth_error in Hi as (j & Hj). apply inner_nth in Hj as [J1 J2]. subst full.
  apply nth_error_combine in J2 as [J2 J3]. unfold fins in J2. rewrite nth_error_map in J2.
  destruct (nth_error xs (k + j)) as [x|] eqn:Ex; [|discriminate]. cbn in J2. injection J2 as <-.
  cbn [snd] in Hn.
  assert (exists r, v = Fin r) as (r & ->).
  { destruct (k + j) as [|[|q]]; cbn in J3; try (injection J3 as <-; discriminate Hn). unfold fins in J3. rewrite nth_error_map in J3.
    destruct (nth_error d2 q); [|discriminate]. cbn in J3. injection J3 as <-. eauto. }
  exists (k + j), x, r. split; [reflexivity|]. split; [exact Ex|]. rewrite <- Lf. split; lia.
Qed.

(* drop_duplicates('x') on real points *)
Definition same_x (p q : R * R) : bool := Reqb (fst p) (fst q).
Lemma dedup_points : forall (pts : list (R * R)) seen,
  dedup_aux (fun a b : XR * XR => neqb (fst a) (fst b)) (map (fun p => (Fin (fst p), Fin (snd p))) seen)
    (map (fun p => (Fin (fst p), Fin (snd p))) pts) =
  map (fun p => (Fin (fst p), Fin (snd p))) (dedup_aux same_x seen pts).
Proof.
  induction pts as [|a pts IH]; intros seen; [reflexivity|]. cbn [map dedup_aux].
  assert (E : existsb (fun b : XR * XR => neqb (fst (Fin (fst a), Fin (snd a))) (fst b))
    (map (fun p => (Fin (fst p), Fin (snd p))) seen) = existsb (same_x a) seen).
  { clear. induction seen as [|b s IH]; [reflexivity|]. cbn [map existsb]. rewrite IH. reflexivity. }
  rewrite E. destruct (existsb (same_x a) seen); [apply IH|]. cbn [map]. f_equal. apply (IH (a :: seen)).
Qed.
Lemma dedup_points_length : forall (pts : list (R * R)) seen,
  length (dedup_aux same_x seen pts) = length (dedup_aux Reqb (map fst seen) (map fst pts)).
Proof.
  induction pts as [|a pts IH]; intros seen; [reflexivity|]. cbn [map dedup_aux].
  assert (E : existsb (same_x a) seen = existsb (Reqb (fst a)) (map fst seen)).
  { clear. induction seen as [|b s IH]; [reflexivity|]. cbn. now rewrite IH. }
  rewrite E. destruct (existsb _ (map fst seen)); [apply IH|]. cbn [length]. f_equal. apply (IH (a :: seen)).
Qed.
Lemma combine_fins xs ys : combine (fins xs) (fins ys) =
  map (fun p => (Fin (fst p), Fin (snd p))) (combine xs ys).
Proof. unfold fins. revert ys. induction xs as [|x xs IH]; intros [|y ys]; cbn; auto. now rewrite IH. Qed.
Lemma map_fst_combine {A B} (l : list A) (l' : list B) : length l = length l' -> map fst (combine l l') = l.
Proof. revert l'. induction l as [|a l IH]; intros [|b l'] L; try discriminate; cbn; auto. f_equal. auto. Qed.

Lemma rsorted_nth (l : list R) : StronglySorted Rlt l -> forall i j a b, i <= j ->
  nth_error l i = Some a -> nth_error l j = Some b -> (a <= b)%R.
Proof.
  induction 1 as [|x l S IH F]; intros i j a b Hij Ea Eb; [destruct i; discriminate|].
  destruct i as [|i], j as [|j]; cbn in *; try lia.
  - assert (a = b) by congruence. lra.
  - injection Ea as <-. apply nth_error_In in Eb. rewrite Forall_forall in F. specialize (F _ Eb). lra.
  - apply (IH i j a b); auto; lia.
Qed.
Lemma dedup_increasing (l : list R) : StronglySorted Rlt l -> dedup Reqb l = l.
Proof.
  intros S. unfold dedup.
  assert (G : forall seen, (forall a b, In a seen -> In b l -> (a < b)%R) -> dedup_aux Reqb seen l = l).
  { induction S as [|x l S IH F]; intros seen Hs; [reflexivity|]. cbn.
    assert (existsb (Reqb x) seen = false) as ->.
    { apply not_true_iff_false. rewrite existsb_exists. intros (y & Hy & E).
      destruct (Reqb_spec x y); [|discriminate]. subst. specialize (Hs y y Hy (or_introl eq_refl)). lra. }
    f_equal. apply IH. intros a b [<-|Ha] Hb; [rewrite Forall_forall in F; auto|apply Hs; auto; now right]. }
  apply G. intros a b [].
Qed.
Lemma leaf_ramp xs ys d : length xs = length ys -> 4 <= n_distinct xs ->
  leaf_fact (fun _ => StronglySorted Rlt xs) (Some (fins xs)) (Some (fins ys)) d model_ramp.
Proof.
  intros Le U. pose proof (n_distinct_le xs) as Ux.
  destruct (skip15_spec (length xs) ltac:(lia)) as [K1 K2].
  destruct (at_pos_fins xs (skip15 (length xs)) ltac:(lia)) as (lo & Elo & Nlo).
  destruct (at_neg_fins xs (skip15 (length xs)) ltac:(lia)) as (hi & Ehi & Nhi).
  eexists. cbn [fm_bounds fm_n fm_init model_ramp mk_model bounds_ramp].
  rewrite fins_length, Elo. cbn [rbind]. destruct (Nat.eqb_spec (skip15 (length xs)) 0) as [E0|_]; [lia|].
  rewrite Ehi. cbn [rbind]. split; [reflexivity|]. repeat split. intros mult rnd. rewrite init_fins.
  unfold init_ramp. rewrite !fins_length, Le, Nat.eqb_refl. cbn [rbind].
  unfold dedup_key, dedup. rewrite combine_fins.
  change (@nil (XR * XR)) with (map (fun p : R * R => (Fin (fst p), Fin (snd p))) []).
  rewrite dedup_points. set (pts := dedup_aux same_x [] (combine xs ys)).
  assert (Lp : length pts = n_distinct xs).
  { subst pts. rewrite dedup_points_length, map_fst_combine by exact Le. reflexivity. }
  rewrite map_length, !map_map. cbn [fst snd].
  destruct (ramp_choice pts ltac:(lia)) as (i & a & b & E & Ni & Bi).
  rewrite !map_map in E. rewrite E. cbn [rbind]. eexists. split; [reflexivity|]. split; [reflexivity|].
  intros S _. assert (Hp : map fst pts = xs).
  { assert (Hd : dedup_aux same_x [] (combine xs ys) = combine xs ys).
    { assert (G : forall l seen, length (dedup_aux same_x seen l) = length l -> dedup_aux same_x seen l = l).
      { clear. induction l as [|a l IH]; intros seen E; [reflexivity|]. cbn in *. destruct (existsb _ _).
        - pose proof (dedup_aux_le same_x l seen). lia.
        - f_equal. apply IH. cbn in E. lia. }
      apply G. fold pts. rewrite Lp. unfold n_distinct. rewrite dedup_increasing by exact S.
      rewrite combine_length. lia. }
    subst pts. rewrite Hd. now apply map_fst_combine. }
  assert (Lpx : length pts = length xs) by (rewrite <- Hp; symmetry; apply map_length).
  rewrite Lpx in Bi. rewrite Hp in Ni. rewrite Le in *.
  apply within_2; try reflexivity; cbn.
  - destruct (Rleb_spec lo a); [reflexivity|]. exfalso.
    assert (lo <= a)%R by (apply (rsorted_nth xs S (skip15 (length ys)) i); auto; lia). lra.
  - destruct (Rleb_spec a hi); [reflexivity|]. exfalso.
    assert (a <= hi)%R by (apply (rsorted_nth xs S i (length ys - skip15 (length ys))); auto; lia). lra.
Qed.

(* ---- the shipped models ---- *)
Definition shipped (m : fmodel XR) : Prop :=
  In m [model_null; model_constant; model_linear; model_linear_nondec; model_quasilinear; model_exp;
        model_decay; model_step; model_two_steps; model_sigmoid_step; model_sigmoid; model_ramp;
        model_spike; model_season_wday; model_season_month; model_season_month_old;
        model_season_fourier_yearly] \/
  (exists t, m = get_model_step_date t) \/ (exists t0 t1, m = get_model_spike_date t0 t1) \/
  (exists name dm, get_model_dummy name dm = Ok m) \/
  (exists cals name, get_model_from_calendars cals name = Ok m) \/
  (exists name args, get_model_from_datelist name args = Ok m).

Lemma get_model_dummy_shape name (dm : dummy XR) m : get_model_dummy name dm = Ok m ->
  exists f, m = dummy_model_of name f.
Proof.
  unfold get_model_dummy. destruct (get_f_dummy dm) as [f|]; [|discriminate]. cbn [rbind].
  destruct (validate_f_dummy f); [|discriminate]. cbn. intros [= <-]. eauto.
Qed.
Lemma leaf_neutral xs y d m name n f vals cvars dcache :
  m = mk_model name n f (Some (init_neutral n)) None vals cvars dcache -> leaf_fact always (Some (fins xs)) y d m.
Proof.
  intros E. eapply leaf_init; [exact E|]. intros mult rnd. unfold init_neutral. eexists. split; [reflexivity|].
  rewrite repeat_length. split; [reflexivity|]. intros _ _. rewrite ofbool_fin. exists (repeat (rbool mult) n).
  clear. induction n; cbn; [reflexivity|]. unfold fins in IHn. now rewrite IHn.
Qed.
Lemma leaf_calendars xs y d m cals name : get_model_from_calendars (T:=XR) cals name = Ok m ->
  leaf_fact always (Some (fins xs)) y d m.
Proof.
  unfold get_model_from_calendars. destruct (filter _ cals) as [|c0 l]; [discriminate|].
  destruct (rmapM _ (c0 :: l)) as [ms|]; [|discriminate]. cbn [rbind]. intros [= <-].
  eapply leaf_neutral. reflexivity.
Qed.
Lemma leaf_datelist xs y d m name args : get_model_from_datelist (T:=XR) name args = Ok m ->
  leaf_fact always (Some (fins xs)) y d m.
Proof.
  unfold get_model_from_datelist. destruct (rmapM _ args) as [[|m0 ms]|]; [discriminate| |discriminate]. cbn [rbind].
  intros [= <-]. eapply leaf_neutral. reflexivity.
Qed.
Lemma leaf_weaken (C C' : bool -> Prop) x y d m : (forall b, C' b -> C b) -> leaf_fact C x y d m -> leaf_fact C' x y d m.
Proof.
  intros HC (b & E & L1 & L2 & G). exists b. repeat split; auto. intros mult rnd.
  destruct (G mult rnd) as (p & Ep & Lp & W). exists p. auto.
Qed.

Lemma shipped_sized xs ys d m : series xs ys d -> 4 <= n_distinct xs -> shipped m ->
  init_sized (Some (fins xs)) (Some (fins ys)) d m /\ bounds_sized (Some (fins xs)) (Some (fins ys)) d m.
Proof.
  intros [Ly Ld] U Hm. pose proof (n_distinct_le xs) as Ux.
  destruct Hm as [Hm|[(t & ->)|[(t0 & t1 & ->)|[(name & dm & E)|[(cals & name & E)|(name & args & E)]]]]].
  - repeat destruct Hm as [<-|Hm]; try destruct Hm.
    + eapply leaf_sized, leaf_default. reflexivity.
    + eapply leaf_sized, leaf_constant. lia.
    + eapply leaf_sized, leaf_linear. lia.
    + eapply leaf_sized, leaf_linear_nondec. lia.
    + eapply leaf_sized, leaf_default. reflexivity.
    + eapply leaf_sized, leaf_default. reflexivity.
    + eapply leaf_sized, leaf_decay. lia.
    + eapply leaf_sized, leaf_step. lia.
    + eapply leaf_sized, leaf_two_steps. lia.
    + eapply leaf_sized, leaf_sigmoid_step; lia.
    + eapply leaf_sized, leaf_default. reflexivity.
    + eapply leaf_sized, leaf_ramp; lia.
    + eapply leaf_sized, leaf_spike. lia.
    + eapply leaf_sized, leaf_default. reflexivity.
    + eapply leaf_sized, leaf_month. destruct d; [lia|exact I].
    + eapply leaf_sized, leaf_default. reflexivity.
    + eapply leaf_sized, leaf_fourier. lia.
  - eapply leaf_sized, leaf_step_date. lia.
  - eapply leaf_sized, leaf_spike_date. lia.
  - apply get_model_dummy_shape in E as (f & ->). eapply leaf_sized, leaf_default. reflexivity.
  - eapply leaf_sized, leaf_calendars. exact E.
  - eapply leaf_sized, leaf_datelist. exact E.
Qed.
Lemma shipped_tree_sized xs ys d (t : tree XR) : series xs ys d -> 4 <= n_distinct xs ->
  prune t <> None -> Forall shipped (leaves t) ->
  fm_n (build t) = sum_n (leaves t) /\
  init_sized (Some (fins xs)) (Some (fins ys)) d (build t) /\
  bounds_sized (Some (fins xs)) (Some (fins ys)) d (build t).
Proof.
  intros S U Hp F. split; [now apply n_params_tree|]. apply sized_tree; [apply no_nan_fins|exact Hp| |];
    (eapply Forall_impl; [|exact F]); intros m Hm; now apply (shipped_sized xs ys d m).
Qed.

(* guesses within bounds: every shipped model but sigmoid_step and season_month, decay needs
   positive values *)
Definition well_guessed (ys : list R) (m : fmodel XR) : Prop :=
  In m [model_constant; model_linear; model_linear_nondec; model_quasilinear; model_exp;
        model_step; model_two_steps; model_sigmoid; model_ramp; model_spike; model_season_wday;
        model_season_month_old; model_season_fourier_yearly] \/
  (m = model_decay /\ Forall (fun v => 0 < v)%R ys) \/
  (exists t, m = get_model_step_date t) \/ (exists t0 t1, m = get_model_spike_date t0 t1) \/
  (exists name dm, get_model_dummy name dm = Ok m) \/
  (exists cals name, get_model_from_calendars cals name = Ok m) \/
  (exists name args, get_model_from_datelist name args = Ok m).

Lemma well_guessed_good xs ys d m : series xs ys d -> StronglySorted Rlt xs -> 4 <= length xs ->
  well_guessed ys m -> good_guess draws (Some (fins xs)) (Some (fins ys)) d m.
Proof.
  intros [Ly Ld] S L Hm. assert (U : n_distinct xs = length xs) by (unfold n_distinct; now rewrite dedup_increasing).
  destruct Hm as [Hm|[(-> & P)|[(t & ->)|[(t0 & t1 & ->)|[(name & dm & E)|[(cals & name & E)|(name & args & E)]]]]]].
  - repeat destruct Hm as [<-|Hm]; try destruct Hm.
    + eapply leaf_good; [apply leaf_constant; lia|easy].
    + eapply leaf_good; [apply leaf_linear; lia|cbn; lia].
    + eapply leaf_good; [apply leaf_linear_nondec; lia|cbn; lia].
    + eapply leaf_good; [eapply leaf_default; reflexivity|easy].
    + eapply leaf_good; [eapply leaf_default; reflexivity|easy].
    + eapply leaf_good; [apply leaf_step; lia|easy].
    + eapply leaf_good; [apply leaf_two_steps; lia|easy].
    + eapply leaf_good; [eapply leaf_default; reflexivity|easy].
    + eapply leaf_good; [apply leaf_ramp; lia|easy].
    + eapply leaf_good; [apply leaf_spike; lia|easy].
    + eapply leaf_good; [eapply leaf_default; reflexivity|easy].
    + eapply leaf_good; [eapply leaf_default; reflexivity|easy].
    + eapply leaf_good; [apply leaf_fourier; lia|easy].
  - eapply leaf_good; [apply leaf_decay; lia|easy].
  - eapply leaf_good; [apply leaf_step_date; lia|easy].
  - eapply leaf_good; [apply leaf_spike_date; lia|easy].
  - apply get_model_dummy_shape in E as (f & ->). eapply leaf_good; [eapply leaf_default; reflexivity|easy].
  - eapply leaf_good; [eapply leaf_calendars; exact E|easy].
  - eapply leaf_good; [eapply leaf_datelist; exact E|easy].
Qed.
Lemma well_guessed_tree xs ys d (t : tree XR) : series xs ys d -> StronglySorted Rlt xs -> 4 <= length xs ->
  prune t <> None -> Forall (well_guessed ys) (leaves t) ->
  forall is_mult rnd, draws rnd -> exists p b,
    fm_init (build t) (Some (fins xs)) (Some (fins ys)) d is_mult rnd = Ok p /\
    fm_bounds (build t) (Some (fins xs)) (Some (fins ys)) d = Ok b /\
    length p = fm_n (build t) /\ validate_initial_guess p b = Ok true.
Proof.
  intros S I L Hp F is_mult rnd D.
  assert (G : good_guess draws (Some (fins xs)) (Some (fins ys)) d (build t)).
  { apply good_guess_tree; [apply draws_split|apply no_nan_fins|exact Hp|].
    eapply Forall_impl; [|exact F]. intros m Hm. now apply well_guessed_good. }
  destruct (G is_mult rnd D) as (p & b & E1 & E2 & E3 & W). exists p, b. repeat split; auto.
  now apply validate_iff.
Qed.
