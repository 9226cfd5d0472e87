(* A longer horizon only appends: proofs for C88. *)
From Coq Require Import ZArith QArith String List Bool Lia Sorting Permutation.
From Verif Require Import Num Py Cal CalProofs Fmt Model Base Fixed Dummy Freq Fit Pi Forecast NaiveProofs DummyProofs GridProofs MonthProofs ExtendProofs.
Import ListNotations.
Local Open Scope string_scope.
Local Open Scope list_scope.
Local Open Scope Z_scope.

Lemma ok_eq {A} (a b : A) : Ok a = Ok b -> b = a.
Proof. now intros [= <-]. Qed.

(* ---- the end of the horizon ---- *)
Lemma rhe_tie a b q : 0 < b -> 2 * a = (2 * q + 1) * b -> round_half_even a b = if Z.even q then q else q + 1.
Proof.
  intros Hb E. unfold round_half_even.
  assert (a / b = q) as -> by (symmetry; apply Z.div_unique with (r := a - b * q); [left; nia|lia]).
  assert (2 * (a mod b) = b) as -> by (rewrite (Z.mod_eq a b) by lia; assert (a / b = q) as -> by (symmetry; apply Z.div_unique with (r := a - b * q); [left; nia|lia]); nia).
  rewrite Z.ltb_irrefl. reflexivity.
Qed.
Lemma rhe_mono a b a' b' : 0 < b -> 0 < b' -> a * b' <= a' * b -> round_half_even a b <= round_half_even a' b'.
Proof.
  intros Hb Hb' L. pose proof (round_half_even_err a b Hb) as E. pose proof (round_half_even_err a' b' Hb') as E'.
  set (q := round_half_even a b) in *. set (q' := round_half_even a' b') in *.
  destruct (Z.le_gt_cases q q') as [C|C]; [exact C|exfalso].
  assert (B1 : (2 * q - 1) * b <= 2 * a) by lia. assert (B2 : 2 * a' <= (2 * q' + 1) * b') by lia.
  assert (P : 0 < b * b') by nia.
  assert (K : (2 * q - 1) * (b * b') <= (2 * q' + 1) * (b * b')) by nia.
  assert (q = q' + 1) as Q by nia.
  assert (T1 : 2 * a = (2 * q' + 1) * b) by nia.
  assert (T2 : 2 * a' = (2 * q' + 1) * b') by nia.
  pose proof (rhe_tie a b q' Hb T1) as R1. pose proof (rhe_tie a' b' q' Hb' T2) as R2. fold q in R1. fold q' in R2.
  rewrite <- R1 in R2. lia.
Qed.
Lemma add_months_mono t n n' : n <= n' -> add_months t n <= add_months t n'.
Proof.
  intros L. unfold add_months. apply Z.add_le_mono_r. apply Z.mul_le_mono_nonneg_r; [discriminate|].
  rewrite !month_last_eq. pose proof (month_start_le (month_index (day_of t) + n) (month_index (day_of t) + n') ltac:(lia)) as A.
  pose proof (month_start_le (month_index (day_of t) + n + 1) (month_index (day_of t) + n' + 1) ltac:(lia)) as B. lia.
Qed.
Lemma timedelta_mono (u u' : Q) s : 0 <= s -> (u <= u')%Q -> timedelta_ns u s <= timedelta_ns u' s.
Proof.
  intros Hs L. unfold timedelta_ns. apply Z.mul_le_mono_nonneg_r; [discriminate|]. apply rhe_mono; [reflexivity|reflexivity|].
  unfold Qle in L. assert (0 <= s / MICRO) by (apply Z.div_pos; [exact Hs|reflexivity]). nia.
Qed.
Lemma whole_mono (u u' : Q) : (u <= u')%Q -> Qnum u mod Zpos (Qden u) = 0 -> Qnum u' mod Zpos (Qden u') = 0 ->
  Qnum u / Zpos (Qden u) <= Qnum u' / Zpos (Qden u').
Proof.
  unfold Qle. intros L M M'. pose proof (Z.div_mod (Qnum u) (Zpos (Qden u)) ltac:(discriminate)) as E.
  pose proof (Z.div_mod (Qnum u') (Zpos (Qden u')) ltac:(discriminate)) as E'. rewrite M in E. rewrite M' in E'.
  set (n := Qnum u / Zpos (Qden u)) in *. set (n' := Qnum u' / Zpos (Qden u')) in *. rewrite E, E' in L.
  assert (P : 0 < Zpos (Qden u) * Zpos (Qden u')) by reflexivity.
  apply (Zmult_le_reg_r _ _ _ (Z.lt_gt _ _ P)). lia.
Qed.
Lemma dateoffset_mono t u q q' e e' : (q <= q')%Q -> add_dateoffset t u q = Ok e -> add_dateoffset t u q' = Ok e' -> e <= e'.
Proof.
  intros L. destruct u as [[| | | |]|]; cbn [add_dateoffset]; try discriminate.
  - destruct (Z.eqb_spec (Qnum q mod Zpos (Qden q)) 0) as [M|]; [|discriminate]. intros E; apply ok_eq in E as ->.
    destruct (Z.eqb_spec (Qnum q' mod Zpos (Qden q')) 0) as [M'|]; [|discriminate]. intros E; apply ok_eq in E as ->.
    apply add_months_mono. apply Z.mul_le_mono_nonneg_l; [discriminate|]. exact (whole_mono q q' L M M').
  - destruct (Z.eqb_spec (Qnum q mod Zpos (Qden q)) 0) as [M|]; [|discriminate]. intros E; apply ok_eq in E as ->.
    destruct (Z.eqb_spec (Qnum q' mod Zpos (Qden q')) 0) as [M'|]; [|discriminate]. intros E; apply ok_eq in E as ->.
    apply add_months_mono. exact (whole_mono q q' L M M').
  - intros [= <-] [= <-]. apply Z.add_le_mono_l, timedelta_mono; [discriminate|exact L].
  - intros [= <-] [= <-]. apply Z.add_le_mono_l, timedelta_mono; [discriminate|exact L].
  - intros [= <-] [= <-]. apply Z.add_le_mono_l, timedelta_mono; [discriminate|exact L].
Qed.
Lemma units_nonneg f : 0 <= units_per_year f.
Proof. unfold units_per_year. repeat match goal with |- context [if ?b then _ else _] => destruct b end; discriminate. Qed.
Lemma end_mono stop f y y' e e' : (y <= y')%Q -> forecast_end stop f y = Ok e -> forecast_end stop f y' = Ok e' -> e <= e'.
Proof.
  intros L. unfold forecast_end. apply dateoffset_mono. unfold Qle in *. cbn [Qnum Qden].
  pose proof (units_nonneg (freq_short f)). nia.
Qed.
Lemma end_nonneg stop f y e : (0 <= y)%Q -> forecast_end stop f y = Ok e -> stop <= e.
Proof.
  intros L. assert (Hy : 0 <= Qnum y) by (unfold Qle in L; cbn in L; lia). unfold forecast_end.
  pose proof (units_nonneg (freq_short f)) as U. assert (Hn : 0 <= Qnum y * units_per_year (freq_short f)) by nia.
  set (n := Qnum y * units_per_year (freq_short f)) in *. destruct (dateoffset_input _) as [[| | | |]|]; cbn [add_dateoffset Qnum Qden]; try discriminate.
  - destruct (_ =? 0); [|discriminate]. intros E; apply ok_eq in E as ->. apply add_months_le.
    apply Z.mul_nonneg_nonneg; [discriminate|]. apply Z.div_pos; [exact Hn|reflexivity].
  - destruct (_ =? 0); [|discriminate]. intros E; apply ok_eq in E as ->. apply add_months_le. apply Z.div_pos; [exact Hn|reflexivity].
  - intros E; apply ok_eq in E as ->. pose proof (timedelta_nonneg (Qmake n (Qden y)) (7 * DAY) Hn ltac:(discriminate)). lia.
  - intros E; apply ok_eq in E as ->. pose proof (timedelta_nonneg (Qmake n (Qden y)) DAY Hn ltac:(discriminate)). lia.
  - intros E; apply ok_eq in E as ->. pose proof (timedelta_nonneg (Qmake n (Qden y)) HOUR Hn ltac:(discriminate)). lia.
Qed.

(* ---- the grid ---- *)
Lemma sorted_split e : forall l, StronglySorted Z.lt l -> l = filter (fun t => t <=? e) l ++ filter (fun t => e <? t) l.
Proof.
  induction l as [|a l IH]; intros S; [reflexivity|]. apply StronglySorted_inv in S as [S F]. cbn [filter].
  destruct (Z.leb_spec a e) as [A|A].
  - rewrite (proj2 (Z.ltb_ge _ _) A). cbn. now rewrite <- IH.
  - rewrite (proj2 (Z.ltb_lt _ _) A). assert (filter (fun t => t <=? e) l = []) as ->; [|cbn; f_equal].
    + destruct (filter (fun t => t <=? e) l) as [|b k] eqn:Ef; [reflexivity|exfalso].
      assert (I : In b (filter (fun t => t <=? e) l)) by (rewrite Ef; now left). apply filter_In in I as [I B].
      rewrite Forall_forall in F. specialize (F b I). apply Z.leb_le in B. lia.
    + clear IH. induction l as [|b l IHl]; [reflexivity|]. apply Forall_cons_iff in F as [Fb F]. apply StronglySorted_inv in S as [S _]. cbn.
      assert (e <? b = true) as -> by (apply Z.ltb_lt; lia). f_equal. now apply IHl.
Qed.
Lemma sorted_nodup l : StronglySorted Z.lt l -> NoDup l.
Proof.
  induction l as [|a l IH]; intros S; constructor; apply StronglySorted_inv in S as [S F].
  - intros I. rewrite Forall_forall in F. specialize (F a I). lia.
  - now apply IH.
Qed.
Lemma sorted_prefix l l' e : StronglySorted Z.lt l -> StronglySorted Z.lt l' -> (forall t, In t l <-> In t l' /\ t <= e) ->
  exists rest, l' = l ++ rest /\ Forall (fun t => e < t) rest.
Proof.
  intros S S' I. exists (filter (fun t => e <? t) l'). split.
  - rewrite (sorted_split e l' S') at 1. f_equal. apply sorted_unique; [now apply filter_sorted|exact S|].
    apply NoDup_Permutation; [apply NoDup_filter, sorted_nodup, S'|apply sorted_nodup, S|].
    intros t. rewrite I, filter_In, Z.leb_le. reflexivity.
  - apply Forall_forall. intros t Ht. apply filter_In in Ht as [_ Ht]. now apply Z.ltb_lt.
Qed.
Lemma date_range_prefix a b b' f ds : b <= b' -> date_range a b f = Ok ds ->
  exists rest, date_range a b' f = Ok (ds ++ rest) /\ Forall (fun t => b < t) rest.
Proof.
  intros L.
  assert (F : forall step, 0 < step -> exists rest, fixed_range a step b' = fixed_range a step b ++ rest /\ Forall (fun t => b < t) rest).
  { intros step Hs. apply sorted_prefix; [now apply fixed_range_sorted|now apply fixed_range_sorted|]. intros t.
    rewrite !fixed_range_in by exact Hs. split.
    - intros (k & K & E & B). split; [exists k; repeat split; auto; lia|exact B].
    - intros [(k & K & E & _) B]. exists k. auto. }
  assert (G : forall sel day, in_month day -> exists rest, month_range a b' sel day = month_range a b sel day ++ rest /\ Forall (fun t => b < t) rest).
  { intros sel day D. apply sorted_prefix; [now apply GridProofs.month_range_sorted|now apply GridProofs.month_range_sorted|]. intros t.
    rewrite !month_range_in by exact D. split.
    - intros (k & K & E & B). split; [exists k; repeat split; auto; lia|lia].
    - intros [(k & K & E & B') B]. exists k. repeat split; auto; lia. }
  assert (Fin : forall l l', (exists rest, l' = l ++ rest /\ Forall (fun t => b < t) rest) -> Ok l = Ok ds ->
           exists rest, Ok l' = Ok (ds ++ rest) /\ Forall (fun t => b < t) rest).
  { intros l l' (rest & E & R) [= <-]. exists rest. split; [now rewrite E|exact R]. }
  unfold date_range.
  repeat match goal with |- context [if ?c then _ else _] => destruct c end; try discriminate;
    apply Fin; first [apply F; reflexivity | apply G; exact month_start_in | apply G; exact month_last_in].
Qed.

Section Horizon.
  Context {T : Type} `{N : NumOps T}.

  Definition stop_of (o : origin) : Z := match o with ODate _ b => b | ONum _ b => b end.
  Lemma grid_prefix o m freq (y y' : Q) x0 g g' : (y <= y')%Q ->
    s_x_extrapolate (T := T) o m freq y x0 = Ok g -> s_x_extrapolate o m freq y' x0 = Ok g' ->
    exists rest, g' = g ++ rest /\ ((0 < y)%Q -> Forall (fun q => stop_of o < fst q) rest).
  Proof.
    intros L. destruct o as [a b|a b]; cbn [s_x_extrapolate stop_of].
    - unfold s_x_dates. destruct (grid_freq a freq) as [f|]; [|discriminate]. cbn [rbind].
      destruct (forecast_end b f y) as [e|] eqn:E; [|discriminate]. cbn [rbind].
      destruct (date_range a e f) as [ds|] eqn:D; [|discriminate]. cbn [rbind]. intros [= <-].
      destruct (forecast_end b f y') as [e'|] eqn:E'; [|discriminate]. cbn [rbind].
      destruct (date_range_prefix _ _ _ _ _ (end_mono _ _ _ _ _ _ L E E') D) as (rest & D' & R). rewrite D'. cbn [rbind]. intros [= <-].
      rewrite !grid_pairs, map_app. eexists. split; [reflexivity|]. intros P. apply Forall_forall. intros q Iq.
      apply in_map_iff in Iq as (t & <- & It). cbn [fst]. rewrite Forall_forall in R. specialize (R t It).
      pose proof (end_nonneg _ _ _ _ (Qlt_le_weak _ _ P) E). lia.
    - intros [= <-] [= <-]. rewrite !numeric_grid.
      assert (S : (numeric_size a b y <= numeric_size a b y')%nat).
      { destruct (Nat.le_gt_cases (numeric_size a b y) (numeric_size a b y')) as [C|C]; [exact C|exfalso].
        apply numeric_size_iff in C. assert (C' : ~ (numeric_size a b y' < numeric_size a b y')%nat) by apply Nat.lt_irrefl.
        rewrite numeric_size_iff in C'. unfold Qle in L.
        set (i := Z.of_nat (numeric_size a b y')) in *. set (d := Zpos (Qden y)) in *. set (d' := Zpos (Qden y')) in *.
        assert (Pd : 0 < d) by reflexivity. assert (Pd' : 0 < d') by reflexivity. nia. }
      replace (numeric_size a b y') with (numeric_size a b y + (numeric_size a b y' - numeric_size a b y))%nat by lia.
      rewrite seq_app, map_app. eexists. split; [reflexivity|]. intros P. apply Forall_forall. intros q Iq.
      apply in_map_iff in Iq as (i & <- & Ii). cbn [fst]. apply in_seq in Ii as [Ii _].
      assert (C : ~ (i < numeric_size a b y)%nat) by lia. rewrite numeric_size_iff in C.
      unfold Qlt in P. cbn in P. set (d := Zpos (Qden y)) in *. assert (Pd : 0 < d) by reflexivity. nia.
  Qed.

  (* ---- models whose value at a sample does not depend on later samples ---- *)
  Definition cut (k : nat) (v : nval T) : nval T := match v with Sc t => Sc t | Ar l => Ar (firstn k l) end.
  Definition fits_in (n : nat) (v : nval T) : Prop := match v with Sc _ => True | Ar l => length l = n end.
  Definition causal_fun (f : mfun T) : Prop :=
    forall k xs ds p mode act v, (0 < k <= length xs)%nat ->
      match ds with Some l => length l = length xs | None => True end ->
      f xs ds p mode (mkKw act []) = Ok v ->
      fits_in (length xs) v /\ f (firstn k xs) (option_map (firstn k) ds) p mode (mkKw act []) = Ok (cut k v).
  Definition causal (m : fmodel T) : Prop := causal_fun (fm_f m).

  Lemma cut_map k (h : T -> T) l : firstn k (map h l) = map h (firstn k l).
  Proof. apply firstn_map. Qed.
  (* one entry per sample *)
  Lemma pointwise_causal (f : mfun T) :
    (forall p mode, (exists h, forall xs ds act, f xs ds p mode (mkKw act []) = Ok (Ar (map h xs))) \/
                    (exists e, forall xs ds act, f xs ds p mode (mkKw act []) = Err e)) -> causal_fun f.
  Proof.
    intros Hf k xs ds p mode act v K D E. destruct (Hf p mode) as [[h Hh]|[e He]]; [|rewrite He in E; discriminate].
    rewrite Hh in *. injection E as <-. cbn [fits_in cut]. split; [apply map_length|]. now rewrite firstn_map.
  Qed.
  Lemma by_date_causal (f : mfun T) :
    (forall p mode, (exists h : Z -> T, forall xs ds act, f xs (Some ds) p mode (mkKw act []) = Ok (Ar (map h ds))) \/
                    (exists e, forall xs ds act, f xs (Some ds) p mode (mkKw act []) = Err e)) ->
    (forall p mode, exists e, forall xs act, f xs None p mode (mkKw act []) = Err e) -> causal_fun f.
  Proof.
    intros Hf Hn k xs ds p mode act v K D E. destruct ds as [ds|]; [|destruct (Hn p mode) as [e He]; rewrite He in E; discriminate].
    cbn [option_map]. destruct (Hf p mode) as [[h Hh]|[e He]]; [|rewrite He in E; discriminate].
    rewrite Hh in *. injection E as <-. cbn [fits_in cut]. split; [now rewrite map_length|]. now rewrite firstn_map.
  Qed.
  Ltac unpacked := match goal with p : params T |- _ =>
    destruct p as [[|?a [|?b [|?c [|?d ?l]]]]|]; cbn; try (right; eexists; intros; reflexivity) end; left; eexists; intros; reflexivity.
  Lemma null_causal : causal model_null.
  Proof. intros k xs ds p mode act v K D [= <-]. split; [exact I|reflexivity]. Qed.
  Lemma firstn_len {A} k (l : list A) : (k <= length l)%nat -> length (firstn k l) = k.
  Proof. apply firstn_length_le. Qed.
  Lemma constant_causal : causal model_constant.
  Proof.
    intros k xs ds p mode act v K D E. unfold model_constant, mk_model in *. cbn [fm_f] in *. unfold f_constant in *.
    destruct (unpack1 p) as [a|]; [|discriminate]. cbn [rbind] in *. injection E as <-. cbn [fits_in cut].
    split; [apply repeat_length|]. rewrite firstn_len by lia. do 2 f_equal.
    destruct K as [_ K]. revert K. generalize (length xs). clear. induction k as [|k IH]; intros [|n] K; cbn; try reflexivity; try lia.
    f_equal. apply IH. lia.
  Qed.
  Lemma linear_causal : causal model_linear.
  Proof. apply pointwise_causal. intros p mode. unpacked. Qed.
  Lemma linear_nondec_causal : causal model_linear_nondec.
  Proof. apply pointwise_causal. intros p mode. unpacked. Qed.
  Lemma quasilinear_causal : causal model_quasilinear.
  Proof. apply pointwise_causal. intros p mode. unpacked. Qed.
  Lemma exp_causal : causal model_exp.
  Proof. apply pointwise_causal. intros p mode. unpacked. Qed.
  Lemma decay_causal : causal model_decay.
  Proof. apply pointwise_causal. intros p mode. unpacked. Qed.
  Lemma step_causal : causal model_step.
  Proof. apply pointwise_causal. intros p mode. unpacked. Qed.
  Lemma sigmoid_causal : causal model_sigmoid.
  Proof. apply pointwise_causal. intros p mode. unpacked. Qed.
  Lemma sigmoid_step_causal : causal model_sigmoid_step.
  Proof. apply pointwise_causal. intros p mode. unpacked. Qed.
  Lemma ramp_causal : causal model_ramp.
  Proof. apply pointwise_causal. intros p mode. unpacked. Qed.
  Lemma step_date_causal t : causal (get_model_step_date t).
  Proof.
    apply by_date_causal; intros p mode.
    - destruct p as [[|a [|? ?]]|]; [right|left|right|right]; eexists; intros; cbn; try reflexivity. now rewrite map_map.
    - destruct p as [[|a [|? ?]]|]; eexists; intros; cbn; reflexivity.
  Qed.
  Lemma spike_date_causal a b : causal (get_model_spike_date a b).
  Proof.
    apply by_date_causal; intros p mode.
    - destruct p as [[|c [|? ?]]|]; [right|left|right|right]; eexists; intros; cbn; try reflexivity. now rewrite map_map.
    - destruct p as [[|c [|? ?]]|]; eexists; intros; cbn; reflexivity.
  Qed.

  (* sums and products *)
  Lemma bcast_cut op n k v1 v2 v : (0 < k <= n)%nat -> fits_in n v1 -> fits_in n v2 -> bcast2 op v1 v2 = Ok v ->
    fits_in n v /\ bcast2 op (cut k v1) (cut k v2) = Ok (cut k v).
  Proof.
    intros K F1 F2. destruct v1 as [a|l1], v2 as [b|l2]; cbn [bcast2 cut fits_in] in *.
    - intros [= <-]. split; [exact I|reflexivity].
    - intros [= <-]. cbn [fits_in cut]. rewrite map_length, firstn_map; auto.
    - intros [= <-]. cbn [fits_in cut]. rewrite map_length, firstn_map; auto.
    - rewrite F1, F2, Nat.eqb_refl. intros [= <-]. cbn [fits_in cut]. rewrite !firstn_len by lia. rewrite Nat.eqb_refl.
      unfold map2. rewrite map_length, combine_length, F1, F2, Nat.min_id, firstn_map, combine_firstn. auto.
  Qed.
  Lemma combine_causal sep op mode m1 m2 : causal m1 -> causal m2 -> causal (combine_models sep op mode m1 m2).
  Proof.
    intros C1 C2 k xs ds p md act v K D. unfold combine_models, mk_model. cbn [fm_f]. unfold f_combine.
    destruct (p_slice (fm_n m1) p) as [[p1 p2]|]; [|discriminate]. cbn [rbind].
    destruct (fm_f m1 xs ds (Some p1) (Some mode) (mkKw act [])) as [v1|] eqn:E1; [|discriminate]. cbn [rbind].
    destruct (fm_f m2 xs ds (Some p2) (Some mode) (mkKw act [])) as [v2|] eqn:E2; [|discriminate]. cbn [rbind].
    destruct (C1 k xs ds _ _ _ _ K D E1) as [F1 G1]. destruct (C2 k xs ds _ _ _ _ K D E2) as [F2 G2].
    rewrite G1. cbn [rbind]. rewrite G2. cbn [rbind]. intros B. exact (bcast_cut _ _ _ _ _ _ K F1 F2 B).
  Qed.
  Lemma madd_causal m1 m2 : causal m1 -> causal m2 -> causal (madd m1 m2).
  Proof. intros C1 C2. unfold madd. destruct (is_null m1); [exact C2|]. destruct (is_null m2); [exact C1|]. now apply combine_causal. Qed.
  Lemma mmul_causal m1 m2 : causal m1 -> causal m2 -> causal (mmul m1 m2).
  Proof. intros C1 C2. unfold mmul. destruct (is_null m1); [exact C2|]. destruct (is_null m2); [exact C1|]. now apply combine_causal. Qed.
  Lemma reduce_causal op l : (forall a b, causal a -> causal b -> causal (op a b)) -> Forall causal l -> causal (reduce op l).
  Proof.
    intros Ho F. destruct l as [|m l]; [exact null_causal|]. apply Forall_cons_iff in F as [Fm F]. cbn [reduce].
    revert m Fm. induction F as [|a l Fa F IH]; intros m Fm; cbn; auto.
  Qed.
  Lemma n_steps_causal n name k0 i b va cv dc : causal (mk_model name k0 (f_n_steps n) i b va cv dc).
  Proof.
    intros k xs ds p mode act v K D. unfold mk_model. cbn [fm_f]. unfold f_n_steps. destruct p as [l|]; [|discriminate].
    set (op := if mode_of false mode then nmul else nadd).
    assert (G : forall idx acc acc', (forall y, acc = Ok y -> fits_in (length xs) y /\ acc' = Ok (cut k y)) ->
      forall y, fold_left (fun acc i => let* y := acc in let* (a, b) := unpack2 (Some (firstn 2 (skipn i l))) in
                   bcast2 op y (Ar (map (step_at (mode_of false mode) a b) xs))) idx acc = Ok y ->
        fits_in (length xs) y /\
        fold_left (fun acc i => let* y := acc in let* (a, b) := unpack2 (Some (firstn 2 (skipn i l))) in
                   bcast2 op y (Ar (map (step_at (mode_of false mode) a b) (firstn k xs)))) idx acc' = Ok (cut k y)).
    { induction idx as [|j idx IH]; intros acc acc' Ha; cbn [fold_left]; [exact Ha|]. apply IH. intros y.
      destruct acc as [y0|]; [|discriminate]. destruct (Ha y0 eq_refl) as [F0 ->]. cbn [rbind].
      destruct (unpack2 _) as [[a c]|]; [|discriminate]. cbn [rbind]. intros B.
      refine (match bcast_cut op (length xs) k y0 _ y K F0 _ B with conj F1 B1 => conj F1 _ end).
      - cbn. apply map_length.
      - cbn [cut] in B1. now rewrite firstn_map in B1. }
    apply G. intros y [= <-]. split; [exact I|reflexivity].
  Qed.

  (* seasonal models *)
  Lemma rmapM_firstn {A B} (h : A -> res B) k : forall l r, rmapM h l = Ok r -> length r = length l /\ rmapM h (firstn k l) = Ok (firstn k r).
  Proof.
    revert k. assert (G : forall l r, rmapM h l = Ok r -> length r = length l /\ forall k, rmapM h (firstn k l) = Ok (firstn k r)).
    { induction l as [|a l IH]; intros r; cbn.
      - intros [= <-]. split; [reflexivity|]. intros k. destruct k; reflexivity.
      - destruct (h a) as [b|] eqn:Eh; [|discriminate]. cbn. destruct (rmapM h l) as [r'|]; [|discriminate]. cbn. intros [= <-].
        destruct (IH r' eq_refl) as [L F]. split; [cbn; now rewrite L|]. intros [|k]; [reflexivity|]. cbn. now rewrite Eh, F. }
    intros k l r E. destruct (G l r E) as [L F]. auto.
  Qed.
  Lemma season_causal (f : mfun T) (h : Z -> Z) :
    (forall xs ds p mode act, f xs (Some ds) p mode (mkKw act []) = season_lookup (mode_of false mode) p (map h ds)) ->
    (forall xs p mode act, exists e, f xs None p mode (mkKw act []) = Err e) -> causal_fun f.
  Proof.
    intros Hf Hn k xs ds p mode act v K D E. destruct ds as [ds|]; [|destruct (Hn xs p mode act) as [e He]; rewrite He in E; discriminate].
    cbn [option_map]. rewrite Hf in *. unfold season_lookup in *. destruct p as [l|]; [|discriminate].
    destruct (rmapM _ (map h ds)) as [r|] eqn:R; [|discriminate]. cbn [rbind] in E. injection E as <-. cbn [fits_in cut].
    destruct (rmapM_firstn _ k _ _ R) as [L F]. rewrite firstn_map in F. rewrite F. cbn [rbind]. split; [|reflexivity].
    now rewrite L, map_length.
  Qed.
  Lemma season_wday_causal : causal model_season_wday.
  Proof.
    apply (season_causal _ weekday).
    - intros xs ds p mode act. destruct p; reflexivity.
    - intros xs p mode act. destruct p; eexists; reflexivity.
  Qed.
  Lemma season_month_causal : causal model_season_month.
  Proof.
    apply (season_causal _ (fun t => month t - 1)).
    - intros xs ds p mode act. destruct p; reflexivity.
    - intros xs p mode act. destruct p; eexists; reflexivity.
  Qed.
  Lemma season_month_old_causal : causal model_season_month_old.
  Proof. exact season_month_causal. Qed.
  Lemma firstn_seq k s n : (k <= n)%nat -> firstn k (seq s n) = seq s k.
  Proof. revert s n. induction k as [|k IH]; intros s [|n] L; cbn; try reflexivity; try lia. f_equal. apply IH. lia. Qed.
  Lemma nth_firstn {A} (d : A) i k l : (i < k)%nat -> nth i (firstn k l) d = nth i l d.
  Proof. revert i l. induction k as [|k IH]; intros i [|a l] L; try lia; [reflexivity|]. destruct i; cbn; [reflexivity|apply IH; lia]. Qed.
  Lemma fourier_cols d : n_cols (fourier_matrix d) = length d.
  Proof. cbn. now rewrite map_length. Qed.
  Lemma fourier_rows d : length (fourier_matrix d) = 20%nat.
  Proof. reflexivity. Qed.
  Lemma fourier_column i k d : (i < k)%nat -> column (fourier_matrix (firstn k d)) i = column (fourier_matrix d) i.
  Proof.
    intros L. unfold column, fourier_matrix. rewrite !map_app, !map_map.
    f_equal; apply map_ext; intros j; rewrite <- firstn_map; now apply nth_firstn.
  Qed.
  Lemma fourier_causal : causal model_season_fourier_yearly.
  Proof.
    intros k xs ds p mode act v K D. unfold model_season_fourier_yearly, mk_model. cbn [fm_f]. unfold f_fourier. cbn [kw_cache dict_get].
    destruct ds as [ds|]; cbn [option_map cache_a_t_fourier rbind]; [|discriminate]. destruct p as [l|]; [|discriminate].
    unfold matmul. rewrite !fourier_rows, !fourier_cols. destruct (Nat.eqb (length l) 20); [|discriminate]. intros [= <-]. cbn [fits_in cut].
    rewrite map_length, seq_length. split; [exact D|]. do 2 f_equal. rewrite firstn_len by lia. rewrite firstn_map, firstn_seq by lia.
    apply map_ext_in. intros i Ii. apply in_seq in Ii. f_equal. apply fourier_column. lia.
  Qed.

  (* dummy variables *)
  Definition causal_mask (f : dummyfun T) : Prop :=
    forall k xs ds l, (0 < k <= length xs)%nat -> match ds with Some l => length l = length xs | None => True end ->
      f xs ds = Ok l -> length l = length xs /\ f (firstn k xs) (option_map (firstn k) ds) = Ok (firstn k l).
  Lemma dummy_causal name f : causal_mask f -> causal (dummy_model_of name f).
  Proof.
    intros C k xs ds p mode act v K D. unfold dummy_model_of, mk_model. cbn [fm_f]. unfold f_model_dummy. cbn [kw_cache dict_get].
    destruct (f xs ds) as [l|] eqn:E; [|discriminate]. cbn [Py.rmap rbind]. destruct (C k xs ds l K D E) as [L F]. rewrite F. cbn [Py.rmap rbind].
    destruct (unpack1 p) as [a|]; [|discriminate]. cbn [rbind]. intros [= <-]. cbn [fits_in cut].
    rewrite <- L. destruct (mode_of false mode); rewrite map_length, firstn_map; auto.
  Qed.
  Lemma date_mask_causal test : causal_mask (date_mask test).
  Proof.
    intros k xs [ds|] l K D; cbn; [|discriminate]. intros [= <-]. rewrite map_length, firstn_map. auto.
  Qed.
  Lemma isin_causal (hol : Z -> Z -> list Z) : (forall a b t, a <= t <= b -> (In t (hol a b) <-> In t (hol t t))) ->
    causal_mask (fun _ a_date => let* (d, a, b) := date_range_of a_date in Ok (isin_dates d (hol a b))).
  Proof.
    intros Hh k xs [ds|] l K D; cbn [option_map]; [|discriminate].
    assert (G : forall d, d <> [] -> (let* (d0, a, b) := date_range_of (Some d) in Ok (isin_dates d0 (hol a b))) =
              Ok (map (fun t => nofbool (existsb (Z.eqb t) (hol t t))) d)).
    { intros d Nd. destruct (zmin_max_some d Nd) as (a & b & Ea & Eb & B). cbn [date_range_of]. rewrite Ea, Eb. cbn [rbind]. f_equal. unfold isin_dates.
      apply map_ext_in. intros t It. f_equal. apply Bool.eq_true_iff_eq. rewrite !existsb_exists. specialize (B t It). specialize (Hh a b t B).
      split; intros (u & Iu & Eu); apply Z.eqb_eq in Eu; subst u; exists t; rewrite Z.eqb_refl; tauto. }
    assert (N1 : ds <> []) by (intros ->; cbn in D; lia).
    assert (N2 : firstn k ds <> []) by (intros E; apply (f_equal (@length Z)) in E; rewrite firstn_len in E by lia; cbn in E; lia).
    rewrite (G ds N1), (G _ N2). intros [= <-]. rewrite map_length, firstn_map. auto.
  Qed.
  Lemma holiday_here h a b t : local_rule h -> a <= t <= b -> (In t (holiday_dates h a b) <-> In t (holiday_dates h t t)).
  Proof. intros L B. rewrite !holiday_dates_in by exact L. intuition lia. Qed.
  Lemma calendar_here c a b t : Forall local_rule (cal_rules c) -> a <= t <= b -> (In t (calendar_holidays c a b) <-> In t (calendar_holidays c t t)).
  Proof. intros L B. rewrite !calendar_holidays_in by exact L. intuition lia. Qed.
  (* what a dummy variable must be made of *)
  Definition causal_dummy (dm : dummy T) : Prop :=
    match dm with
    | DFun f => causal_mask f
    | DHoliday h => local_rule h
    | DCal c => Forall local_rule (cal_rules c)
    | DNums _ | DDates _ => True
    end.
  Lemma get_dummy_causal name dm m : causal_dummy dm -> get_model_dummy name dm = Ok m -> causal m.
  Proof.
    intros C. unfold get_model_dummy. destruct (get_f_dummy dm) as [f|] eqn:E; [|discriminate]. cbn [rbind].
    destruct (validate_f_dummy f); [|discriminate]. cbn [rbind]. intros [= <-]. apply dummy_causal.
    destruct dm as [g|h|c|l|l]; cbn [causal_dummy get_f_dummy] in *.
    - injection E as <-. exact C.
    - injection E as <-. apply (isin_causal (holiday_dates h)). intros t0 t1 t B. apply holiday_here; [exact C|exact B].
    - injection E as <-. apply (isin_causal (calendar_holidays c)). intros t0 t1 t B. apply calendar_here; [exact C|exact B].
    - destruct l as [|x l]; [discriminate|]. injection E as <-. intros k xs ds r K D [= <-].
      unfold isin_nums. rewrite map_length, firstn_map. auto.
    - destruct l as [|x l]; [discriminate|]. injection E as <-. intros k xs [ds|] r K D; cbn [option_map]; [|discriminate]. intros [= <-].
      unfold isin_dates. rewrite map_length, firstn_map. auto.
  Qed.
  Lemma all_dummies_causal s p name k0 i b va cv dc : causal s -> causal p -> causal (mk_model name k0 (f_all_dummies s p) i b va cv dc).
  Proof.
    intros Cs Cp k xs ds q mode act v K D. unfold mk_model. cbn [fm_f]. unfold f_all_dummies, call.
    destruct (mode_of false mode); [now apply Cp|now apply Cs].
  Qed.
  Lemma rmapM_all {A B} (h : A -> res B) (P : B -> Prop) : forall l r, (forall a b, In a l -> h a = Ok b -> P b) -> rmapM h l = Ok r -> Forall P r.
  Proof.
    induction l as [|a l IH]; intros r Hp; cbn; [intros [= <-]; constructor|].
    destruct (h a) as [b|] eqn:E; [|discriminate]. cbn. destruct (rmapM h l) as [r'|] eqn:R; [|discriminate]. cbn. intros [= <-].
    constructor; [apply (Hp a); [now left|exact E]|]. apply IH; [|reflexivity]. intros x y I. apply Hp. now right.
  Qed.
  Lemma calendars_causal l name m : Forall (fun c => Forall local_rule (cal_rules c)) l -> get_model_from_calendars l name = Ok m -> causal m.
  Proof.
    intros F. unfold get_model_from_calendars. set (l' := filter _ l). destruct l' as [|c0 l''] eqn:El; [discriminate|]. rewrite <- El in *.
    destruct (rmapM _ l') as [ds|] eqn:R; [|discriminate]. cbn [rbind]. intros [= <-].
    assert (Fd : Forall causal ds).
    { refine (rmapM_all _ _ _ _ _ R). intros c b I Eb. refine (get_dummy_causal _ _ _ _ Eb). cbn.
      unfold l' in I. apply filter_In in I as [I _]. rewrite Forall_forall in F. now apply F. }
    apply all_dummies_causal; apply reduce_causal; auto using madd_causal, mmul_causal.
  Qed.
  Lemma datelist_causal name args m : get_model_from_datelist name args = Ok m -> causal m.
  Proof.
    unfold get_model_from_datelist. destruct (rmapM _ args) as [ds|] eqn:R; [|discriminate]. cbn [rbind].
    assert (Fd : Forall causal ds) by (refine (rmapM_all _ _ _ _ _ R); intros c b _ Eb; exact (get_dummy_causal _ (DDates c) _ I Eb)).
    destruct ds as [|d ds]; [discriminate|]. intros E. apply ok_eq in E as ->.
    apply all_dummies_causal; [apply (reduce_causal madd _ madd_causal Fd)|apply (reduce_causal mmul _ mmul_causal Fd)].
  Qed.
  Lemma fixed_causal m fixed md m' : causal m -> get_fixed_model m fixed md = Ok m' -> causal m'.
  Proof.
    intros C. unfold get_fixed_model. destruct (Nat.eqb (fm_n m) 0); [intros [= <-]; exact C|].
    destruct (negb _); [discriminate|]. intros [= <-]. intros k xs ds p mode act v K D. unfold mk_model. cbn [fm_f]. now apply C.
  Qed.

  (* ---- the extrapolation of such a model ---- *)
  Lemma series_prefix idx rest v l l' : fits_in (length (idx ++ rest)) v -> series (T := T) (idx ++ rest) v = Ok l' ->
    series idx (cut (length idx) v) = Ok l -> exists more, l' = l ++ more /\ map fst more = rest.
  Proof.
    destruct v as [t|xs]; cbn [fits_in cut series].
    - intros _ [= <-] [= <-]. rewrite map_app. eexists. split; [reflexivity|]. rewrite map_map. cbn. apply map_id.
    - intros L. rewrite L, Nat.eqb_refl. intros [= <-].
      assert (K : (length idx <= length xs)%nat) by (rewrite L, app_length; lia). rewrite firstn_len by exact K. rewrite Nat.eqb_refl. intros [= <-].
      exists (combine rest (skipn (length idx) xs)). split.
      + rewrite <- (firstn_skipn (length idx) xs) at 1. clear - K. revert xs K. induction idx as [|a idx IH]; intros [|x xs] K; cbn in *; try reflexivity; try lia.
        f_equal. apply IH. lia.
      + symmetry. apply combine_map_fst. rewrite skipn_length, L, app_length. lia.
  Qed.
  Theorem extrapolation_prefix m p o freq (y y' : Q) x0 act l l' : causal m -> (y <= y')%Q ->
    extrapolate_model m p o freq y x0 act = Ok l -> extrapolate_model m p o freq y' x0 act = Ok l' ->
    exists rest, l' = l ++ rest /\ ((0 < y)%Q -> Forall (fun q => stop_of o < fst q) rest).
  Proof.
    intros C L E E'. destruct (extrapolate_inv _ _ _ _ _ _ _ _ E) as (g & v & G & V & S).
    destruct (extrapolate_inv _ _ _ _ _ _ _ _ E') as (g' & v' & G' & V' & S').
    destruct (grid_prefix _ _ _ _ _ _ _ _ L G G') as (rest & -> & R). unfold call in *.
    destruct g as [|q0 g0] eqn:Eg.
    - assert (l = []) as -> by (apply series_index in S; destruct l; [reflexivity|discriminate]). exists l'. split; [reflexivity|].
      intros P. specialize (R P). cbn [app] in *. apply series_index in S'. rewrite <- Forall_map in R. rewrite <- Forall_map. now rewrite S'.
    - assert (K : (0 < length g <= length (map snd (g ++ rest)))%nat) by (rewrite map_length, app_length, Eg; cbn; lia).
      rewrite <- Eg in *. clear q0 g0 Eg.
      assert (X : forall {B} (h : Z * T -> B), firstn (length g) (map h (g ++ rest)) = map h g).
      { intros B h. rewrite map_app. replace (length g) with (length (map h g)) by apply map_length.
        rewrite firstn_app, firstn_all, Nat.sub_diag. cbn. apply app_nil_r. }
      set (ds := match o with ODate _ _ => Some (map fst (g ++ rest)) | ONum _ _ => None end) in *.
      assert (D : match ds with Some l => length l = length (map snd (g ++ rest)) | None => True end) by (unfold ds; destruct o; [now rewrite !map_length|exact I]).
      destruct (C (length g) _ ds _ _ _ _ K D V') as [F Cv]. rewrite (X _ snd) in Cv.
      assert (option_map (firstn (length g)) ds = match o with ODate _ _ => Some (map fst g) | ONum _ _ => None end) as Ed
        by (unfold ds; destruct o; [cbn [option_map]; now rewrite (X _ fst)|reflexivity]).
      rewrite Ed, V in Cv. injection Cv as ->. rewrite map_app in S', F.
      assert (F' : fits_in (length (map fst g ++ map fst rest)) v') by (rewrite app_length, !map_length; rewrite app_length, !map_length in F; exact F).
      replace (length g) with (length (map fst g)) in S by apply map_length.
      destruct (series_prefix _ _ _ _ _ F' S' S) as (more & -> & Em). exists more. split; [reflexivity|].
      intros P. specialize (R P). rewrite <- Forall_map in R. rewrite <- Forall_map. now rewrite Em.
  Qed.
End Horizon.
