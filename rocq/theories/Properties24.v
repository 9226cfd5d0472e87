(* Wrong numbers of parameters and missing dates (C03), guesses without values (C11), negative numbers
   on the command line (C74). *)
From Coq Require Import ZArith String Ascii List Bool Reals Lia Lra Floats.
From Verif Require Import Num Py Cal Fmt Model Base Dummy Naive Freq Normalize Fit Select Forecast Main.
From Verif Require Import ListProofs NumProofs ModelProofs BaseProofs GuessProofs ForecastProofs TotalProofs Ex Properties5.
Import ListNotations.
Local Open Scope string_scope.
Local Open Scope list_scope.

(* ================= C03 ================= *)
(* the models with a formula of their own *)
Definition formulas {T} `{NumOps T} : list (fmodel T) :=
  [model_constant; model_linear; model_linear_nondec; model_quasilinear; model_exp; model_decay; model_step; model_spike; model_sigmoid_step; model_sigmoid; model_ramp].
(* without parameters TypeError, with a wrong number of them ValueError *)
Theorem C03_wrong_number : forall (T : Type) (N : NumOps T) (m : fmodel T) xs ds mode kw,
  In m formulas \/ (exists t, m = get_model_step_date t) \/ (exists t0 t1, m = get_model_spike_date t0 t1) ->
  call m xs ds None mode kw = Err TypeError /\ forall p, length p <> fm_n m -> call m xs ds (Some p) mode kw = Err ValueError.
Proof.
  intros T N m xs ds mode kw [I|[(t & ->)|(t0 & t1 & ->)]].
  - cbn in I. decompose [or] I; clear I; try contradiction; subst m; (split; [reflexivity|]); intros p L; destruct p as [|a [|b [|c [|d p]]]]; try reflexivity; exfalso; apply L; reflexivity.
  - split; [reflexivity|]. intros [|a [|b p]] L; try reflexivity. exfalso. apply L. reflexivity.
  - split; [reflexivity|]. intros [|a [|b p]] L; try reflexivity. exfalso. apply L. reflexivity.
Qed.
Print Assumptions C03_wrong_number.
(* The seasonal models end in ValueError without parameters.  A Fourier season wants all 20 of them; the
   others only those of the days that occur: spare parameters are ignored, and a missing one is noticed
   (IndexError) when its day comes. *)
Lemma lookup_err {T} `{NumOps T} (b : T) p idx : rmapM (fun i => at_pos (b :: p) (Z.to_nat i)) idx = Err IndexError <-> exists i, In i idx /\ (length p < Z.to_nat i)%nat.
Proof.
  induction idx as [|i idx IH]; [split; [discriminate|intros (i & [] & _)]|]. cbn [rmapM]. unfold at_pos at 1. destruct (nth_error (b :: p) (Z.to_nat i)) as [v|] eqn:E.
  - cbn [rbind]. assert (L : (Z.to_nat i < length (b :: p))%nat) by (apply nth_error_Some; congruence). cbn in L.
    destruct (rmapM _ idx) as [r|e]; cbn [rbind].
    + split; [discriminate|]. intros (j & [<-|J] & Lj); [lia|]. destruct IH as [_ IH]. specialize (IH (ex_intro _ j (conj J Lj))). discriminate.
    + rewrite IH. split; [intros (j & J & Lj); exists j; split; [now right|exact Lj]|intros (j & [<-|J] & Lj); [lia|now exists j]].
  - split; [|reflexivity]. intros _. exists i. split; [now left|]. apply nth_error_None in E. cbn in E. lia.
Qed.
Lemma lookup_more {T} `{NumOps T} (b : T) p q idx : (forall i, In i idx -> (Z.to_nat i <= length p)%nat) ->
  rmapM (fun i => at_pos (b :: p ++ q) (Z.to_nat i)) idx = rmapM (fun i => at_pos (b :: p) (Z.to_nat i)) idx.
Proof.
  induction idx as [|i idx IH]; intros L; [reflexivity|]. cbn [rmapM]. rewrite IH by (intros j J; apply L; now right).
  assert (E : at_pos (b :: p ++ q) (Z.to_nat i) = at_pos (b :: p) (Z.to_nat i)).
  { unfold at_pos. change (b :: p ++ q) with ((b :: p) ++ q). rewrite nth_error_app1; [reflexivity|]. specialize (L i (or_introl eq_refl)). cbn. lia. }
  now rewrite E.
Qed.
Theorem C03_season_number : forall (T : Type) (N : NumOps T) xs ds mode,
  call model_season_wday xs (Some ds) None mode (mkKw None []) = Err (A := nval T) ValueError /\
  call model_season_month xs (Some ds) None mode (mkKw None []) = Err (A := nval T) ValueError /\
  call model_season_fourier_yearly xs (Some ds) None mode (mkKw None []) = Err (A := nval T) ValueError /\
  (forall p : list T, length p <> 20%nat -> call model_season_fourier_yearly xs (Some ds) (Some p) mode (mkKw None []) = Err ValueError) /\
  (forall p : list T, (exists t, In t ds /\ (length p < Z.to_nat (weekday t))%nat) <-> call model_season_wday xs (Some ds) (Some p) mode (mkKw None []) = Err IndexError) /\
  (forall p : list T, (exists t, In t ds /\ (length p + 1 < Z.to_nat (month t))%nat) <-> call model_season_month xs (Some ds) (Some p) mode (mkKw None []) = Err IndexError) /\
  (forall p q : list T, (forall t, In t ds -> (Z.to_nat (weekday t) <= length p)%nat) ->
     call model_season_wday xs (Some ds) (Some (p ++ q)) mode (mkKw None []) = call model_season_wday xs (Some ds) (Some p) mode (mkKw None [])).
Proof.
  intros T N xs ds mode. split; [reflexivity|]. split; [reflexivity|]. split; [reflexivity|]. split; [|split; [|split]].
  - intros p L. unfold call. cbn [fm_f model_season_fourier_yearly mk_model]. unfold f_fourier. cbn [dict_get kw_cache rbind cache_a_t_fourier]. unfold matmul.
    assert (Lm : length (fourier_matrix (T := T) ds) = 20%nat) by (unfold fourier_matrix; rewrite app_length, !map_length, !seq_length; reflexivity). rewrite Lm. now rewrite (proj2 (Nat.eqb_neq _ _) L).
  - intros p. unfold call. cbn [fm_f model_season_wday mk_model]. unfold f_season_wday, cached_ints, season_lookup. cbn [dict_get kw_cache rbind cache_a_weekday need_dates].
    pose proof (lookup_err (nofbool (mode_of false (Some mode))) p (map weekday ds)) as K.
    destruct (rmapM _ (map weekday ds)) as [r|e]; cbn [rbind]; (split; [intros (t & I & L); destruct K as [_ K]; specialize (K (ex_intro _ (weekday t) (conj (in_map weekday ds t I) L))); discriminate K || (injection K as ->; reflexivity)|]); [discriminate|].
    intros [= ->]. destruct K as [K _]. destruct (K eq_refl) as (i & I & L). apply in_map_iff in I as (t & <- & I). now exists t.
  - intros p. unfold call. cbn [fm_f model_season_month mk_model]. unfold f_season_month, cached_ints, season_lookup. cbn [dict_get kw_cache rbind cache_a_month need_dates]. unfold months.
    pose proof (lookup_err (nofbool (mode_of false (Some mode))) p (map (fun t => (month t - 1)%Z) ds)) as K.
    destruct (rmapM _ (map (fun t => (month t - 1)%Z) ds)) as [r|e]; cbn [rbind].
    + split; [|discriminate]. intros (t & I & L). assert (L' : (length p < Z.to_nat (month t - 1))%nat) by lia. destruct K as [_ K]. specialize (K (ex_intro _ (month t - 1)%Z (conj (in_map (fun t => (month t - 1)%Z) ds t I) L'))). discriminate K.
    + split.
      * intros (t & I & L). assert (L' : (length p < Z.to_nat (month t - 1))%nat) by lia. destruct K as [_ K]. specialize (K (ex_intro _ (month t - 1)%Z (conj (in_map (fun t => (month t - 1)%Z) ds t I) L'))). now injection K as ->.
      * intros [= ->]. destruct K as [K _]. destruct (K eq_refl) as (i & I & L). apply in_map_iff in I as (t & <- & I). exists t. split; [exact I|lia].
  - intros p q L. unfold call. cbn [fm_f model_season_wday mk_model]. unfold f_season_wday, cached_ints, season_lookup. cbn [dict_get kw_cache rbind cache_a_weekday need_dates].
    rewrite lookup_more; [reflexivity|]. intros i I. apply in_map_iff in I as (t & <- & I). now apply L.
Qed.
Print Assumptions C03_season_number.
(* Without dates: AttributeError from weekday and month seasons, TypeError from the other models that
   look at dates.  Filling the cache fails in the same way. *)
Theorem C03_no_dates : forall (T : Type) (N : NumOps T) xs (p : list T) mode,
  call model_season_wday xs None (Some p) mode (mkKw None []) = Err AttributeError /\ init_cache (T := T) model_season_wday xs None = Err AttributeError /\
  call model_season_month xs None (Some p) mode (mkKw None []) = Err AttributeError /\ init_cache (T := T) model_season_month xs None = Err AttributeError /\
  call model_season_fourier_yearly xs None (Some p) mode (mkKw None []) = Err TypeError /\ init_cache (T := T) model_season_fourier_yearly xs None = Err TypeError /\
  (forall t a, call (get_model_step_date t) xs None (Some [a]) mode (mkKw None []) = Err (A := nval T) TypeError) /\
  (forall t0 t1 a, call (get_model_spike_date t0 t1) xs None (Some [a]) mode (mkKw None []) = Err (A := nval T) TypeError).
Proof. intros T N xs p mode. repeat split. Qed.
Print Assumptions C03_no_dates.
Example C03_number_example : let N := fops in
  In (A := fmodel float) model_linear formulas /\ call (T := float) model_linear [1%float] None (Some [1%float]) false (mkKw None []) = Err ValueError /\
  call (T := float) model_season_wday [0; 1]%float (Some [ts 2018 1 1; ts 2018 1 2]) (Some [5%float]) false (mkKw None []) = Ok (Ar [0; 5]%float) /\
  call (T := float) model_season_wday [0; 1; 2]%float (Some [ts 2018 1 1; ts 2018 1 2; ts 2018 1 3]) (Some [5%float]) false (mkKw None []) = Err IndexError.
Proof. split; [right; left; reflexivity|]. vm_compute. repeat split. Qed.

(* ================= C11 ================= *)
(* Guesses without values: random, each parameter anywhere in its range, independently of the others.
   [spans m l]: the guesses without any data are exactly the lists within the ranges [l]. *)
Definition within_ranges (l : list (R * R)) (p : list R) : Prop := Forall2 (fun ab v => (fst ab <= v < snd ab)%R) l p.
Definition spans (m : fmodel XR) (l : list (R * R)) : Prop := forall mult,
  (forall rnd, draws rnd -> exists p, fm_init m None None None mult rnd = Ok (fins p) /\ within_ranges l p) /\
  (forall p, within_ranges l p -> exists rnd, draws rnd /\ fm_init m None None None mult rnd = Ok (fins p)).
Lemma list_nth_seq {A} (p : list A) a : p = map (fun i => nth i p a) (seq 0 (length p)).
Proof. induction p as [|v p IH]; [reflexivity|]. cbn [length seq map nth]. f_equal. rewrite <- seq_shift, map_map. exact IH. Qed.
Lemma uniforms_span a b n : (a < b)%R ->
  (forall rnd, draws rnd -> exists p, uniforms (Fin a) (Fin b) rnd n = fins p /\ within_ranges (repeat (a, b) n) p) /\
  (forall p, within_ranges (repeat (a, b) n) p -> exists rnd, draws rnd /\ uniforms (Fin a) (Fin b) rnd n = fins p).
Proof.
  intros L. split.
  - intros rnd D. unfold uniforms. generalize 0%nat. induction n as [|n IH]; intros i; [exists []; split; [reflexivity|constructor]|].
    destruct (IH (S i)) as (p & E & W). destruct (D i) as (r & Er & Hr). exists ((a + (b - a) * r)%R :: p). cbn [seq map repeat]. split.
    + rewrite E. unfold uniform. rewrite Er. reflexivity.
    + constructor; [cbn; nra|exact W].
  - intros p W. exists (fun i => Fin ((nth i p a - a) / (b - a))%R). split.
    + intros i. exists ((nth i p a - a) / (b - a))%R. split; [reflexivity|].
      assert (K : (a <= nth i p a < b)%R).
      { revert i p W. induction n as [|n IH]; intros i p W; inversion W as [|? v ? q K W']; subst; [destruct i; cbn; lra|]. destruct i; cbn; [exact K|now apply IH]. }
      split; [apply Rmult_le_pos; [lra|left; apply Rinv_0_lt_compat; lra]|]. apply Rmult_lt_reg_r with (b - a)%R; [lra|]. unfold Rdiv. rewrite Rmult_assoc, Rinv_l by lra. lra.
    + assert (Ln : length p = n) by (apply Forall2_len in W; now rewrite repeat_length in W). unfold uniforms, uniform. unfold fins.
      etransitivity; [|apply (f_equal (map Fin)); symmetry; apply (list_nth_seq p a)]. rewrite map_map, Ln. apply map_ext. intros i. cbn. f_equal. field. lra.
Qed.

Theorem C11_without_values :
  spans model_constant [(0, 1)]%R /\ spans model_linear (repeat (0, 1) 2)%R /\ spans model_linear_nondec (repeat (0, 1) 2)%R /\ spans model_step (repeat (0, 1) 2)%R /\
  spans model_two_steps (repeat (0, 1) 4)%R /\ spans model_sigmoid_step (repeat (0, 1) 3)%R /\ spans model_ramp (repeat (0, 1) 2)%R /\
  (forall t, spans (get_model_step_date t) [(0, 1)]%R) /\ (forall t0 t1, spans (get_model_spike_date t0 t1) [(1, 2)]%R) /\
  spans model_quasilinear (repeat (1 / 1000, 1) 3)%R /\ spans model_exp (repeat (1 / 1000, 1) 2)%R /\
  spans model_season_wday (repeat (1 / 1000, 1) 6)%R /\ spans model_season_month (repeat (-1, 1) 11)%R /\ spans model_season_month_old (repeat (1 / 1000, 1) 11)%R /\
  spans model_season_fourier_yearly (repeat (1 / 1000, 1) 20)%R /\
  (forall mult rnd, fm_init model_decay None None None mult rnd = Ok (fins [0; 0; 0]%R)) /\
  (* one number instead of three *)
  (forall mult rnd, draws rnd -> exists v, fm_init model_spike None None None mult rnd = Ok (fins [v]) /\ (3 <= v < 4)%R) /\
  (forall m1 m2 l1 l2, fm_name m1 <> "null" -> fm_name m2 <> "null" -> spans m1 l1 -> spans m2 l2 -> spans (madd m1 m2) (l1 ++ l2) /\ spans (mmul m1 m2) (l1 ++ l2)).
Proof.
  assert (U : forall a b n m, (a < b)%R -> (forall mult rnd, fm_init m None None None mult rnd = Ok (uniforms (Fin a) (Fin b) rnd n)) -> spans m (repeat (a, b) n)).
  { intros a b n m L E mult. destruct (uniforms_span a b n L) as [A B]. split.
    - intros rnd D. destruct (A rnd D) as (p & Ep & W). exists p. now rewrite E, Ep.
    - intros p W. destruct (B p W) as (rnd & D & Ep). exists rnd. now rewrite E, Ep. }
  assert (U01 : forall n m, (forall mult rnd, fm_init m None None None mult rnd = Ok (uniforms n0 n1 rnd n)) -> spans m (repeat (0, 1)%R n)).
  { intros n m E. apply (U 0%R 1%R); [lra|]. intros mult rnd. now rewrite E, n0_fin, n1_fin. }
  assert (Ud : forall n m, (forall mult rnd, fm_init m None None None mult rnd = Ok (uniforms (dec 1 1000) n1 rnd n)) -> spans m (repeat (1 / 1000, 1)%R n)).
  { intros n m E. apply U; [lra|]. intros mult rnd. now rewrite E, dec_1_1000, n1_fin. }
  split; [apply (U01 1%nat); reflexivity|]. split; [apply U01; reflexivity|]. split.
  { intros mult. destruct (uniforms_span 0 1 2 ltac:(lra)) as [A B].
    assert (E : forall rnd p, uniforms (Fin 0) (Fin 1) rnd 2 = fins p -> within_ranges (repeat (0, 1)%R 2) p -> fm_init model_linear_nondec None None None mult rnd = Ok (fins p)).
    { intros rnd p Ep W. cbn [fm_init model_linear_nondec mk_model]. unfold init_validated, init_linear_nondec, init_linear. rewrite n0_fin, n1_fin, Ep. cbn [rbind].
      inversion W as [|? v ? q K W']; subst. cbn [fins map]. cbn. destruct (Rltb_spec v 0); [cbn in K; lra|reflexivity]. }
    split.
    - intros rnd D. destruct (A rnd D) as (p & Ep & W). exists p. split; [now apply E|exact W].
    - intros p W. destruct (B p W) as (rnd & D & Ep). exists rnd. split; [exact D|now apply E]. }
  split; [apply U01; reflexivity|]. split; [apply U01; reflexivity|]. split; [apply U01; reflexivity|]. split; [apply U01; reflexivity|].
  split; [intros t; apply (U01 1%nat); reflexivity|]. split.
  { intros t0 t1 mult. split.
    - intros rnd D. destruct (D 0%nat) as (r & Er & Hr). exists [(1 + (0 + (1 - 0) * r))%R]. split; [cbn; unfold uniform; rewrite Er; reflexivity|constructor; [cbn; lra|constructor]].
    - intros p W. inversion W as [|? v ? q K W']; subst. inversion W'; subst. cbn in K. exists (fun _ => Fin (v - 1)%R). split; [intros i; exists (v - 1)%R; split; [reflexivity|lra]|].
      cbn. do 3 f_equal. lra. }
  split; [apply Ud; reflexivity|]. split; [apply Ud; reflexivity|]. split; [apply Ud; reflexivity|].
  split; [apply U; [lra|]; intros mult rnd; cbn [fm_init model_season_month mk_model]; unfold init_validated, init_season_month; now rewrite ofZ_fin, n1_fin|].
  split; [apply Ud; reflexivity|]. split; [apply Ud; reflexivity|]. split; [reflexivity|]. split.
  { intros mult rnd D. destruct (D 0%nat) as (r & Er & Hr). exists (1 + (0 + (1 - 0) * r) + 2)%R. split; [cbn; unfold uniform; rewrite Er; reflexivity|lra]. }
  intros m1 m2 l1 l2 N1 N2 S1 S2.
  assert (G : forall mode m, (forall mult rnd, fm_init m None None None mult rnd = init_combine mode (fm_init m1) (fm_init m2) None None None mult rnd) -> spans m (l1 ++ l2)).
  { intros mode m E mult. destruct (S1 mode) as [A1 B1], (S2 mode) as [A2 B2]. split.
    - intros rnd D. destruct (draws_split rnd D) as [D1 D2]. destruct (A1 _ D1) as (p1 & E1 & W1), (A2 _ D2) as (p2 & E2 & W2). exists (p1 ++ p2). split.
      + rewrite E. unfold init_combine. rewrite E1, E2. cbn [rbind]. unfold fins. now rewrite map_app.
      + now apply Forall2_app.
    - intros p W. apply Forall2_app_inv_l in W as (p1 & p2 & W1 & W2 & ->). destruct (B1 p1 W1) as (r1 & D1 & E1), (B2 p2 W2) as (r2 & D2 & E2).
      exists (fun i => if Nat.even i then r1 (Nat.div2 i) else r2 (Nat.div2 i)). split; [intros i; destruct (Nat.even i); [apply D1|apply D2]|].
      rewrite E. unfold init_combine.
      assert (K1 : rnd_l (fun i => if Nat.even i then r1 (Nat.div2 i) else r2 (Nat.div2 i)) = r1).
      { apply FunctionalExtensionality.functional_extensionality. intros i. unfold rnd_l. rewrite Nat.even_mul. cbn [Nat.even orb]. f_equal. apply Nat.div2_double. }
      assert (K2 : rnd_r (fun i => if Nat.even i then r1 (Nat.div2 i) else r2 (Nat.div2 i)) = r2).
      { apply FunctionalExtensionality.functional_extensionality. intros i. unfold rnd_r. rewrite Nat.add_comm, Nat.even_add_mul_2. cbn [Nat.even]. f_equal. apply Nat.div2_succ_double. }
      rewrite K1, K2, E1, E2. cbn [rbind]. unfold fins. now rewrite map_app. }
  split; [apply (G false)|apply (G true)]; intros mult rnd; unfold madd, mmul; rewrite !is_null_false by assumption; reflexivity.
Qed.
Print Assumptions C11_without_values.
(* A missing value among the samples spoils the Fourier guess; fit_model drops such rows first (C37).
   Without samples every guess that reads them fails. *)
Theorem C11_missing : forall ys mult rnd d, In XNaN ys -> draws rnd -> fm_init model_season_fourier_yearly None (Some ys) d mult rnd = Ok (repeat XNaN 20).
Proof.
  intros ys mult rnd d I D. cbn [fm_init model_season_fourier_yearly mk_model]. unfold init_validated, init_fourier, np_max, np_min.
  assert (E : existsb nisnan ys = true) by (apply existsb_exists; exists XNaN; split; [exact I|reflexivity]). rewrite E. cbn [rbind].
  rewrite dec_1_1000, n1_fin. destruct (uniforms_fin (1 / 1000) 1 rnd 20 D) as (l & -> & L). f_equal. rewrite <- L. unfold fins. clear. induction l as [|v l IH]; [reflexivity|]. cbn [map length repeat]. now rewrite IH.
Qed.
Print Assumptions C11_missing.
Theorem C11_no_samples : forall (T : Type) (N : NumOps T) d mult rnd,
  let g (m : fmodel T) := fm_init m (Some []) (Some []) d mult rnd in
  map g [model_linear; model_linear_nondec; model_decay; model_step; model_two_steps; model_sigmoid_step] = repeat (Err IndexError) 6 /\
  map g [model_spike; model_season_fourier_yearly] = repeat (Err ValueError) 2 /\
  (forall t, g (get_model_step_date t) = Err IndexError) /\ (forall t0 t1, g (get_model_spike_date t0 t1) = Err ValueError).
Proof. intros T N d mult rnd g. repeat split. Qed.
Print Assumptions C11_no_samples.
Example C11_guess_example : spans (madd model_linear model_season_wday) (repeat (0, 1) 2 ++ repeat (1 / 1000, 1) 6)%R /\ within_ranges (repeat (0, 1) 2)%R [0; 1 / 2]%R.
Proof.
  destruct C11_without_values as (_ & L & _ & _ & _ & _ & _ & _ & _ & _ & _ & W & _ & _ & _ & _ & _ & K).
  split; [apply K; try discriminate; assumption|]. repeat (constructor; [cbn; lra|]). constructor.
Qed.

(* ================= C74 ================= *)
(* A word that begins with '-' and is no option, nor an abbreviation of one, counts as a value if it is a
   negative number in decimal digits. *)
Definition digits (s : string) : Prop := forall c, In c (list_ascii_of_string s) -> In c (list_ascii_of_string "0123456789").
Lemma is_digit_iff c : is_digit c = true <-> In c (list_ascii_of_string "0123456789").
Proof. destruct c as [[] [] [] [] [] [] [] []]; cbn; split; intros K; try reflexivity; try discriminate; try (decompose [or] K; try contradiction; discriminate); tauto. Qed.
Lemma all_digits_iff s : all_digits s = true <-> digits s.
Proof.
  induction s as [|c s IH]; [split; [intros _ c []|reflexivity]|]. cbn [all_digits]. rewrite andb_true_iff, is_digit_iff, IH. unfold digits. cbn [list_ascii_of_string In]. split.
  - intros [A B] c' [<-|I]; auto.
  - intros A. split; [apply A; now left|]. intros c' I. apply A. now right.
Qed.
Theorem C74_negative : forall s, negative_number s = true <->
  exists a, digits a /\ ((a <> "" /\ s = ("-" ++ a)%string) \/ exists b, digits b /\ b <> "" /\ s = ("-" ++ a ++ "." ++ b)%string).
Proof.
  assert (P : forall r, point_digits r = true <-> exists a b, digits a /\ digits b /\ b <> "" /\ r = (a ++ "." ++ b)%string).
  { induction r as [|c r IH]; cbn [point_digits].
    - split; [discriminate|]. intros ([|? ?] & b & _ & _ & _ & E); discriminate.
    - destruct (Ascii.eqb_spec c ".") as [->|Nc].
      + rewrite andb_true_iff, all_digits_iff, negb_true_iff, String.eqb_neq. split.
        * intros [A B]. exists "", r. repeat split; auto. intros c [].
        * intros ([|c a] & b & Da & Db & Nb & E); [injection E as ->; auto|]. exfalso. injection E as <- _. specialize (Da "."%char (or_introl eq_refl)). cbn in Da. decompose [or] Da; try contradiction; discriminate.
      + rewrite andb_true_iff, is_digit_iff, IH. split.
        * intros [A (a & b & Da & Db & Nb & ->)]. exists (String c a), b. repeat split; auto. intros c' [<-|I]; auto.
        * intros ([|c' a] & b & Da & Db & Nb & E); [injection E as -> _; now destruct Nc|]. injection E as -> ->. split; [apply Da; now left|].
          exists a, b. repeat split; auto. intros c I. apply Da. now right. }
  intros [|c r]; cbn [negative_number].
  - split; [discriminate|]. intros (a & _ & [(_ & E)|(b & _ & _ & E)]); discriminate.
  - rewrite andb_true_iff, orb_true_iff, andb_true_iff, all_digits_iff, negb_true_iff, String.eqb_neq, P. split.
    + intros [C K]. apply Ascii.eqb_eq in C. subst c. destruct K as [[A B]|(a & b & Da & Db & Nb & ->)]; [exists r; auto|]. exists a. split; [exact Da|]. right. exists b. auto.
    + intros (a & Da & [(Na & E)|(b & Db & Nb & E)]); injection E as -> ->; (split; [reflexivity|]); [left; auto|right; exists a, b; auto].
Qed.
Print Assumptions C74_negative.
Theorem C74_number_is_value : forall s, startswith s "-" = true -> lookup s = None -> split_eq s = None -> abbreviated s = [] ->
  (classify s = Some (TArg s) <-> s = "-" \/ negative_number s = true \/ has_space s = true).
Proof.
  intros s A B C D. unfold classify. rewrite A, B, C, D. cbn [negb]. destruct (String.eqb_spec s "-") as [->|Ns]; [tauto|].
  destruct (negative_number s); [tauto|]. destruct (has_space s); [tauto|]. split; [discriminate|]. intros [E|[E|E]]; [contradiction|discriminate|discriminate].
Qed.
Print Assumptions C74_number_is_value.
Example C74_negative_example : map negative_number ["-1"; "-0.5"; "-.5"; "-5."; "-"; "-1e3"; "-:"; "1"] = [true; true; true; false; false; false; false; false] /\
  lookup "-0.5" = None /\ split_eq "-0.5" = None /\ abbreviated "-0.5" = [] /\ classify "-0.5" = Some (TArg "-0.5").
Proof. vm_compute. repeat split. Qed.

(* ================= C67 ================= *)
(* without a detected frequency the long source name says so *)
Example C67_no_frequency : let N := fops in
  rmap md_source_long (fit_model (Properties5.ex_env (LDone true 4 [1; 2])%float) model_linear (Properties5.ex_frame true [(1, 1); (2, 1); (3, 1); (5, 1)]%float) None "s" None true) =
  Ok "s:#-#:None:2018-01-01::2018-01-04".
Proof. vm_compute. reflexivity. Qed.
