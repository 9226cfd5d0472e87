(* Missing positions and calls of naive models that fail (C11, C20, C21). *)
From Coq Require Import ZArith String List Bool Arith Reals PrimFloat Lia Ascii.
From Verif Require Import Num Py Cal Fmt Model Base Dummy Naive Normalize.
From Verif Require Import ListProofs CalProofs ModelProofs NameProofs Ex.
Import ListNotations.
Local Open Scope string_scope.
Local Open Scope list_scope.

(* ================= C11 ================= *)
(* the models a composition is made of *)
Fixpoint parts {T : Type} (t : tree T) : list (fmodel T) := match t with Leaf m => [m] | TAdd a b | TMul a b => parts a ++ parts b end.
(* no model guesses parameters for samples with a missing position *)
Theorem C11_missing_x : forall (T : Type) (N : NumOps T) (t : tree T) xs ys ds mult rnd,
  (forall m, In m (parts t) -> In m shipped \/ (exists d, m = get_model_step_date d) \/ (exists d e, m = get_model_spike_date d e)) ->
  (exists x, In x xs /\ nisnan x = true) -> fm_init (build t) (Some xs) ys ds mult rnd = Err ValueError.
Proof.
  intros T N t xs ys ds mult rnd L X. assert (E : existsb nisnan xs = true) by (apply existsb_exists; exact X). clear X.
  assert (K : forall name n f init b v c d, fm_init (mk_model name n f init b v c d) (Some xs) ys ds mult rnd = Err ValueError).
  { intros. cbn [fm_init mk_model]. unfold init_validated. now rewrite E. }
  induction t as [m|a IHa b IHb|a IHa b IHb]; cbn [build parts] in *.
  - destruct (L m (or_introl eq_refl)) as [I|[(d & ->)|(d & e & ->)]]; [|apply K|apply K].
    cbn [shipped In] in I. decompose [or] I; clear I; try contradiction; subst m; apply K.
  - unfold madd. destruct (is_null (build a)); [apply IHb; intros m I; apply L, in_or_app; now right|].
    destruct (is_null (build b)); [apply IHa; intros m I; apply L, in_or_app; now left|]. apply K.
  - unfold mmul. destruct (is_null (build a)); [apply IHb; intros m I; apply L, in_or_app; now right|].
    destruct (is_null (build b)); [apply IHa; intros m I; apply L, in_or_app; now left|]. apply K.
Qed.
Print Assumptions C11_missing_x.
Example C11_missing_x_example : let N := fops in
  fm_init (build (TAdd (Leaf model_linear) (Leaf model_season_wday))) (Some [0; nan; 2])%float (Some [1; 2; 3])%float None false (fun _ => 0%float) = Err ValueError /\
  (exists g, fm_init (build (TAdd (Leaf model_linear) (Leaf model_season_wday))) (Some [0; 1; 2])%float (Some [1; 2; 3])%float None false (fun _ => 0%float) = Ok g).
Proof. split; [vm_compute; reflexivity|]. eexists. vm_compute. reflexivity. Qed.

(* ================= C20, C21 ================= *)
(* [kw_actuals kw]: the table of actuals; [kw_cache kw]: cached columns, which these models do not take *)
Theorem C20_fails : forall (T : Type) (N : NumOps T) a_x a_date p mode kw, let r := call (T := T) model_naive a_x a_date p mode kw in
  ((exists v, r = Ok v) <-> kw_cache kw = [] /\ exists df, kw_actuals kw = Some df /\ (forall ds, a_date = Some ds -> length ds = length a_x) /\ (has_date df = true -> a_date <> None)) /\
  (r = Err TypeError <-> kw_cache kw <> []) /\ (forall e, r = Err e -> e = TypeError \/ e = ValueError).
Proof.
  intros T N a_x a_date p mode kw. unfold call. cbn [fm_f model_naive mk_model]. unfold f_naive. destruct (kw_cache kw) as [|q l].
  2: { split; [split; [intros (v & K); discriminate K|intros [K _]; discriminate K]|]. split; [split; [discriminate|reflexivity]|]. intros e [= <-]. now left. }
  destruct (kw_actuals kw) as [df|].
  2: { split; [split; [intros (v & K); discriminate K|intros (_ & df & K & _); discriminate K]|]. split; [split; [discriminate|congruence]|]. intros e [= <-]. now right. }
  unfold requests. destruct a_date as [ds|].
  - destruct (Nat.eqb_spec (length ds) (length a_x)) as [L|L]; cbn [rbind].
    + destruct (has_date df) eqn:H; cbv beta iota zeta; (split; [split; [intros _|intros _; eexists; reflexivity]|split; [split; [discriminate|congruence]|intros e K; discriminate K]]); (split; [reflexivity|]; exists df; split; [reflexivity|]; split; [now intros ? [= <-]|discriminate]).
    + split; [split; [intros (v & K); discriminate K|intros (_ & df' & _ & K & _); exfalso; apply L; now apply K]|]. split; [split; [discriminate|congruence]|]. intros e [= <-]. now right.
  - cbn [rbind]. destruct (has_date df) eqn:H; cbv beta iota zeta.
    + split; [split; [intros (v & K); discriminate K|intros (_ & df' & [= <-] & _ & K); exfalso; now apply K]|]. split; [split; [discriminate|congruence]|]. intros e [= <-]. now right.
    + split; [split; [intros _|intros _; eexists; reflexivity]|split; [split; [discriminate|congruence]|intros e K; discriminate K]]. split; [reflexivity|]. exists df. split; [reflexivity|]. split; [discriminate|congruence].
Qed.
Print Assumptions C20_fails.
Theorem C21_fails : forall (T : Type) (N : NumOps T) a_x a_date p mode kw, let r := call (T := T) model_snaive_wday a_x a_date p mode kw in
  ((exists v, r = Ok v) <-> kw_cache kw = [] /\ exists df ds, kw_actuals kw = Some df /\ has_date df = true /\ a_date = Some ds /\ length ds = length a_x) /\
  (r = Err TypeError <-> kw_cache kw <> []) /\
  (r = Err AttributeError <-> kw_cache kw = [] /\ exists df, kw_actuals kw = Some df /\ (has_date df = false \/ a_date = None)) /\
  (forall e, r = Err e -> e = TypeError \/ e = AttributeError \/ e = ValueError).
Proof.
  intros T N a_x a_date p mode kw. unfold call. cbn [fm_f model_snaive_wday mk_model]. unfold f_snaive_wday. destruct (kw_cache kw) as [|q l].
  2: { split; [split; [intros (v & K); discriminate K|intros [K _]; discriminate K]|]. split; [split; [discriminate|reflexivity]|]. split; [split; [discriminate|intros [K _]; discriminate K]|]. intros e [= <-]. now left. }
  destruct (kw_actuals kw) as [df|].
  2: { split; [split; [intros (v & K); discriminate K|intros (_ & df & ds & K & _); discriminate K]|]. split; [split; [discriminate|congruence]|]. split; [split; [discriminate|intros (_ & df & K & _); discriminate K]|]. intros e [= <-]. auto. }
  destruct (has_date df) eqn:H; cbn [negb].
  2: { split; [split; [intros (v & K); discriminate K|intros (_ & df' & ds & [= <-] & K & _); congruence]|]. split; [split; [discriminate|congruence]|]. split; [split; [intros _; split; [reflexivity|]; exists df; auto|reflexivity]|]. intros e [= <-]. auto. }
  destruct a_date as [ds|].
  2: { split; [split; [intros (v & K); discriminate K|intros (_ & df' & ds & _ & _ & K & _); discriminate K]|]. split; [split; [discriminate|congruence]|]. split; [split; [intros _; split; [reflexivity|]; exists df; auto|reflexivity]|]. intros e [= <-]. auto. }
  unfold requests. destruct (Nat.eqb_spec (length ds) (length a_x)) as [L|L]; cbn [rbind]; cbv zeta.
  - split; [split; [intros _; split; [reflexivity|]; exists df, ds; auto|intros _; eexists; reflexivity]|]. split; [split; [discriminate|congruence]|].
    split; [split; [discriminate|intros (_ & df' & [= <-] & [K|K]); congruence]|]. intros e K. discriminate K.
  - split; [split; [intros (v & K); discriminate K|intros (_ & df' & ds' & _ & _ & [= <-] & K); contradiction]|]. split; [split; [discriminate|congruence]|].
    split; [split; [discriminate|intros (_ & df' & [= <-] & [K|K]); congruence]|]. intros e [= <-]. auto.
Qed.
Print Assumptions C21_fails.
Definition c20_call (m : fmodel float) (hd : bool) (xs : list float) (ds : option (list Z)) : res (nval float) :=
  let N := fops in call m xs ds (Some []) false (mkKw (Some (mkFrame hd false false [mkRow (ts 2018 1 1) "" 0 5%float 1%float; mkRow (ts 2018 1 2) "" 1 6%float 1%float])) []).
Example C20_fails_example : let N := fops in
  c20_call model_naive true [0; 1; 2]%float (Some [ts 2018 1 1; ts 2018 1 2; ts 2018 1 3]) = Ok (Ar [5; 5; 6]%float) /\
  c20_call model_naive true [0; 1; 2]%float (Some [ts 2018 1 1; ts 2018 1 2]) = Err ValueError /\
  c20_call model_naive true [0; 1; 2]%float None = Err ValueError /\
  c20_call model_snaive_wday true [7; 8]%float (Some [ts 2018 1 8; ts 2018 1 9]) = Ok (Ar [5; 6]%float) /\
  c20_call model_snaive_wday true [7; 8]%float (Some [ts 2018 1 8]) = Err ValueError /\
  c20_call model_snaive_wday false [7; 8]%float (Some [ts 2018 1 8; ts 2018 1 9]) = Err AttributeError.
Proof. vm_compute. repeat split; reflexivity. Qed.

(* ================= C82 ================= *)
Local Open Scope string_scope.
(* the number written by a string of decimal digits *)
Fixpoint decimal (acc : Z) (s : string) : option Z :=
  match s with
  | EmptyString => Some acc
  | String c s => let n := (Z.of_nat (nat_of_ascii c) - 48)%Z in if ((0 <=? n) && (n <=? 9))%Z then decimal (10 * acc + n)%Z s else None
  end.
(* the text yyyy-mm-dd of a date *)
Definition iso_text (s : string) (y m d : Z) : Prop := exists a b c, s = a ++ "-" ++ b ++ "-" ++ c /\
  String.length a = 4%nat /\ String.length b = 2%nat /\ String.length c = 2%nat /\ decimal 0 a = Some y /\ decimal 0 b = Some m /\ decimal 0 c = Some d.
Lemma decimal_app s u : forall acc, decimal acc (s ++ u) = match decimal acc s with Some n => decimal n u | None => None end.
Proof. induction s as [|c s IH]; intros acc; [reflexivity|]. cbn [append decimal]. cbv zeta. destruct (_ && _)%bool; [apply IH|reflexivity]. Qed.
Lemma decimal_digits k : forall z acc, (0 <= z < 10 ^ Z.of_nat k)%Z -> decimal acc (digits k z) = Some (acc * 10 ^ Z.of_nat k + z)%Z.
Proof.
  induction k as [|k IH]; intros z acc B.
  - cbn in B. cbn [digits decimal]. f_equal. change (10 ^ Z.of_nat 0)%Z with 1%Z. lia.
  - rewrite Nat2Z.inj_succ, Z.pow_succ_r in * by lia. cbn [digits]. rewrite decimal_app, IH by (split; [apply Z.div_pos; lia|apply Z.div_lt_upper_bound; lia]).
    pose proof (Z.mod_pos_bound z 10 ltac:(lia)) as M. unfold digit. cbn [decimal]. cbv zeta. rewrite nat_ascii_embedding by lia.
    replace (Z.of_nat (48 + Z.to_nat (z mod 10)) - 48)%Z with (z mod 10)%Z by lia.
    rewrite (proj2 (Z.leb_le _ _) (proj1 M)), (proj2 (Z.leb_le (z mod 10) 9)) by lia. cbn [andb]. f_equal. pose proof (Z.div_mod z 10 ltac:(lia)). lia.
Qed.
Theorem C82_dated : forall (T : Type) (N : NumOps T) a b, written a -> written b ->
  (exists s, fm_name (get_model_step_date (T := T) a) = "step_date[" ++ s ++ "]" /\ iso_text s (year a) (month a) (dom a)) /\
  (exists s u, fm_name (get_model_spike_date (T := T) a b) = "spike_date[" ++ s ++ "," ++ u ++ "]" /\ iso_text s (year a) (month a) (dom a) /\ iso_text u (year b) (month b) (dom b)).
Proof.
  assert (K : forall t, written t -> iso_text (fmt_date t) (year t) (month t) (dom t)).
  { intros t W. exists (digits 4 (year t)), (digits 2 (month t)), (digits 2 (dom t)). split; [reflexivity|]. rewrite !digits_length. do 3 (split; [reflexivity|]). unfold written in W.
    unfold year, month, dom in *. destruct (civil_of_day (day_of t)) as [[Mt Dt] _]. pose proof (days_in_month_le (year_of_day (day_of t)) (month_of_day (day_of t))).
    split; [|split]; rewrite decimal_digits; try reflexivity; [change (10 ^ Z.of_nat 4)%Z with 10000%Z|change (10 ^ Z.of_nat 2)%Z with 100%Z|change (10 ^ Z.of_nat 2)%Z with 100%Z]; lia. }
  intros T N a b A B. split; [exists (fmt_date a)|exists (fmt_date a), (fmt_date b)]; (split; [reflexivity|auto]).
Qed.
Print Assumptions C82_dated.
Example C82_dated_example : iso_text "2018-03-09" 2018 3 9 /\ fm_name (get_model_spike_date (T := XR) (ts 2018 3 9) (ts 2019 12 31)) = "spike_date[2018-03-09,2019-12-31]".
Proof. split; [|vm_compute; reflexivity]. exists "2018", "03", "09". repeat (split; [reflexivity|]). reflexivity. Qed.
