(* Outlier detection over the reals: invariances, and what is detected in simple series (C44). *)
From Coq Require Import ZArith String List Bool Lia Reals Lra Sorted Permutation.
From Verif Require Import Num Py Cal Model Outliers ListProofs NumProofs OutlierProofs.
Import ListNotations.
Local Open Scope list_scope.

Definition set_y {T} (r : row T) (y : T) : row T := mkRow (r_date r) (r_src r) (r_x r) y (r_w r).
Definition map_y {T} (g : T -> T) (f : frame T) : frame T :=
  mkFrame (has_date f) (has_src f) (has_w f) (map (fun r => set_y r (g (r_y r))) (rows f)).
Lemma map_y_positions {T} (g : T -> T) f : positions (map_y g f) = positions f.
Proof. unfold positions, map_y. cbn. rewrite map_map. reflexivity. Qed.
Lemma map_y_y {T} (g : T -> T) f : map r_y (rows (map_y g f)) = map g (map r_y (rows f)).
Proof. unfold map_y. cbn. rewrite !map_map. reflexivity. Qed.

(* ---------- adding a constant ---------- *)
Lemma xsub_shift (a b : XR) c : nsub (nadd a (Fin c)) (nadd b (Fin c)) = nsub a b.
Proof. destruct a, b; try reflexivity. unfold nsub, nadd; cbn. f_equal. lra. Qed.
Lemma np_diff_shift (l : list XR) c : np_diff (map (fun y => nadd y (Fin c)) l) = np_diff l.
Proof.
  induction l as [|a l IH]; [reflexivity|]. destruct l as [|b l]; [reflexivity|].
  change (np_diff (map (fun y => nadd y (Fin c)) (a :: b :: l))) with
    (nsub (nadd b (Fin c)) (nadd a (Fin c)) :: np_diff (map (fun y => nadd y (Fin c)) (b :: l))).
  rewrite IH, xsub_shift. reflexivity.
Qed.
Lemma outliers_shift (f : frame XR) c : model_outliers (map_y (fun y => nadd y (Fin c)) f) = model_outliers f.
Proof.
  unfold model_outliers. fold (positions (map_y (fun y => nadd y (Fin c)) f)). fold (positions f). rewrite map_y_positions.
  rewrite map_y_y. replace (pd_diff (map (fun y => nadd y (Fin c)) (map r_y (rows f)))) with (pd_diff (map r_y (rows f))).
  - unfold map_y at 3 4. cbn [rows]. rewrite map_length. reflexivity.
  - unfold pd_diff. rewrite np_diff_shift. destruct (map r_y (rows f)); reflexivity.
Qed.

(* ---------- multiplying by a positive number ---------- *)
Section Scale.
  Variable k : R.
  Hypothesis Hk : (0 < k)%R.
  Definition sc (a : XR) : XR := match a with Fin r => Fin (k * r) | a => a end.
  Lemma sc_mul a : nmul a (Fin k) = sc a.
  Proof.
    destruct a; cbn; try reflexivity; unfold xsgninf, Reqb, Rltb; try (destruct (Req_EM_T k 0); [lra|]; destruct (Rlt_dec k 0); [lra|reflexivity]).
    f_equal. lra.
  Qed.
  Lemma sc_add a b : nadd (sc a) (sc b) = sc (nadd a b).
  Proof. destruct a, b; try reflexivity. cbn. f_equal. lra. Qed.
  Lemma sc_sub a b : nsub (sc a) (sc b) = sc (nsub a b).
  Proof. destruct a, b; try reflexivity. cbn. f_equal. lra. Qed.
  Lemma sc_abs a : nabs (sc a) = sc (nabs a).
  Proof. destruct a; try reflexivity. cbn. f_equal. rewrite Rabs_mult. rewrite (Rabs_right k) by lra. reflexivity. Qed.
  Lemma sc_cmul c a : nmul (Fin c) (sc a) = sc (nmul (Fin c) a).
  Proof. destruct a; cbn; try reflexivity; try (unfold xsgninf; destruct (Reqb c 0); [reflexivity|]; destruct (xorb _ _); reflexivity). f_equal. lra. Qed.
  Lemma sc_cdiv a c : ndiv (sc a) (Fin c) = sc (ndiv a (Fin c)).
  Proof.
    destruct a; cbn; try reflexivity; try (destruct (Rltb c 0); reflexivity).
    unfold Reqb, xsgninf, Rltb, Reqb. destruct (Req_EM_T c 0).
    - destruct (Req_EM_T (k * r) 0) as [E|E], (Req_EM_T r 0) as [E'|E']; try reflexivity.
      + exfalso. apply E'. apply (Rmult_eq_reg_l k); lra.
      + exfalso. apply E. subst. lra.
      + destruct (Rlt_dec (k * r) 0) as [L|L], (Rlt_dec r 0) as [L'|L']; try reflexivity; exfalso; nra.
    - cbn. f_equal. field. assumption.
  Qed.
  Lemma sc_ltb a b : nltb (sc a) (sc b) = nltb a b.
  Proof.
    destruct a, b; try reflexivity. cbn. unfold Rltb. destruct (Rlt_dec (k * r) (k * r0)) as [L|L], (Rlt_dec r r0) as [L'|L']; try reflexivity; exfalso; nra.
  Qed.
  Lemma sc_leb a b : nleb (sc a) (sc b) = nleb a b.
  Proof.
    destruct a, b; try reflexivity. cbn. unfold Rleb. destruct (Rle_dec (k * r) (k * r0)) as [L|L], (Rle_dec r r0) as [L'|L']; try reflexivity; exfalso; nra.
  Qed.
  Lemma sc_nan a : nisnan (sc a) = nisnan a.
  Proof. destruct a; reflexivity. Qed.
  Lemma sc_zero : sc n0 = n0.
  Proof. unfold n0. rewrite ofZ_fin. cbn. f_equal. lra. Qed.
  Lemma sc_sum l : nsum (map sc l) = sc (nsum l).
  Proof.
    unfold nsum. rewrite <- sc_zero at 1. generalize n0 as a. induction l as [|b l IH]; intros a; [reflexivity|]. cbn [map fold_left]. rewrite (sc_add a b). apply IH.
  Qed.
  Lemma dec_fin a b : (b > 0)%Z -> @dec XR _ a b = Fin (IZR a / IZR b).
  Proof. intros L. unfold dec. rewrite !ofZ_fin. cbn. unfold Reqb. destruct (Req_EM_T (IZR b) 0) as [E|E]; [|reflexivity]. exfalso. apply eq_IZR in E. lia. Qed.
  Lemma sc_diff l : np_diff (map sc l) = map sc (np_diff l).
  Proof.
    induction l as [|a l IH]; [reflexivity|]. destruct l as [|b l]; [reflexivity|].
    change (np_diff (map sc (a :: b :: l))) with (nsub (sc b) (sc a) :: np_diff (map sc (b :: l))). rewrite IH, sc_sub. reflexivity.
  Qed.
  Lemma sc_insert a l : insert nleb (sc a) (map sc l) = map sc (insert nleb a l).
  Proof. induction l as [|b l IH]; [reflexivity|]. cbn [map insert]. rewrite sc_leb. destruct (nleb a b); [reflexivity|]. cbn [map]. now rewrite IH. Qed.
  Lemma sc_sort l : isort nleb (map sc l) = map sc (isort nleb l).
  Proof. induction l as [|b l IH]; [reflexivity|]. cbn [map isort]. rewrite IH. apply sc_insert. Qed.
  Lemma sc_non_null l : non_null (map sc l) = map sc (non_null l).
  Proof. unfold non_null. induction l as [|b l IH]; [reflexivity|]. cbn [map filter]. rewrite sc_nan. destruct (negb (nisnan b)); cbn [map]; now rewrite IH. Qed.
  Lemma sc_quantile a b l : (b > 0)%Z -> quantile a b (map sc l) = sc (quantile a b l).
  Proof.
    intros L. unfold quantile. rewrite sc_non_null, sc_sort. destruct (isort nleb (non_null l)) as [|v s]; [reflexivity|].
    rewrite map_length. change (map sc (v :: s)) with (sc v :: map sc s) at 1. cbv iota beta zeta.
    set (p := (Z.of_nat (length (v :: s) - 1) * a)%Z). set (i := Z.to_nat (p / b)).
    rewrite !(map_nth sc). fold (@dec XR _ (p mod b) b). rewrite dec_fin by exact L. rewrite sc_sub, sc_cmul, sc_add. reflexivity.
  Qed.
  Lemma sc_iqr l : iqr_thresholds (map sc l) = (sc (fst (iqr_thresholds l)), sc (snd (iqr_thresholds l))).
  Proof.
    unfold iqr_thresholds. rewrite !sc_quantile by lia. rewrite dec_fin by lia. cbn [fst snd]. now rewrite !sc_sub, !sc_cmul, !sc_sub, sc_add.
  Qed.
  Definition sc_o (s : osample XR) : osample XR := mkO (o_pos s) (sc (o_dif s)) (o_chg s) (o_win s) (o_grp s).
  Lemma sc_osamples lo hi pos dif : osamples (sc lo) (sc hi) pos (map sc dif) = map sc_o (osamples lo hi pos dif).
  Proof.
    unfold osamples. rewrite map_map.
    assert (E : map (fun d => (nltb (sc d) (sc lo) || nltb (sc hi) (sc d))%bool) dif = map (fun d => (nltb d lo || nltb hi d)%bool) dif).
    { apply map_ext. intros d. now rewrite !sc_ltb. }
    rewrite E. clear E. rewrite map_map. generalize (map (fun d => (nltb d lo || nltb hi d)%bool) dif) as c. intros c.
    generalize (groups (rolling3 c)) as g. generalize (rolling3 c) as w. revert dif c.
    induction pos as [|x pos IH]; intros [|d dif] [|c cs] [|w ws] [|g gs]; try reflexivity. cbn. f_equal. apply IH.
  Qed.
  Lemma sc_changed l g : changed (map sc_o l) g = map sc_o (changed l g).
  Proof.
    unfold changed. induction l as [|s l IH]; [reflexivity|]. cbn [map filter]. change (o_grp (sc_o s)) with (o_grp s). change (o_chg (sc_o s)) with (o_chg s).
    destruct (Nat.eqb (o_grp s) g && o_chg s); cbn [map]; now rewrite IH.
  Qed.
  Lemma sc_mean l : omean (map sc l) = sc (omean l).
  Proof.
    destruct l as [|a l]; [symmetry; apply sc_zero|]. unfold omean. change (map sc (a :: l)) with (sc a :: map sc l) at 1. cbv iota.
    rewrite map_length, sc_sum, ofZ_fin, sc_cdiv. reflexivity.
  Qed.
  Lemma last_map {A B} (g : A -> B) l a : last (map g l) (g a) = g (last l a).
  Proof. induction l as [|b l IH]; [reflexivity|]. cbn [map]. destruct l as [|c l]; [reflexivity|]. cbn [map last] in *. exact IH. Qed.
  Lemma sc_step wd lo hi l s : step_at wd (sc lo) (sc hi) (map sc_o l) (sc_o s) = step_at wd lo hi l s.
  Proof.
    unfold step_at. cbv zeta. change (o_grp (sc_o s)) with (o_grp s). rewrite sc_changed. rewrite map_map.
    change (map (fun x => o_dif (sc_o x)) (changed l (o_grp s))) with (map (fun x => sc (o_dif x)) (changed l (o_grp s))).
    rewrite <- (map_map o_dif sc), sc_mean, !sc_ltb. f_equal.
    destruct (changed l (o_grp s)) as [|c ch]; [reflexivity|]. cbn [map].
    change (sc_o c :: map sc_o ch) with (map sc_o (c :: ch)). rewrite last_map. reflexivity.
  Qed.
  Lemma sc_spike wd lo hi l s : spike_at wd (sc lo) (sc hi) (map sc_o l) (sc_o s) = spike_at wd lo hi l s.
  Proof.
    unfold spike_at. cbv zeta. change (o_grp (sc_o s)) with (o_grp s). rewrite sc_changed. rewrite !map_map.
    change (map (fun x => o_dif (sc_o x)) (changed l (o_grp s))) with (map (fun x => sc (o_dif x)) (changed l (o_grp s))).
    rewrite <- (map_map o_dif sc), sc_mean.
    rewrite (map_ext (fun x => nabs (o_dif (sc_o x))) (fun x => sc (nabs (o_dif x)))) by (intros x; apply sc_abs).
    rewrite <- (map_map (fun x => nabs (o_dif x)) sc), sc_mean, sc_abs, !sc_sub, ofZ_fin, sc_cdiv, sc_ltb. f_equal.
    destruct (changed l (o_grp s)) as [|c ch]; [reflexivity|]. cbn [map].
    change (sc_o c :: map sc_o ch) with (map sc_o (c :: ch)). rewrite last_map. reflexivity.
  Qed.
  Lemma outliers_scale (f : frame XR) : model_outliers (map_y (fun y => nmul y (Fin k)) f) = model_outliers f.
  Proof.
    unfold model_outliers. fold (positions (map_y (fun y => nmul y (Fin k)) f)). fold (positions f). rewrite map_y_positions.
    rewrite map_y_y. rewrite (map_ext (fun y => nmul y (Fin k)) sc) by (intros y; apply sc_mul).
    assert (pd_diff (map sc (map r_y (rows f))) = map sc (pd_diff (map r_y (rows f)))) as ->.
    { destruct (map r_y (rows f)) as [|a l]; [reflexivity|]. unfold pd_diff. change (map sc (a :: l)) with (sc a :: map sc l) at 1. cbv iota.
      rewrite sc_diff. reflexivity. }
    rewrite sc_iqr. destruct (iqr_thresholds (pd_diff (map r_y (rows f)))) as [lo hi]. cbn [fst snd]. rewrite sc_osamples.
    change (has_date (map_y (fun y => nmul y (Fin k)) f)) with (has_date f).
    replace (length (rows (map_y (fun y => nmul y (Fin k)) f))) with (length (rows f)) by (cbn; now rewrite map_length).
    set (l := osamples lo hi (positions f) (pd_diff (map r_y (rows f)))).
    assert (existsb o_chg (map sc_o l) = existsb o_chg l) as ->.
    { induction l as [|s l IH]; [reflexivity|]. cbn. now rewrite IH. }
    destruct (has_dup _ _); [reflexivity|]. destruct (existsb o_chg l); [|reflexivity]. rewrite !map_map. do 2 f_equal; apply map_ext; intros s; [apply sc_step|apply sc_spike].
  Qed.
End Scale.

(* ---------- lists of reals ---------- *)
Lemma isort_fin l : isort nleb (map Fin l) = map Fin (isort Rleb l).
Proof.
  induction l as [|a l IH]; [reflexivity|]. cbn [map isort]. rewrite IH. generalize (isort Rleb l) as s. intros s. clear.
  induction s as [|b s IH]; [reflexivity|]. cbn [map insert]. change (nleb (Fin a) (Fin b)) with (Rleb a b). destruct (Rleb a b); [reflexivity|]. cbn [map]. now rewrite IH.
Qed.
Lemma Rleb_total : total_leb Rleb.
Proof. intros a b. unfold Rleb. destruct (Rle_dec a b), (Rle_dec b a); auto. exfalso. lra. Qed.
Lemma Rleb_trans : trans_leb Rleb.
Proof. intros a b c. unfold Rleb. destruct (Rle_dec a b), (Rle_dec b c), (Rle_dec a c); auto; try discriminate. intros. exfalso. lra. Qed.
Lemma Rsorted l : StronglySorted Rle (isort Rleb l).
Proof.
  assert (S : StronglySorted (fun a b => Rleb a b = true) (isort Rleb l)) by (apply (isort_sorted Rleb l Rleb_total Rleb_trans)).
  induction S as [|a l' S IH F]; constructor; auto. rewrite Forall_forall in *. intros x Hx. specialize (F x Hx). unfold Rleb in F. destruct (Rle_dec a x); [assumption|discriminate].
Qed.
Definition count (p : R -> bool) (l : list R) : nat := length (filter p l).
Lemma count_perm p l l' : Permutation l l' -> count p l = count p l'.
Proof.
  intros P. unfold count. induction P as [|a l l' P IH|a b l|l l' l'' P1 IH1 P2 IH2]; cbn; auto; try congruence.
  - destruct (p a); cbn; congruence.
  - destruct (p a), (p b); reflexivity.
Qed.
Lemma sorted_nth_le l : StronglySorted Rle l -> forall i j d, (i <= j < length l)%nat -> (nth i l d <= nth j l d)%R.
Proof.
  induction 1 as [|a l S IH F]; intros i j d L; [cbn in L; lia|]. destruct i as [|i], j as [|j]; try lia; cbn [nth]; cbn [length] in L.
  - lra.
  - rewrite Forall_forall in F. apply F. apply nth_In. lia.
  - apply IH. lia.
Qed.
Lemma count_ge (p : R -> bool) l : forall n d, (n <= length l)%nat -> (forall i, (i < n)%nat -> p (nth i l d) = true) -> (n <= count p l)%nat.
Proof.
  unfold count. induction l as [|a l IH]; intros n d L F; [cbn in L; lia|]. destruct n as [|n]; [lia|]. cbn [filter].
  rewrite (F 0%nat ltac:(lia) : p a = true). cbn [length] in *. apply le_n_S. apply (IH n d); [lia|]. intros i Hi. apply (F (S i)). lia.
Qed.
Lemma filter_rev' {A} (p : A -> bool) l : length (filter p (rev l)) = length (filter p l).
Proof. induction l as [|a l IH]; [reflexivity|]. cbn [rev]. rewrite filter_app, app_length, IH. cbn. destruct (p a); cbn; lia. Qed.
(* the middle of a sorted list in which few values differ from d *)
Lemma sorted_middle l d a b i : StronglySorted Rle l -> count (fun x => Rltb x d) l = a -> count (fun x => Rltb d x) l = b ->
  (a <= i)%nat -> (i + b < length l)%nat -> nth i l d = d.
Proof.
  intros S Ea Eb L1 L2. destruct (Rtotal_order (nth i l d) d) as [L|[E|L]]; [|exact E|]; exfalso.
  - assert (Datatypes.S i <= a)%nat; [|lia]. rewrite <- Ea. apply (count_ge _ l (Datatypes.S i) d); [lia|].
    intros j Hj. pose proof (sorted_nth_le l S j i d ltac:(lia)). unfold Rltb. destruct (Rlt_dec (nth j l d) d); [reflexivity|]. exfalso. lra.
  - assert (length l - i <= b)%nat; [|lia]. rewrite <- Eb. unfold count. rewrite <- filter_rev'.
    apply (count_ge _ (rev l) (length l - i) d); [rewrite rev_length; lia|].
    intros j Hj. rewrite rev_nth by lia. pose proof (sorted_nth_le l S i (length l - Datatypes.S j) d ltac:(lia)).
    unfold Rltb. destruct (Rlt_dec d (nth (length l - Datatypes.S j) l d)); [reflexivity|]. exfalso. lra.
Qed.
Lemma nth_default_irrel {A} (l : list A) i d d' : (i < length l)%nat -> nth i l d = nth i l d'.
Proof. intros L. apply nth_indep. exact L. Qed.
(* a quantile of a list with few values off d is d *)
Lemma quantile_mostly rs d lo hi q : count (fun x => Rltb x d) rs = lo -> count (fun x => Rltb d x) rs = hi ->
  (0 <= q < 4)%Z ->
  (4 * Z.of_nat lo <= Z.of_nat (length rs - 1) * q)%Z ->
  (Z.of_nat (length rs - 1) * q + 4 * Z.of_nat hi <= 4 * Z.of_nat (length rs - 1))%Z -> rs <> [] ->
  quantile q 4 (map Fin rs) = Fin d.
Proof.
  intros El Eh Hq L1 L2 Hn. unfold quantile.
  assert (non_null (map Fin rs) = map Fin rs) as ->.
  { unfold non_null. clear. induction rs as [|a rs IH]; [reflexivity|]. cbn [map filter]. change (negb (nisnan (Fin a))) with true. cbv iota. now rewrite IH. }
  rewrite isort_fin. pose proof (Rsorted rs) as S. pose proof (isort_perm Rleb rs) as P.
  rewrite (count_perm _ _ _ P) in El. rewrite (count_perm _ _ _ P) in Eh. assert (Len : length (isort Rleb rs) = length rs) by (apply isort_length). rewrite <- Len in L1, L2.
  assert (isort Rleb rs <> []) as Hn'. { intros C. rewrite C in Len. destruct rs; [congruence|discriminate]. }
  generalize dependent (isort Rleb rs). intros s El S P Eh Len L1 L2 Hn'. destruct s as [|v s]; [congruence|].
  change (map Fin (v :: s)) with (Fin v :: map Fin s) at 1. cbv iota beta zeta. rewrite map_length.
  set (p := (Z.of_nat (length (v :: s) - 1) * q)%Z) in *. set (i := Z.to_nat (p / 4)).
  assert (Hp : (0 <= p)%Z) by (unfold p; nia).
  assert (Hi : (Z.of_nat i = p / 4)%Z) by (unfold i; rewrite Z2Nat.id; [reflexivity|apply Z.div_pos; lia]).
  assert (M : (4 * (p / 4) + p mod 4 = p)%Z) by (symmetry; apply Z.div_mod; lia). pose proof (Z.mod_pos_bound p 4 ltac:(lia)) as B.
  assert (Ln : (length (v :: s) >= 1)%nat) by (cbn; lia).
  assert (V0 : nth i (v :: s) d = d). { apply (sorted_middle _ _ lo hi); auto; lia. }
  assert (I1 : (i < length (v :: s))%nat) by lia.
  change (Fin v) with (Fin v). rewrite (map_nth Fin (v :: s) v i). rewrite (nth_default_irrel (v :: s) i v d I1), V0.
  destruct (Z.eq_dec (p mod 4) 0) as [Z0|Z0].
  - rewrite Z0, !ofZ_fin. set (v1 := nth (Datatypes.S i) (map Fin (v :: s)) (Fin d)).
    assert (exists r, v1 = Fin r) as (r & ->). { unfold v1. rewrite map_nth. eauto. }
    cbn. unfold Reqb. destruct (Req_EM_T 4 0); [lra|]. cbn. f_equal. field.
  - rewrite map_nth. assert (V1 : nth (Datatypes.S i) (v :: s) d = d). { apply (sorted_middle _ _ lo hi); auto; lia. }
    rewrite V1, !ofZ_fin. cbn. unfold Reqb. destruct (Req_EM_T 4 0); [lra|]. cbn. f_equal. field.
Qed.
Lemma non_null_head l : quantile (T := XR) 1 4 (XNaN :: l) = quantile 1 4 l /\ quantile (T := XR) 3 4 (XNaN :: l) = quantile 3 4 l.
Proof. split; reflexivity. Qed.
(* quartiles of differences that are mostly d *)
Lemma iqr_mostly rs d lo hi : count (fun x => Rltb x d) rs = lo -> count (fun x => Rltb d x) rs = hi ->
  (4 * Z.of_nat lo <= Z.of_nat (length rs) - 1)%Z -> (4 * Z.of_nat hi <= Z.of_nat (length rs) - 1)%Z ->
  iqr_thresholds (XNaN :: map Fin rs) = (Fin d, Fin d).
Proof.
  intros El Eh L1 L2. assert (Hn : rs <> []). { intros ->. cbn [length] in L1. lia. }
  assert (length rs <> 0)%nat as Hl by (destruct rs; [congruence|discriminate]).
  unfold iqr_thresholds. destruct (non_null_head (map Fin rs)) as [-> ->].
  rewrite !(quantile_mostly rs d lo hi) by (auto; lia). rewrite dec_fin by lia. cbn. f_equal; f_equal; lra.
Qed.

(* ---------- a series with constant increments has no outliers ---------- *)
Definition values (f : frame XR) (ys : list R) : Prop := map r_y (rows f) = map Fin ys.
Fixpoint rdiff (l : list R) : list R :=
  match l with a :: ((b :: _) as l') => (b - a)%R :: rdiff l' | _ => [] end.
Lemma np_diff_fin ys : np_diff (map Fin ys) = map Fin (rdiff ys).
Proof.
  induction ys as [|a ys IH]; [reflexivity|]. destruct ys as [|b ys]; [reflexivity|].
  change (np_diff (map Fin (a :: b :: ys))) with (nsub (Fin b) (Fin a) :: np_diff (map Fin (b :: ys))). rewrite IH. cbn. f_equal.
Qed.
Lemma diffs_fin f ys : values f ys -> ys <> [] -> diffs f = XNaN :: map Fin (rdiff ys).
Proof. intros V N. unfold diffs. rewrite V. destruct ys as [|a ys]; [congruence|]. unfold pd_diff. cbn [map]. change (Fin a :: map Fin ys) with (map Fin (a :: ys)). rewrite np_diff_fin. reflexivity. Qed.
Lemma count_const p d l : (forall x, In x l -> x = d) -> p d = false -> count p l = 0%nat.
Proof. intros F E. unfold count. induction l as [|a l IH]; [reflexivity|]. cbn. rewrite (F a (or_introl eq_refl)), E. apply IH. intros x Hx. apply F. now right. Qed.
Lemma Rltb_irrefl d : Rltb d d = false.
Proof. unfold Rltb. destruct (Rlt_dec d d); [lra|reflexivity]. Qed.
Lemma no_diffs_thresholds : iqr_thresholds [XNaN] = (XNaN, XNaN).
Proof. reflexivity. Qed.
Lemma constant_increments f ys d : NoDup (positions f) -> values f ys -> (forall x, In x (rdiff ys) -> x = d) ->
  model_outliers f = Ok (repeat false (length (rows f)), repeat false (length (rows f))).
Proof.
  intros N V C. apply outliers_no_change; [exact N|]. intros i (v & E & K). unfold thresholds in K.
  destruct ys as [|a ys]. { unfold diffs in E. rewrite V in E. destruct i; discriminate. }
  rewrite (diffs_fin f (a :: ys) V) in E, K by discriminate.
  destruct (rdiff (a :: ys)) as [|x l] eqn:D.
  - cbn in K. destruct i as [|i]; [|destruct i; discriminate]. cbn in E. injection E as <-. discriminate.
  - rewrite (iqr_mostly (x :: l) d 0 0) in K.
    + cbn [fst snd] in K. destruct i as [|i]; [cbn in E; injection E as <-; discriminate|]. cbn [nth_error] in E.
      rewrite nth_error_map in E. destruct (nth_error (x :: l) i) as [w|] eqn:Ew; [|discriminate]. cbn in E. injection E as <-.
      apply nth_error_In in Ew. rewrite (C w Ew) in K. unfold outside in K. cbn in K. rewrite Rltb_irrefl in K. discriminate.
    + apply (count_const _ d); [exact C|apply Rltb_irrefl].
    + apply (count_const _ d); [exact C|apply Rltb_irrefl].
    + cbn [length]. lia.
    + cbn [length]. lia.
Qed.

(* ---------- a single step or spike on a straight line ---------- *)
Lemma rdiff_seq g : forall n k, rdiff (map g (seq k (S n))) = map (fun i => (g (S i) - g i)%R) (seq k n).
Proof. induction n as [|n IH]; intros k; [reflexivity|]. cbn [seq map]. change (rdiff (g k :: map g (seq (S k) (S n))) = (g (S k) - g k)%R :: map (fun i => (g (S i) - g i)%R) (seq (S k) n)).
  rewrite <- IH. reflexivity. Qed.
Lemma count_seq_one (p : R -> bool) h j : forall n k, (forall i, p (h i) = true -> i = j) -> (count p (map h (seq k n)) <= 1)%nat.
Proof.
  unfold count. induction n as [|n IH]; intros k F; [cbn; lia|]. cbn [seq map filter]. destruct (p (h k)) eqn:E; [|now apply IH].
  cbn [length]. apply F in E. subst k. apply le_n_S. apply Nat.eq_le_incl. clear IH.
  assert (K : forall n k, (j < k)%nat -> length (filter p (map h (seq k n))) = 0%nat).
  { intros m. induction m as [|m IH]; intros k L; [reflexivity|]. cbn [seq map filter]. destruct (p (h k)) eqn:E; [apply F in E; lia|]. apply IH. lia. }
  apply K. lia.
Qed.
Lemma filter_nothing {A} (p : A -> bool) (l : list A) : (forall i x, nth_error l i = Some x -> p x = false) -> filter p l = [].
Proof. induction l as [|a l IH]; intros F; [reflexivity|]. cbn. rewrite (F 0%nat a eq_refl). apply IH. intros i x E. now apply (F (S i)). Qed.
Lemma filter_single {A} (p : A -> bool) (l : list A) : forall j s, nth_error l j = Some s -> p s = true ->
  (forall i x, nth_error l i = Some x -> p x = true -> i = j) -> filter p l = [s].
Proof.
  induction l as [|a l IH]; intros j s E Ps F; [destruct j; discriminate|]. destruct j as [|j].
  - cbn in E. injection E as ->. cbn. rewrite Ps. f_equal. apply filter_nothing. intros i x Ex. destruct (p x) eqn:K; [|reflexivity].
    pose proof (F (S i) x Ex K). discriminate.
  - cbn. destruct (p a) eqn:K; [pose proof (F 0%nat a eq_refl K); discriminate|]. apply (IH j s E Ps). intros i x Ex Px.
    pose proof (F (S i) x Ex Px). lia.
Qed.
Lemma filter_two {A} (p : A -> bool) (l : list A) : forall j s t, nth_error l j = Some s -> nth_error l (S j) = Some t -> p s = true -> p t = true ->
  (forall i x, nth_error l i = Some x -> p x = true -> i = j \/ i = S j) -> filter p l = [s; t].
Proof.
  induction l as [|a l IH]; intros j s t E E' Ps Pt F; [destruct j; discriminate|]. destruct j as [|j].
  - cbn in E. injection E as ->. cbn. rewrite Ps. f_equal. apply (filter_single p l 0%nat t E' Pt). intros i x Ex Px.
    destruct (F (S i) x Ex Px); lia.
  - cbn. destruct (p a) eqn:K; [destruct (F 0%nat a eq_refl K); discriminate|]. apply (IH j s t E E' Ps Pt). intros i x Ex Px.
    destruct (F (S i) x Ex Px); lia.
Qed.
Lemma list_ext {A} (l l' : list A) : length l = length l' -> (forall i a, nth_error l i = Some a -> nth_error l' i = Some a) -> l = l'.
Proof.
  revert l'. induction l as [|a l IH]; intros [|b l'] L F; try discriminate; [reflexivity|].
  pose proof (F 0%nat a eq_refl) as E. cbn in E. injection E as ->. f_equal. apply IH; [cbn in L; lia|]. intros i x Ex. exact (F (S i) x Ex).
Qed.

Section Detect.
  Variable f : frame XR.
  Variable n : nat.
  Variable d : R.
  Hypothesis Hn : length (rows f) = n.
  Hypothesis Hnd : NoDup (positions f).
  Hypothesis Hthr : thresholds f = (Fin d, Fin d).
  Let l := osamples (Fin d) (Fin d) (positions f) (diffs f).
  Lemma pos_inj i j p : nth_error (positions f) i = Some p -> nth_error (positions f) j = Some p -> i = j.
  Proof.
    intros Ei Ej. eapply (proj1 (NoDup_nth_error (positions f)) Hnd); [apply nth_error_Some; congruence|congruence].
  Qed.
  Lemma l_length : length l = n.
  Proof. unfold l. rewrite osamples_length by apply Lpd. unfold positions. now rewrite map_length. Qed.
  Lemma mask_eq (g : osample XR -> bool) (b : nat -> bool) :
    (forall i s, nth_error l i = Some s -> g s = b i) -> map g l = map b (seq 0 n).
  Proof.
    intros F. apply list_ext; [now rewrite !map_length, seq_length, l_length|]. intros i a E.
    rewrite nth_error_map in E. destruct (nth_error l i) as [s|] eqn:Es; [|discriminate]. cbn in E. injection E as <-.
    assert (i < n)%nat by (rewrite <- l_length; apply nth_error_Some; congruence).
    rewrite (map_nth_error b i (seq 0 n) (d := i)); [f_equal; symmetry; now apply F|].
    rewrite (nth_error_nth' _ 0%nat) by (rewrite seq_length; lia). rewrite seq_nth by lia. reflexivity.
  Qed.
  Lemma repeat_seq (b : bool) : forall m k, repeat b m = map (fun _ => b) (seq k m).
  Proof. induction m as [|m IH]; intros k; [reflexivity|]. cbn. now rewrite <- IH. Qed.
  Lemma adjacent_run a b : (a <= b)%nat -> (forall m, (a <= m <= b)%nat -> window_at f m) -> forall i j, (a <= i <= b)%nat -> (a <= j <= b)%nat -> same_run f i j.
  Proof. intros L F i j Hi Hj m Hm. split; intros _; apply F; lia. Qed.
  Lemma outside_self r : r <> d -> outside (Fin d) (Fin d) (Fin r) = true.
  Proof. intros N. unfold outside. cbn. unfold Rltb. destruct (Rlt_dec r d), (Rlt_dec d r); try reflexivity. exfalso. lra. Qed.
  Lemma not_outside : outside (Fin d) (Fin d) (Fin d) = false.
  Proof. unfold outside. cbn. now rewrite Rltb_irrefl. Qed.

  Lemma step_masks j r : (1 <= j)%nat -> (j + 1 < n)%nat -> nth_error (diffs f) j = Some (Fin r) -> r <> d ->
    (forall i, change_at f i <-> i = j) ->
    model_outliers f = Ok (map (fun i => Nat.eqb i j) (seq 0 n), repeat false n).
  Proof.
    intros L1 L2 Dj Nr C.
    assert (Wj : window_at f j) by (repeat split; [lia|lia|right; left; now apply C]).
    destruct (sample_at f (Fin d) (Fin d) j ltac:(lia)) as (sj & Ej). fold l in Ej.
    destruct (sample_props f _ _ Hthr j sj Ej) as (Pj & Dj' & Cj & WWj & _ & _).
    assert (o_dif sj = Fin r) as Dsj by congruence.
    assert (Ch : forall i s, nth_error l i = Some s -> changed l (o_grp s) = if Nat.eqb (o_grp s) (o_grp sj) then [sj] else []).
    { intros i s Ei. unfold changed. destruct (Nat.eqb_spec (o_grp s) (o_grp sj)) as [Eg|Ng].
      - apply (filter_single _ l j sj Ej).
        + rewrite Eg, Nat.eqb_refl. cbn. now apply Cj, C.
        + intros m x Ex Px. apply andb_true_iff in Px as [_ Px]. apply C. now apply (sample_props f _ _ Hthr m x Ex).
      - apply filter_nothing. intros m x Ex. destruct (Nat.eqb_spec (o_grp x) (o_grp s)) as [Eg|]; [|reflexivity]. cbn.
        destruct (o_chg x) eqn:Ec; [|reflexivity]. exfalso. apply (sample_props f _ _ Hthr m x Ex) in Ec. apply C in Ec. subst m. congruence. }
    unfold model_outliers. fold (positions f). fold (diffs f). rewrite (proj2 (has_dup_iff Z.eqb Z.eqb_eq _) Hnd).
    change (iqr_thresholds (diffs f)) with (thresholds f). rewrite Hthr. fold l.
    assert (existsb o_chg l = true) as ->. { apply existsb_exists. exists sj. split; [now apply nth_error_In in Ej|]. now apply Cj, C. }
    f_equal. f_equal.
    - apply mask_eq. intros i s Ei. destruct (sample_props f _ _ Hthr i s Ei) as (Pi & _ & _ & Wi & _ & _). unfold step_at. rewrite (Ch i s Ei).
      destruct (Nat.eqb_spec i j) as [->|Nij].
      + assert (s = sj) as -> by congruence. rewrite Nat.eqb_refl. cbn [map last]. rewrite (proj2 Wi Wj). rewrite Dsj.
        assert (omean [Fin r] = Fin r) as ->. { unfold omean, nsum, n0. rewrite ofZ_fin. cbn. unfold Reqb. destruct (Req_EM_T 1 0); [lra|]. f_equal. lra. }
        fold (outside (Fin d) (Fin d) (Fin r)). rewrite (outside_self r Nr). rewrite Z.leb_refl. reflexivity.
      + destruct (o_win s) eqn:Ew; [|reflexivity]. assert (Ww : window_at f i) by now apply Wi.
        assert (Er : same_run f i j).
        { destruct Ww as (A1 & A2 & A3). rewrite !C in A3. apply (adjacent_run (Nat.min i j) (Nat.max i j)); try lia.
          intros m Hm. assert (m = i \/ m = j) as [-> | ->] by lia; [|exact Wj]. repeat split; try lia. rewrite !C. tauto. }
        apply (same_group f _ _ Hthr i j s sj Ei Ej) in Er. rewrite Er, Nat.eqb_refl. cbn [last].
        destruct (Z.leb_spec (o_pos sj) (o_pos s)) as [K1|K1]; [|now rewrite andb_false_r].
        destruct (Z.leb_spec (o_pos s) (o_pos sj)) as [K2|K2]; [|now rewrite andb_false_r].
        exfalso. apply Nij. apply (pos_inj i j (o_pos s)); [exact Pi|]. rewrite Pj. f_equal. lia.
    - rewrite (repeat_seq false n 0). apply mask_eq. intros i s Ei. unfold spike_at. rewrite (Ch i s Ei).
      destruct (Nat.eqb (o_grp s) (o_grp sj)).
      + cbn [map]. rewrite Dsj. unfold omean, nsum, n0. rewrite !ofZ_fin. cbn. unfold Reqb. destruct (Req_EM_T 1 0); [lra|]. destruct (Req_EM_T 2 0); [lra|]. cbn.
        unfold Rltb. match goal with |- (if ?b then _ else _) && _ = _ => destruct b as [K|K] end; [|reflexivity]. exfalso.
        replace (0 + r)%R with r in K by lra. replace ((0 + Rabs r) / 1)%R with (Rabs r) in K by (field). replace (r / 1)%R with r in K by field. lra.
      + destruct (has_date f); cbn [negb andb]; rewrite ?andb_false_r; [reflexivity|].
        destruct (Z.leb_spec 0 (o_pos s)), (Z.ltb_spec (o_pos s) 0); cbn [andb]; rewrite ?andb_false_r; try reflexivity. lia.
  Qed.

  Lemma spike_masks j r : (1 <= j)%nat -> (j + 2 < n)%nat -> nth_error (diffs f) j = Some (Fin (d + r)) -> nth_error (diffs f) (S j) = Some (Fin (d - r)) ->
    (Rabs d < Rabs r)%R -> StronglySorted Z.lt (positions f) ->
    (forall i, change_at f i <-> i = j \/ i = S j) ->
    model_outliers f = Ok (repeat false n, map (fun i => Nat.eqb i j) (seq 0 n)).
  Proof.
    intros L1 L2 Dj Dk Nr Hs C.
    assert (Wj : window_at f j) by (repeat split; [lia|lia|right; left; apply C; now left]).
    assert (Wk : window_at f (S j)) by (repeat split; [lia|lia|right; left; apply C; now right]).
    destruct (sample_at f (Fin d) (Fin d) j ltac:(lia)) as (sj & Ej). fold l in Ej.
    destruct (sample_at f (Fin d) (Fin d) (S j) ltac:(lia)) as (sk & Ek). fold l in Ek.
    destruct (sample_props f _ _ Hthr j sj Ej) as (Pj & Dj' & Cj & WWj & _ & _).
    destruct (sample_props f _ _ Hthr (S j) sk Ek) as (Pk & Dk' & Ck & WWk & _ & _).
    assert (o_dif sj = Fin (d + r)) as Dsj by congruence. assert (o_dif sk = Fin (d - r)) as Dsk by congruence.
    assert (Gjk : o_grp sj = o_grp sk).
    { apply (same_group f _ _ Hthr j (S j) sj sk Ej Ek). apply (adjacent_run j (S j)); try lia. intros m Hm. assert (m = j \/ m = S j) as [-> | ->] by lia; assumption. }
    assert (Ch : forall i s, nth_error l i = Some s -> changed l (o_grp s) = if Nat.eqb (o_grp s) (o_grp sj) then [sj; sk] else []).
    { intros i s Ei. unfold changed. destruct (Nat.eqb_spec (o_grp s) (o_grp sj)) as [Eg|Ng].
      - apply (filter_two _ l j sj sk Ej Ek).
        + rewrite Eg, Nat.eqb_refl. cbn. apply Cj, C. now left.
        + rewrite Eg, Gjk, Nat.eqb_refl. cbn. apply Ck, C. now right.
        + intros m x Ex Px. apply andb_true_iff in Px as [_ Px]. apply C. now apply (sample_props f _ _ Hthr m x Ex).
      - apply filter_nothing. intros m x Ex. destruct (Nat.eqb_spec (o_grp x) (o_grp s)) as [Eg|]; [|reflexivity]. cbn.
        destruct (o_chg x) eqn:Ec; [|reflexivity]. exfalso. apply (sample_props f _ _ Hthr m x Ex) in Ec. apply C in Ec as [-> | ->]; congruence. }
    assert (Mean : omean [Fin (d + r); Fin (d - r)] = Fin d).
    { unfold omean, nsum, n0. rewrite !ofZ_fin. cbn. unfold Reqb. destruct (Req_EM_T 2 0); [lra|]. f_equal. field. }
    unfold model_outliers. fold (positions f). fold (diffs f). rewrite (proj2 (has_dup_iff Z.eqb Z.eqb_eq _) Hnd).
    change (iqr_thresholds (diffs f)) with (thresholds f). rewrite Hthr. fold l.
    assert (existsb o_chg l = true) as ->. { apply existsb_exists. exists sj. split; [now apply nth_error_In in Ej|]. apply Cj, C. now left. }
    f_equal. f_equal.
    - rewrite (repeat_seq false n 0). apply mask_eq. intros i s Ei. destruct (sample_props f _ _ Hthr i s Ei) as (Pi & _ & _ & Wi & _ & _).
      unfold step_at. rewrite (Ch i s Ei). destruct (o_win s) eqn:Ew; [|reflexivity]. assert (Ww : window_at f i) by now apply Wi.
      assert (Er : same_run f i j).
      { destruct Ww as (A1 & A2 & A3). rewrite !C in A3. apply (adjacent_run (Nat.min i j) (Nat.max i j)); try lia.
        intros m Hm. assert (m = i \/ m = j \/ m = S j) as [-> | [-> | ->]] by lia; [|exact Wj|exact Wk]. repeat split; try lia. rewrite !C. tauto. }
      apply (same_group f _ _ Hthr i j s sj Ei Ej) in Er. rewrite Er, Nat.eqb_refl. cbn [map]. rewrite Dsj, Dsk, Mean.
      fold (outside (Fin d) (Fin d) (Fin d)). rewrite not_outside. reflexivity.
    - apply mask_eq. intros i s Ei. destruct (sample_props f _ _ Hthr i s Ei) as (Pi & _ & _ & Wi & _ & _).
      assert (Pjk : (o_pos sj < o_pos sk)%Z).
      { clear - Hs Pj Pk. revert j Pj Pk. induction Hs as [|a p Hp IH F]; intros j Pj Pk; [destruct j; discriminate|]. destruct j as [|j].
        - cbn in Pj, Pk. injection Pj as ->. rewrite Forall_forall in F. apply F. destruct p; [discriminate|]. injection Pk as ->. now left.
        - now apply (IH j). }
      unfold spike_at. rewrite (Ch i s Ei). destruct (Nat.eqb_spec (o_grp s) (o_grp sj)) as [Eg|Ng].
      + cbn [map last]. rewrite Dsj, Dsk, Mean.
        assert (omean [nabs (Fin (d + r)); nabs (Fin (d - r))] = Fin ((Rabs (d + r) + Rabs (d - r)) / 2)) as ->.
        { unfold omean, nsum, n0. rewrite !ofZ_fin. cbn. unfold Reqb. destruct (Req_EM_T 2 0); [lra|]. f_equal. field. }
        match goal with |- ?b && _ = _ => assert (b = true) as -> end.
        { rewrite ofZ_fin. cbn. unfold Reqb. destruct (Req_EM_T 2 0); [lra|]. cbn. unfold Rltb.
          match goal with |- (if ?b then _ else _) = _ => destruct b as [K|K]; [reflexivity|] end. exfalso. apply K. clear K.
          replace ((d + - d) / 2)%R with 0%R by field. unfold Rabs in *. repeat destruct Rcase_abs; lra. }
        cbn [andb]. destruct (Nat.eqb_spec i j) as [->|Nij].
        * assert (s = sj) as -> by congruence. rewrite Z.leb_refl. now apply Z.ltb_lt in Pjk; rewrite Pjk.
        * destruct (Z.leb_spec (o_pos sj) (o_pos s)) as [K1|K1]; [|reflexivity]. destruct (Z.ltb_spec (o_pos s) (o_pos sk)) as [K2|K2]; [|reflexivity].
          exfalso. assert (Mono : forall a b pa pb, nth_error (positions f) a = Some pa -> nth_error (positions f) b = Some pb -> (a < b)%nat -> (pa < pb)%Z).
          { clear - Hs. induction Hs as [|x p Hp IH F]; intros a b pa pb Ea Eb L; [destruct a; discriminate|]. destruct b as [|b]; [lia|]. destruct a as [|a].
            - cbn in Ea, Eb. injection Ea as <-. rewrite Forall_forall in F. apply F. now apply nth_error_In in Eb.
            - cbn in Ea, Eb. apply (IH a b); auto. lia. }
          destruct (Nat.lt_ge_cases i j) as [Lij|Lij].
          -- pose proof (Mono i j _ _ Pi Pj Lij). lia.
          -- destruct (Nat.eq_dec i (S j)) as [->|]; [assert (o_pos s = o_pos sk) by congruence; lia|]. pose proof (Mono (S j) i _ _ Pk Pi ltac:(lia)). lia.
      + destruct (Nat.eqb_spec i j) as [->|Nij]; [exfalso; apply Ng; congruence|].
        destruct (has_date f); cbn [negb andb]; rewrite ?andb_false_r; [reflexivity|].
        destruct (Z.leb_spec 0 (o_pos s)), (Z.ltb_spec (o_pos s) 0); cbn [andb]; rewrite ?andb_false_r; try reflexivity. lia.
  Qed.
End Detect.

(* a line with slope d and a jump of size s from sample j on / a bump of size s at sample j *)
Definition step_series (a d s : R) (j n : nat) : list R :=
  map (fun i => (a + d * INR i + if Nat.leb j i then s else 0)%R) (seq 0 n).
Definition spike_series (a d s : R) (j n : nat) : list R :=
  map (fun i => (a + d * INR i + if Nat.eqb i j then s else 0)%R) (seq 0 n).

Lemma change_iff f rs d (P : nat -> Prop) : diffs f = XNaN :: map Fin rs -> thresholds f = (Fin d, Fin d) ->
  (forall i r, nth_error rs i = Some r -> (r <> d <-> P (S i))) -> (forall i, P i -> exists k r, i = S k /\ nth_error rs k = Some r) ->
  forall i, change_at f i <-> P i.
Proof.
  intros D Ht F G i. unfold change_at. rewrite Ht, D. cbn [fst snd]. split.
  - intros (x & E & K). destruct i as [|i]; [cbn in E; injection E as <-; discriminate|]. cbn in E. rewrite nth_error_map in E.
    destruct (nth_error rs i) as [r|] eqn:Er; [|discriminate]. cbn in E. injection E as <-. apply (F i r Er). intros ->.
    unfold outside in K. cbn in K. rewrite Rltb_irrefl in K. discriminate.
  - intros Pi. destruct (G i Pi) as (k & r & -> & Er). exists (Fin r). split; [cbn; now rewrite nth_error_map, Er|].
    apply outside_self. now apply (F k r Er).
Qed.
Lemma seq_map_nth {A} (h : nat -> A) m i r : nth_error (map h (seq 0 m)) i = Some r -> (i < m)%nat /\ r = h i.
Proof.
  intros E. rewrite nth_error_map in E. destruct (nth_error (seq 0 m) i) as [k|] eqn:K; [|discriminate]. cbn in E. injection E as <-.
  assert (i < m)%nat by (rewrite <- (seq_length m 0); apply nth_error_Some; congruence). split; [assumption|].
  rewrite (nth_error_nth' _ 0%nat) in K by (rewrite seq_length; lia). rewrite seq_nth in K by lia. injection K as <-. reflexivity.
Qed.
Lemma seq_map_nth' {A} (h : nat -> A) m i : (i < m)%nat -> nth_error (map h (seq 0 m)) i = Some (h i).
Proof.
  intros L. rewrite nth_error_map. rewrite (nth_error_nth' _ 0%nat) by (rewrite seq_length; lia). rewrite seq_nth by lia. reflexivity.
Qed.
Lemma values_length f ys : values f ys -> length (rows f) = length ys.
Proof. intros V. apply (f_equal (@length XR)) in V. now rewrite !map_length in V. Qed.

Lemma step_found f a d s j n : NoDup (positions f) -> values f (step_series a d s j n) -> s <> 0%R ->
  (6 <= n)%nat -> (1 <= j)%nat -> (j + 1 < n)%nat ->
  model_outliers f = Ok (map (fun i => Nat.eqb i j) (seq 0 n), repeat false n).
Proof.
  intros Nd V Ns Ln L1 L2. pose proof (values_length _ _ V) as Len. unfold step_series in Len. rewrite map_length, seq_length in Len.
  destruct n as [|m]; [lia|]. unfold step_series in V.
  assert (D := diffs_fin f _ V ltac:(discriminate)). rewrite rdiff_seq in D.
  set (h := fun i => ((a + d * INR (S i) + (if Nat.leb j (S i) then s else 0)) - (a + d * INR i + (if Nat.leb j i then s else 0)))%R) in D.
  assert (H : forall i, h i = if Nat.eqb (S i) j then (d + s)%R else d).
  { intros i. unfold h. rewrite S_INR. destruct (Nat.leb_spec j (S i)), (Nat.leb_spec j i), (Nat.eqb_spec (S i) j); try lia; lra. }
  assert (Ht : thresholds f = (Fin d, Fin d)).
  { unfold thresholds. rewrite D. eapply iqr_mostly; try reflexivity; rewrite map_length, seq_length.
    - assert (count (fun x => Rltb x d) (map h (seq 0 m)) <= 1)%nat; [|lia]. apply (count_seq_one _ h (j - 1)). intros i E. rewrite H in E.
      destruct (Nat.eqb_spec (S i) j); [lia|]. rewrite Rltb_irrefl in E. discriminate.
    - assert (count (fun x => Rltb d x) (map h (seq 0 m)) <= 1)%nat; [|lia]. apply (count_seq_one _ h (j - 1)). intros i E. rewrite H in E.
      destruct (Nat.eqb_spec (S i) j); [lia|]. rewrite Rltb_irrefl in E. discriminate. }
  eapply (step_masks f (S m) d Len Nd Ht j (d + s)); try assumption.
  - rewrite D. destruct j as [|j]; [lia|]. cbn [nth_error]. rewrite nth_error_map, seq_map_nth' by lia. cbn [option_map]. now rewrite H, Nat.eqb_refl.
  - lra.
  - intros i. apply (change_iff f _ d (fun i => i = j) D Ht).
    + intros k r E. apply seq_map_nth in E as [Lk ->]. rewrite H. destruct (Nat.eqb_spec (S k) j) as [E|E]; [split; [auto|intros _; lra]|split; [intros C; exfalso; now apply C|lia]].
    + intros k ->. destruct j as [|j]; [lia|]. exists j. eexists. split; [reflexivity|]. apply seq_map_nth'. lia.
Qed.
Lemma spike_found f a d s j n : StronglySorted Z.lt (positions f) -> values f (spike_series a d s j n) -> (Rabs d < Rabs s)%R ->
  (6 <= n)%nat -> (1 <= j)%nat -> (j + 2 < n)%nat ->
  model_outliers f = Ok (repeat false n, map (fun i => Nat.eqb i j) (seq 0 n)).
Proof.
  intros Hs V Ns Ln L1 L2. pose proof (values_length _ _ V) as Len. unfold spike_series in Len. rewrite map_length, seq_length in Len.
  assert (Nd : NoDup (positions f)).
  { clear - Hs. induction Hs as [|x p Hp IH F]; constructor; [|exact IH]. intros I. rewrite Forall_forall in F. specialize (F x I). lia. }
  assert (Ns' : s <> 0%R). { intros ->. rewrite Rabs_R0 in Ns. pose proof (Rabs_pos d). lra. }
  destruct n as [|m]; [lia|]. unfold spike_series in V.
  assert (D := diffs_fin f _ V ltac:(discriminate)). rewrite rdiff_seq in D.
  set (h := fun i => ((a + d * INR (S i) + (if Nat.eqb (S i) j then s else 0)) - (a + d * INR i + (if Nat.eqb i j then s else 0)))%R) in D.
  assert (H : forall i, h i = if Nat.eqb (S i) j then (d + s)%R else if Nat.eqb i j then (d - s)%R else d).
  { intros i. unfold h. rewrite S_INR. destruct (Nat.eqb_spec (S i) j), (Nat.eqb_spec i j); try lia; lra. }
  assert (Ht : thresholds f = (Fin d, Fin d)).
  { unfold thresholds. rewrite D. destruct (Rtotal_order s 0) as [Sn|[Sz|Sp]]; [|congruence|].
    - eapply iqr_mostly; try reflexivity; rewrite map_length, seq_length.
      + assert (count (fun x => Rltb x d) (map h (seq 0 m)) <= 1)%nat; [|lia]. apply (count_seq_one _ h (j - 1)). intros i E. rewrite H in E.
        destruct (Nat.eqb_spec (S i) j); [lia|]. unfold Rltb in E. destruct (Nat.eqb i j), (Rlt_dec _ _); try discriminate; exfalso; lra.
      + assert (count (fun x => Rltb d x) (map h (seq 0 m)) <= 1)%nat; [|lia]. apply (count_seq_one _ h j). intros i E. rewrite H in E.
        unfold Rltb in E. destruct (Nat.eqb (S i) j), (Nat.eqb_spec i j), (Rlt_dec _ _); try discriminate; try assumption; exfalso; lra.
    - eapply iqr_mostly; try reflexivity; rewrite map_length, seq_length.
      + assert (count (fun x => Rltb x d) (map h (seq 0 m)) <= 1)%nat; [|lia]. apply (count_seq_one _ h j). intros i E. rewrite H in E.
        unfold Rltb in E. destruct (Nat.eqb (S i) j), (Nat.eqb_spec i j), (Rlt_dec _ _); try discriminate; try assumption; exfalso; lra.
      + assert (count (fun x => Rltb d x) (map h (seq 0 m)) <= 1)%nat; [|lia]. apply (count_seq_one _ h (j - 1)). intros i E. rewrite H in E.
        destruct (Nat.eqb_spec (S i) j); [lia|]. unfold Rltb in E. destruct (Nat.eqb i j), (Rlt_dec _ _); try discriminate; exfalso; lra. }
  eapply (spike_masks f (S m) d Len Nd Ht j s); try assumption.
  - rewrite D. destruct j as [|j]; [lia|]. cbn [nth_error]. rewrite nth_error_map, seq_map_nth' by lia. cbn [option_map]. now rewrite H, Nat.eqb_refl.
  - rewrite D. cbn [nth_error]. rewrite nth_error_map, seq_map_nth' by lia. cbn [option_map]. rewrite H, Nat.eqb_refl.
    destruct (Nat.eqb_spec (S j) j); [lia|reflexivity].
  - intros i. apply (change_iff f _ d (fun i => i = j \/ i = S j) D Ht).
    + intros k r E. apply seq_map_nth in E as [Lk ->]. rewrite H. destruct (Nat.eqb_spec (S k) j) as [E|E]; [split; [auto|intros _; lra]|].
      destruct (Nat.eqb_spec k j) as [E'|E']; [split; [auto|intros _; lra]|]. split; [intros C; exfalso; now apply C|lia].
    + intros k [-> | ->].
      * destruct j as [|j]; [lia|]. exists j. eexists. split; [reflexivity|]. apply seq_map_nth'. lia.
      * exists j. eexists. split; [reflexivity|]. apply seq_map_nth'. lia.
Qed.
