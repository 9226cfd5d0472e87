(* Facts about prediction intervals (Pi.v). *)
From Coq Require Import ZArith Ascii String List Bool Lia Permutation Sorted Reals Lra.
From Verif Require Import Num Py Cal Model Freq Outliers Pi.
From Verif Require Import NumProofs ListProofs StringProofs GroupProofs FreqProofs BaseProofs FitProofs OutlierProofs OutlierReals InterpProofs ForecastProofs.
Import ListNotations.
Local Open Scope string_scope.
Local Open Scope list_scope.

(* ---------- C49: frequencies ---------- *)
Lemma prefix_letter c d f : String.prefix (String d "") (String c f) = Ascii.eqb c d.
Proof.
  cbn. destruct (Ascii.ascii_dec d c) as [->|N].
  - rewrite Ascii.eqb_refl. now destruct f.
  - symmetry. apply Ascii.eqb_neq. congruence.
Qed.
Lemma days_year s : days_from_freq (Some ("Y" ++ s)%string) = Ok 365%Z.
Proof. unfold days_from_freq, startswith. cbn [append]. now rewrite prefix_letter. Qed.
Lemma days_month s : days_from_freq (Some ("M" ++ s)%string) = Ok 30%Z.
Proof. unfold days_from_freq, startswith. cbn [append]. now rewrite !prefix_letter. Qed.
Lemma days_week s : days_from_freq (Some ("W" ++ s)%string) = Ok 7%Z.
Proof. unfold days_from_freq, startswith. cbn [append]. now rewrite !prefix_letter. Qed.
Lemma days_other f : (forall s, f <> ("Y" ++ s)%string) -> (forall s, f <> ("M" ++ s)%string) -> (forall s, f <> ("W" ++ s)%string) ->
  days_from_freq (Some f) = Ok 1%Z.
Proof.
  intros Y M W. destruct f as [|c f]; [reflexivity|]. unfold days_from_freq, startswith. rewrite !prefix_letter.
  destruct (Ascii.eqb_spec c "Y"%char) as [->|]; [exfalso; now apply (Y f)|].
  destruct (Ascii.eqb_spec c "M"%char) as [->|]; [exfalso; now apply (M f)|].
  destruct (Ascii.eqb_spec c "W"%char) as [->|]; [exfalso; now apply (W f)|]. reflexivity.
Qed.
Lemma days_positive f d : days_from_freq f = Ok d -> (0 < d)%Z.
Proof.
  destruct f as [f|]; cbn; [|discriminate]. intros [= <-].
  repeat match goal with |- context [if ?b then _ else _] => destruct b end; lia.
Qed.
(* the widening step is the floor of the quotient, but at least 1 *)
Lemma widening_floor n d : (0 < d)%Z -> (0 <= n)%Z -> Z.of_nat (widening_step n d) = Z.max 1 (n / d).
Proof. intros D N. unfold widening_step. rewrite Z.quot_div_nonneg by lia. rewrite Z2Nat.id; lia. Qed.
Lemma widening_at_least n d : (1 <= widening_step n d)%nat.
Proof. unfold widening_step. lia. Qed.

(* ---------- C48: the simulated deviations ---------- *)
Section Sim.
  Context {T : Type} `{NumOps T}.
  (* f 0 + f 1 + ... + f j *)
  Fixpoint prefix_sum (f : nat -> T) (j : nat) : T :=
    match j with O => f 0%nat | Datatypes.S j' => nadd (prefix_sum f j') (f j) end.
  Definition drawn (vals : list T) (d : nat -> nat) (i : nat) : T := nth (d i mod length vals)%nat vals nnan.

  Lemma sample_nth vals d k i : (i < k)%nat -> nth i (sample vals d k) nnan = drawn vals d i.
  Proof.
    intros L. change (sample vals d k) with (map (drawn vals d) (seq 0 k)).
    rewrite nth_indep with (d' := drawn vals d 0%nat) by (now rewrite map_length, seq_length).
    rewrite map_nth. now rewrite seq_nth.
  Qed.
  Lemma sample_length vals d k : length (sample vals d k) = k.
  Proof. unfold sample. now rewrite map_length, seq_length. Qed.
  Lemma drawn_in vals d i : vals <> [] -> In (drawn vals d i) vals.
  Proof. intros N. apply nth_In. apply Nat.mod_upper_bound. destruct vals; [congruence|discriminate]. Qed.
  Lemma nth_firstn' {A} (l : list A) : forall n i d, (i < n)%nat -> nth i (firstn n l) d = nth i l d.
  Proof. induction l as [|a l IH]; intros [|n] [|i] d L; cbn; try lia; try reflexivity. apply IH. lia. Qed.
  Lemma nth_skipn' {A} (l : list A) : forall n i d, nth i (skipn n l) d = nth (n + i) l d.
  Proof. induction l as [|a l IH]; intros [|n] i d; cbn; try reflexivity; [now destruct i|apply IH]. Qed.
  Lemma reshape_length m n (l : list T) : length (reshape m n l) = m.
  Proof. unfold reshape. now rewrite map_length, seq_length. Qed.
  Lemma reshape_row m n (l : list T) k : (k < m)%nat -> nth k (reshape m n l) [] = firstn n (skipn (k * n) l).
  Proof.
    intros L. unfold reshape.
    rewrite nth_indep with (d' := firstn n (skipn (0 * n) l)) by (now rewrite map_length, seq_length).
    rewrite (map_nth (fun i => firstn n (skipn (i * n)%nat l))). now rewrite seq_nth.
  Qed.
  Lemma reshape_row_length m n (l : list T) k : length l = (n * m)%nat -> (k < m)%nat -> length (nth k (reshape m n l) []) = n.
  Proof. intros E L. rewrite reshape_row, firstn_length, skipn_length, E by exact L. nia. Qed.
  Lemma reshape_nth m n (l : list T) k i d : (k < m)%nat -> (i < n)%nat -> nth i (nth k (reshape m n l) []) d = nth (k * n + i) l d.
  Proof. intros K I. rewrite reshape_row, nth_firstn', nth_skipn' by assumption. reflexivity. Qed.

  Lemma cumsum_length l : forall acc, length (cumsum_from (T := T) acc l) = length l.
  Proof. induction l as [|a l IH]; intros acc; [reflexivity|]. cbn. now rewrite IH. Qed.
  Lemma cumsum_from_nth (l : list T) : forall b j f0 d, (j < length l)%nat ->
    nth j (cumsum_from (Some b) l) d = prefix_sum (fun i => match i with O => b | Datatypes.S i' => nth i' l f0 end) (Datatypes.S j).
  Proof.
    induction l as [|a l IH]; intros b j f0 d L; [cbn in L; lia|]. destruct j as [|j].
    - reflexivity.
    - cbn [cumsum_from nth]. cbn [length] in L. rewrite (IH (nadd b a) j f0 d) by lia. clear.
      induction j as [|j IH]; [reflexivity|].
      change (nadd (prefix_sum (fun i => match i with 0%nat => nadd b a | Datatypes.S i' => nth i' l f0 end) (Datatypes.S j)) (nth (Datatypes.S j) l f0) =
              nadd (prefix_sum (fun i => match i with 0%nat => b | Datatypes.S i' => nth i' (a :: l) f0 end) (Datatypes.S (Datatypes.S j))) (nth (Datatypes.S j) l f0)).
      now rewrite IH.
  Qed.
  Lemma prefix_sum_ext f g j : (forall i, (i <= j)%nat -> f i = g i) -> prefix_sum f j = prefix_sum g j.
  Proof.
    induction j as [|j IH]; intros E; [apply E; lia|]. cbn [prefix_sum]. rewrite IH by (intros i L; apply E; lia). now rewrite E by lia.
  Qed.
  Lemma cumsum_nth (l : list T) j f0 d : (j < length l)%nat -> nth j (cumsum_from None l) d = prefix_sum (fun i => nth i l f0) j.
  Proof.
    destruct l as [|a l]; [cbn; lia|]. destruct j as [|j]; intros L; [reflexivity|]. cbn [cumsum_from nth]. cbn [length] in L.
    rewrite (cumsum_from_nth l a j f0 d) by lia. apply prefix_sum_ext. intros [|i] _; reflexivity.
  Qed.
  Lemma repeat_each_nth c (l : list T) : (0 < c)%nat -> forall i d, (i < c * length l)%nat -> nth i (flat_map (fun v => repeat v c) l) d = nth (i / c) l d.
  Proof.
    intros C. induction l as [|a l IH]; intros i d L; [cbn in L; lia|]. cbn [flat_map].
    destruct (Nat.lt_ge_cases i c) as [K|K].
    - rewrite app_nth1 by (now rewrite repeat_length). rewrite Nat.div_small by exact K. cbn [nth].
      assert (G : forall n i, (i < n)%nat -> nth i (repeat a n) d = a).
      { clear. induction n as [|n IH]; intros [|i] L; try lia; [reflexivity|]. apply IH. lia. }
      now apply G.
    - rewrite app_nth2 by (now rewrite repeat_length). rewrite repeat_length. cbn [length] in L. rewrite IH by lia.
      replace (i / c)%nat with (Datatypes.S ((i - c) / c)); [reflexivity|].
      replace i with ((i - c) + 1 * c)%nat at 2 by lia. rewrite Nat.div_add by lia. lia.
  Qed.
  Lemma repeat_each_length c (l : list T) : length (flat_map (fun v => repeat v c) l) = (c * length l)%nat.
  Proof. induction l as [|a l IH]; cbn [flat_map length]; [lia|]. rewrite app_length, repeat_length, IH. lia. Qed.

  (* enough cumulative samples are drawn for n future samples *)
  Lemma ceil_enough n c : (0 < c)%nat -> (n <= ceil_nat n c * c)%nat /\ (ceil_nat n c * c < n + c)%nat.
  Proof.
    intros C. unfold ceil_nat. set (q := ((- Z.of_nat n) / Z.of_nat c)%Z).
    pose proof (Z.div_mod (- Z.of_nat n) (Z.of_nat c) ltac:(lia)) as D. fold q in D.
    pose proof (Z.mod_pos_bound (- Z.of_nat n) (Z.of_nat c) ltac:(lia)) as B. assert (q <= 0)%Z by nia. nia.
  Qed.
  Lemma enough_drawn n c i : (0 < c)%nat -> (i < n)%nat -> (i / c < ceil_nat n c)%nat.
  Proof. intros C L. destruct (ceil_enough n c C) as [E _]. apply Nat.div_lt_upper_bound; lia. Qed.

  Lemma add_rows_nth (a b : list T) i d : (i < length a)%nat -> length a = length b -> nth i (add_rows a b) d = nadd (nth i a d) (nth i b d).
  Proof.
    revert b i. induction a as [|x a IH]; intros [|y b] [|i] L E; cbn in *; try lia; [reflexivity|]. apply IH; lia.
  Qed.
  Lemma combine_nth' {A B} (l : list A) (l' : list B) k a b : (k < length l)%nat -> length l = length l' -> nth k (combine l l') (a, b) = (nth k l a, nth k l' b).
  Proof. intros _ E. now apply combine_nth. Qed.

  (* simulated deviation k of future row i: one residual, plus the sum of the first i / c + 1
     cumulative residuals *)
  Definition future_deviation (draw : nat -> nat -> nat) (c n : nat) (res : list T) (k i : nat) : T :=
    nadd (drawn res (draw 1%nat) (k * n + i)%nat)
         (prefix_sum (fun j => drawn res (draw 0%nat) (k * ceil_nat n c + j)%nat) (i / c)).
  Definition past_deviation (draw : nat -> nat -> nat) (n : nat) (res : list T) (k i : nat) : T :=
    drawn res (draw 2%nat) (k * n + i)%nat.

  Lemma future_length draw s c n res : length (future_sample (T := T) draw s c n res) = s.
  Proof. unfold future_sample. rewrite map_length, combine_length, map_length, !reshape_length. lia. Qed.
  Theorem future_nth draw s c n res k i : (0 < c)%nat -> (k < s)%nat -> (i < n)%nat ->
    nth i (nth k (future_sample draw s c n res) []) nnan = future_deviation draw c n res k i.
  Proof.
    intros C K I. unfold future_sample. set (short := ceil_nat n c).
    pose proof (enough_drawn n c i C I) as Es. fold short in Es. destruct (ceil_enough n c C) as [En _]. fold short in En.
    set (base := reshape s n _). set (cumr := reshape s short _).
    assert (Lb : length base = s) by apply reshape_length. assert (Lc : length cumr = s) by apply reshape_length.
    set (g := fun p : list T * list T => add_rows (fst p) (snd p)). set (h := fun r => expand c n (cumsum_from None r)).
    change (@nil T) with (g ([], h [])) at 1. rewrite (map_nth g).
    rewrite combine_nth by (now rewrite map_length, Lb, Lc). rewrite (map_nth h).
    unfold g, h. cbn [fst snd].
    assert (Lbr : length (nth k base []) = n).
    { apply reshape_row_length; [apply sample_length|exact K]. }
    assert (Lcr : length (nth k cumr []) = short).
    { apply reshape_row_length; [apply sample_length|exact K]. }
    assert (Lx : length (expand c n (cumsum_from None (nth k cumr []))) = n).
    { unfold expand. rewrite firstn_length, repeat_each_length, cumsum_length, Lcr. nia. }
    rewrite add_rows_nth by (rewrite ?Lbr, ?Lx; auto). unfold future_deviation. f_equal.
    - unfold base. rewrite reshape_nth by assumption. apply sample_nth. nia.
    - unfold expand. rewrite nth_firstn' by exact I. rewrite repeat_each_nth; [|exact C|rewrite cumsum_length, Lcr; nia].
      rewrite (cumsum_nth _ _ nnan) by (now rewrite Lcr). apply prefix_sum_ext. intros j Lj. unfold cumr.
      rewrite reshape_nth by lia. apply sample_nth. fold short. nia.
  Qed.
  Theorem past_nth draw s n res k i : (k < s)%nat -> (i < n)%nat ->
    nth i (nth k (past_sample draw s n res) []) nnan = past_deviation draw n res k i.
  Proof.
    intros K I. unfold past_sample. rewrite reshape_nth by assumption. apply sample_nth. nia.
  Qed.
  Lemma col_eq (m : list (list T)) s i (f : nat -> T) : length m = s -> (forall k, (k < s)%nat -> nth i (nth k m []) nnan = f k) ->
    col i m = map f (seq 0 s).
  Proof.
    intros L A. unfold col. revert s f L A. induction m as [|r m IH]; intros s f L A; cbn in L; subst s; [reflexivity|].
    cbn [map length seq]. f_equal; [exact (A 0%nat ltac:(cbn; lia))|]. rewrite <- seq_shift, map_map.
    apply (IH _ (fun k => f (Datatypes.S k)) eq_refl). intros k K. exact (A (Datatypes.S k) ltac:(cbn; lia)).
  Qed.

  (* ---------- one source ---------- *)
  Definition kept (t : ptable T) : list (drow T) :=
    if pt_best t then filter (fun r => d_actual r || d_best r) (pt_rows t) else pt_rows t.
  Definition shown_actuals (t : ptable T) : list (drow T) := filter (fun r => d_actual r && with_value r) (kept t).
  Definition some_zero_weight (t : ptable T) : bool := pt_w t && existsb (fun r => neqb (d_w r) n0) (kept t).
  Definition actuals_of (t : ptable T) : list (Z * T) :=
    if some_zero_weight t then usable_actuals (kept t) else map (fun r => (d_date r, d_y r)) (shown_actuals t).
  Definition future_rows (t : ptable T) (last : Z) := filter (fun r => negb (d_actual r) && (last <? d_date r)%Z) (kept t).
  Definition past_rows (t : ptable T) (last : Z) := filter (fun r => negb (d_actual r) && (d_date r <=? last)%Z) (kept t).
  Definition with_quantiles (q1 q2 : Z) (dev : nat -> nat -> T) (s : nat) (ir : nat * drow T) : prow T :=
    let (i, r) := ir in
    mkP (d_date r) (d_src r) (d_model r) false (d_y r)
      (map (fun q => (q, nadd (d_y r) (percentile q (map (fun k => dev k i) (seq 0 s))))) (percentiles q1 q2)).
  Definition in_range (q1 q2 : Z) : Prop := (0 < q1 < 100 /\ 0 < q2 < 100)%Z.

  Lemma enumerate_in {A} (l : list A) i a : In (i, a) (enumerate l) -> (i < length l)%nat /\ In a l.
  Proof.
    unfold enumerate. assert (G : forall (l : list A) k, In (i, a) (enum_from k l) -> (i < k + length l)%nat /\ In a l).
    { clear. induction l as [|b l IH]; intros k I; [destruct I|]. cbn in I. destruct I as [[= <- <-]|I]; [cbn; split; [lia|auto]|]. apply IH in I as [L I]. cbn. split; [lia|auto]. }
    intros I. destruct (G l 0%nat I) as [L K]. split; [lia|exact K].
  Qed.
  Lemma add_percentiles_dev l m q1 q2 s dev : in_range q1 q2 -> length m = s ->
    (forall k i, (k < s)%nat -> (i < length l)%nat -> nth i (nth k m []) nnan = dev k i) ->
    add_percentiles l m q1 q2 = Ok (map (with_quantiles q1 q2 dev s) (enumerate l)).
  Proof.
    intros [[A1 A2] [B1 B2]] L D. unfold add_percentiles.
    rewrite (proj2 (Z.ltb_lt 0 q1) A1), (proj2 (Z.ltb_lt q1 100) A2), (proj2 (Z.ltb_lt 0 q2) B1), (proj2 (Z.ltb_lt q2 100) B2).
    cbn [andb]. f_equal. apply map_ext_in. intros [i r] Hi. cbn [fst snd with_quantiles]. f_equal. apply map_ext. intros q.
    rewrite (col_eq m s i (fun k => dev k i) L); [reflexivity|]. intros k K. apply D; [exact K|]. now apply (enumerate_in l i r) in Hi.
  Qed.
  Lemma add_percentiles_refused (l : list (drow T)) m q1 q2 : ~ in_range q1 q2 -> add_percentiles l m q1 q2 = Err AssertionError.
  Proof.
    intros N. unfold add_percentiles, in_range in *.
    destruct (Z.ltb_spec 0 q1), (Z.ltb_spec q1 100), (Z.ltb_spec 0 q2), (Z.ltb_spec q2 100); cbn; try reflexivity. exfalso. apply N. lia.
  Qed.

  Definition step_of (t : ptable T) (n_cum : Z) : res nat :=
    rbind (if pt_dates t then days_from_freq (detect_freq (map d_date (kept t))) else Ok 1%Z) (fun d => Ok (widening_step n_cum d)).
  (* the source column is there whenever weights are zero: always so in run_forecast *)
  Lemma pi_single_eq draw s n_cum q1 q2 (t : ptable T) : pt_src t = true ->
    pi_single draw s n_cum q1 q2 t =
    rbind (step_of t n_cum) (fun step =>
      match residuals (actuals_of t) (kept t), zmax_opt (map fst (actuals_of t)) with
      | [], _ => match kept t with [] => Err IndexError | _ => Ok (map actual_row (shown_actuals t)) end
      | _, None => Err ValueError
      | _, Some last =>
          let res := centred (residuals (actuals_of t) (kept t)) in
          rbind (add_percentiles (future_rows t last) (future_sample draw s step (length (future_rows t last)) res) q1 q2) (fun fut =>
          rbind (add_percentiles (past_rows t last) (past_sample draw s (length (past_rows t last)) res) q1 q2) (fun pas =>
          Ok (map actual_row (shown_actuals t) ++ pas ++ fut)))
      end).
  Proof.
    intros Hs. unfold pi_single, step_of. fold (kept t). rewrite Hs. cbn [negb]. fold (some_zero_weight t). fold (shown_actuals t).
    destruct (if pt_dates t then _ else _) as [d|]; cbn [rbind]; [|reflexivity].
    assert ((if some_zero_weight t then Ok (usable_actuals (kept t)) else Ok (map (fun r => (d_date r, d_y r)) (shown_actuals t))) = Ok (actuals_of t)) as ->.
    { unfold actuals_of. now destruct (some_zero_weight t). }
    cbn [rbind]. destruct (residuals (actuals_of t) (kept t)) as [|a l] eqn:Er; [reflexivity|].
    destruct (zmax_opt (map fst (actuals_of t))) as [last|]; [|reflexivity].
    reflexivity.
  Qed.
  Lemma residuals_actuals (a : list (Z * T)) l : residuals a l <> [] -> exists last, zmax_opt (map fst a) = Some last.
  Proof.
    destruct a as [|p a].
    - intros N. exfalso. apply N. unfold residuals. cbn. induction (filter _ l) as [|r l' IH]; [reflexivity|]. exact IH.
    - intros _. cbn. eauto.
  Qed.

  (* a source column makes no difference to a successful call *)
  Definition with_src (t : ptable T) : ptable T := mkPT true (pt_w t) (pt_best t) (pt_dates t) (pt_rows t).
  Lemma pi_with_src draw s n_cum q1 q2 t out : pi_single draw s n_cum q1 q2 t = Ok out -> pi_single draw s n_cum q1 q2 (with_src t) = Ok out.
  Proof.
    destruct t as [[|] w b d l]; [auto|]. unfold pi_single, with_src. cbn [pt_src pt_w pt_best pt_dates pt_rows]. intros E.
    destruct (if d then _ else _) as [k|]; [|discriminate]. cbn [rbind] in *.
    destruct (w && _); [discriminate|]. cbn [rbind] in *. destruct (residuals _ _); [discriminate|]. exact E.
  Qed.
  (* what a successful call returns *)
  Theorem pi_single_rows draw s n_cum q1 q2 t out : pi_single draw s n_cum q1 q2 t = Ok out ->
    exists step, step_of t n_cum = Ok step /\
    ((residuals (actuals_of t) (kept t) = [] /\ kept t <> [] /\ out = map actual_row (shown_actuals t)) \/
     (exists last, in_range q1 q2 /\ zmax_opt (map fst (actuals_of t)) = Some last /\ residuals (actuals_of t) (kept t) <> [] /\
        let res := centred (residuals (actuals_of t) (kept t)) in
        out = map actual_row (shown_actuals t) ++
              map (with_quantiles q1 q2 (past_deviation draw (length (past_rows t last)) res) s) (enumerate (past_rows t last)) ++
              map (with_quantiles q1 q2 (future_deviation draw step (length (future_rows t last)) res) s) (enumerate (future_rows t last)))).
  Proof.
    intros E. apply pi_with_src in E. rewrite pi_single_eq in E by reflexivity.
    change (step_of (with_src t) n_cum) with (step_of t n_cum) in E. change (kept (with_src t)) with (kept t) in E.
    change (actuals_of (with_src t)) with (actuals_of t) in E. change (shown_actuals (with_src t)) with (shown_actuals t) in E.
    change (future_rows (with_src t)) with (future_rows t) in E. change (past_rows (with_src t)) with (past_rows t) in E.
    destruct (step_of t n_cum) as [step|] eqn:Est; [|discriminate]. cbn [rbind] in E.
    exists step. split; [reflexivity|].
    assert (Hstep : (0 < step)%nat).
    { unfold step_of in Est. destruct (if pt_dates t then _ else _) as [d|]; [|discriminate]. cbn in Est. injection Est as <-.
      pose proof (widening_at_least n_cum d). lia. }
    destruct (residuals (actuals_of t) (kept t)) as [|a l] eqn:Er.
    - left. split; [reflexivity|]. destruct (kept t) as [|r0 l0]; [discriminate|]. injection E as <-. split; [discriminate|reflexivity].
    - right. rewrite <- Er in *. destruct (residuals_actuals (actuals_of t) (kept t)) as (last & El); [congruence|]. rewrite El in E. exists last.
      destruct (Z_lt_dec 0 q1) as [A1|A1], (Z_lt_dec q1 100) as [A2|A2], (Z_lt_dec 0 q2) as [B1|B1], (Z_lt_dec q2 100) as [B2|B2];
        try (exfalso; cbv zeta in E; rewrite add_percentiles_refused in E by (unfold in_range; lia); discriminate).
      assert (R : in_range q1 q2) by (unfold in_range; lia). split; [exact R|]. split; [exact El|]. split; [congruence|].
      cbv zeta in E |- *. set (res := centred (residuals (actuals_of t) (kept t))) in *.
      rewrite (add_percentiles_dev (future_rows t last) _ q1 q2 s (future_deviation draw step (length (future_rows t last)) res) R) in E.
      2:{ apply future_length. }
      2:{ intros k i K I. now apply future_nth. }
      cbn [rbind] in E.
      rewrite (add_percentiles_dev (past_rows t last) _ q1 q2 s (past_deviation draw (length (past_rows t last)) res) R) in E.
      2:{ apply reshape_length. }
      2:{ intros k i K I. now apply past_nth. }
      cbn [rbind] in E. injection E as <-. reflexivity.
  Qed.

  (* ---------- C47 ---------- *)
  Definition shape (p : prow T) := (p_date p, p_src p, p_model p, p_actual p, p_y p).
  Definition dshape (r : drow T) := (d_date r, d_src r, d_model r, d_actual r, d_y r).
  Lemma enum_map {A B} (f : A -> B) (l : list A) : map (fun p => f (snd p)) (enumerate l) = map f l.
  Proof.
    unfold enumerate. generalize 0%nat. induction l as [|a l IH]; intros k; [reflexivity|]. cbn. f_equal. apply IH.
  Qed.
  Lemma with_quantiles_shape q1 q2 dev s (l : list (drow T)) : (forall r, In r l -> d_actual r = false) ->
    map shape (map (with_quantiles q1 q2 dev s) (enumerate l)) = map dshape l.
  Proof.
    intros A. rewrite map_map. rewrite <- (enum_map dshape l). apply map_ext_in. intros [i r] Hi. cbn [snd].
    unfold with_quantiles, shape, dshape. cbn. rewrite A; [reflexivity|].
    now apply enumerate_in in Hi.
  Qed.
  Theorem pi_partition draw s n_cum q1 q2 t out : pi_single draw s n_cum q1 q2 t = Ok out ->
    (residuals (actuals_of t) (kept t) = [] /\ map shape out = map dshape (shown_actuals t)) \/
    (exists last, zmax_opt (map fst (actuals_of t)) = Some last /\
       map shape out = map dshape (shown_actuals t) ++ map dshape (past_rows t last) ++ map dshape (future_rows t last)).
  Proof.
    intros E. destruct (pi_single_rows _ _ _ _ _ _ _ E) as (step & _ & [(Er & _ & ->)|(last & _ & El & _ & ->)]).
    - left. split; [exact Er|]. rewrite map_map. apply map_ext_in. intros r Hr. apply filter_In in Hr as [_ Hr]. apply andb_prop in Hr as [Ha _].
      unfold shape, dshape, actual_row. cbn. now rewrite Ha.
    - right. exists last. split; [exact El|]. rewrite !map_app. f_equal; [|f_equal].
      + rewrite map_map. apply map_ext_in. intros r Hr. apply filter_In in Hr as [_ Hr]. apply andb_prop in Hr as [Ha _].
        unfold shape, dshape, actual_row. cbn. now rewrite Ha.
      + apply with_quantiles_shape. intros r Hr. apply filter_In in Hr as [_ Hr]. apply andb_prop in Hr as [Ha _]. now apply negb_true_iff.
      + apply with_quantiles_shape. intros r Hr. apply filter_In in Hr as [_ Hr]. apply andb_prop in Hr as [Ha _]. now apply negb_true_iff.
  Qed.
  (* every forecast row is in exactly one of the two parts *)
  Lemma past_future (t : ptable T) last : Permutation (past_rows t last ++ future_rows t last) (filter (fun r => negb (d_actual r)) (kept t)).
  Proof.
    unfold past_rows, future_rows. induction (kept t) as [|r l IH]; [constructor|]. cbn [filter].
    destruct (d_actual r); cbn [negb andb]; [exact IH|]. destruct (Z.leb_spec (d_date r) last) as [L|L], (Z.ltb_spec last (d_date r)) as [K|K]; try lia.
    - cbn [app]. now constructor.
    - rewrite <- Permutation_middle. now constructor.
  Qed.
  (* the dates that count as usable actuals *)
  Lemma actual_dates (t : ptable T) d : In d (map fst (actuals_of t)) <->
    exists r, In r (kept t) /\ d_actual r = true /\ nisnan (d_y r) = false /\ d_date r = d /\
      (some_zero_weight t = true -> exists r', In r' (kept t) /\ d_actual r' = true /\ nltb n0 (d_w r') = true /\ d_date r' = d).
  Proof.
    unfold actuals_of. destruct (some_zero_weight t) eqn:Z.
    - rewrite in_map_iff. split.
      + intros ((d' & y) & <- & Hp). unfold usable_actuals in Hp. apply in_flat_map in Hp as (r & Hr & Hp). apply filter_In in Hr as [Hr Hv].
        apply andb_prop in Hv as [Ha Hv]. assert (C : length (filter (Z.eqb (d_date r)) (map d_date (filter (fun r => nltb n0 (d_w r) && d_actual r) (kept t)))) <> 0%nat).
        { intros C. rewrite C in Hp. destruct Hp. }
        apply repeat_spec in Hp. injection Hp as -> ->. exists r. unfold with_value in Hv. apply negb_true_iff in Hv. cbn. repeat split; auto. intros _.
        destruct (filter (Z.eqb (d_date r)) _) as [|z l] eqn:Ef; [cbn in C; congruence|].
        assert (K : In z (filter (Z.eqb (d_date r)) (map d_date (filter (fun r => nltb n0 (d_w r) && d_actual r) (kept t))))) by (rewrite Ef; now left).
        apply filter_In in K as [K1 K2]. apply Z.eqb_eq in K2. apply in_map_iff in K1 as (r' & E' & K1). apply filter_In in K1 as [K1 K3].
        apply andb_prop in K3 as [K3 K4]. exists r'. repeat split; auto. congruence.
      + intros (r & Hr & Ha & Hv & <- & U). destruct (U eq_refl) as (r' & Hr' & Ha' & Hw & Ed). exists (d_date r, d_y r). split; [reflexivity|].
        unfold usable_actuals. apply in_flat_map. exists r. split; [apply filter_In; split; [exact Hr|]; unfold with_value; now rewrite Ha, Hv|].
        assert (K : In (d_date r) (filter (Z.eqb (d_date r)) (map d_date (filter (fun r => nltb n0 (d_w r) && d_actual r) (kept t))))).
        { apply filter_In. split; [|apply Z.eqb_refl]. apply in_map_iff. exists r'. split; [exact Ed|]. apply filter_In. split; [exact Hr'|]. now rewrite Hw, Ha'. }
        destruct (filter (Z.eqb (d_date r)) _) as [|z l]; [destruct K|]. cbn. now left.
    - rewrite map_map, in_map_iff. cbn [fst]. split.
      + intros (r & <- & Hr). apply filter_In in Hr as [Hr Hv]. apply andb_prop in Hv as [Ha Hv]. apply negb_true_iff in Hv. exists r.
        repeat split; auto. discriminate.
      + intros (r & Hr & Ha & Hv & <- & _). exists r. split; [reflexivity|]. apply filter_In. split; [exact Hr|]. unfold with_value. now rewrite Ha, Hv.
  Qed.

  (* ---------- several sources ---------- *)
  Definition source_table (t : ptable T) (s : string) : ptable T :=
    mkPT true (pt_w t) (pt_best t) (pt_dates t) (filter (fun r => String.eqb (d_src r) s) (pt_rows t)).
  Definition pi_sources (t : ptable T) : list string := isort str_leb (dedup String.eqb (map d_src (pt_rows t))).
  Definition prow_le (a b : prow T) : Prop :=
    String.compare (p_src a) (p_src b) = Lt \/
    (p_src a = p_src b /\ ((p_actual a = false /\ p_actual b = true) \/ (p_actual a = p_actual b /\ (p_date a <= p_date b)%Z))).
  Lemma prow_leb_iff a b : prow_leb a b = true <-> prow_le a b.
  Proof.
    unfold prow_leb, prow_le. destruct (String.compare (p_src a) (p_src b)) eqn:C.
    - apply str_compare_eq in C. destruct (Bool.eqb (p_actual a) (p_actual b)) eqn:B.
      + apply eqb_prop in B. rewrite Z.leb_le. split; [auto|]. intros [K|(_ & [[K1 K2]|[_ K]])]; [discriminate|congruence|exact K].
      + apply eqb_false_iff in B. split.
        * intros K. right. split; [exact C|]. left. destruct (p_actual a), (p_actual b); auto; congruence.
        * intros [K|(_ & [[_ K]|[K _]])]; [discriminate|exact K|congruence].
    - split; auto.
    - split; [discriminate|]. intros [K|(K & _)]; [discriminate|]. rewrite K, str_compare_refl in C. discriminate.
  Qed.
  Lemma prow_leb_total : total_leb (prow_leb (T := T)).
  Proof.
    intros a b. unfold prow_leb. destruct (String.compare (p_src a) (p_src b)) eqn:C.
    - apply str_compare_eq in C. rewrite C, str_compare_refl. destruct (p_actual a), (p_actual b); cbn; auto; rewrite !Z.leb_le; lia.
    - auto.
    - apply str_compare_gt in C. rewrite C. auto.
  Qed.
  Lemma prow_leb_trans : trans_leb (prow_leb (T := T)).
  Proof.
    intros a b c Hab Hbc. rewrite prow_leb_iff in *. unfold prow_le in *.
    destruct Hab as [L1|(E1 & K1)], Hbc as [L2|(E2 & K2)].
    - left. exact (str_lt_trans _ _ _ L1 L2).
    - left. now rewrite <- E2.
    - left. now rewrite E1.
    - right. split; [congruence|]. destruct K1 as [[A B]|[A B]], K2 as [[C D]|[C D]].
      + congruence.
      + left. split; [exact A|congruence].
      + left. split; [congruence|exact D].
      + right. split; [congruence|lia].
  Qed.
  Theorem get_pi_several draw s n_cum q1 q2 wd t out : pt_src t = true -> (1 < length (pi_sources t))%nat ->
    get_pi draw s n_cum q1 q2 wd t = Ok out ->
    exists k parts, (match n_cum with Some n => Ok n | None => days_from_freq wd end) = Ok k /\
      Forall2 (fun u p => pi_single (draw u) s k q1 q2 (source_table t u) = Ok p) (pi_sources t) parts /\
      Permutation out (concat parts) /\ StronglySorted prow_le out.
  Proof.
    intros Hs L E. unfold get_pi in E. destruct (match n_cum with Some n => Ok n | None => days_from_freq wd end) as [k|]; [|discriminate].
    cbn [rbind] in E. fold (pi_sources t) in E. rewrite Hs in E. apply Nat.ltb_lt in L. rewrite L in E. cbn [andb] in E.
    destruct (rmapM _ _) as [gs|] eqn:Eg; [|discriminate]. cbn [rbind] in E. injection E as <-. exists k, gs.
    split; [reflexivity|]. split; [now apply rmapM_inv|]. split; [symmetry; apply isort_perm|].
    pose proof (isort_sorted _ (concat gs) prow_leb_total prow_leb_trans) as Sd. induction Sd as [|a l' Sd IH F]; constructor; auto.
    eapply Forall_impl; [|exact F]. intros b. apply prow_leb_iff.
  Qed.
  (* ---------- errors ---------- *)
  Theorem pi_no_freq draw s n_cum q1 q2 t : pt_dates t = true -> detect_freq (map d_date (kept t)) = None ->
    pi_single draw s n_cum q1 q2 t = Err AttributeError.
  Proof. intros D F. unfold pi_single. fold (kept t). now rewrite D, F. Qed.
  Lemma get_pi_one draw s n q1 q2 wd t : (pt_src t = false \/ (length (pi_sources t) <= 1)%nat) ->
    get_pi draw s (Some n) q1 q2 wd t = pi_single (draw (match pt_rows t with r :: _ => d_src r | [] => "" end)) s n q1 q2 t.
  Proof.
    intros L. unfold get_pi. cbn [rbind]. fold (pi_sources t). destruct L as [->|L]; [reflexivity|].
    apply Nat.ltb_ge in L. rewrite L. now rewrite andb_false_r.
  Qed.
  Lemma get_pi_widening draw s q1 q2 wd t n : days_from_freq wd = Ok n -> get_pi draw s None q1 q2 wd t = get_pi draw s (Some n) q1 q2 wd t.
  Proof. intros E. unfold get_pi. now rewrite E. Qed.
  Theorem get_pi_no_widening draw s q1 q2 t : get_pi draw s None q1 q2 None t = Err AttributeError.
  Proof. reflexivity. Qed.
  Theorem get_pi_no_freq draw s n q1 q2 wd t : pt_dates t = true -> (pt_src t = false \/ (length (pi_sources t) <= 1)%nat) ->
    detect_freq (map d_date (kept t)) = None -> get_pi draw s (Some n) q1 q2 wd t = Err AttributeError.
  Proof. intros D L F. rewrite get_pi_one by exact L. now apply pi_no_freq. Qed.
  Theorem get_pi_no_freq_several draw s n q1 q2 wd t u : pt_dates t = true -> pt_src t = true -> (1 < length (pi_sources t))%nat ->
    In u (pi_sources t) -> detect_freq (map d_date (kept (source_table t u))) = None ->
    forall out, get_pi draw s n q1 q2 wd t <> Ok out.
  Proof.
    intros D Hs L Hu F out E. destruct (get_pi_several _ _ _ _ _ _ _ _ Hs L E) as (k & parts & _ & P & _).
    revert Hu. clear - P D F. induction P as [|a p l l' Hp P IH]; [intros []|]. intros [->|Hu]; [|now apply IH].
    rewrite pi_no_freq in Hp; [discriminate|exact D|exact F].
  Qed.
  Theorem pi_bad_percentiles draw s n_cum q1 q2 t step : pt_src t = true -> step_of t n_cum = Ok step ->
    residuals (actuals_of t) (kept t) <> [] -> ~ in_range q1 q2 -> pi_single draw s n_cum q1 q2 t = Err AssertionError.
  Proof.
    intros Hs Est Hr Nq. rewrite pi_single_eq by exact Hs. rewrite Est. cbn [rbind].
    destruct (residuals_actuals _ _ Hr) as (last & El). rewrite El. destruct (residuals _ _) as [|a l]; [congruence|].
    cbv zeta. now rewrite add_percentiles_refused.
  Qed.
End Sim.

(* ---------- C46: percentiles of real samples ---------- *)
Definition at_pos (s : list R) (d : R) (p : Z) : R :=
  let i := Z.to_nat (p / 100) in
  (nth i s d + IZR (p mod 100) / 100 * (nth (Datatypes.S i) s (nth i s d) - nth i s d))%R.
Lemma quantile_fin l q : l <> [] -> exists d, quantile q 100 (map Fin l) = Fin (at_pos (isort Rleb l) d (Z.of_nat (length l - 1) * q)).
Proof.
  intros N. unfold quantile.
  assert (non_null (map Fin l) = map Fin l) as ->.
  { unfold non_null. clear. induction l as [|a l IH]; [reflexivity|]. cbn [map filter]. change (negb (nisnan (Fin a))) with true. cbv iota. now rewrite IH. }
  rewrite isort_fin. assert (Len : length (isort Rleb l) = length l) by apply isort_length. rewrite <- Len.
  assert (isort Rleb l <> []) as Hn'. { intros C. rewrite C in Len. destruct l; [congruence|discriminate]. }
  destruct (isort Rleb l) as [|v s]; [congruence|]. exists v.
  change (map Fin (v :: s)) with (Fin v :: map Fin s) at 1. cbv iota beta zeta. rewrite map_length.
  set (p := (Z.of_nat (length (v :: s) - 1) * q)%Z). set (i := Z.to_nat (p / 100)).
  rewrite (map_nth Fin (v :: s) v i). rewrite (map_nth Fin (v :: s) (nth i (v :: s) v)). rewrite !ofZ_fin. cbn - [nth length Z.modulo].
  unfold Reqb. destruct (Req_EM_T 100 0); [lra|]. cbn - [nth length Z.modulo]. reflexivity.
Qed.
Lemma at_pos_bounds s d p : StronglySorted Rle s -> s <> [] -> (0 <= p <= 100 * Z.of_nat (length s - 1))%Z ->
  let i := Z.to_nat (p / 100) in
  (i < length s)%nat /\ (nth i s d <= at_pos s d p <= nth (Datatypes.S i) s (nth i s d))%R /\
  ((Datatypes.S i < length s)%nat \/ (p mod 100 = 0)%Z).
Proof.
  intros S N B. cbv zeta. set (i := Z.to_nat (p / 100)). assert (L : (0 < length s)%nat) by (destruct s; [congruence|cbn; lia]).
  assert (Hi : (Z.of_nat i = p / 100)%Z) by (unfold i; rewrite Z2Nat.id; [reflexivity|apply Z.div_pos; lia]).
  assert (M : (100 * (p / 100) + p mod 100 = p)%Z) by (symmetry; apply Z.div_mod; lia). pose proof (Z.mod_pos_bound p 100 ltac:(lia)) as Bm.
  assert (Li : (i < length s)%nat) by lia. split; [exact Li|].
  assert (K : (Datatypes.S i < length s)%nat \/ (p mod 100 = 0)%Z) by lia. split; [|exact K].
  assert (D : (nth i s d <= nth (Datatypes.S i) s (nth i s d))%R).
  { destruct (Nat.lt_ge_cases (Datatypes.S i) (length s)) as [L1|L1].
    - rewrite (nth_default_irrel s (Datatypes.S i) _ d L1). apply sorted_nth_le; [exact S|lia].
    - rewrite (nth_overflow s (nth i s d)) by exact L1. lra. }
  unfold at_pos. fold i. set (v0 := nth i s d) in *. set (v1 := nth (Datatypes.S i) s v0) in *.
  assert (0 <= IZR (p mod 100))%R by (apply (IZR_le 0); lia). assert (IZR (p mod 100) <= 100)%R by (apply (IZR_le _ 100); lia).
  set (m := IZR (p mod 100)) in *. nra.
Qed.
Lemma at_pos_mono s d d' p p' : StronglySorted Rle s -> s <> [] -> (0 <= p <= p')%Z -> (p' <= 100 * Z.of_nat (length s - 1))%Z ->
  (at_pos s d p <= at_pos s d' p')%R.
Proof.
  intros S N B B'. destruct (at_pos_bounds s d p S N ltac:(lia)) as (L & (U1 & U2) & K). destruct (at_pos_bounds s d' p' S N ltac:(lia)) as (L' & (U1' & U2') & K').
  set (i := Z.to_nat (p / 100)) in *. set (i' := Z.to_nat (p' / 100)) in *.
  assert (Hd : (p / 100 <= p' / 100)%Z) by (apply Z.div_le_mono; lia).
  destruct (Z.eq_dec (p / 100) (p' / 100)) as [E|E].
  - assert (i = i') as Ei by (unfold i, i'; now rewrite E). unfold at_pos. fold i i'. rewrite <- Ei in *. rewrite (nth_default_irrel s i d' d L) in *.
    assert (D : (nth i s d <= nth (Datatypes.S i) s (nth i s d))%R) by lra.
    assert (p mod 100 <= p' mod 100)%Z.
    { pose proof (Z.div_mod p 100 ltac:(lia)). pose proof (Z.div_mod p' 100 ltac:(lia)). lia. }
    assert (IZR (p mod 100) <= IZR (p' mod 100))%R by (now apply IZR_le). nra.
  - assert (Datatypes.S i <= i')%nat.
    { unfold i, i'. assert (0 <= p / 100)%Z by (apply Z.div_pos; lia). lia. }
    apply Rle_trans with (nth (Datatypes.S i) s (nth i s d)); [exact U2|]. apply Rle_trans with (nth i' s d'); [|exact U1'].
    rewrite (nth_default_irrel s _ _ d') by lia. apply sorted_nth_le; [exact S|lia].
Qed.
Theorem percentile_mono l q q' : l <> [] -> (0 <= q <= q')%Z -> (q' <= 100)%Z ->
  exists a b, quantile q 100 (map Fin l) = Fin a /\ quantile q' 100 (map Fin l) = Fin b /\ (a <= b)%R.
Proof.
  intros N B B'. destruct (quantile_fin l q N) as (d & E), (quantile_fin l q' N) as (d' & E'). do 2 eexists. split; [exact E|]. split; [exact E'|].
  assert (length (isort Rleb l) = length l) as Len by apply isort_length.
  apply at_pos_mono; [apply Rsorted| |nia|rewrite Len; nia]. intros C. rewrite C in Len. destruct l; [congruence|discriminate].
Qed.
(* how many values lie below and above a percentile *)
Lemma count_le (p : R -> bool) l : forall n d, (forall i, (n <= i < length l)%nat -> p (nth i l d) = false) -> (count p l <= n)%nat.
Proof.
  unfold count. induction l as [|a l IH]; intros n d F; [cbn; lia|]. cbn [filter]. destruct n as [|n].
  - rewrite (F 0%nat ltac:(cbn; lia) : p a = false). apply (IH 0%nat d). intros i Hi. apply (F (Datatypes.S i)). cbn. lia.
  - assert (count p l <= n)%nat as K. { apply (IH n d). intros i Hi. apply (F (Datatypes.S i)). cbn. lia. }
    unfold count in K. destruct (p a); cbn [length]; lia.
Qed.
Theorem percentile_rank l q : l <> [] -> (0 <= q <= 100)%Z ->
  exists a, quantile q 100 (map Fin l) = Fin a /\
    (100 * Z.of_nat (count (fun x => Rltb x a) l) < Z.of_nat (length l - 1) * q + 100)%Z /\
    (100 * Z.of_nat (count (fun x => Rltb a x) l) < Z.of_nat (length l - 1) * (100 - q) + 100)%Z.
Proof.
  intros N B. destruct (quantile_fin l q N) as (d & E). eexists. split; [exact E|].
  rewrite !(count_perm _ _ _ (isort_perm Rleb l)). assert (length (isort Rleb l) = length l) as Len by apply isort_length. rewrite <- Len.
  assert (S := Rsorted l). assert (isort Rleb l <> []) as Hn. { intros C. rewrite C in Len. destruct l; [congruence|discriminate]. }
  set (s := isort Rleb l) in *. set (p := (Z.of_nat (length s - 1) * q)%Z).
  destruct (at_pos_bounds s d p S Hn ltac:(nia)) as (L & (U1 & U2) & K). set (i := Z.to_nat (p / 100)) in *. set (a := at_pos s d p) in *.
  assert (Hi : (Z.of_nat i = p / 100)%Z) by (unfold i; rewrite Z2Nat.id; [reflexivity|apply Z.div_pos; nia]).
  assert (M : (100 * (p / 100) + p mod 100 = p)%Z) by (symmetry; apply Z.div_mod; lia). pose proof (Z.mod_pos_bound p 100 ltac:(lia)) as Bm.
  assert (F : forall x y, (y <= x)%R -> Rltb x y = false). { intros x y Hxy. unfold Rltb. destruct (Rlt_dec x y); [lra|reflexivity]. }
  split.
  - destruct (Z.eq_dec (p mod 100) 0) as [Z0|Z0].
    + assert (a = nth i s d) as Ea. { unfold a, at_pos. fold i. rewrite Z0. lra. }
      assert (count (fun x => Rltb x a) s <= i)%nat; [|lia]. apply (count_le _ s i d). intros j Hj. apply F. rewrite Ea. apply sorted_nth_le; [exact S|lia].
    + destruct K as [K|K]; [|contradiction]. assert (count (fun x => Rltb x a) s <= Datatypes.S i)%nat; [|lia].
      apply (count_le _ s (Datatypes.S i) d). intros j Hj. apply F. eapply Rle_trans; [exact U2|].
      rewrite (nth_default_irrel s _ _ d K). apply sorted_nth_le; [exact S|lia].
  - assert (count (fun x => Rltb a x) s <= length s - Datatypes.S i)%nat; [|lia].
    unfold count. rewrite <- filter_rev'. apply (count_le _ (rev s) (length s - Datatypes.S i) d). intros j Hj. rewrite rev_length in Hj.
    rewrite rev_nth by lia. apply F. eapply Rle_trans; [|exact U1]. apply sorted_nth_le; [exact S|lia].
Qed.

(* ---------- finite tables ---------- *)
Definition is_fin (x : XR) : Prop := exists r, x = Fin r.
Definition fin_or_null (x : XR) : Prop := x = XNaN \/ is_fin x.
Definition finite_table (t : ptable XR) : Prop := forall r, In r (pt_rows t) -> fin_or_null (d_y r).
Lemma all_fin (l : list XR) : (forall x, In x l -> is_fin x) -> exists rs, l = map Fin rs.
Proof.
  induction l as [|a l IH]; intros F; [exists []; reflexivity|]. destruct (F a (or_introl eq_refl)) as (r & ->).
  destruct IH as (rs & ->); [intros x Hx; apply F; now right|]. exists (r :: rs). reflexivity.
Qed.
Lemma kept_in {T} `{NumOps T} (t : ptable T) r : In r (kept t) -> In r (pt_rows t).
Proof. unfold kept. destruct (pt_best t); [|auto]. intros I. now apply filter_In in I. Qed.
Lemma actuals_fin t : finite_table t -> forall d y, In (d, y) (actuals_of t) -> is_fin y.
Proof.
  intros F d y I. assert (G : forall r, In r (filter (fun r => d_actual r && with_value r) (kept t)) -> is_fin (d_y r)).
  { intros r Hr. apply filter_In in Hr as [Hr Hv]. apply andb_prop in Hv as [_ Hv]. destruct (F r (kept_in _ _ Hr)) as [K|K]; [|exact K].
    unfold with_value in Hv. rewrite K in Hv. discriminate. }
  unfold actuals_of in I. destruct (some_zero_weight t).
  - unfold usable_actuals in I. apply in_flat_map in I as (r & Hr & I). apply repeat_spec in I. injection I as -> ->. now apply G.
  - apply in_map_iff in I as (r & E & Hr). injection E as <- <-. now apply G.
Qed.
Lemma residuals_fin t : finite_table t -> exists rs, residuals (actuals_of t) (kept t) = map Fin rs.
Proof.
  intros F. apply all_fin. intros x Hx. unfold residuals in Hx. apply filter_In in Hx as [Hx _]. apply in_flat_map in Hx as (r & Hr & Hx).
  apply in_map_iff in Hx as ((d & y) & <- & Ha). apply filter_In in Ha as [Ha _]. apply filter_In in Hr as [Hr Hv]. apply andb_prop in Hv as [_ Hv].
  cbn [snd]. destruct (actuals_fin t F d y Ha) as (a & ->). destruct (F r (kept_in _ _ Hr)) as [K|(b & K)].
  - unfold with_value in Hv. rewrite K in Hv. discriminate.
  - rewrite K. cbn. eexists. reflexivity.
Qed.
Definition mean (rs : list R) : R := (rsum rs / IZR (Z.of_nat (length rs)))%R.
Lemma centred_fin rs : rs <> [] -> centred (map Fin rs) = map Fin (map (fun r => r - mean rs)%R rs).
Proof.
  intros N. unfold centred. rewrite map_length, nsum_fin, ofZ_fin. cbn - [Z.of_nat].
  assert (IZR (Z.of_nat (length rs)) <> 0)%R as K. { apply (IZR_neq _ 0). destruct rs; [congruence|cbn [length]; lia]. }
  unfold Reqb. destruct (Req_EM_T (IZR (Z.of_nat (length rs))) 0); [contradiction|]. rewrite !map_map. apply map_ext. intros r. reflexivity.
Qed.
(* the residuals sampled from have zero mean *)
Theorem centred_zero rs : rs <> [] -> exists ds, centred (map Fin rs) = map Fin ds /\ length ds = length rs /\ rsum ds = 0%R /\
  (forall i j d, (i < length rs)%nat -> (j < length rs)%nat -> (nth i ds d - nth j ds d = nth i rs d - nth j rs d)%R).
Proof.
  intros N. eexists. split; [now apply centred_fin|]. split; [now rewrite map_length|]. split.
  - assert (G : forall m l, rsum (map (fun r => r - m)%R l) = (rsum l - IZR (Z.of_nat (length l)) * m)%R).
    { intros m. induction l as [|a l IH]; [cbn; lra|]. cbn [map length]. rewrite Nat2Z.inj_succ, succ_IZR. cbn [rsum fold_right]. 
      change (rsum (a - m :: map (fun r => r - m) l))%R with ((a - m) + rsum (map (fun r => r - m) l))%R. rewrite IH.
      change (rsum (a :: l)) with (a + rsum l)%R. lra. }
    rewrite G. unfold mean. field. apply (IZR_neq _ 0). destruct rs; [congruence|cbn [length]; lia].
  - intros i j d Li Lj. set (f := fun r => (r - mean rs)%R).
    rewrite !(nth_indep (map f rs) d (f d)) by (now rewrite map_length). rewrite !map_nth. unfold f. lra.
Qed.
Lemma drawn_fin res d i : res <> [] -> (forall x, In x res -> is_fin x) -> is_fin (drawn res d i).
Proof. intros N F. apply F. now apply drawn_in. Qed.
Lemma prefix_sum_fin f j : (forall i, is_fin (f i)) -> is_fin (prefix_sum f j).
Proof.
  intros F. induction j as [|j (a & IH)]; [apply F|]. cbn [prefix_sum]. rewrite IH. destruct (F (Datatypes.S j)) as (b & ->). cbn. eexists. reflexivity.
Qed.
Lemma past_dev_fin draw n res k i : res <> [] -> (forall x, In x res -> is_fin x) -> is_fin (past_deviation draw n res k i).
Proof. intros N F. now apply drawn_fin. Qed.
Lemma future_dev_fin draw c n res k i : res <> [] -> (forall x, In x res -> is_fin x) -> is_fin (future_deviation draw c n res k i).
Proof.
  intros N F. unfold future_deviation. destruct (drawn_fin res (draw 1%nat) (k * n + i)%nat N F) as (a & ->).
  destruct (prefix_sum_fin (fun j => drawn res (draw 0%nat) (k * ceil_nat n c + j)%nat) (i / c)) as (b & ->); [intros j; now apply drawn_fin|].
  cbn. eexists. reflexivity.
Qed.

(* the percentile columns of a row are ordered *)
Definition bounds_ordered (p : prow XR) : Prop :=
  forall qa va qb vb, In (qa, va) (p_q p) -> In (qb, vb) (p_q p) -> (qa <= qb)%Z ->
    if nisnan (p_y p) then va = XNaN /\ vb = XNaN else exists a b, va = Fin a /\ vb = Fin b /\ (a <= b)%R.
Definition bounds_for (q1 q2 : Z) (p : prow XR) : Prop :=
  if p_actual p then p_q p = [] else forall q, In q (map fst (p_q p)) <-> q = q1 \/ q = (100 - q1)%Z \/ q = q2 \/ q = (100 - q2)%Z.
Lemma percentiles_in q1 q2 q : In q (percentiles q1 q2) <-> q = q1 \/ q = (100 - q1)%Z \/ q = q2 \/ q = (100 - q2)%Z.
Proof. unfold percentiles. rewrite (dedup_in Z.eqb Z.eqb_eq). cbn [In]. intuition auto. Qed.
Lemma quantiles_ordered q1 q2 dev s i r : in_range q1 q2 -> (1 <= s)%nat -> fin_or_null (d_y r) -> (forall k, is_fin (dev k i)) ->
  bounds_ordered (with_quantiles q1 q2 dev s (i, r)) /\ bounds_for q1 q2 (with_quantiles q1 q2 dev s (i, r)).
Proof.
  intros Hq Hs Hy Hd. split.
  - intros qa va qb vb Ia Ib L. unfold with_quantiles in *. cbn [p_q p_y] in *.
    apply in_map_iff in Ia as (qa' & Ea & Ia). injection Ea as -> <-. apply in_map_iff in Ib as (qb' & Eb & Ib). injection Eb as -> <-.
    apply percentiles_in in Ia. apply percentiles_in in Ib. unfold in_range in Hq.
    set (l := map (fun k => dev k i) (seq 0 s)). destruct (all_fin l) as (rs & El).
    { intros x Hx. unfold l in Hx. apply in_map_iff in Hx as (k & <- & _). apply Hd. }
    assert (Nr : rs <> []). { intros ->. apply (f_equal (@length _)) in El. unfold l in El. rewrite map_length, seq_length in El. cbn in El. lia. }
    destruct (percentile_mono rs qa qb Nr ltac:(lia) ltac:(lia)) as (a & b & Ea & Eb & Lab). unfold percentile.
    assert (existsb nisnan l = false) as ->. { rewrite El. clear. induction rs as [|a rs IH]; [reflexivity|]. exact IH. }
    rewrite El, Ea, Eb. destruct Hy as [->|(y & ->)].
    + cbn. auto.
    + change (nisnan (Fin y)) with false. cbv iota. cbn. exists (y + a)%R, (y + b)%R. repeat split; auto. lra.
  - unfold bounds_for, with_quantiles. cbn [p_actual p_q]. intros q. rewrite map_map. cbn [fst]. rewrite map_id. apply percentiles_in.
Qed.
Theorem pi_single_ordered draw s n_cum q1 q2 t out : finite_table t -> (1 <= s)%nat -> pi_single draw s n_cum q1 q2 t = Ok out ->
  forall p, In p out -> bounds_ordered p /\ bounds_for q1 q2 p.
Proof.
  intros F Hs E p Hp. destruct (pi_single_rows _ _ _ _ _ _ _ E) as (step & _ & [(_ & _ & ->)|(last & Hq & _ & Nr & Eo)]).
  - apply in_map_iff in Hp as (r & <- & _). split; [intros qa va qb vb []|reflexivity].
  - cbv zeta in Eo. set (res := centred (residuals (actuals_of t) (kept t))) in *.
    assert (Hres : res <> [] /\ forall x, In x res -> is_fin x).
    { unfold res. destruct (residuals_fin t F) as (rs & Er). rewrite Er in Nr |- *. assert (rs <> []) as N by (intros ->; now apply Nr).
      rewrite centred_fin by exact N. split; [destruct rs; [congruence|discriminate]|]. intros x Hx. apply in_map_iff in Hx as (r & <- & _). now exists r. }
    destruct Hres as [N1 N2]. subst out. rewrite !in_app_iff in Hp. destruct Hp as [Hp|[Hp|Hp]].
    + apply in_map_iff in Hp as (r & <- & _). split; [intros qa va qb vb []|reflexivity].
    + apply in_map_iff in Hp as ((i & r) & <- & Hi). apply enumerate_in in Hi as [_ Hi]. apply quantiles_ordered; auto.
      * apply F. apply filter_In in Hi as [Hi _]. now apply kept_in.
      * intros k. now apply past_dev_fin.
    + apply in_map_iff in Hp as ((i & r) & <- & Hi). apply enumerate_in in Hi as [_ Hi]. apply quantiles_ordered; auto.
      * apply F. apply filter_In in Hi as [Hi _]. now apply kept_in.
      * intros k. now apply future_dev_fin.
Qed.
Theorem get_pi_ordered draw s n_cum q1 q2 wd t out : finite_table t -> (1 <= s)%nat -> get_pi draw s n_cum q1 q2 wd t = Ok out ->
  forall p, In p out -> bounds_ordered p /\ bounds_for q1 q2 p.
Proof.
  intros F Hs E p Hp. unfold get_pi in E. destruct (match n_cum with Some n => Ok n | None => days_from_freq wd end) as [k|]; [|discriminate].
  cbn [rbind] in E. destruct (_ && _).
  - destruct (rmapM _ _) as [gs|] eqn:Eg; [|discriminate]. cbn [rbind] in E. injection E as <-.
    apply (Permutation_in _ (Permutation_sym (isort_perm _ _))) in Hp. apply in_concat in Hp as (g & Hg & Hp).
    apply rmapM_inv in Eg. destruct (Forall2_in_r _ _ _ _ Eg Hg) as (u & _ & Ep). eapply pi_single_ordered; [|exact Hs|exact Ep|exact Hp].
    intros r Hr. cbn in Hr. apply filter_In in Hr as [Hr _]. now apply F.
  - eapply pi_single_ordered; eauto.
Qed.
