(* Specifications and lemmas for C63: the order of the input rows. *)
From Coq Require Import ZArith String List Bool Lia Sorted Permutation.
From Verif Require Import Num Py Cal Model Freq Normalize ListProofs StringProofs GroupProofs GridProofs NormalizeProofs Fit Interp Select Stats Outliers Pi Forecast.
Import ListNotations.
Local Open Scope Z_scope.

Section Order.
  Context {T : Type}.

  (* ---- specification ---- *)
  (* the same table with its rows in another order *)
  Definition reorder (t : raw T) (qs : list (rawrow T)) : raw T :=
    mkTable (t_y t) (t_w t) (t_x t) (t_date t) (t_src t) (t_dtindex t) qs.
  (* where a normalized row is: series and x *)
  Definition position (f : frame T) (r : row T) : string * Z := (if has_src f then r_src r else EmptyString, r_x r).
  Definition distinct (f : frame T) : Prop := NoDup (map (position f) (rows f)).
  (* the same rows with the x of every series moved by whole weeks *)
  Definition weeks_moved (k : string -> Z) (f : frame T) : frame T :=
    mkFrame (has_date f) (has_src f) (has_w f) (map (fun r => set_x r (r_x r + 7 * k (fst (position f r)))) (rows f)).

  (* ---- lemmas ---- *)
  Lemma ordered_anti b (x y : row T) : ordered b x y -> ordered b y x ->
    ((if b then r_src x else EmptyString), r_x x) = ((if b then r_src y else EmptyString), r_x y).
  Proof.
    unfold ordered. destruct b.
    - intros [L|[E L]] [L'|[E' L']].
      + pose proof (str_lt_trans _ _ _ L L') as C. rewrite str_compare_refl in C. discriminate.
      + rewrite E', str_compare_refl in L. discriminate.
      + rewrite E, str_compare_refl in L'. discriminate.
      + rewrite E. f_equal. lia.
    - intros L L'. f_equal. lia.
  Qed.
  Lemma nodup_key {A B} (key : A -> B) (l : list A) a b : NoDup (map key l) -> In a l -> In b l -> key a = key b -> a = b.
  Proof.
    induction l as [|c l IH]; [intros _ []|]. cbn [map]. intros N Ha Hb E. inversion_clear N as [|? ? Ni Nd].
    destruct Ha as [->|Ha], Hb as [->|Hb]; auto.
    - exfalso. apply Ni. rewrite E. now apply in_map.
    - exfalso. apply Ni. rewrite <- E. now apply in_map.
  Qed.
  Lemma sorted_unique b : forall l l' : list (row T), StronglySorted (ordered b) l -> StronglySorted (ordered b) l' -> Permutation l l' ->
    NoDup (map (fun r => (if b then r_src r else EmptyString, r_x r)) l) -> l = l'.
  Proof.
    induction l as [|a l IH]; intros l' S S' P N.
    - apply Permutation_nil in P. now subst.
    - destruct l' as [|a' l']; [symmetry in P; now apply Permutation_nil_cons in P|].
      inversion_clear S as [|? ? Sl F]. inversion_clear S' as [|? ? Sl' F']. rewrite Forall_forall in F, F'.
      assert (E : a = a').
      { assert (I : In a (a' :: l')) by (eapply Permutation_in; [exact P|now left]).
        assert (I' : In a' (a :: l)) by (eapply Permutation_in; [symmetry; exact P|now left]).
        destruct I as [I|I]; [now subst|]. destruct I' as [I'|I']; [now subst|].
        eapply nodup_key; [exact N|now left|now right|]. apply ordered_anti; auto. }
      subst a'. f_equal. apply Permutation_cons_inv in P. cbn [map] in N. inversion_clear N as [|? ? _ Nd]. now apply IH.
  Qed.
  Lemma enumerate_map (g : rawrow T -> row T) (h : nat * rawrow T -> row T) (l : list (rawrow T)) : (forall i q, In (i, q) (enumerate l) -> h (i, q) = g q) ->
    map h (enumerate l) = map g l.
  Proof.
    intros E. rewrite <- (enum_snd l 0) at 2. rewrite map_map. apply map_ext_in. intros [i q] I. now apply E.
  Qed.
  Lemma enumerate_in {A} (l : list A) : forall n i a, In (i, a) (enum_from n l) -> In a l.
  Proof. induction l as [|b l IH]; intros n i a I; [destruct I|]. destruct I as [E|I]; [injection E as _ ->; now left|right; eauto]. Qed.

  (* ---- an x column, or dates whose series start in the same week ---- *)
  Definition same_weeks (t : raw T) (qs : list (rawrow T)) : Prop := forall q, In q (t_rows t) ->
    x_origin (first_date (reorder t qs) (gkey t q)) = x_origin (first_date t (gkey t q)).
  Theorem order_irrelevant (t : raw T) qs f : Permutation (t_rows t) qs -> normalize_df t = Ok (Some f) -> distinct f ->
    t_x t = true \/ (has_date_after t = true /\ same_weeks t qs) ->
    normalize_df (reorder t qs) = Ok (Some f).
  Proof.
    intros P E D C. assert (Hn : t_rows t <> []) by (intros Z0; apply normalize_none in Z0; congruence).
    assert (Hy : t_y t = true).
    { destruct (t_y t) eqn:Ey; [reflexivity|]. assert (normalize_df t = Err AssertionError) by (apply normalize_err; auto). congruence. }
    destruct (normalize_ok t Hn Hy) as (rs & E1 & P1 & S1). rewrite E in E1. injection E1 as ->. cbn [rows has_src] in D. unfold distinct, position in D. cbn [rows has_src] in D.
    assert (Hn' : t_rows (reorder t qs) <> []) by (cbn; intros ->; symmetry in P; apply Permutation_nil in P; congruence).
    destruct (normalize_ok (reorder t qs) Hn' Hy) as (rs' & E2 & P2 & S2). rewrite E2. cbn [t_src reorder has_date_after t_date t_dtindex t_w] in *.
    do 2 f_equal. change (has_date_after (reorder t qs)) with (has_date_after t). f_equal. symmetry. apply (sorted_unique (t_src t)); auto.
    rewrite P1, P2.
    set (g := fun q => mkRow (qdate t q) (r_src (q_row q)) (if t_x t then r_x (q_row q) else (qdate t q - x_origin (first_date t (gkey t q))) / DAY) (r_y (q_row q)) (r_w (q_row q))).
    rewrite (enumerate_map g), (enumerate_map g (expected (reorder t qs))).
    - now apply Permutation_map.
    - intros i q I. apply enumerate_in in I. cbn [t_rows reorder] in I. cbn [expected]. unfold g, qx. cbn [t_x reorder]. change (qdate (reorder t qs) q) with (qdate t q).
      f_equal. destruct C as [Cx|[Cd Cw]]; [now rewrite Cx|]. destruct (t_x t); [reflexivity|].
      change (has_date_after (reorder t qs)) with (has_date_after t). rewrite Cd. do 2 f_equal. apply Cw. now rewrite P.
    - intros i q I. cbn [expected]. unfold g, qx. f_equal. destruct C as [Cx|[Cd Cw]]; [now rewrite Cx|]. destruct (t_x t); [reflexivity|]. now rewrite Cd.
  Qed.

  (* ---- dates in any order ---- *)
  Lemma monday_weeks a b : midnight a = true -> midnight b = true -> exists k, x_origin a - x_origin b = 7 * k * DAY.
  Proof.
    unfold midnight, x_origin, weekday, weekday_of_day, day_of. intros A B. apply Z.eqb_eq in A, B.
    assert (Dp : DAY <> 0) by (pose proof DAYp; lia). apply Z.mod_divide in A as [u ->]; [|exact Dp]. apply Z.mod_divide in B as [v ->]; [|exact Dp].
    rewrite !Z.div_mul by exact Dp. pose proof (Z.div_mod (u + 3) 7 ltac:(lia)) as Du. pose proof (Z.div_mod (v + 3) 7 ltac:(lia)) as Dv.
    exists ((u + 3) / 7 - (v + 3) / 7).
    set (p := (u + 3) mod 7) in *. set (q := (v + 3) mod 7) in *. set (i := (u + 3) / 7) in *. set (j := (v + 3) / 7) in *. clearbody p q i j.
    replace (u * DAY - p * DAY - (v * DAY - q * DAY)) with ((u - p - (v - q)) * DAY) by ring. f_equal. lia.
  Qed.
  Lemma weeks_moved_position k f r : fst (position f (set_x r (r_x r + 7 * k (fst (position f r))))) = fst (position f r).
  Proof. unfold position. cbn. destruct (has_src f); reflexivity. Qed.
  Lemma first_in (t : raw T) s : (exists q, In q (t_rows t) /\ gkey t q = s) -> exists q, In q (t_rows t) /\ gkey t q = s /\ first_date t s = qdate t q.
  Proof.
    intros (q & I & G). unfold first_date. destruct (find (fun q => String.eqb (gkey t q) s) (t_rows t)) as [p|] eqn:Ef.
    - apply find_some in Ef as [Ip Gp]. apply String.eqb_eq in Gp. eauto.
    - apply (find_none _ _ Ef) in I. rewrite G, String.eqb_refl in I. discriminate.
  Qed.
  Theorem order_of_dates (t : raw T) qs f : Permutation (t_rows t) qs -> normalize_df t = Ok (Some f) -> distinct f ->
    t_x t = false -> has_date_after t = true -> (forall q, In q (t_rows t) -> midnight (qdate t q) = true) ->
    exists k, normalize_df (reorder t qs) = Ok (Some (weeks_moved k f)).
  Proof.
    intros P E D Cx Cd Md. assert (Hn : t_rows t <> []) by (intros Z0; apply normalize_none in Z0; congruence).
    assert (Hy : t_y t = true).
    { destruct (t_y t) eqn:Ey; [reflexivity|]. assert (normalize_df t = Err AssertionError) by (apply normalize_err; auto). congruence. }
    destruct (normalize_ok t Hn Hy) as (rs & E1 & P1 & S1). rewrite E in E1. injection E1 as ->. unfold distinct, position in D. cbn [rows has_src] in D.
    assert (Hn' : t_rows (reorder t qs) <> []) by (cbn; intros ->; symmetry in P; apply Permutation_nil in P; congruence).
    destruct (normalize_ok (reorder t qs) Hn' Hy) as (rs' & E2 & P2 & S2). cbn [t_src reorder t_w] in *.
    set (k := fun s => (x_origin (first_date t s) - x_origin (first_date (reorder t qs) s)) / (7 * DAY)).
    assert (K : forall q, In q (t_rows t) -> x_origin (first_date t (gkey t q)) - x_origin (first_date (reorder t qs) (gkey t q)) = 7 * k (gkey t q) * DAY).
    { intros q I. destruct (first_in t (gkey t q)) as (q1 & I1 & _ & F1); [eauto|].
      destruct (first_in (reorder t qs) (gkey t q)) as (q2 & I2 & _ & F2). { exists q. split; [cbn; now rewrite <- P|reflexivity]. }
      change (qdate (reorder t qs) q2) with (qdate t q2) in F2. cbn [t_rows reorder] in I2. rewrite <- P in I2.
      destruct (monday_weeks (qdate t q1) (qdate t q2) (Md _ I1) (Md _ I2)) as [j Ej]. unfold k. rewrite F1, F2, Ej.
      replace (7 * j * DAY) with (j * (7 * DAY)) by ring. rewrite Z.div_mul by (pose proof DAYp; lia). ring. }
    exists k. rewrite E2. unfold weeks_moved. cbn [has_date has_src has_w rows]. change (has_date_after (reorder t qs)) with (has_date_after t).
    do 3 f_equal. symmetry. set (mv := fun r : row T => set_x r _).
    assert (Mv : forall r, mv r = set_x r (r_x r + 7 * k (if t_src t then r_src r else EmptyString))) by reflexivity.
    apply (sorted_unique (t_src t)); auto.
    - clear - S1. induction S1 as [|a l Sl IH F]; cbn [map]; constructor; auto. rewrite Forall_forall in *. intros c I.
      apply in_map_iff in I as (b & <- & I). specialize (F b I). unfold ordered in *. cbn. destruct (t_src t).
      + destruct F as [F|[F1 F2]]; [now left|right]. split; [exact F1|]. rewrite F1. lia.
      + lia.
    - rewrite P1, P2.
      set (g := fun q => mkRow (qdate t q) (r_src (q_row q)) ((qdate t q - x_origin (first_date t (gkey t q))) / DAY) (r_y (q_row q)) (r_w (q_row q))).
      rewrite (enumerate_map g), (enumerate_map (fun q => mv (g q)) (expected (reorder t qs))).
      + rewrite map_map. now apply Permutation_map.
      + intros i q I. apply enumerate_in in I. cbn [t_rows reorder] in I. cbn [expected]. unfold g, qx. cbn [t_x reorder]. change (qdate (reorder t qs) q) with (qdate t q).
        rewrite Cx. change (has_date_after (reorder t qs)) with (has_date_after t). rewrite Cd, Mv. cbn [set_x r_date r_src r_x r_y r_w]. f_equal.
        change (gkey (reorder t qs) q) with (gkey t q). fold (gkey t q). assert (Iq : In q (t_rows t)) by now rewrite P. specialize (K q Iq).
        replace (qdate t q - x_origin (first_date (reorder t qs) (gkey t q))) with (qdate t q - x_origin (first_date t (gkey t q)) + (7 * k (gkey t q)) * DAY) by lia.
        rewrite Z.div_add by (pose proof DAYp; lia). reflexivity.
      + intros i q I. cbn [expected]. unfold g, qx. now rewrite Cx, Cd.
    - rewrite map_map. cbn [set_x r_src r_x mv]. assert (X : forall (l : list (row T)), NoDup (map (fun r => (if t_src t then r_src r else EmptyString, r_x r)) l) ->
        NoDup (map (fun r => (if t_src t then r_src (mv r) else EmptyString, r_x (mv r))) l)).
      { clear - Mv. induction l as [|a l IH]; cbn [map]; intros N; [constructor|]. inversion_clear N as [|? ? Ni Nd]. constructor; [|auto].
        intros I. apply Ni. apply in_map_iff in I as (b & Eb & I). rewrite !Mv in Eb. cbn in Eb. apply in_map_iff. exists b. split; [|exact I].
        destruct (t_src t); injection Eb; intros; [|f_equal; lia]. rewrite H0 in *. f_equal. lia. }
      exact (X rs D).
  Qed.
End Order.

(* the forecast is a function of the normalized table *)
Theorem forecast_order {T} `{NumOps T} (W : string -> world T) c id (t : raw T) qs f : Permutation (t_rows t) qs -> normalize_df t = Ok (Some f) -> distinct f ->
  t_x t = true \/ (has_date_after t = true /\ same_weeks t qs) ->
  run_forecast W c id (reorder t qs) = run_forecast W c id t.
Proof. intros P E D C. unfold run_forecast. now rewrite E, (order_irrelevant t qs f P E D C). Qed.
