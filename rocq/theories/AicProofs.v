(* Proofs about the information criterion and the choice of the best key (C28, C29, C30). *)
From Coq Require Import ZArith Reals Lra Lia Bool List.
From Coq Require Import PrimFloat FloatAxioms SpecFloat FloatOps.
From Verif Require Import Num Py NumProofs Aic FloatProofs.
Import ListNotations.

(* ---------- C28 ---------- *)
Section Score.
  Local Open Scope R_scope.
  Definition aicc (E n k : R) : R := n * ln (E / n) + 2 * k + 2 * k * (k + 1) / (n - k - 1).

  Lemma formula_fin E n k : 0 < E -> (0 < n)%Z -> (k + 1 < n)%Z ->
    aic_formula (Fin E) n k = Ok (Fin (aicc E (IZR n) (IZR k))).
  Proof.
    intros HE Hn Hk. unfold aic_formula, py_log. rewrite !ofZ_fin, n0_fin.
    assert (Hn' : 0 < IZR n) by (now apply IZR_lt).
    rewrite div_fin by lra. assert (HD : 0 < E / IZR n) by (apply Rdiv_lt_0_compat; lra).
    cbn [nleb XROps xleb]. destruct (Rleb_spec (E / IZR n) 0) as [C|_]; [lra|]. cbn iota beta delta [rbind].
    cbn [nln XROps xln]. destruct (Reqb_spec (E / IZR n) 0) as [C|_]; [lra|].
    destruct (Rltb_spec (E / IZR n) 0) as [C|_]; [lra|].
    assert (Hd : IZR (n - k - 1) <> 0) by (apply not_0_IZR; lia).
    assert (Hdiv : @ndiv XR XROps (Fin (IZR (2 * k * (k + 1)))) (Fin (IZR (n - k - 1))) = Fin (IZR (2 * k * (k + 1)) / IZR (n - k - 1)))
      by (now apply div_fin).
    rewrite Hdiv.
    cbn [nmul nadd XROps xmul xadd]. f_equal. f_equal. unfold aicc.
    rewrite !minus_IZR, !mult_IZR, plus_IZR. reflexivity.
  Qed.
  Lemma tiny_fin : @tiny_error XR _ = Fin (Rpower 10 (-320)).
  Proof.
    unfold tiny_error. cbn [npow nofZ XROps xpow]. destruct (Rltb_spec 0 10) as [_|C]; [reflexivity|lra].
  Qed.
  Lemma tiny_pos : 0 < Rpower 10 (-320).
  Proof. apply exp_pos. Qed.

  Lemma score_domain E n k : (0 <= k)%Z -> 0 <= E ->
    (get_aic_c (Fin E) n k = Err ValueError <-> (n <= k + 1)%Z \/ n = 0%Z).
  Proof.
    intros Hk HE. unfold get_aic_c.
    destruct (Z.leb_spec n (k + 1)); cbn [orb]; [split; auto|].
    destruct (Z.eqb_spec n 0); [split; auto|]. rewrite n0_fin. cbn [neqb XROps xeqb].
    split; [|lia]. intros H1. exfalso. destruct (Reqb_spec E 0) as [->|Hne].
    - destruct (Z.eqb_spec k 1); [discriminate|]. rewrite tiny_fin, formula_fin in H1 by (try apply tiny_pos; lia). discriminate.
    - rewrite formula_fin in H1 by (try lra; lia). discriminate.
  Qed.
  Lemma score_pos E n k : (0 <= k)%Z -> (k + 1 < n)%Z -> 0 < E ->
    get_aic_c (Fin E) n k = Ok (Fin (aicc E (IZR n) (IZR k))).
  Proof.
    intros Hk Hn HE. unfold get_aic_c. destruct (Z.leb_spec n (k + 1)); [lia|]. destruct (Z.eqb_spec n 0); [lia|].
    cbn [orb]. rewrite n0_fin. cbn [neqb XROps xeqb]. destruct (Reqb_spec E 0) as [->|_]; [lra|].
    apply formula_fin; [lra|lia|lia].
  Qed.
  Lemma score_zero n k : (0 <= k)%Z -> (k + 1 < n)%Z -> k <> 1%Z ->
    get_aic_c (Fin 0) n k = Ok (Fin (aicc (Rpower 10 (-320)) (IZR n) (IZR k))).
  Proof.
    intros Hk Hn H1. unfold get_aic_c. destruct (Z.leb_spec n (k + 1)); [lia|]. destruct (Z.eqb_spec n 0); [lia|].
    cbn [orb]. rewrite n0_fin. cbn [neqb XROps xeqb]. rewrite Reqb_refl. destruct (Z.eqb_spec k 1); [contradiction|].
    rewrite tiny_fin. apply formula_fin; [apply tiny_pos|lia|lia].
  Qed.
  Lemma score_zero_one n : (2 < n)%Z -> get_aic_c (Fin 0) n 1 = Ok XNInf.
  Proof.
    intros Hn. unfold get_aic_c. destruct (Z.leb_spec n (1 + 1)); [lia|]. destruct (Z.eqb_spec n 0); [lia|].
    cbn [orb]. rewrite n0_fin. cbn [neqb XROps xeqb]. rewrite Reqb_refl. reflexivity.
  Qed.

  Lemma aicc_mono_E E E' n k : 0 < n -> 0 < E < E' -> aicc E n k < aicc E' n k.
  Proof.
    intros Hn HE. unfold aicc. assert (ln (E / n) < ln (E' / n)).
    { apply ln_increasing; [apply Rdiv_lt_0_compat; lra|]. unfold Rdiv. apply Rmult_lt_compat_r; [now apply Rinv_0_lt_compat|lra]. }
    assert (n * ln (E / n) < n * ln (E' / n)) by (apply Rmult_lt_compat_l; lra). lra.
  Qed.
  Lemma aicc_mono_k E n k k' : 0 <= k < k' -> k' + 1 < n -> aicc E n k < aicc E n k'.
  Proof.
    intros Hk Hn. unfold aicc.
    assert (2 * k * (k + 1) / (n - k - 1) <= 2 * k' * (k' + 1) / (n - k' - 1)).
    { unfold Rdiv. apply Rmult_le_compat.
      - assert (0 <= k * (k + 1)) by (apply Rmult_le_pos; lra). lra.
      - left. apply Rinv_0_lt_compat. lra.
      - assert (k * (k + 1) <= k' * (k' + 1)) by (apply Rmult_le_compat; lra). lra.
      - apply Rinv_le_contravar; lra. }
    lra.
  Qed.

  (* scores are compared as the code compares them *)
  Definition below (a b : res XR) : Prop := exists x y, a = Ok x /\ b = Ok y /\ nltb x y = true.
  Lemma score_increasing_error E E' n k : (0 <= k)%Z -> (k + 1 < n)%Z -> 0 < E < E' ->
    below (get_aic_c (Fin E) n k) (get_aic_c (Fin E') n k).
  Proof.
    intros Hk Hn HE. rewrite !score_pos by (try lra; lia). do 2 eexists. split; [reflexivity|]. split; [reflexivity|].
    cbn [nltb XROps xltb]. destruct (Rltb_spec (aicc E (IZR n) (IZR k)) (aicc E' (IZR n) (IZR k))) as [|C]; [reflexivity|].
    exfalso. apply C. apply aicc_mono_E; [apply IZR_lt; lia|lra].
  Qed.
  Lemma score_increasing_params E n k k' : (0 <= k < k')%Z -> (k' + 1 < n)%Z -> 0 < E ->
    below (get_aic_c (Fin E) n k) (get_aic_c (Fin E) n k').
  Proof.
    intros Hk Hn HE. rewrite !score_pos by (try lra; lia). do 2 eexists. split; [reflexivity|]. split; [reflexivity|].
    cbn [nltb XROps xltb]. destruct (Rltb_spec (aicc E (IZR n) (IZR k)) (aicc E (IZR n) (IZR k'))) as [|C]; [reflexivity|].
    exfalso. apply C. apply aicc_mono_k; [split; [apply IZR_le|apply IZR_lt]; lia|].
    rewrite <- plus_IZR. apply IZR_lt. lia.
  Qed.
  Lemma score_zero_below E n k : (0 <= k)%Z -> (k + 1 < n)%Z -> Rpower 10 (-320) < E ->
    below (get_aic_c (Fin 0) n k) (get_aic_c (Fin E) n k).
  Proof.
    intros Hk Hn HE. pose proof tiny_pos as Ht. rewrite (score_pos E) by (try lra; lia).
    destruct (Z.eq_dec k 1) as [->|H1].
    - rewrite score_zero_one by lia. do 2 eexists. split; [reflexivity|]. split; reflexivity.
    - rewrite score_zero by lia. do 2 eexists. split; [reflexivity|]. split; [reflexivity|].
      cbn [nltb XROps xltb].
      destruct (Rltb_spec (aicc (Rpower 10 (-320)) (IZR n) (IZR k)) (aicc E (IZR n) (IZR k))) as [|C]; [reflexivity|].
      exfalso. apply C. apply aicc_mono_E; [apply IZR_lt; lia|lra].
  Qed.
  (* a perfect fit with more parameters can rank above an imperfect one with fewer, but never
     above a perfect fit with fewer parameters *)
  Lemma score_zero_params n k k' : (0 <= k < k')%Z -> (k' + 1 < n)%Z -> k' <> 1%Z ->
    below (get_aic_c (Fin 0) n k) (get_aic_c (Fin 0) n k').
  Proof.
    intros Hk Hn H1. rewrite (score_zero n k') by lia. destruct (Z.eq_dec k 1) as [->|K1].
    - rewrite score_zero_one by lia. do 2 eexists. split; [reflexivity|]. split; reflexivity.
    - rewrite score_zero by lia. do 2 eexists. split; [reflexivity|]. split; [reflexivity|].
      cbn [nltb XROps xltb].
      destruct (Rltb_spec (aicc (Rpower 10 (-320)) (IZR n) (IZR k)) (aicc (Rpower 10 (-320)) (IZR n) (IZR k'))) as [|C]; [reflexivity|].
      exfalso. apply C. apply aicc_mono_k; [split; [apply IZR_le|apply IZR_lt]; lia|].
      rewrite <- plus_IZR. apply IZR_lt. lia.
  Qed.
End Score.

(* ---------- C29 ---------- *)
Section Underflow.
  Local Open Scope Z_scope.
  Variable m : libm.
  (* 10 ** -320 evaluates to the binary64 number nearest to 10^-320 *)
  Hypothesis pow_tiny : lm_pow m (float_ofZ 10) (float_ofZ (-320)) = tiny64.
  Let N := floatOps m.

  Lemma zero_error_branch n k : k + 1 < n -> n <> 0 -> k <> 1 ->
    get_aic_c (H := N) 0%float n k = aic_formula (H := N) tiny64 n k.
  Proof.
    intros Hn H0 H1. unfold get_aic_c. destruct (Z.leb_spec n (k + 1)); [lia|]. destruct (Z.eqb_spec n 0) as [|_]; [lia|].
    cbn [orb]. change (neqb (NumOps := N) 0%float (n0 (H := N))) with true. cbn iota.
    destruct (Z.eqb_spec k 1); [contradiction|]. f_equal. exact pow_tiny.
  Qed.
  Lemma underflow_raises n k : 4048 <= n < 2 ^ 53 -> k + 1 < n -> k <> 1 ->
    get_aic_c (H := N) 0%float n k = Err ValueError.
  Proof.
    intros Hn Hk H1. rewrite zero_error_branch by lia. unfold aic_formula, py_log.
    assert (E : nleb (NumOps := N) (ndiv (NumOps := N) tiny64 (nofZ (NumOps := N) n)) (n0 (H := N)) = true).
    { cbn [nleb ndiv nofZ N floatOps]. rewrite leb_spec, (tiny_underflow n Hn). reflexivity. }
    rewrite E. reflexivity.
  Qed.
  Lemma short_check : forallb (fun i => negb (PrimFloat.leb (tiny64 / float_ofZ (Z.of_nat i)) 0)%float) (seq 1 4047) = true.
  Proof. vm_compute. reflexivity. Qed.
  Lemma short_scores n k : 0 < n < 4048 -> k + 1 < n -> k <> 1 ->
    exists v, get_aic_c (H := N) 0%float n k = Ok v.
  Proof.
    intros Hn Hk H1. rewrite zero_error_branch by lia. unfold aic_formula, py_log.
    pose proof short_check as C. rewrite forallb_forall in C.
    specialize (C (Z.to_nat n) ltac:(apply in_seq; lia)). rewrite Z2Nat.id in C by lia.
    apply negb_true_iff in C.
    change (nleb (NumOps := N) (ndiv (NumOps := N) tiny64 (nofZ (NumOps := N) n)) (n0 (H := N))) with (PrimFloat.leb (tiny64 / float_ofZ n) 0)%float.
    rewrite C. eexists. reflexivity.
  Qed.
End Underflow.

(* ---------- C30 ---------- *)
Section Best.
  Local Open Scope Z_scope.
  (* [i] is the position of the first minimum of the non-null scores *)
  Definition first_min (l : list XR) (i : nat) : Prop :=
    exists v, nth_error l i = Some v /\ v <> XNaN /\
      (forall j w, nth_error l j = Some w -> nltb w v = false) /\
      (forall j w, nth_error l j = Some w -> (j < i)%nat -> w <> XNaN -> nltb v w = true).

  Lemma xlt_trans a b c : c <> XNaN -> xltb a b = true -> xltb c b = false -> xltb a c = true.
  Proof.
    destruct a, b, c; cbn; try congruence; try discriminate. intros _ H1 H2.
    destruct (Rltb_spec r r0); [|discriminate]. destruct (Rltb_spec r1 r0); [discriminate|].
    destruct (Rltb_spec r r1); [reflexivity|]. lra.
  Qed.
  Lemma xlt_irrefl a : xltb a a = false.
  Proof. destruct a; cbn; try reflexivity. apply Rltb_irrefl. Qed.
  Lemma xlt_asym a b : xltb a b = true -> xltb b a = false.
  Proof.
    destruct a, b; cbn; try congruence; try discriminate. intros H1.
    destruct (Rltb_spec r r0); [|discriminate]. destruct (Rltb_spec r0 r); [|reflexivity]. lra.
  Qed.
  Lemma argmin_from_spec l : forall pre best besti,
    Forall (fun w => w <> XNaN) (pre ++ l) -> nth_error pre besti = Some best ->
    (forall j w, nth_error pre j = Some w -> xltb w best = false) ->
    (forall j w, nth_error pre j = Some w -> (j < besti)%nat -> xltb best w = true) ->
    exists i, argmin_from (Z.of_nat (length pre)) best (Z.of_nat besti) l = Z.of_nat i /\ first_min (pre ++ l) i.
  Proof.
    induction l as [|a l IH]; intros pre best besti F Hn H1 H2; cbn [argmin_from].
    - exists besti. split; [reflexivity|]. rewrite app_nil_r in *. exists best. split; [exact Hn|]. split.
      + rewrite Forall_forall in F. apply F. eapply nth_error_In, Hn.
      + split; [exact H1|]. intros j w Hj Hlt _. eapply H2; eauto.
    - assert (Hlen : Z.of_nat (length pre) + 1 = Z.of_nat (length (pre ++ [a]))) by (rewrite app_length; cbn; lia).
      rewrite Hlen. replace (pre ++ a :: l) with ((pre ++ [a]) ++ l) in * by (now rewrite <- app_assoc).
      assert (Fa : a <> XNaN) by (rewrite Forall_forall in F; apply F, in_or_app; left; apply in_or_app; right; now left).
      assert (Fp : forall j w, nth_error pre j = Some w -> w <> XNaN).
      { intros j w Hj. rewrite Forall_forall in F. apply F, in_or_app. left. apply in_or_app. left. eapply nth_error_In, Hj. }
      assert (Hcase : forall j w, nth_error (pre ++ [a]) j = Some w -> nth_error pre j = Some w \/ (j = length pre /\ w = a)).
      { intros j w Hj. destruct (Nat.lt_ge_cases j (length pre)).
        - left. now rewrite nth_error_app1 in Hj by assumption.
        - right. rewrite nth_error_app2 in Hj by assumption. destruct (j - length pre)%nat as [|q] eqn:E.
          + cbn in Hj. split; [lia|congruence].
          + cbn in Hj. destruct q; discriminate. }
      cbn [nltb XROps]. destruct (xltb a best) eqn:Lt.
      + apply (IH (pre ++ [a]) a (length pre)); [exact F| | |].
        * rewrite nth_error_app2, Nat.sub_diag by lia. reflexivity.
        * intros j w Hj. destruct (Hcase j w Hj) as [Hj'|[_ ->]]; [|apply xlt_irrefl].
          assert (xltb a w = true) by (eapply xlt_trans; eauto).
          now apply xlt_asym.
        * intros j w Hj Hlt. destruct (Hcase j w Hj) as [Hj'|[-> ->]]; [|lia]. eapply xlt_trans; eauto.
      + apply (IH (pre ++ [a]) best besti); [exact F| | |].
        * rewrite nth_error_app1; [exact Hn|]. apply nth_error_Some. congruence.
        * intros j w Hj. destruct (Hcase j w Hj) as [Hj'|[_ ->]]; eauto.
        * intros j w Hj Hlt. destruct (Hcase j w Hj) as [Hj'|[-> ->]]; [eauto|].
          assert (besti < length pre)%nat by (apply nth_error_Some; congruence). lia.
  Qed.

  Lemma argmin_first l : (exists w, In w l /\ w <> XNaN /\ w <> XPInf) -> exists i, argmin l = Z.of_nat i /\ first_min l i.
  Proof.
    intros (w0 & Hw & Hn & Hp). unfold argmin. set (g := fun a : XR => if nisnan a then npinf else a).
    assert (Hg : forall a, g a <> XNaN) by (intros []; discriminate).
    assert (Hg' : forall a, a <> XNaN -> g a = a) by (intros []; [congruence|reflexivity..]).
    assert (Hgi : forall a, g a <> XPInf -> g a = a) by (intros []; [intros H; exfalso; now apply H|reflexivity..]).
    destruct l as [|a l]; [contradiction|]. cbn [map].
    destruct (argmin_from_spec (map g l) [g a] (g a) 0%nat) as (i & E & v & Hv & Hvn & Hmin & Hfirst).
    - cbn [app]. constructor; [apply Hg|]. apply Forall_forall. intros x Hx. apply in_map_iff in Hx.
      destruct Hx as (y & <- & _). apply Hg.
    - reflexivity.
    - intros [|[|]] w; cbn; try discriminate. intros [= <-]. apply xlt_irrefl.
    - intros [|[|]] w; cbn; try discriminate. lia.
    - exists i. split; [exact E|]. change ([g a] ++ map g l) with (map g (a :: l)) in *.
      assert (Hvi : v <> XPInf).
      { intros ->. destruct (In_nth_error _ _ Hw) as (j & Hj).
        specialize (Hmin j w0). rewrite nth_error_map, Hj in Hmin. cbn [option_map] in Hmin. rewrite (Hg' w0 Hn) in Hmin.
        specialize (Hmin eq_refl). destruct w0; cbn in Hmin; try congruence; discriminate. }
      rewrite nth_error_map in Hv. destruct (nth_error (a :: l) i) as [x|] eqn:Hx; [|discriminate]. cbn [option_map] in Hv.
      injection Hv as Hv. rewrite Hgi in Hv by congruence. subst x. exists v. split; [exact Hx|]. split; [exact Hvn|]. split.
      + intros j w Hj. destruct w; [reflexivity| | |]; apply (Hmin j); rewrite nth_error_map, Hj; reflexivity.
      + intros j w Hj Hlt Hwn. apply (Hfirst j); [|exact Hlt|exact Hwn].
        rewrite nth_error_map, Hj. cbn [option_map]. now rewrite Hg'.
  Qed.

  Lemma isnan_iff a : nisnan a = true <-> a = XNaN.
  Proof. destruct a; cbn; split; congruence. Qed.
  Lemma is_ninf_iff a : is_ninf a = true <-> a = XNInf.
  Proof. destruct a; cbn; split; congruence. Qed.
  Definition no_ninf (s : list (Z * XR)) : Prop := forall p, In p s -> snd p <> XNInf.
  Lemma filter_no_ninf s : no_ninf s -> filter (fun p => is_ninf (snd p)) s = [].
  Proof.
    induction s as [|p s IH]; intros H; [reflexivity|]. cbn [filter].
    destruct (is_ninf (snd p)) eqn:E; [exfalso; apply (H p); [now left|now apply is_ninf_iff]|].
    apply IH. intros q Hq. apply H. now right.
  Qed.
  Lemma best_none s : best_result_key s = Ok None <-> (forall p, In p s -> snd p = XNaN).
  Proof.
    unfold best_result_key. destruct (forallb (fun p => nisnan (snd p)) s) eqn:E.
    - split; [|reflexivity]. intros _ p Hp. rewrite forallb_forall in E. apply isnan_iff. now apply E.
    - split.
      + destruct (filter _ s) as [|? [|]]; discriminate.
      + intros Hs. exfalso. rewrite <- not_true_iff_false in E. apply E, forallb_forall. intros p Hp. now apply isnan_iff, Hs.
  Qed.
  Lemma not_all_null (s : list (Z * XR)) p : In p s -> snd p <> XNaN -> forallb (fun p => nisnan (snd p)) s = false.
  Proof.
    intros Hp Hn. apply not_true_iff_false. intros E. rewrite forallb_forall in E. apply Hn, isnan_iff. now apply (E p).
  Qed.
  Lemma best_one a lab b : no_ninf a -> no_ninf b -> best_result_key (a ++ (lab, XNInf) :: b) = Ok (Some lab).
  Proof.
    intros Ha Hb. unfold best_result_key.
    rewrite (not_all_null _ (lab, XNInf)) by (try discriminate; apply in_or_app; right; now left).
    rewrite filter_app, (filter_no_ninf a Ha). cbn [filter snd app]. change (is_ninf XNInf) with true. cbn iota.
    now rewrite (filter_no_ninf b Hb).
  Qed.
  Lemma best_two a l1 b l2 c : best_result_key (a ++ (l1, XNInf) :: b ++ (l2, XNInf) :: c) = Err ValueError.
  Proof.
    unfold best_result_key.
    rewrite (not_all_null _ (l1, XNInf)) by (try discriminate; apply in_or_app; right; now left).
    rewrite filter_app. cbn [filter snd]. change (is_ninf XNInf) with true. cbn iota.
    rewrite filter_app. cbn [filter snd]. change (is_ninf XNInf) with true. cbn iota.
    destruct (filter _ a) as [|? [|]], (filter _ b) as [|? ?]; reflexivity.
  Qed.
  Lemma best_min s : no_ninf s -> (exists p, In p s /\ snd p <> XNaN /\ snd p <> XPInf) ->
    exists i, best_result_key s = Ok (Some (Z.of_nat i)) /\ first_min (map snd s) i.
  Proof.
    intros Hs (p & Hp & Hn & Hi). unfold best_result_key.
    rewrite (not_all_null _ p) by assumption. rewrite (filter_no_ninf s Hs).
    destruct (argmin_first (map snd s)) as (i & E & F).
    - exists (snd p). split; [now apply in_map|now split].
    - exists i. split; [now rewrite E|exact F].
  Qed.
  (* only +inf and nulls: the first position, whatever is there *)
  Lemma argmin_from_pinf l : forall i, Forall (fun w => w = XPInf) l -> argmin_from i XPInf 0 l = 0.
  Proof. induction l as [|a l IH]; intros i F; [reflexivity|]. inversion F; subst. cbn. now apply IH. Qed.
  Lemma best_pinf (s : list (Z * XR)) : (forall p, In p s -> snd p = XNaN \/ snd p = XPInf) -> (exists p, In p s /\ snd p = XPInf) ->
    best_result_key s = Ok (Some 0).
  Proof.
    intros Hs (p & Hp & Hi). unfold best_result_key. rewrite (not_all_null _ p) by (congruence || assumption).
    rewrite filter_no_ninf by (intros q Hq; destruct (Hs q Hq) as [-> | ->]; discriminate).
    unfold argmin. set (g := fun a : XR => if nisnan a then npinf else a).
    assert (F : Forall (fun w => w = XPInf) (map g (map snd s))).
    { apply Forall_forall. intros w Hw. apply in_map_iff in Hw. destruct Hw as (x & <- & Hx). apply in_map_iff in Hx.
      destruct Hx as (q & <- & Hq). destruct (Hs q Hq) as [-> | ->]; reflexivity. }
    destruct (map g (map snd s)) as [|a l]; [reflexivity|]. inversion F; subst. now rewrite argmin_from_pinf.
  Qed.
End Best.
