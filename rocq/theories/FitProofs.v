(* Proofs about fitting (C32, C35 to C38). *)
From Coq Require Import ZArith String List Bool Lia Reals Lra QArith_base.
From Verif Require Import Num Py Cal Fmt Model Fixed Freq Aic Fit ListProofs NumProofs BaseProofs GroupProofs NaiveProofs SnaiveProofs.
Import ListNotations.
Local Open Scope string_scope.

Section F.
  Context {T : Type} `{NumOps T}.

  (* ---------- residuals ---------- *)
  (* |y - p| and |(y - p) * w| for one sample *)
  Definition deviation (y p : T) (w : option T) : T :=
    match w with None => nabs (nsub y p) | Some w => nabs (nmul (nsub y p) w) end.
  Definition nth_opt (l : option (list T)) (i : nat) : option (option T) :=
    match l with None => Some None | Some l => match nth_error l i with Some w => Some (Some w) | None => None end end.

  Lemma map2_length (f : T -> T -> T) l1 : forall l2, length l1 = length l2 -> length (map2 f l1 l2) = length l1.
  Proof. intros l2 E. unfold map2. rewrite map_length, combine_length, <- E. apply Nat.min_id. Qed.
  Lemma nth_map2 (f : T -> T -> T) l1 l2 i a b : nth_error l1 i = Some a -> nth_error l2 i = Some b ->
    nth_error (map2 f l1 l2) i = Some (f a b).
  Proof.
    revert l2 i. induction l1 as [|x l1 IH]; intros [|y l2] [|i] E1 E2; try discriminate; cbn in *.
    - congruence.
    - now apply IH.
  Qed.
  Lemma residuals_array m a_x a_y a_date p a_w act cache ys :
    call m a_x a_date p false (mkKw act cache) = Ok (Ar ys) ->
    length ys = length a_y -> (forall w, a_w = Some w -> length w = length a_y) ->
    exists rs, get_residuals p m a_x a_y a_date a_w act cache = Ok rs /\ length rs = length a_y /\
      forall i y py, nth_error a_y i = Some y -> nth_error ys i = Some py ->
        exists w, nth_opt a_w i = Some w /\ nth_error rs i = Some (deviation y py w).
  Proof.
    intros E L W. unfold get_residuals. rewrite E. cbn [rbind]. unfold bcast2 at 1. rewrite L, Nat.eqb_refl. cbn [rbind].
    destruct a_w as [w|].
    - specialize (W w eq_refl). cbn [bcast2]. rewrite (map2_length nsub a_y ys) by auto. rewrite W, Nat.eqb_refl.
      cbn [rbind nval_list]. eexists. split; [reflexivity|]. split.
      + rewrite map_length, map2_length; [apply map2_length; auto|]. rewrite map2_length; auto.
      + intros i y py Ey Ep. cbn [nth_opt]. destruct (nth_error w i) as [wi|] eqn:Ew.
        * exists (Some wi). split; [reflexivity|]. rewrite nth_error_map.
          now rewrite (nth_map2 nmul (map2 nsub a_y ys) w i _ _ (nth_map2 nsub a_y ys i y py Ey Ep) Ew).
        * exfalso. apply nth_error_None in Ew. assert (i < length a_y)%nat by (apply nth_error_Some; congruence). lia.
    - cbn [rbind nval_list]. eexists. split; [reflexivity|]. split.
      + rewrite map_length. apply map2_length. auto.
      + intros i y py Ey Ep. exists None. split; [reflexivity|]. rewrite nth_error_map.
        now rewrite (nth_map2 nsub a_y ys i y py Ey Ep).
  Qed.
  Lemma residuals_scalar m a_x a_y a_date p a_w act cache c :
    call m a_x a_date p false (mkKw act cache) = Ok (Sc c) -> (forall w, a_w = Some w -> length w = length a_y) ->
    exists rs, get_residuals p m a_x a_y a_date a_w act cache = Ok rs /\ length rs = length a_y /\
      forall i y, nth_error a_y i = Some y ->
        exists w, nth_opt a_w i = Some w /\ nth_error rs i = Some (deviation y c w).
  Proof.
    intros E W. unfold get_residuals. rewrite E. cbn [rbind bcast2]. destruct a_w as [w|].
    - specialize (W w eq_refl). rewrite map_length, W, Nat.eqb_refl. cbn [rbind nval_list]. eexists. split; [reflexivity|]. split.
      + rewrite map_length, map2_length; [apply map_length|]. rewrite map_length; auto.
      + intros i y Ey. cbn [nth_opt]. destruct (nth_error w i) as [wi|] eqn:Ew.
        * exists (Some wi). split; [reflexivity|]. rewrite nth_error_map.
          erewrite (nth_map2 nmul _ w i); [| rewrite nth_error_map, Ey; reflexivity | exact Ew]. reflexivity.
        * exfalso. apply nth_error_None in Ew. assert (i < length a_y)%nat by (apply nth_error_Some; congruence). lia.
    - cbn [rbind nval_list]. eexists. split; [reflexivity|]. split.
      + now rewrite !map_length.
      + intros i y Ey. exists None. split; [reflexivity|]. now rewrite !nth_error_map, Ey.
  Qed.

  (* ---------- the fitted rows ---------- *)
  (* usable sample: non-null value, and positive weight if there is a weight column *)
  Definition usable (hw : bool) (r : row T) : bool :=
    negb (nisnan (r_y r)) && (if hw then negb (nisnan (r_w r)) && nltb n0 (r_w r) else true).
  Definition usable_rows (f : frame T) : list (row T) := filter (usable (has_w f)) (rows f).
  Definition usable_frame (f : frame T) : frame T := mkFrame (has_date f) (has_src f) (has_w f) (usable_rows f).

  (* law used below: zero is not below itself, NaN is not a positive number *)
  Lemma set_w_id (r : row T) : set_w r (r_w r) = r.
  Proof. now destruct r. Qed.
  Hypothesis zero_lt : nltb n0 n0 = false.
  Lemma with_weight_eq hw l : with_weight hw l = filter (fun r => if hw then negb (nisnan (r_w r)) && nltb n0 (r_w r) else true) l.
  Proof.
    unfold with_weight. destruct hw; [|now rewrite filter_all by reflexivity].
    induction l as [|r l IH]; [reflexivity|]. cbn [map filter]. destruct (nisnan (r_w r)) eqn:En; cbn [negb andb].
    - cbn [set_w r_w]. rewrite zero_lt. exact IH.
    - rewrite set_w_id. destruct (nltb n0 (r_w r)); [now rewrite IH|exact IH].
  Qed.
  Lemma fitted_eq f : with_weight (has_w f) (with_y (rows f)) = usable_rows f.
  Proof.
    rewrite with_weight_eq. unfold with_y, usable_rows, usable. now rewrite filter_filter'.
  Qed.

  (* ---------- filtering does not change the result (C37) ---------- *)
  Lemma filter_idem {A} (p : A -> bool) l : filter p (filter p l) = filter p l.
  Proof. apply filter_all. intros a Ha. now apply filter_In in Ha. Qed.
  Lemma usable_idem f : usable_rows (usable_frame f) = usable_rows f.
  Proof. unfold usable_rows, usable_frame. cbn. apply filter_idem. Qed.
  Lemma fit_rows_usable f : fit_rows (usable_frame f) = fit_rows f.
  Proof. unfold fit_rows. rewrite !fitted_eq, usable_idem. reflexivity. Qed.

  (* metadata without the label of the weight range *)
  Definition forget (md : meta T) : meta T :=
    mkMeta (md_source md) (md_model md) "" (md_range md) (md_freq md) (md_fit md) (md_cost md) (md_aicc md)
      (md_params md) (md_status md) "" (md_obj md).
  Lemma fit_filter score E m f freq src act uc :
    rmap forget (fit_model_with score E m f freq src act uc) =
    rmap forget (fit_model_with score E m (usable_frame f) freq src act uc).
  Proof.
    unfold fit_model_with. rewrite fit_rows_usable. cbv zeta.
    destruct (range_label _ _ _); [|reflexivity]. cbn [rbind]. destruct (Nat.ltb _ _); [reflexivity|].
    destruct (validate_input _ _ _ _) as [v|]; [|reflexivity]. cbn [rbind]. destruct (negb v); [reflexivity|].
    destruct (simplify_model _ _ _ _ _) as [ms|]; [|reflexivity]. cbn [rbind]. destruct (Nat.eqb (fm_n ms) 0).
    - destruct (get_residuals _ _ _ _ _ _ _ _); [|reflexivity]. cbn [rbind]. destruct (score _ _ _); reflexivity.
    - destruct (optimize_least_squares _ _ _ _ _ _ _ _) as [[[su co] p]|]; [|reflexivity]. cbn [rbind].
      destruct (score _ _ _); reflexivity.
  Qed.
  Lemma fit_filter_same_label score E m f freq src act uc :
    weights_label E f = weights_label E (usable_frame f) ->
    fit_model_with score E m f freq src act uc = fit_model_with score E m (usable_frame f) freq src act uc.
  Proof. intros L. unfold fit_model_with. now rewrite fit_rows_usable, L. Qed.
  Lemma fit_filter_no_weights score E m f freq src act uc : has_w f = false ->
    fit_model_with score E m f freq src act uc = fit_model_with score E m (usable_frame f) freq src act uc.
  Proof. intros Hw. apply fit_filter_same_label. unfold weights_label. cbn. now rewrite Hw. Qed.

  (* ---------- status (C35) ---------- *)
  Lemma fit_rows_rows f : exists g : row T -> row T, rows (fit_rows f) = map g (usable_rows f) /\
    (forall r, r_date (g r) = r_date r /\ r_x (g r) = r_x r /\ r_y (g r) = r_y r) /\ has_date (fit_rows f) = has_date f.
  Proof.
    unfold fit_rows. rewrite fitted_eq. destruct (has_dup Z.eqb (map r_x (usable_rows f))); cbn [rows has_date].
    - eexists. split; [reflexivity|]. split; [|reflexivity]. intros r. cbn. auto.
    - exists (fun r => r). rewrite map_id. auto.
  Qed.
  (* the arrays given to the model, from the usable samples *)
  Definition x_of (m : fmodel T) (r : row T) : T :=
    if requires_scaling (fm_name m) then ndiv (nofZ (r_x r)) (nofZ 100) else nofZ (r_x r).
  Definition xs_of (m : fmodel T) (f : frame T) : list T := map (x_of m) (usable_rows f).
  Definition ys_of (f : frame T) : list T := map r_y (usable_rows f).
  Definition dates_of (f : frame T) : option (list Z) :=
    if has_date f then Some (map r_date (usable_rows f)) else None.
  Lemma fit_y f : map r_y (rows (fit_rows f)) = ys_of f.
  Proof. destruct (fit_rows_rows f) as (g & -> & G & _). rewrite map_map. apply map_ext. intros r. apply G. Qed.
  Lemma fit_x m f : apply_a_x_scaling (map (fun r => nofZ (r_x r)) (rows (fit_rows f))) (Some m) = xs_of m f.
  Proof.
    destruct (fit_rows_rows f) as (g & -> & G & _). unfold apply_a_x_scaling, xs_of, x_of. cbn [model_requires_scaling].
    destruct (requires_scaling (fm_name m)); rewrite ?map_map; apply map_ext; intros r; destruct (G r) as (_ & -> & _); reflexivity.
  Qed.
  Lemma fit_d f : (if has_date (fit_rows f) then Some (map r_date (rows (fit_rows f))) else None) = dates_of f.
  Proof.
    destruct (fit_rows_rows f) as (g & -> & G & ->). unfold dates_of. destruct (has_date f); [|reflexivity]. f_equal. rewrite map_map.
    apply map_ext. intros r. apply G.
  Qed.
  Definition ws_of (f : frame T) : option (list T) := if has_w (fit_rows f) then Some (map r_w (rows (fit_rows f))) else None.

  Lemma fit_unfold score E m f freq src act uc :
    fit_model_with score E m f freq src act uc =
    (let* range := range_label E (xs_of m f) (dates_of f) in
     let no_fit status := df_fit_model src m (weights_label E f) range freq false nnan nnan None status in
     if Nat.ltb (length (usable_rows f)) (fm_n m + 2) then Ok (no_fit "TS_TOO_SHORT")
     else
      let* valid := validate_input m (xs_of m f) (ys_of f) (dates_of f) in
      if negb valid then Ok (no_fit "INPUT_ERR")
      else
        let* ms := simplify_model (e_arr E) m (Some (xs_of m f)) (Some (ys_of f)) (dates_of f) in
        if Nat.eqb (fm_n ms) 0 then
          let* r := get_residuals None ms (xs_of m f) (ys_of f) (dates_of f) (ws_of f) act [] in
          let cost := nmul (dec 5 10) (nansum (map (fun a => nmul a a) r)) in
          let* aicc := score cost (Z.of_nat (length (usable_rows f))) (Z.of_nat (fm_n m)) in
          Ok (df_fit_model src ms (weights_label E f) range freq true cost aicc (Some []) "FIT")
        else
          let* (success, cost, p) :=
            optimize_least_squares E ms (xs_of m f) (ys_of f) (dates_of f) (ws_of f) act uc in
          let* aicc := score cost (Z.of_nat (length (usable_rows f))) (Z.of_nat (fm_n m)) in
          Ok (df_fit_model src ms (weights_label E f) range freq success cost aicc p
                (if success then "FIT" else "NO-FIT"))).
  Proof.
    assert (L : length (rows (fit_rows f)) = length (usable_rows f)).
    { destruct (fit_rows_rows f) as (g & -> & _ & _). apply map_length. }
    unfold fit_model_with. rewrite fit_x, fit_y, fit_d, L. fold (ws_of f).
    assert (length (xs_of m f) = length (usable_rows f)) as -> by apply map_length. reflexivity.
  Qed.
  Lemma range_ok E m f : usable_rows f <> [] -> exists s, range_label E (xs_of m f) (dates_of f) = Ok s.
  Proof.
    intros Hn. unfold range_label, dates_of, xs_of. destruct (usable_rows f) as [|r l]; [congruence|].
    destruct (has_date f); cbn; eauto.
  Qed.
  Lemma fit_empty score E m f freq src act uc : usable_rows f = [] ->
    fit_model_with score E m f freq src act uc = Err ValueError.
  Proof. intros Hn. rewrite fit_unfold. unfold range_label, dates_of, xs_of. rewrite Hn. destruct (has_date f); reflexivity. Qed.

  Definition unfitted (md : meta T) : Prop := md_fit md = false /\ md_params md = [] /\ md_cost md = nnan /\ md_aicc md = nnan.
  Lemma fit_short score E m f freq src act uc : usable_rows f <> [] -> (length (usable_rows f) < fm_n m + 2)%nat ->
    exists md, fit_model_with score E m f freq src act uc = Ok md /\ md_status md = "TS_TOO_SHORT" /\ unfitted md.
  Proof.
    intros Hn Hl. rewrite fit_unfold. destruct (range_ok E m f Hn) as (s & ->). cbn [rbind]. cbv zeta.
    apply Nat.ltb_lt in Hl. rewrite Hl. eexists. split; [reflexivity|]. repeat split.
  Qed.
  Lemma fit_invalid score E m f freq src act uc : (fm_n m + 2 <= length (usable_rows f))%nat ->
    validate_input m (xs_of m f) (ys_of f) (dates_of f) = Ok false ->
    exists md, fit_model_with score E m f freq src act uc = Ok md /\ md_status md = "INPUT_ERR" /\ unfitted md.
  Proof.
    intros Hl Hv. rewrite fit_unfold.
    destruct (range_ok E m f) as (s & ->). { intros C. rewrite C in Hl. cbn in Hl. lia. }
    cbn [rbind]. cbv zeta. apply Nat.ltb_ge in Hl. rewrite Hl, Hv. cbn [rbind negb]. eexists. split; [reflexivity|]. repeat split.
  Qed.
  Lemma fit_validation_error score E m f freq src act uc e : (fm_n m + 2 <= length (usable_rows f))%nat ->
    validate_input m (xs_of m f) (ys_of f) (dates_of f) = Err e ->
    fit_model_with score E m f freq src act uc = Err e.
  Proof.
    intros Hl Hv. rewrite fit_unfold.
    destruct (range_ok E m f) as (s & ->). { intros C. rewrite C in Hl. cbn in Hl. lia. }
    cbn [rbind]. cbv zeta. apply Nat.ltb_ge in Hl. now rewrite Hl, Hv.
  Qed.
  (* the optimizer outcome of a fit that reaches the optimizer *)
  Lemma fit_valid score E m f freq src act uc md : (fm_n m + 2 <= length (usable_rows f))%nat ->
    validate_input m (xs_of m f) (ys_of f) (dates_of f) = Ok true ->
    fit_model_with score E m f freq src act uc = Ok md ->
    exists ms, simplify_model (e_arr E) m (Some (xs_of m f)) (Some (ys_of f)) (dates_of f) = Ok ms /\
      md_model md = fm_name ms /\
      score (md_cost md) (Z.of_nat (length (usable_rows f))) (Z.of_nat (fm_n m)) = Ok (md_aicc md) /\
      (if Nat.eqb (fm_n ms) 0 then md_fit md = true /\ md_status md = "FIT" /\ md_params md = []
       else exists cost p, optimize_least_squares E ms (xs_of m f) (ys_of f) (dates_of f) (ws_of f) act uc = Ok (md_fit md, cost, p) /\
      md_cost md = cost /\ md_status md = (if md_fit md then "FIT" else "NO-FIT") /\
      md_params md = match p with Some l => l | None => [] end).
  Proof.
    intros Hl Hv E0. rewrite fit_unfold in E0.
    destruct (range_ok E m f) as (s & Es). { intros C. rewrite C in Hl. cbn in Hl. lia. }
    rewrite Es in E0. cbn [rbind] in E0. cbv zeta in E0. apply Nat.ltb_ge in Hl. rewrite Hl, Hv in E0. cbn [rbind negb] in E0.
    destruct (simplify_model _ _ _ _ _) as [ms|e]; [|discriminate]. cbn [rbind] in E0. exists ms. split; [reflexivity|].
    destruct (Nat.eqb (fm_n ms) 0).
    - destruct (get_residuals _ _ _ _ _ _ _ _) as [r|e]; [|discriminate]. cbn [rbind] in E0.
      destruct (score _ _ _) as [a|e] eqn:Ea; [|discriminate]. cbn [rbind] in E0. injection E0 as <-. cbn. auto.
    - destruct (optimize_least_squares _ _ _ _ _ _ _ _) as [[[su co] p]|e]; [|discriminate]. cbn [rbind] in E0.
      destruct (score _ _ _) as [a|e] eqn:Ea; [|discriminate]. cbn [rbind] in E0. injection E0 as <-. cbn. repeat split; auto.
      exists co, p. auto.
  Qed.
  Definition fit_status (md : meta T) : string := md_status md.

  (* ---------- score (C36) ---------- *)
  Lemma fit_score_length s1 s2 E m f freq src act uc :
    (forall c n k, (0 <= k)%Z -> (k + 2 <= n)%Z -> s1 c n k = s2 c n k) ->
    fit_model_with s1 E m f freq src act uc = fit_model_with s2 E m f freq src act uc.
  Proof.
    intros S. rewrite !fit_unfold. destruct (range_label _ _ _); [|reflexivity]. cbn [rbind]. cbv zeta.
    destruct (Nat.ltb _ _) eqn:L; [reflexivity|]. apply Nat.ltb_ge in L.
    assert (S' : forall c, s1 c (Z.of_nat (length (usable_rows f))) (Z.of_nat (fm_n m)) = s2 c (Z.of_nat (length (usable_rows f))) (Z.of_nat (fm_n m))).
    { intros c. apply S; lia. }
    destruct (validate_input _ _ _ _) as [v|]; [|reflexivity]. cbn [rbind]. destruct (negb v); [reflexivity|].
    destruct (simplify_model _ _ _ _ _) as [ms|]; [|reflexivity]. cbn [rbind]. destruct (Nat.eqb (fm_n ms) 0).
    - destruct (get_residuals _ _ _ _ _ _ _ _); [|reflexivity]. cbn [rbind]. now rewrite S'.
    - destruct (optimize_least_squares _ _ _ _ _ _ _ _) as [[[su co] p]|]; [|reflexivity]. cbn [rbind]. now rewrite S'.
  Qed.

  (* ---------- weights (C38) ---------- *)
  Definition samples_at (f : frame T) (x : Z) : list (row T) := filter (fun r => Z.eqb (r_x r) x) (usable_rows f).
  Lemma ws_dup f : ~ NoDup (map r_x (usable_rows f)) ->
    ws_of f = Some (map (fun r => ndiv (if has_w f then r_w r else n1) (nofZ (Z.of_nat (length (samples_at f (r_x r)))))) (usable_rows f)).
  Proof.
    intros D. unfold ws_of, fit_rows. rewrite fitted_eq.
    destruct (has_dup Z.eqb (map r_x (usable_rows f))) eqn:E.
    - cbn. rewrite map_map. reflexivity.
    - exfalso. apply D. now apply (has_dup_iff Z.eqb Z.eqb_eq).
  Qed.
  Lemma ws_nodup f : NoDup (map r_x (usable_rows f)) ->
    ws_of f = if has_w f then Some (map r_w (usable_rows f)) else None.
  Proof.
    intros D. unfold ws_of, fit_rows. rewrite fitted_eq.
    apply (has_dup_iff Z.eqb Z.eqb_eq) in D. rewrite D. reflexivity.
  Qed.
End F.

(* ---------- exact arithmetic ---------- *)
Section X.
  Local Open Scope R_scope.
  Lemma zero_lt_XR : @nltb XR _ n0 n0 = false.
  Proof. cbn. apply Rltb_irrefl. Qed.
  Lemma deviation_nonneg (y p : XR) w : nleb n0 (deviation y p w) = true \/ nisnan (deviation y p w) = true.
  Proof.
    assert (A : forall v : XR, nleb n0 (nabs v) = true \/ nisnan (nabs v) = true).
    { intros [| | |r]; cbn; auto. left. destruct (Rleb_spec 0 (Rabs r)) as [|C]; [reflexivity|]. exfalso. apply C. apply Rabs_pos. }
    destruct w; apply A.
  Qed.
  (* sum of the residual weights of the samples at x *)
  Definition weight_sum_at (f : frame XR) (x : Z) : XR :=
    nsum (map (fun rw => snd rw) (filter (fun rw => Z.eqb (r_x (fst rw)) x)
      (combine (usable_rows f) (match ws_of f with Some ws => ws | None => map (fun _ => n1) (usable_rows f) end)))).
  Lemma combine_map_self {A B} (g : A -> B) l : combine l (map g l) = map (fun a => (a, g a)) l.
  Proof. induction l as [|a l IH]; [reflexivity|]. cbn. now rewrite IH. Qed.
  Lemma map_repeat {A B} (g : A -> B) a n : map g (repeat a n) = repeat (g a) n.
  Proof. induction n as [|n IH]; [reflexivity|]. cbn. now rewrite IH. Qed.
  Lemma rsum_repeat c n : rsum (repeat c n) = INR n * c.
  Proof. induction n as [|n IH]; [cbn; lra|]. rewrite S_INR. cbn [repeat rsum]. rewrite IH. lra. Qed.
  Lemma unit_weights (f : frame XR) x :
    (forall r, In r (usable_rows f) -> has_w f = true -> r_w r = Fin 1) -> In x (map r_x (usable_rows f)) ->
    ~ NoDup (map r_x (usable_rows f)) -> weight_sum_at f x = Fin 1.
  Proof.
    intros W I D. unfold weight_sum_at. rewrite (ws_dup zero_lt_XR f D).
    set (n := length (samples_at f x)).
    rewrite combine_map_self, NaiveProofs.filter_map, map_map. cbn [fst snd].
    assert (E : map (fun r : row XR => ndiv (if has_w f then r_w r else n1) (nofZ (Z.of_nat (length (samples_at f (r_x r)))))) (samples_at f x)
              = map Fin (repeat (/ INR n) n)).
    { assert (Hn : (n <> 0)%nat).
      { apply in_map_iff in I as (r & Er & Hr). assert (In r (samples_at f x)) by (apply filter_In; split; [exact Hr|now apply Z.eqb_eq]).
        unfold n. destruct (samples_at f x); [contradiction|discriminate]. }
      rewrite map_repeat. unfold n at 2. rewrite repeat_map_const. apply map_ext_in. intros r Hr. apply filter_In in Hr as [Hr Ex]. apply Z.eqb_eq in Ex.
      rewrite Ex. fold n. assert ((if has_w f then r_w r else n1) = Fin 1) as ->.
      { destruct (has_w f) eqn:Ew; [now apply W|reflexivity]. }
      rewrite ofZ_fin, <- INR_IZR_INZ, div_fin; [f_equal; unfold Rdiv; lra|]. now apply not_0_INR. }
    match goal with |- nsum ?l = _ => replace l with (map Fin (repeat (/ INR n) n)) by (symmetry; exact E) end.
    rewrite nsum_fin, rsum_repeat. f_equal. apply Rinv_r. apply not_0_INR.
    apply in_map_iff in I as (r & Er & Hr). assert (In r (samples_at f x)) by (apply filter_In; split; [exact Hr|now apply Z.eqb_eq]).
    unfold n. destruct (samples_at f x); [contradiction|discriminate].
  Qed.
End X.

Section S.
  Context {T : Type} `{NumOps T}.
  Hypothesis zero_lt : nltb n0 n0 = false.
  (* statuses as a function of sample count, validation and optimizer success *)
  Lemma fit_status_cases score E m f freq src act uc (md : meta T) :
    fit_model_with score E m f freq src act uc = Ok md ->
    (0 < length (usable_rows f))%nat /\
    (md_status md = "TS_TOO_SHORT" <-> (length (usable_rows f) < fm_n m + 2)%nat) /\
    (md_status md = "INPUT_ERR" <-> (fm_n m + 2 <= length (usable_rows f))%nat /\
                                    validate_input m (xs_of m f) (ys_of f) (dates_of f) = Ok false) /\
    (md_status md = "FIT" <-> md_fit md = true) /\
    (md_status md = "NO-FIT" <-> md_fit md = false /\ (fm_n m + 2 <= length (usable_rows f))%nat /\
                                 validate_input m (xs_of m f) (ys_of f) (dates_of f) = Ok true).
  Proof.
    intros E0. destruct (usable_rows f) as [|r0 l0] eqn:Eu.
    - rewrite (fit_empty zero_lt score E m f freq src act uc Eu) in E0. discriminate.
    - rewrite <- Eu in *. assert (Hn : usable_rows f <> []) by congruence.
      split; [rewrite Eu; cbn; lia|]. destruct (Nat.lt_ge_cases (length (usable_rows f)) (fm_n m + 2)) as [L|L].
      + destruct (fit_short zero_lt score E m f freq src act uc Hn L) as (md' & E1 & S & U & _). rewrite E0 in E1. injection E1 as <-.
        rewrite S, U. repeat split; try discriminate; try tauto; try lia; intros (? & ? & ?) || intros (? & ?); lia.
      + destruct (validate_input m (xs_of m f) (ys_of f) (dates_of f)) as [[|]|e] eqn:V.
        * destruct (fit_valid zero_lt score E m f freq src act uc md L V E0) as (ms & _ & _ & _ & K).
          destruct (Nat.eqb (fm_n ms) 0).
          -- destruct K as (-> & -> & _). repeat split; try discriminate; try lia; intros (? & ?); discriminate.
          -- destruct K as (c & p & _ & _ & -> & _). destruct (md_fit md); repeat split; try discriminate; try lia; auto; intros (? & ?); discriminate.
        * destruct (fit_invalid zero_lt score E m f freq src act uc L V) as (md' & E1 & S & U & _). rewrite E0 in E1. injection E1 as <-.
          rewrite S, U. repeat split; try discriminate; try tauto; try lia. intros (_ & _ & ?). discriminate.
        * rewrite (fit_validation_error zero_lt score E m f freq src act uc e L V) in E0. discriminate.
  Qed.
End S.
