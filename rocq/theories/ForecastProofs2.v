(* More facts about the forecast pipeline (Forecast.v): sources, outliers, hidden samples, x seen by
   the models, pinned parameters. *)
From Coq Require Import ZArith String List Bool Lia Permutation Sorted QArith_base Reals Lra.
From Verif Require Import Num Py Cal Fmt Model Base Fixed Naive Freq Aic Normalize Fit Interp Select Outliers Pi Forecast.
From Verif Require Import NumProofs ListProofs StringProofs GroupProofs FreqProofs GridProofs ModelProofs NormalizeProofs FixedProofs FitProofs InterpProofs OutlierProofs ForecastProofs.
Import ListNotations.
Local Open Scope string_scope.
Local Open Scope list_scope.
Local Open Scope Z_scope.

Section Sources.
  Context {T : Type} `{NumOps T}.

  (* ---------- C43 ---------- *)
  Definition somes {A} (l : list (option A)) : list A := flat_map (fun o => match o with Some a => [a] | None => [] end) l.
  (* the sources of a table, sorted *)
  Definition sorted_sources (t : raw T) : list string := isort str_leb (dedup String.eqb (map (fun q => r_src (q_row q)) (t_rows t))).

  Lemma aggregate_one (r : result T) : aggregate [r] = r.
  Proof. destruct r. unfold aggregate. cbn. now rewrite !app_nil_r. Qed.
  Lemma rmapM_map {A B C} (g : B -> res C) (h : A -> B) l : rmapM g (map h l) = rmapM (fun a => g (h a)) l.
  Proof. induction l as [|a l IH]; [reflexivity|]. cbn. now rewrite IH. Qed.
  Lemma rmapM_some {A B C} (g : A -> res B) l (k : list B -> C) :
    rbind (rmapM (fun a => rbind (g a) (fun b => Ok (Some b))) l) (fun os => Ok (k (somes os))) =
    rbind (rmapM g l) (fun bs => Ok (k bs)).
  Proof.
    revert k. induction l as [|a l IH]; intros k; [reflexivity|]. cbn. destruct (g a) as [b|]; [|reflexivity]. cbn.
    specialize (IH (fun bs => k (b :: bs))). cbn in IH.
    destruct (rmapM (fun a0 => rbind (g a0) (fun b0 => Ok (Some b0))) l) as [os|]; cbn in *;
      destruct (rmapM g l) as [bs|]; cbn in *; try discriminate IH; exact IH.
  Qed.
  Lemma sorted_strs_unique : forall l l', StronglySorted (fun a b => str_leb a b = true) l -> StronglySorted (fun a b => str_leb a b = true) l' ->
    NoDup l -> NoDup l' -> (forall a, In a l <-> In a l') -> l = l'.
  Proof.
    induction l as [|a l IH]; intros [|b l'] S S' N N' E.
    - reflexivity.
    - exfalso. apply (E b). now left.
    - exfalso. apply (E a). now left.
    - inversion S as [|? ? S1 F1]; subst. inversion S' as [|? ? S2 F2]; subst.
      inversion N as [|? ? Na N1]; subst. inversion N' as [|? ? Nb N2]; subst. rewrite Forall_forall in F1, F2.
      assert (a = b) as ->.
      { destruct (proj1 (E a) (or_introl eq_refl)) as [->|Ha]; [reflexivity|].
        destruct (proj2 (E b) (or_introl eq_refl)) as [->|Hb]; [reflexivity|]. apply str_leb_antisym; auto. }
      f_equal. apply IH; auto. intros c. split; intros Hc.
      + destruct (proj1 (E c) (or_intror Hc)) as [->|]; [contradiction|assumption].
      + destruct (proj2 (E c) (or_intror Hc)) as [->|]; [contradiction|assumption].
  Qed.
  Lemma dedup_sorted l : StronglySorted (fun a b => str_leb a b = true) l ->
    StronglySorted (fun a b => str_leb a b = true) (dedup String.eqb l).
  Proof. apply dedup_aux_sorted. Qed.
  Lemma ordered_sources (l : list (row T)) : StronglySorted (ordered true) l ->
    StronglySorted (fun a b => str_leb a b = true) (map r_src l).
  Proof.
    induction 1 as [|a l S IH F]; [constructor|]. cbn. constructor; [exact IH|]. rewrite Forall_forall in *. intros s Hs.
    apply in_map_iff in Hs as (b & <- & Hb). specialize (F b Hb). cbn in F. unfold str_leb. destruct F as [F|[F _]].
    - now rewrite F.
    - rewrite F. now rewrite str_compare_refl.
  Qed.
  Lemma frame_sources (t : raw T) f : t_src t = true -> normalize_df t = Ok (Some f) ->
    dedup String.eqb (map r_src (rows f)) = sorted_sources t /\ has_src f = true /\
    (forall s, In s (sorted_sources t) <-> In s (map r_src (rows f))).
  Proof.
    intros Hs E. assert (Hn : t_rows t <> []) by (intros C; apply normalize_none in C; congruence).
    assert (Hy : t_y t = true).
    { destruct (t_y t) eqn:Ey; [reflexivity|]. assert (normalize_df t = Err AssertionError) by (apply normalize_err; auto). congruence. }
    destruct (normalize_ok t Hn Hy) as (rs & E' & P & S). rewrite E in E'. injection E' as ->. cbn [rows has_src]. rewrite Hs in S.
    assert (I : forall s, In s (map r_src rs) <-> In s (map (fun q => r_src (q_row q)) (t_rows t))).
    { intros s. assert (In s (map r_src rs) <-> In s (map r_src (map (expected t) (enumerate (t_rows t))))) as ->.
      { split; apply Permutation_in; [now apply Permutation_map|symmetry; now apply Permutation_map]. }
      rewrite map_map. rewrite (map_ext _ (fun iq => r_src (q_row (snd iq)))) by (intros iq; apply expected_src).
      rewrite <- (map_map snd (fun q => r_src (q_row q))). unfold enumerate. now rewrite enum_snd. }
    assert (J : forall s, In s (sorted_sources t) <-> In s (map r_src rs)).
    { intros s. unfold sorted_sources. rewrite isort_in, (dedup_in String.eqb str_eqb_spec). now rewrite I. }
    split; [|split; [exact Hs|exact J]].
    apply sorted_strs_unique.
    - apply dedup_sorted. now apply ordered_sources.
    - apply (isort_sorted str_leb); [apply str_leb_total|apply str_leb_trans].
    - apply (dedup_nodup String.eqb str_eqb_spec).
    - eapply Permutation_NoDup; [apply isort_perm|]. apply (dedup_nodup String.eqb str_eqb_spec).
    - intros s. rewrite (dedup_in String.eqb str_eqb_spec). now rewrite J.
  Qed.

  (* one source alone *)
  Lemma run_one_source (W : string -> world T) c id t f s : t_src t = true -> normalize_df t = Ok (Some f) -> In s (map r_src (rows f)) ->
    run_forecast W c id (restrict t s) =
    rbind (run_forecast_single (W s) c s (with_rows f (filter (fun r => String.eqb (r_src r) s) (rows f)))) (fun r => Ok (Some r)).
  Proof.
    intros Hs E Hin. unfold run_forecast. rewrite (normalize_by_source t f s Hs E Hin). cbn [rbind has_src negb].
    destruct (frame_sources t f Hs E) as (_ & Ehs & _).
    assert (Ed : dedup String.eqb (map r_src (rows_of_source f s)) = [s]).
    { assert (A : forall a, In a (map r_src (rows_of_source f s)) -> a = s).
      { intros a Ha. apply in_map_iff in Ha as (r & <- & Hr). apply filter_In in Hr as [_ Hr]. now apply String.eqb_eq. }
      assert (B : map r_src (rows_of_source f s) <> []).
      { apply in_map_iff in Hin as (r & Er & Hr). assert (K : In r (rows_of_source f s)) by (apply filter_In; split; [exact Hr|now apply String.eqb_eq]).
        intros C. apply map_eq_nil in C. rewrite C in K. destruct K. }
      destruct (map r_src (rows_of_source f s)) as [|a l]; [congruence|]. rewrite (A a (or_introl eq_refl)).
      unfold dedup. cbn. rewrite dedup_aux_seen; [reflexivity|]. intros b Hb. apply A. now right. }
    cbn [rows]. rewrite Ed. cbn [rmapM]. unfold with_rows. cbn [has_date has_src has_w rows]. rewrite Ehs.
    assert (filter (fun r => String.eqb (r_src r) s) (rows_of_source f s) = filter (fun r => String.eqb (r_src r) s) (rows f)) as ->.
    { unfold rows_of_source. apply filter_idem. }
    destruct (run_forecast_single _ _ _ _) as [r|]; [|reflexivity]. cbn [rbind]. now rewrite aggregate_one.
  Qed.
  Theorem sources_alone (W : string -> world T) c id t f : t_src t = true -> normalize_df t = Ok (Some f) ->
    run_forecast W c id t =
    rbind (rmapM (fun s => run_forecast W c id (restrict t s)) (sorted_sources t)) (fun os => Ok (Some (aggregate (somes os)))).
  Proof.
    intros Hs E. destruct (frame_sources t f Hs E) as (Ed & Eh & J).
    rewrite (rmapM_ext _ (fun s => rbind (run_forecast_single (W s) c s (with_rows f (filter (fun r => String.eqb (r_src r) s) (rows f)))) (fun r => Ok (Some r)))).
    2:{ intros s Hin. apply (run_one_source W c id t f s Hs E). now apply J. }
    rewrite (rmapM_some (fun s => run_forecast_single (W s) c s (with_rows f (filter (fun r => String.eqb (r_src r) s) (rows f))))
               (sorted_sources t) (fun rs => Some (aggregate rs))). unfold run_forecast. rewrite E. cbn [rbind]. rewrite Eh. cbn [negb]. now rewrite Ed.
  Qed.
  Lemma run_empty (W : string -> world T) c id t : t_rows t = [] -> run_forecast W c id t = Ok None.
  Proof. intros E. unfold run_forecast. now rewrite (proj2 (normalize_none t) E). Qed.
  Lemma run_no_y (W : string -> world T) c id t : t_rows t <> [] -> t_y t = false -> run_forecast W c id t = Err AssertionError.
  Proof. intros E Y. unfold run_forecast. rewrite (proj2 (normalize_err t AssertionError)); auto. Qed.

  (* rows of the result belong to the source they were computed from *)
  Lemma result_source W c s f r : run_forecast_single W c s f = Ok r ->
    (forall d, In d (rs_data r) -> d_src d = s) /\ (forall m, In m (rs_meta r) -> md_source (m_meta m) = s).
  Proof.
    intros K. unfold run_forecast_single in K. destruct (run_fits W c s f) as [[[w acts] fits]|] eqn:E; [|discriminate]. cbn [rbind] in K.
    pose proof (data_source _ _ _ _ _ _ _ (c_all c) E) as Sd. destruct (single_source _ _ _ _ _ _ _ E) as [_ Sf]. rewrite Forall_forall in Sf.
    destruct (assemble W (c_all c) w acts fits) as [data metas] eqn:Ea. destruct (get_pi _ _ _ _ _ _ _) as [pi|]; [|discriminate].
    cbn [rbind] in K. injection K as <-. cbn [rs_data rs_meta]. split; [exact Sd|]. intros m Hm.
    assert (Hm' : In m (snd (assemble W true w acts fits))).
    { destruct (c_all c); cbn in Ea |- *.
      - injection Ea as _ <-. exact Hm.
      - injection Ea as _ <-. now apply filter_In in Hm as [Hm _]. }
    cbn in Hm'. apply in_map_iff in Hm' as (p & <- & Hp). cbn. now apply Sf.
  Qed.
  (* non-interference: the part of the result for a source depends on its own rows only *)
  Lemma pick_source (W : string -> world T) c id t f r s : t_src t = true -> normalize_df t = Ok (Some f) ->
    run_forecast W c id t = Ok (Some r) -> In s (sorted_sources t) ->
    exists rs, run_forecast W c id (restrict t s) = Ok (Some rs) /\
      filter (fun d => String.eqb (d_src d) s) (rs_data r) = rs_data rs /\
      filter (fun m => String.eqb (md_source (m_meta m)) s) (rs_meta r) = rs_meta rs.
  Proof.
    intros Hs E K Hin. destruct (frame_sources t f Hs E) as (Ed & Eh & J).
    rewrite (run_one_source W c id t f s Hs E) by (now apply J).
    unfold run_forecast in K. rewrite E in K. cbn [rbind] in K. rewrite Eh in K. cbn [negb] in K. rewrite Ed in K.
    destruct (rmapM _ _) as [l|] eqn:El; [|discriminate]. cbn [rbind] in K. injection K as <-. apply rmapM_inv in El.
    assert (N : NoDup (sorted_sources t)).
    { unfold sorted_sources. eapply Permutation_NoDup; [apply isort_perm|]. apply (dedup_nodup String.eqb str_eqb_spec). }
    revert N Hin. clear -El. induction El as [|u ru us l Hu El IH]; intros N Hin; [destruct Hin|].
    destruct (result_source _ _ _ _ _ Hu) as [Sd Sm]. inversion N as [|? ? Nu N']; subst.
    cbn [aggregate rs_data rs_meta map concat]. rewrite !filter_app. destruct (string_dec u s) as [->|D].
    - exists ru. rewrite Hu. split; [reflexivity|].
      rewrite (filter_all _ (rs_data ru)) by (intros d Hd; apply String.eqb_eq; auto).
      rewrite (filter_all _ (rs_meta ru)) by (intros d Hd; apply String.eqb_eq; auto).
      assert (O : forall us l, Forall2 (fun u ru => run_forecast_single (W u) c u (with_rows f (filter (fun r => String.eqb (r_src r) u) (rows f))) = Ok ru) us l ->
                  ~ In s us -> filter (fun d => String.eqb (d_src d) s) (concat (map rs_data l)) = [] /\
                               filter (fun m => String.eqb (md_source (m_meta m)) s) (concat (map rs_meta l)) = []).
      { clear. induction 1 as [|u ru us l Hu _ IH]; intros Ns; [split; reflexivity|]. destruct (result_source _ _ _ _ _ Hu) as [Sd Sm].
        destruct IH as [I1 I2]; [intros C; apply Ns; now right|]. cbn. rewrite !filter_app, I1, I2, !app_nil_r. split; apply filter_none.
        - intros d Hd. apply String.eqb_neq. rewrite (Sd d Hd). intros ->. apply Ns. now left.
        - intros d Hd. apply String.eqb_neq. rewrite (Sm d Hd). intros ->. apply Ns. now left. }
      destruct (O us l) as [-> ->]; [assumption|assumption|]. now rewrite !app_nil_r.
    - destruct Hin as [Hin|Hin]; [congruence|]. destruct (IH N' Hin) as (rs & Er & A & B). exists rs. split; [exact Er|].
      cbn [aggregate rs_data rs_meta] in A, B. rewrite A, B. split.
      + rewrite (filter_none _ (rs_data ru)); [reflexivity|]. intros d Hd. apply String.eqb_neq. rewrite (Sd d Hd). exact D.
      + rewrite (filter_none _ (rs_meta ru)); [reflexivity|]. intros d Hd. apply String.eqb_neq. rewrite (Sm d Hd). exact D.
  Qed.
  Theorem sources_do_not_interfere (W : string -> world T) c id t t' f f' r r' s :
    t_src t = true -> t_src t' = true -> normalize_df t = Ok (Some f) -> normalize_df t' = Ok (Some f') ->
    run_forecast W c id t = Ok (Some r) -> run_forecast W c id t' = Ok (Some r') ->
    In s (sorted_sources t) -> In s (sorted_sources t') -> restrict t s = restrict t' s ->
    filter (fun d => String.eqb (d_src d) s) (rs_data r) = filter (fun d => String.eqb (d_src d) s) (rs_data r') /\
    filter (fun m => String.eqb (md_source (m_meta m)) s) (rs_meta r) = filter (fun m => String.eqb (md_source (m_meta m)) s) (rs_meta r').
  Proof.
    intros S S' E E' K K' I I' Q. destruct (pick_source W c id t f r s S E K I) as (x & Ex & A & B).
    destruct (pick_source W c id t' f' r' s S' E' K' I') as (x' & Ex' & A' & B'). rewrite Q, Ex' in Ex. injection Ex as ->.
    now rewrite A, A', B, B'.
  Qed.

  (* ---------- C45 ---------- *)
  Definition weight_or_one (f : frame T) (r : row T) : T := if has_w f then r_w r else n1.
  Theorem spikes_weighted c f f1 : c_outliers c = true -> prepared c f = Ok f1 ->
    exists steps spikes, model_outliers (start_filter (c_start c) f) = Ok (steps, spikes) /\
      length spikes = length (rows (start_filter (c_start c) f)) /\ length (rows f1) = length spikes /\
      forall i q sp, nth_error (rows (start_filter (c_start c) f)) i = Some q -> nth_error spikes i = Some sp ->
        nth_error (rows f1) i = Some (set_w q (if has_w f then nmul (r_w q) (if sp : bool then n0 else n1)
                                               else if sp then n0 else n1)).
  Proof.
    intros Ho E. unfold prepared in E. rewrite Ho in E. destruct (ignore_spikes_inv _ _ E) as (st & sp & Em & L & _ & _ & _ & Er).
    assert (Ew : has_w (start_filter (c_start c) f) = has_w f).
    { unfold start_filter. destruct (c_start c); [destruct (has_date f)|]; reflexivity. }
    exists st, sp. split; [exact Em|]. split; [exact L|]. split.
    - rewrite Er, map_length, combine_length. lia.
    - intros i q b Hq Hb. rewrite Er. rewrite nth_error_map, (nth_error_combine _ _ _ _ _ Hq Hb). cbn. now rewrite Ew.
  Qed.
  Lemma no_outliers c f f1 : c_outliers c = false -> prepared c f = Ok f1 -> f1 = start_filter (c_start c) f.
  Proof. intros Ho E. unfold prepared in E. rewrite Ho in E. now injection E as <-. Qed.

  (* ---------- C53 ---------- *)
  Lemma model_actuals_in f u act r : model_actuals f u = Ok act -> In r (rows act) ->
    exists g q w, interpolate_df false f = Ok g /\ In q (rows g) /\ r_x r = r_x q /\ r_date r = r_date q /\
      (w = n0 \/ exists k, In k (rows u) /\ r_x k = r_x q /\ w = r_w k) /\
      r_y r = (if nltb n0 (if nisnan w then n0 else w) then r_y q else nnan).
  Proof.
    unfold model_actuals. intros E Hr. destruct (interpolate_df false f) as [g|] eqn:Eg; [|discriminate]. cbn in E. injection E as <-. cbn [rows] in Hr.
    apply in_flat_map in Hr as (q & Hq & Hr). apply isort_in in Hq. apply in_map_iff in Hr as (w & <- & Hw).
    exists g, q, w. cbn. repeat split; auto.
    destruct (filter (fun k => r_x k =? r_x q) (rows u)) as [|k l] eqn:Ef; cbn in Hw.
    - destruct Hw as [<-|[]]. now left.
    - right. assert (Hw' : In w (map r_w (filter (fun k => r_x k =? r_x q) (rows u)))) by (rewrite Ef; exact Hw).
      apply in_map_iff in Hw' as (k' & <- & Hk). apply filter_In in Hk as [Hk Ek]. apply Z.eqb_eq in Ek. eauto.
  Qed.
  Definition zero_not_positive : Prop := nltb (n0 : T) n0 = false.
  (* no usable sample at x: no value *)
  Theorem hidden_without_usable f u act r : zero_not_positive -> model_actuals f u = Ok act -> In r (rows act) ->
    (forall k, In k (rows u) -> r_x k <> r_x r) -> r_y r = nnan.
  Proof.
    intros Z E Hr N. destruct (model_actuals_in _ _ _ _ E Hr) as (g & q & w & _ & _ & Ex & _ & Hw & ->).
    destruct Hw as [->|(k & Hk & Ek & _)]; [|exfalso; apply (N k Hk); congruence].
    destruct (nisnan n0); now rewrite Z.
  Qed.
  Lemma interpolated_rows f g r : (forall q, In q (rows f) -> exact_int (T := T) (r_x q)) -> interpolate_df false f = Ok g ->
    In r (rows g) -> In r (rows f) \/ r_y r = nnan.
  Proof.
    intros X E Hr. assert (Dec : complete f \/ ~ complete f).
    { destruct (regular (map (pos f) (rows f))) eqn:R.
      - destruct (has_date f) eqn:D.
        + destruct (match detect_freq (map r_date (rows f)), zdiff (zuniq (map r_date (rows f))) with
                    | Some fr, d :: _ => String.eqb fr "D" && (DAY <? d) | _, _ => false end) eqn:Sp.
          * right. intros [_ C]. apply (C D). now apply sparse_iff.
          * left. split; [now apply regular_iff|]. intros _ C. apply sparse_iff in C. congruence.
        + left. split; [now apply regular_iff|]. intros C. congruence.
      - right. intros [C _]. apply regular_iff in C. congruence. }
    destruct Dec as [C|C].
    - rewrite (interp_complete false f C) in E. injection E as <-. now left.
    - assert (N : NoDup (map (pos f) (rows f))).
      { apply (has_dup_iff Z.eqb Z.eqb_eq). apply not_true_iff_false. intros B.
        assert (~ NoDup (map (pos f) (rows f))). { intros N. apply (has_dup_iff Z.eqb Z.eqb_eq) in N. congruence. }
        rewrite (interp_duplicates false f C H0) in E. discriminate. }
      destruct (has_date f) eqn:D.
      + rewrite (pos_date f D) in N. destruct (interp_dates f g D C N X E) as (lo & hi & grid & rs & -> & _ & _ & _ & _ & R).
        destruct R as (_ & _ & R). destruct (R r Hr) as [I|(_ & Y & _)]; auto.
      + rewrite (pos_num f D) in N. destruct (interp_numbers f D C N) as (lo & hi & rs & E' & _ & _ & R & _).
        rewrite E in E'. injection E' as ->. destruct R as (_ & _ & R). destruct (R r Hr) as [I|(_ & Y & _)]; auto.
  Qed.
  Lemma in_unique {A} (key : A -> Z) l a b : NoDup (map key l) -> In a l -> In b l -> key a = key b -> a = b.
  Proof.
    induction l as [|c l IH]; intros N Ha Hb E; [destruct Ha|]. cbn in N. inversion N as [|? ? Nc N']; subst.
    destruct Ha as [->|Ha], Hb as [->|Hb]; auto.
    - exfalso. apply Nc. rewrite E. now apply in_map.
    - exfalso. apply Nc. rewrite <- E. now apply in_map.
  Qed.
  (* distinct positions: only values of usable samples are shown *)
  Theorem shown_values_usable f u act r : zero_not_positive ->
    (forall q, In q (rows f) -> exact_int (T := T) (r_x q)) ->
    (forall k, In k (rows u) -> exists q, In q (rows f) /\ same_sample k q) ->
    NoDup (map r_x (rows f)) -> model_actuals f u = Ok act -> In r (rows act) ->
    r_y r = nnan \/ exists k, In k (rows u) /\ r_x k = r_x r /\ r_y k = r_y r.
  Proof.
    intros Z X U N E Hr. destruct (model_actuals_in _ _ _ _ E Hr) as (g & q & w & Eg & Hq & Ex & _ & Hw & Ey).
    destruct Hw as [->|(k & Hk & Ek & ->)].
    - left. rewrite Ey. destruct (nisnan n0); now rewrite Z.
    - destruct (interpolated_rows f g q X Eg Hq) as [I|Y].
      + rewrite Ey. destruct (nltb _ _); [|now left]. right. exists k. split; [exact Hk|]. split; [congruence|].
        destruct (U k Hk) as (q0 & I0 & _ & _ & Sx & Sy). assert (q0 = q) as -> by (apply (in_unique r_x _ _ _ N I0 I); congruence). congruence.
      + left. rewrite Ey, Y. now destruct (nltb _ _).
  Qed.
  (* a usable sample of the filled table is shown with its value *)
  Theorem usable_shown f u act g q k : model_actuals f u = Ok act -> interpolate_df false f = Ok g -> In q (rows g) ->
    In k (rows u) -> r_x k = r_x q -> nisnan (r_w k) = false -> nltb n0 (r_w k) = true ->
    In (mkRow (r_date q) (r_src q) (r_x q) (r_y q) (r_w k)) (rows act).
  Proof.
    intros E Eg Hq Hk Ek Nw Pw. unfold model_actuals in E. rewrite Eg in E. cbn in E. injection E as <-. cbn [rows].
    apply in_flat_map. exists q. split; [now apply isort_in|]. apply in_map_iff. exists (r_w k). rewrite Nw, Pw. split; [reflexivity|].
    assert (In k (filter (fun j => r_x j =? r_x q) (rows u))) by (apply filter_In; split; [exact Hk|now apply Z.eqb_eq]).
    destruct (filter (fun j => r_x j =? r_x q) (rows u)) as [|a l] eqn:Ef; [contradiction|].
    change (In (r_w k) (map r_w (a :: l))). apply in_map. exact H0.
  Qed.

  (* ---------- C57 ---------- *)
  Notation M := (fmodel T).
  (* the x a model sees for sample position z *)
  Definition seen (m : M) (z : Z) : T :=
    if String.eqb (fm_name m) "sigmoid" || String.eqb (fm_name m) "logistic" then ndiv (nofZ z) (nofZ 100) else nofZ z.
  Lemma seen_scaled (m : M) z : scaled (Some m) z = seen m z.
  Proof. unfold scaled, seen, model_requires_scaling, requires_scaling. now rewrite orb_comm. Qed.
  Lemma fit_seen (m : M) (l : list (row T)) : apply_a_x_scaling (map (fun r => nofZ (r_x r)) l) (Some m) = map (fun r => seen m (r_x r)) l.
  Proof.
    rewrite <- (map_map r_x nofZ), scaling_map, map_map. apply map_ext. intros r. apply seen_scaled.
  Qed.
  Lemma composite_not_scaled sep op mode (m1 m2 : M) z : seen (combine_models sep op mode m1 m2) z = nofZ z.
  Proof. reflexivity. Qed.
End Sources.

(* x of a date when x is counted in days from the Monday before the first date *)
Definition x_of (t0 t : Z) : Z := (t - x_origin t0) / DAY.
Lemma x_of_mono t0 a b : a <= b -> x_of t0 a <= x_of t0 b.
Proof. intros L. apply Z.div_le_mono; [reflexivity|lia]. Qed.
Lemma x_start_is {T} (l : list (row T)) t0 start x0 : (forall q, In q l -> r_x q = x_of t0 (r_date q)) ->
  zmin_opt (map r_date l) = Some start -> zmin_opt (map r_x l) = Some x0 -> x0 = x_of t0 start.
Proof.
  intros A E1 E2. apply zmin_opt_iff in E1 as [I1 B1]. apply zmin_opt_iff in E2 as [I2 B2].
  apply in_map_iff in I1 as (q1 & D1 & H1). apply in_map_iff in I2 as (q2 & D2 & H2).
  assert (start <= r_date q2) by (apply B1; now apply in_map). assert (x0 <= r_x q1) by (apply B2; now apply in_map).
  rewrite (A q1 H1), D1 in H0. assert (x_of t0 start <= x_of t0 (r_date q2)) by (now apply x_of_mono). rewrite <- (A q2 H2), D2 in H3. lia.
Qed.
Definition aligned (a b : Z) : Prop := (a - b) mod DAY = 0.
Lemma aligned_x t0 start t : aligned t start \/ aligned start t0 ->
  (t - start) / DAY + x_of t0 start = x_of t0 t.
Proof.
  unfold aligned, x_of, x_origin. pose proof DAYp as P. set (w := weekday t0). clearbody w.
  intros [A|A]; apply Z.mod_divide in A as (k & A); try lia.
  - replace t with (start + k * DAY) by lia. replace (start + k * DAY - start) with (k * DAY) by ring.
    replace (start + k * DAY - (t0 - w * DAY)) with (start - (t0 - w * DAY) + k * DAY) by ring.
    rewrite Z.div_add, Z.div_mul by lia. ring.
  - replace start with (t0 + k * DAY) by lia. replace (t0 + k * DAY - (t0 - w * DAY)) with ((k + w) * DAY) by ring.
    replace (t - (t0 - w * DAY)) with (t - (t0 + k * DAY) + (k + w) * DAY) by ring. rewrite Z.div_add, Z.div_mul by lia. ring.
Qed.
Lemma fixed_aligned start step stop t : step mod DAY = 0 -> In t (fixed_range start step stop) -> aligned t start.
Proof.
  intros S I. unfold fixed_range in I. destruct (stop <? start); [destruct I|]. apply in_map_iff in I as (i & <- & _).
  unfold aligned. replace (start + Z.of_nat i * step - start) with (Z.of_nat i * step) by ring. pose proof DAYp.
  rewrite Z.mul_mod, S, Z.mul_0_r by lia. apply Z.mod_0_l. lia.
Qed.
Lemma month_aligned start stop sel day t : In t (month_range start stop sel day) -> aligned t start.
Proof.
  intros I. unfold month_range in I. apply filter_In in I as [I _]. apply in_map_iff in I as (k & <- & _). unfold aligned. pose proof DAYp.
  rewrite (Z.div_mod start DAY) at 2 by lia. replace (day k * DAY + start mod DAY - (DAY * (start / DAY) + start mod DAY)) with ((day k - start / DAY) * DAY) by ring.
  apply Z.mod_mul. lia.
Qed.
Lemma range_aligned start stop f ds t : f <> "H" -> date_range start stop f = Ok ds -> In t ds -> aligned t start.
Proof.
  unfold date_range. intros N E I. rewrite (proj2 (String.eqb_neq _ _) N) in E.
  repeat match type of E with (if ?b then _ else _) = _ => destruct b end; try discriminate; injection E as <-;
    match type of I with
    | In _ (fixed_range _ _ _) => eapply fixed_aligned; [|exact I]; reflexivity
    | _ => eapply month_aligned; exact I
    end.
Qed.
Section Seen.
  Context {T : Type} `{NumOps T}.
  Notation M := (fmodel T).
  (* the grid shows every date with the x it would have been fitted with *)
  Theorem extrapolation_x (m : M) (l : list (row T)) t0 start stop freq years x0 g t v :
    (forall q, In q l -> r_x q = x_of t0 (r_date q)) ->
    zmin_opt (map r_date l) = Some start -> zmin_opt (map r_x l) = Some x0 ->
    s_x_dates start stop (Some m) freq years x0 = Ok g -> In (t, v) g ->
    freq <> Some "H" \/ aligned start t0 -> v = seen m (x_of t0 t).
  Proof.
    intros A E1 E2 E I Al. rewrite (x_start_is l t0 start x0 A E1 E2) in E. unfold s_x_dates in E.
    destruct (grid_freq start freq) as [f|] eqn:Ef; [|discriminate]. cbn [rbind] in E.
    destruct (forecast_end stop f years) as [e|]; [|discriminate]. cbn [rbind] in E.
    destruct (date_range start e f) as [ds|] eqn:Ed; [|discriminate]. cbn [rbind] in E. injection E as <-.
    rewrite grid_pairs in I. apply in_map_iff in I as (t' & K & I). injection K as -> <-. rewrite seen_scaled. f_equal. apply aligned_x.
    destruct Al as [N|Al]; [left|now right]. apply (range_aligned start e f ds); auto. intros ->. apply N.
    unfold grid_freq in Ef. destruct freq as [f|].
    - destruct (startswith f "W") eqn:Ew; [|now injection Ef as ->]. destruct (String.eqb (wday_name (weekday start)) f); [|discriminate].
      injection Ef as ->. discriminate.
    - injection Ef as Ef. destruct (weekday_name_cases start) as [K|[K|[K|[K|[K|[K|K]]]]]]; rewrite K in Ef; discriminate.
  Qed.
  Theorem extrapolation_x_numeric (m : M) start stop years x0 i v : In (i, v) (s_x_numeric start stop (Some m) years x0) ->
    v = seen m (x0 + (i - start) + x0).
  Proof.
    unfold s_x_numeric. rewrite <- (map_map (fun k => x0 + Z.of_nat k + x0) nofZ), scaling_map, map_map.
    intros I. set (n := numeric_size start stop years) in *. clearbody n. revert I. generalize (seq 0 n). intros l.
    induction l as [|k l IH]; intros I; [destruct I|]. cbn in I. destruct I as [I|I]; [|now apply IH].
    injection I as <- <-. rewrite seen_scaled. f_equal. lia.
  Qed.

  (* ---------- C58 ---------- *)
  Definition rejects_short (m : M) : Prop := forall a_x a_date p mode kw, (length p < fm_n m)%nat ->
    exists e, fm_f m a_x a_date (Some p) mode kw = Err e.
  Lemma rejects_composite sep op mode (m1 m2 : M) : rejects_short m1 -> rejects_short m2 -> rejects_short (combine_models sep op mode m1 m2).
  Proof.
    intros R1 R2 x d p md kw L. cbn in L |- *. unfold f_combine. cbn [p_slice rbind].
    destruct (Nat.lt_ge_cases (length p) (fm_n m1)) as [S|S].
    - destruct (R1 x d (firstn (fm_n m1) p) (Some mode) kw) as (e & ->); [rewrite firstn_length; lia|]. now exists e.
    - destruct (fm_f m1 _ _ _ _ _) as [v|e]; [|now exists e]. cbn [rbind].
      destruct (R2 x d (skipn (fm_n m1) p) (Some mode) kw) as (e & ->); [rewrite skipn_length; lia|]. now exists e.
  Qed.
  Lemma rejects_linear : rejects_short model_linear.
  Proof. intros x d [|a [|b p]] md kw L; cbn in L; try lia; cbn; eauto. Qed.
  Lemma rejects_ramp : rejects_short model_ramp.
  Proof. intros x d [|a [|b p]] md kw L; cbn in L; try lia; cbn; eauto. Qed.
  Lemma rejects_exp : rejects_short model_exp.
  Proof. intros x d [|a [|b p]] md kw L; cbn in L; try lia; cbn; eauto. Qed.
  Lemma rejects_decay : rejects_short model_decay.
  Proof. intros x d [|a [|b [|c p]]] md kw L; cbn in L; try lia; cbn; eauto. Qed.
  Lemma rejects_step : rejects_short model_step.
  Proof. intros x d [|a [|b p]] md kw L; cbn in L; try lia; cbn; eauto. Qed.
  Lemma rejects_sigmoid : rejects_short model_sigmoid.
  Proof. intros x d [|a [|b [|c p]]] md kw L; cbn in L; try lia; cbn; eauto. Qed.
  Lemma rejects_constant : rejects_short model_constant.
  Proof. intros x d [|a p] md kw L; cbn in L; try lia; cbn; eauto. Qed.
  Lemma rejected_extrapolation m p o freq years x0 act : rejects_short m -> (length p < fm_n m)%nat ->
    exists e, extrapolate_model m (Some p) o freq years x0 act = Err e.
  Proof.
    intros R L. unfold extrapolate_model. destruct (s_x_extrapolate _ _ _ _ _) as [g|e]; [|now exists e]. cbn [rbind].
    unfold call. destruct (R (map snd g) (match o with ODate _ _ => Some (map fst g) | ONum _ _ => None end) p (Some false) (mkKw act [])) as (e & ->); [exact L|].
    now exists e.
  Qed.
  (* the optimizer returns as many values as the initial guess has *)
  Definition keeps_size (E : env T) : Prop := forall f g b s c x, e_lsq E f g b = LDone s c x -> length x = length g.
End Seen.

Lemma positive_XR (w : XR) : @nltb XR _ n0 w = true <-> w = XPInf \/ exists r, w = Fin r /\ (0 < r)%R.
Proof.
  destruct w as [| | |r]; cbn; split; try discriminate; auto.
  - intros [K|(r & K & _)]; discriminate.
  - intros [K|(r & K & _)]; discriminate.
  - destruct (Rltb_spec 0 r) as [L|L]; [|discriminate]. eauto.
  - intros [K|(r' & [= <-] & L)]; [discriminate|]. destruct (Rltb_spec 0 r); [reflexivity|contradiction].
Qed.

(* ---------- C45 over the reals ---------- *)
Lemma mul_one (w : XR) : nmul w n1 = w.
Proof.
  destruct w as [| | |r]; unfold n1; cbn; unfold xsgninf, Reqb, Rltb; try reflexivity.
  - destruct (Req_EM_T 1 0); [lra|]. destruct (Rlt_dec 1 0); [lra|]. reflexivity.
  - destruct (Req_EM_T 1 0); [lra|]. destruct (Rlt_dec 1 0); [lra|]. reflexivity.
  - now rewrite Rmult_1_r.
Qed.
Lemma mul_zero (w : XR) : nltb n0 (nmul w n0) = false.
Proof.
  destruct w as [| | |r]; unfold n0; cbn; unfold xsgninf, Reqb, Rltb; try reflexivity.
  - destruct (Req_EM_T 0 0); [reflexivity|lra].
  - destruct (Req_EM_T 0 0); [reflexivity|lra].
  - destruct (Rlt_dec 0 (r * 0)); [lra|reflexivity].
Qed.
(* row i of the fitted table: fitted exactly if it is no spike and its weight is positive *)
Theorem spikes_not_fitted c (f f1 : frame XR) : c_outliers c = true -> prepared c f = Ok f1 ->
  exists steps spikes, model_outliers (start_filter (c_start c) f) = Ok (steps, spikes) /\
    length (rows f1) = length (rows (start_filter (c_start c) f)) /\ has_w f1 = true /\
    forall i q, nth_error (rows (start_filter (c_start c) f)) i = Some q ->
      exists q1, nth_error (rows f1) i = Some q1 /\ same_sample q1 q /\
        (nth i spikes false = false -> r_w q1 = weight_or_one f q) /\
        (nltb n0 (r_w q1) = true <-> nth i spikes false = false /\ nltb n0 (weight_or_one f q) = true).
Proof.
  intros Ho E. destruct (spikes_weighted c f f1 Ho E) as (st & sp & Em & L & L1 & A). exists st, sp. split; [exact Em|].
  split; [congruence|]. split.
  { unfold prepared in E. rewrite Ho in E. now destruct (ignore_spikes_inv _ _ E) as (? & ? & _ & _ & _ & _ & K & _). }
  intros i q Hq. assert (Li : (i < length sp)%nat). { rewrite L. apply nth_error_Some. congruence. }
  destruct (nth_error sp i) as [b|] eqn:Eb; [|apply nth_error_None in Eb; lia].
  assert (nth i sp false = b) as -> by (apply nth_error_nth; exact Eb).
  eexists. split; [apply (A i q b Hq Eb)|]. split; [repeat split|]. unfold weight_or_one. cbn [r_w set_w]. destruct b, (has_w f).
  - split; [discriminate|]. rewrite mul_zero. split; [discriminate|intros []; discriminate].
  - split; [discriminate|]. rewrite zero_lt_XR. split; [discriminate|intros []; discriminate].
  - rewrite mul_one. tauto.
  - tauto.
Qed.

(* ---------- C58 ---------- *)
Lemma rmapM_len {A B} (g : A -> res B) l r : rmapM g l = Ok r -> length r = length l.
Proof. intros E. apply rmapM_inv in E. symmetry. now apply Forall2_len in E. Qed.
Theorem pinned_short E (m : fmodel XR) f freq src act uc d b i : keeps_size E ->
  fit_model E m f freq src act uc = Ok d -> md_fit d = true ->
  fm_bounds m (Some (xs_of m f)) (Some (ys_of f)) (dates_of f) = Ok b ->
  length (b_lo b) = fm_n m -> length (b_hi b) = fm_n m -> pinned b i ->
  (length (md_params d) < fm_n m)%nat.
Proof.
  intros Ks Ef Fd Eb Ll Lh Pi.
  destruct (fit_status_cases zero_lt_XR _ _ _ _ _ _ _ _ _ Ef) as (_ & St & Iv & Ft & _).
  pose proof (proj2 Ft Fd) as S. rewrite S in St, Iv.
  assert (Hl : (fm_n m + 2 <= length (usable_rows f))%nat).
  { destruct (Nat.lt_ge_cases (length (usable_rows f)) (fm_n m + 2)) as [C|C]; [|exact C]. apply St in C. discriminate. }
  destruct (validate_input m (xs_of m f) (ys_of f) (dates_of f)) as [[|]|e] eqn:V.
  2:{ assert ("FIT" = "INPUT_ERR") by (apply Iv; auto). discriminate. }
  2:{ unfold fit_model in Ef. rewrite (fit_validation_error zero_lt_XR _ _ _ _ _ _ _ _ _ Hl V) in Ef. discriminate. }
  destruct (fit_valid zero_lt_XR _ _ _ _ _ _ _ _ _ Hl V Ef) as (ms & Es & _ & _ & K).
  destruct (b_nd b) eqn:Nd.
  2:{ rewrite (simplify_lists (e_arr E) m _ _ _ b i Eb) in Es; try assumption; [discriminate|congruence]. }
  destruct (simplify_predicts (e_arr E) m _ _ _ b i Eb Ll Lh Nd Pi) as (ms' & Es' & Ln & _).
  rewrite Es in Es'. injection Es' as <-. rewrite (simplify_arrays (e_arr E) m _ _ _ b i Eb Ll Lh Nd Pi) in Es.
  destruct (Nat.eqb (fm_n ms) 0) eqn:Z.
  - destruct K as (_ & _ & ->). cbn. lia.
  - destruct K as (cost & p & Eo & _ & _ & ->). unfold optimize_least_squares in Eo.
    destruct (fm_init ms _ _ _ _ _) as [g|] eqn:Eg; [|discriminate]. cbn [rbind] in Eo.
    assert (Lg : length g = fm_n ms).
    { unfold fix_params_fmodel in Es. destruct (negb _) in Es; [discriminate|]. injection Es as <-. cbn in Eg |- *.
      unfold init_validated in Eg. destruct (existsb _ _); [discriminate|]. destruct (fm_init m _ _ _ _ _) as [l|]; [|discriminate].
      cbn in Eg. unfold fancy_get in Eg. now apply rmapM_len in Eg. }
    destruct (fm_bounds ms _ _ _) as [b'|]; [|discriminate]. cbn [rbind] in Eo.
    destruct (validate_initial_guess g b') as [[|]|]; [|discriminate|discriminate]. cbn [rbind negb] in Eo.
    destruct (if uc then _ else _) as [cache|]; [|discriminate]. cbn [rbind] in Eo.
    destruct (e_lsq E _ g b') as [su co x|e] eqn:Eq.
    + injection Eo as _ _ <-. rewrite (Ks _ _ _ _ _ _ Eq), Lg. exact Ln.
    + destruct e; try discriminate. injection Eo as Eo _ _. congruence.
Qed.
Theorem pinned_candidate_fails W c source mode freq la (u : frame XR) act o x0 m b i :
  keeps_size (w_env W) -> rejects_short m ->
  fm_bounds m (Some (xs_of m u)) (Some (ys_of u)) (dates_of u) = Ok b ->
  length (b_lo b) = fm_n m -> length (b_hi b) = fm_n m -> pinned b i ->
  match fit_one W c source mode freq la u act o x0 m with
  | Ok (d, _, l) => md_fit d = false /\ l = []
  | Err _ => True
  end.
Proof.
  intros Ks R Eb Ll Lh Pi. unfold fit_one. destruct (fit_model _ _ _ _ _ _ _) as [d|] eqn:Ed; [|exact I]. cbn [rbind].
  destruct (md_fit d) eqn:F; [|auto].
  destruct (rejected_extrapolation m (md_params d) o freq (c_years c) x0 (Some act) R) as (e & ->); [|exact I].
  exact (pinned_short _ _ _ _ _ _ _ _ _ _ Ks Ed F Eb Ll Lh Pi).
Qed.
Lemma rmapM_in_ok {A B} (g : A -> res B) l r a : rmapM g l = Ok r -> In a l -> exists b, In b r /\ g a = Ok b.
Proof.
  intros E. apply rmapM_inv in E. induction E as [|x y l r Hxy _ IH]; intros Ha; [destruct Ha|]. destruct Ha as [<-|Ha].
  - exists y. split; [now left|exact Hxy].
  - destruct (IH Ha) as (b & Hb & Eb). exists b. split; [now right|exact Eb].
Qed.
