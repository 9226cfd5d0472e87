(* Proofs about inputs of a list of forecasts (C76). *)
From Coq Require Import ZArith String List Bool Lia QArith_base.
From Verif Require Import Num Py Cal Model Base Freq Normalize Fit Interp Select Outliers Pi Forecast Input.
From Verif Require Import ListProofs NormalizeProofs SelectProofs ForecastProofs ForecastProofs2 ExtendProofs.
Import ListNotations.
Local Open Scope string_scope.
Local Open Scope list_scope.
Local Open Scope Z_scope.

Section I.
  Context {T : Type} `{NumOps T}.
  Notation M := (fmodel T).

  (* ---------- specification ---------- *)
  (* the forecast of one input, on its own *)
  Definition input_alone (W : nat -> string -> world T) (sh : shared) (p : nat * forecast_input T) : res (option (result T)) :=
    run_forecast (W (fst p)) (input_config sh (snd p)) (in_id (snd p)) (in_table (snd p)).
  (* c with other trend models *)
  Definition set_trend (l : option (list M)) (c : config T) : config T :=
    mkCfg l (c_season c) (c_start c) (c_years c) (Forecast.c_mode c) (c_all c) (c_outliers c) (c_yearly c) (c_weekly c)
      (c_naive c) (c_calendar c) (c_ncum c) (c_q1 c) (c_q2 c) (c_widen c) (c_cache c).
  (* no series of the table is longer than two years of 365 days *)
  Definition brief (t : raw T) : Prop := has_date_after t = true ->
    forall q q', In q (t_rows t) -> In q' (t_rows t) -> gkey t q = gkey t q' -> qdate t q - qdate t q' <= 730 * DAY.

  Lemma enum_from_map {A B} (g : A -> B) l : forall n, enum_from n (map g l) = map (fun p => (fst p, g (snd p))) (enum_from n l).
  Proof. induction l as [|a l IH]; intros n; [reflexivity|]. cbn. now rewrite IH. Qed.
  Theorem inputs_ok W sh l r : run_inputs W sh l = Ok r <->
    l <> [] /\ exists rs, Forall2 (fun p x => input_alone W sh p = Ok (Some x)) (enumerate l) rs /\ r = aggregate rs.
  Proof.
    unfold run_inputs. rewrite list_ok. unfold enumerate. rewrite enum_from_map.
    assert (E : forall (g : nat * forecast_input T -> nat * (config T * string * raw T)) k (rs : list (result T)),
      Forall2 (fun p x => runs W p = Ok (Some x)) (map g k) rs <-> Forall2 (fun p x => runs W (g p) = Ok (Some x)) k rs).
    { intros g k. induction k as [|a k IH]; intros rs; cbn.
      - split; intros F; inversion F; constructor.
      - split; intros F; inversion F; subst; constructor; auto; now apply IH. }
    split; intros (Hl & rs & F & Er); (split; [intros ->; now apply Hl|]) || (split; [destruct l; [congruence|discriminate]|]);
      exists rs; (split; [|exact Er]).
    - apply E in F. exact F.
    - apply E. exact F.
  Qed.
  Theorem input_one W sh i : run_input W sh i = match input_alone W sh (0%nat, i) with
    | Ok (Some r) => Ok r | Ok None => Err TypeError | Err e => Err e end.
  Proof.
    unfold run_input, run_inputs. cbn [map]. rewrite list_one. unfold input_alone. cbn [fst snd].
    destruct (run_forecast _ _ _ _) as [[r|]|e]; reflexivity.
  Qed.

  Lemma weights_unused W sh l l' : Forall2 (fun i j => mkInput (in_id i) (in_table i) (in_trend i) (in_season i) n0 (in_start i) =
      mkInput (in_id j) (in_table j) (in_trend j) (in_season j) n0 (in_start j)) l l' ->
    run_inputs W sh l = run_inputs W sh l'.
  Proof.
    intros F. unfold run_inputs. f_equal. induction F as [|i j l l' E F IH]; [reflexivity|]. cbn. rewrite IH. f_equal.
    unfold input_config. congruence.
  Qed.

  (* ---------- the default trend ---------- *)
  Lemma ramp_off c t f f1 rs : brief t -> normalize_df t = Ok (Some f) ->
    (forall q q', In q rs -> In q' rs -> In q (rows f) /\ In q' (rows f) /\ (has_src f = true -> r_src q = r_src q')) ->
    prepared c (with_rows f rs) = Ok f1 -> use_ramp (with_weights f1) = false.
  Proof.
    intros B En Hr Ep. unfold use_ramp. destruct (has_date (with_weights f1)) eqn:Hd; [|reflexivity]. cbn [andb].
    destruct (date_span (weighted_dates (with_weights f1))) as [s|] eqn:Es; [|reflexivity].
    apply Z.ltb_ge. apply Z.nlt_ge. intros K.
    pose proof (date_span_spec (weighted_dates (with_weights f1)) (730 * DAY)) as P. rewrite Es in P. apply P in K.
    destruct K as (a & b & Ia & Ib & L).
    assert (Dt : has_date f = true).
    { destruct (prepared_places _ _ _ Ep) as (_ & Hd'). unfold with_weights in Hd. cbn in Hd'. destruct (has_w f1); cbn in Hd; congruence. }
    assert (Src : forall d, In d (weighted_dates (with_weights f1)) -> exists q, In q rs /\ r_date q = d).
    { intros d I. unfold weighted_dates in I. apply in_map_iff in I as (q & <- & I).
      assert (I' : In q (rows (with_weights f1))). { destruct (has_w (with_weights f1)); [apply filter_In in I; tauto|exact I]. }
      destruct (weighted_rows _ _ I') as (q1 & I1 & S1). destruct (prepared_rows _ _ _ _ Ep I1) as (q0 & I0 & S0).
      exists q0. split; [|unfold same_sample in *; intuition congruence].
      unfold start_filter in I0. destruct (c_start c); cbn [has_date with_rows] in I0; [|exact I0].
      rewrite Dt in I0. cbn in I0. apply filter_In in I0. tauto. }
    destruct (Src a Ia) as (qa & Ja & <-), (Src b Ib) as (qb & Jb & <-).
    destruct (Hr qa qb Ja Jb) as (Ka & Kb & Ks).
    assert (Hn : t_rows t <> []). { intros E0. unfold normalize_df in En. rewrite E0 in En. discriminate. }
    assert (Hy : t_y t = true). { destruct (t_y t) eqn:Ey; [reflexivity|]. unfold normalize_df in En. rewrite Ey in En. destruct (t_rows t); discriminate. }
    destruct (normalize_ok t Hn Hy) as (rs0 & En' & Pm & _). rewrite En in En'. injection En' as Ef. subst f. cbn [rows has_date has_src] in *.
    assert (From : forall q, In q rs0 -> exists p, In p (t_rows t) /\ qdate t p = r_date q /\ r_src (q_row p) = r_src q).
    { intros q I. apply (Permutation.Permutation_in _ Pm) in I. apply in_map_iff in I as ((i & p) & <- & I).
      exists p. split; [|split; reflexivity]. apply (in_map snd) in I. unfold enumerate in I. rewrite enum_snd in I. exact I. }
    destruct (From qa Ka) as (pa & Ipa & Epa & Espa), (From qb Kb) as (pb & Ipb & Epb & Espb).
    assert (G : gkey t pb = gkey t pa). { unfold gkey. destruct (t_src t); [|reflexivity]. specialize (Ks eq_refl). congruence. }
    specialize (B Dt pb pa Ipb Ipa G). lia.
  Qed.
  Lemma fits_default W c s t f rs : brief t -> normalize_df t = Ok (Some f) ->
    (forall q q', In q rs -> In q' rs -> In q (rows f) /\ In q' (rows f) /\ (has_src f = true -> r_src q = r_src q')) ->
    run_forecast_single W (set_trend None c) s (with_rows f rs) = run_forecast_single W (set_trend (Some [model_linear]) c) s (with_rows f rs).
  Proof.
    intros B En Hr.
    assert (E : run_fits W (set_trend None c) s (with_rows f rs) = run_fits W (set_trend (Some [model_linear]) c) s (with_rows f rs)).
    { unfold run_fits. change (prepared (set_trend None c) (with_rows f rs)) with (prepared c (with_rows f rs)).
      change (prepared (set_trend (Some [model_linear]) c) (with_rows f rs)) with (prepared c (with_rows f rs)).
      destruct (prepared c (with_rows f rs)) as [f1|] eqn:Ep; [|reflexivity]. cbn [rbind].
      assert (C : candidate_lists (set_trend None c) (with_weights f1) = candidate_lists (set_trend (Some [model_linear]) c) (with_weights f1)).
      { unfold candidate_lists. cbn [c_trend set_trend c_season c_calendar]. unfold default_trend. now rewrite (ramp_off c t f f1 rs B En Hr Ep). }
      rewrite C. reflexivity. }
    unfold run_forecast_single. rewrite E. reflexivity.
  Qed.
  Lemma with_rows_self (f : frame T) : with_rows f (rows f) = f.
  Proof. now destruct f. Qed.
  Theorem default_brief (W : string -> world T) c id t : brief t ->
    run_forecast W (set_trend None c) id t = run_forecast W (set_trend (Some [model_linear]) c) id t.
  Proof.
    intros B. unfold run_forecast. destruct (normalize_df t) as [[f|]|] eqn:En; [|reflexivity|reflexivity]. cbn [rbind].
    destruct (has_src f) eqn:Hs; cbn [negb].
    - f_equal. apply rmapM_ext. intros s _. apply (fits_default _ _ _ t f _ B En).
      intros q q' I I'. apply filter_In in I as [I Es], I' as [I' Es']. apply String.eqb_eq in Es, Es'. repeat split; auto. congruence.
    - rewrite <- (with_rows_self f). rewrite (fits_default _ _ _ t f (rows f) B En); [reflexivity|].
      intros q q' I I'. repeat split; auto. congruence.
  Qed.

  (* ---------- no trend at all ---------- *)
  Theorem no_trend_lists c (f : frame T) l : c_trend c = Some [] -> c_season c = Some l -> c_calendar c = None ->
    candidate_lists c f = (dedup model_eqb l, dedup model_eqb l).
  Proof. intros E1 E2 E3. unfold candidate_lists, list_model. rewrite E1, E2, E3. destruct l; reflexivity. Qed.
End I.
