(* The part of a result that belongs to one series (Forecast.v). *)
From Coq Require Import ZArith String List Bool Lia Permutation Sorted.
From Verif Require Import Num Py Cal Model Normalize Fit Pi Forecast.
From Verif Require Import ListProofs NumProofs StringProofs GroupProofs NormalizeProofs FitProofs ForecastProofs ForecastProofs2 PiProofs.
Import ListNotations.
Local Open Scope string_scope.
Local Open Scope list_scope.

Section Sources.
  Context {T : Type} `{NumOps T}.
  (* the rows of one series *)
  Definition part (s : string) (r : result T) : result T :=
    mkResult (filter (fun p => String.eqb (p_src p) s) (rs_forecast r)) (filter (fun d => String.eqb (d_src d) s) (rs_data r))
      (filter (fun m => String.eqb (md_source (m_meta m)) s) (rs_meta r)).
  Definition series_of (f : frame T) (s : string) : frame T := with_rows f (filter (fun r => String.eqb (r_src r) s) (rows f)).
  Lemma shape_src (out : list (prow T)) (l : list (drow T)) s : map shape out = map dshape l -> (forall d, In d l -> d_src d = s) ->
    forall p, In p out -> p_src p = s.
  Proof.
    intros E A p Hp. apply (in_map shape) in Hp. rewrite E in Hp. apply in_map_iff in Hp as (d & Ed & Hd). unfold shape, dshape in Ed.
    injection Ed as _ Es _ _ _. rewrite <- Es. now apply A.
  Qed.
  Lemma kept_rows (t : ptable T) d : In d (kept t) -> In d (pt_rows t).
  Proof. unfold kept. destruct (pt_best t); [|auto]. intros I. now apply filter_In in I. Qed.
  Lemma pi_src draw n k q1 q2 (t : ptable T) out s : (forall d, In d (pt_rows t) -> d_src d = s) -> pi_single draw n k q1 q2 t = Ok out ->
    forall p, In p out -> p_src p = s.
  Proof.
    intros A E. destruct (pi_partition _ _ _ _ _ _ _ E) as [(_ & S)|(last & _ & S)].
    - refine (shape_src _ _ _ S _). intros d Hd. apply A. apply kept_rows. now apply filter_In in Hd.
    - rewrite <- !map_app in S. refine (shape_src _ _ _ S _). intros d Hd. apply A. apply kept_rows.
      rewrite !in_app_iff in Hd. destruct Hd as [Hd|[Hd|Hd]]; now apply filter_In in Hd.
  Qed.
  Lemma forecast_source W c s f r : run_forecast_single W c s f = Ok r -> forall p, In p (rs_forecast r) -> p_src p = s.
  Proof.
    intros K. unfold run_forecast_single in K. destruct (run_fits W c s f) as [[[w acts] fits]|] eqn:E; [|discriminate]. cbn [rbind] in K.
    pose proof (data_source _ _ _ _ _ _ _ (c_all c) E) as Sd. destruct (assemble W (c_all c) w acts fits) as [data metas] eqn:Ea. cbn [fst] in Sd.
    rewrite (get_pi_single _ _ _ _ _ _ _ s) in K by exact Sd.
    destruct (match c_ncum c with Some k => Ok k | None => days_from_freq (c_widen c) end) as [k|]; [|discriminate]. cbn [rbind] in K.
    destruct (pi_single _ _ _ _ _ _) as [pi|] eqn:Ep; [|discriminate]. cbn [rbind] in K.
    assert (r = mkResult pi data metas) as -> by congruence. cbn [rs_forecast]. refine (pi_src _ _ _ _ _ _ _ _ _ Ep). exact Sd.
  Qed.
  Lemma part_own W c s f r : run_forecast_single W c s f = Ok r -> part s r = r.
  Proof.
    intros K. destruct (result_source _ _ _ _ _ K) as [Sd Sm]. pose proof (forecast_source _ _ _ _ _ K) as Sp. destruct r as [a b c0]. unfold part.
    cbn [rs_forecast rs_data rs_meta] in *. f_equal; apply filter_all; intros x Hx; apply String.eqb_eq; auto.
  Qed.
  Lemma part_other W c u s f r : run_forecast_single W c u f = Ok r -> u <> s -> part s r = mkResult [] [] [].
  Proof.
    intros K N. destruct (result_source _ _ _ _ _ K) as [Sd Sm]. pose proof (forecast_source _ _ _ _ _ K) as Sp. unfold part.
    f_equal; apply filter_none; intros x Hx; apply String.eqb_neq; [rewrite (Sp x Hx)|rewrite (Sd x Hx)|rewrite (Sm x Hx)]; exact N.
  Qed.
  Lemma part_aggregate s (l : list (result T)) : part s (aggregate l) = aggregate (map (part s) l).
  Proof.
    unfold part, aggregate. cbn [rs_forecast rs_data rs_meta]. rewrite !map_map. cbn [rs_forecast rs_data rs_meta].
    f_equal; induction l as [|a l IH]; cbn; try reflexivity; rewrite filter_app, IH; reflexivity.
  Qed.
  Lemma aggregate_cons (a : result T) l : aggregate (a :: l) =
    mkResult (rs_forecast a ++ rs_forecast (aggregate l)) (rs_data a ++ rs_data (aggregate l)) (rs_meta a ++ rs_meta (aggregate l)).
  Proof. reflexivity. Qed.
  Lemma parts_of W c f us l s : Forall2 (fun u ru => run_forecast_single (W u) c u (series_of f u) = Ok ru) us l -> NoDup us ->
    part s (aggregate l) = match find (String.eqb s) us with Some _ => part s (aggregate l) | None => mkResult [] [] [] end /\
    (In s us -> run_forecast_single (W s) c s (series_of f s) = Ok (part s (aggregate l))).
  Proof.
    intros F N. rewrite part_aggregate. induction F as [|u ru us l Hu F IH]; [split; [reflexivity|intros []]|].
    inversion_clear N as [|? ? Nu N']. destruct (IH N') as [I1 I2]. cbn [map find]. rewrite aggregate_cons.
    destruct (String.eqb_spec s u) as [->|D].
    - split; [reflexivity|]. intros _. rewrite (part_own _ _ _ _ _ Hu).
      assert (find (String.eqb u) us = None) as Z.
      { destruct (find (String.eqb u) us) as [v|] eqn:Ev; [|reflexivity]. apply find_some in Ev as [Iv Ev]. apply String.eqb_eq in Ev. congruence. }
      rewrite Z in I1. rewrite I1. cbn [rs_forecast rs_data rs_meta]. rewrite !app_nil_r. destruct ru. exact Hu.
    - rewrite (part_other _ _ _ s _ _ Hu) by congruence. cbn [rs_forecast rs_data rs_meta app].
      assert (mkResult (rs_forecast (aggregate (map (part s) l))) (rs_data (aggregate (map (part s) l))) (rs_meta (aggregate (map (part s) l))) =
              aggregate (map (part s) l)) as -> by reflexivity.
      split; [exact I1|]. intros [C|I]; [congruence|now apply I2].
  Qed.
  (* a run on a table with several series, series by series *)
  Theorem run_part (W : string -> world T) c id t f r s : t_src t = true -> normalize_df t = Ok (Some f) ->
    run_forecast W c id t = Ok (Some r) -> In s (sorted_sources t) -> run_forecast_single (W s) c s (series_of f s) = Ok (part s r).
  Proof.
    intros Hs E K Hin. destruct (frame_sources t f Hs E) as (Ed & Eh & J).
    unfold run_forecast in K. rewrite E in K. cbn [rbind] in K. rewrite Eh in K. cbn [negb] in K. rewrite Ed in K.
    destruct (rmapM _ _) as [l|] eqn:El; [|discriminate]. cbn [rbind] in K. assert (r = aggregate l) as -> by congruence. apply rmapM_inv in El.
    assert (N : NoDup (sorted_sources t)).
    { unfold sorted_sources. eapply Permutation_NoDup; [apply isort_perm|]. apply (dedup_nodup String.eqb str_eqb_spec). }
    exact (proj2 (parts_of W c f _ l s El N) Hin).
  Qed.
  Theorem restrict_part (W : string -> world T) c id t f r s : t_src t = true -> normalize_df t = Ok (Some f) ->
    run_forecast W c id t = Ok (Some r) -> In s (sorted_sources t) -> run_forecast W c id (restrict t s) = Ok (Some (part s r)).
  Proof.
    intros Hs E K Hin. pose proof (run_part W c id t f r s Hs E K Hin) as P. destruct (frame_sources t f Hs E) as (_ & _ & J).
    rewrite (run_one_source W c id t f s Hs E) by (now apply J). fold (series_of f s). now rewrite P.
  Qed.
  Theorem part_none (W : string -> world T) c id t r s : t_src t = true -> run_forecast W c id t = Ok (Some r) ->
    ~ In s (sorted_sources t) -> part s r = mkResult [] [] [].
  Proof.
    intros Hs K Hin. unfold run_forecast in K. destruct (normalize_df t) as [[f|]|] eqn:E; cbn [rbind] in K; try discriminate.
    destruct (frame_sources t f Hs E) as (Ed & Eh & J). rewrite Eh in K. cbn [negb] in K. rewrite Ed in K.
    destruct (rmapM _ _) as [l|] eqn:El; [|discriminate]. cbn [rbind] in K. assert (r = aggregate l) as -> by congruence. apply rmapM_inv in El.
    assert (N : NoDup (sorted_sources t)).
    { unfold sorted_sources. eapply Permutation_NoDup; [apply isort_perm|]. apply (dedup_nodup String.eqb str_eqb_spec). }
    rewrite (proj1 (parts_of W c f _ l s El N)). destruct (find (String.eqb s) (sorted_sources t)) as [v|] eqn:Ev; [|reflexivity].
    apply find_some in Ev as [Iv Ev]. apply String.eqb_eq in Ev. subst v. contradiction.
  Qed.
End Sources.
