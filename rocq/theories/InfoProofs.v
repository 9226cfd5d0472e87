(* Proofs about the table optimize_info (C77). *)
From Coq Require Import ZArith String List Bool Lia QArith_base.
From Verif Require Import Num Py Cal Fmt Model Fixed Freq Aic Normalize Fit Interp Select Outliers Pi Forecast Info.
From Verif Require Import ListProofs ForecastProofs ForecastProofs2 ExtendProofs.
Import ListNotations.
Local Open Scope string_scope.
Local Open Scope list_scope.

Section I.
  Context {T : Type} `{NumOps T}.
  Notation M := (fmodel T).

  (* ---------- specification ---------- *)
  (* what the columns of a row say about the attempt *)
  Inductive attempt (V : viewer T) (E : env T) (d : meta T) (i : info T) : Prop :=
  | never_tried : (md_status d = "TS_TOO_SHORT" \/ md_status d = "INPUT_ERR") -> md_fit d = false ->
      io_status i = Text (md_status d) -> io_message i = md_status d -> io_params_str i = "[]" -> io_params i = SList [] ->
      io_optimality i = None -> io_iterations i = None -> io_jac i = None -> attempt V E d i
  | nothing_to_fit : fm_n (md_obj d) = 0%nat -> md_status d = "FIT" -> md_fit d = true ->
      io_status i = Num 0 -> io_message i = "Naive model fitted" -> io_params_str i = v_arr V [] -> io_params i = SDash ->
      io_optimality i = Some n0 -> io_iterations i = Some 0%Z -> io_jac i = Some 0%Z -> attempt V E d i
  | optimized residuals g b : fm_n (md_obj d) <> 0%nat -> md_status d = (if md_fit d then "FIT" else "NO-FIT") ->
      e_lsq E residuals g b = LDone (md_fit d) (md_cost d) (md_params d) ->
      let o := v_report V residuals g b in
      io_status i = Num (so_status o) -> io_message i = so_message o -> io_params_str i = v_arr V (md_params d) ->
      io_params i = SList (md_params d) -> io_optimality i = Some (so_optimality o) -> io_iterations i = Some (so_nfev o) ->
      io_jac i = Some (so_njev o) -> attempt V E d i
  | singular residuals g b : fm_n (md_obj d) <> 0%nat -> md_status d = "NO-FIT" -> md_fit d = false -> md_params d = [] ->
      e_lsq E residuals g b = LRaise LinAlgError ->
      io_status i = Num 0 -> io_message i = "LinAlgError" -> io_params_str i = v_arr V [] -> io_params i = SNone ->
      io_optimality i = Some n0 -> io_iterations i = Some 0%Z -> io_jac i = Some 0%Z -> attempt V E d i.
  (* the row of optimize_info that belongs to a row of the metadata table *)
  Record describes (V : viewer T) (E : env T) (d : meta T) (i : info T) : Prop := {
    d_source : io_source i = md_source d;
    d_model_obj : io_model i = md_obj d;
    d_success : io_success i = md_fit d;
    d_cost : io_cost i = md_cost d;
    d_source_long : io_long i = md_source_long d;
    d_attempt : attempt V E d i }.

  (* ---------- one fit ---------- *)
  Lemma report_result V E m a_x a_y d a_w act uc :
    optimize_least_squares E m a_x a_y d a_w act uc = rbind (optimize_report V E m a_x a_y d a_w act uc) (fun p => Ok (fst p)).
  Proof.
    unfold optimize_least_squares, optimize_report.
    destruct (fm_init m _ _ _ _ _) as [g|]; [|reflexivity]. cbn [rbind].
    destruct (fm_bounds m _ _ _) as [b|]; [|reflexivity]. cbn [rbind].
    destruct (validate_initial_guess g b) as [[]|]; [|reflexivity|reflexivity]. cbn [rbind negb].
    destruct (if uc then init_cache m a_x d else Ok []) as [cache|]; [|reflexivity]. cbn [rbind].
    destruct (e_lsq E _ g b) as [s c x|[]]; reflexivity.
  Qed.
  Lemma full_result V E m f freq source act uc :
    rbind (fit_model_full V E m f freq source act uc) (fun p => Ok (fst p)) = fit_model E m f freq source act uc.
  Proof.
    unfold fit_model, fit_model_with, fit_model_full.
    destruct (range_label E _ _) as [range|]; [|reflexivity]. cbn [rbind].
    destruct (Nat.ltb _ _); [reflexivity|].
    destruct (validate_input m _ _ _) as [[]|]; [|reflexivity|reflexivity]. cbn [rbind negb].
    destruct (simplify_model _ m _ _ _) as [ms|]; [|reflexivity]. cbn [rbind].
    destruct (Nat.eqb (fm_n ms) 0).
    - destruct (get_residuals None ms _ _ _ _ _ _) as [r|]; [|reflexivity]. cbn [rbind].
      destruct (get_aic_c _ _ _); reflexivity.
    - rewrite (report_result V).
      destruct (optimize_report V E ms _ _ _ _ _ _) as [[[[s c] p] o]|]; [|reflexivity]. cbn [rbind fst].
      destruct (get_aic_c _ _ _); reflexivity.
  Qed.
  Theorem full_describes V E m f freq source act uc d i : fit_model_full V E m f freq source act uc = Ok (d, i) ->
    describes V E d i.
  Proof.
    unfold fit_model_full.
    destruct (range_label E _ _) as [range|]; [|discriminate]. cbn [rbind].
    destruct (Nat.ltb _ _).
    { intros K. injection K as <- <-. split; try reflexivity. apply never_tried; auto. }
    destruct (validate_input m _ _ _) as [[]|]; [| |discriminate]; cbn [rbind negb].
    2:{ intros K. injection K as <- <-. split; try reflexivity. apply never_tried; auto. }
    destruct (simplify_model _ m _ _ _) as [ms|]; [|discriminate]. cbn [rbind].
    destruct (Nat.eqb (fm_n ms) 0) eqn:En.
    - destruct (get_residuals None ms _ _ _ _ _ _) as [r|]; [|discriminate]. cbn [rbind].
      destruct (get_aic_c _ _ _); [|discriminate]. cbn [rbind]. intros K. injection K as <- <-. split; try reflexivity.
      apply nothing_to_fit; try reflexivity. now apply Nat.eqb_eq.
    - apply Nat.eqb_neq in En.
      destruct (optimize_report V E ms _ _ _ _ _ _) as [[[[s c] p] o]|] eqn:Eo; [|discriminate]. cbn [rbind].
      destruct (get_aic_c _ _ _); [|discriminate]. cbn [rbind]. intros K. injection K as <- <-. split; try reflexivity.
      unfold optimize_report in Eo.
      destruct (fm_init ms _ _ _ _ _) as [g|]; [|discriminate]. cbn [rbind] in Eo.
      destruct (fm_bounds ms _ _ _) as [b|]; [|discriminate]. cbn [rbind] in Eo.
      destruct (validate_initial_guess g b) as [[]|]; [|discriminate|discriminate]. cbn [rbind negb] in Eo.
      destruct (if uc then init_cache ms _ _ else Ok []) as [cache|]; [|discriminate]. cbn [rbind] in Eo.
      destruct (e_lsq E _ g b) as [s' c' x|e] eqn:El.
      + injection Eo as <- <- <- <-. eapply optimized; try reflexivity; [exact En|exact El].
      + destruct e; try discriminate. injection Eo as <- <- <- <-. eapply singular; try reflexivity; [exact En|exact El].
  Qed.
  Lemma full_exists V E m f freq source act uc d : fit_model E m f freq source act uc = Ok d ->
    exists i, fit_model_full V E m f freq source act uc = Ok (d, i).
  Proof.
    rewrite <- (full_result V). destruct (fit_model_full _ _ _ _ _ _ _ _) as [[d' i]|]; [|discriminate]. cbn. intros [= ->]. eauto.
  Qed.

  (* ---------- one series ---------- *)
  Lemma describes_weights V E w d i : describes V E d i -> describes V E (set_weights w d) i.
  Proof.
    intros [A B C D F G]. split; auto. destruct G as [S1 S2 S3 S4 S5 S6 S7 S8 S9|S1 S2 S3 S4 S5 S6 S7 S8 S9 S10|r g b S1 S2 S3 o S4 S5 S6 S7 S8 S9 S10|r g b S1 S2 S3 S4 S5 S6 S7 S8 S9 S10 S11 S12].
    - now apply never_tried.
    - now apply nothing_to_fit.
    - now apply (optimized V E (set_weights w d) i r g b).
    - now apply (singular V E (set_weights w d) i r g b).
  Qed.
  Theorem single_described V W c source f r : run_forecast_single W (set_all true c) source f = Ok r ->
    exists l, single_info V W c source f = Ok l /\ Forall2 (fun m i => md_source (m_meta m) = source /\ describes V (w_env W) (m_meta m) i) (rs_meta r) l.
  Proof.
    intros K. destruct (single_result _ _ _ _ _ K) as (w & acts & fits & Ef & Ea & _). unfold assemble in Ea. injection Ea as _ Em.
    destruct (run_fits_inv _ _ _ _ _ _ _ Ef) as (f1 & range & mode & act & start & stop & x0 & Ep & _ & _ & _ & Emo & Eac & _ & _ & _ & _ & F).
    unfold single_info. rewrite Ep. cbn [rbind]. destruct (candidate_lists c (with_weights f1)) as [add mult]. rewrite Emo. cbn [rbind].
    rewrite Eac. cbn [rbind fst snd] in *. rewrite <- Em. clear Em K Ef.
    set (bf := best_fit _ _) in *. clearbody bf.
    induction F as [|m p ms ps E F IH]; [exists []; split; [reflexivity|constructor]|].
    destruct IH as (l & El & Fl). cbn [rmapM map].
    unfold fit_one in E. destruct (fit_model _ _ _ _ _ _ _) as [d|] eqn:Ed; [|discriminate]. cbn [rbind] in E.
    assert (Hp : fst (fst p) = d).
    { destruct (md_fit d); [|now injection E as <-]. destruct (extrapolate_model _ _ _ _ _ _ _); [|discriminate]. cbn [rbind] in E. now injection E as <-. }
    destruct (full_exists V _ _ _ _ _ _ _ _ Ed) as (i & Ei). rewrite Ei. cbn [rbind]. rewrite El. cbn [rbind].
    exists (i :: l). split; [reflexivity|]. constructor; [|exact Fl]. cbn [m_meta flag_meta]. rewrite Hp. split; [now apply (fit_source _ _ _ _ _ _ _ _ Ed)|]. apply describes_weights.
    now apply (full_describes V _ _ _ _ _ _ _ _ _ Ei).
  Qed.
  Lemma info_all b V W c source f : single_info V W (set_all b c) source f = single_info V W c source f.
  Proof. reflexivity. Qed.

  (* ---------- whole forecasts ---------- *)
  Theorem info_switch b V W c id t : forecast_info V W (set_all b c) id t = forecast_info V W c id t.
  Proof. reflexivity. Qed.
  Theorem forecast_described V (W : string -> world T) c id t r : run_forecast W (set_all true c) id t = Ok (Some r) ->
    exists l, forecast_info V W c id t = Ok (Some l) /\
      Forall2 (fun m i => describes V (w_env (W (md_source (m_meta m)))) (m_meta m) i) (rs_meta r) l.
  Proof.
    unfold run_forecast, forecast_info. destruct (normalize_df t) as [[f|]|]; [|discriminate|discriminate]. cbn [rbind].
    destruct (has_src f); cbn [negb].
    - set (ss := dedup _ _). clearbody ss.
      assert (G : forall rs, rmapM (fun s => run_forecast_single (W s) (set_all true c) s (with_rows f (filter (fun r0 => String.eqb (r_src r0) s) (rows f)))) ss = Ok rs ->
        exists ls, rmapM (fun s => single_info V (W s) c s (with_rows f (filter (fun r0 => String.eqb (r_src r0) s) (rows f)))) ss = Ok ls /\
          Forall2 (fun m i => describes V (w_env (W (md_source (m_meta m)))) (m_meta m) i) (concat (map rs_meta rs)) (concat ls)).
      { induction ss as [|s ss IH]; intros rs E; cbn [rmapM] in E |- *.
        - injection E as <-. exists []. split; [reflexivity|constructor].
        - destruct (run_forecast_single _ _ _ _) as [r1|] eqn:E1; [|discriminate]. cbn [rbind] in E.
          destruct (rmapM _ ss) as [rs1|] eqn:E2 in E; [|discriminate]. cbn [rbind] in E. injection E as <-.
          destruct (single_described V _ _ _ _ _ E1) as (l1 & El1 & F1). rewrite El1. cbn [rbind].
          destruct (IH _ E2) as (ls & Els & Fls). rewrite Els. cbn [rbind]. exists (l1 :: ls). split; [reflexivity|].
          cbn [map concat]. apply Forall2_app; [|exact Fls]. eapply Forall2_impl'; [|exact F1]. cbn. intros a b [-> K]. exact K. }
      destruct (rmapM _ ss) as [rs|] eqn:E; [|discriminate]. cbn [rbind]. intros [= <-].
      destruct (G _ eq_refl) as (ls & Els & Fl). rewrite Els. cbn [rbind]. eexists. split; [reflexivity|]. exact Fl.
    - destruct (run_forecast_single _ _ _ _) as [r1|] eqn:E1; [|discriminate]. cbn [rbind]. intros [= <-].
      destruct (single_described V _ _ _ _ _ E1) as (l1 & El1 & F1). rewrite El1. cbn [rbind]. exists l1. split; [reflexivity|].
      eapply Forall2_impl'; [|exact F1]. cbn. intros a b [-> K]. exact K.
  Qed.
  (* the candidates left in the metadata table when only the best fit is asked for *)
  Theorem selected_described V (W : string -> world T) c id t r : run_forecast W (set_all false c) id t = Ok (Some r) ->
    exists l, forecast_info V W (set_all false c) id t = Ok (Some l) /\
      exists all, Forall2 (fun m i => describes V (w_env (W (md_source (m_meta m)))) (m_meta m) i) all l /\
        rs_meta r = filter (fun m => m_best m) all.
  Proof.
    intros K.
    assert (G : exists r', run_forecast W (set_all true c) id t = Ok (Some r') /\ rs_meta r = filter (fun m => m_best m) (rs_meta r')).
    { revert K. unfold run_forecast. destruct (normalize_df t) as [[f|]|]; [|discriminate|discriminate]. cbn [rbind].
      destruct (has_src f); cbn [negb].
      - set (ss := dedup _ _). clearbody ss. set (part := fun s => with_rows f (filter (fun r0 => String.eqb (r_src r0) s) (rows f))).
        assert (G : forall rs, rmapM (fun s => run_forecast_single (W s) (set_all false c) s (part s)) ss = Ok rs ->
          exists rs', rmapM (fun s => run_forecast_single (W s) (set_all true c) s (part s)) ss = Ok rs' /\
            concat (map rs_meta rs) = filter (fun m => m_best m) (concat (map rs_meta rs'))).
        { induction ss as [|s ss IH]; intros rs E; cbn [rmapM] in E |- *.
          - injection E as <-. exists []. split; reflexivity.
          - rewrite all_fits_switch in E. destruct (run_forecast_single (W s) (set_all true c) s (part s)) as [r1|]; [|discriminate]. cbn in E.
            destruct (rmapM _ ss) as [rs1|] eqn:E2 in E; [|discriminate]. cbn [rbind] in E. injection E as <-.
            destruct (IH _ E2) as (rs2 & -> & E3). cbn [rbind]. exists (r1 :: rs2). split; [reflexivity|].
            cbn [map concat]. rewrite filter_app, <- E3. reflexivity. }
        destruct (rmapM (fun s => run_forecast_single (W s) (set_all false c) s _) ss) as [rs|] eqn:E; [|discriminate]. cbn [rbind]. intros [= <-].
        destruct (G _ eq_refl) as (rs' & E' & Em). unfold part in E'. rewrite E'. cbn [rbind]. eexists. split; [reflexivity|]. exact Em.
      - rewrite all_fits_switch. destruct (run_forecast_single _ _ _ _) as [r1|]; [|discriminate]. cbn. intros [= <-].
        eexists. split; reflexivity. }
    destruct G as (r' & E & Em). destruct (forecast_described V W c id t r' E) as (l & El & F). exists l. split; [exact El|].
    exists (rs_meta r'). split; [exact F|exact Em].
  Qed.
End I.
