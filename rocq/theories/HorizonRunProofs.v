(* A longer horizon only appends, for the whole forecast: proofs for C88. *)
From Coq Require Import ZArith QArith String List Bool Lia Sorting Permutation.
From Verif Require Import Num Py Cal Fmt Model Base Freq Normalize Fit Outliers Pi Forecast FreqProofs ForecastProofs ForecastProofs2 HorizonProofs.
Import ListNotations.
Local Open Scope string_scope.
Local Open Scope list_scope.
Local Open Scope Z_scope.

Section HorizonRun.
  Context {T : Type} `{N : NumOps T}.

  Definition set_years (y : Q) (c : config T) : config T :=
    mkCfg (c_trend c) (c_season c) (c_start c) y (c_mode c) (c_all c) (c_outliers c) (c_yearly c) (c_weekly c)
      (c_naive c) (c_calendar c) (c_ncum c) (c_q1 c) (c_q2 c) (c_widen c) (c_cache c).

  (* one candidate under two horizons *)
  Record both := mkBoth { b_model : fmodel T; b_short : list (drow T); b_long : list (drow T) }.
  Definition after (l : list (drow T)) (d : drow T) : Prop := Forall (fun a => d_date a < d_date d) l.
  Definition appended (y : Q) (acts short long : list (drow T)) : Prop :=
    exists rest, long = short ++ rest /\ ((0 < y)%Q -> Forall (after acts) rest).
  Definition forecast_of (s : string) (m : fmodel T) (d : drow T) : Prop :=
    d_actual d = false /\ d_src d = s /\ d_model d = fm_name m /\ d_w d = n1.

  Lemma clean_app l l' s lo mo : fcast_clean (T := T) (l ++ l') s lo mo = fcast_clean l s lo mo ++ fcast_clean l' s lo mo.
  Proof. unfold fcast_clean. now rewrite filter_app, map_app. Qed.
  Lemma clean_rows l s lo m : Forall (forecast_of s m) (fcast_clean l s lo (fm_name m)).
  Proof. apply Forall_forall. intros d I. apply in_map_iff in I as (q & <- & _). repeat split. Qed.
  Lemma clean_dates l s lo mo (P : Z -> Prop) : Forall (fun q => P (fst q)) l -> Forall (fun d => P (d_date d)) (fcast_clean l s lo mo).
  Proof.
    rewrite !Forall_forall. intros F d I. apply in_map_iff in I as (q & <- & I). apply filter_In in I as [I _]. now apply F.
  Qed.
  (* the extrapolation over more years starts with the one over fewer, and what is added comes after the
     last sample *)
  Definition extends (o : origin) (freq : option string) (y y' : Q) (x0 : Z) (act : frame T) (m : fmodel T) : Prop :=
    forall p l l', extrapolate_model m p o freq y x0 (Some act) = Ok l -> extrapolate_model m p o freq y' x0 (Some act) = Ok l' ->
      exists rest, l' = l ++ rest /\ ((0 < y)%Q -> Forall (fun q => stop_of o < fst q) rest).
  Lemma causal_extends o freq (y y' : Q) x0 act m : (y <= y')%Q -> causal m -> extends o freq y y' x0 act m.
  Proof. intros L C p l l'. exact (extrapolation_prefix _ _ _ _ _ _ _ _ _ _ C L). Qed.
  Lemma fit_one_longer W c s mode freq la u act o x0 m (y y' : Q) p p' : (y <= y')%Q ->
    fit_one W (set_years y c) s mode freq la u act o x0 m = Ok p -> fit_one W (set_years y' c) s mode freq la u act o x0 m = Ok p' ->
    fst p = fst p' /\ Forall (forecast_of s m) (snd p) /\ Forall (forecast_of s m) (snd p') /\
    (extends o freq y y' x0 act m -> exists rest, snd p' = snd p ++ rest /\ ((0 < y)%Q -> Forall (fun d => stop_of o < d_date d) rest)).
  Proof.
    intros L. unfold fit_one. cbn [set_years c_cache c_years].
    destruct (fit_model _ _ _ _ _ _ _) as [d|]; [|discriminate]. cbn [rbind]. destruct (md_fit d).
    - destruct (extrapolate_model m _ o freq y x0 _) as [g|] eqn:G; [|discriminate]. cbn [rbind]. intros E; apply ok_eq in E as ->.
      destruct (extrapolate_model m _ o freq y' x0 _) as [g'|] eqn:G'; [|discriminate]. cbn [rbind]. intros E; apply ok_eq in E as ->. cbn [fst snd].
      split; [reflexivity|]. split; [apply clean_rows|]. split; [apply clean_rows|]. intros C.
      destruct (C _ _ _ G G') as (rest & -> & R). rewrite clean_app. eexists. split; [reflexivity|].
      intros P. now apply clean_dates, R.
    - intros E E'; apply ok_eq in E as ->; apply ok_eq in E' as ->. cbn [fst snd]. split; [reflexivity|]. split; [constructor|]. split; [constructor|].
      intros _. exists []. split; [reflexivity|]. constructor.
  Qed.
  Lemma Forall2_two {A B C} (R : A -> B -> Prop) (R' : A -> C -> Prop) l l1 l2 : Forall2 R l l1 -> Forall2 R' l l2 ->
    exists es : list (A * B * C), map (fun e => fst (fst e)) es = l /\ map (fun e => snd (fst e)) es = l1 /\ map snd es = l2 /\
      Forall (fun e => R (fst (fst e)) (snd (fst e)) /\ R' (fst (fst e)) (snd e)) es.
  Proof.
    intros F. revert l2. induction F as [|a b l l1 Hab F IH]; intros l2 F2.
    - inversion_clear F2. exists []. repeat split. constructor.
    - destruct l2 as [|x l2]; [inversion F2|]. assert (Hx : R' a x) by now inversion F2. assert (F3 : Forall2 R' l l2) by now inversion F2. clear F2. rename F3 into F2. destruct (IH l2 F2) as (es & <- & <- & <- & Fe).
      exists ((a, b, x) :: es). cbn. repeat split. constructor; [split; assumption|exact Fe].
  Qed.
  (* flagging rows as belonging to the best fit keeps what they show *)
  Lemma flag_appended b y acts short long : appended y acts short long ->
    appended y (map (flag_data b) acts) (map (flag_data b) short) (map (flag_data b) long).
  Proof.
    intros (rest & -> & R). exists (map (flag_data b) rest). rewrite map_app. split; [reflexivity|]. intros P. specialize (R P).
    apply Forall_map. cbn. refine (Forall_impl _ _ R). intros d A. unfold after in *. apply Forall_map. cbn. exact A.
  Qed.
  Theorem run_longer_at W c s f (y y' : Q) r r' : (y <= y')%Q ->
    run_forecast_single W (set_all true (set_years y c)) s f = Ok r ->
    run_forecast_single W (set_all true (set_years y' c)) s f = Ok r' ->
    rs_meta r' = rs_meta r /\
    exists f1 mode acts (es : list both) best act start stop x0,
      (model_actuals f (positive (with_weights f1)) = Ok act /\
       zmin_opt (map (place (with_weights f1)) (rows (positive (with_weights f1)))) = Some start /\
       zmax_opt (map (place (with_weights f1)) (rows (with_weights f1))) = Some stop /\
       zmin_opt (map r_x (rows (positive (with_weights f1)))) = Some x0) /\
      prepared c f = Ok f1 /\ final_mode W c (with_weights f1) = Ok mode /\
      map b_model es = all_models c mode (detect_freq_frame f) (fst (candidate_lists c (with_weights f1)))
                         (snd (candidate_lists c (with_weights f1))) /\
      rs_data r = acts ++ concat (map b_short es) /\ rs_data r' = acts ++ concat (map b_long es) /\
      Forall (fun d => d_actual d = true /\ d_src d = s) acts /\
      Forall (fun e => Forall (forecast_of s (b_model e)) (b_short e) /\ Forall (forecast_of s (b_model e)) (b_long e) /\
                (extends (start_of f start stop) (detect_freq_frame f) y y' x0 act (b_model e) -> appended y acts (b_short e) (b_long e))) es /\
      Forall (fun d => d_best d = true -> d_model d = best) (concat (map b_short es) ++ concat (map b_long es)).
  Proof.
    intros L K K'. destruct (single_result _ _ _ _ _ K) as (w & acts & fits & E & Ea & _).
    destruct (single_result _ _ _ _ _ K') as (w' & acts' & fits' & E' & Ea' & _).
    destruct (run_fits_inv _ _ _ _ _ _ _ E) as (f1 & range & mode & act & st & sp & x0 & Ep & Ew & Er & -> & Em & Eact & Est & Esp & Ex0 & _ & F).
    destruct (run_fits_inv _ _ _ _ _ _ _ E') as (f1' & range' & mode' & act' & st' & sp' & x0' & Ep' & Ew' & Er' & -> & Em' & Eact' & Est' & Esp' & Ex0' & _ & F').
    change (prepared (set_years y' c) f) with (prepared c f) in Ep'. change (prepared (set_years y c) f) with (prepared c f) in Ep.
    rewrite Ep in Ep'. injection Ep' as <-. rewrite <- Ew in Ew'. subst w'.
    rewrite Er in Er'. injection Er' as <-.
    change (final_mode W (set_years y' c) (with_weights f1)) with (final_mode W c (with_weights f1)) in Em'.
    change (final_mode W (set_years y c) (with_weights f1)) with (final_mode W c (with_weights f1)) in Em.
    rewrite Em in Em'. injection Em' as <-. rewrite Eact in Eact'. injection Eact' as <-. rewrite Est in Est'. injection Est' as <-.
    rewrite Esp in Esp'. injection Esp' as <-. rewrite Ex0 in Ex0'. injection Ex0' as <-.
    change (candidate_lists (set_years y c) (with_weights f1)) with (candidate_lists c (with_weights f1)) in F.
    change (candidate_lists (set_years y' c) (with_weights f1)) with (candidate_lists c (with_weights f1)) in F'.
    set (la := fst (candidate_lists c (with_weights f1))) in *. set (lm := snd (candidate_lists c (with_weights f1))) in *.
    change (all_models (set_years y c) mode (detect_freq_frame f) la lm) with (all_models c mode (detect_freq_frame f) la lm) in F.
    change (all_models (set_years y' c) mode (detect_freq_frame f) la lm) with (all_models c mode (detect_freq_frame f) la lm) in F'.
    set (acts := actuals_clean (with_weights f1) s (long_name s w (detect_freq_frame f) range)) in *.
    destruct (Forall2_two _ _ _ _ _ F F') as (es & Ems & <- & <- & Fe).
    assert (Fe' : Forall (fun e : fmodel T * (meta T * string * list (drow T)) * (meta T * string * list (drow T)) =>
        fst (snd e) = fst (snd (fst e)) /\ Forall (forecast_of s (fst (fst e))) (snd (snd (fst e))) /\ Forall (forecast_of s (fst (fst e))) (snd (snd e)) /\
        (extends (start_of f st sp) (detect_freq_frame f) y y' x0 act (fst (fst e)) -> appended y acts (snd (snd (fst e))) (snd (snd e)))) es).
    { refine (Forall_impl _ _ Fe). intros [[m p] p'] [H1 H2]. cbn [fst snd] in *.
      destruct (fit_one_longer _ _ _ _ _ _ _ _ _ _ _ _ _ _ _ L H1 H2) as (Q1 & Q2 & Q3 & Q4). split; [now symmetry|]. split; [exact Q2|]. split; [exact Q3|].
      intros C. destruct (Q4 C) as (rest & Eq & R). exists rest. split; [exact Eq|]. intros P. specialize (R P). refine (Forall_impl _ _ R).
      intros d Hd. unfold after, acts, actuals_clean. apply Forall_map. apply Forall_forall. intros q Iq. cbn [d_date].
      apply zmax_opt_iff in Esp as [_ B]. specialize (B _ (in_map (place (with_weights f1)) _ _ Iq)). unfold start_of in Hd.
      destruct (has_date f); cbn [stop_of] in Hd; lia. }
    assert (Eb : map (fun p : meta T * string * list (drow T) => fst (fst p)) (map snd es) =
                 map (fun p : meta T * string * list (drow T) => fst (fst p)) (map (fun e => snd (fst e)) es)).
    { rewrite !map_map. clear - Fe'. induction Fe' as [|e es (Q & _) _ IH]; [reflexivity|]. cbn. rewrite IH, Q. reflexivity. }
    unfold assemble in Ea, Ea'. rewrite Eb in Ea'. set (b := best_fit W _) in *. injection Ea as Ed Emt. injection Ea' as Ed' Emt'.
    split.
    { rewrite <- Emt, <- Emt', !map_map. apply map_ext_in. intros e I. rewrite Forall_forall in Fe'. destruct (Fe' e I) as (Q & _). now rewrite Q. }
    exists f1, mode, (map (flag_data b) acts).
    exists (map (fun e => mkBoth (fst (fst e)) (map (flag_data b) (snd (snd (fst e)))) (map (flag_data b) (snd (snd e)))) es).
    exists (match b with Some d => md_model d | None => "" end).
    exists act, st, sp, x0. split; [auto|].
    split; [exact Ep|]. split; [exact Em|]. split; [rewrite map_map; exact Ems|].
    split; [rewrite <- Ed, map_app, concat_map, !map_map; reflexivity|]. split; [rewrite <- Ed', map_app, concat_map, !map_map; reflexivity|].
    split; [|split].
    - apply Forall_map, Forall_forall. intros d I. apply in_map_iff in I as (q & <- & _). split; reflexivity.
    - apply Forall_map. refine (Forall_impl _ _ Fe'). intros [[m p] p'] (_ & Q2 & Q3 & Q4). cbn [fst snd b_model b_short b_long] in *.
      split; [apply Forall_map; exact Q2|]. split; [apply Forall_map; exact Q3|]. intros C. now apply flag_appended, Q4.
    - apply Forall_forall. intros d I Hb. rewrite in_app_iff, !in_concat in I.
      assert (exists d0, d = flag_data b d0) as (d0 & ->).
      { destruct I as [(x & I & Ix)|(x & I & Ix)]; apply in_map_iff in I as (e & <- & I); apply in_map_iff in I as (e0 & <- & _); cbn [b_short b_long] in Ix;
          apply in_map_iff in Ix as (d0 & <- & _); exists d0; reflexivity. }
      cbn [flag_data d_best d_model] in *. destruct b as [bd|]; [|discriminate]. apply is_best_iff in Hb as (_ & _ & Q). now symmetry.
  Qed.
  Theorem run_longer W c s f (y y' : Q) r r' : (y <= y')%Q ->
    run_forecast_single W (set_all true (set_years y c)) s f = Ok r ->
    run_forecast_single W (set_all true (set_years y' c)) s f = Ok r' ->
    rs_meta r' = rs_meta r /\
    exists f1 mode acts (es : list both) best,
      prepared c f = Ok f1 /\ final_mode W c (with_weights f1) = Ok mode /\
      map b_model es = all_models c mode (detect_freq_frame f) (fst (candidate_lists c (with_weights f1)))
                         (snd (candidate_lists c (with_weights f1))) /\
      rs_data r = acts ++ concat (map b_short es) /\ rs_data r' = acts ++ concat (map b_long es) /\
      Forall (fun d => d_actual d = true /\ d_src d = s) acts /\
      Forall (fun e => Forall (forecast_of s (b_model e)) (b_short e) /\ Forall (forecast_of s (b_model e)) (b_long e) /\
                (causal (b_model e) -> appended y acts (b_short e) (b_long e))) es /\
      Forall (fun d => d_best d = true -> d_model d = best) (concat (map b_short es) ++ concat (map b_long es)).
  Proof.
    intros L K K'. destruct (run_longer_at _ _ _ _ _ _ _ _ L K K') as (M & f1 & mode & acts & es & best & act & st & sp & x0 & _ & E1 & E2 & E3 & E4 & E5 & E6 & E7 & E8).
    split; [exact M|]. exists f1, mode, acts, es, best. repeat (split; [assumption|]). split; [|exact E8]. refine (Forall_impl _ _ E7). intros e (Q1 & Q2 & Q3).
    split; [exact Q1|]. split; [exact Q2|]. intros C. now apply Q3, causal_extends.
  Qed.

  (* ---- what is shown of the best fit ---- *)
  Definition shown_rows (l : list (drow T)) : list (drow T) := filter (fun d => d_best d || d_actual d) l.
  Lemma best_appended (P : fmodel T -> Prop) y s acts es best :
    Forall (fun d => d_actual d = true) acts ->
    Forall (fun e => Forall (forecast_of s (b_model e)) (b_short e) /\ Forall (forecast_of s (b_model e)) (b_long e) /\
              (P (b_model e) -> appended y acts (b_short e) (b_long e))) es ->
    Forall (fun d => d_best d = true -> d_model d = best) (concat (map b_short es) ++ concat (map b_long es)) ->
    NoDup (map (fun e => fm_name (b_model e)) es) ->
    (forall e, In e es -> fm_name (b_model e) = best -> P (b_model e)) ->
    appended y acts (shown_rows (acts ++ concat (map b_short es))) (shown_rows (acts ++ concat (map b_long es))).
  Proof.
    intros Fa Fe Fb ND Cb. unfold shown_rows. rewrite !filter_app.
    assert (G : exists rest, filter (fun d => d_best d || d_actual d) (concat (map b_long es)) =
        filter (fun d => d_best d || d_actual d) (concat (map b_short es)) ++ rest /\ ((0 < y)%Q -> Forall (after acts) rest)).
    { assert (None_of : forall es', (forall e, In e es' -> fm_name (b_model e) <> best) ->
          Forall (fun e => Forall (forecast_of s (b_model e)) (b_short e) /\ Forall (forecast_of s (b_model e)) (b_long e) /\
              (P (b_model e) -> appended y acts (b_short e) (b_long e))) es' ->
          Forall (fun d => d_best d = true -> d_model d = best) (concat (map b_short es') ++ concat (map b_long es')) ->
          filter (fun d => d_best d || d_actual d) (concat (map b_short es')) = [] /\ filter (fun d => d_best d || d_actual d) (concat (map b_long es')) = []).
      { intros es' Hn Fe' Fb'. rewrite Forall_forall in Fe', Fb'.
        assert (Q : forall l, (forall d, In d l -> exists e, In e es' /\ forecast_of s (b_model e) d) ->
           (forall d, In d l -> d_best d = true -> d_model d = best) -> filter (fun d => d_best d || d_actual d) l = []).
        { intros l H1 H2. destruct (filter _ l) as [|d k] eqn:Ek; [reflexivity|exfalso].
          assert (I : In d (filter (fun d => d_best d || d_actual d) l)) by (rewrite Ek; now left). apply filter_In in I as [I B].
          destruct (H1 d I) as (e & Ie & (A & _ & M & _)). rewrite A, orb_false_r in B. apply (Hn e Ie). rewrite <- M. now apply H2. }
        split; apply Q.
        - intros d I. apply in_concat in I as (x & I & Ix). apply in_map_iff in I as (e & <- & I). exists e. split; [exact I|].
          destruct (Fe' e I) as (Q1 & _). rewrite Forall_forall in Q1. now apply Q1.
        - intros d I. apply Fb', in_or_app. now left.
        - intros d I. apply in_concat in I as (x & I & Ix). apply in_map_iff in I as (e & <- & I). exists e. split; [exact I|].
          destruct (Fe' e I) as (_ & Q1 & _). rewrite Forall_forall in Q1. now apply Q1.
        - intros d I. apply Fb', in_or_app. now right. }
      induction es as [|e es IH]; [exists []; split; [reflexivity|constructor]|]. cbn [map concat] in *. rewrite !filter_app.
      apply Forall_cons_iff in Fe as [He Fe]. apply NoDup_cons_iff in ND as [Nn ND].
      rewrite !Forall_app in Fb. destruct Fb as [[Fb1 Fb2] [Fb3 Fb4]].
      assert (Fbt : Forall (fun d => d_best d = true -> d_model d = best) (concat (map b_short es) ++ concat (map b_long es))) by (apply Forall_app; auto).
      destruct (string_dec (fm_name (b_model e)) best) as [Eq|Ne].
      - destruct (None_of es) as [-> ->]; auto.
        { intros e' I' Eq'. apply Nn. rewrite Eq, <- Eq'. exact (in_map (fun e => fm_name (b_model e)) _ _ I'). }
        rewrite !app_nil_r. destruct He as (_ & _ & Ce). destruct (Ce (Cb e (or_introl eq_refl) Eq)) as (rest & -> & R).
        rewrite filter_app. eexists. split; [reflexivity|]. intros Py. specialize (R Py). rewrite Forall_forall in *. intros d I.
        apply filter_In in I as [I _]. now apply R.
      - destruct (None_of [e]) as [Q1 Q2].
        { intros e' [<-|[]]. exact Ne. }
        { constructor; [exact He|constructor]. }
        { cbn [map concat]. rewrite !app_nil_r. apply Forall_app; auto. }
        cbn [map concat] in Q1, Q2. rewrite app_nil_r in Q1, Q2. rewrite Q1, Q2. cbn [app]. apply IH; auto. intros e' I'. apply Cb. now right. }
    destruct G as (rest & Eq & R). exists rest. split; [now rewrite Eq, app_assoc|exact R].
  Qed.

  (* ---- prediction intervals ---- *)
  (* what a row of the output shows, apart from the percentiles *)
  Definition shown (p : prow T) : Z * string * string * bool * T := (p_date p, p_src p, p_model p, p_actual p, p_y p).
  Definition rest_ok (L rest : list (drow T)) : Prop :=
    Forall (fun d => d_actual d = false /\ d_w d = n1 /\ Forall (fun a => d_actual a = true -> d_date a < d_date d) L) rest.
  (* samples that tell where the forecast starts *)
  Definition anchoring (d : drow T) : bool := d_actual d && with_value d && nltb n0 (d_w d).
  Definition acts_of (b : bool) (L : list (drow T)) : list (Z * T) :=
    if b then usable_actuals L else map (fun r => (d_date r, d_y r)) (filter (fun r => d_actual r && with_value r) L).

  Lemma filter_none {A} (h : A -> bool) l : Forall (fun a => h a = false) l -> filter h l = [].
  Proof. induction 1 as [|a l Ha _ IH]; [reflexivity|]. cbn. now rewrite Ha. Qed.
  Lemma rest_no_actual L rest (h : drow T -> bool) : rest_ok L rest -> filter (fun r => d_actual r && h r) rest = [].
  Proof. intros R. apply filter_none. refine (Forall_impl _ _ R). intros d (A & _). now rewrite A. Qed.
  Lemma acts_same b L rest : rest_ok L rest -> acts_of b (L ++ rest) = acts_of b L.
  Proof.
    intros R. unfold acts_of. destruct b.
    - unfold usable_actuals. rewrite !filter_app. rewrite (rest_no_actual L rest with_value R).
      assert (filter (fun r => nltb n0 (d_w r) && d_actual r) rest = []) as ->; [|now rewrite !app_nil_r].
      apply filter_none. refine (Forall_impl _ _ R). intros d (A & _). now rewrite A, andb_false_r.
    - rewrite filter_app, (rest_no_actual L rest with_value R). now rewrite app_nil_r.
  Qed.
  Lemma acts_dates b L a : In a (acts_of b L) -> exists d, In d L /\ d_actual d = true /\ d_date d = fst a.
  Proof.
    unfold acts_of. destruct b.
    - unfold usable_actuals. intros I. apply in_flat_map in I as (r & I & J). apply repeat_spec in J as ->. apply filter_In in I as [I B].
      apply andb_true_iff in B as [B _]. exists r. auto.
    - intros I. apply in_map_iff in I as (r & <- & I). apply filter_In in I as [I B]. apply andb_true_iff in B as [B _]. exists r. auto.
  Qed.
  Lemma acts_anchor b L d : In d L -> anchoring d = true -> In (d_date d) (map fst (acts_of b L)).
  Proof.
    unfold anchoring. rewrite !andb_true_iff. intros I [[A V] W]. unfold acts_of. apply in_map_iff. exists (d_date d, d_y d). split; [reflexivity|]. destruct b.
    - unfold usable_actuals. apply in_flat_map. exists d. split; [apply filter_In; now rewrite A, V|].
      set (k := length _). destruct k as [|k'] eqn:En; [exfalso|now left].
      assert (J : In (d_date d) (filter (Z.eqb (d_date d)) (map d_date (filter (fun r => nltb n0 (d_w r) && d_actual r) L)))).
      { apply filter_In. split; [|apply Z.eqb_refl]. apply in_map_iff. exists d. split; [reflexivity|]. apply filter_In. now rewrite A, W. }
      unfold k in En. apply length_zero_iff_nil in En. rewrite En in J. destruct J.
    - apply in_map_iff. exists d. split; [reflexivity|]. apply filter_In. now rewrite A, V.
  Qed.
  Lemma residuals_same b L L' rest : rest_ok L rest -> residuals (acts_of b L) (L' ++ rest) = residuals (acts_of b L) L'.
  Proof.
    intros R. unfold residuals. f_equal. rewrite filter_app, flat_map_app. rewrite <- app_nil_r. f_equal.
    assert (Q : forall l, (forall r, In r l -> In r rest) ->
      flat_map (fun r : drow T => map (fun a => nsub (snd a) (d_y r)) (filter (fun a => fst a =? d_date r) (acts_of b L))) l = []).
    { induction l as [|r l IH]; intros Hl; [reflexivity|]. cbn [flat_map]. rewrite IH by (intros x Ix; apply Hl; now right). rewrite app_nil_r.
      rewrite filter_none; [reflexivity|]. apply Forall_forall. intros a Ia. apply Z.eqb_neq. intros Eq.
      destruct (acts_dates _ _ _ Ia) as (d & Id & Ad & Ed). unfold rest_ok in R. rewrite Forall_forall in R.
      destruct (R r (Hl r (or_introl eq_refl))) as (_ & _ & Q). rewrite Forall_forall in Q. specialize (Q d Id Ad). lia. }
    apply Q. intros r I. now apply filter_In in I.
  Qed.
  Lemma residuals_none X L : Forall (fun d => d_actual d = true) L -> residuals (T := T) X L = [].
  Proof.
    intros F. unfold residuals. rewrite (filter_none _ L); [reflexivity|]. refine (Forall_impl _ _ F). intros d A. now rewrite A.
  Qed.
  (* pi_single on a table without further flags *)
  Definition pi_core draw n nc q1 q2 (b : bool) (L : list (drow T)) (fd : Z) : res (list (prow T)) :=
    match residuals (acts_of b L) L with
    | [] => match L with [] => Err IndexError | _ => Ok (map actual_row (filter (fun r => d_actual r && with_value r) L)) end
    | _ =>
        match zmax_opt (map fst (acts_of b L)) with
        | None => Err ValueError
        | Some last =>
            let future := filter (fun r => negb (d_actual r) && (last <? d_date r)%Z) L in
            let past := filter (fun r => negb (d_actual r) && (d_date r <=? last)%Z) L in
            let* fut := add_percentiles future (future_sample draw n (widening_step nc fd) (length future) (centred (residuals (acts_of b L) L))) q1 q2 in
            let* pas := add_percentiles past (past_sample draw n (length past) (centred (residuals (acts_of b L) L))) q1 q2 in
            Ok (map actual_row (filter (fun r => d_actual r && with_value r) L) ++ pas ++ fut)
        end
    end.
  Lemma pi_is_core draw n nc q1 q2 dt rows ps : pi_single draw n nc q1 q2 (mkPT true true true dt rows) = Ok ps ->
    let L := filter (fun r => d_actual r || d_best r) rows in
    exists fd, pi_core draw n nc q1 q2 (existsb (fun r => neqb (d_w r) n0) L) L fd = Ok ps.
  Proof.
    unfold pi_single. cbn [pt_src pt_w pt_best pt_dates pt_rows]. set (L := filter _ rows). cbv zeta.
    destruct (if dt then days_from_freq (detect_freq (map d_date L)) else Ok 1) as [fd|]; [|discriminate]. cbn [rbind]. intros E. exists fd.
    unfold pi_core. destruct (existsb _ L); cbn [andb rbind negb] in E; exact E.
  Qed.
  Lemma percentiles_shown l smp q1 q2 ps : add_percentiles (T := T) l smp q1 q2 = Ok ps ->
    map shown ps = map (fun d => (d_date d, d_src d, d_model d, false, d_y d)) l.
  Proof.
    unfold add_percentiles. destruct (_ && _); [|discriminate]. intros E. apply ok_eq in E as ->. rewrite map_map. unfold shown. cbn [p_date p_src p_model p_actual p_y].
    assert (Q : forall i (l : list (drow T)), map (fun p : nat * drow T => (d_date (snd p), d_src (snd p), d_model (snd p), false, d_y (snd p))) (enum_from i l)
      = map (fun d => (d_date d, d_src d, d_model d, false, d_y d)) l).
    { intros i l0. revert i. induction l0 as [|d l0 IH]; intros i; [reflexivity|]. cbn. f_equal. apply IH. }
    unfold enumerate. apply Q.
  Qed.
  Lemma shown_date ps l : map shown ps = map (fun d : drow T => (d_date d, d_src d, d_model d, false, d_y d)) l ->
    forall p, In p ps -> p_actual p = false /\ exists d, In d l /\ d_date d = p_date p.
  Proof.
    intros E p I. pose proof (in_map shown _ _ I) as J. rewrite E in J. apply in_map_iff in J as (d & Ed & J). unfold shown in Ed. injection Ed as E1 _ _ E2 _.
    split; [now symmetry|]. exists d. auto.
  Qed.
  (* the same past, and a future that is continued *)
  Definition continued (L : list (drow T)) (ps ps' : list (prow T)) : Prop :=
    exists past fut fut' more, ps = past ++ fut /\ ps' = past ++ fut' /\ map shown fut' = map shown fut ++ more /\
      Forall (fun p => p_actual p = false -> exists d, In d L /\ d_actual d = true /\ p_date p <= d_date d) past /\
      Forall (fun p => p_actual p = false /\ forall d, In d L -> anchoring d = true -> d_date d < p_date p) (fut ++ fut').
  Lemma core_longer draw n nc q1 q2 L rest fd fd' ps ps' : rest_ok L rest -> Forall (fun d => d_actual d = false -> d_w d = n1) L ->
    pi_core draw n nc q1 q2 (existsb (fun r => neqb (d_w r) n0) L) L fd = Ok ps ->
    pi_core draw n nc q1 q2 (existsb (fun r => neqb (d_w r) n0) (L ++ rest)) (L ++ rest) fd' = Ok ps' -> continued L ps ps'.
  Proof.
    intros R Fw. set (b := existsb _ L). set (b' := existsb _ (L ++ rest)).
    assert (U : filter (fun r => d_actual r && with_value r) (L ++ rest) = filter (fun r => d_actual r && with_value r) L)
      by (rewrite filter_app, (rest_no_actual L rest with_value R); apply app_nil_r).
    assert (C : b' = b \/ Forall (fun d => d_actual d = true) L).
    { destruct (Bool.bool_dec b' b) as [|Ne]; [now left|right].
      assert (b' = b || existsb (fun r => neqb (d_w r) n0) rest) as Eb by (unfold b', b; apply existsb_app).
      destruct b eqn:B; [exfalso; apply Ne; now rewrite Eb|]. cbn in Eb. destruct b' eqn:B'; [|now elim Ne]. symmetry in Eb.
      apply existsb_exists in Eb as (d & Id & Wd). unfold rest_ok in R. rewrite Forall_forall in R. destruct (R d Id) as (_ & W1 & _). rewrite W1 in Wd.
      rewrite Forall_forall in *. intros a Ia. destruct (d_actual a) eqn:A; [reflexivity|exfalso].
      assert (existsb (fun r => neqb (d_w r) n0) L = true) as Q; [|unfold b in B; congruence].
      apply existsb_exists. exists a. split; [exact Ia|]. now rewrite (Fw a Ia A). }
    unfold pi_core. rewrite (acts_same b' L rest R), (residuals_same b' L L rest R), U.
    assert (Plain : forall X, match L with [] => Err IndexError | _ => Ok (map actual_row (filter (fun r => d_actual r && with_value r) L)) end = Ok ps ->
              X = Ok ps' -> X = match L ++ rest with [] => Err IndexError | _ => Ok (map actual_row (filter (fun r => d_actual r && with_value r) L)) end ->
              continued L ps ps').
    { intros X E1 E2 E3. assert (ps = map actual_row (filter (fun r => d_actual r && with_value r) L)) as -> by (destruct L; [discriminate|now injection E1]).
      assert (ps' = map actual_row (filter (fun r => d_actual r && with_value r) L)) as -> by (subst X; destruct (L ++ rest); [discriminate|now injection E3]).
      exists (map actual_row (filter (fun r => d_actual r && with_value r) L)), [], [], []. rewrite app_nil_r. split; [reflexivity|]. split; [reflexivity|]. split; [reflexivity|].
      split; [|constructor]. apply Forall_map, Forall_forall. intros d _ F. discriminate. }
    destruct C as [->|C].
    2:{ rewrite !(residuals_none _ L C). intros E E'. exact (Plain _ E E' eq_refl). }
    destruct (residuals (acts_of b L) L) as [|r0 rs] eqn:Er; [intros E E'; exact (Plain _ E E' eq_refl)|]. clear Plain.
    destruct (zmax_opt (map fst (acts_of b L))) as [last|] eqn:El; [|discriminate]. apply zmax_opt_iff in El as [Il Bl].
    apply in_map_iff in Il as (a & Ea & Ia). destruct (acts_dates _ _ _ Ia) as (dl & Idl & Adl & Edl).
    assert (Rl : Forall (fun d => d_actual d = false /\ last < d_date d) rest).
    { refine (Forall_impl _ _ R). intros d (A & _ & Q). split; [exact A|]. rewrite Forall_forall in Q. specialize (Q dl Idl Adl). lia. }
    cbv zeta. rewrite !filter_app.
    assert (filter (fun r => negb (d_actual r) && (last <? d_date r)) rest = rest) as ->.
    { clear - Rl. induction Rl as [|d l (A & B) _ IH]; [reflexivity|]. cbn. rewrite A. apply Z.ltb_lt in B. rewrite B. cbn. now rewrite IH. }
    assert (filter (fun r => negb (d_actual r) && (d_date r <=? last)) rest = []) as ->.
    { apply filter_none. refine (Forall_impl _ _ Rl). intros d (A & B). rewrite A. cbn. now apply Z.leb_gt. }
    rewrite app_nil_r.
    set (future := filter (fun r => negb (d_actual r) && (last <? d_date r)) L). set (past := filter (fun r => negb (d_actual r) && (d_date r <=? last)) L).
    destruct (add_percentiles future _ q1 q2) as [fut|] eqn:Ef; [|discriminate]. cbn [rbind].
    destruct (add_percentiles past _ q1 q2) as [pas|] eqn:Epa; [|discriminate]. cbn [rbind]. intros E; apply ok_eq in E as ->.
    destruct (add_percentiles (future ++ rest) _ q1 q2) as [fut'|] eqn:Ef'; [|discriminate]. cbn [rbind]. intros E; apply ok_eq in E as ->.
    apply percentiles_shown in Ef, Epa, Ef'.
    exists (map actual_row (filter (fun r => d_actual r && with_value r) L) ++ pas), fut, fut', (map (fun d => (d_date d, d_src d, d_model d, false, d_y d)) rest).
    split; [apply app_assoc|]. split; [apply app_assoc|]. split; [now rewrite Ef', Ef, map_app|]. split.
    - apply Forall_app. split; [apply Forall_map, Forall_forall; intros d _ F; discriminate|]. apply Forall_forall. intros p Ip _.
      destruct (shown_date _ _ Epa p Ip) as (_ & d & Id & Ed). unfold past in Id. apply filter_In in Id as [_ B]. apply andb_true_iff in B as [_ B]. apply Z.leb_le in B.
      exists dl. split; [exact Idl|]. split; [exact Adl|]. lia.
    - assert (After : forall l q, map shown q = map (fun d : drow T => (d_date d, d_src d, d_model d, false, d_y d)) l -> (forall d, In d l -> last < d_date d) ->
           Forall (fun p => p_actual p = false /\ forall d, In d L -> anchoring d = true -> d_date d < p_date p) q).
      { intros l q Eq Hl. apply Forall_forall. intros p Ip. destruct (shown_date _ _ Eq p Ip) as (A & d & Id & Ed). split; [exact A|]. intros x Ix Ax.
        pose proof (Bl _ (acts_anchor b L x Ix Ax)). specialize (Hl d Id). lia. }
      apply Forall_app. split.
      + apply (After future); [exact Ef|]. intros d Id. unfold future in Id. apply filter_In in Id as [_ B]. apply andb_true_iff in B as [_ B]. now apply Z.ltb_lt.
      + apply (After (future ++ rest)); [exact Ef'|]. intros d Id. apply in_app_iff in Id as [Id|Id].
        * unfold future in Id. apply filter_In in Id as [_ B]. apply andb_true_iff in B as [_ B]. now apply Z.ltb_lt.
        * rewrite Forall_forall in Rl. now apply Rl.
  Qed.
  Theorem run_longer_pi_at W c s f (y y' : Q) r r' : (0 < y)%Q -> (y <= y')%Q ->
    run_forecast_single W (set_all true (set_years y c)) s f = Ok r ->
    run_forecast_single W (set_all true (set_years y' c)) s f = Ok r' ->
    exists f1 mode ms best act start stop x0,
      (model_actuals f (positive (with_weights f1)) = Ok act /\
       zmin_opt (map (place (with_weights f1)) (rows (positive (with_weights f1)))) = Some start /\
       zmax_opt (map (place (with_weights f1)) (rows (with_weights f1))) = Some stop /\
       zmin_opt (map r_x (rows (positive (with_weights f1)))) = Some x0) /\
      prepared c f = Ok f1 /\ final_mode W c (with_weights f1) = Ok mode /\
      ms = all_models c mode (detect_freq_frame f) (fst (candidate_lists c (with_weights f1))) (snd (candidate_lists c (with_weights f1))) /\
      (forall d, In d (rs_data r) -> d_best d = true -> d_actual d = false -> d_model d = best) /\
      (NoDup (map fm_name ms) -> (forall m, In m ms -> fm_name m = best -> extends (start_of f start stop) (detect_freq_frame f) y y' x0 act m) ->
        (exists rest, shown_rows (rs_data r') = shown_rows (rs_data r) ++ rest /\
           forall d a, In d rest -> In a (rs_data r) -> d_actual a = true -> d_date a < d_date d) /\
        continued (rs_data r) (rs_forecast r) (rs_forecast r')).
  Proof.
    intros P L K K'. destruct (run_longer_at _ _ _ _ _ _ _ _ L K K') as (_ & f1 & mode & acts & es & best & act & st & sp & x0 & Parts & Ep & Em & Ems & Ed & Ed' & Fa & Fe & Fb).
    exists f1, mode, (map b_model es), best, act, st, sp, x0. split; [exact Parts|]. split; [exact Ep|]. split; [exact Em|]. split; [exact Ems|]. split.
    { intros d I Hb Ha. rewrite Ed in I. apply in_app_iff in I as [I|I].
      - rewrite Forall_forall in Fa. destruct (Fa d I) as [A _]. congruence.
      - rewrite Forall_forall in Fb. apply Fb; [|exact Hb]. apply in_or_app. now left. }
    intros ND Cb. rewrite map_map in ND.
    assert (App : appended y acts (shown_rows (rs_data r)) (shown_rows (rs_data r'))).
    { rewrite Ed, Ed'. apply (best_appended (extends (start_of f st sp) (detect_freq_frame f) y y' x0 act) y s acts es best); auto.
      - refine (Forall_impl _ _ Fa). now intros d [A _].
      - intros e I. apply Cb. exact (in_map b_model _ _ I). }
    destruct App as (rest & Er & R). specialize (R P).
    assert (Act : forall a, In a (rs_data r) -> d_actual a = true -> In a acts).
    { intros a I A. rewrite Ed in I. apply in_app_iff in I as [I|I]; [exact I|exfalso]. apply in_concat in I as (x & I & Ix).
      apply in_map_iff in I as (e & <- & I). rewrite Forall_forall in Fe. destruct (Fe e I) as (Q & _). rewrite Forall_forall in Q. destruct (Q a Ix) as (Q' & _). congruence. }
    split.
    { exists rest. split; [exact Er|]. intros d a I Ia A. rewrite Forall_forall in R. specialize (R d I). unfold after in R. rewrite Forall_forall in R. apply R. now apply Act. }
    destruct (single_result _ _ _ _ _ K) as (w & ac & fits & _ & _ & G). destruct (single_result _ _ _ _ _ K') as (w' & ac' & fits' & _ & _ & G').
    cbn [set_years c_ncum c_q1 c_q2 c_widen] in G, G'.
    rewrite (get_pi_single _ _ _ _ _ _ _ s) in G by (exact (proj1 (result_source _ _ _ _ _ K))).
    rewrite (get_pi_single _ _ _ _ _ _ _ s) in G' by (exact (proj1 (result_source _ _ _ _ _ K'))).
    destruct (match c_ncum c with Some k => Ok k | None => days_from_freq (c_widen c) end) as [k|]; [|discriminate]. cbn [rbind] in G, G'.
    apply pi_is_core in G as (fd & G). apply pi_is_core in G' as (fd' & G').
    assert (Sh : forall l : list (drow T), filter (fun r => d_actual r || d_best r) l = shown_rows l) by (intros l; apply filter_ext; intros d; apply orb_comm).
    rewrite Sh in G, G'. rewrite Er in G'.
    assert (Long : forall d, In d (rs_data r') -> d_actual d = false -> d_w d = n1).
    { intros d I A. rewrite Ed' in I. apply in_app_iff in I as [I|I].
      - rewrite Forall_forall in Fa. destruct (Fa d I) as [A' _]. congruence.
      - apply in_concat in I as (x & I & Ix). apply in_map_iff in I as (e & <- & I). rewrite Forall_forall in Fe. destruct (Fe e I) as (_ & Q & _).
        rewrite Forall_forall in Q. now destruct (Q d Ix) as (_ & _ & _ & Q'). }
    assert (Short : forall d, In d (rs_data r) -> d_actual d = false -> d_w d = n1).
    { intros d I A. rewrite Ed in I. apply in_app_iff in I as [I|I].
      - rewrite Forall_forall in Fa. destruct (Fa d I) as [A' _]. congruence.
      - apply in_concat in I as (x & I & Ix). apply in_map_iff in I as (e & <- & I). rewrite Forall_forall in Fe. destruct (Fe e I) as (Q & _).
        rewrite Forall_forall in Q. now destruct (Q d Ix) as (_ & _ & _ & Q'). }
    assert (RA : Forall (fun d => d_actual d = false) rest).
    { assert (E' : shown_rows (rs_data r') = shown_rows acts ++ shown_rows (concat (map b_long es))) by (rewrite Ed'; apply filter_app).
      assert (E1 : shown_rows (rs_data r) = shown_rows acts ++ shown_rows (concat (map b_short es))) by (rewrite Ed; apply filter_app).
      rewrite Er, E1, <- app_assoc in E'. apply app_inv_head in E'. apply Forall_forall. intros d I.
      assert (J : In d (shown_rows (concat (map b_long es)))) by (rewrite <- E'; apply in_or_app; now right). apply filter_In in J as [J _].
      apply in_concat in J as (x & J & Ix). apply in_map_iff in J as (e & <- & J). rewrite Forall_forall in Fe. destruct (Fe e J) as (_ & Q & _).
      rewrite Forall_forall in Q. now destruct (Q d Ix) as (Q' & _). }
    assert (Rok : rest_ok (shown_rows (rs_data r)) rest).
    { apply Forall_forall. intros d I. rewrite Forall_forall in RA, R. split; [now apply RA|]. split.
      - apply Long; [|now apply RA]. assert (J : In d (shown_rows (rs_data r'))) by (rewrite Er; apply in_or_app; now right). now apply filter_In in J.
      - apply Forall_forall. intros a Ia A. apply filter_In in Ia as [Ia _]. specialize (R d I). unfold after in R. rewrite Forall_forall in R. apply R. now apply Act. }
    assert (Fw : Forall (fun d => d_actual d = false -> d_w d = n1) (shown_rows (rs_data r))).
    { apply Forall_forall. intros d I A. apply filter_In in I as [I _]. now apply Short. }
    destruct (core_longer _ _ _ _ _ _ _ _ _ _ _ Rok Fw G G') as (past & fut & fut' & more & E1 & E2 & E3 & E4 & E5).
    exists past, fut, fut', more. split; [exact E1|]. split; [exact E2|]. split; [exact E3|]. split.
    - refine (Forall_impl _ _ E4). intros p Hp A. destruct (Hp A) as (d & I & B). exists d. split; [now apply filter_In in I|exact B].
    - refine (Forall_impl _ _ E5). intros p [A Hp]. split; [exact A|]. intros d I B. apply Hp; [|exact B]. apply filter_In. split; [exact I|].
      unfold anchoring in B. rewrite !andb_true_iff in B. destruct B as [[B _] _]. now rewrite B, orb_true_r.
  Qed.
  Theorem run_longer_pi W c s f (y y' : Q) r r' : (0 < y)%Q -> (y <= y')%Q ->
    run_forecast_single W (set_all true (set_years y c)) s f = Ok r ->
    run_forecast_single W (set_all true (set_years y' c)) s f = Ok r' ->
    exists f1 mode ms best, prepared c f = Ok f1 /\ final_mode W c (with_weights f1) = Ok mode /\
      ms = all_models c mode (detect_freq_frame f) (fst (candidate_lists c (with_weights f1))) (snd (candidate_lists c (with_weights f1))) /\
      (forall d, In d (rs_data r) -> d_best d = true -> d_actual d = false -> d_model d = best) /\
      (NoDup (map fm_name ms) -> (forall m, In m ms -> fm_name m = best -> causal m) ->
        (exists rest, shown_rows (rs_data r') = shown_rows (rs_data r) ++ rest /\
           forall d a, In d rest -> In a (rs_data r) -> d_actual a = true -> d_date a < d_date d) /\
        continued (rs_data r) (rs_forecast r) (rs_forecast r')).
  Proof.
    intros P L K K'. destruct (run_longer_pi_at _ _ _ _ _ _ _ _ P L K K') as (f1 & mode & ms & best & act & st & sp & x0 & _ & E1 & E2 & E3 & E4 & E5).
    exists f1, mode, ms, best. repeat (split; [assumption|]). intros ND C. apply E5; [exact ND|]. intros m I Em. apply causal_extends; [exact L|now apply C].
  Qed.

  (* ---- metadata, for any two horizons ---- *)
  Lemma set_all_self (c : config T) : set_all (c_all c) c = c.
  Proof. destruct c. reflexivity. Qed.
  Theorem single_meta W c s f (y y' : Q) r r' :
    run_forecast_single W (set_years y c) s f = Ok r -> run_forecast_single W (set_years y' c) s f = Ok r' -> rs_meta r' = rs_meta r.
  Proof.
    assert (A : forall y y' r r', run_forecast_single W (set_all true (set_years y c)) s f = Ok r ->
              run_forecast_single W (set_all true (set_years y' c)) s f = Ok r' -> rs_meta r' = rs_meta r).
    { intros a b q q' E E'. destruct (Qlt_le_dec a b) as [L|L].
      - exact (proj1 (run_longer _ _ _ _ _ _ _ _ (Qlt_le_weak _ _ L) E E')).
      - symmetry. exact (proj1 (run_longer _ _ _ _ _ _ _ _ L E' E)). }
    rewrite <- (set_all_self (set_years y c)), <- (set_all_self (set_years y' c)). cbn [set_years c_all]. destruct (c_all c); [apply A|].
    rewrite !all_fits_switch. destruct (run_forecast_single W (set_all true (set_years y c)) s f) as [q|] eqn:E; [|discriminate].
    destruct (run_forecast_single W (set_all true (set_years y' c)) s f) as [q'|] eqn:E'; [|discriminate].
    cbn [ForecastProofs.rmap rbind]. intros G G'. apply ok_eq in G as ->. apply ok_eq in G' as ->. cbn [only_best rs_meta]. now rewrite (A _ _ _ _ E E').
  Qed.
  Lemma rmapM_pair {A B C} (g g' : A -> res B) (k : B -> C) : (forall a b b', g a = Ok b -> g' a = Ok b' -> k b' = k b) ->
    forall l r r', rmapM g l = Ok r -> rmapM g' l = Ok r' -> map k r' = map k r.
  Proof.
    intros Hk. induction l as [|a l IH]; intros r r'; cbn; [now intros [= <-] [= <-]|].
    destruct (g a) as [b|] eqn:E; [|discriminate]. cbn. destruct (rmapM g l) as [q|]; [|discriminate]. cbn. intros G; apply ok_eq in G as ->.
    destruct (g' a) as [b'|] eqn:E'; [|discriminate]. cbn. destruct (rmapM g' l) as [q'|]; [|discriminate]. cbn. intros G; apply ok_eq in G as ->.
    cbn. f_equal; [exact (Hk _ _ _ E E')|now apply IH].
  Qed.
  Theorem forecast_meta W c id t (y y' : Q) r r' :
    run_forecast W (set_years y c) id t = Ok (Some r) -> run_forecast W (set_years y' c) id t = Ok (Some r') -> rs_meta r' = rs_meta r.
  Proof.
    unfold run_forecast. destruct (normalize_df t) as [[f|]|]; [|discriminate|discriminate]. cbn [rbind]. destruct (negb (has_src f)).
    - destruct (run_forecast_single _ (set_years y c) _ _) as [q|] eqn:E; [|discriminate]. destruct (run_forecast_single _ (set_years y' c) _ _) as [q'|] eqn:E'; [|discriminate].
      cbn [rbind]. intros G G'. injection G as <-. injection G' as <-. exact (single_meta _ _ _ _ _ _ _ _ E E').
    - destruct (rmapM (fun s => run_forecast_single (W s) (set_years y c) s _) _) as [q|] eqn:E; [|discriminate].
      destruct (rmapM (fun s => run_forecast_single (W s) (set_years y' c) s _) _) as [q'|] eqn:E'; [|discriminate].
      cbn [rbind]. intros G G'. injection G as <-. injection G' as <-. cbn [aggregate rs_meta]. f_equal.
      refine (rmapM_pair _ _ _ _ _ _ _ E E'). intros a b b'. apply single_meta.
  Qed.
End HorizonRun.
