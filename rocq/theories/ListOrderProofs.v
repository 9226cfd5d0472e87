(* The order of the lists of models in the configuration (C86). *)
From Coq Require Import ZArith String List Bool Lia Permutation Sorted.
From Verif Require Import Num Py Cal Model Base Naive Freq Normalize Fit Interp Select Pi Forecast.
From Verif Require Import ListProofs StringProofs ModelProofs SelectProofs ForecastProofs ForecastProofs2 ExtendProofs ShiftProofs CacheRunProofs.
Import ListNotations.
Local Open Scope string_scope.
Local Open Scope list_scope.

Section ListOrder.
  Context {T : Type} {N : NumOps T}.
  Notation M := (fmodel T).

  (* ---- specification ---- *)
  (* the same models, in any order and any number of times *)
  Definition members (l l' : list M) : Prop := forall m, In m l <-> In m l'.
  Definition same_members (o o' : option (list M)) : Prop :=
    match o, o' with Some l, Some l' => members l l' | None, None => True | _, _ => False end.
  Definition same_models (o o' : option (list M)) : Prop :=
    match o, o' with Some l, Some l' => Permutation l l' | None, None => True | _, _ => False end.
  (* the configuration with other lists of models *)
  Definition with_lists (c : config T) trend season yearly weekly naive calendar : config T :=
    mkCfg trend season (c_start c) (c_years c) (Forecast.c_mode c) (c_all c) (c_outliers c) yearly weekly naive calendar
      (c_ncum c) (c_q1 c) (c_q2 c) (c_widen c) (c_cache c).
  (* Models composed of parts with pairwise different names: [dic] tells the part that has a name.
     The name of a part has none of the characters that a composition puts in its name. *)
  Inductive made_of (dic : string -> option M) : M -> Prop :=
  | of_null : made_of dic model_null
  | of_part m : dic (fm_name m) = Some m -> plain (fm_name m) -> fm_name m <> "null" -> made_of dic m
  | of_sum a b : made_of dic a -> made_of dic b -> made_of dic (madd a b)
  | of_product a b : made_of dic a -> made_of dic b -> made_of dic (mmul a b).

  (* ---- names tell the models apart ---- *)
  Definition part (dic : string -> option M) (m : M) : Prop := dic (fm_name m) = Some m /\ plain (fm_name m).
  Lemma made_tree dic m : made_of dic m -> m = model_null \/ exists u, null_free u /\ m = build u /\ Forall (part dic) (leaves u).
  Proof.
    induction 1 as [|m D P Nn|a b _ IHa _ IHb|a b _ IHa _ IHb]; [now left| | |].
    - right. exists (Leaf m). split; [now constructor|]. split; [reflexivity|]. cbn. rewrite (proj2 (String.eqb_neq _ _) Nn). constructor; [now split|constructor].
    - destruct IHa as [->|(u & Fu & -> & Lu)]; [|destruct IHb as [->|(v & Fv & -> & Lv)]].
      + destruct IHb as [->|K]; [now left|]. right. exact K.
      + right. exists u. split; [exact Fu|]. split; [|exact Lu]. unfold madd. rewrite (is_null_false (build u)) by now apply null_free_name. reflexivity.
      + right. exists (TAdd u v). split; [now constructor|]. split; [reflexivity|]. cbn. now apply Forall_app.
    - destruct IHa as [->|(u & Fu & -> & Lu)]; [|destruct IHb as [->|(v & Fv & -> & Lv)]].
      + destruct IHb as [->|K]; [now left|]. right. exact K.
      + right. exists u. split; [exact Fu|]. split; [|exact Lu]. unfold mmul. rewrite (is_null_false (build u)) by now apply null_free_name. reflexivity.
      + right. exists (TMul u v). split; [now constructor|]. split; [reflexivity|]. cbn. now apply Forall_app.
  Qed.
  Lemma skeleton_inj dic : forall u v, null_free u -> null_free v -> Forall (part dic) (leaves u) -> Forall (part dic) (leaves v) -> skeleton u = skeleton v -> u = v.
  Proof.
    induction u as [m|a IHa b IHb|a IHa b IHb]; intros [m'|a' b'|a' b'] Fu Fv Lu Lv E; try discriminate; inversion Fu; inversion Fv; subst; cbn in E, Lu, Lv.
    - injection E as E. f_equal. rewrite (proj2 (String.eqb_neq _ _) H0) in Lu. rewrite (proj2 (String.eqb_neq _ _) H2) in Lv.
      inversion Lu as [|? ? [D1 _] _]. inversion Lv as [|? ? [D2 _] _]. congruence.
    - injection E as E1 E2. apply Forall_app in Lu as [L1 L2], Lv as [L3 L4]. f_equal; auto.
    - injection E as E1 E2. apply Forall_app in Lu as [L1 L2], Lv as [L3 L4]. f_equal; auto.
  Qed.
  Lemma made_unique dic a b : made_of dic a -> made_of dic b -> fm_name a = fm_name b -> a = b.
  Proof.
    intros Ha Hb E. apply made_tree in Ha as [->|(u & Fu & -> & Lu)], Hb as [->|(v & Fv & -> & Lv)]; [reflexivity| | |].
    - exfalso. now apply (null_free_name v Fv).
    - exfalso. now apply (null_free_name u Fu).
    - f_equal. apply (skeleton_inj dic); auto. rewrite !build_name in E by assumption.
      apply nprint_inj; [| |exact E]; apply plain_null_free_leaf; auto; (eapply Forall_impl; [|eassumption]); now intros m [_ P].
  Qed.

  Section Dic.
    Variable dic : string -> option M.
    Let P := made_of dic.

    Lemma dedup_members l : Forall P l -> members (dedup model_eqb l) l.
    Proof.
      intros F m. destruct (dedup_models l) as (_ & _ & S3 & S4). split.
      - intros I. apply S4 in I. now apply find_some in I as [I _].
      - intros I. assert (J : In (fm_name m) (map fm_name (dedup model_eqb l))) by (apply S3; now apply in_map).
        apply in_map_iff in J as (m' & E & I'). rewrite Forall_forall in F.
        replace m with m'; [exact I'|]. apply (made_unique dic); [apply F|now apply F|exact E].
        apply S4 in I'. now apply find_some in I' as [I' _].
    Qed.
    Lemma members_trans l1 l2 l3 : members l1 l2 -> members l2 l3 -> members l1 l3.
    Proof. intros A B m. rewrite (A m). apply B. Qed.
    Lemma members_sym l1 l2 : members l1 l2 -> members l2 l1.
    Proof. intros A m. symmetry. apply A. Qed.
    Lemma members_dedup l l' : Forall P l -> Forall P l' -> members l l' -> members (dedup model_eqb l) (dedup model_eqb l').
    Proof. intros F F' E. eapply members_trans; [now apply dedup_members|]. eapply members_trans; [exact E|]. now apply members_sym, dedup_members. Qed.
    Lemma members_combine op (t t' s s' : list M) : members t t' -> members s s' -> members (combinations op t s) (combinations op t' s').
    Proof.
      intros E E' m. unfold combinations. rewrite !in_flat_map. split; intros (x & Ix & J); apply in_map_iff in J as (y & <- & Iy); exists x; (split; [now apply E|]);
        apply in_map; now apply E'.
    Qed.
    Lemma members_app (t t' s s' : list M) : members t t' -> members s s' -> members (t ++ s) (t' ++ s').
    Proof. intros E E' m. rewrite !in_app_iff, (E m), (E' m). reflexivity. Qed.
    Lemma members_nil (l : list M) : members l [] -> l = [].
    Proof. intros E. destruct l as [|m l]; [reflexivity|]. destruct (proj1 (E m) (or_introl eq_refl)). Qed.

    Lemma P_sum a b : P a -> P b -> P (madd a b).
    Proof. apply of_sum. Qed.
    Lemma P_product a b : P a -> P b -> P (mmul a b).
    Proof. apply of_product. Qed.
    Lemma members_list t t' s s' mode : Forall P t -> Forall P t' -> all_of P s -> all_of P s' -> members t t' -> same_members s s' ->
      members (list_model (Some t) s mode) (list_model (Some t') s' mode).
    Proof.
      intros Ft Ft' Fs Fs' E E'. unfold list_model.
      destruct s as [s|], s' as [s'|]; try destruct E'; [|now apply members_dedup].
      destruct s as [|a s].
      { apply members_sym, members_nil in E' as ->. now apply members_dedup. }
      destruct s' as [|a' s']; [apply members_nil in E'; discriminate|].
      destruct t as [|b t].
      { apply members_sym, members_nil in E as ->. now apply members_dedup. }
      destruct t' as [|b' t']; [apply members_nil in E; discriminate|].
      cbn in Fs, Fs'. rewrite !product_map.
      assert (C : forall x y, Forall P x -> Forall P y -> Forall P (combinations madd x y) /\ Forall P (combinations mmul x y)).
      { intros x y Fx Fy. rewrite Forall_forall in Fx, Fy. unfold combinations. split; apply Forall_forall; intros m I; apply in_flat_map in I as (u & Iu & I);
          apply in_map_iff in I as (v & <- & Iv); [apply P_sum|apply P_product]; auto. }
      apply members_dedup.
      - apply Forall_app. split; destruct (String.eqb _ _); first [apply Forall_nil|now apply C].
      - apply Forall_app. split; destruct (String.eqb _ _); first [apply Forall_nil|now apply C].
      - apply members_app; destruct (String.eqb _ _); try (intros m; reflexivity); now apply members_combine.
    Qed.

    (* ---- sorted lists ---- *)
    Lemma sorted_unique : forall l l', Forall P l -> Permutation l l' -> StronglySorted name_le l -> StronglySorted name_le l' -> l = l'.
    Proof.
      induction l as [|a l IH]; intros l' F Pe S1 S2; [now apply Permutation_nil in Pe|].
      destruct l' as [|b l']; [now apply Permutation_sym, Permutation_nil in Pe|].
      inversion S1 as [|? ? S1' H1]. inversion S2 as [|? ? S2' H2]. subst.
      assert (Fb : Forall P (b :: l')) by (eapply Permutation_Forall; eassumption).
      assert (E : a = b).
      { apply (made_unique dic); [now inversion F|now inversion Fb|].
        rewrite Forall_forall in H1, H2.
        assert (Ib : In b (a :: l)) by (apply (Permutation_in b (Permutation_sym Pe)); now left).
        assert (Ia : In a (b :: l')) by (apply (Permutation_in a Pe); now left).
        destruct Ib as [Ib|Ib]; [now rewrite Ib|]. destruct Ia as [Ia|Ia]; [now rewrite Ia|].
        apply str_leb_antisym; [exact (H1 b Ib)|exact (H2 a Ia)]. }
      subst b. f_equal. apply IH; auto; [now inversion F|]. eapply Permutation_cons_inv. exact Pe.
    Qed.
    Lemma sorts_same l l' : Forall P l -> Permutation l l' -> isort model_leb l = isort model_leb l'.
    Proof.
      intros F E. apply sorted_unique; try apply model_sorted.
      - now apply Forall_isort.
      - rewrite <- (isort_perm model_leb l), <- (isort_perm model_leb l'). exact E.
    Qed.
    Lemma dedup_distinct (l : list M) : NoDup (dedup model_eqb l).
    Proof. destruct (dedup_models l) as (_ & S2 & _). eapply NoDup_map_inv. exact S2. Qed.

    (* ---- automatic seasonality ---- *)
    Hypothesis D_wday : P model_season_wday.
    Hypothesis D_fourier : P model_season_fourier_yearly.
    Lemma members_season_list use dflt o o' : same_members o o' -> members (Select.season_list use dflt o) (Select.season_list use dflt o').
    Proof.
      intros E. unfold Select.season_list. destruct use; [|intros m; reflexivity]. destruct o as [l|], o' as [l'|]; try destruct E; [|intros m; reflexivity].
      destruct l as [|a l]; [apply members_sym, members_nil in E as ->; intros m; reflexivity|].
      destruct l' as [|a' l']; [apply members_nil in E; discriminate|]. exact E.
    Qed.
    Lemma members_isort (l l' : list M) : members l l' -> members (isort model_leb l) (isort model_leb l').
    Proof. intros E m. rewrite !isort_in. apply E. Qed.
    Lemma members_filter f (l l' : list M) : members l l' -> members (filter f l) (filter f l').
    Proof. intros E m. rewrite !filter_In, (E m). reflexivity. Qed.
    Lemma members_steps mode w w' y y' : Forall P w -> Forall P w' -> Forall P y -> Forall P y' -> members w w' -> members y y' ->
      members (fold_left (season_step mode) (product w y) [model_null]) (fold_left (season_step mode) (product w' y') [model_null]).
    Proof.
      intros Fw Fw' Fy Fy' Ew Ey.
      assert (C : forall x y, Forall P x -> Forall P y -> Forall P (combinations mmul x y)).
      { intros u v Fx Fv. rewrite Forall_forall in Fx, Fv. unfold combinations. apply Forall_forall. intros m I. apply in_flat_map in I as (k & Iu & I);
          apply in_map_iff in I as (h & <- & Iv). apply P_product; auto. }
      destruct (String.eqb_spec mode "add") as [->|Na]; [|destruct (String.eqb_spec mode "mult") as [->|Nm]].
      - rewrite !step_add, !product_map. apply members_app; [intros m; reflexivity|]. apply members_filter. now apply members_combine.
      - rewrite !step_mult, !product_map.
        change (members (dedup model_eqb (model_null :: filter SelectProofs.not_null (combinations mmul w y))) (dedup model_eqb (model_null :: filter SelectProofs.not_null (combinations mmul w' y')))).
        assert (G : forall l, Forall P l -> Forall P (model_null :: filter SelectProofs.not_null l)).
        { intros l F. constructor; [apply of_null|]. rewrite Forall_forall in *. intros m I. apply filter_In in I as [I _]. auto. }
        apply members_dedup; [apply G; now apply C|apply G; now apply C|].
        apply (members_app [model_null] [model_null]); [intros m; reflexivity|]. apply members_filter. now apply members_combine.
      - assert (K : forall l acc, fold_left (season_step mode) l acc = acc).
        { induction l as [|p l IH]; intros acc; [reflexivity|]. cbn [fold_left]. rewrite IH. unfold season_step.
          rewrite (proj2 (String.eqb_neq mode "add") Na), (proj2 (String.eqb_neq mode "mult") Nm). reflexivity. }
        rewrite !K. intros m. reflexivity.
    Qed.
    Lemma members_auto mode ly ly' lw lw' ds : all_of P ly -> all_of P ly' -> all_of P lw -> all_of P lw' -> same_members ly ly' -> same_members lw lw' ->
      members (auto_season mode ly lw ds) (auto_season mode ly' lw' ds).
    Proof.
      intros Fy Fy' Fw Fw' Ey Ew. unfold auto_season. destruct (date_gap ds) as [g|], (date_span ds) as [sp|]; try (intros m; reflexivity).
      assert (D1 : Forall P [model_season_wday; model_null]) by (constructor; [exact D_wday|constructor; [apply of_null|constructor]]).
      assert (D2 : Forall P [model_season_fourier_yearly; model_null]) by (constructor; [exact D_fourier|constructor; [apply of_null|constructor]]).
      apply members_isort. apply (members_steps mode).
      all: first [now apply members_season_list|apply (closed_season_list P); [apply of_null|assumption|assumption]].
    Qed.

    (* ---- candidates ---- *)
    Hypothesis D_linear : P model_linear.
    Hypothesis D_ramp : P model_ramp.
    Variables c c' : config T.
    Hypothesis Pc : named P c.
    Hypothesis Pc' : named P c'.
    Hypothesis E_trend : same_members (c_trend c) (c_trend c').
    Hypothesis E_season : same_members (c_season c) (c_season c').
    Hypothesis E_yearly : same_members (c_yearly c) (c_yearly c').
    Hypothesis E_weekly : same_members (c_weekly c) (c_weekly c').
    Hypothesis E_calendar : same_members (c_calendar c) (c_calendar c').
    Lemma members_candidates f : members (fst (candidate_lists c f)) (fst (candidate_lists c' f)) /\ members (snd (candidate_lists c f)) (snd (candidate_lists c' f)).
    Proof.
      destruct Pc as (Pt & Ps & Py & Pw & Pl), Pc' as (Pt' & Ps' & Py' & Pw' & Pl'). unfold candidate_lists.
      assert (Fd : Forall P (default_trend f)).
      { unfold default_trend. destruct (use_ramp f); repeat (constructor; [first [exact D_linear|apply P_sum; [exact D_linear|exact D_ramp]]|]); constructor. }
      set (t := match c_trend c with Some l => l | None => default_trend f end). set (t' := match c_trend c' with Some l => l | None => default_trend f end).
      assert (Ft : Forall P t) by (unfold t; destruct (c_trend c); assumption).
      assert (Ft' : Forall P t') by (unfold t'; destruct (c_trend c'); assumption).
      assert (Et : members t t') by (unfold t, t'; destruct (c_trend c), (c_trend c'); try destruct E_trend; [exact E_trend|intros m; reflexivity]).
      set (s := fun mode => match c_season c with Some l => Some l | None => if has_date f then Some (auto_season mode (c_yearly c) (c_weekly c) (weighted_dates f)) else None end).
      set (s' := fun mode => match c_season c' with Some l => Some l | None => if has_date f then Some (auto_season mode (c_yearly c') (c_weekly c') (weighted_dates f)) else None end).
      assert (Fs : forall mode, all_of P (s mode)).
      { intros mode. unfold s. destruct (c_season c); [exact Ps|]. destruct (has_date f); [|exact I]. apply (closed_auto P); auto; [apply of_null|apply P_sum|apply P_product]. }
      assert (Fs' : forall mode, all_of P (s' mode)).
      { intros mode. unfold s'. destruct (c_season c'); [exact Ps'|]. destruct (has_date f); [|exact I]. apply (closed_auto P); auto; [apply of_null|apply P_sum|apply P_product]. }
      assert (Es : forall mode, same_members (s mode) (s' mode)).
      { intros mode. unfold s, s'. destruct (c_season c), (c_season c'); try destruct E_season; [exact E_season|]. destruct (has_date f); [|exact I]. now apply members_auto. }
      assert (Fl : forall t s mode, Forall P t -> all_of P s -> Forall P (list_model (Some t) s mode)).
      { intros. apply (closed_list P); auto; [apply P_sum|apply P_product]. }
      pose proof (Es "add") as Es1. pose proof (Es "mult") as Es2. pose proof (Fs "add") as Fs1. pose proof (Fs "mult") as Fs2. pose proof (Fs' "add") as Fs3. pose proof (Fs' "mult") as Fs4.
      unfold s, s' in Es1, Es2, Fs1, Fs2, Fs3, Fs4. clearbody t t'.
      destruct (c_calendar c) as [cal|], (c_calendar c') as [cal'|]; try destruct E_calendar.
      - destruct (use_calendar f); cbn [fst snd]; split; repeat (apply members_list; auto).
      - cbn [fst snd]; split; apply members_list; auto.
    Qed.
    Hypothesis E_naive : same_models (c_naive c) (c_naive c').
    Hypothesis P_naive : all_of P (c_naive c).
    Hypothesis D_naive : P model_naive.
    Hypothesis D_snaive : P model_snaive_wday.
    Lemma same_all mode freq f : let (add, mult) := candidate_lists c f in let (add', mult') := candidate_lists c' f in
      all_models c mode freq add mult = all_models c' mode freq add' mult' /\ members add add'.
    Proof.
      destruct (candidate_lists c f) as [add mult] eqn:E1, (candidate_lists c' f) as [add' mult'] eqn:E2.
      pose proof (members_candidates f) as (Ea & Em). rewrite E1, E2 in Ea, Em. cbn [fst snd] in Ea, Em. split; [|exact Ea].
      assert (A1 : Forall P add /\ Forall P mult) by exact (closed_candidates P (of_null dic) D_linear D_ramp D_wday D_fourier (of_sum dic) (of_product dic) c f _ _ Pc E1).
      assert (A2 : Forall P add' /\ Forall P mult') by exact (closed_candidates P (of_null dic) D_linear D_ramp D_wday D_fourier (of_sum dic) (of_product dic) c' f _ _ Pc' E2).
      destruct A1 as [Fa Fm], A2 as [Fa' Fm'].
      assert (N1 : NoDup add /\ NoDup mult /\ NoDup add' /\ NoDup mult').
      { clear - E1 E2. unfold candidate_lists in E1, E2. destruct (c_calendar c), (c_calendar c'); try destruct (use_calendar f); injection E1 as <- <-; injection E2 as <- <-; repeat split; apply dedup_distinct. }
      destruct N1 as (Na & Nm & Na' & Nm'). unfold all_models. apply sorts_same.
      - apply Forall_app. split.
        + destruct (c_naive c) as [l|]; [exact P_naive|]. unfold default_naive. destruct freq as [s|]; [destruct (String.eqb s "D")|]; (constructor; [|constructor]); assumption.
        + destruct (String.eqb mode "add"); [exact Fa|]. destruct (String.eqb mode "mult"); [exact Fm|]. apply Forall_dedup. now apply Forall_app.
      - apply Permutation_app; [destruct (c_naive c), (c_naive c'); first [exact E_naive|reflexivity|destruct E_naive]|].
        destruct (String.eqb mode "add"); [now apply NoDup_Permutation|]. destruct (String.eqb mode "mult"); [now apply NoDup_Permutation|].
        apply NoDup_Permutation; [apply dedup_distinct|apply dedup_distinct|]. apply members_dedup; try (apply Forall_app; now split). now apply members_app.
    Qed.
  End Dic.

  (* ---- the forecast ---- *)
  (* the models the code itself may add *)
  Definition knows_defaults (dic : string -> option M) : Prop :=
    dic "linear" = Some model_linear /\ dic "ramp" = Some model_ramp /\ dic "season_wday" = Some model_season_wday /\
    dic "season_fourier_yearly" = Some model_season_fourier_yearly /\ dic "naive" = Some model_naive /\ dic "snaive_wday" = Some model_snaive_wday.
  Lemma defaults_made dic : knows_defaults dic -> made_of dic model_linear /\ made_of dic model_ramp /\ made_of dic model_season_wday /\
    made_of dic model_season_fourier_yearly /\ made_of dic model_naive /\ made_of dic model_snaive_wday.
  Proof.
    intros (D1 & D2 & D3 & D4 & D5 & D6).
    split; [|split; [|split; [|split; [|split]]]]; apply of_part; auto; try (cbn; repeat split; reflexivity); discriminate.
  Qed.

  Lemma label_members mode (l l' : list M) m : members l l' -> add_mult_label m mode l = add_mult_label m mode l'.
  Proof.
    intros E. unfold add_mult_label. destruct (String.eqb mode "add" || String.eqb mode "mult"); [reflexivity|].
    replace (existsb (model_eqb m) l) with (existsb (model_eqb m) l'); [reflexivity|]. apply eq_true_iff_eq. rewrite !existsb_exists.
    split; intros (x & I & K); exists x; (split; [now apply E|exact K]).
  Qed.

  Definition reordered (c c' : config T) : Prop :=
    same_members (c_trend c) (c_trend c') /\ same_members (c_season c) (c_season c') /\ same_members (c_yearly c) (c_yearly c') /\
    same_members (c_weekly c) (c_weekly c') /\ same_members (c_calendar c) (c_calendar c') /\ same_models (c_naive c) (c_naive c') /\
    c' = with_lists c (c_trend c') (c_season c') (c_yearly c') (c_weekly c') (c_naive c') (c_calendar c').

  Lemma all_members (P : M -> Prop) o o' : same_members o o' -> all_of P o -> all_of P o'.
  Proof. intros E. destruct o as [l|], o' as [l'|]; try destruct E; [|auto]. cbn. rewrite !Forall_forall. intros F m I. apply F. now apply E. Qed.
  Lemma fits_order dic (W : world T) c c' s f : knows_defaults dic -> named (made_of dic) c -> all_of (made_of dic) (c_naive c) -> reordered c c' ->
    run_fits W c s f = run_fits W c' s f.
  Proof.
    intros D Pc Pn (Et & Es & Ey & Ew & El & En & Ec).
    assert (Pc' : named (made_of dic) c').
    { destruct Pc as (P1 & P2 & P3 & P4 & P5). repeat split; [exact (all_members _ _ _ Et P1)|exact (all_members _ _ _ Es P2)|exact (all_members _ _ _ Ey P3)|exact (all_members _ _ _ Ew P4)|exact (all_members _ _ _ El P5)]. }
    apply defaults_made in D as (D1 & D2 & D3 & D4 & D5 & D6).
    unfold run_fits.
    assert (Ep : prepared c' f = prepared c f) by now rewrite Ec. rewrite Ep.
    destruct (prepared c f) as [f1|]; cbn [rbind]; [|reflexivity].
    destruct (input_range (with_weights f1)) as [range|]; cbn [rbind]; [|reflexivity].
    pose proof (fun mode => same_all dic D3 D4 D1 D2 c c' Pc Pc' Et Es Ey Ew El En Pn D5 D6 mode (detect_freq_frame f) (with_weights f1)) as A.
    destruct (candidate_lists c (with_weights f1)) as [add mult], (candidate_lists c' (with_weights f1)) as [add' mult'].
    assert (Em : final_mode W c' (with_weights f1) = final_mode W c (with_weights f1)) by now rewrite Ec. rewrite Em.
    destruct (final_mode W c (with_weights f1)) as [mode|]; cbn [rbind]; [|reflexivity].
    destruct (A mode) as (Ea & Ma). rewrite Ea.
    destruct (model_actuals f (positive (with_weights f1))) as [act|]; cbn [rbind]; [|reflexivity].
    destruct (zmin_opt _) as [a|]; [|reflexivity]. destruct (zmax_opt _) as [b|]; [|reflexivity]. destruct (zmin_opt _) as [x|]; [|reflexivity].
    destruct (all_models c' mode (detect_freq_frame f) add' mult') as [|m ms]; [reflexivity|].
    match goal with |- rbind ?u _ = rbind ?v _ => replace v with u; [reflexivity|] end.
    apply rmapM_ext. intros m0 _. unfold fit_one. rewrite (label_members mode add add' m0 Ma). now rewrite Ec.
  Qed.
  Theorem single_order dic (W : world T) c c' s f : knows_defaults dic -> named (made_of dic) c -> all_of (made_of dic) (c_naive c) -> reordered c c' ->
    run_forecast_single W c s f = run_forecast_single W c' s f.
  Proof.
    intros D Pc Pn R. unfold run_forecast_single. rewrite (fits_order dic W c c' s f D Pc Pn R).
    destruct R as (_ & _ & _ & _ & _ & _ & ->). reflexivity.
  Qed.
  Theorem forecast_order dic (W : string -> world T) c c' id t : knows_defaults dic -> named (made_of dic) c -> all_of (made_of dic) (c_naive c) -> reordered c c' ->
    run_forecast W c id t = run_forecast W c' id t.
  Proof.
    intros D Pc Pn R. unfold run_forecast. destruct (normalize_df t) as [[f|]|]; cbn [rbind]; try reflexivity.
    destruct (negb (has_src f)).
    - now rewrite (single_order dic (W id) c c' id f D Pc Pn R).
    - match goal with |- rbind ?u _ = rbind ?v _ => replace v with u; [reflexivity|] end.
      apply rmapM_ext. intros s _. apply (single_order dic); assumption.
  Qed.

  (* ---- dictionaries ---- *)
  (* the parts with these names; the names must be different *)
  Definition dictionary (l : list M) (s : string) : option M := find (fun m => String.eqb (fm_name m) s) l.
  Lemma dictionary_in l m : NoDup (map fm_name l) -> In m l -> dictionary l (fm_name m) = Some m.
  Proof.
    unfold dictionary. induction l as [|a l IH]; intros D I; [destruct I|]. cbn [map] in D. inversion D as [|? ? Na Nl]. subst. cbn [find].
    destruct (String.eqb_spec (fm_name a) (fm_name m)) as [E|E].
    - destruct I as [->|I]; [reflexivity|]. exfalso. apply Na. rewrite E. now apply in_map.
    - destruct I as [->|I]; [congruence|]. now apply IH.
  Qed.
  Lemma parts_made l m : NoDup (map fm_name l) -> In m l -> plain (fm_name m) -> (fm_name m = "null" -> m = model_null) -> made_of (dictionary l) m.
  Proof.
    intros D I Pm Hn. destruct (String.eqb_spec (fm_name m) "null") as [E|E]; [rewrite (Hn E); apply of_null|].
    apply of_part; auto. now apply dictionary_in.
  Qed.
  Lemma reordered_refl c : reordered c c.
  Proof.
    assert (R : forall o, same_members o o) by (intros [l|]; cbn; [intros m; reflexivity|exact I]).
    repeat split; try apply R; [destruct (c_naive c); cbn; [reflexivity|exact I]|]. now destruct c.
  Qed.
End ListOrder.
