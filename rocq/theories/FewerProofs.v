(* Candidates that lose leave no trace (C87). *)
From Coq Require Import ZArith String List Bool Lia Permutation Sorted.
From Verif Require Import Num Py Cal Model Base Naive Fixed Freq Normalize Aic Fit Interp Select Pi Forecast.
From Verif Require Import ListProofs StringProofs ModelProofs SelectProofs ForecastProofs ForecastProofs2 ExtendProofs ShiftProofs CacheRunProofs ListOrderProofs.
Import ListNotations.
Local Open Scope string_scope.
Local Open Scope list_scope.

Lemma NoDup_map_inj {A B} (h : A -> B) (l : list A) a b : NoDup (map h l) -> In a l -> In b l -> h a = h b -> a = b.
Proof.
  induction l as [|x l IH]; intros D Ia Ib E; [destruct Ia|]. cbn in D. apply NoDup_cons_iff in D as [Nx D].
  destruct Ia as [->|Ia], Ib as [->|Ib]; auto.
  - exfalso. apply Nx. rewrite E. now apply in_map.
  - exfalso. apply Nx. rewrite <- E. now apply in_map.
Qed.

Lemma Forall2_in_l {A B} (P : A -> B -> Prop) l r a : Forall2 P l r -> In a l -> exists b, In b r /\ P a b.
Proof. induction 1 as [|x y l r H _ IH]; intros I; [destruct I|]. destruct I as [->|I]; [exists y; split; [now left|exact H]|]. destruct (IH I) as (b & J & K). exists b. split; [now right|exact K]. Qed.

Section Sub.
  Context {T : Type} {N : NumOps T}.
  Notation M := (fmodel T).
  (* ---- specification ---- *)
  (* some of the models of a list, but not none of them *)
  Definition some_of (l' l : list M) : Prop := incl l' l /\ (l' = [] -> l = []).
  Definition some_of_opt (o' o : option (list M)) : Prop :=
    match o', o with Some l', Some l => some_of l' l | None, None => True | _, _ => False end.
  (* the naive models may be dropped altogether *)
  Definition naive_of (o' o : option (list M)) : Prop :=
    match o', o with Some l', Some l => incl l' l /\ NoDup (map fm_name l') | None, None => True | _, _ => False end.
  Definition fewer (c' c : config T) : Prop :=
    some_of_opt (c_trend c') (c_trend c) /\ some_of_opt (c_season c') (c_season c) /\ some_of_opt (c_yearly c') (c_yearly c) /\
    some_of_opt (c_weekly c') (c_weekly c) /\ some_of_opt (c_calendar c') (c_calendar c) /\ naive_of (c_naive c') (c_naive c) /\
    c' = with_lists c (c_trend c') (c_season c') (c_yearly c') (c_weekly c') (c_naive c') (c_calendar c').
  (* The sort by score: of some rows, with different models, that include the best of all, it puts the
     same one first. *)
  Definition prefers (W : world T) : Prop :=
    (forall l, Permutation (w_sort W l) l) /\
    forall l l' b rest, NoDup (map (@md_model T) l) -> w_sort W l = b :: rest -> sublist l' l -> In b l' -> exists rest', w_sort W l' = b :: rest'.

  Section Lists.
    Variable P : M -> Prop.
    Hypothesis P_null : P model_null.
    Hypothesis P_linear : P model_linear.
    Hypothesis P_ramp : P model_ramp.
    Hypothesis P_wday : P model_season_wday.
    Hypothesis P_fourier : P model_season_fourier_yearly.
    Hypothesis P_madd : forall m1 m2, P m1 -> P m2 -> P (madd m1 m2).
    Hypothesis P_mmul : forall m1 m2, P m1 -> P m2 -> P (mmul m1 m2).
    Hypothesis P_unique : forall a b, P a -> P b -> fm_name a = fm_name b -> a = b.

    Lemma dedup_same l : Forall P l -> members (dedup model_eqb l) l.
    Proof.
      intros F m. destruct (dedup_models l) as (_ & _ & S3 & S4). split.
      - intros I. apply S4 in I. now apply find_some in I as [I _].
      - intros I. assert (J : In (fm_name m) (map fm_name (dedup model_eqb l))) by (apply S3; now apply in_map).
        apply in_map_iff in J as (m' & E & I'). rewrite Forall_forall in F.
        replace m with m'; [exact I'|]. apply P_unique; [apply F|now apply F|exact E].
        apply S4 in I'. now apply find_some in I' as [I' _].
    Qed.
    Lemma dedup_nil (l : list M) : dedup model_eqb l = [] -> l = [].
    Proof. destruct l; [reflexivity|discriminate]. Qed.
    Lemma some_dedup l' l : Forall P l' -> Forall P l -> some_of l' l -> some_of (dedup model_eqb l') (dedup model_eqb l).
    Proof.
      intros F' F (I & E). split.
      - intros m J. apply (dedup_same l F). apply I. now apply (dedup_same l' F').
      - intros K. apply dedup_nil in K. now rewrite (E K).
    Qed.
    Lemma some_combine op (t' t s' s : list M) : incl t' t -> incl s' s -> incl (combinations op t' s') (combinations op t s).
    Proof.
      intros E E' m. unfold combinations. rewrite !in_flat_map. intros (x & Ix & J); apply in_map_iff in J as (y & <- & Iy); exists x; split; [now apply E|].
      apply in_map. now apply E'.
    Qed.
    Lemma some_nil (l : list M) : some_of l [] -> l = [].
    Proof. intros (E & _). destruct l as [|m l]; [reflexivity|]. destruct (E m (or_introl eq_refl)). Qed.
    Lemma combined_made op t s : (forall a b, P a -> P b -> P (op a b)) -> Forall P t -> Forall P s -> Forall P (combinations op t s).
    Proof.
      intros Po Ft Fs. rewrite Forall_forall in Ft, Fs. unfold combinations. apply Forall_forall. intros m I. apply in_flat_map in I as (k & Iu & I).
      apply in_map_iff in I as (h & <- & Iv). apply Po; auto.
    Qed.
    Lemma some_list t' t s' s mode : Forall P t' -> Forall P t -> all_of P s' -> all_of P s -> some_of t' t -> some_of_opt s' s ->
      some_of (list_model (Some t') s' mode) (list_model (Some t) s mode).
    Proof.
      intros Ft' Ft Fs' Fs E E'. unfold list_model.
      destruct s' as [s'|], s as [s|]; cbn [some_of_opt] in E'; try contradiction; [|now apply some_dedup]. destruct E' as [E' E''].
      destruct s as [|a s].
      { replace s' with (@nil M) in * by (symmetry; apply some_nil; now split). now apply some_dedup. }
      destruct s' as [|a' s']; [specialize (E'' eq_refl); discriminate|].
      destruct t as [|b t].
      { apply some_nil in E as ->. apply some_dedup; auto. now split. }
      destruct t' as [|b' t']; [destruct E as [_ E]; specialize (E eq_refl); discriminate|].
      cbn in Fs, Fs'. rewrite !product_map. apply some_dedup.
      - apply Forall_app. split; destruct (String.eqb _ _); first [apply Forall_nil|now apply combined_made].
      - apply Forall_app. split; destruct (String.eqb _ _); first [apply Forall_nil|now apply combined_made].
      - destruct E as [E _]. split.
        + apply incl_app; [apply incl_appl|apply incl_appr]; destruct (String.eqb _ _); first [apply incl_refl|now apply some_combine].
        + unfold combinations. cbn [flat_map map app]. destruct (String.eqb_spec mode "mult") as [->|]; [cbn; discriminate|discriminate].
    Qed.

    Lemma some_refl l : some_of l l.
    Proof. split; [apply incl_refl|auto]. Qed.
    Lemma some_season_list use dflt o' o : some_of_opt o' o -> some_of (Select.season_list use dflt o') (Select.season_list use dflt o).
    Proof.
      intros E. unfold Select.season_list. destruct use; [|apply some_refl]. destruct o' as [l'|], o as [l|]; cbn [some_of_opt] in E; try contradiction; [|apply some_refl]. destruct E as [E E'].
      destruct l' as [|a' l']; [rewrite (E' eq_refl); apply some_refl|].
      destruct l as [|a l]; [destruct (E a' (or_introl eq_refl))|]. now split.
    Qed.
    Lemma some_steps mode w' w y' y : Forall P w' -> Forall P w -> Forall P y' -> Forall P y -> some_of w' w -> some_of y' y ->
      some_of (fold_left (season_step mode) (product w' y') [model_null]) (fold_left (season_step mode) (product w y) [model_null]).
    Proof.
      intros Fw' Fw Fy' Fy [Ew _] [Ey _].
      assert (K : forall f (l' l : list M), incl l' l -> incl (filter f l') (filter f l)).
      { intros f l' l E m J. apply filter_In in J as [J1 J2]. apply filter_In. split; auto. }
      destruct (String.eqb_spec mode "add") as [->|Na]; [|destruct (String.eqb_spec mode "mult") as [->|Nm]].
      - rewrite !step_add, !product_map. split; [|discriminate]. apply incl_app; [apply incl_appl, incl_refl|apply incl_appr]. apply K. now apply some_combine.
      - rewrite !step_mult, !product_map.
        change (some_of (dedup model_eqb (model_null :: filter SelectProofs.not_null (combinations mmul w' y'))) (dedup model_eqb (model_null :: filter SelectProofs.not_null (combinations mmul w y)))).
        assert (G : forall l, Forall P l -> Forall P (model_null :: filter SelectProofs.not_null l)).
        { intros l F. constructor; [exact P_null|]. rewrite Forall_forall in *. intros m I. apply filter_In in I as [I _]. auto. }
        apply some_dedup; [apply G; now apply combined_made|apply G; now apply combined_made|]. split; [|discriminate].
        intros m [<-|J]; [now left|right]. revert m J. apply K. now apply some_combine.
      - assert (Kn : forall l acc, fold_left (season_step mode) l acc = acc).
        { induction l as [|p l IH]; intros acc; [reflexivity|]. cbn [fold_left]. rewrite IH. unfold season_step.
          rewrite (proj2 (String.eqb_neq mode "add") Na), (proj2 (String.eqb_neq mode "mult") Nm). reflexivity. }
        rewrite !Kn. apply some_refl.
    Qed.
    Lemma isort_nil (l : list M) : isort model_leb l = [] -> l = [].
    Proof. intros E. pose proof (isort_perm model_leb l) as Q. rewrite E in Q. now apply Permutation_sym, Permutation_nil in Q. Qed.
    Lemma some_auto mode ly' ly lw' lw ds : all_of P ly' -> all_of P ly -> all_of P lw' -> all_of P lw -> some_of_opt ly' ly -> some_of_opt lw' lw ->
      some_of (auto_season mode ly' lw' ds) (auto_season mode ly lw ds).
    Proof.
      intros Fy' Fy Fw' Fw Ey Ew. unfold auto_season. destruct (date_gap ds) as [g|], (date_span ds) as [sp|]; try apply some_refl.
      assert (D1 : Forall P [model_season_wday; model_null]) by (constructor; [exact P_wday|constructor; [exact P_null|constructor]]).
      assert (D2 : Forall P [model_season_fourier_yearly; model_null]) by (constructor; [exact P_fourier|constructor; [exact P_null|constructor]]).
      match goal with |- some_of (isort _ (fold_left _ (product ?a ?b) _)) (isort _ (fold_left _ (product ?a2 ?b2) _)) =>
        assert (K : some_of (fold_left (season_step mode) (product a b) [model_null]) (fold_left (season_step mode) (product a2 b2) [model_null])) end.
      { apply some_steps; first [now apply some_season_list|apply (closed_season_list P); assumption]. }
      destruct K as [K1 K2]. split.
      - intros m J. apply isort_in in J. apply isort_in. now apply K1.
      - intros J. apply isort_nil in J. unfold season_step in K2. rewrite (K2 J). reflexivity.
    Qed.

    Variables c' c : config T.
    Hypothesis Pc : named P c.
    Hypothesis E_fewer : fewer c' c.
    Lemma some_all (o' o : option (list M)) : some_of_opt o' o -> all_of P o -> all_of P o'.
    Proof. intros E. destruct o' as [l'|], o as [l|]; cbn [some_of_opt] in E; try contradiction; [|auto]. destruct E as [E _]. cbn. rewrite !Forall_forall. intros F m I. apply F. now apply E. Qed.
    Lemma fewer_named : named P c'.
    Proof.
      destruct E_fewer as (Et & Es & Ey & Ew & El & _). destruct Pc as (P1 & P2 & P3 & P4 & P5).
      repeat split; [exact (some_all _ _ Et P1)|exact (some_all _ _ Es P2)|exact (some_all _ _ Ey P3)|exact (some_all _ _ Ew P4)|exact (some_all _ _ El P5)].
    Qed.
    Lemma fewer_candidates f : some_of (fst (candidate_lists c' f)) (fst (candidate_lists c f)) /\ some_of (snd (candidate_lists c' f)) (snd (candidate_lists c f)).
    Proof.
      pose proof fewer_named as Pc'. destruct E_fewer as (Et0 & Es0 & Ey & Ew & El & _).
      destruct Pc as (Pt & Ps & Py & Pw & Pl), Pc' as (Pt' & Ps' & Py' & Pw' & Pl'). unfold candidate_lists.
      assert (Fd : Forall P (default_trend f)).
      { unfold default_trend. destruct (use_ramp f); repeat (constructor; [first [exact P_linear|apply P_madd; [exact P_linear|exact P_ramp]]|]); constructor. }
      set (t := match c_trend c with Some l => l | None => default_trend f end). set (t' := match c_trend c' with Some l => l | None => default_trend f end).
      assert (Ft : Forall P t) by (unfold t; destruct (c_trend c); assumption).
      assert (Ft' : Forall P t') by (unfold t'; destruct (c_trend c'); assumption).
      assert (Et : some_of t' t) by (unfold t, t'; destruct (c_trend c'), (c_trend c); first [exact Et0|apply some_refl|destruct Et0]).
      set (s := fun mode => match c_season c with Some l => Some l | None => if has_date f then Some (auto_season mode (c_yearly c) (c_weekly c) (weighted_dates f)) else None end).
      set (s' := fun mode => match c_season c' with Some l => Some l | None => if has_date f then Some (auto_season mode (c_yearly c') (c_weekly c') (weighted_dates f)) else None end).
      assert (Fs : forall mode, all_of P (s mode)).
      { intros mode. unfold s. destruct (c_season c); [exact Ps|]. destruct (has_date f); [|exact I]. now apply (closed_auto P). }
      assert (Fs' : forall mode, all_of P (s' mode)).
      { intros mode. unfold s'. destruct (c_season c'); [exact Ps'|]. destruct (has_date f); [|exact I]. now apply (closed_auto P). }
      assert (Es : forall mode, some_of_opt (s' mode) (s mode)).
      { intros mode. unfold s, s'. destruct (c_season c'), (c_season c); cbn [some_of_opt] in Es0; try contradiction; [exact Es0|]. destruct (has_date f); [|exact I]. now apply some_auto. }
      assert (Fl : forall t s mode, Forall P t -> all_of P s -> Forall P (list_model (Some t) s mode)).
      { intros. now apply (closed_list P). }
      pose proof (Es "add") as Es1. pose proof (Es "mult") as Es2. pose proof (Fs "add") as Fs1. pose proof (Fs "mult") as Fs2. pose proof (Fs' "add") as Fs3. pose proof (Fs' "mult") as Fs4.
      unfold s, s' in Es1, Es2, Fs1, Fs2, Fs3, Fs4. clearbody t t'.
      destruct (c_calendar c') as [cal'|], (c_calendar c) as [cal|]; cbn [some_of_opt] in El; try contradiction.
      - destruct (use_calendar f); cbn [fst snd]; split; repeat (apply some_list; auto).
      - cbn [fst snd]; split; apply some_list; auto.
    Qed.

    (* ---- sorted lists with different names ---- *)
    Lemma sorted_sublist : forall l l' : list M, Forall P l -> NoDup (map fm_name l) -> NoDup (map fm_name l') -> incl l' l ->
      StronglySorted name_le l -> StronglySorted name_le l' -> sublist l' l.
    Proof.
      induction l as [|a l IH]; intros l' F D D' I S1 S2.
      { destruct l' as [|b l']; [constructor|]. destruct (I b (or_introl eq_refl)). }
      destruct l' as [|b l'].
      { clear. induction (a :: l); constructor; auto. }
      pose proof D' as D0. pose proof S2 as S0. cbn [map] in D, D'. apply NoDup_cons_iff in D as [Da Dl], D' as [Db Dl']. apply StronglySorted_inv in S1 as [S1' Ha], S2 as [S2' Hb]. apply Forall_cons_iff in F as [Pa Fl].
      destruct (I b (or_introl eq_refl)) as [<-|Ib].
      - apply sub_keep. apply IH; auto. intros m J. destruct (I m (or_intror J)) as [<-|K]; [|exact K]. exfalso. apply Db. now apply in_map.
      - apply sub_skip. apply IH; auto. intros m J. destruct (I m J) as [<-|K]; [|exact K]. exfalso.
        destruct J as [->|J]; [apply Da; now apply in_map|].
        assert (fm_name b = fm_name a) as E.
        { rewrite Forall_forall in Ha, Hb. apply str_leb_antisym; [exact (Hb a J)|exact (Ha b Ib)]. }
        apply Db. rewrite E. now apply in_map.
    Qed.
    Hypothesis P_naive : all_of P (c_naive c).
    Hypothesis D_naive : P model_naive.
    Hypothesis D_snaive : P model_snaive_wday.
    Lemma fewer_all mode freq f : let models := all_models c mode freq (fst (candidate_lists c f)) (snd (candidate_lists c f)) in
      let models' := all_models c' mode freq (fst (candidate_lists c' f)) (snd (candidate_lists c' f)) in
      Forall P models /\ (NoDup (map fm_name models) -> mode = "add" \/ mode = "mult" -> sublist models' models).
    Proof.
      intros models models'. pose proof fewer_named as Pc'.
      destruct (fewer_candidates f) as ((Ia & _) & (Im & _)).
      destruct (candidate_lists c f) as [add mult] eqn:E1, (candidate_lists c' f) as [add' mult'] eqn:E2. cbn [fst snd] in models, models', Ia, Im.
      pose proof (closed_candidates P P_null P_linear P_ramp P_wday P_fourier P_madd P_mmul c f _ _ Pc E1) as [Fa Fm].
      assert (Na : NoDup (map fm_name add') /\ NoDup (map fm_name mult')).
      { clear - E2. unfold candidate_lists in E2. destruct (c_calendar c'); try destruct (use_calendar f); injection E2 as <- <-; split;
          match goal with |- NoDup (map fm_name (list_model ?a ?b ?m)) => unfold list_model; match goal with |- NoDup (map fm_name (dedup _ ?l)) => exact (proj1 (proj2 (dedup_models l))) end end. }
      assert (Fn : Forall P match c_naive c with Some n => n | None => default_naive freq end).
      { destruct (c_naive c) as [l|]; [exact P_naive|]. unfold default_naive. destruct freq as [s|]; [destruct (String.eqb s "D")|]; (constructor; [|constructor]); assumption. }
      assert (Fl : Forall P models).
      { unfold models, all_models. apply Forall_isort. apply Forall_app. split; [exact Fn|]. destruct (String.eqb mode "add"); [exact Fa|]. destruct (String.eqb mode "mult"); [exact Fm|]. apply Forall_dedup. now apply Forall_app. }
      split; [exact Fl|]. intros D Hm.
      set (n := match c_naive c with Some n => n | None => default_naive freq end) in *. set (n' := match c_naive c' with Some n => n | None => default_naive freq end).
      assert (En : incl n' n /\ NoDup (map fm_name n')).
      { destruct E_fewer as (_ & _ & _ & _ & _ & En & _). unfold n, n'. destruct (c_naive c') as [l'|], (c_naive c) as [l|]; cbn [naive_of] in En; try contradiction; [exact En|]. split; [apply incl_refl|].
        unfold default_naive. destruct freq as [s|]; [destruct (String.eqb s "D")|]; repeat constructor; intros []. }
      destruct En as (In1 & Dn'). destruct Na as (Da' & Dm').
      set (a := if String.eqb mode "add" then add else mult). set (a' := if String.eqb mode "add" then add' else mult').
      assert (Ea : models = isort model_leb (n ++ a) /\ models' = isort model_leb (n' ++ a')).
      { unfold models, models', all_models, a, a'. destruct Hm as [->| ->]; split; reflexivity. }
      destruct Ea as (Ea & Ea'). assert (Iaa : incl a' a) by (unfold a, a'; destruct (String.eqb mode "add"); assumption).
      assert (Daa : NoDup (map fm_name a')) by (unfold a'; destruct (String.eqb mode "add"); assumption).
      assert (Pm : forall l : list M, Permutation (map fm_name (isort model_leb l)) (map fm_name l)) by (intros l; apply Permutation_map; symmetry; apply isort_perm).
      rewrite Ea in D. pose proof (Permutation_NoDup (Pm _) D) as D2. rewrite map_app in D2.
      rewrite Ea, Ea'. apply sorted_sublist; try apply model_sorted.
      - rewrite <- Ea. exact Fl.
      - exact D.
      - apply (Permutation_NoDup (Permutation_sym (Pm _))). rewrite map_app.
        assert (Dj : forall x, In x (map fm_name n') -> ~ In x (map fm_name a')).
        { intros x J K. assert (J' : In x (map fm_name n)) by (apply in_map_iff in J as (m & <- & J); apply in_map; auto).
          assert (K' : In x (map fm_name a)) by (apply in_map_iff in K as (m & <- & K); apply in_map; auto).
          clear - D2 J' K'. induction (map fm_name n) as [|z l IH]; [destruct J'|]. inversion D2; subst. destruct J' as [->|J']; [apply H1; apply in_or_app; now right|auto]. }
        clear - Dn' Daa Dj. induction (map fm_name n') as [|z l IH]; [exact Daa|]. cbn. inversion Dn'; subst. constructor.
        + intros K. apply in_app_or in K as [K|K]; [auto|]. exact (Dj z (or_introl eq_refl) K).
        + apply IH; auto. intros x J. apply Dj. now right.
      - intros m J. apply isort_in in J. apply isort_in. apply in_app_or in J as [J|J]; apply in_or_app; auto.
    Qed.
  End Lists.

  (* ---- models that are not simplified ---- *)
  (* on this data no parameter of the model has equal bounds *)
  Definition intact (u : frame T) (m : M) : Prop := forall b,
    fm_bounds m (Some (apply_a_x_scaling (map (fun r => nofZ (r_x r)) (rows (fit_rows u))) (Some m))) (Some (map r_y (rows (fit_rows u))))
      (if has_date (fit_rows u) then Some (map r_date (rows (fit_rows u))) else None) = Ok b -> equal_bounds b = [].
  Lemma own_name E (m : M) f freq src act uc d : intact f m -> fit_model E m f freq src act uc = Ok d -> md_model d = fm_name m.
  Proof.
    intros F. unfold fit_model, fit_model_with. intros K.
    destruct (range_label _ _ _) as [rg|]; cbn [rbind] in K; [|discriminate].
    destruct (Nat.ltb _ _); [now injection K as <-|].
    destruct (validate_input _ _ _ _) as [v|]; cbn [rbind] in K; [|discriminate].
    destruct (negb v); [now injection K as <-|].
    destruct (simplify_model _ _ _ _ _) as [ms|] eqn:Es; cbn [rbind] in K; [|discriminate].
    assert (Q : ms = m).
    { unfold simplify_model in Es. destruct (fm_bounds m _ _ _) as [b|] eqn:Eb; cbn [rbind] in Es; [|discriminate]. rewrite (F b Eb) in Es. destruct (negb _); [discriminate|]. now injection Es as <-. }
    subst ms.
    destruct (Nat.eqb _ _).
    - destruct (get_residuals _ _ _ _ _ _ _ _) as [rs|]; cbn [rbind] in K; [|discriminate].
      destruct (get_aic_c _ _ _) as [s|]; cbn [rbind] in K; [|discriminate]. now injection K as <-.
    - destruct (optimize_least_squares _ _ _ _ _ _ _ _) as [[[su co] p]|]; cbn [rbind] in K; [|discriminate].
      destruct (get_aic_c _ _ _) as [s|]; cbn [rbind] in K; [|discriminate]. now injection K as <-.
  Qed.

  (* ---- sublists ---- *)
  Lemma sublist_in {A} (l' l : list A) : sublist l' l -> incl l' l.
  Proof. induction 1 as [|a l l' _ IH|a l l' _ IH]; intros x I; [destruct I|right; auto|]. destruct I as [->|I]; [now left|right; auto]. Qed.
  Lemma sublist_map {A B} (h : A -> B) l' l : sublist l' l -> sublist (map h l') (map h l).
  Proof. induction 1; cbn; [apply sub_nil|now apply sub_skip|now apply sub_keep]. Qed.
  Lemma sublist_filter {A} (f : A -> bool) l' l : sublist l' l -> sublist (filter f l') (filter f l).
  Proof. induction 1 as [|a l l' _ IH|a l l' _ IH]; cbn; [apply sub_nil| |]; destruct (f a); first [exact IH|now apply sub_skip|now apply sub_keep]. Qed.
  Lemma sublist_nodup {A} (l' l : list A) : sublist l' l -> NoDup l -> NoDup l'.
  Proof.
    induction 1 as [|a l l' S1 IH|a l l' S1 IH]; intros D; [constructor| |]; apply NoDup_cons_iff in D as [Na D]; [auto|].
    constructor; [|auto]. intros I. apply Na. now apply (sublist_in _ _ S1).
  Qed.
  Lemma filter_sublist {A} (f : A -> bool) (l : list A) : sublist (filter f l) l.
  Proof. induction l as [|a l IH]; cbn; [apply sub_nil|]. destruct (f a); [now apply sub_keep|now apply sub_skip]. Qed.
  Lemma sublist_fits {A B} (g : A -> res B) l' l : sublist l' l -> forall r' r, Forall2 (fun a b => g a = Ok b) l' r' -> Forall2 (fun a b => g a = Ok b) l r -> sublist r' r.
  Proof.
    induction 1 as [|a l l' _ IH|a l l' _ IH]; intros r' r F' F.
    - inversion F'; inversion F; constructor.
    - inversion F; subst. apply sub_skip. eauto.
    - inversion F as [|? b ? rb E1 F1]; inversion F' as [|? b' ? rb' E2 F2]; subst. rewrite E1 in E2. injection E2 as ->. apply sub_keep. eauto.
  Qed.

  (* ---- the output ---- *)
  Notation fitted := (meta T * string * list (drow T))%type.
  Definition name_of (p : fitted) : string := md_model (fst (fst p)).
  Definition chosen_data (b : option (meta T)) (l : list fitted) : list (drow T) := filter (fun r => d_best r || d_actual r) (map (flag_data b) (concat (map snd l))).
  Definition chosen_meta (b : option (meta T)) w (l : list fitted) : list (mrow T) :=
    filter (fun m => m_best m) (map (fun p => flag_meta b w (fst (fst p)) (snd (fst p))) l).
  (* rows carry the name of the model *)
  Definition labelled (p : fitted) : Prop := Forall (fun d => d_model d = name_of p /\ d_actual d = false) (snd p).
  Lemma not_chosen b w p l : labelled p -> (forall m, b = Some m -> md_model m <> name_of p) ->
    chosen_data b (p :: l) = chosen_data b l /\ chosen_meta b w (p :: l) = chosen_meta b w l.
  Proof.
    intros L Nb. split.
    - unfold chosen_data. cbn [map concat]. rewrite map_app, filter_app.
      assert (E : filter (fun r => d_best r || d_actual r) (map (flag_data b) (snd p)) = []); [|now rewrite E].
      induction L as [|d ds (E1 & E2) L IH]; [reflexivity|]. cbn [map filter]. change (d_best (flag_data b d)) with (is_best b (d_src d) (d_long d) (d_model d)). change (d_actual (flag_data b d)) with (d_actual d). rewrite E1, E2, orb_false_r.
      replace (is_best b (d_src d) (d_long d) (name_of p)) with false; [exact IH|]. symmetry. unfold is_best. destruct b as [m|]; [|reflexivity].
      rewrite (proj2 (String.eqb_neq _ _) (Nb m eq_refl)). apply andb_false_r.
    - unfold chosen_meta. cbn [map filter flag_meta m_best].
      replace (is_best b (md_source (fst (fst p))) (md_source_long (fst (fst p))) (md_model (fst (fst p)))) with false; [reflexivity|]. symmetry.
      unfold is_best. destruct b as [m|]; [|reflexivity]. unfold name_of in Nb. rewrite (proj2 (String.eqb_neq _ _) (Nb m eq_refl)). apply andb_false_r.
  Qed.
  Lemma none_chosen b w l : Forall labelled l -> (forall m, b = Some m -> ~ In (md_model m) (map name_of l)) -> chosen_data b l = [] /\ chosen_meta b w l = [].
  Proof.
    induction 1 as [|p l L F IH]; intros Nb; [now split|]. destruct (not_chosen b w p l L) as [-> ->].
    - intros m E K. apply (Nb m E). now left.
    - apply IH. intros m E K. apply (Nb m E). now right.
  Qed.
  Lemma same_chosen b w l' l : sublist l' l -> Forall labelled l -> NoDup (map name_of l) -> (forall m, b = Some m -> In (md_model m) (map name_of l')) ->
    chosen_data b l' = chosen_data b l /\ chosen_meta b w l' = chosen_meta b w l.
  Proof.
    induction 1 as [|p l' l Sl IH|p l' l Sl IH]; intros F D Ib; [now split| |]; apply Forall_cons_iff in F as [Lp F]; cbn [map] in D; apply NoDup_cons_iff in D as [Np D].
    - destruct (not_chosen b w p l Lp) as [-> ->]; [|now apply IH]. intros m E K. apply Np. rewrite <- K. apply (sublist_in _ _ (sublist_map name_of _ _ Sl)). now apply Ib.
    - assert (K : (forall m, b = Some m -> In (md_model m) (map name_of l')) \/ exists m, b = Some m /\ md_model m = name_of p).
      { destruct b as [m|]; [|left; discriminate]. destruct (Ib m eq_refl) as [J|J]; [right; exists m; auto|]. left. now intros ? [= <-]. }
      assert (G : chosen_data b l' = chosen_data b l /\ chosen_meta b w l' = chosen_meta b w l).
      { destruct K as [K|(m & -> & K)]; [now apply IH|].
        destruct (none_chosen (Some m) w l) as [-> ->]; [exact F|intros ? [= <-]; now rewrite K|].
        apply none_chosen.
        - rewrite Forall_forall in *. intros q J. apply F. now apply (sublist_in _ _ Sl).
        - intros ? [= <-]. rewrite K. intros J. apply Np. now apply (sublist_in _ _ (sublist_map name_of _ _ Sl)). }
      destruct G as [G1 G2]. split.
      + unfold chosen_data in *. cbn [map concat]. rewrite !map_app, !filter_app. now rewrite G1.
      + unfold chosen_meta in *. cbn [map filter]. destruct (m_best _); [f_equal|]; exact G2.
  Qed.
  Definition metas_of (l : list fitted) : list (meta T) := map (fun p => fst (fst p)) l.
  Lemma best_fewer W l' l : prefers W -> sublist l' l -> NoDup (map name_of l) ->
    (forall m, best_fit W (metas_of l) = Some m -> In (md_model m) (map name_of l')) -> best_fit W (metas_of l') = best_fit W (metas_of l).
  Proof.
    intros (Pe & Pr) Sl D Ib. unfold best_fit in *.
    pose proof (sublist_filter (fun d => md_fit d) _ _ (sublist_map (fun p : fitted => fst (fst p)) _ _ Sl)) as Sf. fold (metas_of l') (metas_of l) in Sf.
    destruct (w_sort W (filter (fun d => md_fit d) (metas_of l))) as [|b rest] eqn:E.
    - pose proof (Pe (filter (fun d => md_fit d) (metas_of l))) as Q. rewrite E in Q. apply Permutation_nil in Q. rewrite Q in Sf. inversion Sf as [E0| |].
      pose proof (Pe []) as Q'. apply Permutation_sym, Permutation_nil in Q'. now rewrite Q'.
    - assert (In1 : In b (filter (fun d => md_fit d) (metas_of l))) by (apply (Permutation_in b (Pe _)); rewrite E; now left).
      apply filter_In in In1 as [In1 Fb].
      assert (In2 : In b (filter (fun d => md_fit d) (metas_of l'))).
      { apply filter_In. split; [|exact Fb]. specialize (Ib b eq_refl). apply in_map_iff in Ib as (p & Ep & Ip). unfold metas_of in *.
        apply in_map_iff in In1 as (q & Eq & Iq). assert (p = q) as ->.
        { pose proof (sublist_in _ _ Sl p Ip) as Ip2. apply (NoDup_map_inj name_of l p q D Ip2 Iq). unfold name_of. now rewrite Eq. }
        apply in_map_iff. now exists q. }
      destruct (Pr (filter (fun d => md_fit d) (metas_of l)) (filter (fun d => md_fit d) (metas_of l')) b rest) as (rest' & ->); auto.
      apply (sublist_nodup _ (map name_of l)); [|exact D]. unfold name_of, metas_of. rewrite <- (map_map (fun p : fitted => fst (fst p)) (@md_model T)).
      apply sublist_map. apply filter_sublist.
  Qed.
  Lemma assemble_fewer W w acts l' l : prefers W -> sublist l' l -> Forall labelled l -> NoDup (map name_of l) ->
    (forall m, best_fit W (metas_of l) = Some m -> In (md_model m) (map name_of l')) -> assemble W false w acts l' = assemble W false w acts l.
  Proof.
    intros Pw Sl F D Ib. pose proof (best_fewer W l' l Pw Sl D Ib) as Eb. unfold assemble. fold (metas_of l') (metas_of l). rewrite Eb.
    destruct (same_chosen (best_fit W (metas_of l)) w l' l Sl F D Ib) as [E1 E2]. rewrite !map_app, !filter_app. unfold chosen_data, chosen_meta in E1, E2. now rewrite E1, E2.
  Qed.

  (* ---- the forecast ---- *)
  Section Run.
    Variable dic : string -> option M.
    Hypothesis D : knows_defaults dic.
    Variables c' c : config T.
    Hypothesis Pc : named (made_of dic) c.
    Hypothesis Pn : all_of (made_of dic) (c_naive c).
    Hypothesis Fc : fewer c' c.
    Hypothesis Mc : Forecast.c_mode c = "auto" \/ Forecast.c_mode c = "add" \/ Forecast.c_mode c = "mult".

    Lemma final_add_mult W f mode : final_mode W c f = Ok mode -> mode = "add" \/ mode = "mult".
    Proof.
      unfold final_mode. destruct Mc as [->|[->| ->]]; cbn [String.eqb Ascii.eqb Bool.eqb].
      - destruct (is_multiplicative _ _) as [b|]; cbn [rbind]; [|discriminate]. intros [= <-]. destruct b; auto.
      - intros [= <-]. auto.
      - intros [= <-]. auto.
    Qed.
    Lemma models_fewer W f mode freq : final_mode W c f = Ok mode ->
      NoDup (map fm_name (all_models c mode freq (fst (candidate_lists c f)) (snd (candidate_lists c f)))) ->
      sublist (all_models c' mode freq (fst (candidate_lists c' f)) (snd (candidate_lists c' f))) (all_models c mode freq (fst (candidate_lists c f)) (snd (candidate_lists c f))).
    Proof.
      intros Em Dn. destruct (defaults_made dic D) as (D1 & D2 & D3 & D4 & D5 & D6).
      destruct (fewer_all (made_of dic)) with (c' := c') (c := c) (mode := mode) (freq := freq) (f := f) as (A & B); auto.
      - apply of_null.
      - intros a b A1 B1. now apply of_sum.
      - intros a b A1 B1. now apply of_product.
      - intros a b A1 B1. now apply (made_unique dic).
      - apply B; [exact Dn|]. eapply final_add_mult. exact Em.
    Qed.
    (* no candidate is simplified on this series *)
    Definition unsimplified W f : Prop := forall f1 mode, prepared c f = Ok f1 -> final_mode W c (with_weights f1) = Ok mode ->
      Forall (intact (positive (with_weights f1))) (all_models c mode (detect_freq_frame f) (fst (candidate_lists c (with_weights f1))) (snd (candidate_lists c (with_weights f1)))).

    Lemma fit_same W s mode freq la la' u act o x0 m : mode = "add" \/ mode = "mult" -> fit_one W c' s mode freq la' u act o x0 m = fit_one W c s mode freq la u act o x0 m.
    Proof.
      intros Hm. destruct Fc as (_ & _ & _ & _ & _ & _ & Ec). rewrite Ec. unfold fit_one. cbn [with_lists c_cache c_years].
      assert (L : add_mult_label m mode la' = add_mult_label m mode la) by (unfold add_mult_label; destruct Hm as [->| ->]; reflexivity). now rewrite L.
    Qed.
    Lemma names_of_fits W k s mode freq la u act o x0 l fits : Forall (intact u) l -> Forall2 (fun m p => fit_one W k s mode freq la u act o x0 m = Ok p) l fits ->
      map name_of fits = map fm_name l /\ Forall labelled fits.
    Proof.
      intros Ff F. induction F as [|m p l r Hp F IH]; [split; constructor|]. apply Forall_cons_iff in Ff as [Fm Ff]. destruct (IH Ff) as [IH1 IH2].
      apply fit_one_contributes in Hp as (C & Hf & _). pose proof (own_name _ _ _ _ _ _ _ _ Fm Hf) as On. split.
      - cbn [map]. f_equal; [exact On|exact IH1].
      - constructor; [|exact IH2]. unfold labelled, name_of. destruct C as [_ _ C3]. eapply Forall_impl; [|exact C3]. intros d (_ & K1 & _ & K2). cbv beta. split; [rewrite K1; symmetry; exact On|exact K2].
    Qed.
    Lemma fits_fewer W s f w acts fits w' acts' fits' : run_fits W c s f = Ok (w, acts, fits) -> run_fits W c' s f = Ok (w', acts', fits') ->
      unsimplified W f -> NoDup (map name_of fits) -> w' = w /\ acts' = acts /\ sublist fits' fits /\ Forall labelled fits.
    Proof.
      intros E E' Ff Dn. destruct (run_fits_inv _ _ _ _ _ _ _ E) as (f1 & range & mode & act & st & sp & x0 & Ep & Ew & Er & Ea & Em & Eac & E1 & E2 & E3 & _ & F).
      destruct (run_fits_inv _ _ _ _ _ _ _ E') as (f1' & range' & mode' & act' & st' & sp' & x0' & Ep' & Ew' & Er' & Ea' & Em' & Eac' & E1' & E2' & E3' & _ & F').
      assert (Q : prepared c' f = prepared c f) by (destruct Fc as (_ & _ & _ & _ & _ & _ & Ec); now rewrite Ec). rewrite Q, Ep in Ep'. apply (f_equal (fun r => match r with Ok a => a | Err _ => f1 end)) in Ep'. subst f1'.
      assert (Q2 : final_mode W c' (with_weights f1) = final_mode W c (with_weights f1)) by (destruct Fc as (_ & _ & _ & _ & _ & _ & Ec); now rewrite Ec).
      rewrite Q2, Em in Em'. injection Em' as <-. rewrite Er in Er'. injection Er' as <-. rewrite Eac in Eac'. injection Eac' as <-.
      rewrite E1 in E1'. injection E1' as <-. rewrite E2 in E2'. injection E2' as <-. rewrite E3 in E3'. injection E3' as <-.
      specialize (Ff f1 mode Ep Em).
      pose proof (names_of_fits W c s mode (detect_freq_frame f) _ _ _ _ _ _ _ Ff F) as Nm.
      destruct Nm as (Nm & Lb). rewrite Nm in Dn. pose proof (models_fewer W (with_weights f1) mode (detect_freq_frame f) Em Dn) as Sm. split; [congruence|]. split; [subst; reflexivity|]. split; [|exact Lb].
      pose proof (final_add_mult W _ _ Em) as Hm.
      eapply (sublist_fits _ _ _ Sm); [|exact F]. eapply Forall2_impl'; [|exact F']. intros m p K. cbv beta in *. rewrite (fit_same W s mode (detect_freq_frame f) (fst (candidate_lists c (with_weights f1))) (fst (candidate_lists c' (with_weights f1)))) in K by exact Hm. exact K.
    Qed.

    Definition model_name (m : mrow T) : string := md_model (m_meta m).
    Lemma meta_names W b w acts fits data metas : assemble W b w acts fits = (data, metas) -> b = true -> map model_name metas = map name_of fits.
    Proof. intros E ->. unfold assemble in E. injection E as _ <-. rewrite map_map. reflexivity. Qed.
    Theorem single_fewer W s f r r' : prefers W -> unsimplified W f ->
      run_forecast_single W (ForecastProofs.set_all true c) s f = Ok r -> run_forecast_single W (ForecastProofs.set_all true c') s f = Ok r' ->
      NoDup (map model_name (rs_meta r)) ->
      sublist (map (fun m => (m_meta m, m_label m)) (rs_meta r')) (map (fun m => (m_meta m, m_label m)) (rs_meta r)) /\
      ((forall m, In m (rs_meta r) -> m_best m = true -> In (model_name m) (map model_name (rs_meta r'))) ->
       run_forecast_single W (ForecastProofs.set_all false c') s f = run_forecast_single W (ForecastProofs.set_all false c) s f).
    Proof.
      intros Pw Us E E' Dn. destruct (single_result _ _ _ _ _ E) as (w & acts & fits & Ef & Ea & _). destruct (single_result _ _ _ _ _ E') as (w' & acts' & fits' & Ef' & Ea' & _).
      rewrite (meta_names W true w acts fits _ _ Ea eq_refl) in Dn. destruct (fits_fewer W s f _ _ _ _ _ _ Ef Ef' Us Dn) as (-> & -> & Sf & Lb).
      split.
      - unfold assemble in Ea, Ea'. injection Ea as _ <-. injection Ea' as _ <-. rewrite !map_map.
        change (sublist (map (fun p : fitted => (set_weights w (fst (fst p)), snd (fst p))) fits') (map (fun p : fitted => (set_weights w (fst (fst p)), snd (fst p))) fits)).
        now apply sublist_map.
      - intros Ib. unfold run_forecast_single. rewrite !run_fits_all, Ef, Ef'. cbn [rbind c_all ForecastProofs.set_all].
        rewrite (assemble_fewer W w acts fits' fits Pw Sf Lb Dn).
        + destruct Fc as (_ & _ & _ & _ & _ & _ & Ec). rewrite Ec. reflexivity.
        + intros m Em. rewrite <- (meta_names W true w acts fits' _ _ Ea' eq_refl).
          assert (Im : In m (metas_of fits)).
          { unfold best_fit in Em. destruct Pw as [Pe _]. specialize (Pe (filter (fun d => md_fit d) (metas_of fits))). destruct (w_sort W _) as [|b rest]; [discriminate|]. injection Em as ->.
            assert (J : In m (filter (fun d => md_fit d) (metas_of fits))) by (apply (Permutation_in m Pe); now left). now apply filter_In in J. }
          unfold metas_of in Im. apply in_map_iff in Im as (p & Ep & Ip).
          unfold assemble in Ea. injection Ea as _ Em'. fold (metas_of fits) in Em'. rewrite Em in Em'.
          assert (Jm : In (flag_meta (Some m) w (fst (fst p)) (snd (fst p))) (rs_meta r)) by (rewrite <- Em'; apply in_map_iff; now exists p).
          specialize (Ib _ Jm). unfold model_name in Ib at 1. cbn [flag_meta m_meta m_best set_weights md_model] in Ib. rewrite Ep in Ib.
          apply Ib. apply is_best_iff. auto.
    Qed.
  End Run.

  (* ---- several series ---- *)
  Definition model_of (m : mrow T) : string * string := (md_source (m_meta m), md_model (m_meta m)).
  (* what a run does with the series of a table *)
  Definition series_of (id : string) (f : frame T) : list (string * frame T) :=
    if negb (has_src f) then [(id, f)]
    else map (fun s => (s, with_rows f (filter (fun r => String.eqb (r_src r) s) (rows f)))) (dedup String.eqb (map r_src (rows f))).
  Lemma single_sources W c s f r : run_forecast_single W c s f = Ok r -> forall m, In m (rs_meta r) -> md_source (m_meta m) = s.
  Proof. intros E. exact (proj2 (result_source _ _ _ _ _ E)). Qed.
  Lemma model_of_source s l : (forall m, In m l -> md_source (m_meta m) = s) -> map model_of l = map (fun n => (s, n)) (map model_name l).
  Proof. intros H. rewrite map_map. apply map_ext_in. intros m I. unfold model_of, model_name. now rewrite (H m I). Qed.
  Lemma NoDup_part {A B} (h : A -> B) l ls : NoDup (map h (concat ls)) -> In l ls -> NoDup (map h l).
  Proof.
    intros Dn I. apply in_split in I as (l1 & l2 & ->). rewrite concat_app, map_app in Dn. cbn [concat] in Dn. rewrite map_app in Dn.
    apply (sublist_nodup _ (map h (concat l1) ++ map h l ++ map h (concat l2))); [|exact Dn].
    clear. induction (map h (concat l1)) as [|x u IH]; [|now apply sub_skip]. cbn [app]. induction (map h l) as [|x v IH]; [|now apply sub_keep].
    cbn [app]. induction (map h (concat l2)) as [|x v IH]; [apply sub_nil|now apply sub_skip].
  Qed.
  Lemma NoDup_pair (s : string) (l : list string) : NoDup (map (fun n => (s, n)) l) -> NoDup l.
  Proof. apply NoDup_map_inv. Qed.
  Theorem forecast_fewer dic (W : string -> world T) c' c id t r r' : (forall s, prefers (W s)) -> knows_defaults dic -> named (made_of dic) c -> all_of (made_of dic) (c_naive c) -> fewer c' c ->
    Forecast.c_mode c = "auto" \/ Forecast.c_mode c = "add" \/ Forecast.c_mode c = "mult" ->
    (forall f s g, normalize_df t = Ok (Some f) -> In (s, g) (series_of id f) -> unsimplified c (W s) g) ->
    run_forecast W (ForecastProofs.set_all true c) id t = Ok (Some r) -> run_forecast W (ForecastProofs.set_all true c') id t = Ok (Some r') ->
    NoDup (map model_of (rs_meta r)) ->
    (forall m, In m (rs_meta r) -> m_best m = true -> In (model_of m) (map model_of (rs_meta r'))) ->
    run_forecast W (ForecastProofs.set_all false c') id t = run_forecast W (ForecastProofs.set_all false c) id t.
  Proof.
    intros Pw D Pc Pn Fc Mc Us E E' Dn Ib. unfold run_forecast in *. destruct (normalize_df t) as [[f|]|]; cbn [rbind] in *; try reflexivity. specialize (Us f). unfold series_of in Us.
    destruct (negb (has_src f)).
    - destruct (run_forecast_single (W id) (ForecastProofs.set_all true c) id f) as [q|] eqn:Eq; [|discriminate]. destruct (run_forecast_single (W id) (ForecastProofs.set_all true c') id f) as [q'|] eqn:Eq'; [|discriminate].
      cbn [rbind] in E, E'. injection E as ->. injection E' as ->.
      rewrite (model_of_source id) in Dn by exact (single_sources _ _ _ _ _ Eq). apply NoDup_pair in Dn.
      destruct (single_fewer dic D c' c Pc Pn Fc Mc (W id) id f r r' (Pw id) (Us id f eq_refl (or_introl eq_refl)) Eq Eq' Dn) as [_ R].
      rewrite R; [reflexivity|]. intros m I B. specialize (Ib m I B). apply in_map_iff in Ib as (m' & Em & I'). apply in_map_iff. exists m'. split; [|exact I']. unfold model_of in Em. unfold model_name. now injection Em.
    - destruct (rmapM (fun s => run_forecast_single (W s) (ForecastProofs.set_all true c) s _) _) as [qs|] eqn:Eq; [|discriminate].
      destruct (rmapM (fun s => run_forecast_single (W s) (ForecastProofs.set_all true c') s _) _) as [qs'|] eqn:Eq'; [|discriminate].
      cbn [rbind] in E, E'. injection E as <-. injection E' as <-. cbn [aggregate rs_meta] in Dn, Ib.
      apply rmapM_inv in Eq, Eq'.
      match goal with |- rbind ?u _ = rbind ?v _ => replace v with u; [reflexivity|] end.
      apply rmapM_ext. intros s Is.
      destruct (Forall2_in_l _ _ _ _ Eq Is) as (q & Iq & Hq). destruct (Forall2_in_l _ _ _ _ Eq' Is) as (q' & Iq' & Hq').
      assert (Dq : NoDup (map model_name (rs_meta q))).
      { apply (NoDup_pair s). rewrite <- (model_of_source s) by exact (single_sources _ _ _ _ _ Hq). apply (NoDup_part _ _ (map rs_meta qs) Dn). now apply in_map. }
      destruct (single_fewer dic D c' c Pc Pn Fc Mc (W s) s _ q q' (Pw s) (Us s _ eq_refl (in_map (fun s => (s, with_rows f (filter (fun r => String.eqb (r_src r) s) (rows f)))) _ _ Is)) Hq Hq' Dq) as [_ R].
      apply R. intros m I B. assert (J : In m (concat (map rs_meta qs))) by (apply in_concat; exists (rs_meta q); split; [now apply in_map|exact I]).
      specialize (Ib m J B). apply in_map_iff in Ib as (m' & Em & I'). apply in_concat in I' as (l & Il & I'). apply in_map_iff in Il as (q2 & <- & Iq2).
      destruct (Forall2_in_r _ _ _ _ Eq' Iq2) as (s2 & Is2 & Hq2). unfold model_of in Em. injection Em as Es En.
      rewrite (single_sources _ _ _ _ _ Hq m I), (single_sources _ _ _ _ _ Hq2 m' I') in Es. subst s2. rewrite Hq' in Hq2. injection Hq2 as <-.
      apply in_map_iff. now exists m'.
  Qed.

  (* ---- a stable sort ---- *)
  Section Stable.
    Context {A : Type} (leb : A -> A -> bool).
    Hypothesis Ht : total_leb leb.
    Hypothesis Hr : trans_leb leb.
    Lemma isort_head a l : isort leb (a :: l) = match isort leb l with [] => [a] | h :: rest => if leb a h then a :: h :: rest else h :: insert leb a rest end.
    Proof. cbn [isort]. destruct (isort leb l) as [|h rest]; [reflexivity|]. cbn [insert]. destruct (leb a h); reflexivity. Qed.
    Lemma head_first l b rest l' : NoDup l -> isort leb l = b :: rest -> sublist l' l -> In b l' -> exists rest', isort leb l' = b :: rest'.
    Proof.
      intros Dn E Sl. revert b rest Dn E. induction Sl as [|a l' l Sl IH|a l' l Sl IH]; intros b rest Dn E I; [destruct I| |]; apply NoDup_cons_iff in Dn as [Na Dn];
        rewrite isort_head in E; destruct (isort leb l) as [|h u] eqn:El.
      - injection E as <- _. exfalso. apply Na. now apply (sublist_in _ _ Sl).
      - destruct (leb a h); [injection E as <- _; exfalso; apply Na; now apply (sublist_in _ _ Sl)|]. injection E as <- _. now apply (IH h u).
      - injection E as <- _. assert (l = []) as -> by (destruct l; [reflexivity|]; pose proof (isort_length leb (a0 :: l)) as K; rewrite El in K; discriminate).
        destruct l' as [|x l']; [now exists []|]. destruct (sublist_in _ _ Sl x (or_introl eq_refl)).
      - rewrite isort_head. destruct (leb a h) eqn:Eh.
        + injection E as <- _. destruct (isort leb l') as [|h' u'] eqn:El'; [now exists []|].
          assert (Ih : In h' l) by (apply (sublist_in _ _ Sl); apply (isort_in leb); rewrite El'; now left).
          assert (L : leb h h' = true).
          { pose proof (isort_sorted leb l Ht Hr) as St. rewrite El in St. apply StronglySorted_inv in St as [_ Fh]. rewrite Forall_forall in Fh.
            apply (isort_in leb) in Ih. rewrite El in Ih. destruct Ih as [->|Ih]; [|now apply Fh]. destruct (Ht h' h') as [K|K]; exact K. }
          rewrite (Hr a h h' Eh L). now exists (h' :: u').
        + injection E as <- _. destruct I as [->|I]; [exfalso; apply Na; apply (isort_in leb); rewrite El; now left|].
          destruct (IH h u Dn eq_refl I) as (v & ->). rewrite Eh. now eexists.
    Qed.
  End Stable.
  Lemma sort_prefers (W : world T) leb : total_leb leb -> trans_leb leb -> w_sort W = isort leb -> prefers W.
  Proof.
    intros Ht Hr E. split.
    - intros l. rewrite E. symmetry. apply isort_perm.
    - intros l l' b rest Dn K Sl I. rewrite E in *. apply (head_first leb Ht Hr l b rest l'); auto. now apply NoDup_map_inv in Dn.
  Qed.

  (* ---- a test for models that are not simplified ---- *)
  Definition intact_b (u : frame T) (m : M) : bool :=
    match fm_bounds m (Some (apply_a_x_scaling (map (fun r => nofZ (r_x r)) (rows (fit_rows u))) (Some m))) (Some (map r_y (rows (fit_rows u))))
      (if has_date (fit_rows u) then Some (map r_date (rows (fit_rows u))) else None) with
    | Ok b => match equal_bounds b with [] => true | _ => false end
    | Err _ => true
    end.
  Definition unsimplified_b (c : config T) (W : world T) (f : frame T) : bool :=
    match prepared c f with
    | Err _ => true
    | Ok f1 => match final_mode W c (with_weights f1) with
               | Err _ => true
               | Ok mode => forallb (intact_b (positive (with_weights f1))) (all_models c mode (detect_freq_frame f) (fst (candidate_lists c (with_weights f1))) (snd (candidate_lists c (with_weights f1))))
               end
    end.
  Lemma unsimplified_test c W f : unsimplified_b c W f = true -> unsimplified c W f.
  Proof.
    intros E f1 mode E1 E2. unfold unsimplified_b in E. rewrite E1, E2 in E. rewrite forallb_forall in E. apply Forall_forall. intros m I. specialize (E m I).
    intros b Eb. unfold intact_b in E. rewrite Eb in E. destruct (equal_bounds b); [reflexivity|discriminate].
  Qed.
  Lemma series_test c (W : string -> world T) id t :
    match normalize_df t with Ok (Some f) => forallb (fun p => unsimplified_b c (W (fst p)) (snd p)) (series_of id f) | _ => true end = true ->
    forall f s g, normalize_df t = Ok (Some f) -> In (s, g) (series_of id f) -> unsimplified c (W s) g.
  Proof. intros E f s g En I. rewrite En in E. rewrite forallb_forall in E. apply unsimplified_test. exact (E _ I). Qed.
End Sub.
