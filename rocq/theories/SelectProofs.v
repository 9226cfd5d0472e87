(* Proofs about the choice of candidate models (C39, C40, C52, C55, C56). *)
From Coq Require Import ZArith String List Bool Lia Sorted Permutation.
From Verif Require Import Num Py Cal Model Base Naive Freq Select ListProofs StringProofs FreqProofs.
Import ListNotations.
Local Open Scope string_scope.
Local Open Scope list_scope.
Local Open Scope Z_scope.

(* ---------- spans and gaps of a set of dates ---------- *)
Definition spans (ds : list Z) (d : Z) : Prop := exists a b, In a ds /\ In b ds /\ d < b - a.
Definition close (ds : list Z) (g : Z) : Prop := exists a b, In a ds /\ In b ds /\ 0 < b - a <= g.

Lemma date_span_spec ds d : match date_span ds with Some s => d < s <-> spans ds d | None => ~ spans ds d end.
Proof.
  unfold date_span. destruct (zmax_opt (sort_uniq ds)) as [hi|] eqn:E1.
  - destruct (zmin_opt (sort_uniq ds)) as [lo|] eqn:E2.
    + apply zmax_opt_iff in E1 as [I1 B1]. apply zmin_opt_iff in E2 as [I2 B2]. rewrite sort_uniq_in in I1, I2.
      split; [intros L; exists lo, hi; auto|]. intros (a & b & Ia & Ib & L).
      specialize (B1 b). specialize (B2 a). rewrite sort_uniq_in in B1, B2. specialize (B1 Ib). specialize (B2 Ia). lia.
    + destruct (sort_uniq ds); [discriminate|discriminate].
  - intros (a & b & Ia & _). rewrite <- sort_uniq_in in Ia. destruct (sort_uniq ds); [destruct Ia|discriminate].
Qed.
Lemma date_gap_spec ds g : match date_gap ds with Some s => s <= g <-> close ds g | None => ~ close ds g end.
Proof.
  unfold date_gap. destruct (zmin_opt (zdiff (sort_uniq ds))) as [s|] eqn:E.
  - apply zmin_zdiff in E. unfold min_gap in E. split.
    + intros L. destruct E as ((a & b & Ia & Ib & J) & _). exists a, b. repeat split; auto; lia.
    + intros (a & b & Ia & Ib & L). destruct E as (_ & F). specialize (F a b Ia Ib). lia.
  - intros (a & b & Ia & Ib & L). pose proof (proj1 (zmin_zdiff_none ds) E a b Ia Ib). lia.
Qed.
Lemma date_span_set ds ds' : (forall t, In t ds <-> In t ds') -> date_span ds = date_span ds' /\ date_gap ds = date_gap ds'.
Proof. intros E. unfold date_span, date_gap. now rewrite (sort_uniq_set ds ds' E). Qed.
Lemma gap_span ds g : date_gap ds = Some g -> exists s, date_span ds = Some s.
Proof.
  intros E. unfold date_gap in E. unfold date_span. destruct (sort_uniq ds) as [|a l]; [discriminate|].
  cbn [zmax_opt zmin_opt]. eexists; reflexivity.
Qed.

Section S.
  Context {T : Type} `{NumOps T}.
  Notation M := (fmodel T).

  Inductive sublist {A} : list A -> list A -> Prop :=
  | sub_nil : sublist [] []
  | sub_skip a l l' : sublist l l' -> sublist l (a :: l')
  | sub_keep a l l' : sublist l l' -> sublist (a :: l) (a :: l').
  (* one model per name, the first with that name, in the original order *)
  Definition first_of_each_name (l r : list M) : Prop :=
    sublist r l /\ NoDup (map fm_name r) /\ (forall s, In s (map fm_name r) <-> In s (map fm_name l)) /\
    (forall m, In m r -> find (fun m' => String.eqb (fm_name m') (fm_name m)) l = Some m).

  Lemma dedup_model_aux (l : list M) : forall seen, let r := dedup_aux model_eqb seen l in
    sublist r l /\ NoDup (map fm_name r) /\
    (forall s, In s (map fm_name r) <-> In s (map fm_name l) /\ ~ In s (map fm_name seen)) /\
    (forall m, In m r -> find (fun m' => String.eqb (fm_name m') (fm_name m)) l = Some m).
  Proof.
    induction l as [|a l IH]; intros seen; cbn zeta.
    - cbn. repeat split; try constructor; tauto.
    - cbn [dedup_aux].
      assert (E : existsb (model_eqb a) seen = true <-> In (fm_name a) (map fm_name seen)).
      { rewrite existsb_exists, in_map_iff. unfold model_eqb. split.
        - intros (b & Ib & Eb). apply String.eqb_eq in Eb. exists b. auto.
        - intros (b & Eb & Ib). exists b. rewrite Eb, String.eqb_refl. auto. }
      destruct (existsb (model_eqb a) seen).
      + destruct (IH seen) as (S1 & S2 & S3 & S4). split; [now constructor|]. split; [exact S2|]. split.
        * intros s. rewrite S3. cbn. split; [tauto|]. intros [[<-|I] N]; [|tauto]. exfalso. apply N. now apply E.
        * intros m Im. cbn. rewrite S4 by exact Im. destruct (String.eqb_spec (fm_name a) (fm_name m)) as [Ea|]; [|reflexivity].
          exfalso. assert (In (fm_name m) (map fm_name (dedup_aux model_eqb seen l))) as K by now apply in_map.
          apply S3 in K as [_ K]. apply K. rewrite <- Ea. now apply E.
      + assert (Na : ~ In (fm_name a) (map fm_name seen)) by (rewrite <- E; discriminate).
        destruct (IH (a :: seen)) as (S1 & S2 & S3 & S4). split; [now constructor|]. split; [|split].
        * cbn. constructor; [|exact S2]. rewrite S3. cbn. tauto.
        * intros s. cbn. rewrite S3. cbn. destruct (string_dec (fm_name a) s) as [<-|Hs]; [tauto|]. tauto.
        * intros m [<-|Im]; cbn; [now rewrite String.eqb_refl|].
          rewrite S4 by exact Im. destruct (String.eqb_spec (fm_name a) (fm_name m)) as [Ea|]; [|reflexivity].
          exfalso. assert (In (fm_name m) (map fm_name (dedup_aux model_eqb (a :: seen) l))) as K by now apply in_map.
          apply S3 in K as [_ K]. apply K. left. exact Ea.
  Qed.
  Lemma dedup_models (l : list M) : first_of_each_name l (dedup model_eqb l).
  Proof. destruct (dedup_model_aux l []) as (S1 & S2 & S3 & S4). repeat split; auto; [intros K; now apply S3 in K|]. intros K. apply S3. cbn. tauto. Qed.

  (* every trend combined with every season, trends in the outer loop *)
  Definition combinations (op : M -> M -> M) (ts ss : list M) : list M := flat_map (fun t => map (op t) ss) ts.
  Lemma product_map (op : M -> M -> M) ts ss : map (fun p => op (fst p) (snd p)) (product ts ss) = combinations op ts ss.
  Proof.
    unfold product, combinations. induction ts as [|t ts IH]; [reflexivity|]. cbn [list_prod flat_map]. rewrite map_app, IH. f_equal.
    rewrite map_map. reflexivity.
  Qed.
  (* forecast.py 725-758 *)
  Definition candidates (mode : string) (ts ss : list M) : list M :=
    if String.eqb mode "add" then combinations madd ts ss
    else if String.eqb mode "mult" then combinations mmul ts ss
    else combinations madd ts ss ++ combinations mmul ts ss.
  Lemma list_model_both mode ts ss : ts <> [] -> ss <> [] ->
    first_of_each_name (candidates mode ts ss) (list_model (Some ts) (Some ss) mode).
  Proof.
    intros Ht Hs. unfold list_model. destruct ss as [|s ss]; [congruence|]. destruct ts as [|t ts]; [congruence|].
    rewrite !product_map. unfold candidates.
    destruct (String.eqb_spec mode "add") as [->|Ha].
    - cbn [String.eqb Ascii.eqb Bool.eqb]. rewrite app_nil_r. apply dedup_models.
    - destruct (String.eqb mode "mult"); [rewrite app_nil_l|]; apply dedup_models.
  Qed.
  Definition missing (l : option (list M)) : Prop := l = None \/ l = Some [].
  Definition given (l : option (list M)) : list M := match l with Some l => l | None => [] end.
  Lemma list_model_one l mode e : missing e ->
    first_of_each_name (given l) (list_model l e mode) /\ first_of_each_name (given l) (list_model e l mode).
  Proof.
    unfold list_model, given. intros [-> | ->]; destruct l as [[|a l]|]; split; apply dedup_models.
  Qed.

  (* ---------- automatic seasonality ---------- *)
  Definition weekly_data (ds : list Z) : Prop := spans ds (21 * DAY / 2) /\ close ds DAY.
  Definition yearly_data (ds : list Z) : Prop := spans ds (1095 * DAY / 2) /\ close ds (92 * DAY).
  Definition choice (use : Prop) (dflt : list M) (l : option (list M)) (r : list M) : Prop :=
    (use -> r = match l with None => dflt | Some [] => [model_null] | Some l => l end) /\ (~ use -> r = [model_null]).

  Definition season_step (mode : string) (acc : list M) (p : M * M) : list M :=
    let a := madd (fst p) (snd p) in
    let m := mmul (fst p) (snd p) in
    let acc1 := if String.eqb mode "add" && negb (model_eqb a model_null) then acc ++ [a] else acc in
    if String.eqb mode "mult" && negb (model_eqb m model_null) && negb (existsb (model_eqb m) acc1)
    then acc1 ++ [m] else acc1.
  Lemma uses ds gap span d g : date_gap ds = Some gap -> date_span ds = Some span ->
    ((d <? span) && (gap <=? g) = true <-> spans ds d /\ close ds g).
  Proof.
    intros E1 E2. pose proof (date_span_spec ds d) as S. pose proof (date_gap_spec ds g) as G. rewrite E1 in G. rewrite E2 in S.
    rewrite andb_true_iff, Z.ltb_lt, Z.leb_le. tauto.
  Qed.
  Lemma auto_unfold mode ly lw ds : exists cw cy,
    choice (weekly_data ds) [model_season_wday; model_null] lw cw /\
    choice (yearly_data ds) [model_season_fourier_yearly; model_null] ly cy /\
    auto_season mode ly lw ds = isort model_leb (fold_left (season_step mode) (product cw cy) [model_null]).
  Proof.
    unfold auto_season. destruct (date_gap ds) as [gap|] eqn:E1.
    - destruct (gap_span ds gap E1) as (span & E2). rewrite E2.
      exists (season_list ((21 * DAY / 2 <? span) && (gap <=? DAY)) [model_season_wday; model_null] lw),
        (season_list ((1095 * DAY / 2 <? span) && (gap <=? 92 * DAY)) [model_season_fourier_yearly; model_null] ly).
      pose proof (uses ds gap span (21 * DAY / 2) DAY E1 E2) as U1. pose proof (uses ds gap span (1095 * DAY / 2) (92 * DAY) E1 E2) as U2.
      split; [|split]; [| |reflexivity]; unfold season_list, choice; split; intros K.
      + apply U1 in K. now rewrite K.
      + destruct ((21 * DAY / 2 <? span) && (gap <=? DAY)) eqn:E; [|reflexivity]. exfalso. apply K. now apply U1.
      + apply U2 in K. now rewrite K.
      + destruct ((1095 * DAY / 2 <? span) && (gap <=? 92 * DAY)) eqn:E; [|reflexivity]. exfalso. apply K. now apply U2.
    - exists [model_null], [model_null]. pose proof (date_gap_spec ds DAY) as G1. pose proof (date_gap_spec ds (92 * DAY)) as G2.
      rewrite E1 in G1, G2. unfold weekly_data, yearly_data. split; [|split]; [split; tauto|split; tauto|].
      cbn [product list_prod map app fold_left]. unfold season_step. cbn [fst snd].
      assert (madd model_null model_null = model_null :> M) as -> by reflexivity.
      assert (mmul model_null model_null = model_null :> M) as -> by reflexivity.
      unfold model_eqb. rewrite String.eqb_refl. cbn [negb andb]. rewrite !andb_false_r. cbn [negb andb]. reflexivity.
  Qed.

  Definition not_null (m : M) : bool := negb (model_eqb m model_null).
  Lemma step_add l : forall acc, fold_left (season_step "add") l acc = acc ++ filter not_null (map (fun p => madd (fst p) (snd p)) l).
  Proof.
    induction l as [|p l IH]; intros acc; [now rewrite app_nil_r|]. cbn [fold_left map filter]. rewrite IH.
    unfold season_step. cbn [String.eqb Ascii.eqb Bool.eqb andb]. unfold not_null. destruct (negb (model_eqb (madd (fst p) (snd p)) model_null)); [|reflexivity].
    rewrite <- app_assoc. reflexivity.
  Qed.
  Lemma step_mult l : forall acc, fold_left (season_step "mult") l acc =
    acc ++ dedup_aux model_eqb acc (filter not_null (map (fun p => mmul (fst p) (snd p)) l)).
  Proof.
    assert (R : forall l acc acc', (forall m, existsb (model_eqb m) acc = existsb (model_eqb m) acc') ->
                dedup_aux model_eqb acc l = dedup_aux (@model_eqb T) acc' l).
    { intros l'. induction l' as [|a l' IH]; intros acc acc' E; [reflexivity|]. cbn. rewrite E.
      destruct (existsb (model_eqb a) acc'); [now apply IH|]. f_equal. apply IH. intros m. cbn. now rewrite E. }
    induction l as [|p l IH]; intros acc; [now rewrite app_nil_r|]. cbn [fold_left map filter]. rewrite IH.
    unfold season_step. cbn [String.eqb Ascii.eqb Bool.eqb andb]. unfold not_null at 2.
    destruct (negb (model_eqb (mmul (fst p) (snd p)) model_null)); cbn [andb negb]; [|reflexivity].
    cbn [dedup_aux]. destruct (existsb (model_eqb (mmul (fst p) (snd p))) acc) eqn:E; cbn [negb]; [reflexivity|].
    rewrite <- app_assoc. cbn [app]. do 2 f_equal. apply R. intros m. rewrite existsb_app. cbn. rewrite orb_false_r. apply orb_comm.
  Qed.

  Definition name_le (a b : M) : Prop := str_leb (fm_name a) (fm_name b) = true.
  Lemma model_leb_total : total_leb (@model_leb T).
  Proof. intros a b. apply str_leb_total. Qed.
  Lemma model_leb_trans : trans_leb (@model_leb T).
  Proof. intros a b c. apply str_leb_trans. Qed.
  Lemma model_sorted l : StronglySorted name_le (isort model_leb l).
  Proof. apply (isort_sorted model_leb); [exact model_leb_total|exact model_leb_trans]. Qed.

  (* the candidates for any season lists *)
  Lemma auto_season_add ly lw ds : exists cw cy,
    choice (weekly_data ds) [model_season_wday; model_null] lw cw /\
    choice (yearly_data ds) [model_season_fourier_yearly; model_null] ly cy /\
    StronglySorted name_le (auto_season "add" ly lw ds) /\
    Permutation (auto_season "add" ly lw ds)
      (model_null :: filter (fun m => negb (String.eqb (fm_name m) "null")) (combinations madd cw cy)).
  Proof.
    destruct (auto_unfold "add" ly lw ds) as (cw & cy & Cw & Cy & E). exists cw, cy. split; [exact Cw|]. split; [exact Cy|].
    rewrite E. split; [apply model_sorted|]. rewrite <- (isort_perm model_leb). rewrite step_add, product_map. reflexivity.
  Qed.
  Lemma auto_season_mult ly lw ds : exists cw cy,
    choice (weekly_data ds) [model_season_wday; model_null] lw cw /\
    choice (yearly_data ds) [model_season_fourier_yearly; model_null] ly cy /\
    StronglySorted name_le (auto_season "mult" ly lw ds) /\
    exists l, first_of_each_name (model_null :: combinations mmul cw cy) l /\ Permutation (auto_season "mult" ly lw ds) l.
  Proof.
    destruct (auto_unfold "mult" ly lw ds) as (cw & cy & Cw & Cy & E). exists cw, cy. split; [exact Cw|]. split; [exact Cy|].
    rewrite E. split; [apply model_sorted|]. exists (dedup model_eqb (model_null :: combinations mmul cw cy)). split; [apply dedup_models|].
    rewrite <- (isort_perm model_leb). rewrite step_mult, product_map. unfold dedup. cbn [dedup_aux existsb app].
    constructor. generalize (combinations mmul cw cy) as l. intros l.
    assert (K : forall seen, In "null" (map fm_name seen) -> dedup_aux model_eqb seen (filter not_null l) = dedup_aux (@model_eqb T) seen l).
    { induction l as [|a l IH]; intros seen Hs; [reflexivity|]. cbn [filter]. unfold not_null at 1. cbn [dedup_aux].
      destruct (model_eqb a model_null) eqn:Ea; cbn [negb].
      - replace (existsb (model_eqb a) seen) with true; [now apply IH|]. symmetry. apply existsb_exists.
        apply in_map_iff in Hs as (b & Eb & Ib). exists b. split; [exact Ib|]. unfold model_eqb in *. apply String.eqb_eq in Ea. rewrite Ea, Eb. reflexivity.
      - cbn [dedup_aux]. destruct (existsb (model_eqb a) seen); [now apply IH|]. f_equal. apply IH. now right. }
    rewrite K; [reflexivity|]. now left.
  Qed.
  Lemma auto_season_other mode ly lw ds : mode <> "add" -> mode <> "mult" -> auto_season mode ly lw ds = [model_null].
  Proof.
    intros Na Nm. destruct (auto_unfold mode ly lw ds) as (cw & cy & _ & _ & E). rewrite E.
    assert (K : forall l acc, fold_left (season_step mode) l acc = acc).
    { induction l as [|p l IH]; intros acc; [reflexivity|]. cbn [fold_left]. rewrite IH. unfold season_step.
      rewrite (proj2 (String.eqb_neq mode "add") Na), (proj2 (String.eqb_neq mode "mult") Nm). reflexivity. }
    rewrite K. reflexivity.
  Qed.
  Lemma auto_season_set mode ly lw ds ds' : (forall t, In t ds <-> In t ds') -> auto_season mode ly lw ds = auto_season mode ly lw ds'.
  Proof. intros E. unfold auto_season. destruct (date_span_set ds ds' E) as [-> ->]. reflexivity. Qed.

  (* with the default lists *)
  Definition wday_and_yearly_add : M := madd model_season_wday model_season_fourier_yearly.
  Definition wday_and_yearly_mult : M := mmul model_season_wday model_season_fourier_yearly.
  Lemma auto_default (ds : list Z) : 
    (weekly_data ds -> yearly_data ds ->
       auto_season "add" None None ds = [wday_and_yearly_add; model_null; model_season_fourier_yearly; model_season_wday] /\
       auto_season "mult" None None ds = [wday_and_yearly_mult; model_null; model_season_fourier_yearly; model_season_wday]) /\
    (weekly_data ds -> ~ yearly_data ds -> forall mode, mode = "add" \/ mode = "mult" ->
       auto_season mode None None ds = [model_null; model_season_wday]) /\
    (~ weekly_data ds -> yearly_data ds -> forall mode, mode = "add" \/ mode = "mult" ->
       auto_season mode None None ds = [model_null; model_season_fourier_yearly]) /\
    (~ weekly_data ds -> ~ yearly_data ds -> forall mode, auto_season mode None None ds = [model_null]).
  Proof.
    split; [|split; [|split]].
    - intros W Y. split.
      + destruct (auto_unfold "add" None None ds) as (cw & cy & [Cw _] & [Cy _] & E). rewrite E, (Cw W), (Cy Y). reflexivity.
      + destruct (auto_unfold "mult" None None ds) as (cw & cy & [Cw _] & [Cy _] & E). rewrite E, (Cw W), (Cy Y). reflexivity.
    - intros W Y mode Hm. destruct (auto_unfold mode None None ds) as (cw & cy & [Cw _] & [_ Cy] & E). rewrite E, (Cw W), (Cy Y).
      destruct Hm as [-> | ->]; reflexivity.
    - intros W Y mode Hm. destruct (auto_unfold mode None None ds) as (cw & cy & [_ Cw] & [Cy _] & E). rewrite E, (Cw W), (Cy Y).
      destruct Hm as [-> | ->]; reflexivity.
    - intros W Y mode. destruct (auto_unfold mode None None ds) as (cw & cy & [_ Cw] & [_ Cy] & E). rewrite E, (Cw W), (Cy Y).
      cbn [product list_prod map app fold_left]. unfold season_step. cbn [fst snd].
      assert (madd model_null model_null = model_null :> M) as -> by reflexivity.
      assert (mmul model_null model_null = model_null :> M) as -> by reflexivity.
      unfold model_eqb. rewrite String.eqb_refl. cbn [negb andb]. rewrite !andb_false_r. cbn [negb andb]. reflexivity.
  Qed.

  (* ---------- gating ---------- *)
  Definition usable_date (f : frame T) (t : Z) : Prop :=
    exists r, In r (rows f) /\ r_date r = t /\ (has_w f = true -> nltb n0 (r_w r) = true).
  Lemma weighted_dates_in f t : In t (weighted_dates f) <-> usable_date f t.
  Proof.
    unfold weighted_dates, usable_date. rewrite in_map_iff. destruct (has_w f).
    - split.
      + intros (r & E & I). apply filter_In in I as [I W]. exists r. auto.
      + intros (r & I & E & W). exists r. split; [exact E|]. apply filter_In. auto.
    - split; [intros (r & E & I); exists r|intros (r & I & E & _); exists r]; auto. split; auto. split; auto. discriminate.
  Qed.
  Definition two_years (f : frame T) : Prop :=
    exists a b, usable_date f a /\ usable_date f b /\ 730 * DAY < b - a.
  Definition daily_year (f : frame T) : Prop :=
    (exists a b, usable_date f a /\ usable_date f b /\ 365 * DAY < b - a) /\
    (exists a b, usable_date f a /\ usable_date f b /\ 0 < b - a <= DAY).
  Lemma spans_usable f d : spans (weighted_dates f) d <-> exists a b, usable_date f a /\ usable_date f b /\ d < b - a.
  Proof. unfold spans. split; intros (a & b & Ia & Ib & L); exists a, b; rewrite ?weighted_dates_in in *; auto. Qed.
  Lemma close_usable f d : close (weighted_dates f) d <-> exists a b, usable_date f a /\ usable_date f b /\ 0 < b - a <= d.
  Proof. unfold close. split; intros (a & b & Ia & Ib & L); exists a, b; rewrite ?weighted_dates_in in *; auto. Qed.
  Lemma use_ramp_iff f : use_ramp f = true <-> has_date f = true /\ two_years f.
  Proof.
    unfold use_ramp, two_years. rewrite andb_true_iff, <- spans_usable.
    pose proof (date_span_spec (weighted_dates f) (730 * DAY)) as S. destruct (date_span (weighted_dates f)).
    - rewrite Z.ltb_lt. tauto.
    - split; [intros [_ C]; discriminate|tauto].
  Qed.
  Lemma use_calendar_iff f : use_calendar f = true <-> has_date f = true /\ daily_year f.
  Proof.
    unfold use_calendar, daily_year. rewrite andb_true_iff, <- spans_usable, <- close_usable.
    destruct (date_gap (weighted_dates f)) as [g|] eqn:E1.
    - destruct (gap_span _ _ E1) as (s & E2). rewrite E2, (uses _ _ _ (365 * DAY) DAY E1 E2). tauto.
    - pose proof (date_gap_spec (weighted_dates f) DAY) as G. rewrite E1 in G. split; [intros [_ C]; discriminate|tauto].
  Qed.
  Lemma default_trend_cases f :
    (has_date f = true /\ two_years f -> default_trend f = [model_linear; madd model_linear model_ramp]) /\
    (~ (has_date f = true /\ two_years f) -> default_trend f = [model_linear]).
  Proof.
    unfold default_trend. rewrite <- use_ramp_iff. split; [intros ->; reflexivity|]. destruct (use_ramp f); [congruence|reflexivity].
  Qed.
  Lemma default_naive_cases freq :
    (freq = Some "D" -> default_naive freq = [model_snaive_wday]) /\ (freq <> Some "D" -> default_naive freq = [model_naive]).
  Proof.
    unfold default_naive. split; [intros ->; reflexivity|]. destruct freq as [s|]; [|reflexivity].
    destruct (String.eqb_spec s "D"); [congruence|reflexivity].
  Qed.

  (* ---------- labels ---------- *)
  Lemma label_requested (m : M) mode l : mode = "add" \/ mode = "mult" -> add_mult_label m mode l = mode.
  Proof. unfold add_mult_label. intros [-> | ->]; reflexivity. Qed.
  Lemma label_both (m : M) mode l : mode <> "add" -> mode <> "mult" ->
    (In (fm_name m) (map fm_name l) -> add_mult_label m mode l = "add") /\
    (~ In (fm_name m) (map fm_name l) -> add_mult_label m mode l = "mult").
  Proof.
    intros Na Nm. unfold add_mult_label. rewrite (proj2 (String.eqb_neq mode "add") Na), (proj2 (String.eqb_neq mode "mult") Nm). cbn [orb].
    assert (E : existsb (model_eqb m) l = true <-> In (fm_name m) (map fm_name l)).
    { rewrite existsb_exists, in_map_iff. unfold model_eqb. split.
      - intros (b & Ib & Eb). apply String.eqb_eq in Eb. exists b. auto.
      - intros (b & Eb & Ib). exists b. rewrite Eb, String.eqb_refl. auto. }
    split; [intros K; apply E in K; now rewrite K|]. destruct (existsb (model_eqb m) l); [tauto|reflexivity].
  Qed.

  (* ---------- additive or multiplicative ---------- *)
  Definition usable_sample (hw : bool) (r : row T) : bool := negb (nisnan (r_y r)) && (if hw then nltb n0 (r_w r) else true).
  (* reasons for additive composition *)
  Definition must_add (f : frame T) : Prop :=
    (exists r, In r (rows f) /\ nleb (r_y r) n0 = true) \/ has_date f = false \/
    (forall a b, In a (map r_date (rows f)) -> In b (map r_date (rows f)) -> b - a < 60 * DAY) \/
    (length (filter (usable_sample (has_w f)) (rows f)) < 4)%nat.
  Lemma usable_count f :
    length (if has_w f then filter (fun r => nltb n0 (r_w r)) (filter (fun r : row T => negb (nisnan (r_y r))) (rows f))
            else filter (fun r => negb (nisnan (r_y r))) (rows f)) = length (filter (usable_sample (has_w f)) (rows f)).
  Proof.
    unfold usable_sample. induction (rows f) as [|r l IH]; [now destruct (has_w f)|]. cbn [filter].
    destruct (negb (nisnan (r_y r))); cbn [andb filter]; [|exact IH].
    destruct (has_w f); [|cbn; now rewrite IH]. cbn [filter]. destruct (nltb n0 (r_w r)); [|exact IH]. cbn. now rewrite IH.
  Qed.
  Lemma short_span (f : frame T) : rows f <> [] ->
    (match zmax_opt (map r_date (rows f)), zmin_opt (map r_date (rows f)) with
            | Some hi, Some lo => hi - lo <? 60 * DAY | _, _ => false end = true <->
     forall a b, In a (map r_date (rows f)) -> In b (map r_date (rows f)) -> b - a < 60 * DAY).
  Proof.
    intros Hn. destruct (zmax_opt (map r_date (rows f))) as [hi|] eqn:E1; [|destruct (rows f); [congruence|discriminate]].
    destruct (zmin_opt (map r_date (rows f))) as [lo|] eqn:E2; [|destruct (rows f); [congruence|discriminate]].
    apply zmax_opt_iff in E1 as [I1 B1]. apply zmin_opt_iff in E2 as [I2 B2]. rewrite Z.ltb_lt. split.
    - intros L a b Ia Ib. specialize (B1 b Ib). specialize (B2 a Ia). lia.
    - intros F. now apply F.
  Qed.
  Lemma is_mult_false corr f : must_add f -> is_multiplicative corr f = Ok false.
  Proof.
    intros A. unfold is_multiplicative. rewrite usable_count.
    destruct (existsb (fun r => nleb (r_y r) n0) (rows f)) eqn:Ey; [reflexivity|].
    destruct (has_date f) eqn:Ed; [|reflexivity]. cbn [negb].
    destruct (rows f) as [|r0 l0] eqn:Er; [reflexivity|]. rewrite <- Er in *.
    assert (rows f <> []) as Hn by (rewrite Er; discriminate).
    destruct A as [(r & Ir & Hr)|[A|[A|A]]].
    - exfalso. assert (existsb (fun r => nleb (r_y r) n0) (rows f) = true) by (apply existsb_exists; eauto). congruence.
    - congruence.
    - apply (short_span f Hn) in A. now rewrite A.
    - match goal with |- (if ?b then _ else _) = _ => destruct b end; [reflexivity|]. apply Nat.ltb_lt in A. now rewrite A.
  Qed.
  Lemma is_mult_corr corr f : ~ must_add f -> is_multiplicative corr f = rbind (corr f) (fun c => Ok (nleb (dec 8 10) c)).
  Proof.
    intros A. unfold is_multiplicative. rewrite usable_count.
    destruct (existsb (fun r => nleb (r_y r) n0) (rows f)) eqn:Ey.
    { exfalso. apply A. left. apply existsb_exists in Ey. exact Ey. }
    destruct (has_date f) eqn:Ed; [|exfalso; apply A; right; left; exact Ed]. cbn [negb].
    destruct (Nat.ltb_spec (length (filter (usable_sample (has_w f)) (rows f))) 4) as [L|L].
    { exfalso. apply A. right. right. right. exact L. }
    assert (rows f <> []) as Hn. { intros C. rewrite C in L. cbn in L. lia. }
    match goal with |- (if ?b then _ else _) = _ => destruct b eqn:Es end; [|reflexivity].
    exfalso. apply A. right. right. left. now apply (short_span f Hn).
  Qed.
End S.
