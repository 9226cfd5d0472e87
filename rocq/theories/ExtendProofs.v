(* Specifications and lemmas for C61, C62 and C64: extrapolation of composed models, lists of
   forecasts, dates of a forecast. *)
From Coq Require Import ZArith String Ascii List Bool Lia Sorted Permutation QArith_base.
From Verif Require Import Num Py Cal Fmt Model ModelProofs Base Naive Freq ListProofs FreqProofs GridProofs Normalize NormalizeProofs
  Fit Interp Select SelectProofs Stats Outliers Pi Forecast ForecastProofs ForecastProofs2 StringProofs.
Import ListNotations.
Local Open Scope string_scope.
Local Open Scope list_scope.
Local Open Scope Z_scope.

Section Extrapolated.
  Context {T : Type} `{NumOps T}.
  Notation M := (fmodel T).

  (* ---- specification of C61 ---- *)
  (* two series over the same index, combined entry by entry *)
  Definition entrywise (op : T -> T -> T) (l1 l2 l : list (Z * T)) : Prop :=
    length l1 = length l /\ length l2 = length l /\
    forall i t v, nth_error l i = Some (t, v) <->
      exists a b, nth_error l1 i = Some (t, a) /\ nth_error l2 i = Some (t, b) /\ v = op a b.
  (* the model evaluated in multiplicative mode, whatever mode is asked for *)
  Definition in_mult (m : M) : M :=
    mkModel (fm_name m) (fm_n m) (fun x d p _ kw => fm_f m x d p (Some true) kw) (fm_init m) (fm_bounds m)
      (fm_val m) (fm_cvars m) (fm_dcache m).
  Definition unscaled (m : M) : Prop := fm_name m <> "sigmoid" /\ fm_name m <> "logistic".

  Lemma unscaled_requires m : unscaled m -> requires_scaling (fm_name m) = false.
  Proof. intros [A B]. unfold requires_scaling. apply orb_false_intro; now apply String.eqb_neq. Qed.
  Lemma composite_requires sep op mode (m1 m2 : M) : requires_scaling (fm_name (combine_models sep op mode m1 m2)) = false.
  Proof. reflexivity. Qed.
  Lemma grid_unscaled o (m m' : M) freq years x0 : requires_scaling (fm_name m) = false -> requires_scaling (fm_name m') = false ->
    s_x_extrapolate o (Some m) freq years x0 = s_x_extrapolate o (Some m') freq years x0.
  Proof.
    intros A B. destruct o; cbn [s_x_extrapolate]; unfold s_x_dates, s_x_numeric, apply_a_x_scaling, model_requires_scaling;
      now rewrite A, B.
  Qed.

  Definition series (idx : list Z) (v : nval T) : res (list (Z * T)) :=
    match v with
    | Sc t => Ok (map (fun i => (i, t)) idx)
    | Ar l => if Nat.eqb (length l) (length idx) then Ok (combine idx l) else Err ValueError
    end.
  Lemma entrywise_map (op : T -> T -> T) {A} (f1 f2 f : A -> Z * T) (l : list A) :
    (forall a, In a l -> fst (f1 a) = fst (f a) /\ fst (f2 a) = fst (f a) /\ snd (f a) = op (snd (f1 a)) (snd (f2 a))) ->
    entrywise op (map f1 l) (map f2 l) (map f l).
  Proof.
    intros P. split; [now rewrite !map_length|]. split; [now rewrite !map_length|].
    intros i t v. rewrite !nth_error_map. destruct (nth_error l i) as [a|] eqn:E; cbn.
    - apply nth_error_In in E. destruct (P a E) as (P1 & P2 & P3). destruct (f1 a) as [t1 a1], (f2 a) as [t2 a2], (f a) as [t0 v0].
      cbn in *. subst. split.
      + intros [= <- <-]. eauto.
      + intros (x & y & [= <- <-] & [= <-] & ->). reflexivity.
    - split; [discriminate|]. intros (a & b & K & _). discriminate.
  Qed.
  Lemma combine_map_fst {A B} (l : list A) (l' : list B) : length l' = length l -> l = map fst (combine l l').
  Proof. revert l'. induction l as [|a l IH]; intros [|b l'] L; cbn in *; try discriminate; [reflexivity|]. f_equal. apply IH. now injection L. Qed.
  Lemma series_bcast op idx v1 v2 l1 l2 : series idx v1 = Ok l1 -> series idx v2 = Ok l2 ->
    exists v l, bcast2 op v1 v2 = Ok v /\ series idx v = Ok l /\ entrywise op l1 l2 l.
  Proof.
    destruct v1 as [a|xs], v2 as [b|ys]; cbn [series bcast2].
    - intros [= <-] [= <-]. exists (Sc (op a b)), (map (fun i => (i, op a b)) idx). split; [reflexivity|]. split; [reflexivity|].
      apply entrywise_map. intros; cbn; auto.
    - intros [= <-]. destruct (Nat.eqb_spec (length ys) (length idx)) as [L|]; [|discriminate]. intros [= <-].
      exists (Ar (map (op a) ys)), (combine idx (map (op a) ys)). split; [reflexivity|]. split.
      + cbn [series]. rewrite map_length, L, Nat.eqb_refl. reflexivity.
      + rewrite (combine_map_fst idx ys L) at 1. rewrite map_map.
        replace (combine idx ys) with (map (fun p : Z * T => p) (combine idx ys)) at 2 by apply map_id.
        replace (combine idx (map (op a) ys)) with (map (fun p : Z * T => (fst p, op a (snd p))) (combine idx ys)).
        2:{ clear L. revert ys. induction idx as [|i idx IH]; intros [|y ys]; cbn; try reflexivity. f_equal. apply IH. }
        apply entrywise_map. intros p _. cbn. auto.
    - destruct (Nat.eqb_spec (length xs) (length idx)) as [L|]; [|discriminate]. intros [= <-] [= <-].
      exists (Ar (map (fun x => op x b) xs)), (combine idx (map (fun x => op x b) xs)). split; [reflexivity|]. split.
      + cbn [series]. rewrite map_length, L, Nat.eqb_refl. reflexivity.
      + rewrite (combine_map_fst idx xs L) at 2. rewrite map_map.
        replace (combine idx xs) with (map (fun p : Z * T => p) (combine idx xs)) at 1 by apply map_id.
        replace (combine idx (map (fun x => op x b) xs)) with (map (fun p : Z * T => (fst p, op (snd p) b)) (combine idx xs)).
        2:{ clear L. revert xs. induction idx as [|i idx IH]; intros [|y ys]; cbn; try reflexivity. f_equal. apply IH. }
        apply entrywise_map. intros p _. cbn. auto.
    - destruct (Nat.eqb_spec (length xs) (length idx)) as [L|]; [|discriminate].
      destruct (Nat.eqb_spec (length ys) (length idx)) as [L'|]; [|discriminate]. intros [= <-] [= <-].
      assert (LL : length xs = length ys) by congruence. rewrite LL, Nat.eqb_refl.
      exists (Ar (map2 op xs ys)), (combine idx (map2 op xs ys)). split; [reflexivity|]. split.
      + cbn [series]. unfold map2. rewrite map_length, combine_length, LL, L', Nat.min_id, Nat.eqb_refl. reflexivity.
      + replace (combine idx xs) with (map (fun p : Z * (T * T) => (fst p, fst (snd p))) (combine idx (combine xs ys))).
        2:{ clear L'. revert xs ys L LL. induction idx as [|i idx IH]; intros [|x xs] [|y ys] L LL; cbn in *; try reflexivity; try discriminate.
            f_equal. apply IH; congruence. }
        replace (combine idx ys) with (map (fun p : Z * (T * T) => (fst p, snd (snd p))) (combine idx (combine xs ys))).
        2:{ clear L'. revert xs ys L LL. induction idx as [|i idx IH]; intros [|x xs] [|y ys] L LL; cbn in *; try reflexivity; try discriminate.
            f_equal. apply IH; congruence. }
        replace (combine idx (map2 op xs ys)) with (map (fun p : Z * (T * T) => (fst p, op (fst (snd p)) (snd (snd p)))) (combine idx (combine xs ys))).
        2:{ clear L'. revert xs ys L LL. induction idx as [|i idx IH]; intros [|x xs] [|y ys] L LL; cbn in *; try reflexivity; try discriminate.
            f_equal. apply IH; congruence. }
        apply entrywise_map. intros p _. cbn. auto.
  Qed.

  Lemma extrapolate_series m p o freq years x0 act : extrapolate_model m p o freq years x0 act =
    rbind (s_x_extrapolate o (Some m) freq years x0) (fun g =>
      rbind (call m (map snd g) (match o with ODate _ _ => Some (map fst g) | ONum _ _ => None end) p false (mkKw act []))
        (series (map fst g))).
  Proof. reflexivity. Qed.
  Lemma extrapolate_inv m p o freq years x0 act l : extrapolate_model m p o freq years x0 act = Ok l ->
    exists g v, s_x_extrapolate o (Some m) freq years x0 = Ok g /\
      call m (map snd g) (match o with ODate _ _ => Some (map fst g) | ONum _ _ => None end) p false (mkKw act []) = Ok v /\
      series (map fst g) v = Ok l.
  Proof.
    rewrite extrapolate_series. destruct (s_x_extrapolate _ _ _ _ _) as [g|]; [|discriminate]. cbn [rbind].
    destruct (call _ _ _ _ _ _) as [v|] eqn:C; [|discriminate]. cbn [rbind]. eauto.
  Qed.

  Lemma composed_extrapolation sep op mode (m1 m2 k1 k2 : M) p1 p2 o freq years x0 act l1 l2 :
    unscaled m1 -> unscaled m2 -> length p1 = fm_n m1 ->
    fm_name k1 = fm_name m1 -> fm_name k2 = fm_name m2 ->
    (forall x d p kw, call k1 x d (Some p) false kw = call m1 x d (Some p) mode kw) ->
    (forall x d p kw, call k2 x d (Some p) false kw = call m2 x d (Some p) mode kw) ->
    extrapolate_model k1 (Some p1) o freq years x0 act = Ok l1 ->
    extrapolate_model k2 (Some p2) o freq years x0 act = Ok l2 ->
    exists l, extrapolate_model (combine_models sep op mode m1 m2) (Some (p1 ++ p2)) o freq years x0 act = Ok l /\ entrywise op l1 l2 l.
  Proof.
    intros U1 U2 L N1 N2 C1 C2 E1 E2. destruct (extrapolate_inv _ _ _ _ _ _ _ _ E1) as (g & v1 & G & V1 & S1).
    destruct (extrapolate_inv _ _ _ _ _ _ _ _ E2) as (g' & v2 & G' & V2 & S2).
    apply unscaled_requires in U1, U2.
    assert (R1 : requires_scaling (fm_name k1) = false) by now rewrite N1.
    assert (R2 : requires_scaling (fm_name k2) = false) by now rewrite N2.
    rewrite (grid_unscaled o k2 k1 freq years x0 R2 R1), G in G'. injection G' as <-.
    rewrite C1 in V1. rewrite C2 in V2.
    destruct (series_bcast op _ _ _ _ _ S1 S2) as (v & l & B & Sl & En). exists l. split; [|exact En].
    rewrite extrapolate_series, (grid_unscaled o _ k1 freq years x0 (composite_requires sep op mode m1 m2) R1), G. cbn [rbind].
    unfold call in V1, V2. unfold call at 1. unfold combine_models, mk_model. cbn [fm_f]. unfold f_combine, p_slice.
    rewrite <- L, firstn_app, skipn_app, Nat.sub_diag, firstn_all, skipn_all. cbn [firstn skipn app]. rewrite app_nil_r.
    cbn [rbind]. rewrite V1. cbn [rbind]. rewrite V2. cbn [rbind]. rewrite B. exact Sl.
  Qed.
  Theorem extrapolated_sum (m1 m2 : M) p1 p2 o freq years x0 act l1 l2 :
    fm_name m1 <> "null" -> fm_name m2 <> "null" -> unscaled m1 -> unscaled m2 -> length p1 = fm_n m1 ->
    extrapolate_model m1 (Some p1) o freq years x0 act = Ok l1 ->
    extrapolate_model m2 (Some p2) o freq years x0 act = Ok l2 ->
    exists l, extrapolate_model (madd m1 m2) (Some (p1 ++ p2)) o freq years x0 act = Ok l /\ entrywise nadd l1 l2 l.
  Proof.
    intros N1 N2 U1 U2 L E1 E2. unfold madd. rewrite !is_null_false by assumption.
    eapply composed_extrapolation with (k1 := m1) (k2 := m2); eauto.
  Qed.
  Theorem extrapolated_product (m1 m2 : M) p1 p2 o freq years x0 act l1 l2 :
    fm_name m1 <> "null" -> fm_name m2 <> "null" -> unscaled m1 -> unscaled m2 -> length p1 = fm_n m1 ->
    extrapolate_model (in_mult m1) (Some p1) o freq years x0 act = Ok l1 ->
    extrapolate_model (in_mult m2) (Some p2) o freq years x0 act = Ok l2 ->
    exists l, extrapolate_model (mmul m1 m2) (Some (p1 ++ p2)) o freq years x0 act = Ok l /\ entrywise nmul l1 l2 l.
  Proof.
    intros N1 N2 U1 U2 L E1 E2. unfold mmul. rewrite !is_null_false by assumption.
    eapply composed_extrapolation with (k1 := in_mult m1) (k2 := in_mult m2); eauto.
  Qed.

  (* ---- C64: dates of an extrapolation ---- *)
  Lemma date_range_sorted a b f ds : date_range a b f = Ok ds -> StronglySorted Z.lt ds /\ Forall (Z.le a) ds.
  Proof.
    assert (F : forall step, 0 < step -> StronglySorted Z.lt (fixed_range a step b) /\ Forall (Z.le a) (fixed_range a step b)).
    { intros step Hs. split; [now apply fixed_range_sorted|]. rewrite Forall_forall. intros t I.
      apply fixed_range_in in I as (k & K & -> & _); [|exact Hs]. nia. }
    assert (G : forall sel day, in_month day -> StronglySorted Z.lt (month_range a b sel day) /\ Forall (Z.le a) (month_range a b sel day)).
    { intros sel day D. split; [now apply month_range_sorted|]. rewrite Forall_forall. intros t I.
      apply month_range_in in I as (k & _ & _ & B); [apply B|exact D]. }
    unfold date_range.
    repeat match goal with |- context [if ?c then _ else _] => destruct c end; intros [= <-];
      first [apply F; reflexivity | apply G; exact month_start_in | apply G; exact month_last_in].
  Qed.
  Definition origin_start (o : origin) : Z := match o with ODate a _ => a | ONum a _ => a end.
  Lemma fst_combine {A B} (l : list A) (l' : list B) : exists k, map fst (combine l l') = firstn k l.
  Proof. revert l'. induction l as [|a l IH]; intros [|b l']; cbn; try (exists 0%nat; reflexivity). destruct (IH l') as [k E]. exists (S k). cbn. now rewrite E. Qed.
  Lemma firstn_sorted {A} (R : A -> A -> Prop) k : forall l, StronglySorted R l -> StronglySorted R (firstn k l).
  Proof.
    induction k as [|k IH]; intros l S; cbn; [constructor|]. destruct S as [|a l S F]; constructor; auto.
    rewrite Forall_forall in *. intros x I. apply F. rewrite <- (firstn_skipn k l). apply in_or_app. now left.
  Qed.
  Lemma firstn_forall {A} (P : A -> Prop) k l : Forall P l -> Forall P (firstn k l).
  Proof. rewrite !Forall_forall. intros F x I. apply F. rewrite <- (firstn_skipn k l). apply in_or_app. now left. Qed.
  Lemma grid_sorted o m freq years x0 g : s_x_extrapolate o m freq years x0 = Ok g ->
    StronglySorted Z.lt (map fst g) /\ Forall (Z.le (origin_start o)) (map fst g).
  Proof.
    destruct o as [a b|a b]; cbn [s_x_extrapolate origin_start].
    - unfold s_x_dates. destruct (grid_freq a freq) as [f|]; [|discriminate]. cbn [rbind].
      destruct (forecast_end b f years) as [e|]; [|discriminate]. cbn [rbind].
      destruct (date_range a e f) as [ds|] eqn:D; [|discriminate]. cbn [rbind]. intros [= <-].
      destruct (fst_combine ds (apply_a_x_scaling (map (fun t => nofZ ((t - a) / DAY + x0)) ds) m)) as [k ->].
      apply date_range_sorted in D as [S F]. split; [now apply firstn_sorted|now apply firstn_forall].
    - intros [= <-]. unfold s_x_numeric.
      destruct (fst_combine (map (fun i => a + Z.of_nat i) (seq 0 (numeric_size a b years)))
                  (apply_a_x_scaling (map (fun i => nofZ (x0 + Z.of_nat i + x0)) (seq 0 (numeric_size a b years))) m)) as [k ->].
      split.
      + apply firstn_sorted, map_seq_sorted. intros; lia.
      + apply firstn_forall. rewrite Forall_forall. intros t I. apply in_map_iff in I as (i & <- & _). lia.
  Qed.
  Lemma series_index idx v l : series idx v = Ok l -> map fst l = idx.
  Proof.
    destruct v as [t|xs]; cbn [series].
    - intros [= <-]. rewrite map_map. cbn. apply map_id.
    - destruct (Nat.eqb_spec (length xs) (length idx)) as [L|]; [|discriminate]. intros [= <-]. symmetry. now apply combine_map_fst.
  Qed.
  Theorem extrapolation_sorted m p o freq years x0 act l : extrapolate_model m p o freq years x0 act = Ok l ->
    StronglySorted Z.lt (map fst l) /\ Forall (Z.le (origin_start o)) (map fst l).
  Proof.
    intros E. destruct (extrapolate_inv _ _ _ _ _ _ _ _ E) as (g & v & G & _ & Sv). rewrite (series_index _ _ _ Sv).
    exact (grid_sorted _ _ _ _ _ _ G).
  Qed.
  Lemma map_filter_sorted {A} (key : A -> Z) (h : A -> bool) l : StronglySorted Z.lt (map key l) -> StronglySorted Z.lt (map key (filter h l)).
  Proof.
    induction l as [|a l IH]; cbn; intros S; [constructor|]. inversion_clear S as [|? ? S' F]. destruct (h a); cbn; auto.
    constructor; auto. rewrite Forall_forall in *. intros x I. apply F. apply in_map_iff in I as (b & <- & I). apply filter_In in I as [I _].
    now apply in_map.
  Qed.
  Lemma map_filter_forall {A} (key : A -> Z) P (h : A -> bool) l : Forall P (map key l) -> Forall P (map key (filter h l)).
  Proof. rewrite !Forall_forall. intros F x I. apply F. apply in_map_iff in I as (b & <- & I). apply filter_In in I as [I _]. now apply in_map. Qed.

  (* the forecast rows of one candidate: one row per date, in date order, from the first usable sample on *)
  Definition dates_ordered (start : Z) (l : list (drow T)) : Prop :=
    StronglySorted Z.lt (map (fun d => d_date d) l) /\ Forall (fun d => start <= d_date d) l.
  Theorem forecast_dates W c source f r : run_forecast_single W (set_all true c) source f = Ok r ->
    exists acts (es : list entry) f1 start,
      rs_data r = acts ++ concat (map en_rows es) /\ rs_meta r = map en_meta es /\
      Forall (fun d => d_actual d = true) acts /\
      prepared c f = Ok f1 /\ zmin_opt (map (place f) (rows (positive (with_weights f1)))) = Some start /\
      Forall (fun e => dates_ordered start (en_rows e) /\
                Forall (fun d => d_model d = fm_name (en_model e) /\ d_actual d = false) (en_rows e)) es.
  Proof.
    intros E. destruct (data_table _ _ _ _ _ E) as (acts & es & f1 & mode & act & start & stop & x0 & Ed & Em & _ & Fa & Ep & _ & _ & _ & Es & _ & _ & Fe).
    exists acts, es, f1, start. split; [exact Ed|]. split; [exact Em|]. split; [|split; [exact Ep|split; [exact Es|]]].
    - eapply Forall_impl; [|exact Fa]. intros d K. apply K.
    - eapply Forall_impl; [|exact Fe]. intros e [_ R L]. split.
      2:{ eapply Forall_impl; [|exact L]. intros d K. split; apply K. }
      destruct (md_fit (m_meta (en_meta e))).
      + destruct R as (g & Eg & Er). apply extrapolation_sorted in Eg as [S F].
        assert (Ef : map (fun d => d_date d) (en_rows e) = map fst (filter (fun q : Z * T => negb (nisnan (snd q))) g)).
        { rewrite <- Er, map_map. reflexivity. }
        assert (Eo : origin_start (start_of f start stop) = start) by (unfold start_of; now destruct (has_date f)).
        rewrite Eo in F. split; [rewrite Ef; now apply map_filter_sorted|].
        apply (proj1 (Forall_map (fun d : drow T => d_date d) (Z.le start) (en_rows e))). rewrite Ef. now apply map_filter_forall.
      + rewrite R. split; constructor.
  Qed.
  Lemma nodup_app' {A} (l l' : list A) : NoDup l -> NoDup l' -> (forall a, In a l -> ~ In a l') -> NoDup (l ++ l').
  Proof.
    induction 1 as [|a l N U IH]; cbn; auto. intros U' D. constructor.
    - rewrite in_app_iff. intros [K|K]; [now apply N|]. apply (D a); [now left|exact K].
    - apply IH; auto.
  Qed.
  Lemma sorted_lt_nodup l : StronglySorted Z.lt l -> NoDup l.
  Proof. induction 1 as [|a l S IH F]; constructor; auto. intros I. rewrite Forall_forall in F. specialize (F a I). lia. Qed.
  (* at most one forecast per model name and date, if the names of the candidates differ *)
  Theorem forecast_key W c source f r : run_forecast_single W (set_all true c) source f = Ok r ->
    exists es : list entry, rs_meta r = map en_meta es /\
      (NoDup (map (fun e => fm_name (en_model e)) es) ->
       NoDup (map (fun d => (d_model d, d_date d)) (filter (fun d => negb (d_actual d)) (rs_data r)))).
  Proof.
    intros E. destruct (forecast_dates _ _ _ _ _ E) as (acts & es & f1 & start & Ed & Em & Fa & _ & _ & Fe).
    exists es. split; [exact Em|]. rewrite Ed, filter_app.
    replace (filter (fun d => negb (d_actual d)) acts) with (@nil (drow T)).
    2:{ clear - Fa. induction Fa as [|d l K F IH]; cbn; [reflexivity|]. now rewrite K. }
    cbn [app]. intros N. clear Ed Em Fa E. induction es as [|e es IH]; cbn [map concat]; [constructor|].
    inversion_clear Fe as [|? ? [[S F] K] Fe']. cbn [map] in N. inversion_clear N as [|? ? Ni Nd].
    rewrite filter_app, map_app. apply nodup_app'.
    - apply sorted_lt_nodup in S. clear - S. induction (en_rows e) as [|d l IH]; cbn; [constructor|]. cbn in S. inversion_clear S as [|? ? A B].
      destruct (negb (d_actual d)); cbn; auto. constructor; auto. intros I. apply A. apply in_map_iff in I as (k & [= _ Ek] & I).
      rewrite <- Ek. apply filter_In in I as [I _]. apply in_map_iff. eauto.
    - auto.
    - intros [n t] I1 I2. apply in_map_iff in I1 as (d & [= <- <-] & I1). apply filter_In in I1 as [I1 _].
      rewrite Forall_forall in K. destruct (K d I1) as [Kn _].
      apply in_map_iff in I2 as (d2 & [= En _] & I2). apply filter_In in I2 as [I2 _]. apply in_concat in I2 as (l2 & I2 & I2').
      apply in_map_iff in I2 as (e2 & <- & I2). rewrite Forall_forall in Fe'. destruct (Fe' e2 I2) as [_ K2]. rewrite Forall_forall in K2.
      destruct (K2 d2 I2') as [Kn2 _]. apply Ni. apply in_map_iff. exists e2. split; [congruence|exact I2].
  Qed.

  (* ---- C62: lists of forecasts ---- *)
  Notation input := (config T * string * raw T)%type.
  Definition runs (W : nat -> string -> world T) (p : nat * input) : res (option (result T)) :=
    match p with (i, (c, s, t)) => run_forecast (W i) c s t end.
  Lemma rmapM_iff {A B} (g : A -> res B) l r : rmapM g l = Ok r <-> Forall2 (fun a b => g a = Ok b) l r.
  Proof.
    split; [apply rmapM_inv|]. induction 1 as [|a b l r E F IH]; cbn; [reflexivity|]. rewrite E. cbn [rbind]. now rewrite IH.
  Qed.
  Lemma rmapM_err_iff {A B} (g : A -> res B) l e : rmapM g l = Err e <->
    exists l1 a l2, l = l1 ++ a :: l2 /\ g a = Err e /\ forall b, In b l1 -> exists r, g b = Ok r.
  Proof.
    induction l as [|a l IH]; cbn.
    - split; [discriminate|]. intros (l1 & b & l2 & K & _). destruct l1; discriminate.
    - destruct (g a) as [r|x] eqn:E; cbn [rbind].
      + split.
        * destruct (rmapM g l) as [rs|x]; [discriminate|]. intros [= ->]. destruct (proj1 IH eq_refl) as (l1 & b & l2 & -> & Eb & F).
          exists (a :: l1), b, l2. split; [reflexivity|]. split; [exact Eb|]. intros k [<-|I]; eauto.
        * intros (l1 & b & l2 & El & Eb & F). destruct l1 as [|a' l1]; cbn in El; injection El as -> ->; [congruence|].
          rewrite (proj2 IH); [reflexivity|]. exists l1, b, l2. split; [reflexivity|]. split; [exact Eb|]. intros k I. apply F. now right.
      + split.
        * intros [= ->]. exists [], a, l. split; [reflexivity|]. split; [exact E|]. intros b [].
        * intros (l1 & b & l2 & El & Eb & F). destruct l1 as [|a' l1]; cbn in El; injection El as -> ->; [congruence|].
          destruct (F a' (or_introl eq_refl)). congruence.
  Qed.
  Lemma run_l_eq W l : run_l_forecast W l = rbind (rmapM (runs W) (enumerate l)) (fun os => match os with
    | [] => Err ValueError
    | _ => rbind (rmapM (fun o => match o with Some r => Ok r | None => Err TypeError end) os) (fun rs => Ok (aggregate rs))
    end).
  Proof. reflexivity. Qed.
  Theorem list_ok W (l : list input) r : run_l_forecast W l = Ok r <->
    l <> [] /\ exists rs, Forall2 (fun p x => runs W p = Ok (Some x)) (enumerate l) rs /\ r = aggregate rs.
  Proof.
    rewrite run_l_eq. split.
    - destruct (rmapM (runs W) (enumerate l)) as [os|] eqn:E; [|discriminate]. cbn [rbind]. apply rmapM_inv in E.
      destruct os as [|o os]; [discriminate|]. intros K. split.
      { intros ->. inversion E. }
      destruct (rmapM (fun o => match o with Some r => Ok r | None => Err TypeError end) (o :: os)) as [rs|] eqn:E2; [|discriminate].
      cbn [rbind] in K. injection K as <-. exists rs. split; [|reflexivity]. apply rmapM_inv in E2. clear - E E2. revert rs E2.
      induction E as [|p x lp lx Ep E IH]; intros rs E2; inversion E2 as [|? y ? ? Ey]; subst; constructor; auto.
      destruct x as [x|]; [|discriminate]. injection Ey as ->. exact Ep.
    - intros (Hl & rs & F & ->).
      assert (E : rmapM (runs W) (enumerate l) = Ok (map Some rs)).
      { apply rmapM_iff. clear Hl. induction F; constructor; auto. }
      rewrite E. cbn [rbind]. destruct rs as [|x rs].
      { exfalso. destruct l; [congruence|]. inversion F. }
      cbn [map]. change (Some x :: map Some rs) with (map Some (x :: rs)).
      assert (E2 : rmapM (fun o : option (result T) => match o with Some r => Ok r | None => Err TypeError end) (map Some (x :: rs)) = Ok (x :: rs)).
      { apply rmapM_iff. clear. induction (x :: rs); constructor; auto. }
      rewrite E2. reflexivity.
  Qed.
  Theorem list_nil W : run_l_forecast W (@nil input) = Err ValueError.
  Proof. reflexivity. Qed.
  Theorem list_one W c s t : run_l_forecast W [(c, s, t)] =
    rbind (run_forecast (W 0%nat) c s t) (fun o => match o with Some r => Ok r | None => Err TypeError end).
  Proof.
    unfold run_l_forecast. cbn. destruct (run_forecast (W 0%nat) c s t) as [[r|]|]; cbn; try reflexivity. now rewrite aggregate_one.
  Qed.
  (* the first failing input decides the exception; only then are empty tables noticed *)
  Theorem list_err W (l : list input) e : l <> [] -> (run_l_forecast W l = Err e <->
    (exists l1 p l2, enumerate l = l1 ++ p :: l2 /\ runs W p = Err e /\ forall q, In q l1 -> exists o, runs W q = Ok o) \/
    (e = TypeError /\ (forall q, In q (enumerate l) -> exists o, runs W q = Ok o) /\ exists q, In q (enumerate l) /\ runs W q = Ok None)).
  Proof.
    intros Hl. rewrite run_l_eq.
    destruct (rmapM (runs W) (enumerate l)) as [os|x] eqn:E; cbn [rbind].
    - pose proof (proj1 (rmapM_iff _ _ _) E) as F2.
      assert (A : forall q, In q (enumerate l) -> exists o, runs W q = Ok o).
      { intros q I. destruct (rmapM_in_ok _ _ _ q E I) as (o & _ & K). eauto. }
      destruct os as [|o os].
      { exfalso. destruct l; [congruence|]. inversion F2. }
      split.
      + destruct (rmapM (fun o => match o with Some r => Ok r | None => Err TypeError end) (o :: os)) as [rs|y] eqn:E2; [discriminate|].
        cbn [rbind]. intros [= ->]. apply rmapM_err_iff in E2 as (l1 & z & l2 & El & Ez & _). destruct z; [discriminate|]. injection Ez as <-.
        right. split; [reflexivity|]. split; [exact A|]. rewrite El in F2. apply Forall2_app_inv_r in F2 as (k1 & k2 & _ & F2 & ->).
        inversion F2 as [|q ? k2' ? Eq' F2']; subst. exists q. split; [|exact Eq']. apply in_or_app. right. now left.
      + intros [(l1 & p & l2 & El & Ep & _)|(-> & _ & q & I & Eq')].
        * destruct (A p) as [o' Ko]; [rewrite El; apply in_or_app; right; now left|]. congruence.
        * assert (X : rmapM (fun o : option (result T) => match o with Some r => Ok r | None => Err TypeError end) (o :: os) = Err TypeError).
          { destruct (rmapM (fun o : option (result T) => match o with Some r => Ok r | None => Err TypeError end) (o :: os)) as [rs|y] eqn:E2.
            - exfalso. destruct (rmapM_in_ok _ _ _ q E I) as (o' & Io & Ko). assert (o' = None) by congruence. subst.
              destruct (rmapM_in_ok _ _ _ None E2 Io) as (? & _ & K). discriminate.
            - apply rmapM_err_iff in E2 as (l1 & z & l2 & _ & Ez & _). destruct z; congruence. }
          rewrite X. reflexivity.
    - split.
      + intros [= ->]. left. now apply rmapM_err_iff.
      + intros [K|(_ & A & _)].
        * apply rmapM_err_iff in K. congruence.
        * apply rmapM_err_iff in E as (l1 & p & l2 & El & Ep & _). destruct (A p) as [o Ko]; [rewrite El; apply in_or_app; right; now left|]. congruence.
  Qed.
  (* a table with several sources is forecast like the list of its sources *)
  Lemma rmapM_enum {A B} (k : A -> res B) l : forall i, rmapM (fun p : nat * A => k (snd p)) (enum_from i l) = rmapM k l.
  Proof. induction l as [|a l IH]; intros i; cbn; [reflexivity|]. destruct (k a); [|reflexivity]. cbn [rbind]. now rewrite IH. Qed.
  Theorem list_sources (W : string -> world T) c id t f : t_src t = true -> normalize_df t = Ok (Some f) ->
    run_forecast W c id t =
    rbind (run_l_forecast (fun _ => W) (map (fun s => (c, id, restrict t s)) (sorted_sources t))) (fun r => Ok (Some r)).
  Proof.
    intros Hs En. destruct (frame_sources t f Hs En) as (Ed & Eh & J). rewrite (sources_alone W c id t f Hs En). unfold run_l_forecast.
    rewrite (rmapM_ext _ (fun p : nat * input => (fun q : input => match q with (c, s, t) => run_forecast W c s t end) (snd p))).
    2:{ intros [i [[c' s] t']] _. reflexivity. }
    unfold enumerate. rewrite (rmapM_enum (fun q : input => match q with (c, s, t) => run_forecast W c s t end)), rmapM_map.
    destruct (rmapM (fun s => run_forecast W c id (restrict t s)) (sorted_sources t)) as [os|e] eqn:E; [|reflexivity]. cbn [rbind].
    assert (Ne : os <> []).
    { intros ->. apply rmapM_inv in E. destruct (sorted_sources t) as [|s l] eqn:Es; [|inversion E].
      assert (Hn : t_rows t <> []) by (intros C; apply normalize_none in C; congruence).
      destruct (t_rows t) as [|q qs] eqn:Eq'; [congruence|].
      assert (I : In (r_src (q_row q)) (sorted_sources t)).
      { unfold sorted_sources. rewrite isort_in, (dedup_in String.eqb str_eqb_spec), Eq'. now left. }
      rewrite Es in I. destruct I. }
    assert (Sm : rmapM (fun o : option (result T) => match o with Some r => Ok r | None => Err TypeError end) os = Ok (somes os)).
    { apply rmapM_iff. assert (A : Forall (fun o => o <> None) os).
      { rewrite Forall_forall. intros o I ->. apply rmapM_inv in E.
        assert (exists s, In s (sorted_sources t) /\ run_forecast W c id (restrict t s) = Ok None) as (s & Is & K).
        { clear - E I. induction E as [|s o l os Es E IH]; [destruct I|]. destruct I as [->|I]; [exists s; split; [now left|exact Es]|].
          destruct (IH I) as (s' & Is & K). exists s'. split; [now right|exact K]. }
        rewrite (run_one_source W c id t f s Hs En) in K by now apply J. destruct (run_forecast_single _ _ _ _); discriminate. }
      clear - A. induction A as [|o os K A IH]; cbn; [constructor|]. destruct o; [|congruence]. cbn. constructor; auto. }
    destruct os as [|o os]; [congruence|]. rewrite Sm. reflexivity.
  Qed.

  (* ---- specification of C69: the candidate lists ---- *)
  (* two lists of models joined: every model of the first with every model of the second; an empty
     list leaves the other as it is *)
  Definition joined (mode : string) (ts ss out : list M) : Prop :=
    (ss = [] -> first_of_each_name ts out) /\ (ts = [] -> first_of_each_name ss out) /\
    (ts <> [] -> ss <> [] -> first_of_each_name (candidates mode ts ss) out).
  Definition trend_list (c : config T) (f : frame T) (ts : list M) : Prop :=
    (forall l, c_trend c = Some l -> ts = l) /\
    (c_trend c = None -> has_date f = true /\ two_years f -> ts = [model_linear; madd model_linear model_ramp]) /\
    (c_trend c = None -> ~ (has_date f = true /\ two_years f) -> ts = [model_linear]).
  Definition season_list (c : config T) (f : frame T) (mode : string) (ss : list M) : Prop :=
    (forall l, c_season c = Some l -> ss = l) /\
    (c_season c = None -> has_date f = true -> ss = auto_season mode (c_yearly c) (c_weekly c) (weighted_dates f)) /\
    (c_season c = None -> has_date f = false -> ss = []).
  Definition candidates_of (c : config T) (f : frame T) (mode : string) (out : list M) : Prop :=
    exists ts ss base, trend_list c f ts /\ season_list c f mode ss /\ joined mode ts ss base /\
      (forall cal, c_calendar c = Some cal -> has_date f = true -> daily_year f -> joined mode base cal out) /\
      (c_calendar c = None \/ ~ (has_date f = true /\ daily_year f) -> out = base).

  Lemma list_model_joined mode ts (e : option (list M)) : joined mode ts (given e) (list_model (Some ts) e mode).
  Proof.
    split; [|split].
    - intros E. destruct e as [ss|]; [cbn in E; subst ss|]; apply (list_model_one (Some ts) mode); unfold missing; auto.
    - intros ->. apply (list_model_one e mode (Some [])). right. reflexivity.
    - intros Ht Hs. destruct e as [ss|]; [|cbn in Hs; congruence]. now apply list_model_both.
  Qed.
  Theorem candidate_lists_ok c (f : frame T) :
    candidates_of c f "add" (fst (candidate_lists c f)) /\ candidates_of c f "mult" (snd (candidate_lists c f)).
  Proof.
    assert (G : forall mode,
      let ts := match c_trend c with Some l => l | None => default_trend f end in
      let e := match c_season c with Some l => Some l
               | None => if has_date f then Some (auto_season mode (c_yearly c) (c_weekly c) (weighted_dates f)) else None end in
      let base := list_model (Some ts) e mode in
      candidates_of c f mode (match c_calendar c with Some cal => if use_calendar f then list_model (Some base) (Some cal) mode else base
                              | None => base end)).
    { intros mode ts e base. exists ts, (given e), base. split; [|split; [|split; [|split]]].
      - subst ts. destruct (default_trend_cases f) as (A & B). split; [intros l ->; reflexivity|]. split; intros ->; assumption.
      - subst e. split; [intros l ->; reflexivity|]. split; intros -> ->; reflexivity.
      - apply list_model_joined.
      - intros cal -> D Y. rewrite (proj2 (use_calendar_iff f) (conj D Y)). apply (list_model_joined mode base (Some cal)).
      - intros [-> | K]; [reflexivity|]. destruct (c_calendar c); [|reflexivity].
        destruct (use_calendar f) eqn:U; [|reflexivity]. now apply use_calendar_iff in U. }
    pose proof (G "add") as G1. pose proof (G "mult") as G2. cbn zeta in G1, G2. unfold candidate_lists.
    destruct (c_calendar c); [destruct (use_calendar f)|]; cbn [fst snd]; split; assumption.
  Qed.
End Extrapolated.
