(* Dummy variables, calendars and lists of dates are regressions as well (C72, C73, C78, C80, C81). *)
From Coq Require Import ZArith String List Bool Lia Reals Lra Sorted Permutation QArith_base.
From Verif Require Import Num Py Cal Fmt Model Base Dummy Fixed Naive Freq Aic Normalize Fit Interp Select Stats Outliers Pi Forecast.
From Verif Require Import NumProofs ListProofs StringProofs ModelProofs BaseProofs GuessProofs FixedProofs FitProofs SeasonProofs CacheProofs DummyProofs AicProofs StatsProofs ForecastProofs ForecastProofs2 ExtendProofs MetaProofs LsqProofs RobustProofs TotalProofs HardyProofs UniqueProofs ScaleProofs WeightProofs.
Import ListNotations.
Local Open Scope string_scope.
Local Open Scope list_scope.
Local Open Scope R_scope.

(* ---- specification ---- *)
(* whether a sample is marked by a dummy variable, one sample at a time: a rule or a calendar by the
   day, a list by the position or the date *)
Definition marked (dm : dummy XR) (x : R) (t : Z) : bool :=
  match dm with
  | DFun _ => false
  | DHoliday h => in_list_Z (holiday_dates h t t) t
  | DCal c => in_list_Z (calendar_holidays c t t) t
  | DNums l => existsb (neqb (Fin x)) l
  | DDates l => in_list_Z l t
  end.
Definition mark (b : bool) : R := if b then 1 else 0.
(* the rules of a holiday stay near the year they are computed for *)
Definition ruled (dm : dummy XR) : Prop :=
  match dm with
  | DFun _ => False
  | DHoliday h => local_rule h
  | DCal c => Forall local_rule (cal_rules c)
  | _ => True
  end.
Definition holiday_phi (l : list calendar) (t : Z) : list R := map (fun c => mark (marked (DCal c) 0 t)) l.
Definition dates_phi (l : list (list Z)) (t : Z) : list R := map (fun ds => mark (in_list_Z ds t)) l.
(* [masked m names]: of the cache, [m] uses no more than the entries common to all models and masks
   under these names *)
Definition masked (m : fmodel XR) (names : list string) : Prop := exists Rd, cached m Rd /\
  (forall k f, In (k, f) Rd -> dict_get dict_f_cache k = Some f \/ exists n, In n names /\ k = mask_name n) /\
  (forall k f, In (k, f) (fm_dcache m) -> exists n, In n names /\ k = mask_name n).
(* calendars that put their masks under different names *)
Definition own_names (l : list calendar) : Prop := NoDup (map cal_name (filter has_rules l)).

(* ---- one mask ---- *)
Definition pointwise (f : dummyfun XR) (g : R -> Z -> bool) : Prop :=
  (forall xs ds, length ds = length xs -> ds <> [] -> f (fins xs) (Some ds) = Ok (fins (map (fun p => mark (g (fst p) (snd p))) (combine xs ds)))) /\
  (forall l, f [] (Some []) = Ok l -> l = []).
Lemma ofbool_mark b : nofbool (T := XR) b = Fin (mark b).
Proof. unfold nofbool, mark. destruct b; [apply n1_fin|apply n0_fin]. Qed.
Lemma holiday_range h a b t : local_rule h -> (a <= t <= b)%Z -> in_list_Z (holiday_dates h a b) t = in_list_Z (holiday_dates h t t) t.
Proof.
  intros L B. apply eq_true_iff_eq. rewrite !in_list_Z_iff, !holiday_dates_in by exact L. split; intros [_ K]; (split; [lia|exact K]).
Qed.
Lemma calendar_range c a b t : Forall local_rule (cal_rules c) -> (a <= t <= b)%Z -> in_list_Z (calendar_holidays c a b) t = in_list_Z (calendar_holidays c t t) t.
Proof.
  intros L B. apply eq_true_iff_eq. rewrite !in_list_Z_iff, !calendar_holidays_in by exact L. split; intros [_ K]; (split; [lia|exact K]).
Qed.
Lemma dates_fins (g : Z -> bool) xs ds : length ds = length xs ->
  map (fun t => nofbool (T := XR) (g t)) ds = fins (map (fun p => mark (g (snd p))) (combine (A := R) xs ds)).
Proof.
  intros L. rewrite <- (combine_map_snd (fun t => mark (g t)) xs ds L). unfold fins. rewrite map_map. apply map_ext. intros t. apply ofbool_mark.
Qed.
Lemma ruled_pointwise dm f : ruled dm -> get_f_dummy dm = Ok f -> pointwise f (marked dm).
Proof.
  intros Ru E. destruct dm as [g|h|c|l|l]; cbn [get_f_dummy ruled] in *; [destruct Ru|..].
  - apply ok_inj in E. subst f. split; [|cbn; discriminate]. intros xs ds L Ne. destruct (zmin_max_some ds Ne) as (a & b & Ea & Eb & B).
    unfold date_range_of. rewrite Ea, Eb. cbn [rbind]. f_equal. unfold isin_dates. etransitivity; [|exact (dates_fins (fun t => marked (DHoliday h) 0 t) xs ds L)].
    apply map_ext_in. intros t It. f_equal. apply holiday_range; auto.
  - apply ok_inj in E. subst f. split; [|cbn; discriminate]. intros xs ds L Ne. destruct (zmin_max_some ds Ne) as (a & b & Ea & Eb & B).
    unfold date_range_of. rewrite Ea, Eb. cbn [rbind]. f_equal. unfold isin_dates. etransitivity; [|exact (dates_fins (fun t => marked (DCal c) 0 t) xs ds L)].
    apply map_ext_in. intros t It. f_equal. apply calendar_range; auto.
  - destruct l as [|n l]; [discriminate|]. apply ok_inj in E. subst f. split; [|intros v K; apply ok_inj in K; now subst v].
    intros xs ds L Ne. f_equal. unfold isin_nums. transitivity (fins (map (fun x => mark (existsb (neqb (Fin x)) (n :: l))) xs)); [|apply (f_equal fins); exact (combine_map_fst (fun x => mark (existsb (neqb (Fin x)) (n :: l))) xs ds L)].
    unfold fins. rewrite !map_map. apply map_ext. intros x. apply ofbool_mark.
  - destruct l as [|n l]; [discriminate|]. apply ok_inj in E. subst f. split; [|intros v K; apply ok_inj in K; now subst v].
    intros xs ds L Ne. f_equal. exact (dates_fins (fun t => marked (DDates (n :: l)) 0 t) xs ds L).
Qed.
Lemma date_mask_pointwise h : pointwise (date_mask h) (fun _ t => h t).
Proof.
  split; [|intros v K; apply ok_inj in K; now subst v]. intros xs ds L Ne. unfold date_mask. cbn [need_dates rbind]. f_equal. now apply dates_fins.
Qed.
Lemma cached_dummy name f : cached (dummy_model_of name f) [(mask_name name, mask_cache f)].
Proof.
  split; [intros x ds _ _; apply transparent_dummy|]. intros k g [[= <- <-]|[]]. right. split; [apply mask_name_not_global|].
  intros g [[= <-]|[]]. intros x ds _ _. reflexivity.
Qed.
Theorem regression_mask name f g : name <> "null" -> requires_scaling name = false -> real_mask true f -> pointwise f g ->
  regression (dummy_model_of name f) (fun x t => [mark (g x t)]).
Proof.
  intros Nn Ns Rm [Pw Pe]. constructor.
  - now apply hardy_dummy.
  - exists [(mask_name name, mask_cache f)]. apply cached_dummy.
  - intros ? ? ?. now eexists.
  - exact Ns.
  - reflexivity.
  - intros xs ds act th L Ne Lt. destruct (one_param th Lt) as (a & ->). unfold call. cbn [dummy_model_of mk_model fm_f]. unfold f_model_dummy. cbn [kw_cache dict_get mode_of].
    rewrite (Pw xs ds L Ne). cbn [Py.rmap rbind fins map unpack1]. do 2 f_equal. unfold fins. rewrite !map_map. apply map_ext. intros p.
    change (nmul (Fin a) (Fin (mark (g (fst p) (snd p))))) with (Fin (a * mark (g (fst p) (snd p)))). apply (f_equal Fin). unfold rdot. cbn. ring.
  - exists (Py.rmap (fun _ => Ar []) (f [] (Some []))). split; [intros v; destruct (f [] (Some [])); cbn; [intros K; apply ok_inj in K; now subst v|discriminate]|].
    intros act th Lt. destruct (one_param th Lt) as (a & ->). unfold call. cbn [dummy_model_of mk_model fm_f]. unfold f_model_dummy. cbn [kw_cache dict_get mode_of].
    destruct (f [] (Some [])) as [l|] eqn:E; [|reflexivity]. rewrite (Pe l eq_refl). reflexivity.
Qed.
Theorem regression_dummy name dm m : name <> "null" -> requires_scaling name = false -> ruled dm -> get_model_dummy name dm = Ok m ->
  regression m (fun x t => [mark (marked dm x t)]).
Proof.
  intros Nn Ns Ru E. unfold get_model_dummy in E. destruct (get_f_dummy dm) as [f|] eqn:Ef; [|discriminate E]. cbn [rbind] in E.
  destruct (validate_f_dummy f); [|discriminate E]. cbn [rbind] in E. apply ok_inj in E. subst m.
  apply regression_mask; auto; [|now apply ruled_pointwise]. apply (f_dummy_real dm); [|exact Ef]. destruct dm; cbn in Ru |- *; auto. destruct Ru.
Qed.

(* ---- sums of masks ---- *)
Lemma effects_rdot ins ps t : length ps = length ins -> total false (effects false ins ps t) = rdot ps (map (fun i => mark (i t)) ins).
Proof.
  unfold effects, rdot. revert ps. induction ins as [|i ins IH]; intros [|a ps] L; try discriminate; [reflexivity|]. cbn [combine map fst snd total rsum].
  rewrite IH by (cbn in L; lia). unfold dummy_effect, mark, rcomb. destruct (i t); ring.
Qed.
Lemma fold_error xs d kw e (ms : list (fmodel XR)) : forall m0 p, fm_name m0 <> "null" -> Forall (fun m => fm_name m <> "null") ms ->
  fcall false m0 xs d (firstn (fm_n m0) p) kw = Err e -> fcall false (fold_left madd ms m0) xs d (match ms with [] => firstn (fm_n m0) p | _ => p end) kw = Err e.
Proof.
  induction ms as [|m ms IH]; intros m0 p N0 F E; [exact E|]. inversion F as [|? ? Nm F']; subst. cbn [fold_left].
  destruct (mcomb_props false m0 m N0 Nm) as (_ & P2 & P3). specialize (IH (madd m0 m) p P2 F').
  assert (K : fcall false (madd m0 m) xs d (firstn (fm_n (madd m0 m)) p) kw = Err e).
  { change (madd m0 m) with (mcomb false m0 m) at 1. rewrite P3. destruct (mcomb_props false m0 m N0 Nm) as (P1 & _ & _). change (madd m0 m) with (mcomb false m0 m). rewrite P1.
    rewrite firstn_firstn, Nat.min_l by lia. rewrite E. reflexivity. }
  destruct ms as [|m1 ms]; [|exact (IH K)]. cbn [fold_left]. change (madd m0 m) with (mcomb false m0 m). rewrite P3, E. reflexivity.
Qed.
Definition f_cal (c : calendar) : dummyfun XR := fun _ a_date => let* (d, a, b) := date_range_of a_date in Ok (isin_dates d (calendar_holidays c a b)).
Definition cal_masks (l : list calendar) : list (string * dummyfun XR) := map (fun c => (cal_name c, f_cal c)) l.
Lemma cal_dummies l ms : rmapM (fun c => get_model_dummy (T := XR) (cal_name c) (DCal c)) l = Ok ms -> ms = dummies (cal_masks l).
Proof.
  intros E. apply rmapM_inv in E. induction E as [|c m l ms E F IH]; [reflexivity|]. cbn [cal_masks dummies map fst snd]. unfold cal_masks, dummies in IH. rewrite <- IH. f_equal.
  unfold get_model_dummy in E. cbn [get_f_dummy rbind] in E. destruct (validate_f_dummy _); [|discriminate E]. cbn [rbind] in E. apply ok_inj in E. now subst m.
Qed.
Definition f_dates (l : list Z) : dummyfun XR := fun _ a_date => match a_date with Some d => Ok (isin_dates d l) | None => Err TypeError end.
Definition date_masks (l : list (list Z)) : list (string * dummyfun XR) := map (fun ds => ("model_dummy", f_dates ds)) l.
Lemma dates_dummies l ms : rmapM (fun ds => get_model_dummy (T := XR) "model_dummy" (DDates ds)) l = Ok ms -> ms = dummies (date_masks l).
Proof.
  intros E. apply rmapM_inv in E. induction E as [|c m l ms E F IH]; [reflexivity|]. cbn [date_masks dummies map fst snd]. unfold date_masks, dummies in IH. rewrite <- IH. f_equal.
  unfold get_model_dummy in E. cbn [get_f_dummy] in E. destruct c as [|d c]; [discriminate E|]. cbn [rbind] in E. destruct (validate_f_dummy _); [|discriminate E]. cbn [rbind] in E. apply ok_inj in E. now subst m.
Qed.
Lemma cached_all name n init cv dc (l : list (string * dummyfun XR)) : l <> [] ->
  (dc = None \/ (dc = Some (fm_dcache (reduce madd (dummies l))) /\ NoDup (map fst l))) ->
  cached (mk_model name n (f_all_dummies (reduce madd (dummies l)) (reduce mmul (dummies l))) init None None cv dc) (mask_reads l).
Proof.
  intros Nl Dc. split; [intros x ds _ _; now apply transparent_all_dummies|]. intros k f I. right.
  unfold mask_reads in I. apply in_map_iff in I as ((nm & fm) & E & I). cbn [fst snd] in E. injection E as <- <-. split; [apply mask_name_not_global|].
  cbn [mk_model fm_dcache]. destruct Dc as [->|[-> Nd]]; intros g J; [destruct J|].
  apply (proj1 (reduce_dcache_cvars l)) in J. unfold mask_reads in J. apply in_map_iff in J as ((nm' & fm') & E & J). cbn [fst snd] in E. injection E as E <-.
  subst nm'. assert (fm' = fm); [|subst fm'; intros x ds _ _; reflexivity].
  clear - I J Nd. induction l as [|[a b] l IH]; [destruct I|]. cbn in Nd. inversion Nd as [|? ? Ni Nd']; subst.
  destruct I as [I|I], J as [J|J].
  - congruence.
  - injection I as -> _. destruct (Ni (in_map fst _ _ J)).
  - injection J as -> _. destruct (Ni (in_map fst _ _ I)).
  - auto.
Qed.
Theorem regression_calendars l name m : filter has_rules l <> [] -> Forall (fun c => cal_name c <> "null" /\ Forall local_rule (cal_rules c)) l -> own_names l ->
  fm_name m <> "null" -> requires_scaling (fm_name m) = false -> get_model_from_calendars l name = Ok m ->
  regression m (fun _ t => holiday_phi (filter has_rules l) t).
Proof.
  intros Nl F Nd Nn Ns E.
  assert (F1 : Forall (fun c => cal_name c <> "null") l) by (eapply Forall_impl; [|exact F]; cbn; tauto).
  destruct (calendars_ok l name Nl F1) as (m' & E' & Ln & _ & _ & Ca & _). rewrite E in E'. apply ok_inj in E'. subst m'.
  assert (Nm : name <> Some "null").
  { intros ->. unfold get_model_from_calendars in E. destruct (filter _ l); [discriminate E|]. destruct (rmapM _ _); [|discriminate E]. cbn [rbind] in E. apply ok_inj in E. subst m. now apply Nn. }
  pose proof (hardy_calendars l name m F1 Nm E) as Hm.
  unfold get_model_from_calendars in E. change (fun c => match cal_rules c with [] => false | _ => true end) with has_rules in E.
  unfold own_names in Nd. set (l' := filter has_rules l) in *.
  assert (F' : Forall (fun c => cal_name c <> "null" /\ Forall local_rule (cal_rules c)) l').
  { rewrite Forall_forall in *. intros c I. apply filter_In in I as [I _]. auto. }
  clearbody l'. destruct l' as [|c0 l0]; [congruence|]. destruct (rmapM _ (c0 :: l0)) as [ms|] eqn:Em in E; [|discriminate E]. cbn [rbind] in E.
  apply cal_dummies in Em. subst ms. cbv zeta in E. apply ok_inj in E. set (L := c0 :: l0) in *.
  constructor; auto.
  - exists (mask_reads (cal_masks L)). subst m. apply cached_all; [discriminate|]. right. split; [reflexivity|]. unfold cal_masks. rewrite map_map. exact Nd.
  - subst m. intros ? ? ?. now eexists.
  - intros x t. unfold holiday_phi. rewrite map_length. now rewrite Ln.
  - intros xs ds act th Ld Ne Lt. rewrite (Ca _ ds th false act Ne Lt). do 3 f_equal.
    etransitivity; [|exact (combine_map_snd (fun t => rdot th (holiday_phi L t)) xs ds Ld)]. apply map_ext_in. intros t It.
    rewrite effects_rdot by (rewrite map_length; congruence). f_equal. unfold holiday_phi. rewrite map_map. apply map_ext_in. intros c Ic. f_equal.
    rewrite Forall_forall in F'. destruct (F' c Ic) as [_ Lr]. destruct (zmin_max_some ds Ne) as (a & b & Ea & Eb & B). unfold cal_in. rewrite Ea, Eb. cbn [marked]. apply calendar_range; auto.
  - exists (Err ValueError). split; [discriminate|]. intros act th Lt. subst m. unfold call. cbn [mk_model fm_f]. unfold f_all_dummies. cbn [mode_of]. unfold L. cbn [cal_masks dummies map reduce fst snd].
    set (d0 := dummy_model_of (cal_name c0) (f_cal c0)). set (ds := map _ (map _ l0)).
    assert (N0 : Forall (fun c => cal_name c <> "null") L) by (eapply Forall_impl; [|exact F']; cbn; tauto). inversion N0 as [|? ? N1 N2]; subst.
    assert (Nds : Forall (fun d => fm_name d <> "null") ds). { unfold ds. apply Forall_map, Forall_map. eapply Forall_impl; [|exact N2]. cbn. auto. }
    assert (Ed : fcall false d0 [] (Some []) (firstn (fm_n d0) (fins th)) (mkKw act []) = Err ValueError) by reflexivity.
    pose proof (fold_error [] (Some []) (mkKw act []) ValueError ds d0 (fins th) N1 Nds Ed) as K. unfold fcall in K. unfold call. destruct ds; exact K.
Qed.
Theorem regression_datelist name args m : Forall (fun l => l <> []) args -> name <> "null" -> requires_scaling name = false -> get_model_from_datelist name args = Ok m ->
  regression m (fun _ t => dates_phi args t).
Proof.
  intros F Nn Ns E.
  assert (Na : args <> []) by (intros ->; discriminate E).
  destruct (datelists_ok name args Na F) as (m' & E' & Ln & Nm & Ca & _). rewrite E in E'. apply ok_inj in E'. subst m'.
  pose proof (hardy_datelist name args m Nn E) as Hm. unfold get_model_from_datelist in E. destruct (rmapM _ args) as [ms|] eqn:Em in E; [|discriminate E]. cbn [rbind] in E.
  apply dates_dummies in Em. subst ms.
  assert (Ca' : forall xs ds act th, length ds = length xs -> length th = fm_n m -> call m (fins xs) (Some ds) (Some (fins th)) false (mkKw act []) =
    Ok (Ar (fins (map (fun p => rdot th (dates_phi args (snd p))) (combine (A := R) xs ds))))).
  { intros xs ds act th Ld Lt. rewrite (Ca _ ds th false act Lt). do 3 f_equal.
    etransitivity; [|exact (combine_map_snd (fun t => rdot th (dates_phi args t)) xs ds Ld)]. apply map_ext. intros t.
    rewrite effects_rdot by (rewrite map_length; congruence). f_equal. unfold dates_phi. now rewrite map_map. }
  assert (Em : m = mk_model name (length (dummies (date_masks args))) (f_all_dummies (reduce madd (dummies (date_masks args))) (reduce mmul (dummies (date_masks args)))) (Some (init_neutral (length (dummies (date_masks args))))) None None None None).
  { destruct (dummies (date_masks args)) as [|d0 ds]; [discriminate E|]. apply ok_inj in E. now subst m. }
  constructor; auto.
  - exists (mask_reads (date_masks args)). rewrite Em. apply cached_all; [|now left]. destruct args; [congruence|discriminate].
  - rewrite Em. intros ? ? ?. now eexists.
  - now rewrite Nm.
  - intros x t. unfold dates_phi. now rewrite map_length, Ln.
  - exists (Ok (Ar [])). split; [intros v K; apply ok_inj in K; now subst v|]. intros act th Lt. exact (Ca' [] [] act th eq_refl Lt).
Qed.

(* ---- sums of models with masks ---- *)
Lemma masked_sturdy m : sturdy m -> masked m [].
Proof.
  intros St. exists dict_f_cache. split; [now apply sturdy_cached|]. split.
  - intros k f I. destruct (proj2 (sturdy_cached m St) k f I) as [G|[G _]]; [now left|]. exfalso. cbn in I. repeat destruct I as [I|I]; try (injection I as <- <-; discriminate G); destruct I.
  - intros k f I. rewrite (st_dcache _ St) in I. destruct I.
Qed.
Lemma masked_mask name f : masked (dummy_model_of name f) [name].
Proof.
  exists [(mask_name name, mask_cache f)]. split; [apply cached_dummy|]. split; intros k g [[= <- <-]|[]]; [right|]; exists name; (split; [now left|reflexivity]).
Qed.
Lemma masked_dummy name dm m : get_model_dummy name dm = Ok m -> masked m [name].
Proof.
  intros E. unfold get_model_dummy in E. destruct (get_f_dummy dm) as [f|]; [|discriminate E]. cbn [rbind] in E.
  destruct (validate_f_dummy f); [|discriminate E]. cbn [rbind] in E. apply ok_inj in E. subst m. apply masked_mask.
Qed.
Lemma masked_all name n init cv dc (l : list (string * dummyfun XR)) : l <> [] ->
  (dc = None \/ (dc = Some (fm_dcache (reduce madd (dummies l))) /\ NoDup (map fst l))) ->
  masked (mk_model name n (f_all_dummies (reduce madd (dummies l)) (reduce mmul (dummies l))) init None None cv dc) (map fst l).
Proof.
  intros Nl Dc. exists (mask_reads l). split; [now apply cached_all|].
  assert (K : forall k f, In (k, f) (mask_reads l) -> exists n, In n (map fst l) /\ k = mask_name n).
  { intros k f I. unfold mask_reads in I. apply in_map_iff in I as ((nm & g) & E & I). cbn [fst snd] in E. injection E as <- _. exists nm. split; [exact (in_map fst _ _ I)|reflexivity]. }
  split; [intros k f I; right; now apply (K k f)|]. cbn [mk_model fm_dcache]. intros k f I. destruct Dc as [->|[-> _]]; [destruct I|]. apply (K k f). now apply (proj1 (reduce_dcache_cvars l)).
Qed.
Lemma masked_calendars l name m : own_names l -> get_model_from_calendars l name = Ok m -> masked m (map cal_name (filter has_rules l)).
Proof.
  intros Nd E. unfold get_model_from_calendars in E. change (fun c => match cal_rules c with [] => false | _ => true end) with has_rules in E.
  unfold own_names in Nd. set (l' := filter has_rules l) in *. clearbody l'. destruct l' as [|c0 l0]; [discriminate E|]. destruct (rmapM _ (c0 :: l0)) as [ms|] eqn:Em in E; [|discriminate E]. cbn [rbind] in E.
  apply cal_dummies in Em. subst ms. cbv zeta in E. apply ok_inj in E. subst m.
  assert (K : map cal_name (c0 :: l0) = map fst (cal_masks (c0 :: l0))) by (unfold cal_masks; now rewrite map_map). rewrite K in *. apply masked_all; [discriminate|]. right. split; [reflexivity|exact Nd].
Qed.
Lemma masked_datelist name args m : get_model_from_datelist name args = Ok m -> masked m ["model_dummy"].
Proof.
  intros E. unfold get_model_from_datelist in E. destruct (rmapM _ args) as [ms|] eqn:Em in E; [|discriminate E]. cbn [rbind] in E. apply dates_dummies in Em. subst ms.
  assert (Na : date_masks args <> []) by (intros C; rewrite C in E; discriminate E).
  assert (Em : m = mk_model name (length (dummies (date_masks args))) (f_all_dummies (reduce madd (dummies (date_masks args))) (reduce mmul (dummies (date_masks args)))) (Some (init_neutral (length (dummies (date_masks args))))) None None None None).
  { destruct (dummies (date_masks args)) as [|d0 ds]; [discriminate E|]. apply ok_inj in E. now subst m. }
  rewrite Em. destruct (masked_all name (length (dummies (date_masks args))) (Some (init_neutral (length (dummies (date_masks args))))) None None (date_masks args) Na (or_introl eq_refl)) as (Rd & C & A & B).
  exists Rd. split; [exact C|]. assert (K : forall n, In n (map fst (date_masks args)) -> In n ["model_dummy"]).
  { intros n I. unfold date_masks in I. rewrite map_map in I. cbn [fst] in I. apply in_map_iff in I as (q & <- & _). now left. }
  split; [intros k f I; destruct (A k f I) as [G|(n & J & E')]; [now left|right; exists n; auto]|intros k f I; destruct (B k f I) as (n & J & E'); exists n; auto].
Qed.
Theorem masked_apart m1 m2 l1 l2 : masked m1 l1 -> masked m2 l2 -> (forall n, In n l1 -> ~ In n l2) -> apart m1 m2.
Proof.
  intros (R1 & C1 & A1 & B1) (R2 & C2 & A2 & B2) D. exists R1, R2. split; [exact C1|]. split; [exact C2|].
  assert (Gl : forall n, dict_get (dict_f_cache (T := XR)) (mask_name n) = None) by (intros n; apply mask_name_not_global).
  split; intros k f g I J.
  - destruct (B2 k g J) as (n & In2 & ->). destruct (A1 _ f I) as [G|(n' & In1 & E)]; [rewrite Gl in G; discriminate|]. injection E as <-. destruct (D n In1 In2).
  - destruct (B1 k g J) as (n & In1 & ->). destruct (A2 _ f I) as [G|(n' & In2 & E)]; [rewrite Gl in G; discriminate|]. injection E as <-. destruct (D n In1 In2).
Qed.
Theorem masked_madd m1 m2 l1 l2 : fm_name m1 <> "null" -> fm_name m2 <> "null" -> masked m1 l1 -> masked m2 l2 -> (forall n, In n l1 -> ~ In n l2) -> masked (madd m1 m2) (l1 ++ l2).
Proof.
  intros N1 N2 (R1 & C1 & A1 & B1) (R2 & C2 & A2 & B2) D. exists (R1 ++ R2).
  assert (Gl : forall n, dict_get (dict_f_cache (T := XR)) (mask_name n) = None) by (intros n; apply mask_name_not_global).
  split; [|split].
  - apply cached_madd; auto; intros k f g I J.
    + destruct (B2 k g J) as (n & In2 & ->). destruct (A1 _ f I) as [G|(n' & In1 & E)]; [rewrite Gl in G; discriminate|]. injection E as <-. destruct (D n In1 In2).
    + destruct (B1 k g J) as (n & In1 & ->). destruct (A2 _ f I) as [G|(n' & In2 & E)]; [rewrite Gl in G; discriminate|]. injection E as <-. destruct (D n In1 In2).
  - intros k f I. apply in_app_iff in I as [I|I]; [destruct (A1 k f I) as [G|(n & J & E)]|destruct (A2 k f I) as [G|(n & J & E)]]; try (now left); right; exists n; split; auto; apply in_or_app; auto.
  - unfold madd. rewrite !is_null_false by assumption. cbn [combine_models mk_model fm_dcache]. intros k f I.
    apply dict_update_in in I as [I|I]; [destruct (B1 k f I) as (n & J & E)|destruct (B2 k f I) as (n & J & E)]; exists n; split; auto; apply in_or_app; auto.
Qed.

(* ---- what C73 and C81 ask of a model ---- *)
Lemma blind_dummy name dm m : get_model_dummy name dm = Ok m -> ScaleProofs.blind m.
Proof.
  intros E. unfold get_model_dummy in E. destruct (get_f_dummy dm) as [f|]; [|discriminate E]. cbn [rbind] in E.
  destruct (validate_f_dummy f); [|discriminate E]. cbn [rbind] in E. apply ok_inj in E. subst m. repeat constructor.
Qed.
Lemma blind_calendars l name m : get_model_from_calendars l name = Ok m -> ScaleProofs.blind m.
Proof.
  intros E. unfold get_model_from_calendars in E. destruct (filter _ l) as [|c0 l0]; [discriminate E|]. destruct (rmapM _ (c0 :: l0)) as [ms|]; [|discriminate E]. cbn [rbind] in E. apply ok_inj in E. subst m. repeat constructor.
Qed.
Lemma blind_datelist name args m : get_model_from_datelist name args = Ok m -> ScaleProofs.blind m.
Proof.
  intros E. unfold get_model_from_datelist in E. destruct (rmapM _ args) as [ms|]; [|discriminate E]. cbn [rbind] in E. destruct ms; [discriminate E|]. apply ok_inj in E. subst m. repeat constructor.
Qed.
Lemma deaf_mask k name f : deaf k (dummy_model_of name f).
Proof. apply deaf_quiet. reflexivity. Qed.
Lemma deaf_all k name n init cv dc (l : list (string * dummyfun XR)) :
  deaf k (mk_model name n (f_all_dummies (reduce madd (dummies l)) (reduce mmul (dummies l))) init None None cv dc).
Proof.
  assert (G : forall op, (forall a b, deaf k a -> deaf k b -> deaf k (op a b)) -> deaf k (reduce op (dummies l))).
  { intros op Op. destruct l as [|[a f] l']; [apply deaf_quiet; reflexivity|]. cbn [dummies map reduce fst snd]. generalize (deaf_mask k a f). generalize (dummy_model_of a f).
    induction l' as [|[b g] l' IH]; intros m Hm; [exact Hm|]. cbn [map fold_left fst snd]. apply IH. apply Op; [exact Hm|apply deaf_mask]. }
  intros x d p mode act cache. cbn [mk_model fm_f]. unfold f_all_dummies, call. destruct (mode_of false mode).
  - apply (G mmul (deaf_mmul k)).
  - apply (G madd (deaf_madd k)).
Qed.
Lemma deaf_dummy k name dm m : get_model_dummy name dm = Ok m -> deaf k m.
Proof.
  intros E. unfold get_model_dummy in E. destruct (get_f_dummy dm) as [f|]; [|discriminate E]. cbn [rbind] in E.
  destruct (validate_f_dummy f); [|discriminate E]. cbn [rbind] in E. apply ok_inj in E. subst m. apply deaf_mask.
Qed.
Lemma deaf_calendars k l name m : get_model_from_calendars l name = Ok m -> deaf k m.
Proof.
  intros E. unfold get_model_from_calendars in E. destruct (filter _ l) as [|c0 l0]; [discriminate E|]. destruct (rmapM _ (c0 :: l0)) as [ms|] eqn:Em in E; [|discriminate E]. cbn [rbind] in E.
  apply cal_dummies in Em. subst ms. apply ok_inj in E. subst m. apply deaf_all.
Qed.
Lemma deaf_datelist k name args m : get_model_from_datelist name args = Ok m -> deaf k m.
Proof.
  intros E. unfold get_model_from_datelist in E. destruct (rmapM _ args) as [ms|] eqn:Em in E; [|discriminate E]. cbn [rbind] in E. apply dates_dummies in Em. subst ms.
  destruct (dummies (date_masks args)) eqn:D; [discriminate E|]. rewrite <- D in E. apply ok_inj in E. subst m. apply deaf_all.
Qed.

(* ---- the calendars of the package ---- *)
Lemma uk_local : Forall (fun c => cal_name c <> "null" /\ Forall local_rule (cal_rules c)) [CalendarChristmasUK; CalendarBankHolUK; CalendarChristmasIta; CalendarBankHolIta].
Proof.
  pose proof shipped_local as F. rewrite !Forall_app in F. destruct F as (F1 & F2 & F3 & F4). repeat (constructor; [split; [discriminate|assumption]|]). constructor.
Qed.
Lemma uk_rules : filter has_rules [CalendarChristmasUK; CalendarBankHolUK] = [CalendarChristmasUK; CalendarBankHolUK] /\
  filter has_rules [CalendarChristmasIta; CalendarBankHolIta] = [CalendarChristmasIta; CalendarBankHolIta].
Proof. split; reflexivity. Qed.
Lemma calendars_name l n (m : fmodel XR) : get_model_from_calendars l (Some n) = Ok m -> fm_name m = n.
Proof. unfold get_model_from_calendars. destruct (filter _ l) as [|c0 l0]; [discriminate|]. destruct (rmapM _ (c0 :: l0)) as [ds|]; [|discriminate]. cbn [rbind]. intros E. apply ok_inj in E. now subst m. Qed.
Theorem regression_shipped :
  (exists m, model_calendar_uk = Ok m /\ regression m (fun _ t => holiday_phi [CalendarChristmasUK; CalendarBankHolUK] t) /\ masked m (map cal_name [CalendarChristmasUK; CalendarBankHolUK])) /\
  (exists m, model_calendar_ita = Ok m /\ regression m (fun _ t => holiday_phi [CalendarChristmasIta; CalendarBankHolIta] t) /\ masked m (map cal_name [CalendarChristmasIta; CalendarBankHolIta])).
Proof.
  pose proof uk_local as F. inversion F as [|? ? U1 F1]; subst. inversion F1 as [|? ? U2 F2]; subst. inversion F2 as [|? ? U3 F3]; subst. inversion F3 as [|? ? U4 F4]; subst.
  assert (Fu : Forall (fun c => cal_name c <> "null" /\ Forall local_rule (cal_rules c)) [CalendarChristmasUK; CalendarBankHolUK]) by (constructor; [exact U1|constructor; [exact U2|constructor]]).
  destruct (uk_rules) as [R1 R2].
  split.
  - destruct (calendars_exist [CalendarChristmasUK; CalendarBankHolUK] (Some "calendar_uk")) as (m & E); [discriminate|]. exists m. split; [exact E|].
    pose proof (calendars_name _ _ _ E) as Nm.
    assert (O : own_names [CalendarChristmasUK; CalendarBankHolUK]) by (unfold own_names; rewrite R1; cbn; constructor; [intros [C|[]]; discriminate|constructor; [intros []|constructor]]).
    split; [|rewrite <- R1; now apply (masked_calendars _ (Some "calendar_uk"))].
    pose proof (regression_calendars [CalendarChristmasUK; CalendarBankHolUK] (Some "calendar_uk") m) as K. rewrite R1 in K. apply K; auto; [discriminate|rewrite Nm; discriminate|now rewrite Nm].
  - destruct (calendars_exist [CalendarChristmasIta; CalendarBankHolIta] (Some "calendar_ita")) as (m & E); [discriminate|]. exists m. split; [exact E|].
    pose proof (calendars_name _ _ _ E) as Nm.
    assert (O : own_names [CalendarChristmasIta; CalendarBankHolIta]) by (unfold own_names; rewrite R2; cbn; constructor; [intros [C|[]]; discriminate|constructor; [intros []|constructor]]).
    split; [|rewrite <- R2; now apply (masked_calendars _ (Some "calendar_ita"))].
    pose proof (regression_calendars [CalendarChristmasIta; CalendarBankHolIta] (Some "calendar_ita") m) as K. rewrite R2 in K. apply K; auto; [discriminate|rewrite Nm; discriminate|now rewrite Nm].
Qed.

(* ---- when the samples determine the parameters ---- *)
Lemma line_with_determined m2 phi2 f : regression m2 phi2 ->
  (exists r1 r2, In r1 (usable_rows f) /\ In r2 (usable_rows f) /\ r_x r1 <> r_x r2 /\ coef phi2 r1 = repeat 0 (fm_n m2) /\ coef phi2 r2 = repeat 0 (fm_n m2)) ->
  determined m2 phi2 f -> determined (madd model_linear m2) (fun x t => [x; 1] ++ phi2 x t) f.
Proof.
  intros Rg (r1 & r2 & I1 & I2 & N & Z1 & Z2) De de L K. pose proof (hd_name _ _ (rg_hardy _ _ Rg)) as N2.
  assert (Ln : fm_n (madd model_linear m2) = S (S (fm_n m2))) by (unfold madd; rewrite !is_null_false by (exact N2 || discriminate); reflexivity). rewrite Ln in *.
  destruct de as [|a [|b de]]; try discriminate L. cbn [length] in L. injection L as L.
  assert (Sp : forall r, In r (usable_rows f) -> a * x_in r + b + rdot de (coef phi2 r) = 0).
  { intros r I. rewrite <- (K r I). unfold coef. change (a :: b :: de) with ([a; b] ++ de). rewrite rdot_app by reflexivity. unfold rdot at 2. cbn. ring. }
  assert (Rz : forall n l, rdot l (repeat 0 n) = 0).
  { unfold rdot. induction n as [|n IH]; intros [|c l]; cbn; try reflexivity. rewrite (IH l). ring. }
  pose proof (Sp r1 I1) as S1. pose proof (Sp r2 I2) as S2. rewrite Z1, Rz in S1. rewrite Z2, Rz in S2. unfold x_in in S1, S2. apply not_eq_IZR_ in N.
  assert (P : a * (IZR (r_x r1) - IZR (r_x r2)) = 0) by lra. apply Rmult_integral in P as [->|P]; [|lra]. assert (b = 0) by lra. subst b. cbn [repeat]. do 2 f_equal.
  apply De; [exact L|]. intros r I. pose proof (Sp r I). lra.
Qed.
(* every calendar has a sample that it alone marks *)
Definition alone (l : list (Z -> bool)) (f : frame XR) : Prop := forall i, (i < length l)%nat -> exists r, In r (usable_rows f) /\
  forall j g, nth_error l j = Some g -> g (r_date r) = Nat.eqb j i.
Lemma rdot_unit ps : forall (l : list bool) i, length ps = length l -> (i < length l)%nat -> (forall j b, nth_error l j = Some b -> b = Nat.eqb j i) -> rdot ps (map mark l) = nth i ps 0.
Proof.
  unfold rdot. induction ps as [|p ps IH]; intros [|b l] i L Li K; try discriminate; [cbn in Li; lia|]. cbn [map combine rsum fst snd]. cbn in L, Li.
  pose proof (K 0%nat b eq_refl) as K0. destruct i as [|i]; cbn [nth Nat.eqb] in *.
  - subst b. assert (Z : rsum (map (fun ab => fst ab * snd ab) (combine ps (map mark l))) = 0).
    { assert (F : forall j b, nth_error l j = Some b -> b = false) by (intros j b E; apply (K (S j) b E)). clear - F. revert l F. induction ps as [|p ps IH]; intros [|b l] F; cbn; try reflexivity.
      rewrite (F 0%nat b eq_refl), IH; [cbn; ring|]. intros j c E. exact (F (S j) c E). }
    rewrite Z. cbn. ring.
  - subst b. rewrite (IH l i); [cbn; ring|lia|lia|]. intros j b E. exact (K (S j) b E).
Qed.
Lemma alone_determined m l f : fm_n m = length l -> alone l f -> determined m (fun _ t => map (fun g => mark (g t)) l) f.
Proof.
  intros Ln Al de L K. rewrite Ln in *. apply nth_ext with 0 0; [now rewrite repeat_length|]. intros i Hi. rewrite L in Hi. rewrite nth_repeat. destruct (Al i Hi) as (r & I & M).
  etransitivity; [|exact (K r I)]. unfold coef. rewrite <- (map_map (fun g => g (r_date r)) mark). symmetry. apply rdot_unit; [now rewrite map_length|now rewrite map_length|].
  intros j b E. rewrite nth_error_map in E. destruct (nth_error l j) as [g|] eqn:Eg; [|discriminate E]. cbn in E. injection E as <-. now apply M.
Qed.
Lemma calendars_val l n (m : fmodel XR) : get_model_from_calendars l (Some n) = Ok m -> fm_val m = [val_default].
Proof. unfold get_model_from_calendars. destruct (filter _ l) as [|c0 l0]; [discriminate|]. destruct (rmapM _ (c0 :: l0)) as [ds|]; [|discriminate]. cbn [rbind]. intros E. apply ok_inj in E. now subst m. Qed.
