(* Dummy variables, calendars and date lists among the candidates of a forecast (C71). *)
From Coq Require Import ZArith String List Bool Lia Reals Lra Sorted Permutation QArith_base.
From Verif Require Import Num Py Cal Fmt Model Base Dummy Fixed Naive Freq Aic Normalize Fit Interp Select Stats Outliers Pi Forecast.
From Verif Require Import NumProofs ListProofs StringProofs ModelProofs BaseProofs GuessProofs FixedProofs FitProofs SeasonProofs CacheProofs AicProofs StatsProofs ForecastProofs ForecastProofs2 ExtendProofs MetaProofs LsqProofs RobustProofs TotalProofs.
Import ListNotations.
Local Open Scope string_scope.
Local Open Scope list_scope.
Local Open Scope R_scope.

(* a mask with a real number for every sample *)
Definition real_mask (ne : bool) (f : dummyfun XR) : Prop := forall x ds, length ds = length x -> some_date ne ds ->
  exists rs, f x (Some ds) = Ok (fins rs) /\ length rs = length x.

Lemma mask_fins {A} (h : A -> bool) (l : list A) : exists rs, map (fun a => nofbool (h a)) l = fins rs /\ length rs = length l.
Proof.
  exists (map (fun a => if h a then 1 else 0) l). unfold fins. rewrite map_map, map_length. split; [|reflexivity].
  apply map_ext. intros a. unfold nofbool. destruct (h a); reflexivity.
Qed.
Lemma isin_dates_fins ds l : exists rs, isin_dates (T := XR) ds l = fins rs /\ length rs = length ds.
Proof. apply mask_fins. Qed.
Lemma isin_nums_fins x l : exists rs, isin_nums (T := XR) x l = fins rs /\ length rs = length x.
Proof. apply mask_fins. Qed.
Lemma date_mask_real ne h : real_mask ne (date_mask h).
Proof.
  intros x ds Ld _. destruct (mask_fins h ds) as (rs & E & L). exists rs. split; [|congruence]. unfold date_mask. cbn [need_dates rbind]. now rewrite E.
Qed.
Lemma range_ok (ds : list Z) : ds <> [] -> exists a b, date_range_of (Some ds) = Ok (ds, a, b).
Proof. intros N. unfold date_range_of. destruct ds as [|d ds]; [congruence|]. cbn. eauto. Qed.
Definition user_mask (dm : dummy XR) : Prop := match dm with DFun f => real_mask true f | _ => True end.
Lemma f_dummy_real dm f : user_mask dm -> get_f_dummy dm = Ok f -> real_mask true f.
Proof.
  intros U E. destruct dm as [g|h|c|l|l]; cbn in E.
  - injection E as <-. exact U.
  - injection E as <-. intros x ds Ld Ne. destruct (range_ok ds (Ne eq_refl)) as (a & b & ->). cbn [rbind].
    destruct (isin_dates_fins ds (holiday_dates h a b)) as (rs & -> & L). exists rs. split; [reflexivity|congruence].
  - injection E as <-. intros x ds Ld Ne. destruct (range_ok ds (Ne eq_refl)) as (a & b & ->). cbn [rbind].
    destruct (isin_dates_fins ds (calendar_holidays c a b)) as (rs & -> & L). exists rs. split; [reflexivity|congruence].
  - destruct l as [|n l]; [discriminate|]. injection E as <-. intros x ds Ld Ne. destruct (isin_nums_fins x (n :: l)) as (rs & -> & L). eauto.
  - destruct l as [|n l]; [discriminate|]. injection E as <-. intros x ds Ld Ne. destruct (isin_dates_fins ds (n :: l)) as (rs & -> & L). exists rs. split; [reflexivity|congruence].
Qed.

(* the model of one mask *)
Lemma hardy_dummy ne name f : name <> "null" -> real_mask ne f -> hardy ne (dummy_model_of name f).
Proof.
  intros Nn M.
  assert (Mk : forall x ds c act p mode, length ds = length x -> some_date ne ds -> in_order x ds c ->
    exists rs, length rs = length x /\ fm_f (dummy_model_of name f) x (Some ds) (Some p) (Some mode) (mkKw act c) =
      (let* a := unpack1 (Some p) in Ok (Ar (if mode then map (fun m => nadd (nmul a m) n1) (fins rs) else map (nmul a) (fins rs))))).
  { intros x ds c act p mode Ld Ne Oc. cbn [dummy_model_of mk_model fm_f]. unfold f_model_dummy. cbn [kw_cache mode_of].
    destruct (dict_get c (mask_name name)) as [v|] eqn:E.
    - specialize (Oc _ _ E). rewrite mask_name_not_global in Oc. destruct Oc as (rs & -> & L). exists rs. split; [exact L|reflexivity].
    - destruct (M x ds Ld Ne) as (rs & -> & L). exists rs. split; [exact L|reflexivity]. }
  constructor.
  - cbn. lia.
  - exact Nn.
  - intros xs ds c act p mode Ld Ne Oc Lp. destruct (Mk xs ds c act p mode Ld Ne Oc) as (rs & L & ->). destruct p as [|a [|b p]]; try discriminate Lp.
    cbn [unpack1 rbind]. eexists. split; [reflexivity|]. destruct mode; rewrite map_length, fins_length; exact L.
  - intros xs ds c act ps mode Ld Ne Oc Lp. destruct (one_param ps Lp) as (a & ->).
    destruct (Mk (fins xs) ds c act (fins [a]) mode) as (rs & L & ->); [now rewrite fins_length|exact Ne|exact Oc|]. cbn [fins map unpack1 rbind].
    destruct mode; [exists (map (fun m => a * m + 1) rs)|exists (map (fun m => a * m) rs)]; do 2 f_equal; unfold fins; rewrite !map_map; apply map_ext; intros r; [|reflexivity].
    cbn [nmul XROps xmul]. rewrite n1_fin. apply add_fin.
  - intros k g [[= <- <-]|[]]. split; [apply mask_name_not_global|]. intros x ds Ld Ne. destruct (M x ds Ld Ne) as (rs & E & L). exists rs. split; [unfold rmap; now rewrite E|exact L].
  - intros x y ds. repeat constructor.
  - intros xs ys mult rnd _ D. now apply default_guess.
  - intros xs ys d _. apply unbounded_unpinned. intros ? ? ?. now eexists.
Qed.

(* sums and products of several masks *)
Lemma hardy_reduce ne op (l : list (fmodel XR)) : (forall a b, hardy ne a -> hardy ne b -> hardy ne (op a b)) ->
  l <> [] -> Forall (hardy ne) l -> hardy ne (reduce op l).
Proof.
  intros Op. destruct l as [|m l]; [congruence|]. intros _ F. inversion F as [|m' l' Hm Hl]; subst. cbn [reduce]. clear F.
  revert m Hm. induction Hl as [|a l Ha Hl IH]; intros m Hm; cbn [fold_left]; [exact Hm|]. apply IH. now apply Op.
Qed.
Lemma reduce_n op (l : list (fmodel XR)) : (forall a b, fm_name a <> "null" -> fm_name b <> "null" -> fm_n (op a b) = (fm_n a + fm_n b)%nat /\ fm_name (op a b) <> "null") ->
  Forall (fun m => fm_n m = 1%nat /\ fm_name m <> "null") l -> l <> [] -> fm_n (reduce op l) = length l.
Proof.
  intros Op F N. destruct l as [|m l]; [congruence|]. inversion F as [|m' l' [Nm Hm] Hl]; subst. cbn [reduce length]. clear F N.
  assert (G : forall m, fm_name m <> "null" -> fm_n (fold_left op l m) = (fm_n m + length l)%nat).
  { clear m Nm Hm. induction Hl as [|a l [Na Ha] Hl IH]; intros m Hm; cbn [fold_left length]; [lia|]. destruct (Op m a Hm Ha) as [E N]. rewrite IH by exact N. rewrite E, Na. lia. }
  rewrite G by exact Hm. lia.
Qed.
Lemma madd_n (a b : fmodel XR) : fm_name a <> "null" -> fm_name b <> "null" -> fm_n (madd a b) = (fm_n a + fm_n b)%nat /\ fm_name (madd a b) <> "null".
Proof. intros A B. unfold madd. rewrite !is_null_false by assumption. split; [reflexivity|discriminate]. Qed.
Lemma mmul_n (a b : fmodel XR) : fm_name a <> "null" -> fm_name b <> "null" -> fm_n (mmul a b) = (fm_n a + fm_n b)%nat /\ fm_name (mmul a b) <> "null".
Proof. intros A B. unfold mmul. rewrite !is_null_false by assumption. split; [reflexivity|discriminate]. Qed.

Lemma neutral_guess name n f cvars dcache xs ys mult rnd :
  let m := mk_model (T := XR) name n f (Some (init_neutral n)) None None cvars dcache in
  exists ps b, fm_init m (Some (fins xs)) (Some (fins ys)) None mult rnd = Ok (fins ps) /\
      fm_bounds m (Some (fins xs)) (Some (fins ys)) None = Ok b /\ length ps = fm_n m /\
      length (b_lo b) = fm_n m /\ length (b_hi b) = fm_n m /\ entries_within (fins ps) b.
Proof.
  intros m. exists (repeat (if mult then 1 else 0) n). eexists. cbn [m fm_init mk_model fm_bounds fm_n]. rewrite init_fins.
  split; [unfold init_neutral, fins; rewrite map_repeat; now destruct mult|]. split; [reflexivity|]. rewrite repeat_length. split; [reflexivity|].
  cbn [b_lo b_hi]. rewrite !repeat_length. split; [reflexivity|]. split; [reflexivity|]. apply unbounded_within. apply repeat_length.
Qed.
Lemma hardy_all name (l : list (fmodel XR)) cvars dcache : name <> "null" -> l <> [] ->
  Forall (hardy true) l -> Forall (fun m => fm_n m = 1%nat) l ->
  (dcache = None \/ dcache = Some (fm_dcache (reduce madd l))) ->
  hardy true (mk_model name (length l) (f_all_dummies (reduce madd l) (reduce mmul l)) (Some (init_neutral (length l))) None None cvars dcache).
Proof.
  intros Nn Nl F N1 Dc. pose proof (hardy_reduce true madd l (hardy_madd true) Nl F) as A. pose proof (hardy_reduce true mmul l (hardy_mmul true) Nl F) as B.
  assert (F1 : Forall (fun m => fm_n m = 1%nat /\ fm_name m <> "null") l).
  { rewrite Forall_forall in *. intros m I. split; [auto|]. apply (hd_name true). auto. }
  pose proof (reduce_n madd l madd_n F1 Nl) as LA. pose proof (reduce_n mmul l mmul_n F1 Nl) as LB.
  constructor.
  - cbn. destruct l; [congruence|cbn; lia].
  - exact Nn.
  - intros xs ds c act p mode Ld Ne Oc Lp. cbn [mk_model fm_n fm_f] in *. unfold f_all_dummies, call. cbn [mode_of].
    destruct mode; [apply (hd_calls _ _ B)|apply (hd_calls _ _ A)]; congruence || assumption.
  - intros xs ds c act ps mode Ld Ne Oc Lp. cbn [mk_model fm_n fm_f] in *. unfold f_all_dummies, call. cbn [mode_of].
    destruct mode; [apply (hd_finite _ _ B)|apply (hd_finite _ _ A)]; congruence || assumption.
  - intros k f I. apply (hd_dcache _ _ A). destruct Dc as [-> | ->]; [destruct I|exact I].
  - intros x y ds. repeat constructor.
  - intros xs ys mult rnd _ D. apply neutral_guess.
  - intros xs ys d _. apply unbounded_unpinned. intros ? ? ?. now eexists.
Qed.

(* ---- the models a user obtains ---- *)
Lemma hardy_model_dummy name dm m : name <> "null" -> user_mask dm -> get_model_dummy name dm = Ok m -> hardy true m /\ fm_n m = 1%nat.
Proof.
  intros Nn U E. unfold get_model_dummy in E. destruct (get_f_dummy dm) as [f|] eqn:Ef; [|discriminate E]. cbn [rbind] in E.
  destruct (validate_f_dummy f); [|discriminate E]. cbn [rbind] in E. injection E as <-. split; [|reflexivity]. apply hardy_dummy; [exact Nn|]. now apply (f_dummy_real dm).
Qed.
Lemma hardy_dummies {A} (name : A -> string) (dm : A -> dummy XR) l ms : Forall (fun a => name a <> "null" /\ user_mask (dm a)) l ->
  rmapM (fun a => get_model_dummy (name a) (dm a)) l = Ok ms -> length ms = length l /\ Forall (hardy true) ms /\ Forall (fun m => fm_n m = 1%nat) ms.
Proof.
  intros F E. apply rmapM_inv in E. split; [symmetry; exact (Forall2_len _ _ _ E)|].
  induction E as [|a m l ms Ea E IH]; [split; constructor|]. inversion F as [|a' l' [Na Ua] Fl]; subst. destruct (hardy_model_dummy _ _ _ Na Ua Ea). destruct (IH Fl). split; constructor; assumption.
Qed.
Theorem hardy_calendars l name m : Forall (fun c => cal_name c <> "null") l -> name <> Some "null" ->
  get_model_from_calendars l name = Ok m -> hardy true m.
Proof.
  intros F Nn E. unfold get_model_from_calendars in E. set (l' := filter _ l) in E.
  assert (F' : Forall (fun c => cal_name c <> "null" /\ user_mask (DCal c)) l').
  { apply Forall_forall. intros c I. apply filter_In in I as [I _]. rewrite Forall_forall in F. split; [auto|exact Logic.I]. }
  destruct l' as [|c0 l0] eqn:El; [discriminate E|]. destruct (rmapM _ (c0 :: l0)) as [ms|] eqn:Em in E; [|discriminate E]. cbn [rbind] in E. cbv zeta in E.
  apply (hardy_dummies cal_name DCal) in Em as (L & H & N); [|exact F']. injection E as <-. apply hardy_all; auto.
  - destruct name as [s|]; [congruence|]. inversion F' as [|? ? [K _] _]; subst. exact K.
  - intros C. rewrite C in L. discriminate L.
Qed.
Theorem hardy_datelist name args m : name <> "null" -> get_model_from_datelist name args = Ok m -> hardy true m.
Proof.
  intros Nn E. unfold get_model_from_datelist in E. destruct (rmapM _ args) as [ms|] eqn:Em in E; [|discriminate E]. cbn [rbind] in E.
  apply (hardy_dummies (fun _ => "model_dummy") (fun l => DDates l)) in Em as (L & H & N); [|apply Forall_forall; intros a _; split; [discriminate|exact I]].
  destruct ms as [|m0 ms]; [discriminate E|]. injection E as <-. apply (hardy_all name (m0 :: ms) None None); auto. discriminate.
Qed.

(* the check of ten samples accepts every dummy variable but a function of the user *)
Lemma zero_one_accepted (l : list bool) : forallb (fun v => neqb v n0 || neqb v n1) (map (nofbool (T := XR)) l) = true.
Proof.
  apply forallb_forall. intros v I. apply in_map_iff in I as (b & <- & _). unfold nofbool. rewrite n0_fin, n1_fin.
  assert (K : forall r, neqb (Fin r) (Fin r) = true) by (intros r; cbn; destruct (Reqb_spec r r); [reflexivity|congruence]).
  destruct b; rewrite K; [apply orb_true_r|reflexivity].
Qed.
Lemma validate_mask (f : dummyfun XR) l : f probe_x (Some probe_dates) = Ok (map nofbool l) -> validate_f_dummy f = Ok tt.
Proof. intros E. unfold validate_f_dummy. rewrite E. cbn [rbind]. now rewrite zero_one_accepted. Qed.
Lemma model_dummy_exists name dm : match dm with DFun f => exists h, f = date_mask h | _ => True end -> dm <> DNums [] -> dm <> DDates [] ->
  exists m, get_model_dummy (T := XR) name dm = Ok m.
Proof.
  intros U N D.
  assert (exists f l, get_f_dummy dm = Ok f /\ f probe_x (Some probe_dates) = Ok (map nofbool l)) as (f & l & E & V).
  { assert (Nd : probe_dates <> []) by discriminate. destruct (range_ok probe_dates Nd) as (a & b & Er).
    destruct dm as [g|h|c|l|l]; cbn [get_f_dummy].
    - destruct U as (h & ->). exists (date_mask h), (map h probe_dates). split; [reflexivity|]. unfold date_mask. cbn [need_dates rbind]. now rewrite map_map.
    - eexists. exists (map (fun t => existsb (Z.eqb t) (holiday_dates h a b)) probe_dates). split; [reflexivity|]. cbv beta. rewrite Er. cbn [rbind]. unfold isin_dates. now rewrite map_map.
    - eexists. exists (map (fun t => existsb (Z.eqb t) (calendar_holidays c a b)) probe_dates). split; [reflexivity|]. cbv beta. rewrite Er. cbn [rbind]. unfold isin_dates. now rewrite map_map.
    - destruct l as [|n l]; [congruence|]. eexists. exists (map (fun t => existsb (neqb t) (n :: l)) probe_x). split; [reflexivity|]. cbv beta. unfold isin_nums. now rewrite map_map.
    - destruct l as [|n l]; [congruence|]. eexists. exists (map (fun t => existsb (Z.eqb t) (n :: l)) probe_dates). split; [reflexivity|]. cbv beta. unfold isin_dates. now rewrite map_map. }
  exists (dummy_model_of name f). unfold get_model_dummy. rewrite E. cbn [rbind]. now rewrite (validate_mask f l V).
Qed.
Lemma shipped_dummy name h : name <> "null" -> exists m, get_model_dummy name (DFun (date_mask h)) = Ok m /\ hardy true m.
Proof.
  intros Nn. destruct (model_dummy_exists name (DFun (date_mask h))) as (m & E); [now exists h|discriminate..|].
  exists m. split; [exact E|]. apply (hardy_model_dummy name (DFun (date_mask h)) m Nn); [apply date_mask_real|exact E].
Qed.
Lemma calendars_exist l name : filter (fun c => match cal_rules c with [] => false | _ => true end) l <> [] ->
  exists m, get_model_from_calendars (T := XR) l name = Ok m.
Proof.
  intros N. unfold get_model_from_calendars. set (l' := filter _ l) in *. destruct l' as [|c0 l0] eqn:El; [congruence|].
  assert (K : forall k, exists ms, rmapM (fun c => get_model_dummy (T := XR) (cal_name c) (DCal c)) k = Ok ms).
  { induction k as [|c k (ms & IH)]; [cbn; eauto|]. cbn [rmapM]. destruct (model_dummy_exists (cal_name c) (DCal c) I) as (m & ->); [discriminate..|]. cbn [rbind]. rewrite IH. cbn. eauto. }
  destruct (K (c0 :: l0)) as (ms & ->). cbn [rbind]. eauto.
Qed.
Lemma shipped_calendar l name : filter (fun c => match cal_rules c with [] => false | _ => true end) l <> [] -> Forall (fun c => cal_name c <> "null") l ->
  name <> Some "null" -> exists m, get_model_from_calendars l name = Ok m /\ hardy true m.
Proof. intros N F Nn. destruct (calendars_exist l name N) as (m & E). exists m. split; [exact E|]. now apply (hardy_calendars l name). Qed.
