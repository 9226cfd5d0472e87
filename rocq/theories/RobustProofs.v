(* When a fit and a forecast complete without an exception (C70). *)
From Coq Require Import ZArith String List Bool Lia Reals Lra Sorted Permutation QArith_base.
From Verif Require Import Num Py Cal Fmt Model Base Fixed Naive Freq Aic Normalize Fit Interp Select Stats Outliers Pi Forecast.
From Verif Require Import NumProofs ListProofs StringProofs ModelProofs BaseProofs GuessProofs FixedProofs FitProofs SeasonProofs CacheProofs AicProofs StatsProofs ForecastProofs ForecastProofs2 ExtendProofs MetaProofs LsqProofs.
Import ListNotations.
Local Open Scope string_scope.
Local Open Scope list_scope.
Local Open Scope R_scope.

(* ---- specification ---- *)
(* the optimizer is started from g within b *)
Definition admissible (E : env XR) (m : fmodel XR) (f : frame XR) (g : list XR) (b : bounds XR) : Prop :=
  fm_init m (Some (xs_of m f)) (Some (ys_of f)) None false (e_rnd E) = Ok g /\
  fm_bounds m (Some (xs_of m f)) (Some (ys_of f)) None = Ok b /\ validate_initial_guess g b = Ok true.
(* no parameter is fixed by its bounds *)
Definition unpinned (m : fmodel XR) x y d : Prop :=
  exists b, fm_bounds m x y d = Ok b /\ length (b_lo b) = length (b_hi b) /\ forall i, ~ pinned b i.
(* what the fit makes of the answer of the optimizer *)
Definition reported (o : lsq_out XR) (r : res (meta XR)) : Prop :=
  match o with
  | LDone ok c x => exists d, r = Ok d /\ md_fit d = ok /\ md_cost d = c /\ md_params d = x
  | LRaise LinAlgError => exists d, r = Ok d /\ md_fit d = false /\ md_status d = "NO-FIT" /\ md_params d = []
  | LRaise e => r = Err e
  end.
(* the cost reported by the optimizer is a real number *)
Definition real_cost (o : lsq_out XR) : Prop := match o with LDone _ c _ => exists v, c = Fin v /\ 0 <= v | LRaise _ => True end.

Lemma aic_some (c : XR) n k : (0 <= k)%Z -> (k + 1 < n)%Z -> (exists v, c = Fin v /\ 0 <= v) \/ c = XNaN -> exists s, get_aic_c c n k = Ok s.
Proof.
  intros K L [(v & -> & P) | ->].
  - destruct (Rle_lt_or_eq_dec 0 v P) as [Q| <-].
    + rewrite score_pos by assumption. eauto.
    + destruct (Z.eq_dec k 1) as [->|N]; [rewrite score_zero_one by lia|rewrite score_zero by assumption]; eauto.
  - unfold get_aic_c. destruct (Z.leb_spec n (k + 1)); [lia|]. destruct (Z.eqb_spec n 0); [lia|]. cbn. eauto.
Qed.

(* the fit completes with what the optimizer reports *)
Theorem fit_completes E m f freq src act (uc : bool) g b c :
  (0 < fm_n m)%nat -> (fm_n m + 2 <= length (usable_rows f))%nat ->
  accepts m (xs_of m f) (ys_of f) (dates_of f) ->
  unpinned m (Some (xs_of m f)) (Some (ys_of f)) (dates_of f) ->
  admissible E m f g b ->
  (if uc then init_cache m (xs_of m f) (dates_of f) = Ok c else c = []) ->
  real_cost (e_lsq E (fun p => get_residuals (Some p) m (xs_of m f) (ys_of f) (dates_of f) (ws_of f) act c) g b) ->
  reported (e_lsq E (fun p => get_residuals (Some p) m (xs_of m f) (ys_of f) (dates_of f) (ws_of f) act c) g b)
    (fit_model E m f freq src act uc).
Proof.
  intros Np Hl Ac (b0 & B0 & L0 & U) (Gi & Gb & Gv) Ca Rc.
  assert (Sc : forall co : XR, (exists v, co = Fin v /\ 0 <= v) \/ co = XNaN ->
    exists s, get_aic_c co (Z.of_nat (length (usable_rows f))) (Z.of_nat (fm_n m)) = Ok s).
  { intros co K. apply aic_some; [lia|lia|exact K]. }
  unfold fit_model. rewrite (fit_unfold zero_lt_XR).
  destruct (range_ok (T := XR) E m f) as (range & ->). { intros C. rewrite C in Hl. cbn in Hl. lia. }
  cbn [rbind]. cbv zeta. destruct (Nat.ltb_spec (length (usable_rows f)) (fm_n m + 2)); [lia|].
  rewrite Ac. cbn [rbind negb]. rewrite (simplify_nothing (e_arr E) _ _ _ _ _ B0 L0 U). cbn [rbind].
  destruct (Nat.eqb_spec (fm_n m) 0); [lia|]. unfold optimize_least_squares. rewrite Gi, Gb. cbn [rbind]. rewrite Gv. cbn [rbind negb].
  assert (Ce : (if uc then init_cache m (xs_of m f) (dates_of f) else Ok []) = Ok c) by (destruct uc; [exact Ca|now rewrite Ca]).
  rewrite Ce. cbn [rbind]. destruct (e_lsq E _ g b) as [ok co x|e] eqn:Eo; cbn [rbind reported].
  - destruct (Sc co (or_introl Rc)) as (s & ->). cbn [rbind]. eexists. split; [reflexivity|]. cbn. auto.
  - destruct e; try reflexivity. cbn [rbind]. destruct (Sc XNaN (or_intror eq_refl)) as (s & Es). change (@nnan XR _) with XNaN. rewrite Es. cbn [rbind].
    eexists. split; [reflexivity|]. cbn. auto.
Qed.

(* ---- starting points exist ---- *)
Definition finite_values (f : frame XR) : Prop := Forall (fun r => r_y r = Fin (real (r_y r))) (usable_rows f).
Definition values (f : frame XR) : list R := map (fun r => real (r_y r)) (usable_rows f).
Lemma ys_values f : finite_values f -> ys_of f = fins (values f).
Proof. intros F. unfold ys_of, values, fins. rewrite map_map. apply map_ext_in. unfold finite_values in F. rewrite Forall_forall in F. exact F. Qed.
Definition position_of (m : fmodel XR) (r : row XR) : R := if requires_scaling (fm_name m) then IZR (r_x r) / 100 else IZR (r_x r).
Lemma xs_positions m f : xs_of m f = fins (map (position_of m) (usable_rows f)).
Proof.
  unfold xs_of, fins. rewrite map_map. apply map_ext. intros r. unfold FitProofs.x_of, position_of.
  destruct (requires_scaling (fm_name m)); [|reflexivity]. rewrite !ofZ_fin. apply div_fin. lra.
Qed.
Lemma positions_sorted m (l : list (row XR)) : StronglySorted Z.lt (map r_x l) -> StronglySorted Rlt (map (position_of m) l).
Proof.
  induction l as [|r l IH]; cbn [map]; intros K; [constructor|]. inversion_clear K as [|? ? K1 K2]. constructor; [now apply IH|].
  rewrite Forall_map in *. eapply Forall_impl; [|exact K2]. cbn. intros q Hq. apply IZR_lt in Hq. unfold position_of.
  destruct (requires_scaling (fm_name m)); lra.
Qed.
Theorem tree_admissible E (t : tree XR) f : draws (e_rnd E) -> finite_values f -> StronglySorted Z.lt (map r_x (usable_rows f)) ->
  (4 <= length (usable_rows f))%nat -> prune t <> None -> Forall (well_guessed (values f)) (leaves t) ->
  exists g b, admissible E (build t) f g b /\ length g = fm_n (build t).
Proof.
  intros D Fv St L P W.
  destruct (well_guessed_tree (map (position_of (build t)) (usable_rows f)) (values f) None t) with (is_mult := false) (rnd := e_rnd E) as (g & b & G1 & G2 & G3 & G4); auto.
  - split; [unfold values; now rewrite !map_length|exact I].
  - now apply positions_sorted.
  - now rewrite map_length.
  - exists g, b. split; [|exact G3]. unfold admissible. rewrite xs_positions, ys_values by exact Fv. auto.
Qed.

(* ---- bounds that fix no parameter ---- *)
Lemma unpinned_combine sep op mode (m1 m2 : fmodel XR) x y d : unpinned m1 x y d -> unpinned m2 x y d -> unpinned (combine_models sep op mode m1 m2) x y d.
Proof.
  intros (b1 & E1 & L1 & U1) (b2 & E2 & L2 & U2). unfold unpinned. cbn [combine_models mk_model fm_bounds]. unfold bounds_combine. rewrite E1, E2. cbn [rbind].
  unfold bounds_concat. rewrite L1, L2, !Nat.eqb_refl. cbn [andb]. eexists. split; [reflexivity|]. cbn [b_lo b_hi]. split; [rewrite !app_length; lia|].
  intros i (lo & hi & K1 & K2 & K3). cbn [b_lo b_hi] in *. destruct (Nat.lt_ge_cases i (length (b_lo b1))) as [C|C].
  - rewrite nth_error_app1 in K1, K2 by lia. apply (U1 i). now exists lo, hi.
  - rewrite nth_error_app2 in K1, K2 by lia. apply (U2 (i - length (b_lo b1))%nat). exists lo, hi. rewrite L1 at 2. auto.
Qed.
Lemma unpinned_tree (t : tree XR) x y d : prune t <> None -> Forall (fun m => unpinned m x y d) (leaves t) -> unpinned (build t) x y d.
Proof.
  destruct (prune t) as [t'|] eqn:P; [|congruence]. intros _. rewrite (prune_build _ _ P), (leaves_prune _ _ P).
  pose proof (prune_null_free _ _ P) as Nf. clear P t.
  induction Nf as [m Hm|a b Ha IHa Hb IHb|a b Ha IHa Hb IHb]; cbn [leaves build].
  - rewrite (proj2 (String.eqb_neq _ _) Hm). intros F. now inversion_clear F.
  - rewrite Forall_app. intros [Fa Fb]. unfold madd. rewrite !is_null_false by now apply null_free_name. apply unpinned_combine; auto.
  - rewrite Forall_app. intros [Fa Fb]. unfold mmul. rewrite !is_null_false by now apply null_free_name. apply unpinned_combine; auto.
Qed.
Lemma unbounded_unpinned m x y d : unbounded m -> unpinned m x y d.
Proof.
  intros U. destruct (U x y d) as (nd & Eb). eexists. split; [exact Eb|]. cbn [b_lo b_hi]. rewrite !repeat_length. split; [reflexivity|].
  intros i (lo & hi & E1 & E2 & K). cbn [b_lo b_hi] in *. apply nth_error_repeat' in E1, E2. subst. discriminate.
Qed.
