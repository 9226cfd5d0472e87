(* The label of the weights (C67), scaling of x (C25), short series (C60). *)
From Coq Require Import ZArith String List Bool Reals Lia Lra Floats.
From Verif Require Import Num Py Cal Fmt Model Base Naive Freq Normalize Fit Select Forecast Stats NumProofs BaseProofs ForecastProofs ForecastProofs2 MetaProofs GridProofs Ex Properties7 Properties11.
Import ListNotations.
Local Open Scope string_scope.
Local Open Scope list_scope.

(* ================= C67 ================= *)
(* the least and the greatest of some weights *)
Definition spread (ws : list R) (lo hi : R) : Prop := In lo ws /\ In hi ws /\ forall w, In w ws -> (lo <= w <= hi)%R.
Lemma col_spread ws : ws <> [] -> exists lo hi, col_min (map Fin ws) = Fin lo /\ col_max (map Fin ws) = Fin hi /\ spread ws lo hi.
Proof.
  intros Hn. unfold col_min, col_max. rewrite (GuessProofs.filter_not_nan ws : filter (fun a => negb (nisnan a)) (map Fin ws) = map Fin ws). destruct ws as [|a l]; [contradiction|]. cbn [map]. rewrite nmin_fin, nmax_fin.
  exists (fold_left Rmin l a), (fold_left Rmax l a). split; [reflexivity|]. split; [reflexivity|]. split; [apply fold_min_in|]. split; [apply fold_max_in|].
  intros w [<-|Iw]; [split; [apply (proj1 (fold_min_bound l a))|apply (proj1 (fold_max_bound l a))]|split; [apply (proj2 (fold_min_bound l a) w Iw)|apply (proj2 (fold_max_bound l a) w Iw)]].
Qed.
Lemma weights_list (l : list (row XR)) : Forall (fun q => exists w, r_w q = Fin w) l -> exists ws, map r_w l = map Fin ws /\ forall w, In w ws <-> exists q, In q l /\ r_w q = Fin w.
Proof.
  induction 1 as [|q l (w & Ew) Fs (ws & E1 & E2)]; [exists []; split; [reflexivity|]; intros w; split; [intros []|intros (q & [] & _)]|].
  exists (w :: ws). cbn [map]. rewrite Ew, E1. split; [reflexivity|]. intros v. cbn [In]. rewrite E2. split.
  - intros [<-|(p & I & K)]; [exists q; auto|exists p; auto].
  - intros (p & [<-|I] & K); [left; congruence|right; eauto].
Qed.
(* the rows from the start date on *)
Definition from_start (c : config XR) (f : frame XR) (r : row XR) : Prop := In r (rows f) /\ (has_date f = true -> forall d, c_start c = Some d -> (d <= r_date r)%Z).
Theorem C67_weights_shown : forall (W : world XR) c source f r, c_outliers c = false -> run_forecast_single W (set_all true c) source f = Ok r ->
  (has_w f = false -> forall m, In m (rs_meta r) -> md_weights (m_meta m) = "1") /\
  (has_w f = true -> (forall q, In q (rows f) -> exists w, r_w q = Fin w) ->
   exists lo hi, (exists q, from_start c f q /\ r_w q = Fin lo) /\ (exists q, from_start c f q /\ r_w q = Fin hi) /\
     (forall q w, from_start c f q -> r_w q = Fin w -> (lo <= w <= hi)%R) /\
     forall m, In m (rs_meta r) -> md_weights (m_meta m) = (e_num (w_env W) (Fin lo) ++ "-" ++ e_num (w_env W) (Fin hi))%string).
Proof.
  intros W c source f r O E.
  destruct (C67_metadata XR XROps W c source f r E) as (f1 & mode & act & acts & es & Ep & _ & Ea & _ & Em & _ & F).
  assert (Hm : forall m, In m (rs_meta r) -> md_weights (m_meta m) = input_weights (w_env W) f1).
  { intros m I. rewrite Em in I. apply in_map_iff in I as (e & <- & I). rewrite Forall_forall in F. destruct (F e I) as ((d & _ & R) & _). apply R. }
  assert (Ef : f1 = start_filter (c_start c) f) by (apply (no_outliers c); [exact O|exact Ep]). subst f1.
  assert (Hw : has_w (start_filter (c_start c) f) = has_w f) by (unfold start_filter; destruct (c_start c); [destruct (has_date f)|]; reflexivity).
  assert (Hr : forall q, In q (rows (start_filter (c_start c) f)) <-> from_start c f q).
  { intros q. unfold from_start, start_filter. destruct (c_start c) as [d|].
    - destruct (has_date f).
      + cbn [rows with_rows]. rewrite filter_In. split; intros [I K]; (split; [exact I|]); [intros _ d' [= <-]; now apply Z.leb_le|apply Z.leb_le; now apply K].
      + split; [intros I; split; [exact I|discriminate]|tauto].
    - split; [intros I; split; [exact I|discriminate]|tauto]. }
  split.
  - intros N m I. rewrite (Hm m I). unfold input_weights. now rewrite Hw, N.
  - intros Y Fw.
    assert (Ws : exists ws, map r_w (rows (start_filter (c_start c) f)) = map Fin ws /\ forall w, In w ws <-> exists q, from_start c f q /\ r_w q = Fin w).
    { assert (Fs : Forall (fun q => exists w, r_w q = Fin w) (rows (start_filter (c_start c) f))) by (apply Forall_forall; intros q I; apply Fw; now apply Hr in I as [I _]).
      assert (Hr' : forall w, (exists q, In q (rows (start_filter (c_start c) f)) /\ r_w q = Fin w) <-> exists q, from_start c f q /\ r_w q = Fin w) by (intros w; split; intros (q & I & K); exists q; (split; [now apply Hr|exact K])).
      enough (exists ws, map r_w (rows (start_filter (c_start c) f)) = map Fin ws /\ forall w, In w ws <-> exists q, In q (rows (start_filter (c_start c) f)) /\ r_w q = Fin w) as (ws & E1 & E2) by (exists ws; split; [exact E1|]; intros w; rewrite E2; apply Hr').
      now apply weights_list. }
    destruct Ws as (ws & E1 & E2).
    assert (Nw : ws <> []).
    { intros ->. apply map_eq_nil in E1. unfold prepared in Ep. unfold run_forecast_single in E.
      destruct (run_fits W (set_all true c) source f) as [x|] eqn:Ex; [|discriminate]. unfold run_fits in Ex. cbn [prepared set_all c_outliers c_start] in Ex.
      unfold prepared in Ex. cbn [set_all c_outliers c_start] in Ex. rewrite O in Ex. cbn [rbind] in Ex. unfold input_range in Ex.
      assert (Ez : rows (with_weights (start_filter (c_start c) f)) = []) by (unfold with_weights; rewrite Hw, Y; exact E1). rewrite Ez in Ex. discriminate. }
    destruct (col_spread ws Nw) as (lo & hi & Elo & Ehi & (I1 & I2 & B)). exists lo, hi. split; [now apply E2|]. split; [now apply E2|]. split.
    + intros q w Hq Eq. apply B. apply E2. now exists q.
    + intros m I. rewrite (Hm m I). unfold input_weights. rewrite Hw, Y, E1, Elo, Ehi. reflexivity.
Qed.
Print Assumptions C67_weights_shown.

(* ================= C25 ================= *)
(* x is divided by 100 for models named logistic or sigmoid, and left as it is without a model *)
Theorem C25_scaling : forall (T : Type) (N : NumOps T) (xs : list T), apply_a_x_scaling xs None = xs /\
  forall m, (In (fm_name m) ["logistic"; "sigmoid"] -> apply_a_x_scaling xs (Some m) = map (fun x => ndiv x (nofZ 100)) xs) /\
            (~ In (fm_name m) ["logistic"; "sigmoid"] -> apply_a_x_scaling xs (Some m) = xs).
Proof.
  intros T N xs. split; [reflexivity|]. intros m. unfold apply_a_x_scaling, model_requires_scaling, requires_scaling. split.
  - intros [<-|[<-|[]]]; reflexivity.
  - intros H. destruct (String.eqb_spec (fm_name m) "logistic") as [K|_]; [exfalso; apply H; left; now symmetry|]. destruct (String.eqb_spec (fm_name m) "sigmoid") as [K|_]; [exfalso; apply H; right; left; now symmetry|]. reflexivity.
Qed.
Print Assumptions C25_scaling.
Example C25_scaling_example : let N := fops in
  In (fm_name (T := float) model_sigmoid) ["logistic"; "sigmoid"] /\ ~ In (fm_name (T := float) model_linear) ["logistic"; "sigmoid"] /\ apply_a_x_scaling (T := float) [200; 50]%float (Some model_sigmoid) = [2; 0.5]%float.
Proof. split; [right; left; reflexivity|]. split; [intros [K|[K|[]]]; discriminate|]. vm_compute. reflexivity. Qed.

(* ================= C60 ================= *)
(* fewer than four rows: the statistics end in AssertionError *)
Theorem C60_short : forall (T : Type) (N : NumOps T) (E : env T) f, (length (rows f) < 4)%nat -> mult_corr E f = Err AssertionError.
Proof. intros T N E f L. unfold mult_corr, fit_linear. now rewrite (proj2 (Nat.ltb_lt _ _) L). Qed.
Print Assumptions C60_short.
Example C60_short_example : (length (rows (dated (T := float) (H := fops) true [(1, 2); (3, 0); (5, 1)]%float)) < 4)%nat.
Proof. vm_compute. repeat constructor. Qed.
