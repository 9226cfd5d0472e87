(* Prediction intervals of biased forecasts (C101). *)
From Coq Require Import ZArith String List Bool Lia Reals Lra.
From Verif Require Import Num Py Cal Model Freq Outliers Pi.
From Verif Require Import NumProofs ListProofs ForecastProofs TotalProofs ScaleProofs.
Import ListNotations.
Local Open Scope string_scope.
Local Open Scope list_scope.
Local Open Scope R_scope.

(* a value moved by k; null and infinite values stay *)
Definition moved (k : R) (a : XR) : XR := match a with Fin r => Fin (r + k) | a => a end.
(* a table whose actuals are moved by u and whose forecasts are moved by v *)
Definition biased (u v : R) (r : drow XR) : drow XR :=
  mkD (d_date r) (d_w r) (moved (if d_actual r then u else v) (d_y r)) (d_model r) (d_src r) (d_long r) (d_actual r) (d_best r).
(* a row of the result moved by as much, together with its percentiles *)
Definition moved_row (u v : R) (p : prow XR) : prow XR :=
  let k := if p_actual p then u else v in
  mkP (p_date p) (p_src p) (p_model p) (p_actual p) (moved k (p_y p)) (map (fun q => (fst q, moved k (snd q))) (p_q p)).

Lemma moved_nan k a : nisnan (moved k a) = nisnan a.
Proof. destruct a; reflexivity. Qed.
Lemma moved_sub u v a b : nsub (moved u a) (moved v b) = moved (u - v) (nsub a b).
Proof. destruct a, b; cbn; try reflexivity. f_equal. ring. Qed.
Lemma moved_add k a b : nadd (moved k a) b = moved k (nadd a b).
Proof. destruct a, b; cbn; try reflexivity. f_equal. ring. Qed.
Lemma moved_0 a : moved 0 a = a.
Proof. destruct a; cbn; try reflexivity. f_equal. ring. Qed.
Lemma moved_sum k l c acc : fold_left nadd (map (moved k) l) (moved c acc) = moved (c + INR (length l) * k) (fold_left nadd l acc).
Proof.
  revert c acc. induction l as [|a l IH]; intros c acc.
  - cbn [map fold_left length INR]. f_equal. ring.
  - cbn [map fold_left]. replace (nadd (moved c acc) (moved k a)) with (moved (c + k) (nadd acc a))
      by (destruct acc, a; cbn; try reflexivity; f_equal; ring).
    rewrite IH. f_equal. cbn [length]. rewrite S_INR. ring.
Qed.
Lemma moved_div k n a : 0 < n -> ndiv (moved (n * k) a) (Fin n) = moved k (ndiv a (Fin n)).
Proof.
  intros N. destruct a as [| | |r]; cbn; try reflexivity.
  - unfold Rltb. destruct (Rlt_dec n 0); reflexivity.
  - unfold Rltb. destruct (Rlt_dec n 0); reflexivity.
  - unfold Reqb. destruct (Req_EM_T n 0) as [E|_]; [lra|]. cbn. f_equal. field. lra.
Qed.
Lemma centred_moved k l : centred (map (moved k) l) = centred l.
Proof.
  destruct l as [|a l]; [reflexivity|]. unfold centred, nsum. rewrite map_length.
  assert (P : 0 < INR (length (a :: l))) by (apply lt_0_INR; cbn; lia).
  pose proof (moved_sum k (a :: l) 0 n0) as S. rewrite moved_0 in S. rewrite S, Rplus_0_l, ofZ_fin, <- INR_IZR_INZ, moved_div by exact P.
  rewrite map_map. apply map_ext. intros b. rewrite moved_sub, Rminus_diag_eq by reflexivity. apply moved_0.
Qed.

Section Bias.
  Variables u v : R.
  Notation bs := (biased u v).
  Notation mr := (moved_row u v).
  Let mp (a : Z * XR) : Z * XR := (fst a, moved u (snd a)).
  Lemma filter_bs (p : drow XR -> bool) l : (forall r, p (bs r) = p r) -> filter p (map bs l) = map bs (filter p l).
  Proof. apply filter_map_same. Qed.
  Lemma bs_value r : with_value (bs r) = with_value r.
  Proof. unfold with_value. cbn [biased d_y]. now rewrite moved_nan. Qed.
  Lemma actual_in l : forall r, In r (filter (fun r : drow XR => d_actual r && with_value r)%bool l) -> d_actual r = true.
  Proof. intros r I. apply filter_In in I as [_ I]. now apply andb_prop in I as [I _]. Qed.
  Lemma usable_actuals_bs l : usable_actuals (map bs l) = map mp (usable_actuals l).
  Proof.
    unfold usable_actuals. rewrite (filter_bs (fun r => nltb n0 (d_w r) && d_actual r)%bool) by reflexivity.
    rewrite (filter_bs (fun r => d_actual r && with_value r)%bool) by (intros r; now rewrite bs_value). rewrite map_map.
    change (map (fun x => d_date (bs x))) with (map (@d_date XR)). generalize (map d_date (filter (fun r => nltb n0 (d_w r) && d_actual r)%bool l)). intros ds.
    pose proof (actual_in l) as A. induction (filter (fun r => d_actual r && with_value r)%bool l) as [|r m IH]; [reflexivity|]. cbn [map flat_map].
    rewrite map_app, IH by (intros x I; apply A; now right). f_equal. rewrite map_repeat. cbn [biased d_date d_y]. rewrite (A r) by now left. reflexivity.
  Qed.
  Lemma residuals_bs acts l : residuals (map mp acts) (map bs l) = map (moved (u - v)) (residuals acts l).
  Proof.
    unfold residuals. rewrite filter_bs by (intros r; now rewrite bs_value).
    assert (A : forall r, In r (filter (fun r : drow XR => negb (d_actual r) && with_value r)%bool l) -> d_actual r = false).
    { intros r I. apply filter_In in I as [_ I]. apply andb_prop in I as [I _]. now destruct (d_actual r). }
    assert (E : forall m, (forall r, In r m -> d_actual r = false) -> flat_map (fun r => map (fun a => nsub (snd a) (d_y r)) (filter (fun a => Z.eqb (fst a) (d_date r)) (map mp acts))) (map bs m) =
      map (moved (u - v)) (flat_map (fun r => map (fun a => nsub (snd a) (d_y r)) (filter (fun a => Z.eqb (fst a) (d_date r)) acts)) m)).
    { induction m as [|r m IH]; intros B; [reflexivity|]. cbn [map flat_map]. rewrite map_app, IH by (intros x I; apply B; now right). f_equal.
      rewrite (filter_map_same mp (fun a => Z.eqb (fst a) (d_date (bs r))) (fun a => Z.eqb (fst a) (d_date r))) by reflexivity.
      rewrite !map_map. apply map_ext. intros a. cbn [mp snd biased d_y]. rewrite (B r) by now left. apply moved_sub. }
    rewrite E by exact A. apply filter_map_same. intros a. now rewrite moved_nan.
  Qed.
  Lemma add_percentiles_bs l m q1 q2 : (forall r, In r l -> d_actual r = false) -> add_percentiles (map bs l) m q1 q2 = rmap (map mr) (add_percentiles l m q1 q2).
  Proof.
    intros A. unfold add_percentiles. destruct (_ && _)%bool; [|reflexivity]. cbn [rmap rbind]. f_equal. rewrite enumerate_map, !map_map.
    assert (A' : forall p, In p (enumerate l) -> d_actual (snd p) = false).
    { intros [i r] I. apply A. cbn. clear A. unfold enumerate in I. revert I. generalize 0%nat. induction l as [|b l IH]; intros n I; [destruct I|].
      cbn [enum_from] in I. destruct I as [I|I]; [left; congruence|right; now apply (IH (S n))]. }
    apply map_ext_in. intros [i r] I. specialize (A' _ I). cbn [fst snd] in *.
    unfold moved_row. cbn [p_date p_src p_model p_actual p_y p_q biased d_date d_src d_model d_y]. rewrite A'. f_equal. rewrite map_map. apply map_ext. intros q. cbn [fst snd].
    f_equal. apply moved_add.
  Qed.
  Lemma actual_bs l : (forall r, In r l -> d_actual r = true) -> map actual_row (map bs l) = map mr (map actual_row l).
  Proof. intros A. rewrite !map_map. apply map_ext_in. intros r I. unfold actual_row, moved_row, biased. cbn. now rewrite (A r I). Qed.
  Lemma pi_single_bs draw ns nc q1 q2 a b c d l : pi_single draw ns nc q1 q2 (mkPT a b c d (map bs l)) = rmap (map mr) (pi_single draw ns nc q1 q2 (mkPT a b c d l)).
  Proof.
    unfold pi_single. cbn [pt_best pt_rows pt_dates pt_w pt_src].
    replace (if c then filter (fun r => d_actual r || d_best r)%bool (map bs l) else map bs l) with (map bs (if c then filter (fun r => d_actual r || d_best r)%bool l else l))
      by (destruct c; [now rewrite filter_bs by reflexivity|reflexivity]).
    generalize (if c then filter (fun r => d_actual r || d_best r)%bool l else l). clear l. intros l. rewrite map_map. change (map (fun x => d_date (bs x))) with (map (@d_date XR)).
    destruct (if d then days_from_freq (detect_freq (map d_date l)) else Ok 1%Z) as [fd|]; [|reflexivity]. cbn [rbind].
    rewrite (filter_bs (fun r => d_actual r && with_value r)%bool) by (intros r; now rewrite bs_value).
    replace (existsb (fun r => neqb (d_w r) n0) (map bs l)) with (existsb (fun r => neqb (d_w r) n0) l)
      by (clear; induction l as [|r l IH]; [reflexivity|]; cbn [map existsb]; now rewrite IH).
    pose proof (actual_in l) as A. rewrite usable_actuals_bs.
    replace (map (fun r => (d_date r, d_y r)) (map bs (filter (fun r => d_actual r && with_value r)%bool l)))
      with (map mp (map (fun r => (d_date r, d_y r)) (filter (fun r => d_actual r && with_value r)%bool l)))
      by (rewrite !map_map; apply map_ext_in; intros r I; unfold mp, biased; cbn; now rewrite (A r I)).
    revert A. generalize (filter (fun r => d_actual r && with_value r)%bool l). intros unf A.
    assert (E : (if (b && existsb (fun r => neqb (d_w r) n0) l)%bool then if a then Ok (map mp (usable_actuals l)) else Err KeyError
                 else Ok (map mp (map (fun r => (d_date r, d_y r)) unf))) =
      rmap (map mp) (if (b && existsb (fun r => neqb (d_w r) n0) l)%bool then if a then Ok (usable_actuals l) else Err KeyError
                 else Ok (map (fun r => (d_date r, d_y r)) unf))).
    { destruct (_ && _)%bool; [destruct a|]; reflexivity. }
    rewrite E. clear E. destruct (if (b && existsb (fun r => neqb (d_w r) n0) l)%bool then if a then Ok (usable_actuals l) else Err KeyError
                 else Ok (map (fun r => (d_date r, d_y r)) unf)) as [acts|]; [|reflexivity]. cbn [rmap rbind].
    rewrite residuals_bs, (map_map mp fst). change (map (fun x => fst (mp x)) acts) with (map (@fst Z XR) acts). destruct (residuals acts l) as [|x rs]; cbn [map].
    { destruct (negb a); [reflexivity|]. destruct l; [reflexivity|]. cbn [map rmap rbind]. now rewrite actual_bs. }
    destruct (zmax_opt (map fst acts)) as [last|]; [|reflexivity]. change (moved (u - v) x :: map (moved (u - v)) rs) with (map (moved (u - v)) (x :: rs)). rewrite centred_moved.
    rewrite (filter_bs (fun r => negb (d_actual r) && Z.ltb last (d_date r))%bool), (filter_bs (fun r => negb (d_actual r) && Z.leb (d_date r) last)%bool) by reflexivity.
    rewrite !map_length, !add_percentiles_bs
      by (intros r I; apply filter_In in I as [_ I]; apply andb_prop in I as [I _]; now destruct (d_actual r)).
    destruct (add_percentiles _ (future_sample _ _ _ _ _) _ _) as [fu|]; [|reflexivity]. cbn [rmap rbind].
    destruct (add_percentiles _ (past_sample _ _ _ _) _ _) as [pa|]; [|reflexivity]. cbn [rmap rbind]. now rewrite !map_app, actual_bs.
  Qed.
  Lemma pi_single_src draw ns nc q1 q2 (t : ptable XR) s out : (forall r, In r (pt_rows t) -> d_src r = s) -> pi_single draw ns nc q1 q2 t = Ok out -> forall p, In p out -> p_src p = s.
  Proof.
    intros S. unfold pi_single.
    assert (S' : forall r, In r (if pt_best t then filter (fun r => d_actual r || d_best r)%bool (pt_rows t) else pt_rows t) -> d_src r = s).
    { intros r I. apply S. destruct (pt_best t); [now apply filter_In in I as [I _]|exact I]. }
    revert S'. generalize (if pt_best t then filter (fun r => d_actual r || d_best r)%bool (pt_rows t) else pt_rows t). intros l S'.
    assert (Ac : forall q p, In p (map actual_row (filter q l)) -> p_src p = s).
    { intros q p I. apply in_map_iff in I as (r & <- & I). apply filter_In in I as [I _]. exact (S' r I). }
    assert (Pc : forall q m o, add_percentiles (filter q l) m q1 q2 = Ok o -> forall p, In p o -> p_src p = s).
    { intros q m o E p I. unfold add_percentiles in E. destruct (_ && _)%bool; [|discriminate]. apply ok_inj in E. subst o. apply in_map_iff in I as ([i r] & <- & I). cbn.
      apply S'. assert (J : In r (filter q l)); [|now apply filter_In in J as [J _]].
      revert I. unfold enumerate. generalize 0%nat. induction (filter q l) as [|b k IH]; intros n I; [destruct I|]. cbn [enum_from] in I. destruct I as [I|I]; [left; congruence|right; now apply (IH (Datatypes.S n))]. }
    destruct (if pt_dates t then _ else _) as [fd|]; [|discriminate]. cbn [rbind].
    destruct (if (pt_w t && _)%bool then _ else _) as [acts|]; [|discriminate]. cbn [rbind]. destruct (residuals acts l) as [|x rs].
    { destruct (negb (pt_src t)); [discriminate|]. destruct l as [|r0 l]; [discriminate|]. intros E. apply ok_inj in E. subst out. apply Ac. }
    destruct (zmax_opt _) as [last|]; [|discriminate].
    destruct (add_percentiles _ (future_sample _ _ _ _ _) _ _) as [fu|] eqn:Ef; [|discriminate]. cbn [rbind].
    destruct (add_percentiles _ (past_sample _ _ _ _) _ _) as [pa|] eqn:Ep; [|discriminate]. cbn [rbind]. intros E. apply ok_inj in E. subst out.
    intros p I. apply in_app_or in I as [I|I]; [exact (Ac _ _ I)|]. apply in_app_or in I as [I|I]; [exact (Pc _ _ _ Ep _ I)|exact (Pc _ _ _ Ef _ I)].
  Qed.
End Bias.

(* every series with biases of its own *)
Definition biased_by (u v : string -> R) (r : drow XR) : drow XR := biased (u (d_src r)) (v (d_src r)) r.
Definition moved_by (u v : string -> R) (p : prow XR) : prow XR := moved_row (u (p_src p)) (v (p_src p)) p.

Lemma isort_moved u v l : isort prow_leb (map (moved_by u v) l) = map (moved_by u v) (isort prow_leb l).
Proof.
  induction l as [|a l IH]; [reflexivity|]. cbn [map isort]. rewrite IH. generalize (isort prow_leb l). clear IH. intros m.
  induction m as [|b m IHm]; [reflexivity|]. cbn [map insert]. change (prow_leb (moved_by u v a) (moved_by u v b)) with (prow_leb a b). destruct (prow_leb a b); [reflexivity|]. cbn [map]. now rewrite IHm.
Qed.
Lemma pi_single_by u v s draw ns nc q1 q2 a b c d l : (forall r, In r l -> d_src r = s) ->
  pi_single draw ns nc q1 q2 (mkPT a b c d (map (biased_by u v) l)) = rmap (map (moved_by u v)) (pi_single draw ns nc q1 q2 (mkPT a b c d l)).
Proof.
  intros S. rewrite (map_ext_in (biased_by u v) (biased (u s) (v s))) by (intros r I; unfold biased_by; now rewrite (S r I)). rewrite pi_single_bs.
  destruct (pi_single draw ns nc q1 q2 (mkPT a b c d l)) as [out|] eqn:E; [|reflexivity]. cbn [rmap rbind]. f_equal. apply map_ext_in. intros p I.
  unfold moved_by. now rewrite (pi_single_src _ _ _ _ _ (mkPT a b c d l) s out S E p I).
Qed.
Lemma one_source (l : list (drow XR)) : (length (isort str_leb (dedup String.eqb (map d_src l))) <= 1)%nat -> exists s, forall r, In r l -> d_src r = s.
Proof.
  intros L. destruct l as [|r0 l]; [now exists ""|]. exists (d_src r0). intros r I.
  rewrite <- (Permutation.Permutation_length (isort_perm str_leb _)) in L.
  assert (J : forall x, In x (r0 :: l) -> In (d_src x) (dedup String.eqb (map d_src (r0 :: l)))) by (intros x K; apply (dedup_in String.eqb String.eqb_eq); now apply in_map).
  destruct (dedup String.eqb (map d_src (r0 :: l))) as [|s [|s' m]]; [destruct (J _ I)| |cbn in L; lia].
  destruct (J _ I) as [<-|[]]. destruct (J r0 (or_introl eq_refl)) as [E|[]]. exact E.
Qed.
Lemma get_pi_by u v draw ns nc q1 q2 w b c d l :
  get_pi draw ns nc q1 q2 w (mkPT true b c d (map (biased_by u v) l)) = rmap (map (moved_by u v)) (get_pi draw ns nc q1 q2 w (mkPT true b c d l)).
Proof.
  unfold get_pi. destruct (match nc with Some n => Ok n | None => days_from_freq w end) as [n|]; [|reflexivity]. cbn [rbind pt_src pt_rows pt_w pt_best pt_dates].
  rewrite map_map. change (map (fun x => d_src (biased_by u v x))) with (map (@d_src XR)). cbn [andb].
  destruct (Nat.ltb_spec 1 (length (isort str_leb (dedup String.eqb (map d_src l))))) as [_|L].
  - rewrite (rmapM_ext _ (fun s => rmap (map (moved_by u v)) (pi_single (draw s) ns n q1 q2 (mkPT true b c d (filter (fun r => String.eqb (d_src r) s) l))))).
    2:{ intros s _. rewrite (filter_map_same (biased_by u v) _ (fun r => String.eqb (d_src r) s)) by reflexivity. apply (pi_single_by u v s). intros r I. apply filter_In in I as [_ I]. now apply String.eqb_eq. }
    rewrite rmapM_rmap. destruct (rmapM _ _) as [gs|]; [|reflexivity]. cbn [rmap rbind]. now rewrite <- concat_map, isort_moved.
  - apply one_source in L as (s & S). rewrite (pi_single_by u v s) by exact S. destruct l; reflexivity.
Qed.
Lemma get_pi_bs u v draw ns nc q1 q2 w a b c d l :
  get_pi draw ns nc q1 q2 w (mkPT a b c d (map (biased u v) l)) = rmap (map (moved_row u v)) (get_pi draw ns nc q1 q2 w (mkPT a b c d l)).
Proof.
  destruct a; [apply (get_pi_by (fun _ => u) (fun _ => v))|].
  unfold get_pi. destruct (match nc with Some n => Ok n | None => days_from_freq w end) as [n|]; [|reflexivity]. cbn [rbind pt_src pt_rows pt_w pt_best pt_dates andb].
  rewrite pi_single_bs. destruct l; reflexivity.
Qed.
