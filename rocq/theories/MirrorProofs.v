(* Prediction intervals of mirrored series (C102). *)
From Coq Require Import ZArith String List Bool Lia Reals Lra Sorted Permutation.
From Verif Require Import Num Py Cal Model Freq Outliers Pi.
From Verif Require Import NumProofs ListProofs OutlierProofs OutlierReals QuantileProofs ForecastProofs TotalProofs PiProofs ScaleProofs.
Import ListNotations.
Local Open Scope string_scope.
Local Open Scope list_scope.
Local Open Scope R_scope.

(* a value with the opposite sign *)
Definition mir (a : XR) : XR := match a with Fin r => Fin (- r) | XPInf => XNInf | XNInf => XPInf | XNaN => XNaN end.
(* a table with all values of the opposite sign *)
Definition mirrored (r : drow XR) : drow XR := mkD (d_date r) (d_w r) (mir (d_y r)) (d_model r) (d_src r) (d_long r) (d_actual r) (d_best r).
(* a row of the result: upper bounds become lower bounds *)
Definition mirrored_row (p : prow XR) : prow XR :=
  mkP (p_date p) (p_src p) (p_model p) (p_actual p) (mir (p_y p)) (map (fun q => ((100 - fst q)%Z, mir (snd q))) (p_q p)).

Lemma mir_nan a : nisnan (mir a) = nisnan a.
Proof. destruct a; reflexivity. Qed.
Lemma mir_add a b : nadd (mir a) (mir b) = mir (nadd a b).
Proof. destruct a, b; cbn; try reflexivity. f_equal. ring. Qed.
Lemma mir_sub a b : nsub (mir a) (mir b) = mir (nsub a b).
Proof. destruct a, b; cbn; try reflexivity. f_equal. ring. Qed.
Lemma mir_sum l acc : fold_left nadd (map mir l) (mir acc) = mir (fold_left nadd l acc).
Proof. revert acc. induction l as [|a l IH]; intros acc; [reflexivity|]. cbn [map fold_left]. now rewrite mir_add, IH. Qed.
Lemma mir_div n a : 0 < n -> ndiv (mir a) (Fin n) = mir (ndiv a (Fin n)).
Proof.
  intros N. destruct a as [| | |r]; cbn; try reflexivity.
  - unfold Rltb. destruct (Rlt_dec n 0); [lra|reflexivity].
  - unfold Rltb. destruct (Rlt_dec n 0); [lra|reflexivity].
  - unfold Reqb. destruct (Req_EM_T n 0) as [E|_]; [lra|]. cbn. f_equal. field. lra.
Qed.
Lemma centred_mir l : centred (map mir l) = map mir (centred l).
Proof.
  destruct l as [|a l]; [reflexivity|]. unfold centred, nsum. rewrite map_length.
  assert (P : 0 < INR (length (a :: l))) by (apply lt_0_INR; cbn; lia).
  pose proof (mir_sum (a :: l) n0) as S. replace (mir n0) with (@n0 XR _) in S by (cbn; f_equal; ring). rewrite S, ofZ_fin, <- INR_IZR_INZ, mir_div by exact P.
  rewrite !map_map. apply map_ext. intros b. apply mir_sub.
Qed.

(* ---- percentiles ---- *)
Lemma opp_sorted s : StronglySorted Rle s -> StronglySorted Rle (rev (map Ropp s)).
Proof.
  induction 1 as [|a s S IH F]; [constructor|]. cbn [map rev].
  assert (G : forall l b, StronglySorted Rle l -> Forall (fun x => x <= b) l -> StronglySorted Rle (l ++ [b])).
  { clear. intros l b S. induction S as [|x l S IH F]; intros B; cbn; [repeat constructor|]. inversion_clear B as [|? ? Bx Bl]. constructor; [now apply IH|].
    apply Forall_app. split; [exact F|]. constructor; [exact Bx|constructor]. }
  apply G; [exact IH|]. apply Forall_rev, Forall_map. eapply Forall_impl; [|exact F]. intros x L. cbn in *. lra.
Qed.
Lemma opp_nth s i : (i < length s)%nat -> nth i (rev (map Ropp s)) 0 = - nth (length s - 1 - i) s 0.
Proof.
  intros L. rewrite rev_nth by (now rewrite map_length). rewrite map_length. replace (length s - S i)%nat with (length s - 1 - i)%nat by lia.
  rewrite (nth_indep _ 0 (- 0)) by (rewrite map_length; lia). apply (map_nth Ropp).
Qed.
Lemma quantile_of_opp p l q : quantile_of p l q -> 0 <= p <= 1 -> quantile_of (1 - p) (map Ropp l) (- q).
Proof.
  intros (s & i & P & So & L & B & ->) Hp. pose proof (Permutation_length P) as Len. rewrite <- Len in L.
  set (n := length l) in *. set (x := p * INR (n - 1)) in *.
  assert (Ps : Permutation (map Ropp l) (rev (map Ropp s))) by (rewrite <- Permutation_rev; now apply Permutation_map).
  assert (Ls : length (rev (map Ropp s)) = n) by (rewrite rev_length, map_length; now rewrite <- Len).
  assert (Xn : x <= INR (n - 1)) by (unfold x; pose proof (pos_INR (n - 1)); nra).
  assert (Ex : (1 - p) * INR (n - 1) = INR (n - 1) - x) by (unfold x; ring).
  destruct (Req_dec x (INR i)) as [E|Nx].
  - exists (rev (map Ropp s)), (n - 1 - i)%nat. rewrite Ls, map_length. fold n. split; [exact Ps|]. split; [now apply opp_sorted|]. split; [lia|].
    rewrite Ex, E, (minus_INR (n - 1) i) by lia. split; [lra|]. rewrite opp_nth by lia. replace (length s - 1 - (n - 1 - i))%nat with i by lia. ring.
  - assert (Li : (i < n - 1)%nat). { apply INR_lt. lra. }
    exists (rev (map Ropp s)), (n - 2 - i)%nat. rewrite Ls, map_length. fold n. split; [exact Ps|]. split; [now apply opp_sorted|]. split; [lia|].
    rewrite Ex. assert (Ei : INR (n - 2 - i) = INR (n - 1) - INR i - 1).
    { replace (n - 1)%nat with (S (n - 2 - i + i)) by lia. rewrite S_INR, plus_INR. ring. }
    rewrite Ei. split; [lra|]. rewrite (nth_indep (rev (map Ropp s)) (nth (n - 2 - i) (rev (map Ropp s)) 0) 0) by lia. rewrite !opp_nth by lia.
    rewrite (nth_indep s (nth i s 0) 0) by lia. replace (length s - 1 - (n - 2 - i))%nat with (S i) by lia. replace (length s - 1 - S (n - 2 - i))%nat with i by lia. ring.
Qed.
Definition tidy (a : XR) : Prop := a = XNaN \/ exists r, a = Fin r.
Lemma tidy_list l : Forall tidy l -> existsb nisnan l = true \/ exists rs, l = map Fin rs.
Proof.
  induction 1 as [|a l [->|[r ->]] _ IH]; [right; now exists []|now left|]. destruct IH as [IH|[rs ->]]; [left; cbn; exact IH|right; now exists (r :: rs)].
Qed.
Lemma nan_mir l : existsb nisnan (map mir l) = existsb nisnan l.
Proof. induction l as [|a l IH]; [reflexivity|]. cbn [map existsb]. now rewrite mir_nan, IH. Qed.
Lemma percentile_mir q l : (0 <= q <= 100)%Z -> Forall tidy l -> percentile (100 - q) (map mir l) = mir (percentile q l).
Proof.
  intros Hq F. unfold percentile. rewrite nan_mir. destruct (existsb nisnan l) eqn:En; [reflexivity|]. destruct (tidy_list l F) as [K|[rs ->]]; [congruence|].
  destruct rs as [|r0 rs0]; [reflexivity|]. set (rs := r0 :: rs0). assert (Nr : rs <> []) by discriminate.
  destruct (quantile_real q 100 rs (map Fin rs)) as (v & -> & Qv); [exact Hq|lia|exact Nr|apply non_null_fins|].
  assert (Em : map mir (map Fin rs) = map Fin (map Ropp rs)) by now rewrite !map_map. rewrite Em.
  destruct (quantile_real (100 - q) 100 (map Ropp rs) (map Fin (map Ropp rs))) as (v' & -> & Qv'); [lia|lia|discriminate|apply non_null_fins|].
  cbn [mir]. f_equal. eapply quantile_of_unique; [exact Qv'|].
  replace (IZR (100 - q) / IZR 100) with (1 - IZR q / IZR 100) by (rewrite minus_IZR; field). apply quantile_of_opp; [exact Qv|].
  assert (0 <= IZR q <= 100) by (split; apply IZR_le; lia). lra.
Qed.

(* ---- simulated deviations are real numbers or null ---- *)
Lemma tidy_add a b : tidy a -> tidy b -> tidy (nadd a b).
Proof. intros [->|[r ->]] [->|[s ->]]; try (now left). right. now exists (r + s). Qed.
Lemma tidy_sub a b : tidy a -> tidy b -> tidy (nsub a b).
Proof. intros [->|[r ->]] [->|[s ->]]; try (now left). right. cbn. eauto. Qed.
Lemma tidy_nth l i : Forall tidy l -> tidy (nth i l nnan).
Proof. intros F. destruct (nth_in_or_default i l nnan) as [I|E]; [rewrite Forall_forall in F; now apply F|rewrite E; now left]. Qed.
Lemma tidy_sum l acc : Forall tidy l -> tidy acc -> tidy (fold_left nadd l acc).
Proof. intros F. revert acc. induction F as [|a l A _ IH]; intros acc B; [exact B|]. cbn. apply IH. now apply tidy_add. Qed.
Lemma tidy_centred l : Forall tidy l -> Forall tidy (centred l).
Proof.
  intros F. destruct l as [|a0 l0]; [constructor|]. set (l := a0 :: l0) in *. unfold centred. apply Forall_map. eapply Forall_impl; [|exact F]. intros a A. apply tidy_sub; [exact A|].
  assert (P : 0 < IZR (Z.of_nat (length l))) by (apply IZR_lt; cbn; lia). rewrite ofZ_fin. revert P. generalize (IZR (Z.of_nat (length l))). intros m P.
  destruct (tidy_sum l n0 F) as [E|[r E]]; [right; now exists 0| |]; unfold nsum; rewrite E; [now left|]. right. cbn. unfold Reqb. destruct (Req_EM_T _ 0); [lra|]. eauto.
Qed.
Lemma tidy_sample l d k : Forall tidy l -> Forall tidy (Pi.sample l d k).
Proof. intros F. unfold Pi.sample. apply Forall_map, Forall_forall. intros i _. now apply tidy_nth. Qed.
Lemma tidy_firstn n l : Forall tidy l -> Forall tidy (firstn n l).
Proof. intros F. apply Forall_forall. intros x I. rewrite Forall_forall in F. apply F. rewrite <- (firstn_skipn n l). apply in_or_app. now left. Qed.
Lemma tidy_skipn n l : Forall tidy l -> Forall tidy (skipn n l).
Proof. intros F. apply Forall_forall. intros x I. rewrite Forall_forall in F. apply F. rewrite <- (firstn_skipn n l). apply in_or_app. now right. Qed.
Lemma tidy_reshape m n l : Forall tidy l -> Forall (Forall tidy) (reshape m n l).
Proof. intros F. unfold reshape. apply Forall_map, Forall_forall. intros i _. now apply tidy_firstn, tidy_skipn. Qed.
Lemma tidy_cumsum l : Forall tidy l -> forall acc, (forall b, acc = Some b -> tidy b) -> Forall tidy (cumsum_from acc l).
Proof.
  induction 1 as [|a l A _ IH]; intros acc B; [constructor|]. cbn [cumsum_from].
  assert (C : tidy (match acc with None => a | Some b => nadd b a end)) by (destruct acc as [b|]; [apply tidy_add; [now apply B|exact A]|exact A]).
  constructor; [exact C|]. apply IH. intros b E. injection E as <-. exact C.
Qed.
Lemma tidy_expand c n l : Forall tidy l -> Forall tidy (expand c n l).
Proof.
  intros F. unfold expand. apply tidy_firstn. induction F as [|a l A _ IH]; [constructor|]. cbn [flat_map]. apply Forall_app. split; [|exact IH].
  apply Forall_forall. intros x I. apply repeat_spec in I. now subst x.
Qed.
Lemma tidy_add_rows a b : Forall tidy a -> Forall tidy b -> Forall tidy (add_rows a b).
Proof.
  intros A. revert b. unfold add_rows. induction A as [|x a X _ IH]; intros b B; [constructor|]. destruct b as [|y b]; [constructor|]. cbn [combine map fst snd].
  inversion_clear B. constructor; [now apply tidy_add|now apply IH].
Qed.
Lemma tidy_future draw ns nc n l : Forall tidy l -> Forall (Forall tidy) (future_sample draw ns nc n l).
Proof.
  intros F. unfold future_sample. apply Forall_map, Forall_forall. intros [a b] I. cbn [fst snd]. apply tidy_add_rows.
  - apply in_combine_l in I. pose proof (tidy_reshape ns n _ (tidy_sample l (draw 1%nat) (n * ns) F)) as G. rewrite Forall_forall in G. now apply G.
  - apply in_combine_r in I. apply in_map_iff in I as (r & <- & I). apply tidy_expand, tidy_cumsum; [|discriminate].
    pose proof (tidy_reshape ns (ceil_nat n nc) _ (tidy_sample l (draw 0%nat) (ceil_nat n nc * ns) F)) as G. rewrite Forall_forall in G. now apply G.
Qed.
Lemma tidy_past draw ns n l : Forall tidy l -> Forall (Forall tidy) (past_sample draw ns n l).
Proof. intros F. unfold past_sample. now apply tidy_reshape, tidy_sample. Qed.
Lemma tidy_col j m : Forall (Forall tidy) m -> Forall tidy (col j m).
Proof. intros F. unfold col. apply Forall_map. eapply Forall_impl; [|exact F]. intros r. apply tidy_nth. Qed.

(* ---- mirrored deviations ---- *)
Lemma sample_mir l d n : Pi.sample (map mir l) d n = map mir (Pi.sample l d n).
Proof. unfold Pi.sample. rewrite map_map, map_length. apply map_ext. intros i. change (@nnan XR _) with (mir nnan) at 1. apply map_nth. Qed.
Lemma reshape_mir m n l : reshape m n (map mir l) = map (map mir) (reshape m n l).
Proof. unfold reshape. rewrite map_map. apply map_ext. intros i. now rewrite skipn_map, firstn_map. Qed.
Lemma cumsum_mir acc l : cumsum_from (option_map mir acc) (map mir l) = map mir (cumsum_from acc l).
Proof.
  revert acc. induction l as [|a l IH]; intros acc; [reflexivity|]. cbn [map cumsum_from].
  assert (E : match option_map mir acc with None => mir a | Some b => nadd b (mir a) end = mir (match acc with None => a | Some b => nadd b a end)).
  { destruct acc; [apply mir_add|reflexivity]. }
  rewrite E. f_equal. apply (IH (Some _)).
Qed.
Lemma expand_mir c n l : expand c n (map mir l) = map mir (expand c n l).
Proof. unfold expand. rewrite <- firstn_map. f_equal. induction l as [|a l IH]; [reflexivity|]. cbn [map flat_map]. rewrite map_app, IH. f_equal. now rewrite map_repeat. Qed.
Lemma add_rows_mir a b : add_rows (map mir a) (map mir b) = map mir (add_rows a b).
Proof. unfold add_rows. revert b. induction a as [|x a IH]; intros [|y b]; try reflexivity. cbn [map combine fst snd]. now rewrite mir_add, IH. Qed.
Lemma future_mir draw ns nc n l : future_sample draw ns nc n (map mir l) = map (map mir) (future_sample draw ns nc n l).
Proof.
  unfold future_sample. rewrite !sample_mir, !reshape_mir, map_map.
  rewrite (map_ext (fun x => expand nc n (cumsum_from None (map mir x))) (fun x => map mir (expand nc n (cumsum_from None x))))
    by (intros x; now rewrite (cumsum_mir None), expand_mir).
  rewrite <- (map_map (fun x => expand nc n (cumsum_from None x)) (map mir)).
  generalize (map (fun x => expand nc n (cumsum_from None x)) (reshape ns (ceil_nat n nc) (Pi.sample l (draw 0%nat) (ceil_nat n nc * ns)))).
  generalize (reshape ns n (Pi.sample l (draw 1%nat) (n * ns))). intros a. induction a as [|x a IH]; intros [|y b]; try reflexivity.
  cbn [map combine fst snd]. now rewrite add_rows_mir, IH.
Qed.
Lemma past_mir draw ns n l : past_sample draw ns n (map mir l) = map (map mir) (past_sample draw ns n l).
Proof. unfold past_sample. now rewrite sample_mir, reshape_mir. Qed.
Lemma col_mir j m : col j (map (map mir) m) = map mir (col j m).
Proof. unfold col. rewrite !map_map. apply map_ext. intros l. change (@nnan XR _) with (mir nnan) at 1. apply map_nth. Qed.
Lemma dedup_inj (g : Z -> Z) l : (forall a b, g a = g b -> a = b) -> dedup Z.eqb (map g l) = map g (dedup Z.eqb l).
Proof.
  intros J. unfold dedup. change (@nil Z) with (map g []) at 1. generalize (@nil Z). induction l as [|a l IH]; intros seen; [reflexivity|]. cbn [map dedup_aux].
  assert (E : existsb (Z.eqb (g a)) (map g seen) = existsb (Z.eqb a) seen).
  { clear IH. induction seen as [|b seen IHs]; [reflexivity|]. cbn [map existsb]. rewrite IHs. f_equal. destruct (Z.eqb_spec a b) as [->|Ne]; [apply Z.eqb_refl|]. apply Z.eqb_neq. intros K. now apply J in K. }
  rewrite E. destruct (existsb (Z.eqb a) seen); [apply IH|]. cbn [map]. f_equal. change (g a :: map g seen) with (map g (a :: seen)). apply IH.
Qed.
Lemma percentiles_mir q1 q2 : percentiles (100 - q1) (100 - q2) = map (fun q => 100 - q)%Z (percentiles q1 q2).
Proof.
  unfold percentiles. rewrite <- dedup_inj by (intros a b; lia). reflexivity.
Qed.
Lemma percentiles_range q1 q2 q : (0 < q1 < 100)%Z -> (0 < q2 < 100)%Z -> In q (percentiles q1 q2) -> (0 <= q <= 100)%Z.
Proof. intros A B I. unfold percentiles in I. rewrite (dedup_in Z.eqb Z.eqb_eq) in I. cbn [In] in I. lia. Qed.
Lemma add_percentiles_mir l m q1 q2 : Forall (Forall tidy) m ->
  add_percentiles (map mirrored l) (map (map mir) m) (100 - q1) (100 - q2) = rmap (map mirrored_row) (add_percentiles l m q1 q2).
Proof.
  intros F. unfold add_percentiles.
  replace ((0 <? 100 - q1) && (100 - q1 <? 100) && (0 <? 100 - q2) && (100 - q2 <? 100))%bool%Z with ((0 <? q1) && (q1 <? 100) && (0 <? q2) && (q2 <? 100))%bool%Z.
  2:{ destruct (Z.ltb_spec 0 q1), (Z.ltb_spec q1 100), (Z.ltb_spec 0 q2), (Z.ltb_spec q2 100), (Z.ltb_spec 0 (100 - q1)), (Z.ltb_spec (100 - q1) 100), (Z.ltb_spec 0 (100 - q2)), (Z.ltb_spec (100 - q2) 100); cbn; try reflexivity; lia. }
  destruct ((0 <? q1) && (q1 <? 100) && (0 <? q2) && (q2 <? 100))%bool%Z eqn:Eq; [|reflexivity].
  repeat (apply andb_prop in Eq as [Eq ?]). rewrite ?Z.ltb_lt in *. cbn [rmap rbind]. f_equal. rewrite enumerate_map, !map_map. apply map_ext. intros [i r].
  cbn [fst snd]. unfold mirrored_row. cbn [p_date p_src p_model p_actual p_y p_q]. f_equal. rewrite percentiles_mir, !map_map. apply map_ext_in. intros q I. cbn [fst snd]. f_equal.
  apply percentiles_range in I; [|lia|lia]. rewrite col_mir, percentile_mir by (try apply tidy_col; assumption). apply mir_add.
Qed.

(* ---- tables ---- *)
Lemma filter_mir (p : drow XR -> bool) l : (forall r, p (mirrored r) = p r) -> filter p (map mirrored l) = map mirrored (filter p l).
Proof. apply filter_map_same. Qed.
Lemma mir_value r : with_value (mirrored r) = with_value r.
Proof. unfold with_value. cbn [mirrored d_y]. now rewrite mir_nan. Qed.
Definition mirp (a : Z * XR) : Z * XR := (fst a, mir (snd a)).
Lemma usable_actuals_mir l : usable_actuals (map mirrored l) = map mirp (usable_actuals l).
Proof.
  unfold usable_actuals. rewrite (filter_mir (fun r => nltb n0 (d_w r) && d_actual r)%bool) by reflexivity.
  rewrite (filter_mir (fun r => d_actual r && with_value r)%bool) by (intros r; now rewrite mir_value). rewrite map_map.
  change (map (fun x => d_date (mirrored x))) with (map (@d_date XR)). generalize (map d_date (filter (fun r => nltb n0 (d_w r) && d_actual r)%bool l)). intros ds.
  induction (filter (fun r => d_actual r && with_value r)%bool l) as [|r m IH]; [reflexivity|]. cbn [map flat_map]. rewrite map_app, IH. f_equal. now rewrite map_repeat.
Qed.
Lemma residuals_mir acts l : residuals (map mirp acts) (map mirrored l) = map mir (residuals acts l).
Proof.
  unfold residuals. rewrite filter_mir by (intros r; now rewrite mir_value).
  assert (E : forall m, flat_map (fun r => map (fun a => nsub (snd a) (d_y r)) (filter (fun a => Z.eqb (fst a) (d_date r)) (map mirp acts))) (map mirrored m) =
    map mir (flat_map (fun r => map (fun a => nsub (snd a) (d_y r)) (filter (fun a => Z.eqb (fst a) (d_date r)) acts)) m)).
  { induction m as [|r m IH]; [reflexivity|]. cbn [map flat_map]. rewrite map_app, IH. f_equal.
    rewrite (filter_map_same mirp (fun a => Z.eqb (fst a) (d_date (mirrored r))) (fun a => Z.eqb (fst a) (d_date r))) by reflexivity.
    rewrite !map_map. apply map_ext. intros a. apply mir_sub. }
  rewrite E. apply filter_map_same. intros a. now rewrite mir_nan.
Qed.
Lemma tidy_residuals acts l : Forall (fun a => tidy (snd a)) acts -> Forall (fun r => tidy (d_y r)) l -> Forall tidy (residuals acts l).
Proof.
  intros A L. rewrite Forall_forall in *. intros x I. unfold residuals in I. apply filter_In in I as [I _]. apply in_flat_map in I as (r & Ir & I).
  apply in_map_iff in I as (a & <- & Ia). apply filter_In in Ia as [Ia _]. apply filter_In in Ir as [Ir _]. apply tidy_sub; [now apply A|now apply L].
Qed.
Lemma tidy_usable l : Forall (fun r : drow XR => tidy (d_y r)) l -> Forall (fun a => tidy (snd a)) (usable_actuals l).
Proof.
  intros L. rewrite Forall_forall in *. intros a I. unfold usable_actuals in I. apply in_flat_map in I as (r & Ir & I). apply repeat_spec in I. subst a. cbn. apply filter_In in Ir as [Ir _]. now apply L.
Qed.
Lemma actual_mir l : map actual_row (map mirrored l) = map mirrored_row (map actual_row l).
Proof. rewrite !map_map. reflexivity. Qed.
Lemma pi_single_mir draw ns nc q1 q2 a b c d l : Forall (fun r => tidy (d_y r)) l ->
  pi_single draw ns nc (100 - q1) (100 - q2) (mkPT a b c d (map mirrored l)) = rmap (map mirrored_row) (pi_single draw ns nc q1 q2 (mkPT a b c d l)).
Proof.
  intros L. unfold pi_single. cbn [pt_best pt_rows pt_dates pt_w pt_src].
  replace (if c then filter (fun r => d_actual r || d_best r)%bool (map mirrored l) else map mirrored l) with (map mirrored (if c then filter (fun r => d_actual r || d_best r)%bool l else l))
    by (destruct c; [now rewrite filter_mir by reflexivity|reflexivity]).
  assert (L' : Forall (fun r => tidy (d_y r)) (if c then filter (fun r => d_actual r || d_best r)%bool l else l)).
  { destruct c; [|exact L]. rewrite Forall_forall in *. intros r I. apply filter_In in I as [I _]. now apply L. }
  revert L'. generalize (if c then filter (fun r => d_actual r || d_best r)%bool l else l). clear l L. intros l L. rewrite map_map. change (map (fun x => d_date (mirrored x))) with (map (@d_date XR)).
  destruct (if d then days_from_freq (detect_freq (map d_date l)) else Ok 1%Z) as [fd|]; [|reflexivity]. cbn [rbind].
  rewrite (filter_mir (fun r => d_actual r && with_value r)%bool) by (intros r; now rewrite mir_value).
  replace (existsb (fun r => neqb (d_w r) n0) (map mirrored l)) with (existsb (fun r => neqb (d_w r) n0) l)
    by (clear; induction l as [|r l IH]; [reflexivity|]; cbn [map existsb]; now rewrite IH).
  rewrite usable_actuals_mir, (map_map_ext mirrored (fun r => (d_date r, d_y r)) (fun r => (d_date r, d_y r)) mirp) by reflexivity.
  assert (U : Forall (fun r => tidy (d_y r)) (filter (fun r => d_actual r && with_value r)%bool l)).
  { rewrite Forall_forall in *. intros r I. apply filter_In in I as [I _]. now apply L. }
  revert U. generalize (filter (fun r => d_actual r && with_value r)%bool l). intros unf U.
  pose proof (tidy_usable l L) as Tu.
  assert (E : (if (b && existsb (fun r => neqb (d_w r) n0) l)%bool then if a then Ok (map mirp (usable_actuals l)) else Err KeyError
               else Ok (map mirp (map (fun r => (d_date r, d_y r)) unf))) =
    rmap (map mirp) (if (b && existsb (fun r => neqb (d_w r) n0) l)%bool then if a then Ok (usable_actuals l) else Err KeyError
               else Ok (map (fun r => (d_date r, d_y r)) unf))).
  { destruct (_ && _)%bool; [destruct a|]; reflexivity. }
  rewrite E. clear E. destruct (if (b && existsb (fun r => neqb (d_w r) n0) l)%bool then if a then Ok (usable_actuals l) else Err KeyError
               else Ok (map (fun r => (d_date r, d_y r)) unf)) as [acts|] eqn:Ea; [|reflexivity]. cbn [rmap rbind].
  assert (Ta : Forall (fun a => tidy (snd a)) acts).
  { destruct (_ && _)%bool; [destruct a; [|discriminate]|]; apply ok_inj in Ea; subst acts; [exact Tu|]. apply Forall_map. exact U. }
  pose proof (tidy_centred _ (tidy_residuals acts l Ta L)) as Tr.
  rewrite residuals_mir, (map_map mirp fst). change (map (fun x => fst (mirp x)) acts) with (map (@fst Z XR) acts). destruct (residuals acts l) as [|x rs]; cbn [map].
  { destruct (negb a); [reflexivity|]. destruct l; [reflexivity|]. cbn [map rmap rbind]. now rewrite actual_mir. }
  destruct (zmax_opt (map fst acts)) as [last|]; [|reflexivity]. change (mir x :: map mir rs) with (map mir (x :: rs)). rewrite centred_mir.
  rewrite (filter_mir (fun r => negb (d_actual r) && Z.ltb last (d_date r))%bool), (filter_mir (fun r => negb (d_actual r) && Z.leb (d_date r) last)%bool) by reflexivity.
  rewrite !map_length, future_mir, past_mir, !add_percentiles_mir by (try apply tidy_future; try apply tidy_past; exact Tr).
  destruct (add_percentiles _ (future_sample _ _ _ _ _) _ _) as [fu|]; [|reflexivity]. cbn [rmap rbind].
  destruct (add_percentiles _ (past_sample _ _ _ _) _ _) as [pa|]; [|reflexivity]. cbn [rmap rbind]. now rewrite !map_app, actual_mir.
Qed.
Lemma isort_mir l : isort prow_leb (map mirrored_row l) = map mirrored_row (isort prow_leb l).
Proof.
  induction l as [|a l IH]; [reflexivity|]. cbn [map isort]. rewrite IH. generalize (isort prow_leb l). clear IH. intros m.
  induction m as [|b m IHm]; [reflexivity|]. cbn [map insert]. change (prow_leb (mirrored_row a) (mirrored_row b)) with (prow_leb a b). destruct (prow_leb a b); [reflexivity|]. cbn [map]. now rewrite IHm.
Qed.
Lemma get_pi_mir draw ns nc q1 q2 w a b c d l : Forall (fun r => tidy (d_y r)) l ->
  get_pi draw ns nc (100 - q1) (100 - q2) w (mkPT a b c d (map mirrored l)) = rmap (map mirrored_row) (get_pi draw ns nc q1 q2 w (mkPT a b c d l)).
Proof.
  intros L. unfold get_pi. destruct (match nc with Some n => Ok n | None => days_from_freq w end) as [n|]; [|reflexivity]. cbn [rbind pt_src pt_rows pt_w pt_best pt_dates].
  rewrite map_map. change (map (fun x => d_src (mirrored x))) with (map (@d_src XR)). destruct (_ && _)%bool.
  - rewrite (rmapM_ext _ (fun s => rmap (map mirrored_row) (pi_single (draw s) ns n q1 q2 (mkPT true b c d (filter (fun r => String.eqb (d_src r) s) l))))).
    2:{ intros s _. rewrite filter_mir by reflexivity. apply pi_single_mir. rewrite Forall_forall in *. intros r I. apply filter_In in I as [I _]. now apply L. }
    rewrite rmapM_rmap. destruct (rmapM _ _) as [gs|]; [|reflexivity]. cbn [rmap rbind]. now rewrite <- concat_map, isort_mir.
  - rewrite pi_single_mir by exact L. destruct l; reflexivity.
Qed.
