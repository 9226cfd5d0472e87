(* Prediction intervals of mirrored series under the same percentiles (C102): the order of the two bounds in
   the request does not matter. *)
From Coq Require Import ZArith String List Bool Lia Reals Lra Sorted Permutation.
From Verif Require Import Num Py Cal Model Freq Outliers Pi.
From Verif Require Import NumProofs ListProofs ForecastProofs TotalProofs PiProofs ScaleProofs MirrorProofs.
Import ListNotations.
Local Open Scope string_scope.
Local Open Scope list_scope.

(* the same row with its percentiles in any order *)
Definition recol {T} (p p' : prow T) : Prop :=
  p_date p' = p_date p /\ p_src p' = p_src p /\ p_model p' = p_model p /\ p_actual p' = p_actual p /\ p_y p' = p_y p /\ Permutation (p_q p) (p_q p').
Definition recols {T} (a b : res (list (prow T))) : Prop :=
  match a, b with Ok l, Ok l' => Forall2 recol l l' | Err e, Err e' => e = e' | _, _ => False end.
Section Recol.
  Context {T : Type} `{NumOps T}.
  Lemma recol_refl (p : prow T) : recol p p.
  Proof. repeat split. apply Permutation_refl. Qed.
  Lemma recols_same (l : list (prow T)) : Forall2 recol l l.
  Proof. induction l; constructor; [apply recol_refl|assumption]. Qed.
  Lemma percentiles_perm q1 q2 : Permutation (percentiles q1 q2) (percentiles (100 - q1) (100 - q2)).
  Proof.
    apply NoDup_Permutation; [apply (dedup_nodup Z.eqb Z.eqb_eq)..|]. intros q. unfold percentiles. rewrite !(dedup_in Z.eqb Z.eqb_eq). cbn [In]. lia.
  Qed.
  Lemma add_percentiles_recol l (m : list (list T)) q1 q2 : recols (add_percentiles l m q1 q2) (add_percentiles l m (100 - q1) (100 - q2)).
  Proof.
    unfold add_percentiles.
    replace ((0 <? 100 - q1) && (100 - q1 <? 100) && (0 <? 100 - q2) && (100 - q2 <? 100))%bool%Z with ((0 <? q1) && (q1 <? 100) && (0 <? q2) && (q2 <? 100))%bool%Z.
    2:{ destruct (Z.ltb_spec 0 q1), (Z.ltb_spec q1 100), (Z.ltb_spec 0 q2), (Z.ltb_spec q2 100), (Z.ltb_spec 0 (100 - q1)), (Z.ltb_spec (100 - q1) 100), (Z.ltb_spec 0 (100 - q2)), (Z.ltb_spec (100 - q2) 100); cbn; try reflexivity; lia. }
    destruct ((0 <? q1) && (q1 <? 100) && (0 <? q2) && (q2 <? 100))%bool%Z; [|reflexivity]. cbn [recols].
    induction (enumerate l) as [|[i r] es IH]; [constructor|]. cbn [map]. constructor; [|exact IH]. repeat split. cbn [p_q]. apply Permutation_map, percentiles_perm.
  Qed.
  Lemma pi_single_recol draw ns nc q1 q2 (t : ptable T) : recols (pi_single draw ns nc q1 q2 t) (pi_single draw ns nc (100 - q1) (100 - q2) t).
  Proof.
    unfold pi_single. destruct (if pt_dates t then _ else _) as [fd|]; [|reflexivity]. cbn [rbind].
    destruct (if (pt_w t && _)%bool then _ else _) as [acts|]; [|reflexivity]. cbn [rbind].
    destruct (residuals _ _) as [|x rs].
    { destruct (negb (pt_src t)); [reflexivity|]. destruct (if pt_best t then _ else _); [reflexivity|]. apply recols_same. }
    destruct (zmax_opt _) as [last|]; [|reflexivity].
    match goal with |- recols (rbind (add_percentiles ?l ?m q1 q2) _) _ => pose proof (add_percentiles_recol l m q1 q2) as A; destruct (add_percentiles l m q1 q2) as [fu|], (add_percentiles l m (100 - q1) (100 - q2)) as [fu'|]; cbn [recols] in A; try contradiction; [|now subst] end. cbn [rbind].
    match goal with |- recols (rbind (add_percentiles ?l ?m q1 q2) _) _ => pose proof (add_percentiles_recol l m q1 q2) as B; destruct (add_percentiles l m q1 q2) as [pa|], (add_percentiles l m (100 - q1) (100 - q2)) as [pa'|]; cbn [recols] in B; try contradiction; [|now subst] end. cbn [rbind recols].
    apply Forall2_app; [apply recols_same|]. now apply Forall2_app.
  Qed.
  Lemma recol_leb (a b a' b' : prow T) : recol a a' -> recol b b' -> prow_leb a' b' = prow_leb a b.
  Proof. intros (Da & Sa & _ & Aa & _) (Db & Sb & _ & Ab & _). unfold prow_leb. now rewrite Da, Sa, Aa, Db, Sb, Ab. Qed.
  Lemma isort_recol (l l' : list (prow T)) : Forall2 recol l l' -> Forall2 recol (isort prow_leb l) (isort prow_leb l').
  Proof.
    induction 1 as [|a a' l l' Ra F IH]; [constructor|]. cbn [isort]. revert IH. generalize (isort prow_leb l) (isort prow_leb l'). clear F l l'. intros m m' M.
    induction M as [|b b' m m' Rb M IH]; cbn [insert]; [constructor; [exact Ra|constructor]|]. rewrite (recol_leb a b a' b' Ra Rb). destruct (prow_leb a b); [constructor; [exact Ra|now constructor]|now constructor].
  Qed.
  Lemma rmapM_recol {A} (f g : A -> res (list (prow T))) l : (forall a, recols (f a) (g a)) ->
    recols (rmap (@concat _) (rmapM f l)) (rmap (@concat _) (rmapM g l)).
  Proof.
    intros R. assert (K : match rmapM f l, rmapM g l with Ok x, Ok y => Forall2 (Forall2 recol) x y | Err e, Err e' => e = e' | _, _ => False end).
    { induction l as [|a l IH]; [constructor|]. cbn [rmapM]. specialize (R a). destruct (f a), (g a); cbn [recols] in R; try contradiction; [|exact R]. cbn [rbind].
      destruct (rmapM f l), (rmapM g l); try contradiction; [|exact IH]. cbn [rbind]. now constructor. }
    destruct (rmapM f l) as [x|], (rmapM g l) as [y|]; try contradiction; [|exact K]. cbn [rmap rbind recols]. induction K; [constructor|]. cbn [concat]. now apply Forall2_app.
  Qed.
  Lemma get_pi_recol draw ns nc q1 q2 w (t : ptable T) : recols (get_pi draw ns nc q1 q2 w t) (get_pi draw ns nc (100 - q1) (100 - q2) w t).
  Proof.
    unfold get_pi. destruct (match nc with Some n => Ok n | None => days_from_freq w end) as [n|]; [|reflexivity]. cbn [rbind]. destruct (_ && _)%bool.
    - match goal with |- recols (rbind (rmapM ?f ?l) _) (rbind (rmapM ?g _) _) => pose proof (rmapM_recol f g l (fun s => pi_single_recol _ _ _ q1 q2 _)) as K; destruct (rmapM f l), (rmapM g l) end; cbn [rmap rbind recols] in *; try contradiction; [|exact K]. now apply isort_recol.
    - apply pi_single_recol.
  Qed.
End Recol.
