(* Facts about the extended reals. *)
From Coq Require Import ZArith Reals Bool List Lra Lia.
From Verif Require Import Num Py.
Import ListNotations.
Open Scope R_scope.

Lemma Reqb_spec a b : reflect (a = b) (Reqb a b).
Proof. unfold Reqb. destruct (Req_EM_T a b); constructor; auto. Qed.
Lemma Rleb_spec a b : reflect (a <= b) (Rleb a b).
Proof. unfold Rleb. destruct (Rle_dec a b); constructor; auto. Qed.
Lemma Rltb_spec a b : reflect (a < b) (Rltb a b).
Proof. unfold Rltb. destruct (Rlt_dec a b); constructor; auto. Qed.
Lemma Rltb_irrefl a : Rltb a a = false.
Proof. destruct (Rltb_spec a a); auto. lra. Qed.
Lemma Rleb_refl a : Rleb a a = true.
Proof. destruct (Rleb_spec a a); auto. lra. Qed.
Lemma Reqb_refl a : Reqb a a = true.
Proof. destruct (Reqb_spec a a); auto. Qed.

Lemma Int_part_IZR z : Int_part (IZR z) = z.
Proof.
  unfold Int_part.
  assert (E : up (IZR z) = (z + 1)%Z); [|lia].
  symmetry. apply tech_up; rewrite plus_IZR; lra.
Qed.
Lemma Rtrunc_IZR z : Rtrunc (IZR z) = z.
Proof.
  unfold Rtrunc. destruct (Rltb_spec (IZR z) 0).
  - rewrite <- opp_IZR, Int_part_IZR. lia.
  - apply Int_part_IZR.
Qed.

(* exact arithmetic on finite values *)
Lemma add_fin a b : nadd (Fin a) (Fin b) = Fin (a + b). Proof. reflexivity. Qed.
Lemma mul_fin a b : nmul (Fin a) (Fin b) = Fin (a * b). Proof. reflexivity. Qed.
Lemma sub_fin a b : nsub (Fin a) (Fin b) = Fin (a - b). Proof. reflexivity. Qed.
Lemma div_fin a b : b <> 0 -> ndiv (Fin a) (Fin b) = Fin (a / b).
Proof. intros Hb. cbn. destruct (Reqb_spec b 0); [contradiction|reflexivity]. Qed.
Lemma ofZ_fin z : @nofZ XR _ z = Fin (IZR z). Proof. reflexivity. Qed.
Lemma n0_fin : @n0 XR _ = Fin 0. Proof. reflexivity. Qed.
Lemma n1_fin : @n1 XR _ = Fin 1. Proof. reflexivity. Qed.
Definition rbool (b : bool) : R := if b then 1 else 0.
Lemma ofbool_fin b : @nofbool XR _ b = Fin (rbool b). Proof. destruct b; reflexivity. Qed.
Lemma dec_fin a b : (b <> 0)%Z -> @dec XR _ a b = Fin (IZR a / IZR b).
Proof. intros Hb. unfold dec. rewrite !ofZ_fin. apply div_fin. now apply not_0_IZR. Qed.

Lemma map_fin_no_nan (l : list R) : existsb nisnan (map Fin l) = false.
Proof. induction l; auto. Qed.

Lemma fold_add_fin (l : list R) : forall a, fold_left nadd (map Fin l) (Fin a) = Fin (fold_left Rplus l a).
Proof. induction l as [|b l IH]; intros a; [reflexivity|]. cbn. apply IH. Qed.
Fixpoint rsum (l : list R) : R := match l with [] => 0 | a :: l => a + rsum l end.
Lemma fold_left_rsum (l : list R) : forall a, fold_left Rplus l a = a + rsum l.
Proof. induction l as [|b l IH]; intros a; cbn; [lra|]. rewrite IH. lra. Qed.
Lemma nsum_fin (l : list R) : nsum (map Fin l) = Fin (rsum l).
Proof. unfold nsum. rewrite n0_fin, fold_add_fin, fold_left_rsum. f_equal. lra. Qed.

Lemma nmax_fin (l : list R) : forall a, nmax (Fin a) (map Fin l) = Fin (fold_left Rmax l a).
Proof.
  unfold nmax. induction l as [|b l IH]; intros a; [reflexivity|]. cbn.
  replace (if Rltb a b then Fin b else Fin a) with (Fin (Rmax a b)); [apply IH|].
  unfold Rmax. destruct (Rltb_spec a b), (Rle_dec a b); auto; f_equal; lra.
Qed.
Lemma nmin_fin (l : list R) : forall a, nmin (Fin a) (map Fin l) = Fin (fold_left Rmin l a).
Proof.
  unfold nmin. induction l as [|b l IH]; intros a; [reflexivity|]. cbn.
  replace (if Rltb b a then Fin b else Fin a) with (Fin (Rmin a b)); [apply IH|].
  unfold Rmin. destruct (Rltb_spec b a), (Rle_dec a b); auto; f_equal; lra.
Qed.
Lemma fold_max_bound (l : list R) : forall a, a <= fold_left Rmax l a /\ forall b, In b l -> b <= fold_left Rmax l a.
Proof.
  induction l as [|c l IH]; intros a; cbn; [split; [lra|tauto]|].
  destruct (IH (Rmax a c)) as [H1 H2]. pose proof (Rmax_l a c). pose proof (Rmax_r a c).
  split; [lra|]. intros b [<-|Hb]; [lra|auto].
Qed.
Lemma fold_min_bound (l : list R) : forall a, fold_left Rmin l a <= a /\ forall b, In b l -> fold_left Rmin l a <= b.
Proof.
  induction l as [|c l IH]; intros a; cbn; [split; [lra|tauto]|].
  destruct (IH (Rmin a c)) as [H1 H2]. pose proof (Rmin_l a c). pose proof (Rmin_r a c).
  split; [lra|]. intros b [<-|Hb]; [lra|auto].
Qed.
Lemma fold_max_in (l : list R) : forall a, In (fold_left Rmax l a) (a :: l).
Proof.
  induction l as [|c l IH]; intros a; cbn; [auto|].
  destruct (IH (Rmax a c)) as [E|E]; [|right; right; exact E].
  rewrite <- E. unfold Rmax. destruct (Rle_dec a c); auto.
Qed.
Lemma fold_min_in (l : list R) : forall a, In (fold_left Rmin l a) (a :: l).
Proof.
  induction l as [|c l IH]; intros a; cbn; [auto|].
  destruct (IH (Rmin a c)) as [E|E]; [|right; right; exact E].
  rewrite <- E. unfold Rmin. destruct (Rle_dec a c); auto.
Qed.
