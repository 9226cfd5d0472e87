(* Trend models: formulas and shapes (C12, C13). *)
From Coq Require Import ZArith String List Bool Reals Lra Lia.
From Verif Require Import Num Py Cal Fmt Model Base NumProofs.
Import ListNotations.
Open Scope R_scope.

(* ---------- specification: the documented formulas, on the reals ---------- *)
Definition neutral (mult : bool) : R := if mult then 1 else 0.
Definition step_spec (mult : bool) (A B x : R) : R :=
  if Rlt_dec x A then neutral mult else B.
Definition two_steps_spec (mult : bool) (A1 B1 A2 B2 x : R) : R :=
  if mult then step_spec mult A1 B1 x * step_spec mult A2 B2 x
  else step_spec mult A1 B1 x + step_spec mult A2 B2 x.
Definition ramp_spec (mult : bool) (A B x : R) : R :=
  if Rlt_dec x A then neutral mult else neutral mult + (x - A) * B.
Definition sigmoid_spec (mult : bool) (B C D x : R) : R :=
  neutral mult + (B - neutral mult) / (1 + exp (- D * (x - C))).
Definition decay_spec (A B D x : R) : R := A * exp (B * x) + D.
Definition step_date_spec (mult : bool) (t0 : Z) (A : R) (t : Z) : R :=
  if Z_lt_dec t t0 then neutral mult else A.
Definition spike_date_spec (mult : bool) (t0 t1 : Z) (A : R) (t : Z) : R :=
  if Z_lt_dec t t0 then neutral mult else if Z_lt_dec t t1 then A else neutral mult.
(* position, not x value *)
Definition spike_spec (mult : bool) (i j : nat) (A : R) (k : nat) : R :=
  if le_dec i k then (if lt_dec k j then A else neutral mult) else neutral mult.

Definition fins (l : list R) : list XR := map Fin l.

(* ---------- C12: formulas ---------- *)
Lemma map_fin_ext (g : XR -> XR) (f : R -> R) (xs : list R) :
  (forall x, g (Fin x) = Fin (f x)) -> map g (fins xs) = fins (map f xs).
Proof. intros E. unfold fins. rewrite !map_map. apply map_ext. exact E. Qed.

Lemma repeat_map_const {A B} (a : A) (l : list B) : repeat a (length l) = map (fun _ => a) l.
Proof. induction l; cbn; congruence. Qed.

Lemma constant_formula xs d A mult kw :
  call model_constant (fins xs) d (Some (fins [A])) mult kw = Ok (Ar (fins (map (fun _ => A) xs))).
Proof.
  unfold call. cbn. do 2 f_equal. unfold fins. rewrite map_length, map_map.
  apply repeat_map_const.
Qed.
Lemma linear_formula xs d A B mult kw :
  call model_linear (fins xs) d (Some (fins [A; B])) mult kw
  = Ok (Ar (fins (map (fun x => A * x + B) xs))).
Proof. unfold call. cbn. do 2 f_equal. now apply map_fin_ext. Qed.
Lemma linear_nondec_formula xs d A B mult kw :
  call model_linear_nondec (fins xs) d (Some (fins [A; B])) mult kw
  = Ok (Ar (fins (map (fun x => A * x + B) xs))).
Proof. unfold call. cbn. do 2 f_equal. now apply map_fin_ext. Qed.
Lemma quasilinear_formula xs d A B C mult kw : Forall (fun x => 0 < x) xs ->
  call model_quasilinear (fins xs) d (Some (fins [A; B; C])) mult kw
  = Ok (Ar (fins (map (fun x => A * Rpower x B + C) xs))).
Proof.
  intros Hp. unfold call. cbn. do 2 f_equal. unfold fins. rewrite !map_map.
  apply map_ext_in. intros x Hx. rewrite Forall_forall in Hp. specialize (Hp x Hx).
  cbn. destruct (Rltb_spec 0 x); [reflexivity|lra].
Qed.
Lemma exp_formula xs d A B mult kw : 0 < B ->
  call model_exp (fins xs) d (Some (fins [A; B])) mult kw
  = Ok (Ar (fins (map (fun x => A * Rpower B x) xs))).
Proof.
  intros Hp. unfold call. cbn. do 2 f_equal. apply map_fin_ext. intros x.
  cbn. destruct (Rltb_spec 0 B); [reflexivity|lra].
Qed.
Lemma decay_formula xs d A B D mult kw :
  call model_decay (fins xs) d (Some (fins [A; B; D])) mult kw
  = Ok (Ar (fins (map (decay_spec A B D) xs))).
Proof. unfold call. cbn. do 2 f_equal. now apply map_fin_ext. Qed.

Lemma heaviside_fin r : heaviside1 (Fin r) = Fin (if Rlt_dec r 0 then 0 else 1).
Proof.
  unfold heaviside1. cbn. destruct (Rltb_spec r 0), (Rlt_dec r 0); try reflexivity; contradiction.
Qed.
Lemma step_at_fin mult A B x : step_at mult (Fin A) (Fin B) (Fin x) = Fin (step_spec mult A B x).
Proof.
  unfold step_at, step_spec, neutral. rewrite sub_fin, heaviside_fin. destruct mult; cbn;
  destruct (Rlt_dec (x - A) 0), (Rlt_dec x A); try lra; f_equal; lra.
Qed.
Lemma ramp_at_fin mult A B x : ramp_at mult (Fin A) (Fin B) (Fin x) = Fin (ramp_spec mult A B x).
Proof.
  unfold ramp_at, ramp_spec, neutral. rewrite sub_fin, heaviside_fin. destruct mult; cbn;
  destruct (Rlt_dec (x - A) 0), (Rlt_dec x A); try lra; f_equal; lra.
Qed.
Lemma sigmoid_at_fin mult B C D x :
  sigmoid_at mult (Fin B) (Fin C) (Fin D) (Fin x) = Fin (sigmoid_spec mult B C D x).
Proof.
  unfold sigmoid_at, sigmoid_spec, neutral. rewrite ofbool_fin.
  change (nopp (Fin D)) with (Fin (- D)). rewrite n1_fin, !sub_fin, mul_fin.
  change (nexp (Fin (- D * (x - C)))) with (Fin (exp (- D * (x - C)))). rewrite add_fin.
  pose proof (exp_pos (- D * (x - C))). rewrite div_fin by lra. rewrite add_fin.
  destruct mult; reflexivity.
Qed.

Lemma step_formula xs d A B mult kw :
  call model_step (fins xs) d (Some (fins [A; B])) mult kw
  = Ok (Ar (fins (map (step_spec mult A B) xs))).
Proof. unfold call. cbn. do 2 f_equal. apply map_fin_ext. intros x. apply step_at_fin. Qed.
Lemma ramp_formula xs d A B mult kw :
  call model_ramp (fins xs) d (Some (fins [A; B])) mult kw
  = Ok (Ar (fins (map (ramp_spec mult A B) xs))).
Proof. unfold call. cbn. do 2 f_equal. apply map_fin_ext. intros x. apply ramp_at_fin. Qed.
Lemma sigmoid_formula xs d B C D mult kw :
  call model_sigmoid (fins xs) d (Some (fins [B; C; D])) mult kw
  = Ok (Ar (fins (map (sigmoid_spec mult B C D) xs))) /\
  call model_sigmoid_step (fins xs) d (Some (fins [B; C; D])) mult kw
  = Ok (Ar (fins (map (sigmoid_spec mult B C D) xs))).
Proof.
  assert (E : map (sigmoid_at mult (Fin B) (Fin C) (Fin D)) (fins xs)
              = fins (map (sigmoid_spec mult B C D) xs)).
  { apply map_fin_ext. intros x. apply sigmoid_at_fin. }
  unfold call. cbn [fm_f model_sigmoid model_sigmoid_step mk_model f_sigmoid fins map unpack3 rbind].
  unfold f_sigmoid. cbn. rewrite <- E. split; reflexivity.
Qed.

Lemma map2_map {A} (f : XR -> XR -> XR) (g h : A -> XR) (l : list A) :
  map2 f (map g l) (map h l) = map (fun x => f (g x) (h x)) l.
Proof. unfold map2. induction l as [|a l IH]; [reflexivity|]. cbn. now rewrite IH. Qed.

Lemma two_steps_formula xs d A1 B1 A2 B2 mult kw :
  call model_two_steps (fins xs) d (Some (fins [A1; B1; A2; B2])) mult kw
  = Ok (Ar (fins (map (two_steps_spec mult A1 B1 A2 B2) xs))).
Proof.
  unfold call, model_two_steps, mk_model, fm_f, f_n_steps.
  change (range2 2) with [0%nat; 2%nat]. cbn [fold_left skipn fins map firstn unpack2 rbind].
  cbn [mode_of]. fold (fins xs).
  set (g1 := step_at mult (Fin A1) (Fin B1)). set (g2 := step_at mult (Fin A2) (Fin B2)).
  unfold fins. rewrite !map_map. cbn [bcast2 rbind]. rewrite !map_map, !map_length, Nat.eqb_refl.
  do 2 f_equal. rewrite map2_map. apply map_ext. intros x. subst g1 g2.
  rewrite !step_at_fin, ofbool_fin. unfold two_steps_spec.
  destruct mult; cbn; f_equal; ring.
Qed.

Lemma step_date_formula xs ds t0 A mult kw :
  call (get_model_step_date t0) xs (Some ds) (Some (fins [A])) mult kw
  = Ok (Ar (fins (map (step_date_spec mult t0 A) ds))).
Proof.
  unfold call. cbn. do 2 f_equal. unfold fins. rewrite !map_map. apply map_ext. intros t.
  rewrite ofbool_fin. unfold step_date_spec, neutral.
  destruct (Z.leb_spec t0 t), (Z_lt_dec t t0), mult; cbn; try lia; f_equal; lra.
Qed.
Lemma spike_date_formula xs ds t0 t1 A mult kw :
  call (get_model_spike_date t0 t1) xs (Some ds) (Some (fins [A])) mult kw
  = Ok (Ar (fins (map (spike_date_spec mult t0 t1 A) ds))).
Proof.
  unfold call. cbn. do 2 f_equal. unfold fins. rewrite !map_map. apply map_ext. intros t.
  unfold spike_date_spec, neutral. rewrite !ofbool_fin.
  destruct (Z.leb_spec t0 t), (Z.ltb_spec t t1), (Z_lt_dec t t0), (Z_lt_dec t t1), mult;
    cbn; try lia; f_equal; lra.
Qed.

Lemma np_full_nat n (c : XR) : np_full (Z.of_nat n) c = Ok (repeat c n).
Proof.
  unfold np_full. destruct (Z.ltb_spec (Z.of_nat n) 0); [lia|]. now rewrite Nat2Z.id.
Qed.
Lemma py_int_nat (n : nat) : py_int (Fin (IZR (Z.of_nat n))) = Ok (Z.of_nat n).
Proof. unfold py_int. cbn. now rewrite Rtrunc_IZR. Qed.
Lemma map_const_seq {A} (f : nat -> A) a i n :
  (forall k, (i <= k < i + n)%nat -> f k = a) -> map f (seq i n) = repeat a n.
Proof.
  revert i. induction n as [|n IH]; intros i Hf; [reflexivity|]. cbn.
  rewrite (Hf i), IH; [reflexivity|intros; apply Hf; lia|lia].
Qed.
Lemma spike_formula xs d A (i j : nat) mult kw : (i <= j)%nat -> (j <= length xs)%nat ->
  call model_spike xs d (Some [Fin A; Fin (INR i); Fin (INR j)]) mult kw
  = Ok (Ar (fins (map (spike_spec mult i j A) (seq 0 (length xs))))).
Proof.
  intros Hij Hj. unfold call. cbn [fm_f model_spike mk_model]. unfold f_spike. cbn [unpack3 rbind mode_of].
  rewrite !INR_IZR_INZ. rewrite py_int_nat. cbn [rbind]. rewrite np_full_nat. cbn [rbind].
  rewrite sub_fin. rewrite <- minus_IZR.
  replace (Z.of_nat j - Z.of_nat i)%Z with (Z.of_nat (j - i)) by lia.
  rewrite py_int_nat. cbn [rbind]. rewrite np_full_nat. cbn [rbind].
  rewrite py_int_nat. cbn [rbind].
  replace (Z.of_nat (length xs) - Z.of_nat j)%Z with (Z.of_nat (length xs - j)) by lia.
  rewrite np_full_nat. cbn [rbind]. do 2 f_equal.
  replace (length xs) with (i + (j - i) + (length xs - j))%nat at 2 by lia.
  rewrite !seq_app, !map_app. unfold fins. rewrite !map_app, <- app_assoc, !map_map.
  replace (0 + i)%nat with i by lia. replace (0 + (i + (j - i)))%nat with j by lia.
  f_equal; [|f_equal]; symmetry.
  - apply map_const_seq. intros k Hk. unfold spike_spec, neutral.
    destruct (le_dec i k); [lia|]. destruct mult; reflexivity.
  - apply map_const_seq. intros k Hk. unfold spike_spec, neutral.
    destruct (le_dec i k), (lt_dec k j); try lia. reflexivity.
  - apply map_const_seq. intros k Hk. unfold spike_spec, neutral.
    destruct (le_dec i k), (lt_dec k j); try lia. destruct mult; reflexivity.
Qed.

(* one value per sample, for any carrier *)
Definition one_per_sample {T} (n : nat) (r : res (nval T)) : Prop :=
  exists l, r = Ok (Ar l) /\ length l = n.
Lemma trends_one_per_sample (T : Type) (N : NumOps T) (m : fmodel T) xs d p mult kw :
  In m [model_constant; model_linear; model_linear_nondec; model_quasilinear; model_exp;
        model_decay; model_step; model_two_steps; model_sigmoid; model_sigmoid_step; model_ramp] ->
  length p = fm_n m -> one_per_sample (length xs) (call m xs d (Some p) mult kw).
Proof.
  intros Hm Hp. unfold one_per_sample.
  repeat destruct Hm as [<-|Hm]; try destruct Hm; cbn in Hp;
    repeat (destruct p as [|? p]; try discriminate Hp); unfold call; cbn;
    try (eexists; split; [reflexivity|]; rewrite ?map_length, ?repeat_length; reflexivity).
  rewrite !map_length, Nat.eqb_refl. cbn. eexists. split; [reflexivity|].
  unfold map2. rewrite map_length, combine_length, !map_length. lia.
Qed.

(* ---------- C13: shapes ---------- *)
Lemma nondec_shape A B x x' : 0 <= A -> x <= x' -> A * x + B <= A * x' + B.
Proof. intros HA Hx. apply Rplus_le_compat_r. now apply Rmult_le_compat_l. Qed.

Lemma decay_shape A B D x x' : B <= 0 -> x <= x' ->
  Rabs (decay_spec A B D x' - D) <= Rabs (decay_spec A B D x - D) /\
  0 <= (decay_spec A B D x' - D) * (decay_spec A B D x - D).
Proof.
  intros HB Hx. unfold decay_spec.
  replace (A * exp (B * x') + D - D) with (A * exp (B * x')) by ring.
  replace (A * exp (B * x) + D - D) with (A * exp (B * x)) by ring.
  pose proof (exp_pos (B * x)). pose proof (exp_pos (B * x')).
  assert (E : exp (B * x') <= exp (B * x)).
  { destruct (Rle_lt_or_eq_dec (B * x') (B * x)) as [L|L].
    - nra.
    - left. now apply exp_increasing.
    - rewrite L. lra. }
  split.
  - rewrite !Rabs_mult, (Rabs_right (exp (B * x'))), (Rabs_right (exp (B * x))) by lra.
    apply Rmult_le_compat_l; [apply Rabs_pos|exact E].
  - replace (A * exp (B * x') * (A * exp (B * x))) with ((A * A) * (exp (B * x') * exp (B * x))) by ring.
    apply Rmult_le_pos; [nra|]. apply Rmult_le_pos; lra.
Qed.

Lemma sigmoid_shape mult B C D x x' : 0 <= D -> x <= x' ->
  Rmin (neutral mult) B <= sigmoid_spec mult B C D x <= Rmax (neutral mult) B /\
  (neutral mult <= B -> sigmoid_spec mult B C D x <= sigmoid_spec mult B C D x') /\
  (B <= neutral mult -> sigmoid_spec mult B C D x' <= sigmoid_spec mult B C D x).
Proof.
  intros HD Hx. unfold sigmoid_spec. set (A := neutral mult).
  set (e := exp (- D * (x - C))). set (e' := exp (- D * (x' - C))).
  assert (Pe : 0 < e) by apply exp_pos. assert (Pe' : 0 < e') by apply exp_pos.
  assert (E : e' <= e).
  { subst e e'. destruct (Rle_lt_or_eq_dec (- D * (x' - C)) (- D * (x - C))) as [L|L].
    - nra.
    - left. now apply exp_increasing.
    - rewrite L. lra. }
  assert (I : 0 < / (1 + e) < 1).
  { split; [apply Rinv_0_lt_compat; lra|].
    rewrite <- Rinv_1. apply Rinv_lt_contravar; lra. }
  assert (I' : / (1 + e) <= / (1 + e')) by (apply Rinv_le_contravar; lra).
  unfold Rdiv. repeat split.
  - unfold Rmin. destruct (Rle_dec A B); nra.
  - unfold Rmax. destruct (Rle_dec A B); nra.
  - intros HB. nra.
  - intros HB. nra.
Qed.

(* linear + ramp *)
Definition pw_linear (a b A B x : R) : R := a * x + b + ramp_spec false A B x.
Lemma linear_ramp_call xs d a b A B mult kw :
  call (madd model_linear model_ramp) (fins xs) d (Some (fins [a; b; A; B])) mult kw
  = Ok (Ar (fins (map (pw_linear a b A B) xs))).
Proof.
  unfold call. cbn. unfold fins. rewrite !map_map, !map_length, Nat.eqb_refl. do 2 f_equal.
  rewrite map2_map. apply map_ext. intros x. rewrite ramp_at_fin. reflexivity.
Qed.
Lemma pw_linear_shape a b A B :
  (forall x x', x <= x' <= A -> pw_linear a b A B x' - pw_linear a b A B x = a * (x' - x)) /\
  (forall x x', A <= x <= x' ->
     pw_linear a b A B x' - pw_linear a b A B x = (a + B) * (x' - x)) /\
  (forall x x', Rabs (pw_linear a b A B x' - pw_linear a b A B x)
                <= (Rabs a + Rabs B) * Rabs (x' - x)).
Proof.
  assert (R1 : forall x, x <= A -> ramp_spec false A B x = 0).
  { intros x Hx. unfold ramp_spec, neutral. destruct (Rlt_dec x A); [lra|].
    replace x with A by lra. ring. }
  assert (R2 : forall x, A <= x -> ramp_spec false A B x = (x - A) * B).
  { intros x Hx. unfold ramp_spec, neutral. destruct (Rlt_dec x A); lra. }
  unfold pw_linear. repeat split.
  - intros x x' Hx. rewrite !R1 by lra. ring.
  - intros x x' Hx. rewrite !R2 by lra. ring.
  - intros x x'.
    replace (a * x' + b + ramp_spec false A B x' - (a * x + b + ramp_spec false A B x))
      with (a * (x' - x) + (ramp_spec false A B x' - ramp_spec false A B x)) by ring.
    eapply Rle_trans; [apply Rabs_triang|]. rewrite Rabs_mult, Rmult_plus_distr_r.
    apply Rplus_le_compat_l.
    destruct (Rle_dec x A) as [H1|H1], (Rle_dec x' A) as [H2|H2].
    + rewrite !R1 by lra. replace (0 - 0) with 0 by ring. rewrite Rabs_R0.
      apply Rmult_le_pos; apply Rabs_pos.
    + rewrite (R1 x), (R2 x') by lra. replace ((x' - A) * B - 0) with (B * (x' - A)) by ring.
      rewrite Rabs_mult. apply Rmult_le_compat_l; [apply Rabs_pos|].
      rewrite !Rabs_right; lra.
    + rewrite (R2 x), (R1 x') by lra. replace (0 - (x - A) * B) with (B * (A - x)) by ring.
      rewrite Rabs_mult. apply Rmult_le_compat_l; [apply Rabs_pos|].
      rewrite (Rabs_left1 (A - x)), (Rabs_left1 (x' - x)); lra.
    + rewrite !R2 by lra. replace ((x' - A) * B - (x - A) * B) with (B * (x' - x)) by ring.
      rewrite Rabs_mult. lra.
Qed.
