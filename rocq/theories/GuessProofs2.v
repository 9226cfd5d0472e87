(* Exact initial guesses (C11, continued). *)
From Coq Require Import ZArith String List Bool Reals Lra Lia Sorted Permutation.
From Verif Require Import Num Py Cal Model ModelProofs Base Dummy Fixed NumProofs ListProofs BaseProofs
  SeasonProofs DummyProofs GuessProofs.
Import ListNotations.
Local Open Scope R_scope.

(* rate of the decay guess: -1/2 when the smallest value is 0, else log(min/max)/(n-1) *)
Definition decay_rate (ys : list R) (r : R) : Prop :=
  exists mn mx, In mn ys /\ In mx ys /\ (forall y, In y ys -> mn <= y <= mx) /\
    r = (if Req_EM_T mn 0 then -1/2 else ln (mn / mx) / IZR (Z.of_nat (length ys) - 1)).

Lemma decay_guess xs y0 ys yl d mult rnd :
  let l := y0 :: ys ++ [yl] in
  Forall (fun v => 0 <= v) l -> (exists v, In v l /\ 0 < v) ->
  exists r, decay_rate l r /\
    fm_init model_decay (Some (fins xs)) (Some (fins l)) d mult rnd = Ok (fins [y0 - yl; r; yl]) /\
    exists b, fm_bounds model_decay (Some (fins xs)) (Some (fins l)) d = Ok b /\
      validate_initial_guess (fins [y0 - yl; r; yl]) b = Ok true.
Proof.
  intros l P (v & Hv & Pv). cbn [fm_init fm_bounds model_decay mk_model]. rewrite init_fins. unfold init_decay.
  assert (El : at_neg (fins l) 1 = Ok (Fin yl)).
  { unfold at_neg. assert (N : nth_error (fins l) (length (fins l) - 1) = Some (Fin yl)).
    { unfold l, fins. rewrite map_length. cbn [length]. rewrite app_length. cbn [length].
      replace (S (length ys + 1) - 1)%nat with (S (length ys)) by lia. cbn [map nth_error]. rewrite map_app.
      rewrite nth_error_app2; rewrite map_length; [|lia]. now rewrite Nat.sub_diag. }
    unfold at_pos. rewrite N.
    replace (Nat.leb 1 (length (fins l))) with true; [reflexivity|]. symmetry. apply Nat.leb_le. unfold l. cbn. lia. }
  rewrite El. change (at_pos (fins l) 0) with (@Ok XR (Fin y0)). cbn [rbind]. unfold np_min, np_max. rewrite no_nan_fins.
  assert (Emn : py_min (fins l) = Ok (Fin (fold_left Rmin (ys ++ [yl]) y0))) by (rewrite <- nmin_fin; reflexivity).
  assert (Emx : py_max (fins l) = Ok (Fin (fold_left Rmax (ys ++ [yl]) y0))) by (rewrite <- nmax_fin; reflexivity).
  rewrite Emn, Emx. cbn [rbind].
  set (mn := fold_left Rmin (ys ++ [yl]) y0). set (mx := fold_left Rmax (ys ++ [yl]) y0).
  assert (Imn : In mn l) by apply fold_min_in. assert (Imx : In mx l) by apply fold_max_in.
  assert (B : forall y, In y l -> mn <= y <= mx).
  { intros y [<-|Hy].
    - split; [apply (proj1 (fold_min_bound (ys ++ [yl]) y0))|apply (proj1 (fold_max_bound (ys ++ [yl]) y0))].
    - split; [now apply (proj2 (fold_min_bound (ys ++ [yl]) y0))|now apply (proj2 (fold_max_bound (ys ++ [yl]) y0))]. }
  assert (Hmx : 0 < mx) by (destruct (B v Hv); lra).
  assert (Hmn : 0 <= mn) by (rewrite Forall_forall in P; now apply P).
  assert (Hlen : (Z.of_nat (length (fins l)) = Z.of_nat (length l))%Z) by (unfold fins; now rewrite map_length).
  rewrite Hlen. set (n1' := IZR (Z.of_nat (length l) - 1)).
  assert (Hz : 0 < n1') by (apply IZR_lt; unfold l; cbn [length]; rewrite app_length; cbn [length]; lia).
  rewrite div_fin by lra. rewrite ofZ_fin. fold n1'.
  exists (if Req_EM_T mn 0 then -1/2 else ln (mn / mx) / n1'). split; [exists mn, mx; auto|].
  assert (Q : (let b := ndiv (nln (Fin (mn / mx))) (Fin n1') in
     if nltb n0 b || neqb b nninf then dec (-1) 2 else b) = Fin (if Req_EM_T mn 0 then -1/2 else ln (mn / mx) / n1') /\
     (if Req_EM_T mn 0 then -1/2 else ln (mn / mx) / n1') <= 0).
  { destruct (Req_EM_T mn 0) as [E|E].
    - rewrite E. unfold Rdiv at 1. rewrite Rmult_0_l. cbn [nln XROps]. unfold xln. rewrite Reqb_refl.
      cbn [ndiv XROps xdiv]. destruct (Rltb_spec n1' 0); [lra|]. cbn. split; [|lra]. destruct (Reqb_spec 2 0); [lra|]. reflexivity.
    - assert (Hq : 0 < mn / mx <= 1).
      { split; [apply Rdiv_lt_0_compat; lra|]. apply Rmult_le_reg_r with mx; [lra|].
        unfold Rdiv. rewrite Rmult_assoc, Rinv_l by lra. destruct (B _ Imx); lra. }
      assert (Hln : nln (Fin (mn / mx)) = Fin (ln (mn / mx))).
      { cbn. unfold xln. destruct (Reqb_spec (mn / mx) 0); [lra|]. destruct (Rltb_spec (mn / mx) 0); [lra|reflexivity]. }
      assert (Hb : ln (mn / mx) / n1' <= 0).
      { assert (Hl : ln (mn / mx) <= 0).
        { destruct (Req_dec (mn / mx) 1) as [->|]; [rewrite ln_1; lra|]. left. rewrite <- ln_1. apply ln_increasing; lra. }
        unfold Rdiv. apply Rmult_le_reg_r with n1'; [exact Hz|]. rewrite Rmult_assoc, Rinv_l by lra. lra. }
      split; [|exact Hb]. rewrite Hln, div_fin by lra. cbv zeta. rewrite n0_fin.
      change (nltb (Fin 0) (Fin (ln (mn / mx) / n1'))) with (Rltb 0 (ln (mn / mx) / n1')).
      destruct (Rltb_spec 0 (ln (mn / mx) / n1')); [lra|]. reflexivity. }
  destruct Q as [Q Hb]. cbv zeta in Q |- *. rewrite Q. set (r := if Req_EM_T mn 0 then -1/2 else ln (mn / mx) / n1') in *.
  split; [reflexivity|]. eexists. split; [reflexivity|]. unfold validate_initial_guess. cbn.
  destruct (Rleb_spec r 0); [reflexivity|lra].
Qed.
