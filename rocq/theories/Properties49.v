(* Intervals of biased forecasts: C101. *)
From Coq Require Import ZArith String List Bool Reals PrimFloat Lia Lra.
From Verif Require Import Num Py Cal Model Freq Outliers Pi.
From Verif Require Import NumProofs ListProofs ForecastProofs TotalProofs ScaleProofs BiasProofs Ex Properties8.
Import ListNotations.
Local Open Scope string_scope.
Local Open Scope list_scope.
Local Open Scope R_scope.

(* ================= C101 ================= *)
(* [biased u v r]: the row with u added to an actual or v added to a forecast; [moved_row u v p]: the row of
   the result with the value and all percentiles moved by as much.  Errors that are the same on all days move
   the intervals and do nothing else: the deviations are centred before they are drawn. *)
Theorem C101_bias : forall u v draw n_sims n_cum q1 q2 widen a b c d l,
  get_pi draw n_sims n_cum q1 q2 widen (mkPT a b c d (map (biased u v) l)) =
  rmap (map (moved_row u v)) (get_pi draw n_sims n_cum q1 q2 widen (mkPT a b c d l)).
Proof. exact get_pi_bs. Qed.
Print Assumptions C101_bias.
(* Every series may have errors of its own. *)
Theorem C101_sources : forall (u v : string -> R) draw n_sims n_cum q1 q2 widen b c d l,
  get_pi draw n_sims n_cum q1 q2 widen (mkPT true b c d (map (biased_by u v) l)) =
  rmap (map (moved_by u v)) (get_pi draw n_sims n_cum q1 q2 widen (mkPT true b c d l)).
Proof. exact get_pi_by. Qed.
Print Assumptions C101_sources.
(* the percentiles of a row, counted from its value *)
Definition offsets (p : prow XR) : list (Z * XR) := map (fun q => (fst q, nsub (snd q) (p_y p))) (p_q p).
Lemma moved_offsets u v p : offsets (moved_row u v p) = offsets p.
Proof.
  unfold offsets, moved_row. cbn [p_q p_y]. rewrite map_map. apply map_ext. intros [q a]. cbn [fst snd]. f_equal. rewrite moved_sub.
  replace ((if p_actual p then u else v) - (if p_actual p then u else v)) with 0 by ring. apply moved_0.
Qed.
(* The distances of the bounds from the forecast stay the same on every day. *)
Theorem C101_width : forall u v draw n_sims n_cum q1 q2 widen a b c d l out,
  get_pi draw n_sims n_cum q1 q2 widen (mkPT a b c d l) = Ok out ->
  exists out', get_pi draw n_sims n_cum q1 q2 widen (mkPT a b c d (map (biased u v) l)) = Ok out' /\
    Forall2 (fun p p' => p_date p' = p_date p /\ p_src p' = p_src p /\ p_model p' = p_model p /\ p_actual p' = p_actual p /\
      (forall y, p_y p = Fin y -> p_y p' = Fin (y + if p_actual p then u else v)) /\ offsets p' = offsets p) out out'.
Proof.
  intros u v draw ns nc q1 q2 w a b c d l out E. exists (map (moved_row u v) out). rewrite get_pi_bs, E. split; [reflexivity|]. clear E.
  induction out as [|p out IH]; constructor; [|exact IH]. repeat split; try reflexivity; [|apply moved_offsets].
  intros y Ey. unfold moved_row. cbn [p_y]. now rewrite Ey.
Qed.
Print Assumptions C101_width.

(* four actuals and nine days of forecasts; numbers for which floats do not round *)
Definition c101_rows (g : float -> float) : list (drow float) :=
  map (fun p => mkD (ts 2018 1 (1 + Z.of_nat (fst p))) 1%float (snd p) "actuals" "s" "s" true false) (enumerate [1; 4; 3; 8]%float) ++
  map (fun i => mkD (ts 2018 1 (1 + Z.of_nat i)) 1%float (g (nofZ (NumOps := fops) (1 + Z.of_nat i))) "m" "s" "s" false true) (seq 0 9).
Definition c101_offsets (g : float -> float) : res (list (list (Z * float))) :=
  let N := fops in
  rmap (map (fun p => map (fun q => (fst q, nsub (snd q) (p_y p))) (p_q p)))
    (get_pi (fun _ a i => (a + i + i / 4)%nat) 5 (Some 2%Z) 25 50 None (ex_pi_table (c101_rows g))).
(* forecasts too large by 8 have the same offsets; forecasts twice as large have others: the error must be
   the same on all days *)
Example C101_example :
  c101_offsets (fun a => a + 8)%float = c101_offsets (fun a => a) /\
  c101_offsets (fun a => a * 2)%float <> c101_offsets (fun a => a) /\
  match c101_offsets (fun a => a) with
  | Ok l => length l = 13%nat /\ length (filter (fun o => match o with [(25, a); (75, b); (50, _)]%Z => PrimFloat.ltb a b | _ => false end) l) = 9%nat
  | Err _ => False
  end.
Proof.
  split; [vm_compute; reflexivity|]. split; [|vm_compute; split; reflexivity].
  intros K. apply (f_equal (fun r => match r with Ok l => existsb (existsb (fun q => PrimFloat.ltb 3 (snd q))) l | Err _ => false end)) in K.
  vm_compute in K. discriminate K.
Qed.
