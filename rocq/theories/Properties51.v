(* Intervals of mirrored series: C102; forecasts of normalized tables: C33. *)
From Coq Require Import ZArith String List Bool Reals PrimFloat Permutation Lia Lra.
From Verif Require Import Num Py Cal Model Freq Outliers Normalize Select Pi Forecast.
From Verif Require Import NumProofs ListProofs ForecastProofs TotalProofs ScaleProofs MirrorProofs MirrorProofs2 AppProofs Ex Properties8 Properties49 Properties50.
Import ListNotations.
Local Open Scope string_scope.
Local Open Scope list_scope.
Local Open Scope R_scope.

(* ================= C102 ================= *)
(* [mirrored r]: the row with the value of the opposite sign; [mirrored_row p]: the row of the result with the
   value and all percentiles of the opposite sign, the percentile q under the name 100 - q.  No side of the
   interval is treated in another way than the other. *)
Theorem C102_mirror : forall draw n_sims n_cum q1 q2 widen a b c d l,
  Forall (fun r => d_y r = XNaN \/ exists y, d_y r = Fin y) l ->
  get_pi draw n_sims n_cum (100 - q1) (100 - q2) widen (mkPT a b c d (map mirrored l)) =
  rmap (map mirrored_row) (get_pi draw n_sims n_cum q1 q2 widen (mkPT a b c d l)).
Proof. exact get_pi_mir. Qed.
Print Assumptions C102_mirror.
(* Lower bounds of a series are the upper bounds of the mirrored series, on the same days. *)
Theorem C102_bounds : forall draw n_sims n_cum q1 q2 widen a b c d l out,
  Forall (fun r => d_y r = XNaN \/ exists y, d_y r = Fin y) l ->
  get_pi draw n_sims n_cum q1 q2 widen (mkPT a b c d l) = Ok out ->
  exists out', get_pi draw n_sims n_cum (100 - q1) (100 - q2) widen (mkPT a b c d (map mirrored l)) = Ok out' /\
    Forall2 (fun p p' => p_date p' = p_date p /\ p_src p' = p_src p /\ p_actual p' = p_actual p /\ length (p_q p') = length (p_q p) /\
      (forall y, p_y p = Fin y -> p_y p' = Fin (- y)) /\
      forall q v, In (q, Fin v) (p_q p) -> In ((100 - q)%Z, Fin (- v)) (p_q p')) out out'.
Proof.
  intros draw ns nc q1 q2 w a b c d l out F E. exists (map mirrored_row out). rewrite get_pi_mir, E by exact F. split; [reflexivity|]. clear E.
  induction out as [|p out IH]; constructor; [|exact IH]. unfold mirrored_row. cbn [p_date p_src p_actual p_q p_y]. repeat split; [apply map_length| |].
  - intros y ->. reflexivity.
  - intros q v I. apply (in_map (fun q => ((100 - fst q)%Z, mir (snd q)))) in I. exact I.
Qed.
Print Assumptions C102_bounds.
(* The same with the same request: the columns q and 100 - q change places. *)
Theorem C102_same_request : forall draw n_sims n_cum q1 q2 widen a b c d l out,
  Forall (fun r => d_y r = XNaN \/ exists y, d_y r = Fin y) l ->
  get_pi draw n_sims n_cum q1 q2 widen (mkPT a b c d l) = Ok out ->
  exists out', get_pi draw n_sims n_cum q1 q2 widen (mkPT a b c d (map mirrored l)) = Ok out' /\
    Forall2 (fun p p' => p_date p' = p_date p /\ p_src p' = p_src p /\ p_actual p' = p_actual p /\ length (p_q p') = length (p_q p) /\
      (forall y, p_y p = Fin y -> p_y p' = Fin (- y)) /\
      forall q v, In (q, Fin v) (p_q p) -> In ((100 - q)%Z, Fin (- v)) (p_q p')) out out'.
Proof.
  intros draw ns nc q1 q2 w a b c d l out F E. pose proof (get_pi_recol draw ns nc q1 q2 w (mkPT a b c d (map mirrored l))) as K.
  rewrite get_pi_mir, E in K by exact F. cbn [Py.rmap rbind] in K. destruct (get_pi draw ns nc q1 q2 w (mkPT a b c d (map mirrored l))) as [out'|]; cbn [recols] in K; [|contradiction]. exists out'. split; [reflexivity|]. clear E.
  revert out' K. induction out as [|p out IH]; intros out' K; inversion K as [|p' ? r ? R Rs]; subst; constructor; [|now apply IH].
  destruct R as (Rd & Rs' & _ & Ra & Ry & Rq). unfold mirrored_row in *. cbn [p_date p_src p_actual p_y p_q] in *. repeat split; auto.
  - rewrite (Permutation_length Rq). apply map_length.
  - intros y Ey. rewrite <- Ry, Ey. reflexivity.
  - intros q v I. apply (in_map (fun q => ((100 - fst q)%Z, mir (snd q)))) in I. eapply Permutation_in; [apply Permutation_sym; exact Rq|exact I].
Qed.
Print Assumptions C102_same_request.

(* the rows of C101 with all values of the opposite sign *)
Definition c102_out (g : float -> float) (q1 q2 : Z) : res (list (float * list (Z * float))) :=
  let N := fops in
  rmap (map (fun p => (p_y p, p_q p)))
    (get_pi (fun _ a i => (a + i + i / 4)%nat) 5 (Some 2%Z) q1 q2 None
      (ex_pi_table (map (fun r => mkD (d_date r) (d_w r) (g (d_y r)) (d_model r) (d_src r) (d_long r) (d_actual r) (d_best r)) (c101_rows (fun a => a))))).
(* the quartiles of nine days; lower and upper quartiles are at different distances from the forecast *)
Example C102_example :
  c102_out (fun a => - a)%float 75 50 = rmap (map (fun p => ((- fst p)%float, map (fun q => ((100 - fst q)%Z, (- snd q)%float)) (snd p)))) (c102_out (fun a => a) 25 50) /\
  match c102_out (fun a => a) 25 50 with
  | Ok l => length (filter (fun p => match snd p with [(25, a); (75, b); (50, _)]%Z => negb (PrimFloat.eqb (fst p - a) (b - fst p)) | _ => false end) l) <> 0%nat
  | Err _ => False
  end.
Proof. split; vm_compute; [reflexivity|discriminate]. Qed.
(* a table of real numbers that meets the hypothesis *)
Example C102_hypothesis : Forall (fun r => d_y r = XNaN \/ exists y, d_y r = Fin y)
  [mkD 0 (Fin 1) (Fin 2) "actuals" "s" "s" true false; mkD 1 (Fin 1) XNaN "actuals" "s" "s" true false; mkD 0 (Fin 1) (Fin 3) "m" "s" "s" false true].
Proof. repeat (apply Forall_cons; [cbn; eauto|]). constructor. Qed.

(* ================= C33 ================= *)
(* Forecasting from a normalized table is forecasting from the table. *)
Theorem C33_forecast : forall (T : Type) (N : NumOps T) W (c : config T) id (t : raw T) f,
  normalize_df t = Ok (Some f) -> run_forecast W c id (raw_of f) = run_forecast W c id t.
Proof. intros T N. exact run_forecast_normalized. Qed.
Print Assumptions C33_forecast.
Example C33_forecast_example :
  let t := c73_two (fun _ a => a) (fun _ a => a) in
  exists f, normalize_df t = Ok (Some f) /\ map (fun r => r_src r) (rows f) <> map (fun r => r_src (q_row r)) (t_rows t) /\
    c73_out "a" (raw_of f) = c73_out "a" t.
Proof. cbv zeta. eexists. split; [vm_compute; reflexivity|]. split; [vm_compute; discriminate|vm_compute; reflexivity]. Qed.
