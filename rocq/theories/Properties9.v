(* Properties C60 onwards: automatic composition. *)
From Coq Require Import ZArith String List Bool Reals QArith_base Floats.
From Verif Require Import Num Py Cal Model Base Naive Freq Normalize Fit Select Stats SelectProofs StatsProofs Ex.
Import ListNotations.
Local Open Scope string_scope.
Local Open Scope list_scope.
Local Open Scope Z_scope.

(* ---------- C60: which composition 'auto' chooses ---------- *)
Theorem C60_choice : forall (E : env XR) f d a b, ~ must_add f -> Forall (fun r => finite_or_null (r_y r)) (rows f) ->
  fit_model E model_linear f (Some "W") "test" None true = Ok d -> md_params d = [Fin a; Fin b] ->
  exists m, is_multiplicative (mult_corr E) f = Ok m /\ (m = true <-> correlated (8 / 10) (month_stats a b (points f))).
Proof. exact choice. Qed.
Print Assumptions C60_choice.

Theorem C60_line : forall (E : env XR) f d a b, Forall (fun r => finite_or_null (r_y r)) (rows f) ->
  fit_model E model_linear f (Some "W") "test" None true = Ok d -> md_params d = [Fin a; Fin b] ->
  (forall r v, In r (rows f) -> r_y r = Fin v -> v = (a * IZR (r_x r) + b)%R) ->
  is_multiplicative (mult_corr E) f = Ok false.
Proof. exact choice_line. Qed.
Print Assumptions C60_line.

Theorem C60_scale : forall (E1 E2 : env XR) f d1 d2 a b c, (0 < c)%R -> Forall (fun r => finite_or_null (r_y r)) (rows f) ->
  fit_model E1 model_linear f (Some "W") "test" None true = Ok d1 -> md_params d1 = [Fin a; Fin b] ->
  fit_model E2 model_linear (scale_y c f) (Some "W") "test" None true = Ok d2 -> md_params d2 = [Fin (c * a); Fin (c * b)] ->
  is_multiplicative (mult_corr E2) (scale_y c f) = is_multiplicative (mult_corr E1) f.
Proof. exact choice_scale. Qed.
Print Assumptions C60_scale.

Theorem C60_failure : forall (T : Type) (N : NumOps T) (E : env T) f d, ~ must_add f ->
  fit_model E model_linear f (Some "W") "test" None true = Ok d -> md_params d = [] ->
  is_multiplicative (mult_corr E) f = Err ValueError.
Proof. exact @choice_failure. Qed.
Print Assumptions C60_failure.

(* [month_no], used by [month_stats], numbers the calendar months *)
Theorem C60_bins : forall t t', (month_no t = month_no t' <-> year t = year t' /\ month t = month t') /\
  (month_no t' = month_no t + 1 <-> (year t' = year t /\ month t' = month t + 1) \/ (year t' = year t + 1 /\ month t' = 1 /\ month t = 12)).
Proof. exact month_no_spec. Qed.
Print Assumptions C60_bins.
Example C60_bins_example : month_no (ts 2018 12 31) + 1 = month_no (ts 2019 1 1) /\ month_no (ts 2018 1 1) <> month_no (ts 2019 1 1).
Proof. vm_compute. split; [reflexivity|discriminate]. Qed.

Definition c60_env {T} `{NumOps T} (o : lsq_out T) : env T :=
  mkEnv (fun _ _ _ => o) (fun _ => dec 1 2) (fun _ => "[..]") (fun _ => "#").
(* four months, three samples each; x counts days from 2018-01-01 *)
Definition c60_frame {T} (ys : list T) (w : T) : frame T :=
  mkFrame true false false
    (map (fun p => let t := ts 2018 (1 + Z.of_nat (fst p) / 3) (1 + 10 * (Z.of_nat (fst p) mod 3)) in
                   mkRow t "s" ((t - ts 2018 1 1) / DAY) (snd p) w) (enumerate ys)).
(* swings of the size of the level: multiplicative *)
Example C60_mult_example : let N := fops in
  let f := c60_frame [8; 10; 12; 16; 20; 24; 24; 30; 36; 32; 40; 48]%float 1%float in
  is_multiplicative (mult_corr (c60_env (LDone true 1%float [0.375; 10]%float))) f = Ok true.
Proof. vm_compute. reflexivity. Qed.
(* swings of constant size: additive *)
Example C60_add_example : let N := fops in
  let f := c60_frame [8; 10; 12; 18; 20; 22; 28; 30; 32; 38; 40; 42]%float 1%float in
  is_multiplicative (mult_corr (c60_env (LDone true 1%float [0.375; 10]%float))) f = Ok false.
Proof. vm_compute. reflexivity. Qed.
(* the fit meets the hypotheses of C60_choice; samples without a value are skipped *)
Example C60_fit_example : let N := fops in
  let f := c60_frame [8; 10; nan; 16; 20; 24; 24; 30; 36; 32; 40; 48]%float 1%float in
  match fit_model (c60_env (LDone true 1%float [0.375; 10]%float)) model_linear f (Some "W") "test" None true with
  | Ok d => md_params d = [0.375; 10]%float
  | Err _ => False
  end /\
  is_multiplicative (mult_corr (c60_env (LDone true 1%float [0.375; 10]%float))) f = Ok true.
Proof. vm_compute. split; reflexivity. Qed.
(* samples on the line 2 x + 1, fitted exactly *)
Example C60_line_example : let N := fops in
  let f := c60_frame [1; 21; 41; 63; 83; 103; 119; 139; 159; 181; 201; 221]%float 1%float in
  map (fun r => r_x r) (rows f) = [0; 10; 20; 31; 41; 51; 59; 69; 79; 90; 100; 110] /\
  is_multiplicative (mult_corr (c60_env (LDone true 1%float [2; 1]%float))) f = Ok false.
Proof. vm_compute. split; reflexivity. Qed.
(* doubling the data and the fitted line *)
Example C60_scale_example : let N := fops in
  let f := c60_frame [16; 20; 24; 32; 40; 48; 48; 60; 72; 64; 80; 96]%float 1%float in
  is_multiplicative (mult_corr (c60_env (LDone true 1%float [0.75; 20]%float))) f = Ok true.
Proof. vm_compute. reflexivity. Qed.
Example C60_failure_example : let N := fops in
  let f := c60_frame [8; 10; 12; 16; 20; 24; 24; 30; 36; 32; 40; 48]%float 1%float in
  is_multiplicative (mult_corr (c60_env (LRaise LinAlgError))) f = Err ValueError.
Proof. vm_compute. reflexivity. Qed.
(* a month with a single sample does not count: with it, the correlation would be different *)
Example C60_single_example : let N := fops in
  mult_corr (c60_env (LDone true 1%float [0; 0]%float)) (c60_frame [1; 2; 3; 2; 4; 6; 100]%float 1%float) = Ok 1%float /\
  mult_corr (c60_env (LDone true 1%float [0; 0]%float)) (c60_frame [1; 2; 3; 2; 4; 6; 100; 100]%float 1%float) = Ok (-0x1.5c5d64694839ep-1)%float.
Proof. vm_compute. split; reflexivity. Qed.
