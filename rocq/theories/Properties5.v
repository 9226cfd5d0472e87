(* Normalisation and fitting: C32-C38. *)
From Coq Require Import ZArith String List Bool Reals PrimFloat Sorted Permutation Lia Lra.
From Verif Require Import Num Py Cal Fmt Model Base Fixed Naive Freq Aic Normalize Fit ListProofs GroupProofs NumProofs BaseProofs GuessProofs2 NormalizeProofs FitProofs Ex.
Import ListNotations.
Local Open Scope string_scope.
Local Open Scope list_scope.

(* ================= C11 (continued) ================= *)
(* the decay guess, exactly, on non-negative data: zeros give the rate -1/2 instead of -inf *)
Theorem C11_decay_guess : forall xs y0 ys yl d mult rnd,
  let l := y0 :: ys ++ [yl] in
  Forall (fun v => 0 <= v)%R l -> (exists v, In v l /\ 0 < v)%R ->
  exists r, decay_rate l r /\
    fm_init model_decay (Some (fins xs)) (Some (fins l)) d mult rnd = Ok (fins [(y0 - yl)%R; r; yl]) /\
    exists b, fm_bounds model_decay (Some (fins xs)) (Some (fins l)) d = Ok b /\
      validate_initial_guess (fins [(y0 - yl)%R; r; yl]) b = Ok true.
Proof. exact decay_guess. Qed.
Print Assumptions C11_decay_guess.
Example C11_decay_example :
  Forall (fun v => 0 <= v)%R [4; 0; 1]%R /\ decay_rate [4; 0; 1]%R (-1/2).
Proof.
  split; [repeat constructor; lra|]. exists 0%R, 4%R. cbn [In]. repeat split; auto; try (intuition lra).
  destruct (Req_EM_T 0 0); [reflexivity|congruence].
Qed.

(* ================= C32 ================= *)
(* deviation y p w: |y - p|, or |(y - p) * w| with a weight *)
Theorem C32_array_prediction : forall (T : Type) (N : NumOps T) (m : fmodel T) a_x a_y a_date p a_w act cache ys,
  call m a_x a_date p false (mkKw act cache) = Ok (Ar ys) ->
  length ys = length a_y -> (forall w, a_w = Some w -> length w = length a_y) ->
  exists rs, get_residuals p m a_x a_y a_date a_w act cache = Ok rs /\ length rs = length a_y /\
    forall i y py, nth_error a_y i = Some y -> nth_error ys i = Some py ->
      exists w, nth_opt a_w i = Some w /\ nth_error rs i = Some (deviation y py w).
Proof. exact @residuals_array. Qed.
Print Assumptions C32_array_prediction.
Theorem C32_scalar_prediction : forall (T : Type) (N : NumOps T) (m : fmodel T) a_x a_y a_date p a_w act cache c,
  call m a_x a_date p false (mkKw act cache) = Ok (Sc c) -> (forall w, a_w = Some w -> length w = length a_y) ->
  exists rs, get_residuals p m a_x a_y a_date a_w act cache = Ok rs /\ length rs = length a_y /\
    forall i y, nth_error a_y i = Some y ->
      exists w, nth_opt a_w i = Some w /\ nth_error rs i = Some (deviation y c w).
Proof. exact @residuals_scalar. Qed.
Print Assumptions C32_scalar_prediction.
Theorem C32_nonnegative : forall (y p : XR) w,
  nleb n0 (deviation y p w) = true \/ nisnan (deviation y p w) = true.
Proof. exact deviation_nonneg. Qed.
Print Assumptions C32_nonnegative.
Example C32_example :
  let _ := fops in
  call (@model_linear float fops) [0; 1; 2]%float None (Some [2; 1]%float) false (mkKw None []) = Ok (Ar [1; 3; 5]%float) /\
  get_residuals (H := fops) (Some [2; 1]%float) model_linear [0; 1; 2]%float [4; 3; -1]%float None None None [] = Ok [3; 0; 6]%float /\
  get_residuals (H := fops) (Some [2; 1]%float) model_linear [0; 1; 2]%float [4; 3; -1]%float None (Some [2; 1; 0.5]%float) None [] = Ok [6; 0; 3]%float /\
  get_residuals (H := fops) None model_null [0; 1; 2]%float [4; 3; -1]%float None (Some [2; 1; 0.5]%float) None [] = Ok [8; 3; 0.5]%float.
Proof. repeat split; vm_compute; reflexivity. Qed.

(* ================= C33 ================= *)
(* [expected t (i, q)] is the i-th input row with its date, source, y and weight, and with its own
   x, or days since the Monday of its source's first date, or its position within its source *)
Theorem C33_rows : forall (T : Type) (t : raw T), t_rows t <> [] -> t_y t = true ->
  exists rs, normalize_df t = Ok (Some (mkFrame (has_date_after t) (t_src t) (t_w t) rs)) /\
    Permutation rs (map (expected t) (enumerate (t_rows t))) /\ StronglySorted (ordered (t_src t)) rs.
Proof. exact @normalize_ok. Qed.
Print Assumptions C33_rows.
Theorem C33_empty : forall (T : Type) (t : raw T), normalize_df t = Ok None <-> t_rows t = [].
Proof. exact @normalize_none. Qed.
Print Assumptions C33_empty.
Theorem C33_missing_y : forall (T : Type) (t : raw T) e,
  normalize_df t = Err e <-> e = AssertionError /\ t_y t = false /\ t_rows t <> [].
Proof. exact @normalize_err. Qed.
Print Assumptions C33_missing_y.
Theorem C33_idempotent : forall (T : Type) (t : raw T) f,
  normalize_df t = Ok (Some f) -> normalize_df (raw_of f) = Ok (Some f).
Proof. exact @normalize_idempotent. Qed.
Print Assumptions C33_idempotent.
(* dated rows of two sources, unordered, without an x column; day 3 January 2018 is a Wednesday *)
Definition ex_raw : raw float :=
  mkTable true false false true true false
    [mkRaw 0 (mkRow (ts 2018 1 5) "b" 0 10%float 0%float); mkRaw 1 (mkRow (ts 2018 1 9) "a" 0 1%float 0%float);
     mkRaw 2 (mkRow (ts 2018 1 3) "b" 0 20%float 0%float); mkRaw 3 (mkRow (ts 2018 1 8) "a" 0 2%float 0%float)].
Example C33_example :
  let _ := fops in
  (exists f, normalize_df ex_raw = Ok (Some f) /\
     map (fun r => (r_src r, r_x r, r_y r)) (rows f) =
       [("a", 0%Z, 2%float); ("a", 1%Z, 1%float); ("b", 2%Z, 20%float); ("b", 4%Z, 10%float)] /\
     normalize_df (raw_of f) = Ok (Some f)) /\
  (* without dates: position within the source *)
  (exists f, normalize_df (mkTable true false false false true false (t_rows ex_raw)) = Ok (Some f) /\
     map (fun r => (r_src r, r_x r, r_y r)) (rows f) =
       [("a", 0%Z, 1%float); ("a", 1%Z, 2%float); ("b", 0%Z, 10%float); ("b", 1%Z, 20%float)]) /\
  normalize_df (mkTable true false false true true false (@nil (rawrow float))) = Ok None /\
  normalize_df (mkTable false false false true true false (t_rows ex_raw)) = Err AssertionError.
Proof.
  split; [eexists; repeat split; vm_compute; reflexivity|].
  split; [eexists; repeat split; vm_compute; reflexivity|]. split; vm_compute; reflexivity.
Qed.

(* ================= C34 ================= *)
Theorem C34_sources_independent : forall (T : Type) (t : raw T) f s,
  t_src t = true -> normalize_df t = Ok (Some f) -> In s (map r_src (rows f)) ->
  normalize_df (restrict t s) = Ok (Some (mkFrame (has_date f) true (has_w f) (rows_of_source f s))).
Proof. exact @normalize_by_source. Qed.
Print Assumptions C34_sources_independent.
Example C34_example :
  let _ := fops in
  length (t_rows (restrict ex_raw "b")) = 2%nat /\
  exists f, normalize_df (restrict ex_raw "b") = Ok (Some f) /\
     map (fun r => (r_src r, r_x r, r_y r)) (rows f) = [("b", 2%Z, 20%float); ("b", 4%Z, 10%float)].
Proof. split; [reflexivity|]. eexists. repeat split; vm_compute; reflexivity. Qed.

(* ================= C35 ================= *)
(* usable_rows: rows with a non-null y and, if there is a weight column, a positive weight.
   xs_of, ys_of, dates_of: the arrays built from them.  The only law used: 0 < 0 is false. *)
Theorem C35_no_usable_samples : forall (T : Type) (N : NumOps T), nltb n0 n0 = false ->
  forall score E (m : fmodel T) f freq src act uc, usable_rows f = [] ->
  fit_model_with score E m f freq src act uc = Err ValueError.
Proof. exact @fit_empty. Qed.
Print Assumptions C35_no_usable_samples.
Theorem C35_status : forall (T : Type) (N : NumOps T), nltb n0 n0 = false ->
  forall score E (m : fmodel T) f freq src act uc md,
  fit_model_with score E m f freq src act uc = Ok md ->
  (0 < length (usable_rows f))%nat /\
  (md_status md = "TS_TOO_SHORT" <-> (length (usable_rows f) < fm_n m + 2)%nat) /\
  (md_status md = "INPUT_ERR" <-> (fm_n m + 2 <= length (usable_rows f))%nat /\
                                  validate_input m (xs_of m f) (ys_of f) (dates_of f) = Ok false) /\
  (md_status md = "FIT" <-> md_fit md = true) /\
  (md_status md = "NO-FIT" <-> md_fit md = false /\ (fm_n m + 2 <= length (usable_rows f))%nat /\
                               validate_input m (xs_of m f) (ys_of f) (dates_of f) = Ok true).
Proof. exact @fit_status_cases. Qed.
Print Assumptions C35_status.
Theorem C35_too_short : forall (T : Type) (N : NumOps T), nltb n0 n0 = false ->
  forall score E (m : fmodel T) f freq src act uc,
  usable_rows f <> [] -> (length (usable_rows f) < fm_n m + 2)%nat ->
  exists md, fit_model_with score E m f freq src act uc = Ok md /\ md_status md = "TS_TOO_SHORT" /\ unfitted md.
Proof. exact @fit_short. Qed.
Print Assumptions C35_too_short.
Theorem C35_invalid : forall (T : Type) (N : NumOps T), nltb n0 n0 = false ->
  forall score E (m : fmodel T) f freq src act uc, (fm_n m + 2 <= length (usable_rows f))%nat ->
  validate_input m (xs_of m f) (ys_of f) (dates_of f) = Ok false ->
  exists md, fit_model_with score E m f freq src act uc = Ok md /\ md_status md = "INPUT_ERR" /\ unfitted md.
Proof. exact @fit_invalid. Qed.
Print Assumptions C35_invalid.
(* long and valid input: the outcome follows the optimizer run on the simplified model; a model
   without free parameters always fits; the score is that of the full series and the original
   number of parameters *)
Theorem C35_optimizer : forall (T : Type) (N : NumOps T), nltb n0 n0 = false ->
  forall score E (m : fmodel T) f freq src act uc md, (fm_n m + 2 <= length (usable_rows f))%nat ->
  validate_input m (xs_of m f) (ys_of f) (dates_of f) = Ok true ->
  fit_model_with score E m f freq src act uc = Ok md ->
  exists ms, simplify_model (e_arr E) m (Some (xs_of m f)) (Some (ys_of f)) (dates_of f) = Ok ms /\
    md_model md = fm_name ms /\
    score (md_cost md) (Z.of_nat (length (usable_rows f))) (Z.of_nat (fm_n m)) = Ok (md_aicc md) /\
    (if Nat.eqb (fm_n ms) 0 then md_fit md = true /\ md_status md = "FIT" /\ md_params md = []
     else exists cost p, optimize_least_squares E ms (xs_of m f) (ys_of f) (dates_of f) (ws_of f) act uc = Ok (md_fit md, cost, p) /\
          md_cost md = cost /\ md_status md = (if md_fit md then "FIT" else "NO-FIT") /\
          md_params md = match p with Some l => l | None => [] end).
Proof. exact @fit_valid. Qed.
Print Assumptions C35_optimizer.

(* an optimizer that returns a given answer *)
Definition ex_env {T} `{NumOps T} (o : lsq_out T) : env T :=
  mkEnv (fun _ _ _ => o) (fun _ => dec 1 2) (fun _ => "[..]") (fun _ => "#").
(* daily rows from Monday 1 January 2018 with the given values and weights *)
Definition ex_frame {T} `{NumOps T} (hw : bool) (yw : list (T * T)) : frame T :=
  mkFrame true false hw (map (fun p => mkRow (ts 2018 1 (1 + Z.of_nat (fst p))) "s" (Z.of_nat (fst p)) (fst (snd p)) (snd (snd p))) (enumerate yw)).
Definition ex_yw : list (float * float) := [(1, 1); (nan, 1); (3, 0); (2, 1); (5, 2); (4, nan); (6, 1); (7, -1); (8, 1)]%float.
Definition status_of {T} (r : res (meta T)) : res (string * bool * list T) :=
  rmap (fun md => (md_status md, md_fit md, md_params md)) r.
Example C35_example :
  let N := fops in
  let f := ex_frame (H := N) true ex_yw in
  nltb (NumOps := N) n0 n0 = false /\ length (usable_rows f) = 5%nat /\
  (* linear: 2 parameters, 5 usable samples of 9 *)
  status_of (fit_model (ex_env (LDone true 4 [1; 2])%float) model_linear f (Some "D") "s" None true) = Ok ("FIT", true, [1; 2]%float) /\
  status_of (fit_model (ex_env (LDone false 4 [1; 2])%float) model_linear f (Some "D") "s" None true) = Ok ("NO-FIT", false, [1; 2]%float) /\
  status_of (fit_model (ex_env (LRaise LinAlgError)) model_linear f (Some "D") "s" None true) = Ok ("NO-FIT", false, []) /\
  (* linear + ramp: 4 parameters need 6 samples *)
  status_of (fit_model (ex_env (LDone true 4 [1; 2])%float) (madd model_linear model_ramp) f (Some "D") "s" None true) = Ok ("TS_TOO_SHORT", false, []) /\
  (* every sample ignored *)
  fit_model (ex_env (LDone true 4 [1; 2])%float) model_linear (ex_frame true [(1, 0); (nan, 1)]%float) (Some "D") "s" None true = Err ValueError.
Proof. repeat split; vm_compute; reflexivity. Qed.

(* ================= C36 ================= *)
(* the score of a fit is only ever requested for n >= k + 2, where get_aic_c does not raise its
   length error: any score agreeing with it there gives the same fit *)
Theorem C36_length : forall (T : Type) (N : NumOps T), nltb n0 n0 = false ->
  forall s1 s2 E (m : fmodel T) f freq src act uc,
  (forall c n k, (0 <= k)%Z -> (k + 2 <= n)%Z -> s1 c n k = s2 c n k) ->
  fit_model_with s1 E m f freq src act uc = fit_model_with s2 E m f freq src act uc.
Proof. exact @fit_score_length. Qed.
Print Assumptions C36_length.
(* get_aic_c without its length check *)
Definition aic_unchecked {T} `{NumOps T} (fit_error : T) (n k : Z) : res T :=
  if neqb fit_error n0 then (if (k =? 1)%Z then Ok nninf else aic_formula tiny_error n k)
  else aic_formula fit_error n k.
Theorem C36_check_unreachable : forall (T : Type) (N : NumOps T), nltb n0 n0 = false ->
  forall E (m : fmodel T) f freq src act uc,
  fit_model E m f freq src act uc = fit_model_with aic_unchecked E m f freq src act uc.
Proof.
  intros T N Z0 E m f freq src act uc. apply (fit_score_length Z0). intros c n k Hk Hn. unfold get_aic_c, aic_unchecked.
  replace ((n <=? k + 1) || (n =? 0))%Z with false; [reflexivity|].
  symmetry. apply orb_false_iff. split; [apply Z.leb_gt; lia|apply Z.eqb_neq; lia].
Qed.
Print Assumptions C36_check_unreachable.
Example C36_example :
  let N := fops in
  (* the check does matter below that length *)
  get_aic_c (H := N) 1%float 3 2 = Err ValueError /\ is_ok (aic_unchecked (H := N) 1%float 3 2) = true /\
  is_ok (fit_model (ex_env (LDone true 4 [1; 2])%float) model_linear (ex_frame false [(1, 0); (2, 0); (3, 0); (5, 0)]%float) None "s" None true) = true.
Proof. repeat split; vm_compute; reflexivity. Qed.

(* ================= C37 ================= *)
(* forget: drop the label of the weight range *)
Theorem C37_ignored_samples : forall (T : Type) (N : NumOps T), nltb n0 n0 = false ->
  forall score E (m : fmodel T) f freq src act uc,
  rmap forget (fit_model_with score E m f freq src act uc) =
  rmap forget (fit_model_with score E m (usable_frame f) freq src act uc).
Proof. exact @fit_filter. Qed.
Print Assumptions C37_ignored_samples.
Theorem C37_null_values : forall (T : Type) (N : NumOps T), nltb n0 n0 = false ->
  forall score E (m : fmodel T) f freq src act uc, has_w f = false ->
  fit_model_with score E m f freq src act uc = fit_model_with score E m (usable_frame f) freq src act uc.
Proof. exact @fit_filter_no_weights. Qed.
Print Assumptions C37_null_values.
Example C37_example :
  let N := fops in
  let f := ex_frame (H := N) true ex_yw in
  length (rows f) = 9%nat /\ map r_y (rows (usable_frame f)) = [1; 2; 5; 6; 8]%float /\
  let label E := match fit_model E model_linear f (Some "D") "s" None true with Ok md => md_weights md | Err _ => "" end in
  let label' E := match fit_model E model_linear (usable_frame f) (Some "D") "s" None true with Ok md => md_weights md | Err _ => "" end in
  let E := mkEnv (fun _ _ _ => LDone true 4 [1; 2])%float (fun _ => 0.5)%float (fun _ => "")
             (fun a => if eqb a (-1) then "-1.0" else if eqb a 1 then "1.0" else if eqb a 2 then "2.0" else "?")%float in
  (* the recorded label does change *)
  label E = "-1.0-2.0" /\ label' E = "1.0-2.0".
Proof. repeat split; vm_compute; reflexivity. Qed.

(* ================= C38 ================= *)
(* samples_at f x: usable rows at x *)
Theorem C38_shared_weight : forall (T : Type) (N : NumOps T), nltb n0 n0 = false ->
  forall f : frame T, ~ NoDup (map r_x (usable_rows f)) ->
  ws_of f = Some (map (fun r => ndiv (if has_w f then r_w r else n1)
                                     (nofZ (Z.of_nat (length (samples_at f (r_x r)))))) (usable_rows f)).
Proof. exact @ws_dup. Qed.
Print Assumptions C38_shared_weight.
Theorem C38_distinct : forall (T : Type) (N : NumOps T), nltb n0 n0 = false ->
  forall f : frame T, NoDup (map r_x (usable_rows f)) ->
  ws_of f = if has_w f then Some (map r_w (usable_rows f)) else None.
Proof. exact @ws_nodup. Qed.
Print Assumptions C38_distinct.
Theorem C38_unit_total : forall (f : frame XR) x,
  (forall r, In r (usable_rows f) -> has_w f = true -> r_w r = Fin 1) -> In x (map r_x (usable_rows f)) ->
  ~ NoDup (map r_x (usable_rows f)) -> weight_sum_at f x = Fin 1.
Proof. exact unit_weights. Qed.
Print Assumptions C38_unit_total.
Definition ex_repeated : frame float :=
  mkFrame false false false [mkRow 0 "" 0 1%float 0%float; mkRow 0 "" 1 2%float 0%float; mkRow 0 "" 1 3%float 0%float; mkRow 0 "" 1 nan%float 0%float; mkRow 0 "" 2 5%float 0%float].
Example C38_example :
  let N := fops in
  map r_x (usable_rows ex_repeated) = [0; 1; 1; 2]%Z /\
  ws_of (H := N) ex_repeated = Some [1; 0.5; 0.5; 1]%float.
Proof. split; vm_compute; reflexivity. Qed.
Example C38_unit_example :
  let f := mkFrame false false true [mkRow 0 "" 4 (Fin 1) (Fin 1); mkRow 0 "" 4 (Fin 2) (Fin 1)] in
  ~ NoDup (map r_x (rows f)) /\ (forall r, In r (rows f) -> r_w r = Fin 1).
Proof.
  cbn. split; [|intros r [<-|[<-|[]]]; reflexivity].
  intros N. inversion N as [|? ? A]. apply A. now left.
Qed.
