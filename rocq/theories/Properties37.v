(* Tables with several series, series by series: more about C41, C43, C88 and C90. *)
From Coq Require Import ZArith String List Bool Reals PrimFloat QArith_base.
From Verif Require Import Num Py Cal Fmt Model Base Naive Freq Normalize Fixed Fit Interp Select Outliers Pi Forecast.
From Verif Require Import ListProofs NumProofs BaseProofs InterpProofs NormalizeProofs FitProofs ForecastProofs ForecastProofs2 PiProofs HorizonProofs HorizonRunProofs BoundProofs SourceProofs Ex Properties7.
Import ListNotations.
Local Open Scope string_scope.
Local Open Scope list_scope.

(* ================= C43 ================= *)
(* [part s r]: the rows of series s of the three tables of r, in order *)
Theorem C43_part : forall (T : Type) (N : NumOps T) (W : string -> world T) c id t f r s,
  t_src t = true -> normalize_df t = Ok (Some f) -> run_forecast W c id t = Ok (Some r) -> In s (sorted_sources t) ->
  run_forecast W c id (restrict t s) = Ok (Some (part s r)).
Proof. exact @restrict_part. Qed.
Print Assumptions C43_part.
Theorem C43_single : forall (T : Type) (N : NumOps T) (W : string -> world T) c id t f r s,
  t_src t = true -> normalize_df t = Ok (Some f) -> run_forecast W c id t = Ok (Some r) -> In s (sorted_sources t) ->
  run_forecast_single (W s) c s (series_of f s) = Ok (part s r).
Proof. exact @run_part. Qed.
Print Assumptions C43_single.
(* and there are no rows of other series *)
Theorem C43_absent : forall (T : Type) (N : NumOps T) (W : string -> world T) c id t r s,
  t_src t = true -> run_forecast W c id t = Ok (Some r) -> ~ In s (sorted_sources t) -> part s r = mkResult [] [] [].
Proof. exact @part_none. Qed.
Print Assumptions C43_absent.
Example C43_part_example :
  let N := fops in
  let W (s : string) := ex_world (T := float) (LDone true 40%float [5%float]) (LDone true 1%float [if String.eqb s "a" then 2%float else 3%float; 1%float]) in
  let c := ex_cfg (T := float) [model_linear] in
  let t := ex_two [1; 3; 5; 8; 9; 11]%float [1; 4; 7; 10; 13; 15]%float in
  let pi (r : res (option (result float))) := match r with Ok (Some r) => map (fun p => (p_src p, p_y p, p_q p)) (rs_forecast r) | _ => [] end in
  let pi_of s (r : res (option (result float))) := match r with Ok (Some r) => map (fun p => (p_src p, p_y p, p_q p)) (rs_forecast (part s r)) | _ => [] end in
  length (pi (run_forecast W c "x" t)) = 38%nat /\ length (pi_of "a" (run_forecast W c "x" t)) = 19%nat /\
  pi_of "a" (run_forecast W c "x" t) = pi (run_forecast W c "x" (restrict t "a")) /\
  pi_of "b" (run_forecast W c "x" t) = pi (run_forecast W c "x" (restrict t "b")) /\
  pi_of "x" (run_forecast W c "x" t) = [].
Proof. split; [|split; [|split; [|split]]]; vm_compute; reflexivity. Qed.

(* ================= C41 ================= *)
(* every series has its own best fit *)
Theorem C41_sources : forall (T : Type) (N : NumOps T) (W : string -> world T) c id t f r s, (forall s, sorts (W s)) ->
  t_src t = true -> normalize_df t = Ok (Some f) -> run_forecast W (set_all true c) id t = Ok (Some r) -> In s (sorted_sources t) ->
  let own := filter (fun m => String.eqb (md_source (m_meta m)) s) (rs_meta r) in
  let rows := filter (fun d => String.eqb (d_src d) s) (rs_data r) in
  ((forall m, In m own -> md_fit (m_meta m) = false) /\ (forall m, In m own -> m_best m = false) /\ (forall d, In d rows -> d_best d = false)) \/
  (exists b, In b own /\ md_fit (m_meta b) = true /\ m_best b = true /\
     (forall m, In m own -> md_fit (m_meta m) = true -> no_worse (m_meta b) (m_meta m)) /\
     (forall m, In m own -> (m_best m = true <-> same_fit (m_meta m) (m_meta b))) /\
     (forall d, In d rows -> (d_best d = true <-> belongs d (m_meta b)))).
Proof.
  intros T N W c id t f r s So Hs En Er Hi. exact (best_unique_minimal (W s) c s _ _ (So s) (run_part W (set_all true c) id t f r s Hs En Er Hi)).
Qed.
Print Assumptions C41_sources.
Example C41_sources_example :
  let N := fops in
  let W (s : string) := ex_world (T := float) (LDone true (if String.eqb s "a" then 40%float else 1%float) [5%float]) (LDone true (if String.eqb s "a" then 1%float else 40%float) [2%float; 1%float]) in
  let c := ex_cfg (T := float) [model_linear; model_constant] in
  let t := ex_two [1; 3; 5; 8; 9; 11]%float [5; 4; 6; 5; 6; 4]%float in
  match run_forecast W c "x" t with Ok (Some r) => map (fun m => (md_source (m_meta m), md_model (m_meta m), m_best m)) (rs_meta r) | _ => [] end =
    [("a", "constant", false); ("a", "linear", true); ("b", "constant", true); ("b", "linear", false)].
Proof. vm_compute. reflexivity. Qed.

(* ================= C88 ================= *)
Theorem C88_sources : forall (T : Type) (N : NumOps T) (W : string -> world T) c id t f (y y' : Q) r r' s, (0 < y)%Q -> (y <= y')%Q ->
  t_src t = true -> normalize_df t = Ok (Some f) -> In s (sorted_sources t) ->
  run_forecast W (ForecastProofs.set_all true (set_years y c)) id t = Ok (Some r) ->
  run_forecast W (ForecastProofs.set_all true (set_years y' c)) id t = Ok (Some r') ->
  exists f1 mode ms best, prepared c (series_of f s) = Ok f1 /\ final_mode (W s) c (with_weights f1) = Ok mode /\
    ms = all_models c mode (detect_freq_frame (series_of f s)) (fst (candidate_lists c (with_weights f1))) (snd (candidate_lists c (with_weights f1))) /\
    (forall d, In d (rs_data r) -> d_src d = s -> d_best d = true -> d_actual d = false -> d_model d = best) /\
    (NoDup (map fm_name ms) -> (forall m, In m ms -> fm_name m = best -> causal m) ->
      (exists rest, shown_rows (rs_data (part s r')) = shown_rows (rs_data (part s r)) ++ rest /\
         forall d a, In d rest -> In a (rs_data r) -> d_src a = s -> d_actual a = true -> (d_date a < d_date d)%Z) /\
      continued (rs_data (part s r)) (rs_forecast (part s r)) (rs_forecast (part s r'))).
Proof.
  intros T N W c id t f y y' r r' s Py Py' Hs En Hi E E'.
  destruct (run_longer_pi _ _ _ _ _ _ _ _ Py Py' (run_part _ _ _ _ _ _ s Hs En E Hi) (run_part _ _ _ _ _ _ s Hs En E' Hi))
    as (f1 & mode & ms & best & A & B & C & D & F).
  assert (K : forall d, In d (rs_data r) -> d_src d = s -> In d (rs_data (part s r))).
  { intros d I J. apply filter_In. split; [exact I|]. now apply String.eqb_eq. }
  exists f1, mode, ms, best. split; [exact A|]. split; [exact B|]. split; [exact C|]. split.
  - intros d I J. apply D. now apply K.
  - intros Nd Ca. destruct (F Nd Ca) as ((rest & E1 & E2) & Co). split; [|exact Co]. exists rest. split; [exact E1|].
    intros d a Id Ia Sa. apply E2; [exact Id|now apply K].
Qed.
Print Assumptions C88_sources.
Definition c88_two (y : Q) : res (option (result float)) :=
  let N := fops in
  run_forecast (fun s => ex_world (T := float) (LDone true 40%float [5%float]) (LDone true 1%float [if String.eqb s "a" then 2%float else 3%float; 1%float]))
    (set_years y (ex_cfg (T := float) [model_linear])) "x" (ex_two [1; 3; 5; 8; 9; 11]%float [1; 4; 7; 10; 13; 15]%float).
Definition c88_rows (s : string) (r : res (option (result float))) : list float :=
  match r with Ok (Some r) => map d_y (shown_rows (rs_data (part s r))) | _ => [] end.
Example C88_sources_example :
  let N := fops in
  c88_rows "a" (c88_two (7 # 365)) = firstn (length (c88_rows "a" (c88_two (7 # 365)))) (c88_rows "a" (c88_two (14 # 365))) /\
  c88_rows "b" (c88_two (7 # 365)) = firstn (length (c88_rows "b" (c88_two (7 # 365)))) (c88_rows "b" (c88_two (14 # 365))) /\
  length (c88_rows "a" (c88_two (7 # 365))) = 19%nat /\ length (c88_rows "a" (c88_two (14 # 365))) = 26%nat.
Proof. split; [|split; [|split]]; vm_compute; reflexivity. Qed.

(* ================= C90 ================= *)
Theorem C90_sources : forall (W : string -> world XR) c id t f r s lo hi,
  t_src t = true -> normalize_df t = Ok (Some f) -> run_forecast W c id t = Ok (Some r) -> In s (sorted_sources t) ->
  let table := interval_table (series_of f s) (part s r) in
  finite_table table -> has_error table -> errors_within lo hi table ->
  exists n_cum step last acts pas fut,
    match c_ncum c with Some n => Ok n | None => days_from_freq (c_widen c) end = Ok n_cum /\
    step_of table n_cum = Ok step /\ zmax_opt (map fst (actuals_of table)) = Some last /\
    filter (fun p => String.eqb (p_src p) s) (rs_forecast r) = acts ++ pas ++ fut /\ layout table last acts pas fut /\
    (forall p, In p acts -> p_q p = []) /\
    (forall p, In p pas -> reach (lo - hi) (hi - lo) 1 p) /\
    (forall i p, nth_error fut i = Some p -> reach (lo - hi) (hi - lo) (i / step + 2) p).
Proof.
  intros W c id t f r s lo hi Hs En Er Hi table F H B.
  exact (run_errors (W s) c s (series_of f s) (part s r) lo hi (run_part W c id t f r s Hs En Er Hi) F H B).
Qed.
Print Assumptions C90_sources.
(* a: errors 0, once 1; b: errors 0, once -1.  No bound is farther than 2 from its forecast. *)
Definition c90_beyond (k : float) (s : string) (r : res (option (result float))) : nat :=
  match r with
  | Ok (Some r) => length (filter (fun p : prow float => existsb (fun qv => PrimFloat.ltb k (PrimFloat.abs (PrimFloat.sub (snd qv) (p_y p)))) (p_q p)) (rs_forecast (part s r)))
  | _ => 0%nat end.
Example C90_sources_example :
  map (fun s => map (fun k => c90_beyond k s (c88_two (7 # 365))) [0; 0.5; 1; 2]%float) ["a"; "b"] = [[13; 8; 1; 0]; [13; 8; 1; 0]]%nat.
Proof. vm_compute. reflexivity. Qed.
