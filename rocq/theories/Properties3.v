(* Naive models: C20, C21. *)
From Coq Require Import ZArith String List Bool Reals PrimFloat Sorted.
From Verif Require Import Num Py Cal Model Naive NaiveProofs SnaiveProofs Ex.
Import ListNotations.
Local Open Scope string_scope.
Local Open Scope list_scope.

(* ================= C20 ================= *)
(* naive_spec: the last non-null actual strictly before the position; if there is none, the
   earliest non-null actual (unless nothing at all lies after that one, then null).  One value per
   requested position.  The carrier has to represent the positions faithfully. *)
Theorem C20_naive : forall (T : Type) (N : NumOps T), nisnan (nnan : T) = true ->
  forall (df : frame T) zs a_date p mode,
    exact_ints (T:=T) (map r_x (rows df) ++ zs) -> NoDup (map r_x (rows df)) -> StronglySorted Z.lt zs ->
    dates_agree df zs a_date ->
    exists out, fm_f model_naive (map nofZ zs) a_date p mode (mkKw (Some df) []) = Ok (Ar out) /\
      Forall2 (naive_spec (rows df) zs) zs out.
Proof. exact @naive_correct. Qed.
Print Assumptions C20_naive.
(* real numbers are such a carrier, for all positions *)
Theorem C20_reals_faithful : forall zs, exact_ints (T:=XR) zs /\ nisnan (nnan : XR) = true.
Proof. intros zs. split; [apply xr_exact_ints|reflexivity]. Qed.
Print Assumptions C20_reals_faithful.
(* beyond the actuals: the last non-null actual, whatever the position *)
Theorem C20_beyond_actuals : forall (T : Type) (N : NumOps T) (A : list (row T)) zs z v r,
  naive_spec A zs z v -> (forall r', In r' A -> (r_x r' < z)%Z) ->
  In r A -> nn (r_y r) -> (forall r', In r' A -> (r_x r < r_x r')%Z -> null (r_y r')) ->
  NoDup (map r_x A) -> v = r_y r.
Proof. exact @naive_beyond. Qed.
Print Assumptions C20_beyond_actuals.
Theorem C20_needs_actuals : forall (T : Type) (N : NumOps T) a_x a_date p mode,
  fm_f (T:=T) model_naive a_x a_date p mode (mkKw None []) = Err ValueError.
Proof. exact @naive_needs_actuals. Qed.
Print Assumptions C20_needs_actuals.

Definition c20_df {T} `{NumOps T} : frame T :=
  mkFrame false false false
    (map (fun q => mkRow 0 "" (fst q) (snd q) n1)
       [(0%Z, nnan); (1%Z, nofZ 5); (2%Z, nnan); (4%Z, nofZ 7)]).
Example C20_example :
  let _ := fops in
  (* positions 0..6: nothing before 1, so the earliest actual; then carried forward *)
  (match call model_naive [0; 1; 2; 3; 4; 5; 6]%float None None false (mkKw (Some c20_df) []) with
   | Ok (Ar l) => l | _ => [] end) = [5; 5; 5; 5; 5; 7; 7]%float /\
  (* the hypotheses of C20_naive hold for this call *)
  exact_ints (T:=XR) (map r_x (rows (T:=XR) c20_df) ++ [0; 1; 2; 3; 4; 5; 6]%Z) /\
  StronglySorted Z.lt [0; 1; 2; 3; 4; 5; 6]%Z /\ dates_agree (T:=XR) c20_df [0; 1; 2; 3; 4; 5; 6]%Z None.
Proof.
  split; [vm_compute; reflexivity|]. split; [apply xr_exact_ints|]. split; [|reflexivity].
  repeat constructor.
Qed.
(* with a repeated position the second sample at x = 1 is predicted by the actual at x = 1 itself *)
Definition c20_dup {T} `{NumOps T} : frame T :=
  mkFrame false false false (map (fun q => mkRow 0 "" (fst q) (nofZ (snd q)) n1) [(0, 5); (1, 6); (2, 7)]%Z).
Theorem C20_repeated_position_refuted :
  let _ := fops in
  (match call model_naive [0; 1; 1; 2]%float None None false (mkKw (Some c20_dup) []) with
   | Ok (Ar l) => l | _ => [] end) = [5; 5; 6; 6]%float.
Proof. vm_compute. reflexivity. Qed.
Print Assumptions C20_repeated_position_refuted.
(* a lone actual is not used at its own position *)
Theorem C20_lone_actual_is_null : forall (T : Type) (N : NumOps T), nisnan (nnan : T) = true ->
  forall r z v, naive_spec (T:=T) [r] [z] z v -> r_x r = z -> v = nnan.
Proof.
  intros T N Hn r z v S E. destruct S as [(r0 & [<-|[]] & Hlt & _)|(_ & [(r0 & [[<-|[]] _] & _ & u & Hu & Hlt)|(_ & ->)])].
  - exfalso. rewrite E in Hlt. exact (Z.lt_irrefl _ Hlt).
  - exfalso. cbn in Hu. destruct Hu as [[Hu|[]]|[Hu|[]]]; subst; exact (Z.lt_irrefl _ Hlt).
  - reflexivity.
Qed.
Print Assumptions C20_lone_actual_is_null.

(* ================= C21 ================= *)
(* snaive_in: last non-null actual of an earlier sample on the same weekday, null if none;
   snaive_out: last non-null actual on the weekday.  Requested dates found among the actuals come
   first, then the others, each group in order of position. *)
Theorem C21_snaive : forall (T : Type) (N : NumOps T), nisnan (nnan : T) = true ->
  forall (df : frame T) ds zs p mode,
    has_date df = true -> sorted_x (rows df) ->
    exact_ints (T:=T) (map r_x (rows df) ++ zs) -> length ds = length zs -> StronglySorted Z.lt zs ->
    consistent (rows df) (combine ds zs) ->
    let known := filter (fun q => in_dates (rows df) (fst q)) (combine ds zs) in
    let fresh := filter (fun q => negb (in_dates (rows df) (fst q))) (combine ds zs) in
    exists o1 o2,
      fm_f model_snaive_wday (map nofZ zs) (Some ds) p mode (mkKw (Some df) []) = Ok (Ar (o1 ++ o2)) /\
      Forall2 (fun q v => snaive_in (rows df) (fst q) (snd q) v) known o1 /\
      Forall2 (fun q v => snaive_out (rows df) (fst q) v) fresh o2.
Proof. exact @snaive_correct. Qed.
Print Assumptions C21_snaive.
(* requests that extend the actuals: values line up with the requested dates *)
Theorem C21_in_order : forall (T : Type) (N : NumOps T), nisnan (nnan : T) = true ->
  forall (df : frame T) ds zs k p mode,
    has_date df = true -> sorted_x (rows df) ->
    exact_ints (T:=T) (map r_x (rows df) ++ zs) -> length ds = length zs -> StronglySorted Z.lt zs ->
    consistent (rows df) (combine ds zs) ->
    Forall (fun t => in_dates (rows df) t = true) (firstn k ds) ->
    Forall (fun t => in_dates (rows df) t = false) (skipn k ds) ->
    exists out,
      fm_f model_snaive_wday (map nofZ zs) (Some ds) p mode (mkKw (Some df) []) = Ok (Ar out) /\
      Forall2 (fun q v => if in_dates (rows df) (fst q) then snaive_in (rows df) (fst q) (snd q) v
                          else snaive_out (rows df) (fst q) v) (combine ds zs) out.
Proof. exact @snaive_extends. Qed.
Print Assumptions C21_in_order.
Definition c21_df {T} `{NumOps T} : frame T :=
  mkFrame true false false
    (map (fun i => mkRow (nth i (jan2018 10) 0%Z) "" (Z.of_nat i)
                     (if Nat.eqb i 8 then nnan else nofZ (Z.of_nat i)) n1) (seq 0 10)).
Example C21_example :
  let _ := fops in
  (match call model_snaive_wday (map nofZ (map Z.of_nat (seq 7 10))) (Some (skipn 7 (jan2018 17))) None false
           (mkKw (Some c21_df) []) with
   | Ok (Ar l) => l | _ => [] end) = [0; 1; 2; 3; 4; 5; 6; 7; 1; 9]%float /\
  existsb (Z.eqb (ts 2018 1 10)) (map r_date (rows (T:=float) c21_df)) = true /\
  existsb (Z.eqb (ts 2018 1 11)) (map r_date (rows (T:=float) c21_df)) = false.
Proof. vm_compute. auto. Qed.
(* a gap in the actuals: the requested gap date comes out last, so values are out of order *)
Definition c21_gap {T} `{NumOps T} : frame T :=
  mkFrame true false false
    (map (fun i => mkRow (nth i (jan2018 10) 0%Z) "" (Z.of_nat i) (nofZ (Z.of_nat i)) n1) [0; 1; 2; 3; 4; 5; 6; 7; 9]%nat).
Theorem C21_gap_out_of_order_refuted :
  let _ := fops in
  (match call model_snaive_wday (map nofZ (map Z.of_nat (seq 7 3))) (Some (skipn 7 (jan2018 10))) None false
           (mkKw (Some c21_gap) []) with
   | Ok (Ar l) => l | _ => [] end) = [0; 2; 1]%float.
Proof. vm_compute. reflexivity. Qed.
Print Assumptions C21_gap_out_of_order_refuted.
