(* Optional columns of the input table: C91. *)
From Coq Require Import ZArith String List Bool PrimFloat QArith_base Permutation Reals.
From Verif Require Import Num Py Cal Fmt Model Base Dummy Fixed Naive Freq Normalize Aic Fit Select Pi Forecast.
From Verif Require Import NormalizeProofs ForecastProofs2 ShiftProofs CacheRunProofs RenameProofs DefaultProofs Ex Properties7.
Import ListNotations.
Local Open Scope string_scope.
Local Open Scope list_scope.

(* ================= C91 ================= *)
(* [meaning t]: the rows of t, in their order, each with its date (column, else index) and its
   position (column, else days since the Monday before the first row of its series, else rank
   within its series). *)
Theorem C91_same : forall (T : Type) (N : NumOps T) (W : string -> world T) (c : config T) id (t t' : raw T),
  t_y t' = t_y t -> t_w t' = t_w t -> t_src t' = t_src t -> has_date_after t' = has_date_after t -> meaning t' = meaning t ->
  normalize_df t' = normalize_df t /\ run_forecast W c id t' = run_forecast W c id t.
Proof.
  intros T N W c id t t' E1 E2 E3 E4 E5. pose proof (same_meaning t t' E1 E2 E3 E4 E5) as E. split; [exact E|]. unfold run_forecast. now rewrite E.
Qed.
Print Assumptions C91_same.
(* Dates in the index: the same as a date column with these dates.  Where both exist the column is
   used ([date_column t] contains the dates of the column then). *)
Theorem C91_dates : forall (T : Type) (N : NumOps T) (W : string -> world T) (c : config T) id (t : raw T), has_date_after t = true ->
  normalize_df (date_column t) = normalize_df t /\ run_forecast W c id (date_column t) = run_forecast W c id t.
Proof.
  intros T N W c id t D. pose proof (dates_anywhere t D) as E. split; [exact E|]. unfold run_forecast. now rewrite E.
Qed.
Print Assumptions C91_dates.
(* No position column: the same as a column with the positions of [qx]. *)
Theorem C91_positions : forall (T : Type) (N : NumOps T) (W : string -> world T) (c : config T) id (t : raw T),
  normalize_df (x_column t) = normalize_df t /\ run_forecast W c id (x_column t) = run_forecast W c id t.
Proof.
  intros T N W c id t. pose proof (positions_derived t) as E. split; [exact E|]. unfold run_forecast. now rewrite E.
Qed.
Print Assumptions C91_positions.
(* No weight column: the same as a column of ones, up to the text that describes the weights: the
   column 'weights' of the metadata, and the source_long of the actuals ([unlabelled] clears both, and
   the is_best_fit flag of actuals). *)
Theorem C91_weights : forall (T : Type) (N : NumOps T) (W : string -> world T) (c : config T) id (t : raw T),
  t_w t = false -> c_outliers c = false \/ (nmul n1 n0 = n0 /\ nmul n1 n1 = n1) ->
  Py.rmap (option_map unlabelled) (run_forecast W c id (ones t)) = Py.rmap (option_map unlabelled) (run_forecast W c id t).
Proof. exact @weights_default. Qed.
Print Assumptions C91_weights.
(* With outlier handling the texts agree as well. *)
Theorem C91_weights_outliers : forall (T : Type) (N : NumOps T) (W : string -> world T) (c : config T) id (t : raw T),
  t_w t = false -> c_outliers c = true -> nmul n1 n0 = n0 -> nmul n1 n1 = n1 ->
  run_forecast W c id (ones t) = run_forecast W c id t.
Proof. exact @weights_default_same. Qed.
Print Assumptions C91_weights_outliers.
(* No source column: the same as a column that contains source_id everywhere, for models that do not
   read the source column of the actuals themselves. *)
Theorem C91_source : forall (T : Type) (N : NumOps T) (W : string -> world T) (c : config T) id a (t : raw T),
  t_src t = false -> nameless_cfg c -> run_forecast W c id (sourced a t) = run_forecast W c a t.
Proof. exact @source_default. Qed.
Print Assumptions C91_source.

(* ---- the constructions do what their names say ---- *)
Theorem C91_columns : forall (T : Type) (N : NumOps T) a (t : raw T),
  (t_date (date_column t) = true /\ t_dtindex (date_column t) = false /\ map (fun q => r_date (q_row q)) (t_rows (date_column t)) = map (qdate t) (t_rows t)) /\
  (t_x (x_column t) = true /\ map (fun q => r_x (q_row q)) (t_rows (x_column t)) = map (fun iq => qx t (fst iq) (snd iq)) (enumerate (t_rows t))) /\
  (t_w (ones t) = true /\ Forall (fun q => r_w (q_row q) = n1) (t_rows (ones t))) /\
  (t_src (sourced a t) = true /\ Forall (fun q => r_src (q_row q) = a) (t_rows (sourced a t))) /\
  Forall (fun u => map (fun q => r_y (q_row q)) (t_rows u) = map (fun q => r_y (q_row q)) (t_rows t)) [date_column t; x_column t; ones t; sourced a t].
Proof.
  intros T N a t. split; [|split; [|split; [|split]]].
  - split; [reflexivity|]. split; [reflexivity|]. cbn [date_column t_rows]. now rewrite map_map.
  - split; [reflexivity|]. cbn [x_column t_rows]. now rewrite map_map.
  - split; [reflexivity|]. cbn [ones t_rows]. apply Forall_map. now apply Forall_forall.
  - split; [reflexivity|]. cbn [sourced t_rows]. apply Forall_map. now apply Forall_forall.
  - repeat (constructor; [cbn [date_column x_column ones sourced t_rows]; rewrite map_map; try reflexivity|]); [|constructor].
    rewrite <- (enum_snd (t_rows t) 0) at 2. now rewrite map_map.
Qed.
Print Assumptions C91_columns.

(* ---- examples ---- *)
(* one row of a table with dates in the index; the entries 5, 99 and 7 stand in columns that do not exist *)
Definition c91_row (s : string) (day : Z) (y : float) : rawrow float := mkRaw (ts 2018 1 day) (mkRow 5 s 99 y 7%float).
(* two series, a gap in the second *)
Definition c91_table : raw float := mkTable true false false false true true
  [c91_row "b" 3 1; c91_row "b" 4 4; c91_row "a" 1 1; c91_row "a" 2 3; c91_row "b" 5 7; c91_row "b" 7 13; c91_row "a" 3 5; c91_row "b" 8 16; c91_row "a" 4 7; c91_row "a" 5 9; c91_row "a" 6 40]%float.
Definition c91_one : raw float := mkTable true false false false false true (t_rows (restrict c91_table "a")).
Definition c91_world (s : string) : world float :=
  let N := fops in ex_world (LDone true 40%float [5%float]) (LDone true 1%float [if String.eqb s "a" then 2%float else 3%float; 1%float]).
Definition c91_cfg (outliers : bool) : config float := let N := fops in
  mkCfg (Some [model_linear; model_constant]) None None (7 # 365)%Q "auto" false outliers None None None None None 5 20 (Some "Y") true.
Example C91_hypotheses_example : let N := fops in
  has_date_after c91_table = true /\ t_w c91_table = false /\ t_src c91_one = false /\ nmul (T := float) n1 n0 = n0 /\ nmul (T := float) n1 n1 = n1 /\
  nmul (T := XR) n1 n0 = n0 /\ nmul (T := XR) n1 n1 = n1 /\ nameless_cfg (c91_cfg true) /\ nameless_cfg (c91_cfg false).
Proof.
  intros N. split; [reflexivity|]. split; [reflexivity|]. split; [reflexivity|]. split; [reflexivity|]. split; [reflexivity|].
  split; [cbn; f_equal; ring|]. split; [cbn; f_equal; ring|]. split; (split; [|exact I]; repeat split; try exact I; repeat constructor).
Qed.
Definition c91_rows (r : res (option (frame float))) : option (bool * bool * bool * list (string * Z * Z) * list float) :=
  match r with
  | Ok (Some f) => Some (has_date f, has_src f, has_w f, map (fun r => (r_src r, ((r_date r - ts 2018 1 1) / DAY)%Z, r_x r)) (rows f), map r_y (rows f))
  | _ => None
  end.
Example C91_example : let N := fops in
  c91_rows (normalize_df c91_table) = Some (true, true, false,
    [("a", 0, 0); ("a", 1, 1); ("a", 2, 2); ("a", 3, 3); ("a", 4, 4); ("a", 5, 5); ("b", 2, 2); ("b", 3, 3); ("b", 4, 4); ("b", 6, 6); ("b", 7, 7)]%Z,
    [1; 3; 5; 7; 9; 40; 1; 4; 7; 13; 16]%float) /\
  c91_rows (normalize_df (date_column c91_table)) = c91_rows (normalize_df c91_table) /\
  c91_rows (normalize_df (x_column c91_table)) = c91_rows (normalize_df c91_table) /\
  map (fun q => r_x (q_row q)) (t_rows (x_column c91_table)) = [2; 3; 0; 1; 4; 6; 2; 7; 3; 4; 5]%Z.
Proof. intros N. split; [|split; [|split]]; vm_compute; reflexivity. Qed.
Definition c91_labels (r : res (option (result float))) : option (list string * list string * list float) :=
  match r with
  | Ok (Some r) => Some (map (fun m => md_weights (m_meta m)) (rs_meta r), dedup String.eqb (map d_long (rs_data r)), map d_y (rs_data r))
  | _ => None
  end.
(* without outlier handling a column of ones is described differently, and that is all *)
Example C91_weights_example : let N := fops in
  let run t := run_forecast c91_world (c91_cfg false) "x" t in
  let actuals := [1; 3; 5; 7; 9; 40]%float in let fits := [1; 4; 7; 10; 13; 16; 19; 22; 25; 28; 31; 34; 37]%float in
  c91_labels (run c91_one) = Some (["1"], ["x:1:D:2018-01-01::2018-01-06"; "x:#-#:D:2018-01-01::2018-01-06"], actuals ++ fits) /\
  c91_labels (run (ones c91_one)) = Some (["#-#"], ["x:#-#:D:2018-01-01::2018-01-06"], actuals ++ fits).
Proof. intros N. split; vm_compute; reflexivity. Qed.
(* with it, a column of ones is described in the same way; the outlier gets weight zero either way *)
Definition c91_spike : raw float := mkTable true false false false false true
  (map (fun p => c91_row "" (1 + Z.of_nat (fst p)) (snd p)) (enumerate [1; 2; 1; 2; 1; 100; 1; 2; 1; 2; 1; 2]%float)).
Example C91_outliers_example : let N := fops in
  let run t := run_forecast c91_world (c91_cfg true) "x" t in
  let zero r := match r with Ok (Some r) => Some (map d_w (filter (fun d => d_actual d) (rs_data r))) | _ => None end in
  c91_labels (run c91_spike) = c91_labels (run (ones c91_spike)) /\ zero (run c91_spike) = zero (run (ones c91_spike)) /\
  zero (run (ones c91_spike)) = Some [1; 1; 1; 1; 1; 0; 1; 1; 1; 1; 1; 1]%float.
Proof. intros N. split; [|split]; vm_compute; reflexivity. Qed.
(* a source column with one name *)
Example C91_source_example : let N := fops in
  let run id t := run_forecast c91_world (c91_cfg true) id t in
  let out r := match r with Ok (Some r) => Some (map (fun d => (d_src d, d_y d)) (rs_data r), map (fun p => (p_src p, p_y p, p_q p)) (rs_forecast r)) | _ => None end in
  out (run "x" (sourced "a" c91_one)) = out (run "a" c91_one) /\
  option_map (fun p => hd_error (fst p)) (out (run "x" (sourced "a" c91_one))) = Some (Some ("a", 1%float)).
Proof. intros N. split; vm_compute; reflexivity. Qed.
(* The texts that describe the weights do differ without outlier handling. *)
Theorem C91_labels_refuted : let N := fops in
  let run t := run_forecast c91_world (c91_cfg false) "x" t in
  run (ones c91_one) <> run c91_one.
Proof.
  intros N run E. apply (f_equal (fun r => match r with Ok (Some r) => map (fun m => md_weights (m_meta m)) (rs_meta r) | _ => [] end)) in E. revert E. vm_compute. discriminate.
Qed.
(* dates both in a column and in the index: the column counts *)
Example C91_both_example : let N := fops in
  let t := mkTable true false false true false true [mkRaw (ts 2018 1 9) (mkRow (ts 2018 1 1) "" 0 1%float 1%float); mkRaw (ts 2018 1 8) (mkRow (ts 2018 1 2) "" 0 3%float 1%float)] in
  c91_rows (normalize_df t) = Some (true, false, false, [("", 0, 0); ("", 1, 1)]%Z, [1; 3]%float).
Proof. intros N. vm_compute. reflexivity. Qed.
