(* Names of series are only labels: C85. *)
From Coq Require Import ZArith String List Bool PrimFloat QArith_base Permutation Sorted.
From Verif Require Import Num Py Cal Fmt Model Base Dummy Fixed Naive Freq Normalize Aic Fit Select Pi Forecast.
From Verif Require Import NormalizeProofs ForecastProofs2 ShiftProofs CacheRunProofs RenameProofs Ex Properties7 Properties16.
Import ListNotations.
Local Open Scope string_scope.
Local Open Scope list_scope.

(* ================= C85 ================= *)
(* [named_as s s' r] is the result r with s' in the source columns of all three tables, and with s' in
   place of the first |s| characters of every source_long. *)
Theorem C85_label : forall s s' weights freq range,
  relabel s s' (long_name s weights freq range) = long_name s' weights freq range.
Proof. exact relabel_long. Qed.
Print Assumptions C85_label.
(* One series under another name: same outcome or same error, for any models.  [sorts_scores]: the
   sort by aic_c looks at the scores only. *)
Theorem C85_argument : forall (T : Type) (N : NumOps T) s s' (W : world T) (c : config T) f, sorts_scores W ->
  run_forecast_single W c s' f = Py.rmap (named_as s s') (run_forecast_single W c s f).
Proof. exact @single_name. Qed.
Print Assumptions C85_argument.
(* The source column plays no role for the forecast of a single series, nor whether there is one;
   [nameless_cfg]: the functions of the models named by the configuration do not read it. *)
Theorem C85_column : forall (T : Type) (N : NumOps T) (W : world T) (c : config T) s f f',
  nameless_cfg c -> has_date f = has_date f' -> has_w f = has_w f' ->
  map (fun r => (r_date r, r_x r, r_y r, r_w r)) (rows f) = map (fun r => (r_date r, r_x r, r_y r, r_w r)) (rows f') ->
  run_forecast_single W c s f = run_forecast_single W c s f'.
Proof.
  intros T N W c s f f' Nc H1 H3 H4. rewrite <- (single_blank W c s f Nc), <- (single_blank W c s f' Nc).
  assert (B : blank f = blank f'); [|now rewrite B]. unfold blank. rewrite H1, H3. f_equal. revert H4. generalize (rows f'). induction (rows f) as [|r l IH]; intros [|r' l'] E; try discriminate; [reflexivity|].
  cbn [map] in E. injection E as E1 E2 E3 E4 E. cbn [map]. f_equal; [unfold br; congruence|now apply IH].
Qed.
Print Assumptions C85_column.
(* All shipped models, dummies, and what is built from them; pinned models. *)
Theorem C85_shipped : forall (T : Type) (N : NumOps T), Forall (@nameless T)
  [model_null; model_constant; model_linear; model_linear_nondec; model_quasilinear; model_exp; model_decay; model_step; model_two_steps; model_sigmoid_step;
   model_sigmoid; model_ramp; model_spike; model_season_wday; model_season_month; model_season_month_old; model_season_fourier_yearly; model_naive; model_snaive_wday].
Proof. exact @nameless_shipped. Qed.
Theorem C85_dummy : forall (T : Type) (N : NumOps T) name (f : dummyfun T), nameless (dummy_model_of name f).
Proof. exact @nameless_dummy. Qed.
Theorem C85_composed : forall (T : Type) (N : NumOps T) (m1 m2 : fmodel T), nameless m1 -> nameless m2 -> nameless (madd m1 m2) /\ nameless (mmul m1 m2).
Proof. intros T N m1 m2 H1 H2. split; [now apply nameless_madd|now apply nameless_mmul]. Qed.
Theorem C85_pinned : forall (T : Type) (N : NumOps T) fmt (m m' : fmodel T) fixed, fix_params_fmodel fmt m fixed = Ok m' -> nameless m'.
Proof. intros T N fmt m m' fixed. apply nameless_fix. Qed.
(* A table without source column: the name is an argument of run_forecast. *)
Theorem C85_id : forall (T : Type) (N : NumOps T) (W W' : string -> world T) (c : config T) id id' t,
  t_src t = false -> sorts_scores (W id) -> W' id' = W id ->
  run_forecast W' c id' t = Py.rmap (option_map (named_as id id')) (run_forecast W c id t).
Proof. exact @id_renamed. Qed.
Print Assumptions C85_id.
(* A table of several series whose names are replaced by g; different series keep different names.
   The result consists of the same parts, under the new names and in the order of these. *)
Theorem C85_tables : forall (T : Type) (N : NumOps T) (g : string -> string) (t : raw T) (W W' : string -> world T) (c : config T) id,
  t_src t = true -> (forall a b, In a (table_sources t) -> In b (table_sources t) -> g a = g b -> a = b) ->
  (forall a, sorts_scores (W a)) -> (forall s, In s (table_sources t) -> W' (g s) = W s) -> nameless_cfg c ->
  exists order, Permutation order (sorted_sources t) /\ StronglySorted (fun a b => str_leb (g a) (g b) = true) order /\
  (forall r, run_forecast W c id t = Ok (Some r) -> exists part,
    (forall s, In s (table_sources t) -> run_forecast W c id (restrict t s) = Ok (Some (part s))) /\
    r = aggregate (map part (sorted_sources t)) /\
    run_forecast W' c id (rename g t) = Ok (Some (aggregate (map (fun s => named_as s (g s) (part s)) order)))) /\
  (forall e, run_forecast W c id t = Err e -> exists e', run_forecast W' c id (rename g t) = Err e') /\
  (run_forecast W c id t = Ok None -> run_forecast W' c id (rename g t) = Ok None).
Proof.
  intros T N g t W W' c id Hs Di Sw Ew Nc. exists (by_new_name g t). split; [apply by_new_name_perm|]. split; [apply by_new_name_sorted|]. now apply forecast_renamed.
Qed.
Print Assumptions C85_tables.

(* ---- examples ---- *)
Definition c85_world (s : string) : world float :=
  let N := fops in ex_world (LDone true 40%float [5%float]) (LDone true 1%float [if String.eqb s "a" then 2%float else 3%float; 1%float]).
Definition c85_world' (s : string) : world float := c85_world (if String.eqb s "north" then "a" else "b").
Definition c85_name (s : string) : string := if String.eqb s "a" then "north" else "east".
Definition c85_table : raw float := ex_two [1; 3; 5; 7; 9; 12]%float [1; 4; 7; 10; 13; 16]%float.
Definition c85_cfg : config float := let N := fops in
  mkCfg (Some [model_linear; model_constant]) None None (7 # 365)%Q "auto" false true None None None None None 5 20 (Some "Y") true.
Example C85_hypotheses_example : let N := fops in
  t_src c85_table = true /\ (forall a b, In a (table_sources c85_table) -> In b (table_sources c85_table) -> c85_name a = c85_name b -> a = b) /\
  (forall a, sorts_scores (c85_world a)) /\ (forall s, In s (table_sources c85_table) -> c85_world' (c85_name s) = c85_world s) /\ nameless_cfg c85_cfg.
Proof.
  intros N. assert (S2 : forall a, In a (table_sources c85_table) -> a = "a" \/ a = "b").
  { intros a I. unfold table_sources, c85_table in I. vm_compute in I. repeat (destruct I as [I|I]; [auto|]). destruct I. }
  split; [reflexivity|]. split; [|split; [|split]].
  - intros a b Ha Hb. destruct (S2 a Ha) as [->| ->], (S2 b Hb) as [->| ->]; try reflexivity; discriminate.
  - intros a. apply by_score_scores.
  - intros s Is. destruct (S2 s Is) as [->| ->]; reflexivity.
  - split; [|exact I]. repeat split; try exact I. repeat constructor.
Qed.
Definition c85_show (r : res (option (result float))) : option (list string * list string * list (string * string * bool) * list string) :=
  match r with
  | Ok (Some r) => Some (dedup String.eqb (map d_src (rs_data r)), dedup String.eqb (map d_long (rs_data r)),
                         map (fun m => (md_source (m_meta m), md_model (m_meta m), m_best m)) (rs_meta r), dedup String.eqb (map p_src (rs_forecast r)))
  | _ => None
  end.
(* the order of the names changes, the forecasts do not *)
Example C85_example : let N := fops in
  let values s (r : res (option (result float))) := match r with Ok (Some r) => Some (map d_y (filter (fun d => String.eqb (d_src d) s) (rs_data r)), map (fun p => (p_y p, p_q p)) (filter (fun p => String.eqb (p_src p) s) (rs_forecast r))) | _ => None end in
  c85_show (run_forecast c85_world c85_cfg "x" c85_table) =
    Some (["a"; "b"], ["a:#-#:D:2018-01-01::2018-01-06"; "b:#-#:D:2018-01-01::2018-01-06"], [("a", "linear", true); ("b", "linear", true)], ["a"; "b"]) /\
  c85_show (run_forecast c85_world' c85_cfg "x" (rename c85_name c85_table)) =
    Some (["east"; "north"], ["east:#-#:D:2018-01-01::2018-01-06"; "north:#-#:D:2018-01-01::2018-01-06"], [("east", "linear", true); ("north", "linear", true)], ["east"; "north"]) /\
  values "a" (run_forecast c85_world c85_cfg "x" c85_table) = values "north" (run_forecast c85_world' c85_cfg "x" (rename c85_name c85_table)) /\
  values "b" (run_forecast c85_world c85_cfg "x" c85_table) = values "east" (run_forecast c85_world' c85_cfg "x" (rename c85_name c85_table)) /\
  option_map (fun p => last (fst p) 0%float) (values "a" (run_forecast c85_world c85_cfg "x" c85_table)) = Some 25%float /\
  option_map (fun p => last (fst p) 0%float) (values "b" (run_forecast c85_world c85_cfg "x" c85_table)) = Some 37%float.
Proof. intros N. split; [|split; [|split; [|split; [|split]]]]; vm_compute; reflexivity. Qed.
(* Two series must not get the same name: they become one, with every date twice. *)
Theorem C85_same_name_refuted : let N := fops in
  let one := rename (fun _ => "north") c85_table in
  match run_forecast c85_world c85_cfg "x" c85_table with Ok (Some r) => length (dedup String.eqb (map d_src (rs_data r))) = 2%nat | _ => False end /\
  match run_forecast (fun _ => c85_world "a") c85_cfg "x" one with Err e => e = ValueError | Ok _ => False end /\
  match run_forecast (fun _ => c85_world "a") (ex_cfg [model_linear]) "x" one with
  | Ok (Some r) => dedup String.eqb (map d_src (rs_data r)) = ["north"] /\ length (filter (fun d => d_actual d) (rs_data r)) = 12%nat /\ length (rs_data r) = 25%nat
  | _ => False
  end.
Proof. intros N. vm_compute. repeat split; reflexivity. Qed.
(* A model of a user that reads the source column of the actuals is not nameless, and notices. *)
Definition c85_reader : fmodel float := let N := fops in
  mk_model "reader" 0 (fun x _ _ _ kw => match kw_actuals kw with Some f => Ok (Ar (map (fun _ => if existsb (fun r => String.eqb (r_src r) "a") (rows f) then 1%float else 0%float) x)) | None => Err ValueError end)
    None None None None None.
Theorem C85_reader_refuted : let N := fops in
  let c := mkCfg (Some [c85_reader]) (Some []) None (7 # 365)%Q "add" false false None None (Some []) None None 5 20 (Some "Y") true in
  let ys (r : res (option (result float))) := match r with Ok (Some r) => Some (map d_y (filter (fun d => negb (d_actual d)) (rs_data r))) | _ => None end in
  ys (run_forecast c85_world c "x" (restrict c85_table "a")) = Some (repeat 1%float 13) /\
  ys (run_forecast c85_world' c "x" (restrict (rename c85_name c85_table) "north")) = Some (repeat 0%float 13).
Proof. intros N. split; vm_compute; reflexivity. Qed.
