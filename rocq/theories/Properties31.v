(* Candidates that lose: C87. *)
From Coq Require Import ZArith String List Bool Floats QArith_base Permutation Reals Lra.
From Verif Require Import Num Py Cal Fmt Model Base Naive Freq Normalize Fit Select Pi Forecast.
From Verif Require Import ListProofs ModelProofs NameProofs SelectProofs ForecastProofs CacheRunProofs ListOrderProofs FewerProofs Ex Properties7 Properties30.
Import ListNotations.
Local Open Scope string_scope.
Local Open Scope list_scope.

(* ================= C87 ================= *)
(* [prefers W]: of some rows with different models that include the best of all, the sort by score puts
   the same one first.  The stable sort by score does so, with ties and missing scores. *)
Theorem C87_sort : forall (W : world XR), w_sort W = by_score -> prefers W.
Proof.
  intros W E. apply (sort_prefers W (fun a b : meta XR => (nisnan (md_aicc b) || nleb (md_aicc a) (md_aicc b))%bool)); [| |exact E].
  - intros a b. destruct (md_aicc a) as [| | |x], (md_aicc b) as [| | |y]; cbn; auto. unfold Rleb. destruct (Rle_dec x y), (Rle_dec y x); auto. exfalso. lra.
  - intros a b c'. destruct (md_aicc a) as [| | |x], (md_aicc b) as [| | |y], (md_aicc c') as [| | |z]; cbn; auto; try discriminate.
    unfold Rleb. destruct (Rle_dec x y), (Rle_dec y z), (Rle_dec x z); auto; try discriminate. intros. exfalso. lra.
Qed.
Print Assumptions C87_sort.
(* [fewer c' c]: c' has some of the models of each list of c, and is equal to c otherwise.
   The fits of c' are fits of c, with the same results and labels, in the same order. *)
Theorem C87_fits : forall (T : Type) (N : NumOps T) dic c' c (W : world T) s f r r',
  knows_defaults dic -> named (made_of dic) c -> all_of (made_of dic) (c_naive c) -> fewer c' c ->
  Forecast.c_mode c = "auto" \/ Forecast.c_mode c = "add" \/ Forecast.c_mode c = "mult" ->
  prefers W -> unsimplified c W f ->
  run_forecast_single W (ForecastProofs.set_all true c) s f = Ok r -> run_forecast_single W (ForecastProofs.set_all true c') s f = Ok r' ->
  NoDup (map model_name (rs_meta r)) ->
  sublist (map (fun m => (m_meta m, m_label m)) (rs_meta r')) (map (fun m => (m_meta m, m_label m)) (rs_meta r)).
Proof. intros T N dic c' c W s f r r' D Pc Pn Fc Mc Pw Us E E' Dn. exact (proj1 (single_fewer dic D c' c Pc Pn Fc Mc W s f r r' Pw Us E E' Dn)). Qed.
Print Assumptions C87_fits.
(* If the best model of every series is among the candidates of c', the outcome without the other fits is
   the same: data, metadata, forecast and intervals. *)
Theorem C87_single : forall (T : Type) (N : NumOps T) dic c' c (W : world T) s f r r',
  knows_defaults dic -> named (made_of dic) c -> all_of (made_of dic) (c_naive c) -> fewer c' c ->
  Forecast.c_mode c = "auto" \/ Forecast.c_mode c = "add" \/ Forecast.c_mode c = "mult" ->
  prefers W -> unsimplified c W f ->
  run_forecast_single W (ForecastProofs.set_all true c) s f = Ok r -> run_forecast_single W (ForecastProofs.set_all true c') s f = Ok r' ->
  NoDup (map model_name (rs_meta r)) ->
  (forall m, In m (rs_meta r) -> m_best m = true -> In (model_name m) (map model_name (rs_meta r'))) ->
  run_forecast_single W (ForecastProofs.set_all false c') s f = run_forecast_single W (ForecastProofs.set_all false c) s f.
Proof. intros T N dic c' c W s f r r' D Pc Pn Fc Mc Pw Us E E' Dn. exact (proj2 (single_fewer dic D c' c Pc Pn Fc Mc W s f r r' Pw Us E E' Dn)). Qed.
Print Assumptions C87_single.
Theorem C87_forecast : forall (T : Type) (N : NumOps T) dic (W : string -> world T) c' c id t r r',
  (forall s, prefers (W s)) -> knows_defaults dic -> named (made_of dic) c -> all_of (made_of dic) (c_naive c) -> fewer c' c ->
  Forecast.c_mode c = "auto" \/ Forecast.c_mode c = "add" \/ Forecast.c_mode c = "mult" ->
  (forall f s g, normalize_df t = Ok (Some f) -> In (s, g) (series_of id f) -> unsimplified c (W s) g) ->
  run_forecast W (ForecastProofs.set_all true c) id t = Ok (Some r) -> run_forecast W (ForecastProofs.set_all true c') id t = Ok (Some r') ->
  NoDup (map model_of (rs_meta r)) ->
  (forall m, In m (rs_meta r) -> m_best m = true -> In (model_of m) (map model_of (rs_meta r'))) ->
  run_forecast W (ForecastProofs.set_all false c') id t = run_forecast W (ForecastProofs.set_all false c) id t.
Proof. exact @forecast_fewer. Qed.
Print Assumptions C87_forecast.

(* ---- examples ---- *)
(* the exact order of floats, missing values last *)
Definition order_of (x : float) : Z :=
  match Prim2SF x with
  | S754_zero _ => 0 | S754_infinity s => if s then - 2 ^ 3000 else 2 ^ 3000 | S754_nan => 2 ^ 3001
  | S754_finite s m e => (if s then -1 else 1) * Z.shiftl (Zpos m) (e + 1074)
  end%Z.
Definition c87_world : world float := let N := fops in
  mkWorld (mkEnv (fun _ g _ => LDone true (if Nat.eqb (length g) 2 then 1 else 50)%float g) (fun _ => dec 1 2) (fun _ => "[..]") (fun _ => "#"))
    (isort (fun a b => order_of (md_aicc a) <=? order_of (md_aicc b))%Z) (fun a i => (a + i)%nat).
Lemma c87_prefers : prefers c87_world.
Proof.
  apply (sort_prefers c87_world (fun a b => order_of (md_aicc a) <=? order_of (md_aicc b))%Z); [| |reflexivity].
  - intros a b. rewrite !Z.leb_le. apply Z.le_ge_cases.
  - intros a b c. rewrite !Z.leb_le. apply Z.le_trans.
Qed.
Definition c87_cfg (mode : string) (trend season naive : list (fmodel float)) : config float :=
  mkCfg (Some trend) (Some season) None (7 # 365)%Q mode false false None None (Some naive) None None 5 20 (Some "Y") true.
Definition c87_table : raw float :=
  mkTable true false false true true false
    (map (fun p => mkRaw 0%Z (mkRow (ts 2018 1 (1 + Z.of_nat (fst p))) "a" 0 (fst (snd p)) 1%float)) (enumerate ex_rows) ++
     map (fun p => mkRaw 0%Z (mkRow (ts 2018 1 (1 + Z.of_nat (fst p))) "b" 0 (2 * fst (snd p))%float 1%float)) (enumerate ex_rows)).
Definition c87_large : config float := let N := fops in c87_cfg "add" [model_constant; model_linear; model_ramp] [model_null; model_linear] [model_naive; model_snaive_wday].
Definition c87_small : config float := let N := fops in c87_cfg "add" [model_ramp; model_linear] [model_null] [model_naive].
(* the metadata of a run with all fits *)
Definition c87_fits (c : config float) : list (string * string * bool) :=
  match run_forecast (H := fops) (fun _ => c87_world) (ForecastProofs.set_all true c) "id" c87_table with
  | Ok (Some r) => map (fun m => (model_of m, m_best m)) (rs_meta r) | _ => [] end.
(* the metadata and the forecast values of a run *)
Definition c87_outcome (c : config float) :=
  match run_forecast (H := fops) (fun _ => c87_world) (ForecastProofs.set_all false c) "id" c87_table with
  | Ok (Some r) => (map (fun m => (md_model (m_meta m), m_label m)) (rs_meta r), map d_y (filter (fun d => negb (d_actual d)) (rs_data r))) | _ => ([], []) end.
Example C87_example :
  let N := fops in let c := c87_large in let c' := c87_small in
  knows_defaults (dictionary (shipped (T := float))) /\ named (made_of (dictionary shipped)) c /\ all_of (made_of (dictionary shipped)) (c_naive c) /\ fewer c' c /\
  (forall f s g, normalize_df c87_table = Ok (Some f) -> In (s, g) (series_of "id" f) -> unsimplified c c87_world g) /\
  c87_fits c =
    [("a", "(constant+linear)", false); ("a", "(linear+linear)", false); ("a", "(ramp+linear)", false); ("a", "constant", false);
     ("a", "linear", true); ("a", "naive", false); ("a", "ramp", false); ("a", "snaive_wday", false);
     ("b", "(constant+linear)", false); ("b", "(linear+linear)", false); ("b", "(ramp+linear)", false); ("b", "constant", false);
     ("b", "linear", true); ("b", "naive", false); ("b", "ramp", false); ("b", "snaive_wday", false)] /\
  c87_fits c' =
    [("a", "linear", true); ("a", "naive", false); ("a", "ramp", false); ("b", "linear", true); ("b", "naive", false); ("b", "ramp", false)] /\
  fst (c87_outcome c) = [("linear", "add"); ("linear", "add")].
Proof.
  intros N c c'. destruct (C86_shipped float N) as [S D]. rewrite Forall_forall in S.
  assert (K : forall l, incl l (shipped (T := float)) -> Forall (made_of (dictionary shipped)) l) by (intros l J; apply Forall_forall; intros m I; apply S, J, I).
  split; [exact D|]. split; [|split; [|split; [|split; [|split; [|split]]]]].
  - split; [|split; [|split; [|split]]]; try exact I; cbn [all_of c87_cfg c87_large c c_trend c_season]; apply K; intros m I; cbn in I; unfold shipped; cbn; tauto.
  - cbn [all_of c87_cfg c87_large c c_naive]. apply K. intros m I; cbn in I; unfold shipped; cbn; tauto.
  - unfold fewer, c, c', c87_large, c87_small, c87_cfg, some_of_opt, naive_of, some_of, with_lists. cbn [c_trend c_season c_yearly c_weekly c_calendar c_naive].
    split; [split; [intros m I; cbn in *; tauto|discriminate]|]. split; [split; [intros m I; cbn in *; tauto|discriminate]|]. split; [exact I|]. split; [exact I|]. split; [exact I|].
    split; [|reflexivity]. split; [intros m I; cbn in *; tauto|]. constructor; [intros []|constructor].
  - apply (series_test c (fun _ => c87_world) "id" c87_table). vm_compute. reflexivity.
  - vm_compute; reflexivity.
  - vm_compute; reflexivity.
  - vm_compute; reflexivity.
Qed.
(* so that the theorem applies to it *)
Example C87_example_same : let N := fops in
  run_forecast (fun _ => c87_world) (ForecastProofs.set_all false c87_small) "id" c87_table = run_forecast (fun _ => c87_world) (ForecastProofs.set_all false c87_large) "id" c87_table.
Proof.
  intros N. destruct C87_example as (D & Pc & Pn & Fc & Us & E & E' & _).
  unfold c87_fits in E, E'. fold N in E, E'.
  destruct (run_forecast (fun _ => c87_world) (ForecastProofs.set_all true c87_large) "id" c87_table) as [[r|]|] eqn:Er; [|discriminate E|discriminate E].
  destruct (run_forecast (fun _ => c87_world) (ForecastProofs.set_all true c87_small) "id" c87_table) as [[r'|]|] eqn:Er'; [|discriminate E'|discriminate E'].
  apply (C87_forecast float N (dictionary shipped) (fun _ => c87_world) c87_small c87_large "id" c87_table r r'); auto; [intros _; exact c87_prefers| |].
  - apply (f_equal (map fst)) in E. rewrite map_map in E. cbn [fst map] in E. change (map (fun x : mrow float => model_of x) (rs_meta r)) with (map model_of (rs_meta r)) in E. rewrite E.
    repeat (constructor; [cbn; intuition discriminate|]). constructor.
  - intros m I B. assert (J : In (model_of m, m_best m) (map (fun m => (model_of m, m_best m)) (rs_meta r))) by exact (in_map (fun m => (model_of m, m_best m)) _ _ I).
    clear Er Er' D Pc Pn Fc Us. rewrite E, B in J. apply (f_equal (map fst)) in E'. rewrite map_map in E'. cbn [fst map] in E'. change (map (fun x : mrow float => model_of x) (rs_meta r')) with (map model_of (rs_meta r')) in E'. rewrite E'.
    cbn [In] in J. generalize dependent (model_of m). intros q J. cbn [In]. repeat (destruct J as [J|J]; [first [discriminate J|injection J as <-; tauto]|]). destruct J.
Qed.
(* Without the best model the outcome is another one. *)
Theorem C87_best_refuted : let N := fops in
  let c' := c87_cfg "add" [model_constant] [model_null; model_linear] [model_naive; model_snaive_wday] in
  fewer c' c87_large /\
  fst (c87_outcome c87_large) = [("linear", "add"); ("linear", "add")] /\ firstn 4 (snd (c87_outcome c87_large)) = [1; 3; 5; 7]%float /\
  fst (c87_outcome c') = [("naive", "add"); ("constant", "add")] /\ firstn 4 (snd (c87_outcome c')) = [1; 1; 3; 5]%float.
Proof.
  intros N c'. split; [|split; [|split; [|split]]]; [|vm_compute; reflexivity|vm_compute; reflexivity|vm_compute; reflexivity|vm_compute; reflexivity].
  unfold fewer, c', c87_large, c87_cfg, some_of_opt, naive_of, some_of, with_lists. cbn [c_trend c_season c_yearly c_weekly c_calendar c_naive].
  split; [split; [intros m I; cbn in *; tauto|discriminate]|]. split; [split; [intros m I; cbn in *; tauto|discriminate]|]. split; [exact I|]. split; [exact I|]. split; [exact I|].
  split; [|reflexivity]. split; [intros m I; cbn in *; tauto|]. constructor; [intros [K|[]]; discriminate K|]. constructor; [intros []|constructor].
Qed.
Print Assumptions C87_best_refuted.
(* In mode "both" the label of the best model may change: a product that is also listed as a trend is
   labelled as additive. *)
Theorem C87_both_refuted : let N := fops in
  let product := mmul model_constant model_constant in
  let c trend := c87_cfg "both" trend [model_null; model_constant] [] in
  fewer (c [model_constant]) (c [model_constant; product]) /\
  fst (c87_outcome (c [model_constant; product])) = [("(constant*constant)", "add"); ("(constant*constant)", "add")] /\
  fst (c87_outcome (c [model_constant])) = [("(constant*constant)", "mult"); ("(constant*constant)", "mult")].
Proof.
  intros N product c. split; [|split]; [|vm_compute; reflexivity|vm_compute; reflexivity].
  unfold fewer, c, c87_cfg, some_of_opt, naive_of, some_of, with_lists. cbn [c_trend c_season c_yearly c_weekly c_calendar c_naive].
  split; [split; [intros m I; destruct I as [<-|[]]; now left|discriminate]|]. split; [split; [intros m I; exact I|discriminate]|]. split; [exact I|]. split; [exact I|]. split; [exact I|].
  split; [|reflexivity]. split; [intros m []|constructor].
Qed.
Print Assumptions C87_both_refuted.
