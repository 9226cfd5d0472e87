(* Values of samples with weight zero (C89). *)
From Coq Require Import ZArith String List Bool Reals PrimFloat Lia QArith_base.
From Verif Require Import Num Py Cal Fmt Model Base Dummy Naive Freq Normalize Fixed Fit Interp Select Stats Outliers Pi Forecast.
From Verif Require Import InterpProofs NormalizeProofs ForecastProofs ForecastProofs2 MetaProofs IgnoredProofs Ex Properties7 Properties9 Properties11.
Import ListNotations.
Local Open Scope string_scope.
Local Open Scope list_scope.

(* ================= C89 ================= *)
(* [alike_tables t t']: both tables have weights; they have the same columns, and row by row the same
   index, date, source, x and weight, and the same value wherever the weight is positive.
   [view r]: the forecasts with their intervals, the table of fitted data without the values of samples
   whose weight is not positive, and the metadata.
   [plain_weights f]: a weight that is not positive equals zero (it is neither negative nor missing).
   [apart_series f]: within a series no sample of positive weight shares x or its date with another one. *)
Theorem C89_any_carrier : forall (T : Type) (N : NumOps T) (W : string -> world T) c s t t',
  zero_not_positive (T := T) -> c_outliers c = false -> Forecast.c_mode c <> "auto" ->
  alike_tables t t' -> (forall f, normalize_df t = Ok (Some f) -> exact_x f /\ plain_weights f /\ apart_series f) ->
  Py.rmap (option_map view) (run_forecast W c s t') = Py.rmap (option_map view) (run_forecast W c s t).
Proof. exact @run_alike. Qed.
Print Assumptions C89_any_carrier.
Lemma zero_not_positive_R : zero_not_positive (T := XR).
Proof. unfold zero_not_positive. cbn. unfold Rltb. destruct (Rlt_dec 0 0) as [H|H]; [exfalso; exact (Rlt_irrefl _ H)|reflexivity]. Qed.
Theorem C89_ignored_values : forall (W : string -> world XR) c s t t', c_outliers c = false -> Forecast.c_mode c <> "auto" ->
  alike_tables t t' -> (forall f, normalize_df t = Ok (Some f) -> plain_weights f /\ apart_series f) ->
  Py.rmap (option_map view) (run_forecast W c s t') = Py.rmap (option_map view) (run_forecast W c s t).
Proof.
  intros W c s t t' Ho Hm A Hf. apply run_alike; auto using zero_not_positive_R.
  intros f En. split; [intros r _; apply exact_int_real|now apply Hf].
Qed.
Print Assumptions C89_ignored_values.
(* they may as well be missing *)
Theorem C89_missing : forall (W : string -> world XR) c s t, c_outliers c = false -> Forecast.c_mode c <> "auto" ->
  (forall f, normalize_df t = Ok (Some f) -> plain_weights f /\ apart_series f) ->
  Py.rmap (option_map view) (run_forecast W c s (hide_raw t)) = Py.rmap (option_map view) (run_forecast W c s t).
Proof.
  intros W c s t Ho Hm Hf. apply run_hide; auto using zero_not_positive_R.
  intros f En. split; [intros r _; apply exact_int_real|now apply Hf].
Qed.
Print Assumptions C89_missing.
Theorem C89_hide : forall (T : Type) (N : NumOps T) (t : raw T), t_w t = true ->
  map q_row (t_rows (hide_raw t)) = map (fun q => if nltb n0 (r_w (q_row q)) then q_row q else mkRow (r_date (q_row q)) (r_src (q_row q)) (r_x (q_row q)) nnan (r_w (q_row q))) (t_rows t).
Proof. intros T N t W. unfold hide_raw. rewrite W. cbn [t_rows]. rewrite map_map. reflexivity. Qed.
Print Assumptions C89_hide.

(* a daily series whose fourth sample has weight zero *)
Definition c89_rows (v : float) : list (float * float) := [(1, 1); (3, 1); (5, 1); (v, 0); (9, 1); (11, 1); (12, 1); (15, 1)]%float.
Definition c89_table (l : list (float * float)) : raw float := let N := fops in raw_of (dated true l).
Definition c89_world : world float := let N := fops in (ex_world (LDone true 40 [5]) (LDone true 1 [2; 1]))%float.
Definition c89_cfg : config float := let N := fops in ex_cfg [model_constant; model_linear].
(* intervals of the sixth to tenth day, and the candidates with their scores *)
Definition c89_show (r : res (option (result float))) : res (option (list (Z * float * list (Z * float)) * list (string * float))) :=
  Py.rmap (option_map (fun r => (map (fun p => (p_date p, p_y p, p_q p)) (filter (fun p => negb (p_actual p) && (ts 2018 1 6 <=? p_date p)%Z && (p_date p <=? ts 2018 1 10)%Z) (rs_forecast r)), map (fun m => (md_model (m_meta m), md_aicc (m_meta m))) (rs_meta r)))) r.
Definition c89_run (c : config float) (l : list (float * float)) := let N := fops in c89_show (run_forecast (fun _ => c89_world) c "s" (c89_table l)).
(* the tenth of January, with the intervals and the scores *)
Definition c89_tenth (y a b c d s1 s2 : float) : res (option (list (Z * float * list (Z * float)) * list (string * float))) :=
  Ok (Some ([(ts 2018 1 10, y, [(5%Z, a); (95%Z, b); (20%Z, c); (80%Z, d)])], [("constant", s1); ("linear", s2)])).
(* 7 or 700 at weight zero: the hypotheses hold and the results agree *)
Lemma c89_alike v v' : alike_tables (N := fops) (c89_table (c89_rows v)) (c89_table (c89_rows v')).
Proof.
  unfold alike_tables. repeat (split; [reflexivity|]). unfold c89_table, raw_of, dated, c89_rows. cbn [t_rows rows map enumerate enum_from fst snd].
  repeat constructor. cbn. discriminate.
Qed.
Example C89_example : let N := fops in
  alike_tables (c89_table (c89_rows 7)) (c89_table (c89_rows 700)) /\
  match normalize_df (c89_table (c89_rows 7)) with
  | Ok (Some f) => map r_x (rows f) = [0; 1; 2; 3; 4; 5; 6; 7]%Z /\ map r_w (rows f) = [1; 1; 1; 0; 1; 1; 1; 1]%float
  | _ => False
  end /\
  c89_run c89_cfg (c89_rows 700) = c89_run c89_cfg (c89_rows 7) /\
  Py.rmap (option_map (fun p => (skipn 4 (fst p), snd p))) (c89_run c89_cfg (c89_rows 7)) =
    c89_tenth 19 0x1.2492492492492p+4 0x1.3492492492492p+4 0x1.3492492492492p+4 0x1.3492492492492p+4 0x1.5666666666666p+5 8.
Proof. split; [apply c89_alike|]. split; [vm_compute; split; reflexivity|]. split; vm_compute; reflexivity. Qed.

(* hence any value will do *)
Lemma c89_frame v : normalize_df (c89_table (c89_rows v)) = Ok (Some (dated (H := fops) true (c89_rows v))).
Proof. vm_compute. reflexivity. Qed.
Example C89_any_value : let N := fops in forall v v',
  Py.rmap (option_map view) (run_forecast (fun _ => c89_world) c89_cfg "s" (c89_table (c89_rows v'))) =
  Py.rmap (option_map view) (run_forecast (fun _ => c89_world) c89_cfg "s" (c89_table (c89_rows v))).
Proof.
  intros N v v'. apply C89_any_carrier; [reflexivity|reflexivity|discriminate|apply c89_alike|]. intros f E. unfold N in E. rewrite c89_frame in E. injection E as <-. split; [|split].
  - intros r [<-|[<-|[<-|[<-|[<-|[<-|[<-|[<-|[]]]]]]]]]; split; vm_compute; reflexivity.
  - intros r [<-|[<-|[<-|[<-|[<-|[<-|[<-|[<-|[]]]]]]]]]; unfold plain_weight; vm_compute; congruence.
  - intros a b [<-|[<-|[<-|[<-|[<-|[<-|[<-|[<-|[]]]]]]]]] [<-|[<-|[<-|[<-|[<-|[<-|[<-|[<-|[]]]]]]]]] _ Ca Cb; vm_compute in Ca, Cb; try discriminate; split; vm_compute; discriminate.
Qed.

(* Each condition is needed. *)
(* outliers are looked for among all samples, whatever their weights: a wild value of weight zero at the
   start makes three samples of weight one spikes or not, and the scores change *)
Definition c89_first (v : float) : list (float * float) := [(v, 0); (2, 1); (3, 1); (4, 1); (25, 1); (6, 1); (7, 1); (8, 1); (9, 1); (10, 1); (11, 1); (12, 1)]%float.
Definition c89_weights (r : res (frame float)) : res (list float) := Py.rmap (fun f => map r_w (rows f)) r.
Definition c89_scores (r : res (option (list (Z * float * list (Z * float)) * list (string * float)))) := Py.rmap (option_map snd) r.
Theorem C89_outliers_refuted : let N := fops in
  c89_weights (prepared (find_outliers c89_cfg) (dated true (c89_first 1))) = Ok [0; 1; 1; 1; 0; 1; 1; 1; 1; 1; 1; 1]%float /\
  c89_weights (prepared (find_outliers c89_cfg) (dated true (c89_first (-100)))) = Ok [0; 0; 0; 0; 0; 1; 1; 1; 1; 1; 1; 1]%float /\
  c89_scores (c89_run (find_outliers c89_cfg) (c89_first 1)) = Ok (Some [("constant", 42.5); ("linear", 0x1.adb6db6db6db7p+2)])%float /\
  c89_scores (c89_run (find_outliers c89_cfg) (c89_first (-100))) = Ok (Some [("constant", 0x1.5666666666666p+5); ("linear", 8)])%float.
Proof. split; [vm_compute; reflexivity|]. split; [vm_compute; reflexivity|]. split; vm_compute; reflexivity. Qed.
Print Assumptions C89_outliers_refuted.
(* mode 'auto' looks at all samples as well *)
Definition c89_months (v : float) : raw float := let N := fops in
  raw_of (mkFrame true false true (map (fun p => let t := ts 2018 (1 + Z.of_nat (fst p) / 3) (1 + 10 * (Z.of_nat (fst p) mod 3)) in
    mkRow t "s" ((t - ts 2018 1 1) / DAY) (fst (snd p)) (snd (snd p))) (enumerate [(8, 1); (10, 1); (12, 1); (18, 1); (20, 1); (22, 1); (28, 1); (30, 1); (32, 1); (38, 1); (v, 0); (42, 1)]%float)))%Z.
Definition c89_models (v : float) : res (option (list string)) :=
  let N := fops in
  let W := mkWorld (mkEnv (fun _ g _ => match g with [_; _] => LDone true 1 [0.375; 10] | _ => LDone true 1 (repeat 1 (length g)) end)%float
                      (fun _ => 0.5%float) (fun _ => "[..]") (fun _ => "#")) (by_score (H := fops)) (fun a i => (a + i)%nat) in
  Py.rmap (option_map (fun r => map (fun m => md_model (m_meta m)) (rs_meta r)))
    (run_forecast (fun _ => W) (set_mode "auto" (mkCfg (Some [model_linear]) (Some [model_season_wday]) None (7 # 365)%Q "add" true false None None (Some []) None None 5 20 (Some "Y") true)) "s" (c89_months v)).
Theorem C89_auto_refuted : c89_models 40 = Ok (Some ["(linear+season_wday)"]) /\ c89_models 1000 = Ok (Some ["(linear*season_wday)"]).
Proof. split; vm_compute; reflexivity. Qed.
Print Assumptions C89_auto_refuted.
(* a negative weight keeps the sample out of the fit but not out of the intervals *)
Definition c89_negative (v : float) : list (float * float) := [(1, 1); (3, 1); (5, 1); (v, -1); (9, 1); (11, 1); (12, 1); (15, 1)]%float.
Definition c89_last (r : res (option (list (Z * float * list (Z * float)) * list (string * float)))) := Py.rmap (option_map (fun p => (skipn 4 (fst p), snd p))) r.
Theorem C89_negative_refuted :
  c89_last (c89_run c89_cfg (c89_negative 7)) = c89_tenth 19 18.25 19.25 18.25 19.25 0x1.5666666666666p+5 8 /\
  c89_last (c89_run c89_cfg (c89_negative 700)) = c89_tenth 19 (-155) 539 (-155) 539 0x1.5666666666666p+5 8.
Proof. split; vm_compute; reflexivity. Qed.
Print Assumptions C89_negative_refuted.
(* a sample of weight zero on the same day as one of weight one enters the intervals *)
Definition c89_shared (v : float) : raw float := let N := fops in let d := dated true (c89_rows 7) in raw_of (with_rows d (rows d ++ [mkRow (ts 2018 1 8) "s" 7 v 0%float])).
Definition c89_run_shared (v : float) := let N := fops in c89_last (c89_show (run_forecast (fun _ => c89_world) c89_cfg "s" (c89_shared v))).
Theorem C89_shared_refuted :
  c89_run_shared 15 = c89_tenth 19 17.25 19.25 19.25 19.25 0x1.5666666666666p+5 8 /\
  c89_run_shared 700 = c89_tenth 19 (-154) 533 (-152) 533 0x1.5666666666666p+5 8.
Proof. split; vm_compute; reflexivity. Qed.
Print Assumptions C89_shared_refuted.
