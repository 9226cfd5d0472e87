(* The order of the lists of models: C86. *)
From Coq Require Import ZArith String List Bool Floats QArith_base Permutation.
From Verif Require Import Num Py Cal Fmt Model Base Naive Freq Normalize Fit Select Pi Forecast.
From Verif Require Import ModelProofs NameProofs SelectProofs CacheRunProofs ListOrderProofs Ex Properties7.
Import ListNotations.
Local Open Scope string_scope.
Local Open Scope list_scope.

(* ================= C86 ================= *)
(* [made_of dic m]: m is composed by + and * of parts with plain names, and [dic] tells which part has
   which name.  Among such models a name identifies the model, with all its functions. *)
Theorem C86_names : forall (T : Type) (N : NumOps T) dic (a b : fmodel T), made_of dic a -> made_of dic b ->
  (model_eqb a b = true <-> a = b).
Proof. intros T N dic a b Ha Hb. unfold model_eqb. rewrite String.eqb_eq. split; [now apply (made_unique dic)|now intros ->]. Qed.
Print Assumptions C86_names.
(* Parts with different names form a dictionary. *)
Theorem C86_parts : forall (T : Type) (l : list (fmodel T)) (N : NumOps T), NoDup (map fm_name l) -> Forall (fun m => plain (fm_name m)) l ->
  (forall m, In m l -> fm_name m = "null" -> m = model_null) -> Forall (made_of (dictionary l)) l.
Proof. intros T l N D F Hn. rewrite Forall_forall in *. intros m I. apply parts_made; auto. Qed.
Print Assumptions C86_parts.
(* The models of the package form one, which has the default models. *)
Theorem C86_shipped : forall (T : Type) (N : NumOps T), Forall (made_of (dictionary shipped)) (shipped (T := T)) /\ knows_defaults (dictionary (shipped (T := T))).
Proof.
  intros T N. pose proof (@shipped_named T N) as E.
  assert (D : NoDup (map fm_name (shipped (T := T))) /\ Forall (fun m => plain (fm_name m)) (shipped (T := T))).
  { split; [rewrite E; repeat (constructor; [cbn; intuition discriminate|]); constructor|].
    unfold shipped. repeat (constructor; [cbn; repeat split; reflexivity|]). constructor. }
  destruct D as [D F]. split.
  - apply C86_parts; auto. intros m I. unfold shipped in I. repeat (destruct I as [<-|I]; [first [reflexivity|intros K; discriminate K]|]). destruct I.
  - repeat split; apply (dictionary_in shipped _ D); unfold shipped; cbn; tauto.
Qed.
Print Assumptions C86_shipped.
(* [reordered c c']: the configurations differ at most in the lists of trends, seasons, yearly, weekly
   and calendar models, which have the same members, in any order and number, and in the order of the
   naive models.  The candidate lists have the same members ... *)
Theorem C86_candidates : forall (T : Type) (N : NumOps T) dic (c c' : config T), knows_defaults dic -> named (made_of dic) c -> reordered c c' ->
  forall f, members (fst (candidate_lists c f)) (fst (candidate_lists c' f)) /\ members (snd (candidate_lists c f)) (snd (candidate_lists c' f)).
Proof.
  intros T N dic c c' D Pc (Et & Es & Ey & Ew & El & _) f. apply defaults_made in D as (D1 & D2 & D3 & D4 & _).
  assert (Pc' : named (made_of dic) c').
  { destruct Pc as (P1 & P2 & P3 & P4 & P5). repeat split; [exact (all_members _ _ _ Et P1)|exact (all_members _ _ _ Es P2)|exact (all_members _ _ _ Ey P3)|exact (all_members _ _ _ Ew P4)|exact (all_members _ _ _ El P5)]. }
  now apply (members_candidates dic).
Qed.
Print Assumptions C86_candidates.
(* ... and the outcome is the same: models, fits, labels, choice of the best, forecast, intervals, or
   the same error. *)
Theorem C86_single : forall (T : Type) (N : NumOps T) dic (W : world T) c c' s f,
  knows_defaults dic -> named (made_of dic) c -> all_of (made_of dic) (c_naive c) -> reordered c c' ->
  run_forecast_single W c s f = run_forecast_single W c' s f.
Proof. exact @single_order. Qed.
Print Assumptions C86_single.
Theorem C86_forecast : forall (T : Type) (N : NumOps T) dic (W : string -> world T) c c' id t,
  knows_defaults dic -> named (made_of dic) c -> all_of (made_of dic) (c_naive c) -> reordered c c' ->
  run_forecast W c id t = run_forecast W c' id t.
Proof. exact @forecast_order. Qed.
Print Assumptions C86_forecast.

(* ---- examples ---- *)
Definition c86_world : world float := let N := fops in
  mkWorld (mkEnv (fun _ g _ => LDone true (ndiv 40 (nofZ (Z.of_nat (length g))))%float g) (fun _ => dec 1 2) (fun _ => "[..]") (fun _ => "#")) by_score (fun a i => (a + i)%nat).
Definition c86_cfg (trend season naive : list (fmodel float)) : config float :=
  mkCfg (Some trend) (Some season) None (7 # 365)%Q "both" true false None None (Some naive) None None 5 20 (Some "Y") true.
Example C86_example : let N := fops in
  let c := c86_cfg [model_constant; model_linear; model_ramp] [model_null; model_linear] [model_naive; model_snaive_wday] in
  let c' := c86_cfg [model_ramp; model_linear; model_linear; model_constant] [model_linear; model_null] [model_snaive_wday; model_naive] in
  named (made_of (dictionary shipped)) c /\ all_of (made_of (dictionary shipped)) (c_naive c) /\ reordered c c' /\
  map fm_name (fst (candidate_lists c (dated false ex_rows))) =
    ["constant"; "(constant+linear)"; "linear"; "(linear+linear)"; "ramp"; "(ramp+linear)"] /\
  map fm_name (fst (candidate_lists c' (dated false ex_rows))) =
    ["(ramp+linear)"; "ramp"; "(linear+linear)"; "linear"; "(constant+linear)"; "constant"] /\
  match run_forecast_single c86_world c "s" (dated false ex_rows) with
  | Ok r => map (fun m => (md_model (m_meta m), m_label m, m_best m)) (rs_meta r) =
      [("(constant*linear)", "mult", false); ("(constant+linear)", "add", false); ("(linear*linear)", "mult", false); ("(linear+linear)", "add", false);
       ("(ramp*linear)", "mult", false); ("(ramp+linear)", "add", false); ("constant", "add", false); ("linear", "add", false);
       ("naive", "mult", true); ("ramp", "add", false); ("snaive_wday", "mult", false)]
  | Err _ => False
  end.
Proof.
  intros N c c'. destruct (C86_shipped float N) as [S _]. rewrite Forall_forall in S.
  assert (K : forall l, incl l (shipped (T := float)) -> Forall (made_of (dictionary shipped)) l) by (intros l J; apply Forall_forall; intros m I; apply S, J, I).
  split; [|split; [|split; [|split; [|split]]]].
  - split; [|split; [|split; [|split]]]; try exact I; cbn [all_of c86_cfg c c_trend c_season]; apply K; intros m I; cbn in I; unfold shipped; cbn; tauto.
  - cbn [all_of c86_cfg c c_naive]. apply K. intros m I; cbn in I; unfold shipped; cbn; tauto.
  - unfold reordered. repeat split; cbn; try tauto. constructor.
  - vm_compute; reflexivity.
  - vm_compute; reflexivity.
  - vm_compute; reflexivity.
Qed.
(* Naive models are not deduplicated: one that is listed twice is fitted twice. *)
Theorem C86_naive_refuted : let N := fops in
  let fitted naive := match run_forecast_single c86_world (c86_cfg [model_linear] [] naive) "s" (dated false ex_rows) with
                      | Ok r => map (fun m => md_model (m_meta m)) (rs_meta r) | Err _ => [] end in
  fitted [model_naive] = ["linear"; "naive"] /\ fitted [model_naive; model_naive] = ["linear"; "naive"; "naive"].
Proof. intros N. split; vm_compute; reflexivity. Qed.
(* Different parts with the same name: only the first in the list is fitted, so the order counts. *)
Theorem C86_same_name_refuted : let N := fops in
  let early := get_model_step_date (ts 2018 1 4) in
  let late := get_model_step_date (ts 2018 1 4 + 3600000000000)%Z in
  let fitted trend := match run_forecast_single c86_world (c86_cfg trend [] []) "s" (dated false ex_rows) with
                      | Ok r => (map (fun m => md_model (m_meta m)) (rs_meta r), map d_y (filter (fun d => negb (d_actual d)) (rs_data r))) | Err _ => ([], []) end in
  fitted [early; late] = (["step_date[2018-01-04]"], (repeat 0 3 ++ repeat 6 12)%float) /\
  fitted [late; early] = (["step_date[2018-01-04]"], (repeat 0 4 ++ repeat 6 11)%float).
Proof. intros N. split; vm_compute; reflexivity. Qed.
