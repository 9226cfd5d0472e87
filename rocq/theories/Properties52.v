(* The cost of models without parameters: C103. *)
From Coq Require Import ZArith String List Bool Reals PrimFloat Sorted Lia Lra QArith_base.
From Verif Require Import Num Py Cal Fmt Model Base Naive Freq Normalize Aic Fit Interp Stats Select Outliers Pi Forecast.
From Verif Require Import NumProofs ListProofs FitProofs AicProofs NaiveProofs SnaiveProofs ForecastProofs LsqProofs RobustProofs TotalProofs TotalProofs2 UniqueProofs SourceProofs SilentProofs Ex Properties7 Properties14 Properties50.
Import ListNotations.
Local Open Scope string_scope.
Local Open Scope list_scope.
Local Open Scope R_scope.

(* ================= C103 ================= *)
(* [plain m]: one of the two naive models; [misses f vs]: the sum of the squared, weighted deviations over the
   samples that have a prediction; [share f r]: the weight of a sample, shared among those at its position.
   Samples without a prediction cost nothing, but the score counts them. *)
Theorem C103_cost : forall E m f freq src act uc vs, plain m -> finite_rows f -> (2 <= length (usable_rows f))%nat ->
  length vs = length (usable_rows f) -> Forall (fun v => (exists r, v = Fin r) \/ v = XNaN) vs ->
  call m (xs_of m f) (dates_of f) None false (mkKw act []) = Ok (Ar vs) ->
  exists d, fit_model E m f freq src act uc = Ok d /\ md_status d = "FIT" /\ md_fit d = true /\
    md_cost d = Fin (misses f vs / 2) /\ get_aic_c (md_cost d) (Z.of_nat (length (usable_rows f))) 0 = Ok (md_aicc d).
Proof. exact plain_fit. Qed.
Print Assumptions C103_cost.
(* [first_week f act]: no actual has a predecessor on the same weekday.  The seasonal naive model predicts none
   of the samples and is taken for a perfect fit. *)
Theorem C103_first_week : forall E f act freq src uc, first_week f act -> finite_rows f -> (2 <= length (usable_rows f))%nat ->
  call model_snaive_wday (xs_of model_snaive_wday f) (dates_of f) None false (mkKw (Some act) []) = Ok (Ar (repeat XNaN (length (usable_rows f)))) /\
  exists d, fit_model E model_snaive_wday f freq src (Some act) uc = Ok d /\ md_fit d = true /\ md_cost d = Fin 0 /\
    get_aic_c (Fin 0) (Z.of_nat (length (usable_rows f))) 0 = Ok (md_aicc d).
Proof.
  intros E f act freq src uc W Fr L. split; [|now apply first_week_fit].
  destruct (first_week_silent f act W) as (vs & -> & <- & S). do 2 f_equal. clear -S. induction S as [|v vs -> _ IH]; [reflexivity|]. cbn. now rewrite <- IH.
Qed.
Print Assumptions C103_first_week.
(* So it has a better score than every model whose fit is not exact: fits are not compared by merit. *)
Theorem C103_beats : forall E f act freq src uc d E' m freq' src' act' uc' d' c,
  first_week f act -> finite_rows f -> (2 <= length (usable_rows f))%nat ->
  fit_model E model_snaive_wday f freq src (Some act) uc = Ok d ->
  fit_model E' m f freq' src' act' uc' = Ok d' -> md_fit d' = true -> md_cost d' = Fin c -> Rpower 10 (-320) < c ->
  nltb (md_aicc d) (md_aicc d') = true.
Proof.
  intros E f act freq src uc d E' m freq' src' act' uc' d' c W Fr L Ed Ed' Ft Ec Hc.
  destruct (first_week_fit E f act freq src uc W Fr L) as (d0 & E0 & _ & _ & Ha). rewrite Ed in E0. apply ok_inj in E0. subst d0.
  destruct (fit_score E' m f freq' src' act' uc' d' Ed' Ft) as [Hs Hl]. rewrite Ec in Hs.
  destruct (below_any c (Z.of_nat (length (usable_rows f))) (Z.of_nat (fm_n m))) as (a & b & Ea & Eb & Lt); [lia|lia|exact Hc|].
  rewrite Ha in Ea. apply ok_inj in Ea. rewrite Hs in Eb. apply ok_inj in Eb. now subst a b.
Qed.
Print Assumptions C103_beats.

(* Monday to Thursday *)
Definition c103_frame : frame XR := mkFrame true false false
  (map (fun p => mkRow (ts 2018 1 (1 + fst p)) "" (fst p) (Fin (IZR (snd p))) (Fin 1)) [(0, 1); (1, 3); (2, 5); (3, 8)]%Z).
Example C103_hypothesis : first_week c103_frame c103_frame /\ finite_rows c103_frame /\ length (usable_rows c103_frame) = 4%nat.
Proof.
  assert (U : usable_rows c103_frame = rows c103_frame) by reflexivity.
  split; [|split; [|reflexivity]].
  - constructor; try reflexivity; rewrite ?U.
    + unfold sorted_x. cbn. repeat constructor; cbn; lia.
    + cbn. repeat constructor; cbn; lia.
    + intros q I. eauto.
    + intros r q Ir Iq Ew Lx. exfalso. cbn [c103_frame rows map In] in Ir, Iq.
      destruct Ir as [<-|[<-|[<-|[<-|[]]]]], Iq as [<-|[<-|[<-|[<-|[]]]]]; cbn [r_x r_date fst snd] in *; try lia; vm_compute in Ew; discriminate Ew.
  - unfold finite_rows. rewrite U. repeat constructor; cbn; discriminate.
Qed.
(* A run on four days with both naive models: the seasonal one is chosen, with cost 0, although the other one
   predicts every day; and as there are no deviations to draw from, the table with intervals has the four
   actuals and no forecast at all. *)
Example C103_example :
  let N := fops in
  match run_forecast (fun _ => ex_world (LRaise LinAlgError) (LRaise LinAlgError)) (c73_cfg [model_naive; model_snaive_wday]) "id" (c73_two (fun _ a => a) (fun _ a => a)) with
  | Ok (Some r) =>
      map (fun m => (md_model (m_meta m), PrimFloat.eqb (md_cost (m_meta m)) 0)) (filter (fun m => m_best m) (rs_meta (part "a" r))) = [("snaive_wday", true)] /\
      map p_actual (rs_forecast (part "a" r)) = [true; true; true; true]
  | _ => False
  end.
Proof. vm_compute. split; reflexivity. Qed.
