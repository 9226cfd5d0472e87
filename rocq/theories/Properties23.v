(* Dummy variables, calendars and lists of dates among the regressions: C72, C73, C78, C81. *)
From Coq Require Import ZArith String List Bool Reals Sorted Permutation Lia Lra QArith_base.
From Verif Require Import Num Py Cal Fmt Model Base Dummy Naive Freq Normalize Fixed Fit Interp Select Outliers Pi Forecast.
From Verif Require Import ListProofs NumProofs ModelProofs BaseProofs SeasonProofs GuessProofs FitProofs DummyProofs StatsProofs ForecastProofs ForecastProofs2 MetaProofs LsqProofs TotalProofs TotalProofs2 TotalProofs3 HardyProofs UniqueProofs ScaleProofs ExistProofs WeightProofs HolidayProofs GroupProofs SelectProofs Ex Properties7 Properties11 Properties13 Properties18.
Import ListNotations.
Local Open Scope string_scope.
Local Open Scope list_scope.

(* ================= C72 ================= *)
(* Every dummy variable is a regression with one coefficient, 1 on the samples it marks and 0
   elsewhere.  [marked]: whether it marks a sample, looking at this sample only; [ruled]: the holidays
   it is made of stay near their year, which is so for all rules of the package. *)
Theorem C72_dummy : forall name dm m, name <> "null" -> requires_scaling name = false -> ruled dm -> get_model_dummy name dm = Ok m ->
  regression m (fun x t => [mark (marked dm x t)]) /\ masked m [name].
Proof. intros name dm m Nn Ns Ru E. split; [now apply (regression_dummy name)|now apply (masked_dummy name dm)]. Qed.
Print Assumptions C72_dummy.
Theorem C72_calendars : forall l name m, filter has_rules l <> [] -> Forall (fun c => cal_name c <> "null" /\ Forall local_rule (cal_rules c)) l -> own_names l ->
  fm_name m <> "null" -> requires_scaling (fm_name m) = false -> get_model_from_calendars l name = Ok m ->
  regression m (fun _ t => map (fun c => mark (marked (DCal c) 0 t)) (filter has_rules l)) /\ masked m (map cal_name (filter has_rules l)).
Proof. intros l name m Nl F Nd Nn Ns E. split; [exact (regression_calendars l name m Nl F Nd Nn Ns E)|now apply (masked_calendars l name)]. Qed.
Print Assumptions C72_calendars.
Theorem C72_dates : forall name args m, Forall (fun l => l <> []) args -> name <> "null" -> requires_scaling name = false -> get_model_from_datelist name args = Ok m ->
  regression m (fun _ t => map (fun l => mark (in_list_Z l t)) args) /\ masked m ["model_dummy"].
Proof. intros name args m F Nn Ns E. split; [exact (regression_datelist name args m F Nn Ns E)|now apply (masked_datelist name args)]. Qed.
Print Assumptions C72_dates.
Example C72_dates_example : exists m, get_model_from_datelist "d" [[ts 2018 1 1]; [ts 2018 1 2; ts 2018 1 3]] = Ok m /\
  regression m (fun _ t => map (fun l => mark (in_list_Z l t)) [[ts 2018 1 1]; [ts 2018 1 2; ts 2018 1 3]]) /\
  rdot [5; 7]%R (map (fun l => mark (in_list_Z l (ts 2018 1 3))) [[ts 2018 1 1]; [ts 2018 1 2; ts 2018 1 3]]) = 7%R.
Proof.
  assert (E : exists m, get_model_from_datelist (T := XR) "d" [[ts 2018 1 1]; [ts 2018 1 2; ts 2018 1 3]] = Ok m).
  { unfold get_model_from_datelist. destruct (model_dummy_exists "model_dummy" (DDates [ts 2018 1 1])) as (m1 & E1); [exact I|discriminate..|].
    destruct (model_dummy_exists "model_dummy" (DDates [ts 2018 1 2; ts 2018 1 3])) as (m2 & E2); [exact I|discriminate..|].
    cbn [rmapM]. rewrite E1, E2. cbn [rbind]. eexists. reflexivity. }
  destruct E as (m & E). exists m. split; [exact E|]. split; [apply (C72_dates "d" _ m); [repeat constructor; discriminate|discriminate|reflexivity|exact E]|].
  unfold rdot. cbn. ring.
Qed.
(* Sums of such models, and of them and the other regressions, are regressions if no two of them use
   masks of the same name.  The models of C72_regressions use none. *)
Theorem C72_sums :
  (forall m1 m2 phi1 phi2 l1 l2, regression m1 phi1 -> regression m2 phi2 -> masked m1 l1 -> masked m2 l2 -> (forall n, In n l1 -> ~ In n l2) ->
    regression (madd m1 m2) (fun x t => phi1 x t ++ phi2 x t) /\ masked (madd m1 m2) (l1 ++ l2)) /\
  Forall (fun m => masked m []) [model_constant; model_linear; model_season_wday; model_season_month; model_season_month_old; model_season_fourier_yearly] /\
  (forall t0, masked (get_model_step_date t0) []) /\ (forall t0 t1, masked (get_model_spike_date t0 t1) []).
Proof.
  split; [|split; [|split]].
  - intros m1 m2 phi1 phi2 l1 l2 A B M1 M2 D. split; [apply regression_madd; auto; now apply (masked_apart m1 m2 l1 l2)|].
    apply masked_madd; auto; [apply (hd_name _ _ (rg_hardy _ _ A))|apply (hd_name _ _ (rg_hardy _ _ B))].
  - repeat constructor; apply masked_sturdy; [apply sturdy_constant|apply sturdy_linear|apply sturdy_wday|apply sturdy_month|apply sturdy_month_old|apply sturdy_fourier].
  - intros t0. apply masked_sturdy, sturdy_step_date.
  - intros t0 t1. apply masked_sturdy, sturdy_spike_date.
Qed.
Print Assumptions C72_sums.
(* A line plus calendars is determined by samples of which two, at different positions, are on no
   holiday, and one for every calendar is on a holiday of this calendar only. *)
Theorem C72_holidays_determined : forall m l f, regression m (fun _ t => map (fun g => mark (g t)) l) -> alone l f ->
  (exists r1 r2, In r1 (usable_rows f) /\ In r2 (usable_rows f) /\ r_x r1 <> r_x r2 /\ forall g, In g l -> g (r_date r1) = false /\ g (r_date r2) = false) ->
  determined (madd model_linear m) (fun x t => [x; 1%R] ++ map (fun g => mark (g t)) l) f.
Proof.
  intros m l f Rg Al (r1 & r2 & I1 & I2 & N & Z). assert (Ln : fm_n m = length l) by (rewrite <- (rg_len _ _ Rg 0%R 0%Z); apply map_length).
  apply (line_with_determined m (fun _ t => map (fun g => mark (g t)) l)); [exact Rg| |now apply alone_determined].
  assert (G : forall r, (forall g, In g l -> g (r_date r) = false) -> coef (fun _ t => map (fun g => mark (g t)) l) r = repeat 0%R (fm_n m)).
  { intros r F. rewrite Ln. unfold coef. clear - F. induction l as [|g l IH]; [reflexivity|]. cbn [map length repeat]. rewrite (F g (or_introl eq_refl)). f_equal. apply IH. intros h I. apply F. now right. }
  exists r1, r2. split; [exact I1|]. split; [exact I2|]. split; [exact N|]. split; apply G; intros g I; apply Z; exact I.
Qed.
Print Assumptions C72_holidays_determined.
(* the calendars of the package *)
Theorem C72_shipped_calendars :
  (exists m, model_calendar_uk = Ok m /\ regression m (fun _ t => holiday_phi [CalendarChristmasUK; CalendarBankHolUK] t) /\ masked m ["CalendarChristmasUK"; "CalendarBankHolUK"]) /\
  (exists m, model_calendar_ita = Ok m /\ regression m (fun _ t => holiday_phi [CalendarChristmasIta; CalendarBankHolIta] t) /\ masked m ["CalendarChristmasIta"; "CalendarBankHolIta"]).
Proof. exact regression_shipped. Qed.
Print Assumptions C72_shipped_calendars.
(* Two dummy variables of the same name read each other's mask from the cache: each is a regression,
   but with the cache their sum is not the sum of what they mark. *)
Example C72_same_name : exists m1 m2 c, get_model_dummy (T := XR) "d" (DDates [ts 2018 1 1]) = Ok m1 /\ get_model_dummy (T := XR) "d" (DDates [ts 2018 1 2]) = Ok m2 /\
  regression m1 (fun x t => [mark (marked (DDates [ts 2018 1 1]) x t)]) /\ regression m2 (fun x t => [mark (marked (DDates [ts 2018 1 2]) x t)]) /\
  let ds := [ts 2018 1 1; ts 2018 1 2] in let xs := fins [0%R; 1%R] in
  init_cache (madd m1 m2) xs (Some ds) = Ok c /\
  call (madd m1 m2) xs (Some ds) (Some (fins [1; 2]%R)) false (mkKw None []) = Ok (Ar (fins [1; 2]%R)) /\
  call (madd m1 m2) xs (Some ds) (Some (fins [1; 2]%R)) false (mkKw None c) = Ok (Ar (fins [0; 3]%R)).
Proof.
  destruct (model_dummy_exists "d" (DDates [ts 2018 1 1])) as (m1 & E1); [exact I|discriminate..|].
  destruct (model_dummy_exists "d" (DDates [ts 2018 1 2])) as (m2 & E2); [exact I|discriminate..|].
  exists m1, m2. eexists. split; [exact E1|]. split; [exact E2|].
  split; [apply (regression_dummy "d"); auto; [discriminate|exact I]|]. split; [apply (regression_dummy "d"); auto; [discriminate|exact I]|].
  unfold get_model_dummy in E1, E2. cbn [get_f_dummy rbind] in E1, E2. destruct (validate_f_dummy _) in E1; [|discriminate E1]. destruct (validate_f_dummy _) in E2; [|discriminate E2].
  cbn [rbind] in E1, E2. apply ok_inj in E1, E2. subst m1 m2. split; [reflexivity|].
  split; cbn; apply (f_equal (fun l : list XR => Ok (Ar l))); repeat (apply f_equal2; [apply (f_equal Fin); ring|]); reflexivity.
Qed.

(* ================= C73, C81 ================= *)
(* their validators do not look at the values, and they do not look at the weights of other rows *)
Theorem C73_masks :
  (forall name dm m, get_model_dummy name dm = Ok m -> ScaleProofs.blind m) /\
  (forall l name m, get_model_from_calendars l name = Ok m -> ScaleProofs.blind m) /\
  (forall name args m, get_model_from_datelist name args = Ok m -> ScaleProofs.blind m).
Proof. split; [exact blind_dummy|]. split; [exact blind_calendars|exact blind_datelist]. Qed.
Print Assumptions C73_masks.
Theorem C81_masks : forall k,
  (forall name dm m, get_model_dummy name dm = Ok m -> deaf k m) /\
  (forall l name m, get_model_from_calendars l name = Ok m -> deaf k m) /\
  (forall name args m, get_model_from_datelist name args = Ok m -> deaf k m).
Proof. intros k. split; [exact (deaf_dummy k)|]. split; [exact (deaf_calendars k)|exact (deaf_datelist k)]. Qed.
Print Assumptions C81_masks.
Example C73_masks_example : exists m, model_calendar_uk = Ok m /\ ScaleProofs.blind (madd model_linear m) /\ forall k, deaf k m.
Proof.
  destruct (calendars_exist [CalendarChristmasUK; CalendarBankHolUK] (Some "calendar_uk")) as (m & E); [discriminate|]. exists m. split; [exact E|].
  split; [apply blind_madd; [destruct blind_leaves as (B & _); inversion B as [|? ? _ B2]; inversion B2; assumption|exact (blind_calendars _ _ _ E)]|].
  intros k. exact (deaf_calendars k _ _ _ E).
Qed.

(* ================= C78 ================= *)
(* A line with holiday effects in the United Kingdom: seven days around Christmas 2017, three days up to
   Good Friday, and four days before Christmas 2018.  The coming Christmas and New Year are forecast
   with the effect of the last one. *)
Definition c78_day (k : Z) : Z := (ts 2017 12 18 + DAY * k)%Z.
Definition c78_uk : list calendar := [CalendarChristmasUK; CalendarBankHolUK].
Definition c78_uk_phi (x : R) (t : Z) : list R := [x; 1%R] ++ holiday_phi c78_uk t.
Definition c78_uk_row (th : list R) (k : Z) : row XR := mkRow (c78_day k) "s" k (Fin (rdot th (c78_uk_phi (IZR k) (c78_day k)))) (Fin 0).
Definition c78_uk_days : list Z := [0; 1; 2; 7; 8; 9; 10; 100; 101; 102; 368; 369; 370; 371]%Z.
Definition c78_uk_frame (th : list R) : frame XR := mkFrame true false false (map (c78_uk_row th) c78_uk_days).
Definition c78_uk_cfg (m : fmodel XR) : config XR :=
  mkCfg (Some [model_linear]) (Some []) None (14 # 365)%Q "add" true false None None (Some []) (Some [m]) None 5 20 (Some "Y") true.
Lemma c78_uk_dates th : map r_date (rows (c78_uk_frame th)) = map c78_day c78_uk_days.
Proof. unfold c78_uk_frame. cbn [rows]. rewrite map_map. reflexivity. Qed.
Lemma c78_uk_steady th : steady DAY "D" (ts 2017 12 18) (c78_uk_frame th).
Proof.
  constructor; [left; split; reflexivity|reflexivity| | | |]; rewrite ?c78_uk_dates.
  - vm_compute. reflexivity.
  - vm_compute. repeat constructor.
  - intros q I. apply (in_map r_date) in I. rewrite c78_uk_dates in I. revert I. generalize (r_date q). apply Forall_forall.
    unfold c78_uk_days. cbn [map]. repeat (constructor; [vm_compute; reflexivity|]). constructor.
  - intros q I. cbn [rows c78_uk_frame] in I. apply in_map_iff in I as (k & <- & I). cbn [c78_uk_row r_x r_date]. symmetry. revert k I. apply Forall_forall.
    repeat (constructor; [vm_compute; reflexivity|]). constructor.
Qed.
Lemma c78_uk_follows th : follows c78_uk_phi (ts 2017 12 18) (c78_uk_frame th) th.
Proof.
  intros q I. left. assert (X : r_x q = x_of (ts 2017 12 18) (r_date q)) by exact (sd_x _ _ _ _ (c78_uk_steady th) q I).
  cbn [rows c78_uk_frame] in I. apply in_map_iff in I as (k & <- & _). unfold c78_uk_row in *. cbn [r_y r_x r_date] in *. now rewrite <- X.
Qed.
Lemma c78_uk_settings m : hardy true m -> settings (c78_uk_cfg m).
Proof.
  intros Hm. constructor.
  - constructor; intros ms m' K I; try discriminate; injection K as <-; (destruct I as [<-|[]] || destruct I); left; [apply sturdy_hardy, sturdy_linear|exact Hm].
  - intros ms m' K I. injection K as <-. destruct I.
  - discriminate.
  - cbv. auto.
  - right. discriminate.
Qed.
Lemma c78_uk_prepared m th : prepared (c78_uk_cfg m) (c78_uk_frame th) = Ok (c78_uk_frame th).
Proof. reflexivity. Qed.
Lemma c78_uk_rows th : rows (to_fit (c78_uk_frame th)) = map one_weight (rows (c78_uk_frame th)) /\ usable_rows (to_fit (c78_uk_frame th)) = map one_weight (rows (c78_uk_frame th)).
Proof.
  assert (K : rows (to_fit (c78_uk_frame th)) = map one_weight (rows (c78_uk_frame th))).
  { unfold to_fit, positive, c78_uk_frame. cbn [rows with_weights with_rows]. apply filter_all. intros r I. apply in_map_iff in I as (q & <- & I).
    cbn. destruct (Rltb_spec 0 1); [reflexivity|lra]. }
  split; [exact K|]. unfold usable_rows. rewrite K. apply filter_all. intros r I. apply in_map_iff in I as (q & <- & I).
  cbn [rows c78_uk_frame] in I. apply in_map_iff in I as (k & <- & _). unfold usable. cbn. destruct (Rltb_spec 0 1); [reflexivity|lra].
Qed.
Lemma c78_uk_calendar th : use_calendar (with_weights (c78_uk_frame th)) = true.
Proof.
  apply use_calendar_iff. split; [reflexivity|].
  assert (G : forall k, In k c78_uk_days -> usable_date (with_weights (c78_uk_frame th)) (c78_day k)).
  { intros k I. exists (one_weight (c78_uk_row th k)). split; [|split; [reflexivity|]].
    - cbn [with_weights rows c78_uk_frame]. change (In (one_weight (c78_uk_row th k)) (map one_weight (map (c78_uk_row th) c78_uk_days))). now apply in_map, in_map.
    - intros _. cbn. destruct (Rltb_spec 0 1); [reflexivity|lra]. }
  split.
  - exists (c78_day 0), (c78_day 368). split; [apply G; cbn; tauto|]. split; [apply G; cbn; tauto|]. vm_compute. reflexivity.
  - exists (c78_day 0), (c78_day 1). split; [apply G; cbn; tauto|]. split; [apply G; cbn; tauto|]. vm_compute. split; [reflexivity|discriminate].
Qed.
Lemma alone_two g1 g2 f r1 r2 : In r1 (usable_rows f) -> In r2 (usable_rows f) -> g1 (r_date r1) = true -> g2 (r_date r1) = false -> g1 (r_date r2) = false -> g2 (r_date r2) = true -> alone [g1; g2] f.
Proof.
  intros I1 I2 A B C D i Hi. cbn in Hi. destruct i as [|[|i]]; [exists r1|exists r2|lia]; (split; [assumption|]).
  all: intros [|[|[|j]]] g E; cbn in E; try discriminate E; injection E as <-; assumption.
Qed.
Lemma c78_uk_alone th : alone (map (fun c t => marked (DCal c) 0 t) c78_uk) (to_fit (c78_uk_frame th)).
Proof.
  assert (G : forall k, In k c78_uk_days -> In (one_weight (c78_uk_row th k)) (usable_rows (to_fit (c78_uk_frame th)))) by (intros k I; rewrite (proj2 (c78_uk_rows th)); now apply in_map, in_map).
  apply (alone_two (fun t => marked (DCal CalendarChristmasUK) 0 t) (fun t => marked (DCal CalendarBankHolUK) 0 t) _ (one_weight (c78_uk_row th 7)) (one_weight (c78_uk_row th 102))); [apply G; cbn; tauto..| | | |].
  - change (marked (DCal CalendarChristmasUK) 0 (c78_day 7) = true). vm_compute. reflexivity.
  - change (marked (DCal CalendarBankHolUK) 0 (c78_day 7) = false). vm_compute. reflexivity.
  - change (marked (DCal CalendarChristmasUK) 0 (c78_day 102) = false). vm_compute. reflexivity.
  - change (marked (DCal CalendarBankHolUK) 0 (c78_day 102) = true). vm_compute. reflexivity.
Qed.
Lemma c78_uk_plain th : exists r1 r2, In r1 (usable_rows (to_fit (c78_uk_frame th))) /\ In r2 (usable_rows (to_fit (c78_uk_frame th))) /\ r_x r1 <> r_x r2 /\
  forall g, In g (map (fun c t => marked (DCal c) 0 t) c78_uk) -> g (r_date r1) = false /\ g (r_date r2) = false.
Proof.
  rewrite (proj2 (c78_uk_rows th)). exists (one_weight (c78_uk_row th 0)), (one_weight (c78_uk_row th 1)).
  split; [apply in_map, in_map; cbn; tauto|]. split; [apply in_map, in_map; cbn; tauto|]. split; [discriminate|].
  change (r_date (one_weight (c78_uk_row th 0))) with (c78_day 0). change (r_date (one_weight (c78_uk_row th 1))) with (c78_day 1).
  intros g [<-|[<-|[]]]; split; vm_compute; reflexivity.
Qed.
Lemma c78_uk_grid th st sp m grid : zmin_opt (map r_date (rows (to_fit (c78_uk_frame th)))) = Some st -> zmax_opt (map r_date (rows (c78_uk_frame th))) = Some sp ->
  s_x_dates st sp (Some m) (Some "D") (14 # 365) (x_of (ts 2017 12 18) st) = Ok grid -> map fst grid = map c78_day (zrange 0 385).
Proof.
  rewrite (proj1 (c78_uk_rows th)). rewrite map_map. change (map (fun r => r_date (one_weight r)) (rows (c78_uk_frame th))) with (map r_date (rows (c78_uk_frame th))).
  rewrite c78_uk_dates. intros Es Ep. assert (K : st = ts 2017 12 18 /\ sp = ts 2018 12 24).
  { vm_compute in Es, Ep. split; [injection Es as <-|injection Ep as <-]; reflexivity. }
  destruct K as [-> ->]. intros E. apply grid_dates in E as (fr & e & E1 & E2 & E3).
  vm_compute in E1. injection E1 as <-. vm_compute in E2. injection E2 as <-. revert E3. generalize (map fst grid). intros ds E3. vm_compute in E3. apply ok_inj in E3. subst ds. vm_compute. reflexivity.
Qed.
Example C78_holidays : forall a b ec eb, let th := [a; b; ec; eb] in
  exists m r me acts frows, model_calendar_uk = Ok m /\ run_forecast_single c78_world (c78_uk_cfg m) "s" (c78_uk_frame th) = Ok r /\ rs_meta r = [me] /\ rs_data r = acts ++ frows /\
    md_params (m_meta me) = fins th /\ length frows = 386%nat /\
    map (fun d => (d_date d, d_y d)) (skipn 372 frows) =
      map (fun k => (c78_day k, Fin (a * IZR k + b + (if existsb (Z.eqb k) [372; 373; 379]%Z then ec else 0)))) (zrange 372 385).
Proof.
  intros a b ec eb th.
  destruct regression_shipped as [(m & Em & Rg & Mk) _].
  pose proof (calendars_val _ _ _ Em) as Vm.
  assert (Rl : regression (madd model_linear m) c78_uk_phi).
  { apply (regression_madd_plain _ _ (fun x _ => [x; 1%R]) (fun _ t => holiday_phi c78_uk t)); [left; apply sturdy_linear|apply regression_linear_trend|exact Rg]. }
  assert (Nm : fm_n m = 2%nat) by (rewrite <- (rg_len _ _ Rg 0%R 0%Z); reflexivity).
  assert (Nn : fm_name m <> "null") by exact (hd_name _ _ (rg_hardy _ _ Rg)).
  assert (Nl : fm_n (madd model_linear m) = 4%nat) by (unfold madd; rewrite !is_null_false by (exact Nn || discriminate); cbn; now rewrite Nm).
  assert (Vl : fm_val (madd model_linear m) = [val_default]) by (unfold madd; rewrite !is_null_false by (exact Nn || discriminate); unfold combine_models; cbn [fm_val mk_model]; rewrite Vm; reflexivity).
  destruct (C78_forecast c78_rnd (fun _ => "[..]") (fun _ => "#") c78_world (c78_uk_cfg m) "s" DAY "D" (ts 2017 12 18) (c78_uk_frame th) th c78_uk_phi)
    as (r & f1 & mode & acts & es & Er & Ep & Ed & Eme & _ & Emo & Eml & K).
  - reflexivity.
  - intros i. exists (1 / 2)%R. split; [reflexivity|lra].
  - apply c78_uk_steady.
  - discriminate.
  - apply c78_uk_follows.
  - apply c78_uk_settings, (rg_hardy _ _ Rg).
  - split.
    + do 2 eexists. split; [left; reflexivity|]. split; [right; left; reflexivity|]. discriminate.
    + intros f1 E. rewrite (c78_uk_prepared m th) in E. apply ok_inj in E. subst f1. discriminate.
  - rewrite (c78_uk_prepared m th) in Ep. apply ok_inj in Ep. subst f1. apply ok_inj in Emo. subst mode.
    assert (El : map en_model es = [madd model_linear m]).
    { rewrite Eml. unfold candidate_lists. cbn [c78_uk_cfg c_calendar c_trend c_season]. rewrite c78_uk_calendar. reflexivity. }
    destruct es as [|e [|e' es]]; [discriminate El| |discriminate El]. injection El as El.
    destruct (K e (or_introl eq_refl)) as (_ & Pm & _ & Va).
    + rewrite El. exact Rl.
    + rewrite El, Nl. reflexivity.
    + rewrite El, Nl, (proj2 (c78_uk_rows th)), map_length. cbn. lia.
    + rewrite El. pose proof (C72_holidays_determined m (map (fun c t => marked (DCal c) 0 t) c78_uk) (to_fit (c78_uk_frame th))) as De.
      apply De; [exact Rg|apply c78_uk_alone|apply c78_uk_plain].
    + rewrite El. unfold accepts, validate_input. rewrite Vl. reflexivity.
    + destruct Va as (st & sp & grid & Est & Esp & Eg & Ev).
      pose proof (c78_uk_grid th st sp (en_model e) grid Est Esp Eg) as Gr.
      exists m, r, (en_meta e), acts, (en_rows e). split; [exact Em|]. split; [exact Er|]. split; [exact Eme|]. split; [rewrite Ed; cbn [map concat]; now rewrite app_nil_r|]. split; [exact Pm|].
      split; [apply (f_equal (@length _)) in Ev; rewrite !map_length in Ev; rewrite Ev; apply (f_equal (@length _)) in Gr; rewrite !map_length in Gr; rewrite Gr; reflexivity|].
      apply (f_equal (skipn 372)) in Ev. rewrite Gr in Ev. rewrite !skipn_map in Ev. rewrite Ev.
      change (skipn 372 (zrange 0 385)) with (zrange 372 385). rewrite map_map. apply map_ext_in. intros k I. f_equal. f_equal.
      assert (X : x_of (ts 2017 12 18) (c78_day k) = k /\ holiday_phi c78_uk (c78_day k) = [mark (existsb (Z.eqb k) [372; 373; 379]%Z); mark false]).
      { revert k I. apply Forall_forall. unfold holiday_phi, c78_uk. cbn [map].
        cut (Forall (fun k => x_of (ts 2017 12 18) (c78_day k) = k /\ marked (DCal CalendarChristmasUK) 0 (c78_day k) = existsb (Z.eqb k) [372; 373; 379]%Z /\ marked (DCal CalendarBankHolUK) 0 (c78_day k) = false) (zrange 372 385)).
        - apply Forall_impl. intros k (A & B & C). split; [exact A|]. now rewrite B, C.
        - change (zrange 372 385) with [372; 373; 374; 375; 376; 377; 378; 379; 380; 381; 382; 383; 384; 385]%Z. repeat (constructor; [vm_compute; repeat split; reflexivity|]). constructor. }
      destruct X as [X1 X2]. unfold c78_uk_phi. rewrite X1, X2. unfold th, rdot, mark. cbn [app combine map rsum fst snd].
      destruct (existsb (Z.eqb k) [372; 373; 379]%Z); ring.
Qed.
