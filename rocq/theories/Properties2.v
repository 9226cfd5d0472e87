(* Shipped models, fixed parameters, guesses and bounds, seasonality, dummies: C03, C08-C19. *)
From Coq Require Import ZArith String List Bool Reals PrimFloat Sorted.
From Verif Require Import Num Py Cal Model ModelProofs Base Dummy Fixed CalSweep BaseProofs SeasonProofs
  DummyProofs FixedProofs GuessProofs ShapeProofs NumProofs Ex.
Import ListNotations.
Local Open Scope string_scope.
Local Open Scope list_scope.

(* ================= C03: the shipped models ================= *)
(* four distinct x values are enough for every shipped model *)
Theorem C03_shipped_models : forall xs ys d (t : tree XR),
  series xs ys d -> (4 <= n_distinct xs)%nat -> prune t <> None -> Forall shipped (leaves t) ->
  fm_n (build t) = sum_n (leaves t) /\
  init_sized (Some (fins xs)) (Some (fins ys)) d (build t) /\
  bounds_sized (Some (fins xs)) (Some (fins ys)) d (build t).
Proof. exact shipped_tree_sized. Qed.
Print Assumptions C03_shipped_models.

Definition c03_tree {T} `{NumOps T} : tree T :=
  TMul (TAdd (Leaf model_linear) (Leaf model_ramp)) (TAdd (Leaf model_season_wday) (Leaf model_null)).
Example C03_shipped_example :
  Forall shipped (leaves c03_tree) /\ prune (T:=XR) c03_tree <> None /\ sum_n (leaves (T:=XR) c03_tree) = 10%nat /\
  let _ := fops in
  rmap (fun p => (length p, firstn 4 p))
    (fm_init (build c03_tree) (Some [0; 1; 2; 3; 4]%float) (Some [5; 5; 5; 8; 11]%float) None false (fun _ => 0.5%float))
  = Ok (10%nat, [1.5; 5; 3; 3]%float).
Proof.
  split; [|split; [discriminate|split; [reflexivity|vm_compute; reflexivity]]].
  cbn. repeat apply Forall_cons; try apply Forall_nil; left; cbn; tauto.
Qed.

(* with three samples the ramp has no initial guess: IndexError instead of a vector *)
Theorem C03_ramp_three_samples_refuted : let _ := fops in
  exists x y, length x = 3%nat /\ length y = 3%nat /\
    forall d mult rnd, fm_init model_ramp (Some x) (Some y) d mult rnd = Err IndexError.
Proof. exists [0; 1; 2]%float, [4; 5; 9]%float. repeat split; vm_compute; reflexivity. Qed.
Print Assumptions C03_ramp_three_samples_refuted.

(* ================= C08 ================= *)
Theorem C08_fixed_prediction : forall (T : Type) (N : NumOps T) fmt (m m' : fmodel T) fixed x d p mult kw,
  fix_params_fmodel fmt m fixed = Ok m' -> length p = n_free fixed ->
  fm_n m' = n_free fixed /\
  call m' x d (Some p) mult kw = call m x d (Some (fill fixed p)) mult no_kw.
Proof.
  exact (fun T N fmt m m' fixed x d p mult kw E L =>
    conj (proj1 (proj2 (fix_ok fmt m m' fixed E))) (fixed_prediction fmt m m' fixed x d p mult kw E L)).
Qed.
Print Assumptions C08_fixed_prediction.

Theorem C08_fixed_guess : forall (T : Type) (N : NumOps T) fmt (m m' : fmodel T) fixed x y d mult rnd g,
  fix_params_fmodel fmt m fixed = Ok m' ->
  match x with Some l => existsb nisnan l | None => false end = false ->
  fm_init m x y d mult rnd = Ok g -> length g = fm_n m ->
  fm_init m' x y d mult rnd = Ok (pick fixed g).
Proof. exact @fixed_guess. Qed.
Print Assumptions C08_fixed_guess.

Theorem C08_fixed_bounds : forall (T : Type) (N : NumOps T) fmt (m m' : fmodel T) fixed x y d b,
  fix_params_fmodel fmt m fixed = Ok m' -> fm_bounds m x y d = Ok b ->
  length (b_lo b) = fm_n m -> length (b_hi b) = fm_n m ->
  fm_bounds m' x y d = Ok (mkBounds (pick fixed (b_lo b)) (pick fixed (b_hi b)) true).
Proof. exact @fixed_bounds. Qed.
Print Assumptions C08_fixed_bounds.

Theorem C08_accepted_iff : forall (T : Type) (N : NumOps T) fmt (m : fmodel T) fixed,
  (length fixed = fm_n m -> exists m', fix_params_fmodel fmt m fixed = Ok m') /\
  (length fixed <> fm_n m -> fix_params_fmodel fmt m fixed = Err AssertionError).
Proof. exact (fun T N fmt m fixed => conj (fix_accepted fmt m fixed) (fix_refused fmt m fixed)). Qed.
Print Assumptions C08_accepted_iff.

(* the shared vector is overwritten by every call, yet no history changes a later result *)
Theorem C08_history_irrelevant : forall (T : Type) (N : NumOps T) (m : fmodel T) fixed h c,
  snd (fixed_step m (null_positions fixed) (after m (null_positions fixed) fixed h)
         (c_x c) (c_date c) (c_p c) (c_mode c))
  = snd (fixed_step m (null_positions fixed) fixed (c_x c) (c_date c) (c_p c) (c_mode c)).
Proof. exact @history_irrelevant. Qed.
Print Assumptions C08_history_irrelevant.

(* linear with intercept fixed to 7: slope free *)
Example C08_example :
  let _ := fops in
  rmap (fun m' => (fm_n m', call m' [0; 1; 2]%float None (Some [3]%float) false no_kw,
                   fm_init m' (Some [0; 1; 2]%float) (Some [5; 6; 9]%float) None false (fun _ => 0%float)))
    (fix_params_fmodel (fun _ => "[: 7.]") model_linear [nan; 7]%float)
  = Ok (1%nat, Ok (Ar [7; 10; 13]%float), Ok [2]%float) /\
  fst (fixed_step model_linear [0%nat] [nan; 7]%float [0; 1; 2]%float None (Some [3]%float) None) = [3; 7]%float /\
  snd (fixed_step model_linear [0%nat] [3; 7]%float [0; 1; 2]%float None (Some [5]%float) None)
  = Ok (Ar [7; 12; 17]%float).
Proof. vm_compute. auto. Qed.

(* a single value is accepted for two free parameters and used for both *)
Theorem C08_wrong_size_refuted : forall fmt, exists m' : fmodel XR,
  fix_params_fmodel fmt model_linear [XNaN; XNaN] = Ok m' /\ fm_n m' = 2%nat /\
  call m' (fins [10%R]) None (Some [Fin 3]) false no_kw = Ok (Ar (fins [(3 * 10 + 3)%R])).
Proof. exact single_value_broadcast. Qed.
Print Assumptions C08_wrong_size_refuted.

(* ================= C09 ================= *)
Theorem C09_fixed_model : forall (T : Type) (N : NumOps T) (m : fmodel T) fixed built_mult,
  (fm_n m = 0%nat -> get_fixed_model m fixed built_mult = Ok m) /\
  (fm_n m <> 0%nat -> length fixed <> fm_n m -> get_fixed_model m fixed built_mult = Err ValueError) /\
  (fm_n m <> 0%nat -> length fixed = fm_n m ->
     exists m', get_fixed_model m fixed built_mult = Ok m' /\
       fm_name m' = (fm_name m ++ "_fixed")%string /\ fm_n m' = 0%nat /\
       (forall x d p mult kw, call m' x d p mult kw = call m x d (Some fixed) mult no_kw) /\
       (forall x d p kw, fm_f m' x d p None kw = call m x d (Some fixed) built_mult no_kw)).
Proof. exact @fixed_model_spec. Qed.
Print Assumptions C09_fixed_model.

(* ignoring the samples i..j-1: a plain call gives 0 everywhere, only the multiplicative mode gives
   the intended 1 outside *)
Theorem C09_spike_ignored_refuted : forall (i j : nat) (xs : list XR),
  (i <= j)%nat -> (j <= length xs)%nat ->
  exists m, create_fixed_spike_ignored (Fin (INR i)) (Fin (INR j - INR i)) = Ok m /\ fm_n m = 0%nat /\
    forall d p kw,
      call m xs d p false kw = Ok (Ar (fins (map (fun _ => 0%R) (seq 0 (length xs))))) /\
      call m xs d p true kw = Ok (Ar (fins (map (spike_spec true i j 0) (seq 0 (length xs))))) /\
      fm_f m xs d p None kw = Ok (Ar (fins (map (spike_spec true i j 0) (seq 0 (length xs))))).
Proof. exact spike_ignored. Qed.
Print Assumptions C09_spike_ignored_refuted.

Example C09_example :
  let _ := fops in
  rmap (fun m => (call m [0; 1; 2; 3]%float None None false no_kw, call m [0; 1; 2; 3]%float None None true no_kw))
    (create_fixed_spike_ignored 1 2)%float
  = Ok (Ok (Ar [0; 0; 0; 0]%float), Ok (Ar [1; 0; 0; 1]%float)) /\
  rmap (fun m => (fm_name m, call m [0; 1; 2; 3]%float None (Some [9; 9; 9]%float) false no_kw))
    (create_fixed_step 10 2)%float
  = Ok ("step_fixed", Ok (Ar [0; 0; 10; 10]%float)) /\
  is_ok (get_fixed_model model_linear [1]%float false) = false.
Proof. vm_compute. auto. Qed.

(* ================= C10 ================= *)
Theorem C10_nothing_to_simplify : forall (T : Type) (N : NumOps T) fmt (m : fmodel T) x y d b,
  fm_bounds m x y d = Ok b -> length (b_lo b) = length (b_hi b) ->
  (forall i, ~ pinned b i) -> simplify_model fmt m x y d = Ok m.
Proof. exact @simplify_nothing. Qed.
Print Assumptions C10_nothing_to_simplify.

(* what "pinned" means on the reals *)
Theorem C10_pinned : forall (b : bounds XR) i, pinned b i <->
  exists r, nth_error (b_lo b) i = Some (Fin r) /\ nth_error (b_hi b) i = Some (Fin r).
Proof. exact pinned_iff. Qed.
Print Assumptions C10_pinned.

Theorem C10_simplified : forall fmt (m : fmodel XR) x y d b i,
  fm_bounds m x y d = Ok b -> length (b_lo b) = fm_n m -> length (b_hi b) = fm_n m ->
  b_nd b = true -> pinned b i ->
  exists m', simplify_model fmt m x y d = Ok m' /\ (fm_n m' < fm_n m)%nat /\
    (forall ps, length ps = fm_n m' -> exists out, merged (b_lo b) (b_hi b) ps out) /\
    (forall ps out, merged (b_lo b) (b_hi b) ps out ->
       length ps = fm_n m' /\
       forall xs ds mult kw, call m' xs ds (Some ps) mult kw = call m xs ds (Some out) mult no_kw).
Proof. exact simplify_predicts. Qed.
Print Assumptions C10_simplified.

Theorem C10_list_bounds_raise : forall (T : Type) (N : NumOps T) fmt (m : fmodel T) x y d b i,
  fm_bounds m x y d = Ok b -> length (b_lo b) = length (b_hi b) -> b_nd b = false ->
  pinned b i -> simplify_model fmt m x y d = Err TypeError.
Proof. exact @simplify_lists. Qed.
Print Assumptions C10_list_bounds_raise.

(* constant ramp slope: bounds [0,5] x [2,2] given as array or as lists *)
Definition pinned_ramp {T} `{NumOps T} (nd : bool) : fmodel T :=
  mk_model "r" 2 f_ramp None (Some (fun _ _ _ => Ok (mkBounds [n0; nofZ 2] [nofZ 5; nofZ 2] nd))) None None None.
Example C10_example :
  let _ := fops in
  rmap (fun m' => (fm_n m', call m' [0; 1; 2; 3]%float None (Some [1]%float) false no_kw))
    (simplify_model (fun _ => "") (pinned_ramp true) None None None)
  = Ok (1%nat, Ok (Ar [-0; 0; 2; 4]%float)) /\
  is_ok (simplify_model (fun _ => "") (pinned_ramp false) None None None) = false /\
  rmap fm_name (simplify_model (fun _ => "") model_linear_nondec None None None) = Ok "linear_nondec".
Proof. vm_compute. auto. Qed.

(* ================= C11 ================= *)
Theorem C11_validate_iff : forall (T : Type) (N : NumOps T) g (b : bounds T),
  validate_initial_guess g b = Ok true <-> entries_within g b.
Proof. exact @validate_iff. Qed.
Print Assumptions C11_validate_iff.

Theorem C11_validate_size : forall (T : Type) (N : NumOps T) g (b : bounds T),
  length g <> length (b_lo b) \/ length g <> length (b_hi b) <->
  validate_initial_guess g b = Err ValueError.
Proof. exact @validate_wrong_size. Qed.
Print Assumptions C11_validate_size.

(* any composite of shipped models (decay on positive data) on at least four samples with
   increasing x: the guess passes the check *)
Theorem C11_shipped_guesses : forall xs ys d (t : tree XR),
  series xs ys d -> StronglySorted Rlt xs -> (4 <= length xs)%nat ->
  prune t <> None -> Forall (well_guessed ys) (leaves t) ->
  forall is_mult rnd, draws rnd -> exists p b,
    fm_init (build t) (Some (fins xs)) (Some (fins ys)) d is_mult rnd = Ok p /\
    fm_bounds (build t) (Some (fins xs)) (Some (fins ys)) d = Ok b /\
    length p = fm_n (build t) /\ validate_initial_guess p b = Ok true.
Proof. exact well_guessed_tree. Qed.
Print Assumptions C11_shipped_guesses.

Definition c11_tree {T} `{NumOps T} : tree T :=
  TAdd (Leaf model_linear_nondec) (TMul (Leaf model_ramp) (Leaf model_season_wday)).
Example C11_example :
  Forall (well_guessed [5; 6; 9; 9]%R) (leaves c11_tree) /\
  let _ := fops in
  let x := Some [0; 1; 2; 3]%float in let y := Some [5; 6; 9; 9]%float in
  (let* p := fm_init (build c11_tree) x y None false (fun _ => 0.5%float) in
   let* b := fm_bounds (build c11_tree) x y None in validate_initial_guess p b) = Ok true.
Proof.
  split; [|vm_compute; reflexivity].
  cbn. repeat apply Forall_cons; try apply Forall_nil; left; cbn; tauto.
Qed.

(* season_month: fine when every month occurs (and December does not average to 0) *)
Theorem C11_month_guess : forall xs ys l mult rnd, length l = length ys ->
  (forall i, (1 <= i <= 12)%Z -> exists t, In t l /\ month t = i) ->
  (mult = true -> month_mean (fins ys) l 12 <> Fin 0) -> draws rnd ->
  exists p b, fm_init model_season_month (Some (fins xs)) (Some (fins ys)) (Some l) mult rnd = Ok p /\
    fm_bounds model_season_month (Some (fins xs)) (Some (fins ys)) (Some l) = Ok b /\
    validate_initial_guess p b = Ok true.
Proof. exact month_guess_good. Qed.
Print Assumptions C11_month_guess.

(* one month missing: the guess contains NaN and the check fails *)
Theorem C11_month_missing_refuted : forall xs ys l rnd i, length l = length ys ->
  (1 <= i <= 12)%Z -> (forall t, In t l -> month t <> i) ->
  exists p b, fm_init model_season_month (Some (fins xs)) (Some (fins ys)) (Some l) false rnd = Ok p /\
    fm_bounds model_season_month (Some (fins xs)) (Some (fins ys)) (Some l) = Ok b /\
    validate_initial_guess p b = Ok false.
Proof. exact month_guess_missing. Qed.
Print Assumptions C11_month_missing_refuted.

(* sigmoid_step: rejected for every series whose values are large compared to their spread *)
Theorem C11_sigmoid_step_refuted : forall xs ys d, (2 <= length ys)%nat -> (1 <= length xs)%nat ->
  (forall u v w, In u ys -> In v ys -> In w ys -> (2 * (u - v) < w)%R) ->
  forall mult rnd, exists p b,
    fm_init model_sigmoid_step (Some (fins xs)) (Some (fins ys)) d mult rnd = Ok p /\
    fm_bounds model_sigmoid_step (Some (fins xs)) (Some (fins ys)) d = Ok b /\
    validate_initial_guess p b = Ok false.
Proof. exact sigmoid_guess_rejected. Qed.
Print Assumptions C11_sigmoid_step_refuted.

Example C11_sigmoid_example :
  let _ := fops in
  let x := Some [0; 1; 2; 3]%float in let y := Some [100; 100; 101; 101]%float in
  (let* p := fm_init model_sigmoid_step x y None false (fun _ => 0.5%float) in
   let* b := fm_bounds model_sigmoid_step x y None in
   let* v := validate_initial_guess p b in Ok (p, b_lo b, b_hi b, v))
  = Ok ([101; 2; 10201], [-2; 0; 0], [2; 3; infinity], false)%float.
Proof. vm_compute. reflexivity. Qed.

(* ramp on x with repetitions: the start is searched among the distinct x, the bounds are taken
   from positions of the repeated column *)
Theorem C11_ramp_duplicates_refuted : let _ := fops in
  exists x y, forall d mult rnd, exists p b,
    fm_init model_ramp (Some x) (Some y) d mult rnd = Ok p /\
    fm_bounds model_ramp (Some x) (Some y) d = Ok b /\ validate_initial_guess p b = Ok false.
Proof.
  exists ([0; 1; 2; 3] ++ repeat 4 10)%float, ([0; 0] ++ repeat 9 12)%float.
  intros d mult rnd. do 2 eexists. split; [vm_compute; reflexivity|].
  split; [vm_compute; reflexivity|]. vm_compute. reflexivity.
Qed.
Print Assumptions C11_ramp_duplicates_refuted.

(* ================= C12 ================= *)
Theorem C12_constant : forall xs d A mult kw,
  call model_constant (fins xs) d (Some (fins [A])) mult kw = Ok (Ar (fins (map (fun _ => A) xs))).
Proof. exact constant_formula. Qed.
Print Assumptions C12_constant.
Theorem C12_linear : forall xs d A B mult kw,
  call model_linear (fins xs) d (Some (fins [A; B])) mult kw
  = Ok (Ar (fins (map (fun x => A * x + B)%R xs))) /\
  call model_linear_nondec (fins xs) d (Some (fins [A; B])) mult kw
  = Ok (Ar (fins (map (fun x => A * x + B)%R xs))).
Proof. exact (fun xs d A B mult kw => conj (linear_formula xs d A B mult kw) (linear_nondec_formula xs d A B mult kw)). Qed.
Print Assumptions C12_linear.
Theorem C12_quasilinear : forall xs d A B C mult kw, Forall (fun x => 0 < x)%R xs ->
  call model_quasilinear (fins xs) d (Some (fins [A; B; C])) mult kw
  = Ok (Ar (fins (map (fun x => A * Rpower x B + C)%R xs))).
Proof. exact quasilinear_formula. Qed.
Print Assumptions C12_quasilinear.
Theorem C12_exponential : forall xs d A B mult kw, (0 < B)%R ->
  call model_exp (fins xs) d (Some (fins [A; B])) mult kw
  = Ok (Ar (fins (map (fun x => A * Rpower B x)%R xs))).
Proof. exact exp_formula. Qed.
Print Assumptions C12_exponential.
Theorem C12_decay : forall xs d A B D mult kw,
  call model_decay (fins xs) d (Some (fins [A; B; D])) mult kw
  = Ok (Ar (fins (map (decay_spec A B D) xs))).
Proof. exact decay_formula. Qed.
Print Assumptions C12_decay.
Theorem C12_step : forall xs d A B mult kw,
  call model_step (fins xs) d (Some (fins [A; B])) mult kw
  = Ok (Ar (fins (map (step_spec mult A B) xs))).
Proof. exact step_formula. Qed.
Print Assumptions C12_step.
Theorem C12_two_steps : forall xs d A1 B1 A2 B2 mult kw,
  call model_two_steps (fins xs) d (Some (fins [A1; B1; A2; B2])) mult kw
  = Ok (Ar (fins (map (two_steps_spec mult A1 B1 A2 B2) xs))).
Proof. exact two_steps_formula. Qed.
Print Assumptions C12_two_steps.
Theorem C12_ramp : forall xs d A B mult kw,
  call model_ramp (fins xs) d (Some (fins [A; B])) mult kw
  = Ok (Ar (fins (map (ramp_spec mult A B) xs))).
Proof. exact ramp_formula. Qed.
Print Assumptions C12_ramp.
Theorem C12_sigmoid : forall xs d B C D mult kw,
  call model_sigmoid (fins xs) d (Some (fins [B; C; D])) mult kw
  = Ok (Ar (fins (map (sigmoid_spec mult B C D) xs))) /\
  call model_sigmoid_step (fins xs) d (Some (fins [B; C; D])) mult kw
  = Ok (Ar (fins (map (sigmoid_spec mult B C D) xs))).
Proof. exact sigmoid_formula. Qed.
Print Assumptions C12_sigmoid.
Theorem C12_step_date : forall xs ds t0 A mult kw,
  call (get_model_step_date t0) xs (Some ds) (Some (fins [A])) mult kw
  = Ok (Ar (fins (map (step_date_spec mult t0 A) ds))).
Proof. exact step_date_formula. Qed.
Print Assumptions C12_step_date.
Theorem C12_spike_date : forall xs ds t0 t1 A mult kw,
  call (get_model_spike_date t0 t1) xs (Some ds) (Some (fins [A])) mult kw
  = Ok (Ar (fins (map (spike_date_spec mult t0 t1 A) ds))).
Proof. exact spike_date_formula. Qed.
Print Assumptions C12_spike_date.
(* spikes count positions *)
Theorem C12_spike : forall xs d A (i j : nat) mult kw, (i <= j)%nat -> (j <= length xs)%nat ->
  call model_spike xs d (Some [Fin A; Fin (INR i); Fin (INR j)]) mult kw
  = Ok (Ar (fins (map (spike_spec mult i j A) (seq 0 (length xs))))).
Proof. exact spike_formula. Qed.
Print Assumptions C12_spike.
(* with fractional parameters the spike may drop a sample *)
Theorem C12_spike_fractional_refuted :
  call model_spike (fins [0; 1]%R) None (Some (fins [5; 3/4; 5/4]%R)) false no_kw = Ok (Ar (fins [0%R])).
Proof. exact spike_fraction. Qed.
Print Assumptions C12_spike_fractional_refuted.
Theorem C12_one_value_per_sample : forall (T : Type) (N : NumOps T) (m : fmodel T) xs d p mult kw,
  In m [model_constant; model_linear; model_linear_nondec; model_quasilinear; model_exp;
        model_decay; model_step; model_two_steps; model_sigmoid; model_sigmoid_step; model_ramp] ->
  length p = fm_n m -> one_per_sample (length xs) (call m xs d (Some p) mult kw).
Proof. exact trends_one_per_sample. Qed.
Print Assumptions C12_one_value_per_sample.

Example C12_example :
  let _ := fops in
  let x := [0; 1; 2; 3; 4]%float in
  call model_step x None (Some [2; 10]%float) true no_kw = Ok (Ar [1; 1; 10; 10; 10]%float) /\
  call model_two_steps x None (Some [1; 10; 3; 5]%float) false no_kw = Ok (Ar [0; 10; 10; 15; 15]%float) /\
  call model_ramp x None (Some [2; 3]%float) true no_kw = Ok (Ar [1; 1; 1; 4; 7]%float) /\
  call model_spike [7; 7; 7; 7; 7]%float None (Some [9; 1; 3]%float) false no_kw = Ok (Ar [0; 9; 9; 0; 0]%float) /\
  call (get_model_spike_date (ts 2018 1 2) (ts 2018 1 4)) x (Some (jan2018 5)) (Some [3]%float) true no_kw
  = Ok (Ar [1; 3; 3; 1; 1]%float) /\
  call (get_model_step_date (ts 2018 1 2)) x (Some (jan2018 5)) (Some [3]%float) true no_kw
  = Ok (Ar [1; 3; 3; 3; 3]%float).
Proof. vm_compute. repeat split; reflexivity. Qed.

(* ================= C13 ================= *)
Theorem C13_nondecreasing : forall x y dd b A B xs d mult kw,
  fm_bounds model_linear_nondec x y dd = Ok b -> entries_within (fins [A; B]) b ->
  exists ys, call model_linear_nondec (fins xs) d (Some (fins [A; B])) mult kw = Ok (Ar (fins ys)) /\
    related (fun x x' y y' => (x <= x')%R -> (y <= y')%R) xs ys.
Proof. exact nondec_in_bounds. Qed.
Print Assumptions C13_nondecreasing.
(* decay approaches its level D without crossing it *)
Theorem C13_decay : forall x y dd b A B D xs d mult kw,
  fm_bounds model_decay x y dd = Ok b -> entries_within (fins [A; B; D]) b ->
  exists ys, call model_decay (fins xs) d (Some (fins [A; B; D])) mult kw = Ok (Ar (fins ys)) /\
    related (fun x x' y y' => (x <= x' -> Rabs (y' - D) <= Rabs (y - D) /\ 0 <= (y' - D) * (y - D))%R) xs ys.
Proof. exact decay_in_bounds. Qed.
Print Assumptions C13_decay.
Theorem C13_sigmoid : forall x y dd b B C D xs d mult kw,
  fm_bounds model_sigmoid_step x y dd = Ok b -> entries_within (fins [B; C; D]) b ->
  exists ys, call model_sigmoid_step (fins xs) d (Some (fins [B; C; D])) mult kw = Ok (Ar (fins ys)) /\
    related (fun x x' y y' =>
      (Rmin (neutral mult) B <= y <= Rmax (neutral mult) B /\
       (x <= x' -> (neutral mult <= B -> y <= y') /\ (B <= neutral mult -> y' <= y)))%R) xs ys.
Proof. exact sigmoid_in_bounds. Qed.
Print Assumptions C13_sigmoid.
(* linear + ramp: slope a before the start, a + B after it, Lipschitz (hence continuous) *)
Theorem C13_linear_ramp : forall a b A B,
  (forall xs d mult kw, call (madd model_linear model_ramp) (fins xs) d (Some (fins [a; b; A; B])) mult kw
     = Ok (Ar (fins (map (pw_linear a b A B) xs)))) /\
  (forall x x', x <= x' <= A -> pw_linear a b A B x' - pw_linear a b A B x = a * (x' - x))%R /\
  (forall x x', A <= x <= x' -> pw_linear a b A B x' - pw_linear a b A B x = (a + B) * (x' - x))%R /\
  (forall x x', Rabs (pw_linear a b A B x' - pw_linear a b A B x) <= (Rabs a + Rabs B) * Rabs (x' - x))%R.
Proof.
  exact (fun a b A B => conj (fun xs d mult kw => linear_ramp_call xs d a b A B mult kw) (pw_linear_shape a b A B)).
Qed.
Print Assumptions C13_linear_ramp.

Example C13_example :
  let _ := fops in
  call (madd model_linear model_ramp) [0; 1; 2; 3; 4]%float None (Some [1; 10; 2; 5]%float) false no_kw
  = Ok (Ar [10; 11; 12; 18; 24]%float) /\
  (let* b := fm_bounds model_linear_nondec None None None in validate_initial_guess [2; -5]%float b) = Ok true /\
  (let* b := fm_bounds model_linear_nondec None None None in validate_initial_guess [-2; -5]%float b) = Ok false /\
  (let* b := fm_bounds model_decay None None None in validate_initial_guess [3; -1; 5]%float b) = Ok true.
Proof. vm_compute. repeat split; reflexivity. Qed.

(* ================= C14 ================= *)
Theorem C14_weekday_formula : forall (T : Type) (N : NumOps T) xs ds p mult act, length p = 6%nat ->
  call model_season_wday xs (Some ds) (Some p) mult (mkKw act []) = Ok (Ar (map (wday_value mult p) ds)).
Proof. exact @wday_formula. Qed.
Print Assumptions C14_weekday_formula.
Theorem C14_weekly : forall t k, weekday (t + k * (7 * DAY)) = weekday t.
Proof. exact weekday_week. Qed.
Print Assumptions C14_weekly.
Theorem C14_accepted_iff : forall (T : Type) (N : NumOps T) (xs ys : list T) d,
  validate_input model_season_wday xs ys d = Ok true <->
  exists ds, d = Some ds /\ forall w, (0 <= w < 7)%Z -> exists t, In t ds /\ weekday t = w.
Proof. exact @wday_accepts_iff. Qed.
Print Assumptions C14_accepted_iff.
Theorem C14_needs_dates : forall (T : Type) (N : NumOps T) (xs : list T) p mult act,
  call model_season_wday xs None (Some p) mult (mkKw act []) = Err AttributeError /\
  call model_season_month xs None (Some p) mult (mkKw act []) = Err AttributeError.
Proof. exact @season_needs_dates. Qed.
Print Assumptions C14_needs_dates.
Example C14_example :
  let _ := fops in
  call model_season_wday [] (Some (jan2018 9)) (Some [1; 2; 3; 4; 5; 6]%float) true no_kw
  = Ok (Ar [1; 1; 2; 3; 4; 5; 6; 1; 1]%float) /\
  validate_input model_season_wday []%float [] (Some (jan2018 9)) = Ok true /\
  validate_input model_season_wday []%float [] (Some (jan2018 6)) = Ok false.
Proof. vm_compute. auto. Qed.

(* ================= C15 ================= *)
Theorem C15_month_formula : forall (T : Type) (N : NumOps T) xs ds p mult act, length p = 11%nat ->
  call model_season_month xs (Some ds) (Some p) mult (mkKw act []) = Ok (Ar (map (month_value mult p) ds)) /\
  call model_season_month_old xs (Some ds) (Some p) mult (mkKw act []) = Ok (Ar (map (month_value mult p) ds)).
Proof. exact @month_formula. Qed.
Print Assumptions C15_month_formula.
(* the guess: in month m the model uses the mean of month m - 1 relative to December *)
Theorem C15_guess_shifted : forall (T : Type) (N : NumOps T) x ys ds mult rnd, length ys = length ds ->
  match x with Some l => existsb nisnan l | None => false end = false ->
  exists g, fm_init model_season_month x (Some ys) (Some ds) mult rnd = Ok g /\ length g = 11%nat /\
    forall m, (2 <= m <= 12)%Z -> forall t, month t = m ->
      month_value mult g t =
      (if mult then ndiv else nsub) (month_mean ys ds (m - 1)) (month_mean ys ds 12).
Proof. exact @month_guess_formula. Qed.
Print Assumptions C15_guess_shifted.
(* hence a purely monthly series is not reproduced by its own guess, whatever the level *)
Definition year2018 : list Z := map (fun i => ts 2018 (1 + Z.of_nat i) 1) (seq 0 12).
Theorem C15_guess_refuted : let _ := fops in
  exists p ys g pred,
    call model_season_month [] (Some year2018) (Some p) false no_kw = Ok (Ar ys) /\
    (forall rnd, fm_init model_season_month None (Some ys) (Some year2018) false rnd = Ok g) /\
    call model_season_month [] (Some year2018) (Some g) false no_kw = Ok (Ar pred) /\
    map2 PrimFloat.sub ys pred <> map (fun _ => (0 - 0)%float) ys /\
    map2 PrimFloat.sub ys pred = [0; 12; 12; 12; 12; 12; 12; 12; 12; 12; 12; 12]%float.
Proof.
  exists [1; 2; 3; 4; 5; 6; 7; 8; 9; 10; 11]%float. do 3 eexists.
  split; [vm_compute; reflexivity|]. split; [intros rnd; vm_compute; reflexivity|].
  split; [vm_compute; reflexivity|]. split; [|vm_compute; reflexivity].
  intros E. apply (f_equal (fun l => nth 1 l 0%float)) in E. vm_compute in E.
  apply (f_equal (PrimFloat.eqb 12)) in E. vm_compute in E. discriminate.
Qed.
Print Assumptions C15_guess_refuted.

(* ================= C16 ================= *)
Theorem C16_fourier_formula : forall xs ds p mult act, length p = 20%nat ->
  call model_season_fourier_yearly xs (Some ds) (Some (fins p)) mult (mkKw act []) =
  Ok (Ar (fins (map (fun t => fourier_spec p (day_of t)) ds))).
Proof. exact fourier_real. Qed.
Print Assumptions C16_fourier_formula.
Theorem C16_period : forall p day k, fourier_spec p (day + 1461 * k) = fourier_spec p day.
Proof. exact fourier_period_k. Qed.
Print Assumptions C16_period.
Theorem C16_linear_in_parameters : forall a b p q day, length p = length q ->
  fourier_spec (map (fun uv => a * fst uv + b * snd uv)%R (combine p q)) day =
  (a * fourier_spec p day + b * fourier_spec q day)%R.
Proof. exact fourier_linear. Qed.
Print Assumptions C16_linear_in_parameters.
(* only cos(1*k*0) = 1 contributes on 1970-01-01, at any hour *)
Example C16_example : fourier_spec (repeat 0%R 10 ++ [5%R] ++ repeat 0%R 9) (day_of 3600000000000) = 5%R.
Proof.
  change (day_of 3600000000000) with 0%Z. unfold fourier_spec. cbn [seq map repeat app nth Nat.add Nat.sub rsum].
  rewrite !Rmult_0_r, sin_0, cos_0. ring.
Qed.

(* ================= C17 ================= *)
Theorem C17_numeric_list : forall name (l : list R), l <> [] ->
  exists m, get_model_dummy name (DNums (fins l)) = Ok m /\ fm_n m = 1%nat /\ fm_name m = name /\
    forall xs d A mult act,
      call m (fins xs) d (Some [Fin A]) mult (mkKw act []) =
      Ok (Ar (fins (map (fun x => dummy_effect mult A (in_list_R l x)) xs))).
Proof. exact dummy_nums. Qed.
Print Assumptions C17_numeric_list.
Theorem C17_date_list : forall name (l : list Z), l <> [] ->
  exists m, get_model_dummy name (DDates l) = Ok m /\ fm_n m = 1%nat /\ fm_name m = name /\
    forall xs ds A mult act,
      call m xs (Some ds) (Some [Fin A]) mult (mkKw act []) =
      Ok (Ar (fins (map (fun t => dummy_effect mult A (in_list_Z l t)) ds))).
Proof. exact dummy_dates. Qed.
Print Assumptions C17_date_list.
Theorem C17_membership : (forall l x, in_list_R l x = true <-> In x l) /\ (forall l t, in_list_Z l t = true <-> In t l).
Proof. exact (conj in_list_R_iff in_list_Z_iff). Qed.
Print Assumptions C17_membership.
Theorem C17_empty_list_refused : forall (T : Type) (N : NumOps T) name,
  get_model_dummy (T:=T) name (DNums []) = Err AssertionError /\
  get_model_dummy (T:=T) name (DDates []) = Err AssertionError.
Proof. exact dummy_empty_list. Qed.
Print Assumptions C17_empty_list_refused.
Theorem C17_bad_mask_refused : forall name (f : dummyfun XR) mask v,
  f probe_x (Some probe_dates) = Ok mask -> In v mask -> v <> Fin 0 -> v <> Fin 1 ->
  get_model_dummy name (DFun f) = Err AssertionError.
Proof. exact dummy_fun_refused. Qed.
Print Assumptions C17_bad_mask_refused.
(* shipped dummies and any other test on the date *)
Theorem C17_date_function : forall name (test : Z -> bool),
  exists m, get_model_dummy name (DFun (date_mask (T:=XR) test)) = Ok m /\ fm_n m = 1%nat /\
    fm_name m = name /\
    forall xs ds A mult act,
      call m xs (Some ds) (Some [Fin A]) mult (mkKw act []) =
      Ok (Ar (fins (map (fun t => dummy_effect mult A (test t)) ds))).
Proof. exact dummy_date_mask. Qed.
Print Assumptions C17_date_function.
(* documentation: factor A on the masked samples; actual factor: A + 1 *)
Theorem C17_factor_refuted : exists A, dummy_effect true A true <> A.
Proof. exists 0%R. unfold dummy_effect. rewrite Rplus_0_l. exact R1_neq_R0. Qed.
Print Assumptions C17_factor_refuted.
Example C17_example :
  let _ := fops in
  rmap (fun m => (call m [0; 1; 2; 3]%float None (Some [5]%float) false no_kw,
                  call m [0; 1; 2; 3]%float None (Some [5]%float) true no_kw))
    (get_model_dummy "d" (DNums [1; 3]%float))
  = Ok (Ok (Ar [0; 5; 0; 5]%float), Ok (Ar [1; 6; 1; 6]%float)) /\
  rmap (fun m => call m [] (Some (jan2018 7)) (Some [5]%float) false no_kw) model_season_wday_2
  = Ok (Ok (Ar [5; 5; 5; 5; 5; 0; 0]%float)) /\
  rmap (fun m => call m [] (Some [ts 2018 12 24; ts 2018 12 25]) (Some [5]%float) false no_kw) model_dummy_christmas
  = Ok (Ok (Ar [0; 5]%float)).
Proof. vm_compute. auto. Qed.

(* ================= C18 ================= *)
Open Scope Z_scope.
Theorem C18_may_holidays : forall y,
  monday_of y 5 1 7 (holiday_in_year hol_early_may y) /\ monday_of y 5 25 31 (holiday_in_year hol_spring y).
Proof. exact (fun y => conj (early_may y) (spring y)). Qed.
Print Assumptions C18_may_holidays.
(* August: last Monday (25..31) exactly when 31 August is not a Monday, else one week early *)
Theorem C18_august : forall y,
  monday_of y 8 24 30 (holiday_in_year hol_august y) /\
  (weekday_of_day (days_from_civil y 8 31) <> 0 <-> 25 <= dom_of_day (holiday_in_year hol_august y)) /\
  (weekday_of_day (days_from_civil y 8 31) = 0 ->
     holiday_in_year hol_august y = days_from_civil y 8 31 - 7).
Proof. exact august. Qed.
Print Assumptions C18_august.
Theorem C18_august_refuted : exists y, weekday_of_day (days_from_civil y 8 31) = 0 /\
  holiday_in_year hol_august y = days_from_civil y 8 24.
Proof. exists 2015. vm_compute. auto. Qed.
Print Assumptions C18_august_refuted.
Theorem C18_christmas_uk : forall y,
  let ny := holiday_in_year hol_new_year y in
  let xm := holiday_in_year hol_christmas y in
  let bx := holiday_in_year hol_boxing_day y in
  weekday_of_day ny < 5 /\ weekday_of_day xm < 5 /\ weekday_of_day bx < 5 /\ xm < bx /\
  days_from_civil y 1 1 <= ny <= days_from_civil y 1 1 + 2 /\
  days_from_civil y 12 25 <= xm <= days_from_civil y 12 25 + 2 /\
  days_from_civil y 12 26 <= bx <= days_from_civil y 12 26 + 2.
Proof. exact christmas_rules. Qed.
Print Assumptions C18_christmas_uk.
Theorem C18_christmas_ita : forall y,
  let xm := holiday_in_year hol_christmas y in
  let ss := holiday_in_year hol_santo_stefano y in
  let ep := holiday_in_year hol_epiphany y in
  weekday_of_day ss < 5 /\ weekday_of_day ep < 5 /\ xm < ss /\
  days_from_civil y 12 26 <= ss <= days_from_civil y 12 26 + 2 /\
  days_from_civil y 1 6 <= ep <= days_from_civil y 1 6 + 2.
Proof. exact ita_christmas_rules. Qed.
Print Assumptions C18_christmas_ita.
Theorem C18_easter : forall y,
  weekday_of_day (easter_day y) = 6 /\ year_of_day (easter_day y) = y /\
  days_from_civil y 3 22 <= easter_day y <= days_from_civil y 4 25.
Proof. exact easter_spec. Qed.
Print Assumptions C18_easter.
Theorem C18_easter_holidays : forall y,
  weekday_of_day (holiday_in_year good_friday y) = 4 /\
  weekday_of_day (holiday_in_year easter_monday y) = 0 /\
  holiday_in_year easter_monday y = holiday_in_year good_friday y + 3 /\
  days_from_civil y 3 20 <= holiday_in_year good_friday y <= days_from_civil y 4 23.
Proof. exact easter_holidays. Qed.
Print Assumptions C18_easter_holidays.
(* calendar.holidays(t0, t1) returns exactly the rule days of all years that lie in the range *)
Theorem C18_calendar_complete : forall c t0 t1 t,
  In c [CalendarBankHolUK; CalendarChristmasUK; CalendarBankHolIta; CalendarChristmasIta] ->
  (In t (calendar_holidays c t0 t1) <->
   t0 <= t <= t1 /\ exists h y, In h (cal_rules c) /\ t = holiday_in_year h y * DAY).
Proof. exact shipped_calendar_complete. Qed.
Print Assumptions C18_calendar_complete.
Example C18_example :
  map civil_from_days [holiday_in_year hol_early_may 2018; holiday_in_year hol_spring 2018;
     holiday_in_year hol_august 2018; holiday_in_year good_friday 2018; holiday_in_year easter_monday 2019;
     holiday_in_year hol_new_year 2017; holiday_in_year hol_christmas 2021; holiday_in_year hol_boxing_day 2021]
  = [(2018, 5, 7); (2018, 5, 28); (2018, 8, 27); (2018, 3, 30); (2019, 4, 22);
     (2017, 1, 2); (2021, 12, 27); (2021, 12, 28)] /\
  calendar_holidays CalendarChristmasUK (ts 2017 12 25) (ts 2018 1 5) = [ts 2017 12 25; ts 2017 12 26; ts 2018 1 1].
Proof. vm_compute. auto. Qed.
Close Scope Z_scope.

(* ================= C19 ================= *)
Theorem C19_calendars : forall cals name,
  filter has_rules cals <> [] -> Forall (fun c => cal_name c <> "null") cals ->
  exists m, get_model_from_calendars (T:=XR) cals name = Ok m /\
    fm_n m = length (filter has_rules cals) /\
    (forall c0, name = None -> hd_error (filter has_rules cals) = Some c0 -> fm_name m = cal_name c0) /\
    (forall s, name = Some s -> fm_name m = s) /\
    (forall xs ds ps mult act, ds <> [] -> length ps = fm_n m ->
       call m xs (Some ds) (Some (fins ps)) mult (mkKw act []) =
       Ok (Ar (fins (map (fun t => total mult
          (effects mult (map (fun c => cal_in c ds) (filter has_rules cals)) ps t)) ds)))) /\
    (forall x y d mult rnd, no_nan_opt x ->
       fm_init m x y d mult rnd = Ok (fins (repeat (neutral mult) (fm_n m)))).
Proof. exact calendars_ok. Qed.
Print Assumptions C19_calendars.
Theorem C19_no_calendar_refused : forall (T : Type) (N : NumOps T) cals name, filter has_rules cals = [] ->
  get_model_from_calendars (T:=T) cals name = Err AssertionError.
Proof. exact calendars_none. Qed.
Print Assumptions C19_no_calendar_refused.
(* membership in a calendar does not depend on which other dates are sampled *)
Theorem C19_calendar_membership : forall c ds t, Forall local_rule (cal_rules c) -> In t ds ->
  (cal_in c ds t = true <-> exists h y, In h (cal_rules c) /\ t = (holiday_in_year h y * DAY)%Z).
Proof. exact cal_in_iff. Qed.
Print Assumptions C19_calendar_membership.
Theorem C19_datelists : forall name args, args <> [] -> Forall (fun l => l <> []) args ->
  exists m, get_model_from_datelist (T:=XR) name args = Ok m /\
    fm_n m = length args /\ fm_name m = name /\
    (forall xs ds ps mult act, length ps = fm_n m ->
       call m xs (Some ds) (Some (fins ps)) mult (mkKw act []) =
       Ok (Ar (fins (map (fun t => total mult (effects mult (map in_list_Z args) ps t)) ds)))) /\
    (forall x y d mult rnd, no_nan_opt x ->
       fm_init m x y d mult rnd = Ok (fins (repeat (neutral mult) (fm_n m)))).
Proof. exact datelists_ok. Qed.
Print Assumptions C19_datelists.
Theorem C19_datelists_refused : forall (T : Type) (N : NumOps T) name args,
  args = [] \/ In [] args -> get_model_from_datelist (T:=T) name args = Err AssertionError.
Proof. exact datelists_refused. Qed.
Print Assumptions C19_datelists_refused.
Theorem C19_parameter_is_local : forall mult ins ps ps' t i, length ps = length ins -> length ps' = length ins ->
  (forall j, j <> i -> nth_error ps j = nth_error ps' j) ->
  (forall f, nth_error ins i = Some f -> f t = false) ->
  total mult (effects mult ins ps t) = total mult (effects mult ins ps' t).
Proof. exact effects_locality. Qed.
Print Assumptions C19_parameter_is_local.
(* the guess is neutral in additive mode but doubles in multiplicative mode *)
Theorem C19_guess_not_neutral_refuted : forall mult ins t,
  total mult (effects mult ins (repeat (neutral mult) (length ins)) t) =
  (if mult then 2 ^ count_in ins t else 0)%R.
Proof. exact guess_effect. Qed.
Print Assumptions C19_guess_not_neutral_refuted.
Example C19_example :
  let _ := fops in
  let ds := [ts 2018 12 25; ts 2018 12 27; ts 2018 5 7] in
  rmap (fun m => (fm_n m, fm_name m, call m [] (Some ds) (Some [5; 7]%float) false no_kw,
                  call m [] (Some ds) (Some [1; 1]%float) true no_kw))
    model_calendar_uk
  = Ok (2%nat, "calendar_uk", Ok (Ar [5; 0; 7]%float), Ok (Ar [2; 1; 2]%float)) /\
  rmap (fun m => call m [] (Some (jan2018 4)) (Some [5; 7]%float) false no_kw)
    (get_model_from_datelist "dl" [[ts 2018 1 1; ts 2018 1 3]; [ts 2018 1 3; ts 2018 1 4]])
  = Ok (Ok (Ar [5; 0; 12; 7]%float)) /\
  is_ok (get_model_from_calendars (T:=float) [mkCal "c" []] None) = false.
Proof. vm_compute. auto. Qed.
