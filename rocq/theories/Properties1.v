(* Composition of models: C01-C07. *)
From Coq Require Import ZArith String List Bool PrimFloat.
From Verif Require Import Num Py Cal Model ModelProofs Base Dummy CacheProofs Ex.
Import ListNotations.
Local Open Scope string_scope.

(* ================= C01 ================= *)
(* Whatever mode the sum is called in: errors of the parts surface left part first, otherwise the
   output has at every sample the sum of what the parts, called in additive mode, give there. *)
Theorem C01_sum_of_parts : forall (T : Type) (N : NumOps T) (m1 m2 : fmodel T) n a_x a_date
    p1 p2 is_mult kw,
  fm_name m1 <> "null" -> fm_name m2 <> "null" -> length p1 = fm_n m1 ->
  outcome_combined n nadd
    (call m1 a_x a_date (Some p1) false kw)
    (call m2 a_x a_date (Some p2) false kw)
    (call (madd m1 m2) a_x a_date (Some (p1 ++ p2)%list) is_mult kw).
Proof. exact @add_outcome. Qed.
Print Assumptions C01_sum_of_parts.

(* linear + season_wday in multiplicative mode on one week *)
Example C01_example :
  let _ := fops in
  call (madd model_linear model_season_wday) [0; 1; 2; 3; 4; 5; 6]%float (Some (jan2018 7))
    (Some [2; 100; 1; 2; 3; 4; 5; 6]%float) true no_kw
  = Ok (Ar [100; 103; 106; 109; 112; 115; 118]%float).
Proof. vm_compute. reflexivity. Qed.

(* Zero-parameter composites cannot be evaluated with the parameter value None that fit_model uses
   for models without parameters. *)
Theorem C01_none_params_refuted : forall (T : Type) (N : NumOps T) (m1 m2 : fmodel T)
    a_x a_date is_mult kw,
  fm_name m1 <> "null" -> fm_name m2 <> "null" ->
  call (madd m1 m2) a_x a_date None is_mult kw = Err TypeError /\
  call (mmul m1 m2) a_x a_date None is_mult kw = Err TypeError.
Proof. exact @none_params. Qed.
Print Assumptions C01_none_params_refuted.

(* ================= C02 ================= *)
Theorem C02_product_of_parts : forall (T : Type) (N : NumOps T) (m1 m2 : fmodel T) n a_x a_date
    p1 p2 is_mult kw,
  fm_name m1 <> "null" -> fm_name m2 <> "null" -> length p1 = fm_n m1 ->
  outcome_combined n nmul
    (call m1 a_x a_date (Some p1) true kw)
    (call m2 a_x a_date (Some p2) true kw)
    (call (mmul m1 m2) a_x a_date (Some (p1 ++ p2)%list) is_mult kw).
Proof. exact @mul_outcome. Qed.
Print Assumptions C02_product_of_parts.

(* linear * season_wday in additive mode: Monday keeps factor 1 *)
Example C02_example :
  let _ := fops in
  call (mmul model_linear model_season_wday) [0; 1; 2; 3; 4; 5; 6]%float (Some (jan2018 7))
    (Some [1; 10; 2; 3; 4; 5; 6; 7]%float) false no_kw
  = Ok (Ar [10; 22; 36; 52; 70; 90; 112]%float).
Proof. vm_compute. reflexivity. Qed.

(* ================= C03 (generic part; the shipped leaves follow in Properties2) ============= *)
Theorem C03_n_params : forall (T : Type) (N : NumOps T) (t : tree T),
  prune t <> None -> fm_n (build t) = sum_n (leaves t).
Proof. exact @n_params_tree. Qed.
Print Assumptions C03_n_params.

Theorem C03_guess_and_bounds_sized : forall (T : Type) (N : NumOps T) x y d (t : tree T),
  match x with Some l => existsb nisnan l | None => false end = false ->
  prune t <> None ->
  Forall (init_sized x y d) (leaves t) -> Forall (bounds_sized x y d) (leaves t) ->
  init_sized x y d (build t) /\ bounds_sized x y d (build t).
Proof. exact @sized_tree. Qed.
Print Assumptions C03_guess_and_bounds_sized.

Example C03_example :
  let _ := fops in
  let t := TMul (TAdd (Leaf model_linear) (Leaf model_null))
                (TAdd (Leaf model_season_wday) (Leaf model_constant)) in
  fm_n (build t) = 9%nat /\
  rmap (fun p => (firstn 2 p, skipn 8 p))
    (fm_init (build t) (Some [0; 1; 2]%float) (Some [5; 7; 9]%float) None false (fun _ => 0.5%float))
    = Ok ([2; 5]%float, [7.5]%float).
Proof. vm_compute. auto. Qed.

(* ================= C04 ================= *)
(* The built model is the very model obtained after leaving the nulls out. *)
Theorem C04_null_disappears : forall (T : Type) (N : NumOps T) (t t' : tree T),
  prune t = Some t' -> build t = build t' /\ null_free t'.
Proof. exact @prune_sound. Qed.
Print Assumptions C04_null_disappears.

(* A composition of the null model only is the null model; it predicts 0 / 1. *)
Theorem C04_only_nulls : forall (T : Type) (N : NumOps T) (t : tree T),
  all_null t -> build t = model_null /\
  (forall a_x a_date p is_mult kw,
     call (build t) a_x a_date p is_mult kw = Ok (Sc (if is_mult then n1 else n0))).
Proof. exact @all_null_build. Qed.
Print Assumptions C04_only_nulls.

Example C04_example :
  let _ := fops in
  let t := TAdd (TMul (Leaf model_null) (Leaf model_linear)) (TMul (Leaf model_null) (Leaf model_null)) in
  prune t = Some (Leaf model_linear) /\ fm_name (build t) = "linear".
Proof. split; reflexivity. Qed.

(* ================= C05 ================= *)
Theorem C05_names_identify : forall (T : Type) (N : NumOps T) (t1 t2 : tree T),
  Forall (fun m => plain (fm_name m)) (leaves t1) ->
  Forall (fun m => plain (fm_name m)) (leaves t2) ->
  (model_eqb (build t1) (build t2) = true <->
   option_map skeleton (prune t1) = option_map skeleton (prune t2)).
Proof. exact @names_identify_iff. Qed.
Print Assumptions C05_names_identify.

(* Names with brackets or operators inside do clash: "a+b" + "c" and "a" + "b+c". *)
Theorem C05_operator_in_name_refuted : forall (T : Type) (N : NumOps T),
  exists t1 t2 : tree T, model_eqb (build t1) (build t2) = true /\
    option_map skeleton (prune t1) <> option_map skeleton (prune t2).
Proof. exact @names_clash. Qed.
Print Assumptions C05_operator_in_name_refuted.

(* equality, ordering (and hence sorting, de-duplication) look at the name only *)
Theorem C05_name_only : forall (T : Type) (N : NumOps T) (m1 m2 m : fmodel T),
  fm_name m1 = fm_name m2 ->
  model_eqb m1 m2 = true /\ model_eqb m1 m = model_eqb m2 m /\
  model_leb m1 m = model_leb m2 m /\ model_leb m m1 = model_leb m m2.
Proof. exact (fun T _ => @name_only T). Qed.
Print Assumptions C05_name_only.

Example C05_example :
  let _ := fops in
  model_eqb (madd (madd model_linear model_constant) model_ramp)
            (madd model_linear (madd model_constant model_ramp)) = false /\
  Forall (fun m => plain (fm_name m)) (leaves (TAdd (TAdd (Leaf model_linear) (Leaf model_constant)) (Leaf model_ramp))).
Proof. split; [reflexivity|]. cbn. repeat constructor. Qed.

(* ================= C06 ================= *)
Theorem C06_accept_iff_parts : forall (T : Type) (N : NumOps T) (t : tree T) x y d,
  prune t <> None ->
  vals_coherent (flat_map fm_val (leaves t)) ->
  (validate_input (build t) x y d = Ok true <->
   Forall (fun m => validate_input m x y d = Ok true) (leaves t)).
Proof. exact @accept_tree. Qed.
Print Assumptions C06_accept_iff_parts.

(* With validators that reject by AssertionError the answer is always True or False, False iff
   some validator of some part raises, and the order of validators is irrelevant. *)
Theorem C06_reject_iff_raises : forall (T : Type) (N : NumOps T) (m : fmodel T) x y d,
  Forall (only_asserts x y d) (fm_val m) ->
  validate_input m x y d = Ok (forallb (fun v => is_ok (v_run v x y d)) (fm_val m)) /\
  (validate_input m x y d = Ok false <->
   exists v, In v (fm_val m) /\ v_run v x y d = Err AssertionError).
Proof. exact (fun T _ => @reject_iff T). Qed.
Print Assumptions C06_reject_iff_raises.

Theorem C06_order_irrelevant : forall (T : Type) (N : NumOps T) (m m' : fmodel T) x y d,
  Forall (only_asserts x y d) (fm_val m) ->
  (forall v, In v (fm_val m) <-> In v (fm_val m')) ->
  validate_input m x y d = validate_input m' x y d.
Proof. exact (fun T _ => @validate_perm T). Qed.
Print Assumptions C06_order_irrelevant.

(* Any other exception of the first failing validator propagates. *)
Theorem C06_other_exceptions_propagate : forall (T : Type) (N : NumOps T) (m : fmodel T) x y d
    l1 v l2 e,
  fm_val m = (l1 ++ v :: l2)%list ->
  Forall (fun w => is_ok (v_run w x y d) = true) l1 ->
  v_run v x y d = Err e -> e <> AssertionError ->
  validate_input m x y d = Err e.
Proof. exact (fun T _ => @validate_propagates T). Qed.
Print Assumptions C06_other_exceptions_propagate.

(* A validator that returns False does not reject. *)
Theorem C06_false_does_not_reject_refuted : forall (T : Type) (N : NumOps T),
  exists m : fmodel T,
    (forall v, In v (fm_val m) -> forall x y d, v_run v x y d = Ok false) /\ fm_val m <> [] /\
    forall x y d, validate_input m x y d = Ok true.
Proof. exact @false_accepts. Qed.
Print Assumptions C06_false_does_not_reject_refuted.

Example C06_example :
  let _ := fops in
  let m := mmul (madd model_decay model_season_wday) model_season_wday in
  length (fm_val m) = 2%nat /\
  validate_input m [0; 1]%float [1; 2]%float (Some (jan2018 7)) = Ok true /\
  validate_input m [0; 1]%float [1; 2]%float (Some (jan2018 6)) = Ok false /\
  validate_input m [0; 1]%float [1; 0]%float (Some (jan2018 7)) = Ok false.
Proof. vm_compute. auto. Qed.

(* ================= C07 ================= *)
Theorem C07_cache_invisible : forall (T : Type) (N : NumOps T) (t : ctree) x d c act p is_mult,
  Forall cleaf_ok (cleaves t) ->
  (forall name f g,
     In (name, f) (flat_map masks_read (cleaves t)) ->
     In (name, g) (flat_map masks_registered (cleaves t)) -> f x d = g x d) ->
  init_cache (cbuild t) x d = Ok c ->
  call (cbuild t) x d p is_mult (mkKw act c) = call (cbuild t) x d p is_mult (mkKw act []).
Proof. exact @cache_invisible. Qed.
Print Assumptions C07_cache_invisible.

(* The trend models and the null model are leaves outside the cache machinery. *)
Theorem C07_trend_models_blind : forall (T : Type) (N : NumOps T),
  Forall blind [model_null; model_constant; model_linear; model_linear_nondec; model_quasilinear;
                model_exp; model_decay; model_step; model_two_steps; model_sigmoid_step;
                model_sigmoid; model_ramp; model_spike].
Proof. exact @trends_blind. Qed.
Print Assumptions C07_trend_models_blind.

(* All cache variables of the parts are prepared for the composite. *)
Theorem C07_cache_prepared : forall (T : Type) (N : NumOps T) (m1 m2 : fmodel T) x d c k,
  fm_name m1 <> "null" -> fm_name m2 <> "null" ->
  init_cache (madd m1 m2) x d = Ok c \/ init_cache (mmul m1 m2) x d = Ok c ->
  (exists f, provides m1 k f) \/ (exists f, provides m2 k f) ->
  exists v, dict_get c k = Some v.
Proof. exact @cache_prepared. Qed.
Print Assumptions C07_cache_prepared.

(* Two dummies called alike with different masks: the cached prediction is wrong. *)
Theorem C07_same_name_refuted :
  let _ := fops in
  exists m1 m2 c,
    get_model_dummy "d" (DNums [1]%float) = Ok m1 /\ get_model_dummy "d" (DNums [2]%float) = Ok m2 /\
    init_cache (madd m1 m2) [1; 2; 3]%float None = Ok c /\
    call (madd m1 m2) [1; 2; 3]%float None (Some [10; 20]%float) false no_kw
      = Ok (Ar [10; 20; 0]%float) /\
    call (madd m1 m2) [1; 2; 3]%float None (Some [10; 20]%float) false (mkKw None c)
      = Ok (Ar [0; 30; 0]%float).
Proof. exact same_name_collision. Qed.
Print Assumptions C07_same_name_refuted.

Example C07_example :
  let _ := fops in
  let t := CAdd (CLeaf (CBlind model_linear))
                (CMul (CLeaf CWday) (CLeaf (CDummy "second" (fun x _ => Ok (isin_nums x [1]%float))))) in
  exists c, init_cache (cbuild t) [0; 1; 2]%float (Some (jan2018 3)) = Ok c /\
    dict_get c "a_weekday" = Some (CInts [0; 1; 2]%Z) /\
    dict_get c "mask_second" = Some (CMask [0; 1; 0]%float) /\
    call (cbuild t) [0; 1; 2]%float (Some (jan2018 3)) (Some [1; 0; 2; 3; 4; 5; 6; 7; 9]%float) false
      (mkKw None c) = Ok (Ar [1; 21; 5]%float).
Proof. eexists. split; [vm_compute; reflexivity|]. vm_compute. auto. Qed.
