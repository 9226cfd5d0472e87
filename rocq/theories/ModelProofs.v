(* Specifications and lemmas about composition (C01-C06). *)
From Coq Require Import ZArith Arith String Ascii List Bool Lia.
From Verif Require Import Num Py Cal Model.
Import ListNotations.
Local Open Scope string_scope.

(* ---------- specification vocabulary ---------- *)
Section Spec.
  Context {T : Type} `{NumOps T}.

  (* A composition of models, as the user writes it. *)
  Inductive tree := Leaf (m : fmodel T) | TAdd (t1 t2 : tree) | TMul (t1 t2 : tree).

  Fixpoint build (t : tree) : fmodel T :=
    match t with
    | Leaf m => m
    | TAdd a b => madd (build a) (build b)
    | TMul a b => mmul (build a) (build b)
    end.

  (* the models that take part in the result: leaves not named 'null' *)
  Fixpoint leaves (t : tree) : list (fmodel T) :=
    match t with
    | Leaf m => if String.eqb (fm_name m) "null" then [] else [m]
    | TAdd a b | TMul a b => (leaves a ++ leaves b)%list
    end.

  (* the same composition with null leaves left out; None if nothing is left *)
  Fixpoint prune (t : tree) : option tree :=
    match t with
    | Leaf m => if String.eqb (fm_name m) "null" then None else Some (Leaf m)
    | TAdd a b =>
        match prune a, prune b with
        | None, r => r | l, None => l | Some a', Some b' => Some (TAdd a' b')
        end
    | TMul a b =>
        match prune a, prune b with
        | None, r => r | l, None => l | Some a', Some b' => Some (TMul a' b')
        end
    end.

  (* The value a model output gives to sample i of n samples. *)
  Definition sample (n : nat) (v : nval T) (i : nat) : option T :=
    match v with
    | Sc t => if (i <? n)%nat then Some t else None
    | Ar l => if (length l =? n)%nat then nth_error l i else None
    end.
  (* the output is either a single number or has one entry per sample *)
  Definition well_shaped (n : nat) (v : nval T) : Prop :=
    match v with Sc _ => True | Ar l => length l = n end.

  (* pointwise combination of two outputs *)
  Definition pointwise (n : nat) (op : T -> T -> T) (v1 v2 v : nval T) : Prop :=
    well_shaped n v /\
    forall i, (i < n)%nat ->
      exists a b, sample n v1 i = Some a /\ sample n v2 i = Some b /\ sample n v i = Some (op a b).

  (* outcome of combining two outcomes, left one first *)
  Definition outcome_combined (n : nat) (op : T -> T -> T)
    (r1 r2 r : res (nval T)) : Prop :=
    match r1, r2 with
    | Err e, _ => r = Err e
    | Ok _, Err e => r = Err e
    | Ok v1, Ok v2 =>
        well_shaped n v1 -> well_shaped n v2 -> exists v, r = Ok v /\ pointwise n op v1 v2 v
    end.
End Spec.
Arguments tree : clear implicits.

(* ---------- lemmas ---------- *)
Section Lemmas.
  Context {T : Type} `{NumOps T}.

  Lemma is_null_false (m : fmodel T) : fm_name m <> "null" -> is_null m = false.
  Proof. intros. unfold is_null. now apply String.eqb_neq. Qed.

  Lemma combine_name_not_null sep op mode (m1 m2 : fmodel T) :
    fm_name (combine_models sep op mode m1 m2) <> "null".
  Proof. cbn. discriminate. Qed.

  Lemma combine_map2 (f : T -> T -> T) : forall l1 l2 i a b,
    nth_error l1 i = Some a -> nth_error l2 i = Some b ->
    nth_error (map2 f l1 l2) i = Some (f a b).
  Proof.
    unfold map2. induction l1 as [|x l1 IH]; intros [|y l2] [|i] a b; cbn; try discriminate.
    - intros [= ->] [= ->]. reflexivity.
    - apply IH.
  Qed.

  Lemma map2_length (f : T -> T -> T) l1 l2 :
    length l1 = length l2 -> length (map2 f l1 l2) = length l1.
  Proof. intros E. unfold map2. rewrite map_length, combine_length. lia. Qed.

  Lemma bcast2_pointwise n op (v1 v2 : nval T) :
    well_shaped n v1 -> well_shaped n v2 ->
    exists v, bcast2 op v1 v2 = Ok v /\ pointwise n op v1 v2 v.
  Proof.
    intros W1 W2.
    assert (Hs : forall (l : list T) i, length l = n -> (i < n)%nat ->
              exists a, nth_error l i = Some a).
    { intros l i L Hi. destruct (nth_error l i) eqn:E; [eauto|].
      apply nth_error_None in E. lia. }
    destruct v1 as [x|l1], v2 as [y|l2]; cbn in *.
    - eexists; split; [reflexivity|]. split; [exact I|]. intros i Hi. unfold sample.
      apply Nat.ltb_lt in Hi. rewrite Hi. eauto.
    - eexists; split; [reflexivity|]. split; [cbn; now rewrite map_length|].
      intros i Hi. destruct (Hs l2 i W2 Hi) as [b Hb]. unfold sample.
      rewrite map_length, W2, Nat.eqb_refl, (proj2 (Nat.ltb_lt i n) Hi).
      exists x, b. rewrite nth_error_map, Hb. auto.
    - eexists; split; [reflexivity|]. split; [cbn; now rewrite map_length|].
      intros i Hi. destruct (Hs l1 i W1 Hi) as [a Ha]. unfold sample.
      rewrite map_length, W1, Nat.eqb_refl, (proj2 (Nat.ltb_lt i n) Hi).
      exists a, y. rewrite nth_error_map, Ha. auto.
    - rewrite W1, W2, Nat.eqb_refl. eexists; split; [reflexivity|].
      split; [cbn; rewrite map2_length; congruence|].
      intros i Hi. destruct (Hs l1 i W1 Hi) as [a Ha]. destruct (Hs l2 i W2 Hi) as [b Hb].
      exists a, b. cbn. rewrite map2_length by congruence. rewrite W1, W2, Nat.eqb_refl.
      repeat split; auto. now apply combine_map2.
  Qed.

  Lemma f_combine_outcome op mode (m1 m2 : fmodel T) n a_x a_date p1 p2 md kw :
    length p1 = fm_n m1 ->
    outcome_combined n op (call m1 a_x a_date (Some p1) mode kw)
      (call m2 a_x a_date (Some p2) mode kw)
      (f_combine op mode m1 m2 a_x a_date (Some (p1 ++ p2)%list) md kw).
  Proof.
    intros L. unfold outcome_combined, call, f_combine, p_slice, rbind.
    rewrite <- L, firstn_app, skipn_app, Nat.sub_diag, firstn_all, skipn_all.
    cbn [firstn skipn]. rewrite app_nil_r. cbn [app].
    destruct (fm_f m1 _ _ _ _ _) as [v1|e1]; [|reflexivity].
    destruct (fm_f m2 _ _ _ _ _) as [v2|e2]; [|reflexivity].
    apply bcast2_pointwise.
  Qed.

  Lemma add_outcome (m1 m2 : fmodel T) n a_x a_date p1 p2 is_mult kw :
    fm_name m1 <> "null" -> fm_name m2 <> "null" -> length p1 = fm_n m1 ->
    outcome_combined n nadd (call m1 a_x a_date (Some p1) false kw)
      (call m2 a_x a_date (Some p2) false kw)
      (call (madd m1 m2) a_x a_date (Some (p1 ++ p2)%list) is_mult kw).
  Proof.
    intros N1 N2 L. unfold madd. rewrite !is_null_false by assumption.
    now apply f_combine_outcome.
  Qed.

  Lemma mul_outcome (m1 m2 : fmodel T) n a_x a_date p1 p2 is_mult kw :
    fm_name m1 <> "null" -> fm_name m2 <> "null" -> length p1 = fm_n m1 ->
    outcome_combined n nmul (call m1 a_x a_date (Some p1) true kw)
      (call m2 a_x a_date (Some p2) true kw)
      (call (mmul m1 m2) a_x a_date (Some (p1 ++ p2)%list) is_mult kw).
  Proof.
    intros N1 N2 L. unfold mmul. rewrite !is_null_false by assumption.
    now apply f_combine_outcome.
  Qed.

  (* a None parameter vector breaks every composite *)
  Lemma composite_none_params sep op mode (m1 m2 : fmodel T) a_x a_date is_mult kw :
    call (combine_models sep op mode m1 m2) a_x a_date None is_mult kw = Err TypeError.
  Proof. reflexivity. Qed.

  (* ---- C04 ---- *)
  Lemma build_not_null_iff (t : tree T) :
    (fm_name (build t) = "null" <-> prune t = None).
  Proof.
    induction t as [m|a IHa b IHb|a IHa b IHb]; cbn.
    - destruct (String.eqb_spec (fm_name m) "null"); split; congruence.
    - unfold madd, is_null.
      destruct (String.eqb_spec (fm_name (build a)) "null") as [Ea|Ea].
      + apply IHa in Ea. rewrite Ea. exact IHb.
      + destruct (prune a) as [a'|] eqn:Pa; [|tauto].
        destruct (String.eqb_spec (fm_name (build b)) "null") as [Eb|Eb].
        * apply IHb in Eb. rewrite Eb. split; [tauto|discriminate].
        * destruct (prune b) as [b'|] eqn:Pb; [|tauto].
          split; discriminate.
    - unfold mmul, is_null.
      destruct (String.eqb_spec (fm_name (build a)) "null") as [Ea|Ea].
      + apply IHa in Ea. rewrite Ea. exact IHb.
      + destruct (prune a) as [a'|] eqn:Pa; [|tauto].
        destruct (String.eqb_spec (fm_name (build b)) "null") as [Eb|Eb].
        * apply IHb in Eb. rewrite Eb. split; [tauto|discriminate].
        * destruct (prune b) as [b'|] eqn:Pb; [|tauto].
          split; discriminate.
  Qed.

  Lemma prune_build (t t' : tree T) : prune t = Some t' -> build t = build t'.
  Proof.
    revert t'. induction t as [m|a IHa b IHb|a IHa b IHb]; cbn; intros t'.
    - destruct (String.eqb (fm_name m) "null"); [discriminate|]. now intros [= <-].
    - unfold madd, is_null.
      pose proof (build_not_null_iff a) as Na. pose proof (build_not_null_iff b) as Nb.
      destruct (prune a) as [a'|] eqn:Pa; [|rewrite (proj2 Na eq_refl); cbn; auto].
      destruct (String.eqb_spec (fm_name (build a)) "null") as [Ea|Ea];
        [now apply Na in Ea|].
      destruct (prune b) as [b'|] eqn:Pb.
      + intros [= <-]. cbn. unfold madd, is_null.
        rewrite <- (IHa a'), <- (IHb b') by reflexivity.
        now rewrite (proj2 (String.eqb_neq _ _) Ea).
      + rewrite (proj2 Nb eq_refl). cbn. auto.
    - unfold mmul, is_null.
      pose proof (build_not_null_iff a) as Na. pose proof (build_not_null_iff b) as Nb.
      destruct (prune a) as [a'|] eqn:Pa; [|rewrite (proj2 Na eq_refl); cbn; auto].
      destruct (String.eqb_spec (fm_name (build a)) "null") as [Ea|Ea];
        [now apply Na in Ea|].
      destruct (prune b) as [b'|] eqn:Pb.
      + intros [= <-]. cbn. unfold mmul, is_null.
        rewrite <- (IHa a'), <- (IHb b') by reflexivity.
        now rewrite (proj2 (String.eqb_neq _ _) Ea).
      + rewrite (proj2 Nb eq_refl). cbn. auto.
  Qed.

  (* pruned trees contain no null leaf *)
  Inductive null_free : tree T -> Prop :=
  | nf_leaf m : fm_name m <> "null" -> null_free (Leaf m)
  | nf_add a b : null_free a -> null_free b -> null_free (TAdd a b)
  | nf_mul a b : null_free a -> null_free b -> null_free (TMul a b).

  Lemma prune_null_free (t t' : tree T) : prune t = Some t' -> null_free t'.
  Proof.
    revert t'. induction t as [m|a IHa b IHb|a IHa b IHb]; cbn; intros t'.
    - destruct (String.eqb_spec (fm_name m) "null"); [discriminate|].
      intros [= <-]. now constructor.
    - destruct (prune a), (prune b); intros [= <-]; try (constructor; auto); auto.
    - destruct (prune a), (prune b); intros [= <-]; try (constructor; auto); auto.
  Qed.

  Lemma null_free_name (t : tree T) : null_free t -> fm_name (build t) <> "null".
  Proof.
    induction 1 as [m Hm|a b Ha IHa Hb IHb|a b Ha IHa Hb IHb]; cbn; [assumption| |].
    - unfold madd. rewrite !is_null_false by assumption. apply combine_name_not_null.
    - unfold mmul. rewrite !is_null_false by assumption. apply combine_name_not_null.
  Qed.

  Lemma null_free_prune (t : tree T) : null_free t -> prune t = Some t.
  Proof.
    induction 1 as [m Hm|a b Ha IHa Hb IHb|a b Ha IHa Hb IHb]; cbn.
    - now rewrite (proj2 (String.eqb_neq _ _) Hm).
    - now rewrite IHa, IHb.
    - now rewrite IHa, IHb.
  Qed.

  Lemma leaves_prune_none (t : tree T) : prune t = None -> leaves t = [].
  Proof.
    induction t as [m|a IHa b IHb|a IHa b IHb]; cbn.
    - now destruct (String.eqb (fm_name m) "null").
    - destruct (prune a), (prune b); try discriminate. now rewrite IHa, IHb.
    - destruct (prune a), (prune b); try discriminate. now rewrite IHa, IHb.
  Qed.

  Lemma leaves_prune (t t' : tree T) : prune t = Some t' -> leaves t = leaves t'.
  Proof.
    revert t'. induction t as [m|a IHa b IHb|a IHa b IHb]; cbn; intros t'.
    - destruct (String.eqb (fm_name m) "null") eqn:E; [discriminate|].
      intros [= <-]. cbn. now rewrite E.
    - destruct (prune a) eqn:Pa, (prune b) eqn:Pb; intros E; inversion E; subst; cbn.
      + f_equal; auto.
      + rewrite (leaves_prune_none b Pb), app_nil_r. auto.
      + rewrite (leaves_prune_none a Pa). cbn. auto.
    - destruct (prune a) eqn:Pa, (prune b) eqn:Pb; intros E; inversion E; subst; cbn.
      + f_equal; auto.
      + rewrite (leaves_prune_none b Pb), app_nil_r. auto.
      + rewrite (leaves_prune_none a Pa). cbn. auto.
  Qed.

  (* ---- C03 ---- *)
  Fixpoint sum_n (l : list (fmodel T)) : nat :=
    match l with [] => 0 | m :: l' => fm_n m + sum_n l' end.

  Lemma sum_n_app l1 l2 : sum_n (l1 ++ l2)%list = (sum_n l1 + sum_n l2)%nat.
  Proof. induction l1; cbn; lia. Qed.

  Lemma n_params_null_free (t : tree T) :
    null_free t -> fm_n (build t) = sum_n (leaves t).
  Proof.
    induction 1 as [m Hm|a b Ha IHa Hb IHb|a b Ha IHa Hb IHb]; cbn.
    - rewrite (proj2 (String.eqb_neq _ _) Hm). cbn. lia.
    - unfold madd. rewrite !is_null_false by now apply null_free_name.
      cbn. rewrite sum_n_app. lia.
    - unfold mmul. rewrite !is_null_false by now apply null_free_name.
      cbn. rewrite sum_n_app. lia.
  Qed.

  Lemma n_params_tree (t : tree T) :
    prune t <> None -> fm_n (build t) = sum_n (leaves t).
  Proof.
    destruct (prune t) as [t'|] eqn:P; [|congruence]. intros _.
    rewrite (prune_build _ _ P), (leaves_prune _ _ P).
    apply n_params_null_free. eapply prune_null_free; eauto.
  Qed.

  (* guesses of the right size, for given data *)
  Definition init_sized (x y : option (list T)) (d : option (list Z)) (m : fmodel T) : Prop :=
    forall is_mult rnd, exists p, fm_init m x y d is_mult rnd = Ok p /\ length p = fm_n m.
  Definition bounds_sized (x y : option (list T)) (d : option (list Z)) (m : fmodel T) : Prop :=
    exists b, fm_bounds m x y d = Ok b /\ length (b_lo b) = fm_n m /\ length (b_hi b) = fm_n m.

  Lemma init_sized_no_nan x y d (m : fmodel T) (r : initfun T) is_mult rnd :
    match x with Some l => existsb nisnan l | None => false end = false ->
    init_validated r x y d is_mult rnd = r x y d is_mult rnd.
  Proof. unfold init_validated. destruct x; [intros ->|]; reflexivity. Qed.

  Lemma init_sized_combine sep op mode (m1 m2 : fmodel T) x y d :
    match x with Some l => existsb nisnan l | None => false end = false ->
    init_sized x y d m1 -> init_sized x y d m2 ->
    init_sized x y d (combine_models sep op mode m1 m2).
  Proof.
    intros Hx H1 H2 is_mult rnd. cbn [combine_models mk_model fm_init fm_n].
    rewrite init_sized_no_nan by assumption. unfold init_combine.
    destruct (H1 mode (rnd_l rnd)) as (p1 & -> & L1).
    destruct (H2 mode (rnd_r rnd)) as (p2 & -> & L2). cbn.
    eexists; split; [reflexivity|]. rewrite app_length. lia.
  Qed.

  Lemma bounds_sized_combine sep op mode (m1 m2 : fmodel T) x y d :
    bounds_sized x y d m1 -> bounds_sized x y d m2 ->
    bounds_sized x y d (combine_models sep op mode m1 m2).
  Proof.
    intros (b1 & E1 & L1 & H1) (b2 & E2 & L2 & H2).
    unfold bounds_sized. cbn [combine_models mk_model fm_bounds fm_n].
    unfold bounds_combine. rewrite E1, E2. cbn. unfold bounds_concat.
    rewrite L1, H1, L2, H2, !Nat.eqb_refl. cbn.
    eexists; split; [reflexivity|]. cbn. rewrite !app_length. lia.
  Qed.

  Lemma sized_null_free x y d (t : tree T) :
    match x with Some l => existsb nisnan l | None => false end = false ->
    null_free t ->
    Forall (init_sized x y d) (leaves t) -> Forall (bounds_sized x y d) (leaves t) ->
    init_sized x y d (build t) /\ bounds_sized x y d (build t).
  Proof.
    intros Hx. induction 1 as [m Hm|a b Ha IHa Hb IHb|a b Ha IHa Hb IHb]; cbn.
    - rewrite (proj2 (String.eqb_neq _ _) Hm). intros F1 F2.
      inversion F1; inversion F2; auto.
    - rewrite !Forall_app. intros [F1 F2] [G1 G2].
      destruct (IHa F1 G1), (IHb F2 G2).
      unfold madd. rewrite !is_null_false by now apply null_free_name.
      split; [now apply init_sized_combine|now apply bounds_sized_combine].
    - rewrite !Forall_app. intros [F1 F2] [G1 G2].
      destruct (IHa F1 G1), (IHb F2 G2).
      unfold mmul. rewrite !is_null_false by now apply null_free_name.
      split; [now apply init_sized_combine|now apply bounds_sized_combine].
  Qed.

  Lemma sized_tree x y d (t : tree T) :
    match x with Some l => existsb nisnan l | None => false end = false ->
    prune t <> None ->
    Forall (init_sized x y d) (leaves t) -> Forall (bounds_sized x y d) (leaves t) ->
    init_sized x y d (build t) /\ bounds_sized x y d (build t).
  Proof.
    destruct (prune t) as [t'|] eqn:P; [|congruence]. intros Hx _.
    rewrite (prune_build _ _ P), (leaves_prune _ _ P).
    apply sized_null_free; [assumption|]. eapply prune_null_free; eauto.
  Qed.

  (* ---- C06 ---- *)
  Definition accepts (m : fmodel T) x y d := validate_input m x y d = Ok true.

  (* identities of validators are faithful: same identity, same behaviour *)
  Definition vals_coherent (l : list (validator T)) : Prop :=
    forall v w, In v l -> In w l -> v_id v = v_id w -> v_run v = v_run w.

  (* validators that either return something or raise AssertionError *)
  Definition only_asserts x y d (v : validator T) : Prop :=
    match v_run v x y d with Ok _ => True | Err e => e = AssertionError end.

  Lemma validate_only_asserts (m : fmodel T) x y d :
    Forall (only_asserts x y d) (fm_val m) ->
    validate_input m x y d =
      Ok (forallb (fun v => is_ok (v_run v x y d)) (fm_val m)).
  Proof.
    unfold validate_input. intros F.
    assert (G : match rmapM (fun v => v_run v x y d) (fm_val m) with
                | Ok _ => forallb (fun v => is_ok (v_run v x y d)) (fm_val m) = true
                | Err e => e = AssertionError /\
                    forallb (fun v => is_ok (v_run v x y d)) (fm_val m) = false
                end).
    { induction F as [|v l Hv F IH]; cbn; [reflexivity|].
      unfold only_asserts in Hv. unfold rbind.
      destruct (v_run v x y d) as [b|e]; cbn; [|auto].
      destruct (rmapM _ l); auto. }
    destruct (rmapM _ _); [now rewrite G|]. destruct G as [-> ->]. reflexivity.
  Qed.

  Lemma dedup_aux_in {A} (eqb : A -> A -> bool) : forall l seen a,
    In a (dedup_aux eqb seen l) -> In a l.
  Proof.
    induction l as [|b l IH]; cbn; intros seen a; [tauto|].
    destruct (existsb (eqb b) seen); cbn; intros Hin.
    - right. eapply IH; eauto.
    - destruct Hin as [->|Hin]; [auto|right; eapply IH; eauto].
  Qed.

  Lemma dedup_aux_complete {A} (eqb : A -> A -> bool) :
    (forall a, eqb a a = true) ->
    forall l seen a, In a l ->
      (exists b, In b seen /\ eqb a b = true) \/
      (exists b, In b (dedup_aux eqb seen l) /\ eqb a b = true).
  Proof.
    intros R. induction l as [|b l IH]; cbn; intros seen a; [tauto|].
    intros [->|Hin].
    - destruct (existsb (eqb a) seen) eqn:E.
      + apply existsb_exists in E. destruct E as (c & Hc & Ec). left; eauto.
      + right. exists a. cbn; auto.
    - destruct (existsb (eqb b) seen) eqn:E.
      + apply IH; assumption.
      + destruct (IH (b :: seen) a Hin) as [(c & [->|Hc] & Ec)|(c & Hc & Ec)].
        * right. exists c. cbn; auto.
        * left; eauto.
        * right. exists c. cbn; auto.
  Qed.

  Lemma in_leaves_val (t : tree T) : null_free t ->
    (forall v, In v (fm_val (build t)) -> exists m, In m (leaves t) /\ In v (fm_val m)) /\
    (forall m v, In m (leaves t) -> In v (fm_val m) ->
       exists w, In w (fm_val (build t)) /\ v_id w = v_id v).
  Proof.
    assert (Hset : forall l1 l2 : list (validator T),
      (forall v, In v (set_vals (l1 ++ l2)) -> In v l1 \/ In v l2) /\
      (forall v, In v l1 \/ In v l2 -> exists w, In w (set_vals (l1 ++ l2)) /\ v_id w = v_id v)).
    { intros l1 l2. split; intros v Hv.
      - apply dedup_aux_in in Hv. now apply in_app_or.
      - apply in_or_app in Hv. unfold set_vals, dedup.
        destruct (dedup_aux_complete (@val_eqb T) (fun a => String.eqb_refl _) _ [] v Hv)
          as [(b & [] & _)|(b & Hb & Eb)].
        exists b. split; [assumption|]. apply String.eqb_eq in Eb. auto. }
    induction 1 as [m Hm|a b Ha IHa Hb IHb|a b Ha IHa Hb IHb]; cbn.
    - rewrite (proj2 (String.eqb_neq _ _) Hm). split.
      + intros v Hv. exists m. cbn; auto.
      + intros m' v [<-|[]] Hv. eauto.
    - unfold madd. rewrite !is_null_false by now apply null_free_name.
      cbn. destruct (Hset (fm_val (build a)) (fm_val (build b))) as [S1 S2].
      destruct IHa as [A1 A2], IHb as [B1 B2]. split.
      + intros v Hv. destruct (S1 v Hv) as [I1|I1].
        * destruct (A1 v I1) as (m & ? & ?). exists m. rewrite in_app_iff. auto.
        * destruct (B1 v I1) as (m & ? & ?). exists m. rewrite in_app_iff. auto.
      + intros m v Hm Hv. rewrite in_app_iff in Hm. destruct Hm as [Hm|Hm].
        * destruct (A2 m v Hm Hv) as (w & Hw & Ew).
          destruct (S2 w (or_introl Hw)) as (u & Hu & Eu). exists u. split; congruence.
        * destruct (B2 m v Hm Hv) as (w & Hw & Ew).
          destruct (S2 w (or_intror Hw)) as (u & Hu & Eu). exists u. split; congruence.
    - unfold mmul. rewrite !is_null_false by now apply null_free_name.
      cbn. destruct (Hset (fm_val (build a)) (fm_val (build b))) as [S1 S2].
      destruct IHa as [A1 A2], IHb as [B1 B2]. split.
      + intros v Hv. destruct (S1 v Hv) as [I1|I1].
        * destruct (A1 v I1) as (m & ? & ?). exists m. rewrite in_app_iff. auto.
        * destruct (B1 v I1) as (m & ? & ?). exists m. rewrite in_app_iff. auto.
      + intros m v Hm Hv. rewrite in_app_iff in Hm. destruct Hm as [Hm|Hm].
        * destruct (A2 m v Hm Hv) as (w & Hw & Ew).
          destruct (S2 w (or_introl Hw)) as (u & Hu & Eu). exists u. split; congruence.
        * destruct (B2 m v Hm Hv) as (w & Hw & Ew).
          destruct (S2 w (or_intror Hw)) as (u & Hu & Eu). exists u. split; congruence.
  Qed.

  Lemma validate_accept_iff (m : fmodel T) x y d :
    accepts m x y d <->
    (forall v, In v (fm_val m) -> exists b, v_run v x y d = Ok b).
  Proof.
    unfold accepts, validate_input.
    induction (fm_val m) as [|v l IH]; cbn.
    - split; [tauto|reflexivity].
    - unfold rbind. destruct (v_run v x y d) as [b|e] eqn:E.
      + destruct (rmapM _ l) as [bs|e]; cbn in *.
        * split; [|reflexivity]. intros _ w [<-|Hw]; [eauto|]. now apply IH.
        * split.
          -- intros Hf. assert (C : forall v, In v l -> exists b, v_run v x y d = Ok b)
               by (apply IH; exact Hf).
             intros w [<-|Hw]; eauto.
          -- intros Hf. apply IH. intros w Hw. apply Hf. auto.
      + split.
        * destruct e; discriminate.
        * intros Hf. destruct (Hf v (or_introl eq_refl)) as [b Hb]. congruence.
  Qed.

  (* the answer of validate_input is never an AssertionError and is one of True / False / error *)
  Lemma validate_false_iff (m : fmodel T) x y d :
    Forall (only_asserts x y d) (fm_val m) ->
    (validate_input m x y d = Ok false <->
     exists v, In v (fm_val m) /\ v_run v x y d = Err AssertionError).
  Proof.
    intros F. rewrite validate_only_asserts by assumption. split.
    - intros [= E]. assert (N : ~ (forallb (fun v => is_ok (v_run v x y d)) (fm_val m) = true))
        by congruence.
      rewrite forallb_forall in N. clear E. revert N. rewrite Forall_forall in F.
      revert F. generalize (fm_val m). induction l as [|v l IH]; intros F N.
      + exfalso. apply N. intros ? [].
      + destruct (v_run v x y d) as [b|e] eqn:E.
        * destruct IH as (w & Hw & Ew).
          -- intros w Hw. apply F. cbn; auto.
          -- intros G. apply N. intros w [<-|Hw]; [now rewrite E|auto].
          -- exists w. cbn; auto.
        * exists v. split; [cbn; auto|].
          specialize (F v (or_introl eq_refl)). unfold only_asserts in F.
          rewrite E in F. congruence.
    - intros (v & Hv & Ev). f_equal.
      destruct (forallb _ _) eqn:E; [|reflexivity].
      rewrite forallb_forall in E. specialize (E v Hv). now rewrite Ev in E.
  Qed.

  Lemma accept_tree (t : tree T) x y d :
    prune t <> None ->
    vals_coherent (flat_map fm_val (leaves t)) ->
    (accepts (build t) x y d <-> Forall (fun m => accepts m x y d) (leaves t)).
  Proof.
    destruct (prune t) as [t'|] eqn:P; [|congruence]. intros _.
    rewrite (prune_build _ _ P), (leaves_prune _ _ P). intros C.
    destruct (in_leaves_val t' (prune_null_free _ _ P)) as [I1 I2].
    rewrite validate_accept_iff, Forall_forall. split.
    - intros Hf m Hm. apply validate_accept_iff. intros v Hv.
      destruct (I2 m v Hm Hv) as (w & Hw & Ew).
      destruct (I1 w Hw) as (m' & Hm' & Hv').
      rewrite (C v w); auto; apply in_flat_map; eauto.
    - intros Hf v Hv. destruct (I1 v Hv) as (m & Hm & Hv').
      specialize (Hf m Hm). rewrite validate_accept_iff in Hf. auto.
  Qed.

  Lemma only_asserts_tree (t : tree T) x y d :
    prune t <> None ->
    Forall (fun m => Forall (only_asserts x y d) (fm_val m)) (leaves t) ->
    Forall (only_asserts x y d) (fm_val (build t)).
  Proof.
    destruct (prune t) as [t'|] eqn:P; [|congruence]. intros _.
    rewrite (prune_build _ _ P), (leaves_prune _ _ P). intros F.
    destruct (in_leaves_val t' (prune_null_free _ _ P)) as [I1 _].
    rewrite Forall_forall in *. intros v Hv. destruct (I1 v Hv) as (m & Hm & Hv').
    specialize (F m Hm). rewrite Forall_forall in F. auto.
  Qed.

  (* validators' order does not matter when they only assert *)
  Lemma validate_perm (m m' : fmodel T) x y d :
    Forall (only_asserts x y d) (fm_val m) ->
    (forall v, In v (fm_val m) <-> In v (fm_val m')) ->
    validate_input m x y d = validate_input m' x y d.
  Proof.
    intros F I.
    assert (F' : Forall (only_asserts x y d) (fm_val m')).
    { rewrite Forall_forall in *. intros v Hv. apply F. now apply I. }
    rewrite !validate_only_asserts by assumption. f_equal.
    apply eq_true_iff_eq. rewrite !forallb_forall. split; intros G v Hv; apply G; now apply I.
  Qed.
End Lemmas.

(* ---- C05: names ---- *)
Section Names.
  Definition special (c : ascii) : bool :=
    (Ascii.eqb c "(" || Ascii.eqb c ")" || Ascii.eqb c "+" || Ascii.eqb c "*")%char.
  Fixpoint plain (s : string) : Prop :=
    match s with
    | EmptyString => True
    | String c s' => special c = false /\ plain s'
    end.

  Lemma app_assoc_s (a b c : string) : (a ++ b) ++ c = a ++ b ++ c.
  Proof. induction a; cbn; congruence. Qed.
  Lemma app_nil_s (a : string) : a ++ "" = a.
  Proof. induction a; cbn; congruence. Qed.
  Lemma app_inv_head_s (a b c : string) : a ++ b = a ++ c -> b = c.
  Proof. induction a; cbn; intros E; [assumption|]. injection E; auto. Qed.

  (* plain prefixes followed by a special character (or the end) are determined *)
  Definition starts_special (s : string) : Prop :=
    match s with EmptyString => True | String c _ => special c = true end.
  Lemma plain_split : forall a b s t,
    plain a -> plain b -> starts_special s -> starts_special t ->
    a ++ s = b ++ t -> a = b /\ s = t.
  Proof.
    induction a as [|c a IH]; intros [|e b] s t; cbn.
    - auto.
    - intros _ [Hc _] Hs _ ->. cbn in Hs. congruence.
    - intros [Hc _] _ _ Ht <-. cbn in Ht. congruence.
    - intros [Hc Ha] [He Hb] Hs Ht [= -> E].
      destruct (IH b s t) as [-> ->]; auto.
  Qed.

  (* names of compositions *)
  Inductive ntree := NL (s : string) | NA (a b : ntree) | NM (a b : ntree).
  Fixpoint nprint (t : ntree) : string :=
    match t with
    | NL s => s
    | NA a b => "(" ++ nprint a ++ "+" ++ nprint b ++ ")"
    | NM a b => "(" ++ nprint a ++ "*" ++ nprint b ++ ")"
    end.
  Fixpoint nplain (t : ntree) : Prop :=
    match t with NL s => plain s | NA a b | NM a b => nplain a /\ nplain b end.

  (* no tree name followed by a special character other than '(' is a prefix of another *)
  Lemma nprint_split : forall a b s t,
    nplain a -> nplain b -> starts_special s -> starts_special t ->
    (forall r, s <> String "(" r) -> (forall r, t <> String "(" r) ->
    nprint a ++ s = nprint b ++ t -> a = b /\ s = t.
  Proof.
    induction a as [x|a1 IH1 a2 IH2|a1 IH1 a2 IH2]; intros b s t Pa Pb Ss St Ns Nt.
    - destruct b as [y|b1 b2|b1 b2]; cbn.
      + intros E. destruct (plain_split x y s t) as [-> ->]; auto.
      + destruct x as [|c x]; cbn.
        * intros E. now destruct (Ns _ E).
        * cbn in Pa. intros [= -> _]. destruct Pa as [Pa _]. discriminate.
      + destruct x as [|c x]; cbn.
        * intros E. now destruct (Ns _ E).
        * cbn in Pa. intros [= -> _]. destruct Pa as [Pa _]. discriminate.
    - destruct b as [y|b1 b2|b1 b2]; cbn.
      + destruct y as [|c y]; cbn.
        * intros E. now destruct (Nt _ (eq_sym E)).
        * cbn in Pb. intros [= <- _]. destruct Pb as [Pb _]. discriminate.
      + cbn in Pa, Pb. destruct Pa as [Pa1 Pa2], Pb as [Pb1 Pb2].
        intros E. injection E; clear E; intros E.
        repeat (rewrite app_assoc_s in E; cbn [append] in E).
        destruct (IH1 b1 _ _ Pa1 Pb1 (eq_refl : starts_special (String "+" _))
                    (eq_refl : starts_special (String "+" _))
                    ltac:(intros r; discriminate) ltac:(intros r; discriminate) E)
          as [-> E2].
        injection E2; clear E2; intros E2.
        destruct (IH2 b2 _ _ Pa2 Pb2 (eq_refl : starts_special (String ")" _))
                    (eq_refl : starts_special (String ")" _))
                    ltac:(intros r; discriminate) ltac:(intros r; discriminate) E2)
          as [-> E3].
        injection E3; auto.
      + cbn in Pa, Pb. destruct Pa as [Pa1 Pa2], Pb as [Pb1 Pb2].
        intros E. injection E; clear E; intros E.
        repeat (rewrite app_assoc_s in E; cbn [append] in E).
        destruct (IH1 b1 _ _ Pa1 Pb1 (eq_refl : starts_special (String "+" _))
                    (eq_refl : starts_special (String "*" _))
                    ltac:(intros r; discriminate) ltac:(intros r; discriminate) E)
          as [-> E2]. discriminate.
    - destruct b as [y|b1 b2|b1 b2]; cbn.
      + destruct y as [|c y]; cbn.
        * intros E. now destruct (Nt _ (eq_sym E)).
        * cbn in Pb. intros [= <- _]. destruct Pb as [Pb _]. discriminate.
      + cbn in Pa, Pb. destruct Pa as [Pa1 Pa2], Pb as [Pb1 Pb2].
        intros E. injection E; clear E; intros E.
        repeat (rewrite app_assoc_s in E; cbn [append] in E).
        destruct (IH1 b1 _ _ Pa1 Pb1 (eq_refl : starts_special (String "*" _))
                    (eq_refl : starts_special (String "+" _))
                    ltac:(intros r; discriminate) ltac:(intros r; discriminate) E)
          as [-> E2]. discriminate.
      + cbn in Pa, Pb. destruct Pa as [Pa1 Pa2], Pb as [Pb1 Pb2].
        intros E. injection E; clear E; intros E.
        repeat (rewrite app_assoc_s in E; cbn [append] in E).
        destruct (IH1 b1 _ _ Pa1 Pb1 (eq_refl : starts_special (String "*" _))
                    (eq_refl : starts_special (String "*" _))
                    ltac:(intros r; discriminate) ltac:(intros r; discriminate) E)
          as [-> E2].
        injection E2; clear E2; intros E2.
        destruct (IH2 b2 _ _ Pa2 Pb2 (eq_refl : starts_special (String ")" _))
                    (eq_refl : starts_special (String ")" _))
                    ltac:(intros r; discriminate) ltac:(intros r; discriminate) E2)
          as [-> E3].
        injection E3; auto.
  Qed.

  Lemma nprint_inj a b : nplain a -> nplain b -> nprint a = nprint b -> a = b.
  Proof.
    intros Pa Pb E.
    apply (nprint_split a b "" ""); cbn; auto; try discriminate.
    now rewrite !app_nil_s.
  Qed.

  Context {T : Type} `{NumOps T}.
  (* the composition with models replaced by their names *)
  Fixpoint skeleton (t : tree T) : ntree :=
    match t with
    | Leaf m => NL (fm_name m)
    | TAdd a b => NA (skeleton a) (skeleton b)
    | TMul a b => NM (skeleton a) (skeleton b)
    end.

  Lemma build_name (t : tree T) : null_free t -> fm_name (build t) = nprint (skeleton t).
  Proof.
    induction 1 as [m Hm|a b Ha IHa Hb IHb|a b Ha IHa Hb IHb]; cbn; [reflexivity| |].
    - unfold madd. rewrite !is_null_false by now apply null_free_name.
      cbn. now rewrite IHa, IHb.
    - unfold mmul. rewrite !is_null_false by now apply null_free_name.
      cbn. now rewrite IHa, IHb.
  Qed.

  Lemma plain_null_free_leaf (t : tree T) :
    null_free t -> Forall (fun m => plain (fm_name m)) (leaves t) -> nplain (skeleton t).
  Proof.
    induction 1 as [m Hm|a b Ha IHa Hb IHb|a b Ha IHa Hb IHb]; cbn.
    - rewrite (proj2 (String.eqb_neq _ _) Hm). intros F. now inversion F.
    - rewrite Forall_app. intros [? ?]; auto.
    - rewrite Forall_app. intros [? ?]; auto.
  Qed.

  Lemma names_identify (t1 t2 : tree T) :
    Forall (fun m => plain (fm_name m)) (leaves t1) ->
    Forall (fun m => plain (fm_name m)) (leaves t2) ->
    model_eqb (build t1) (build t2) = true ->
    option_map skeleton (prune t1) = option_map skeleton (prune t2).
  Proof.
    unfold model_eqb. rewrite String.eqb_eq. intros F1 F2 E.
    pose proof (build_not_null_iff t1) as N1. pose proof (build_not_null_iff t2) as N2.
    destruct (prune t1) as [u1|] eqn:P1, (prune t2) as [u2|] eqn:P2; cbn.
    - f_equal. rewrite (leaves_prune _ _ P1) in F1. rewrite (leaves_prune _ _ P2) in F2.
      pose proof (prune_null_free _ _ P1) as Z1. pose proof (prune_null_free _ _ P2) as Z2.
      rewrite (prune_build _ _ P1), (prune_build _ _ P2), !build_name in E by assumption.
      apply nprint_inj; auto using plain_null_free_leaf.
    - exfalso. rewrite (proj2 N2 eq_refl) in E. apply N1 in E. discriminate.
    - exfalso. rewrite (proj2 N1 eq_refl) in E. symmetry in E. apply N2 in E. discriminate.
    - reflexivity.
  Qed.

  Lemma names_complete (t1 t2 : tree T) :
    option_map skeleton (prune t1) = option_map skeleton (prune t2) ->
    model_eqb (build t1) (build t2) = true.
  Proof.
    unfold model_eqb. rewrite String.eqb_eq.
    pose proof (build_not_null_iff t1) as N1. pose proof (build_not_null_iff t2) as N2.
    destruct (prune t1) as [u1|] eqn:P1, (prune t2) as [u2|] eqn:P2; cbn; try discriminate.
    - intros [= E]. rewrite (prune_build _ _ P1), (prune_build _ _ P2), !build_name
        by (eapply prune_null_free; eauto). now rewrite E.
    - intros _. now rewrite (proj2 N1 eq_refl), (proj2 N2 eq_refl).
  Qed.
End Names.

(* ---- statements in the form used by the properties ---- *)
Section Final.
  Context {T : Type} {N : NumOps T}.

  Lemma none_params (m1 m2 : fmodel T) a_x a_date is_mult kw :
    fm_name m1 <> "null" -> fm_name m2 <> "null" ->
    call (madd m1 m2) a_x a_date None is_mult kw = Err TypeError /\
    call (mmul m1 m2) a_x a_date None is_mult kw = Err TypeError.
  Proof.
    intros N1 N2. unfold madd, mmul. rewrite !is_null_false by assumption.
    split; reflexivity.
  Qed.

  Lemma prune_sound (t t' : tree T) : prune t = Some t' -> build t = build t' /\ null_free t'.
  Proof. intros P. split; [now apply prune_build|eapply prune_null_free; eauto]. Qed.

  Fixpoint all_null (t : tree T) : Prop :=
    match t with
    | Leaf m => m = model_null
    | TAdd a b | TMul a b => all_null a /\ all_null b
    end.
  Lemma all_null_build (t : tree T) : all_null t -> build t = model_null /\
    (forall a_x a_date p is_mult kw,
       call (build t) a_x a_date p is_mult kw = Ok (Sc (if is_mult then n1 else n0))).
  Proof.
    intros A. assert (E : build t = model_null).
    { induction t; cbn in *; [assumption| |]; destruct A as [A1 A2];
        rewrite (IHt1 A1), (IHt2 A2); reflexivity. }
    split; [assumption|]. intros. rewrite E. destruct is_mult; reflexivity.
  Qed.

  Lemma names_identify_iff (t1 t2 : tree T) :
    Forall (fun m => plain (fm_name m)) (leaves t1) ->
    Forall (fun m => plain (fm_name m)) (leaves t2) ->
    (model_eqb (build t1) (build t2) = true <->
     option_map skeleton (prune t1) = option_map skeleton (prune t2)).
  Proof. intros. split; [now apply names_identify|apply names_complete]. Qed.

  Lemma names_clash :
    exists t1 t2 : tree T, model_eqb (build t1) (build t2) = true /\
      option_map skeleton (prune t1) <> option_map skeleton (prune t2).
  Proof.
    pose (m := fun s => Leaf (mk_model s 0 f_null None None None None None) : tree T).
    exists (TAdd (m "a+b") (m "c")), (TAdd (m "a") (m "b+c")). split; [reflexivity|discriminate].
  Qed.

  Lemma name_only (m1 m2 m : fmodel T) :
    fm_name m1 = fm_name m2 ->
    model_eqb m1 m2 = true /\ model_eqb m1 m = model_eqb m2 m /\
    model_leb m1 m = model_leb m2 m /\ model_leb m m1 = model_leb m m2.
  Proof.
    intros E. unfold model_eqb, model_leb. rewrite E, String.eqb_refl. auto.
  Qed.

  Lemma reject_iff (m : fmodel T) x y d :
    Forall (only_asserts x y d) (fm_val m) ->
    validate_input m x y d = Ok (forallb (fun v => is_ok (v_run v x y d)) (fm_val m)) /\
    (validate_input m x y d = Ok false <->
     exists v, In v (fm_val m) /\ v_run v x y d = Err AssertionError).
  Proof. intros F. split; [now apply validate_only_asserts|now apply validate_false_iff]. Qed.

  Lemma validate_propagates (m : fmodel T) x y d l1 v l2 e :
    fm_val m = (l1 ++ v :: l2)%list ->
    Forall (fun w => is_ok (v_run w x y d) = true) l1 ->
    v_run v x y d = Err e -> e <> AssertionError ->
    validate_input m x y d = Err e.
  Proof.
    intros E F Ev Ne. unfold validate_input. rewrite E. clear E.
    assert (G : rmapM (fun v => v_run v x y d) (l1 ++ v :: l2) = Err e).
    { induction F as [|w l1 Hw F IH]; cbn.
      - now rewrite Ev.
      - destruct (v_run w x y d); [|discriminate]. cbn. now rewrite IH. }
    rewrite G. destruct e; congruence.
  Qed.

  Lemma false_accepts : exists m : fmodel T,
    (forall v, In v (fm_val m) -> forall x y d, v_run v x y d = Ok false) /\ fm_val m <> [] /\
    forall x y d, validate_input m x y d = Ok true.
  Proof.
    exists (mk_model "m" 0 f_null None None (Some [mkVal "never" (fun _ _ _ => Ok false)]) None None).
    cbn. repeat split; try discriminate. intros v [<-|[]]; reflexivity.
  Qed.
End Final.
