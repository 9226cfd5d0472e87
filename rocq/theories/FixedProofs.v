(* Proofs about fixed-parameter models (C08-C10). *)
From Coq Require Import ZArith String List Bool Lia.
From Verif Require Import Num Py Cal Model ModelProofs Base Fixed.
Import ListNotations.
Local Open Scope string_scope.

(* ---- specifications ---- *)
Section Spec.
  Context {T : Type} `{NumOps T}.
  (* number of free parameters *)
  Definition n_free (fixed : list T) : nat := length (filter nisnan fixed).
  (* the nulls of [fixed] replaced, in order, by the values [ps] *)
  Fixpoint fill (fixed ps : list T) : list T :=
    match fixed with
    | [] => []
    | a :: l => if nisnan a
                then match ps with p :: ps' => p :: fill l ps' | [] => nnan :: fill l [] end
                else a :: fill l ps
    end.
  (* the entries of [vals] at the positions where [fixed] is null *)
  Fixpoint pick (fixed vals : list T) : list T :=
    match fixed, vals with
    | a :: l, v :: vs => if nisnan a then v :: pick l vs else pick l vs
    | _, _ => []
    end.
  (* a call of a model function *)
  Record mcall := mkCall {
    c_x : list T; c_date : option (list Z); c_p : params T; c_mode : option bool }.
  (* content of the shared vector after a sequence of calls *)
  Fixpoint after (m : fmodel T) (idx : list nat) (st : list T) (h : list mcall) : list T :=
    match h with
    | [] => st
    | c :: h' => after m idx (fst (fixed_step m idx st (c_x c) (c_date c) (c_p c) (c_mode c))) h'
    end.
  (* bounds pin parameter i *)
  Definition pinned (b : bounds T) (i : nat) : Prop :=
    exists lo hi, nth_error (b_lo b) i = Some lo /\ nth_error (b_hi b) i = Some hi /\
      neqb (nsub hi lo) n0 = true.
  Definition pinned_by (lo hi : T) : bool := neqb (nsub hi lo) n0.
  Fixpoint pins (los his : list T) : list T :=
    match los, his with
    | lo :: los', hi :: his' => (if pinned_by lo hi then hi else nnan) :: pins los' his'
    | _, _ => []
    end.
End Spec.

Section Proofs.
  Context {T : Type} `{NumOps T}.

  Definition pos_from (f : T -> bool) (i : nat) (l : list T) : list nat :=
    map fst (filter (fun p => f (snd p)) (enum_from i l)).
  Lemma pos_from_S f l : forall i, pos_from f (S i) l = map S (pos_from f i l).
  Proof.
    induction l as [|a l IH]; intros i; [reflexivity|].
    unfold pos_from in *. cbn. destruct (f a); cbn; rewrite IH; reflexivity.
  Qed.
  Lemma null_positions_cons a (l : list T) :
    null_positions (a :: l) =
    if nisnan a then 0%nat :: map S (null_positions l) else map S (null_positions l).
  Proof.
    change (null_positions (a :: l)) with (pos_from nisnan 0 (a :: l)).
    change (null_positions l) with (pos_from nisnan 0 l).
    rewrite <- pos_from_S. unfold pos_from. cbn. destruct (nisnan a); reflexivity.
  Qed.
  Lemma null_positions_length (l : list T) : length (null_positions l) = n_free l.
  Proof.
    unfold n_free. induction l as [|a l IH]; [reflexivity|].
    rewrite null_positions_cons. cbn. destruct (nisnan a); cbn; rewrite map_length; lia.
  Qed.
  Lemma set_all_S idx : forall vs (a : T) l,
    set_all (map S idx) vs (a :: l) = a :: set_all idx vs l.
  Proof.
    induction idx as [|i idx IH]; intros vs a l; [reflexivity|].
    destruct vs as [|v vs]; [reflexivity|]. unfold set_all in *. cbn. apply IH.
  Qed.
  Lemma set_all_length idx : forall vs (l : list T), length (set_all idx vs l) = length l.
  Proof.
    induction idx as [|i idx IH]; intros vs l; [reflexivity|].
    destruct vs as [|v vs]; [reflexivity|]. unfold set_all in *. cbn. rewrite IH.
    clear. revert i. induction l as [|a l IH]; intros [|i]; cbn; auto.
  Qed.

  (* the state agrees with the original vector at the fixed positions *)
  Definition agrees (fixed st : list T) : Prop :=
    Forall2 (fun f s => nisnan f = true \/ f = s) fixed st.
  Lemma agrees_refl l : agrees l l.
  Proof. induction l; constructor; auto. Qed.
  Lemma set_all_fill fixed st : agrees fixed st -> forall vs, length vs = n_free fixed ->
    set_all (null_positions fixed) vs st = fill fixed vs.
  Proof.
    induction 1 as [|f s fixed st Hfs Hag IH]; intros vs Hl; [reflexivity|].
    rewrite null_positions_cons. cbn [fill]. unfold n_free in Hl. cbn in Hl.
    destruct (nisnan f) eqn:E.
    - destruct vs as [|v vs]; [discriminate|]. cbn in Hl. injection Hl as Hl.
      unfold set_all. cbn [combine fold_left fst snd set_nth].
      change (set_all (map S (null_positions fixed)) vs (v :: st) = v :: fill fixed vs).
      rewrite set_all_S, IH; auto.
    - rewrite set_all_S, IH by auto. destruct Hfs as [Hf|Hf]; [congruence|now subst].
  Qed.
  Lemma fill_agrees fixed : forall vs, agrees fixed (fill fixed vs).
  Proof.
    induction fixed as [|a l IH]; intros vs; [constructor|]. cbn.
    destruct (nisnan a) eqn:E.
    - destruct vs; (apply Forall2_cons; [auto|apply IH]).
    - apply Forall2_cons; [auto|apply IH].
  Qed.

  (* what an assignment computes does not depend on the state *)
  Lemma assign_indep fixed st p : agrees fixed st ->
    assign (null_positions fixed) p st = assign (null_positions fixed) p fixed /\
    (forall st', assign (null_positions fixed) p st = Ok st' -> agrees fixed st').
  Proof.
    intros A. pose proof (agrees_refl fixed) as A0.
    assert (G : forall vs, length vs = n_free fixed ->
      set_all (null_positions fixed) vs st = set_all (null_positions fixed) vs fixed /\
      agrees fixed (set_all (null_positions fixed) vs st)).
    { intros vs Hl. rewrite (set_all_fill _ _ A), (set_all_fill _ _ A0) by auto.
      split; [reflexivity|apply fill_agrees]. }
    unfold assign.
    assert (R : forall v : T, length (repeat v (length (null_positions fixed))) = n_free fixed)
      by (intros v; rewrite repeat_length; apply null_positions_length).
    assert (E : forall vs : list T, (if Nat.eqb (length vs) (length (null_positions fixed))
        then Ok (set_all (null_positions fixed) vs st) else Err ValueError) =
        (if Nat.eqb (length vs) (length (null_positions fixed))
        then Ok (set_all (null_positions fixed) vs fixed) else Err ValueError) /\
      forall st', (if Nat.eqb (length vs) (length (null_positions fixed))
        then Ok (set_all (null_positions fixed) vs st) else Err ValueError) = Ok st' ->
        agrees fixed st').
    { intros vs. destruct (Nat.eqb_spec (length vs) (length (null_positions fixed))) as [El|El].
      - rewrite null_positions_length in El. destruct (G vs El) as [G1 G2]. rewrite G1.
        split; [reflexivity|]. intros st' [= <-]. rewrite <- G1. exact G2.
      - split; [reflexivity|discriminate]. }
    destruct p as [[|v [|w l]]|].
    - apply E.
    - destruct (G _ (R v)) as [G1 G2]. rewrite G1. split; [reflexivity|].
      intros st' [= <-]. rewrite <- G1. exact G2.
    - apply E.
    - destruct (G _ (R nnan)) as [G1 G2]. rewrite G1. split; [reflexivity|].
      intros st' [= <-]. rewrite <- G1. exact G2.
  Qed.

  Lemma after_agrees m fixed : forall h st, agrees fixed st ->
    agrees fixed (after m (null_positions fixed) st h).
  Proof.
    induction h as [|c h IH]; intros st A; [exact A|]. cbn. apply IH. unfold fixed_step.
    destruct (assign (null_positions fixed) (c_p c) st) as [st'|e] eqn:E; [|exact A].
    cbn. exact (proj2 (assign_indep _ _ _ A) _ E).
  Qed.

  Lemma history_irrelevant (m : fmodel T) fixed h c :
    snd (fixed_step m (null_positions fixed) (after m (null_positions fixed) fixed h)
           (c_x c) (c_date c) (c_p c) (c_mode c))
    = snd (fixed_step m (null_positions fixed) fixed (c_x c) (c_date c) (c_p c) (c_mode c)).
  Proof.
    pose proof (after_agrees m fixed h fixed (agrees_refl fixed)) as A.
    unfold fixed_step. rewrite (proj1 (assign_indep _ _ (c_p c) A)).
    destruct (assign (null_positions fixed) (c_p c) fixed); reflexivity.
  Qed.

  Lemma fix_ok fmt (m m' : fmodel T) fixed : fix_params_fmodel fmt m fixed = Ok m' ->
    length fixed = fm_n m /\
    fm_n m' = n_free fixed /\ fm_name m' = fm_name m ++ "_fixed_" ++ fmt fixed /\
    (forall x d p mode kw, fm_f m' x d p mode kw =
       snd (fixed_step m (null_positions fixed) fixed x d p mode)) /\
    (forall x y d mult rnd, match x with Some l => existsb nisnan l | None => false end = false ->
       fm_init m' x y d mult rnd =
       let* l := fm_init m x y d mult rnd in fancy_get (null_positions fixed) l) /\
    (forall x y d, fm_bounds m' x y d =
       let* b := fm_bounds m x y d in
       let* lo := fancy_get (null_positions fixed) (b_lo b) in
       let* hi := fancy_get (null_positions fixed) (b_hi b) in
       Ok (mkBounds lo hi true)).
  Proof.
    unfold fix_params_fmodel. destruct (Nat.eqb_spec (length fixed) (fm_n m)); [|discriminate].
    cbn [negb]. intros [= <-]. cbn. rewrite null_positions_length.
    repeat split; auto.
    intros x y d mult rnd Hx. unfold init_validated. destruct x as [l|]; [|reflexivity].
    now rewrite Hx.
  Qed.

  Lemma fixed_prediction fmt (m m' : fmodel T) fixed x d p mult kw :
    fix_params_fmodel fmt m fixed = Ok m' -> length p = n_free fixed ->
    call m' x d (Some p) mult kw = call m x d (Some (fill fixed p)) mult no_kw.
  Proof.
    intros E Hp. destruct (fix_ok _ _ _ _ E) as (_ & _ & _ & F & _).
    unfold call. rewrite F. unfold fixed_step.
    assert (assign (null_positions fixed) (Some p) fixed = Ok (fill fixed p)) as ->; [|reflexivity].
    rewrite <- (set_all_fill _ _ (agrees_refl fixed)) by exact Hp.
    unfold assign. rewrite null_positions_length, <- Hp, Nat.eqb_refl.
    destruct p as [|v [|w l]]; reflexivity.
  Qed.

  Lemma fancy_get_S idx (a : T) l : fancy_get (map S idx) (a :: l) = fancy_get idx l.
  Proof.
    unfold fancy_get. induction idx as [|i idx IH]; [reflexivity|]. cbn [map rmapM].
    rewrite IH. reflexivity.
  Qed.
  Lemma fancy_get_pick fixed : forall vals, length vals = length fixed ->
    fancy_get (null_positions fixed) vals = Ok (pick fixed vals).
  Proof.
    induction fixed as [|a l IH]; intros [|v vs] Hl; try discriminate; [reflexivity|].
    injection Hl as Hl. rewrite null_positions_cons. cbn [pick]. destruct (nisnan a).
    - unfold fancy_get. cbn [rmapM at_pos nth_error rbind].
      change (rmapM (at_pos (v :: vs)) (map S (null_positions l)))
        with (fancy_get (map S (null_positions l)) (v :: vs)).
      rewrite fancy_get_S, IH by auto. reflexivity.
    - rewrite fancy_get_S. apply IH. auto.
  Qed.

  Lemma fixed_guess fmt (m m' : fmodel T) fixed x y d mult rnd g :
    fix_params_fmodel fmt m fixed = Ok m' ->
    match x with Some l => existsb nisnan l | None => false end = false ->
    fm_init m x y d mult rnd = Ok g -> length g = fm_n m ->
    fm_init m' x y d mult rnd = Ok (pick fixed g).
  Proof.
    intros E Hx Hg Hl. destruct (fix_ok _ _ _ _ E) as (L & _ & _ & _ & F & _).
    rewrite F by exact Hx. rewrite Hg. cbn. apply fancy_get_pick. congruence.
  Qed.
  Lemma fixed_bounds fmt (m m' : fmodel T) fixed x y d b :
    fix_params_fmodel fmt m fixed = Ok m' -> fm_bounds m x y d = Ok b ->
    length (b_lo b) = fm_n m -> length (b_hi b) = fm_n m ->
    fm_bounds m' x y d = Ok (mkBounds (pick fixed (b_lo b)) (pick fixed (b_hi b)) true).
  Proof.
    intros E Hb Hl Hh. destruct (fix_ok _ _ _ _ E) as (L & _ & _ & _ & _ & F).
    rewrite F, Hb. cbn. rewrite !fancy_get_pick by congruence. reflexivity.
  Qed.
  Lemma pick_length fixed : forall vals, length vals = length fixed ->
    length (pick fixed vals) = n_free fixed.
  Proof.
    unfold n_free. induction fixed as [|a l IH]; intros [|v vs] Hl; try discriminate; [reflexivity|].
    injection Hl as Hl. cbn. destruct (nisnan a); cbn; rewrite IH; auto.
  Qed.
  Lemma fix_refused fmt (m : fmodel T) fixed : length fixed <> fm_n m ->
    fix_params_fmodel fmt m fixed = Err AssertionError.
  Proof.
    intros Hl. unfold fix_params_fmodel. apply Nat.eqb_neq in Hl. now rewrite Hl.
  Qed.
  Lemma fix_accepted fmt (m : fmodel T) fixed : length fixed = fm_n m ->
    exists m', fix_params_fmodel fmt m fixed = Ok m'.
  Proof.
    intros Hl. unfold fix_params_fmodel. rewrite Hl, Nat.eqb_refl. cbn. eauto.
  Qed.

  (* ---- get_fixed_model ---- *)
  Lemma fixed_model_spec (m : fmodel T) fixed built_mult :
    (fm_n m = 0%nat -> get_fixed_model m fixed built_mult = Ok m) /\
    (fm_n m <> 0%nat -> length fixed <> fm_n m ->
       get_fixed_model m fixed built_mult = Err ValueError) /\
    (fm_n m <> 0%nat -> length fixed = fm_n m ->
       exists m', get_fixed_model m fixed built_mult = Ok m' /\
         fm_name m' = fm_name m ++ "_fixed" /\ fm_n m' = 0%nat /\
         (forall x d p mult kw, call m' x d p mult kw = call m x d (Some fixed) mult no_kw) /\
         (forall x d p kw, fm_f m' x d p None kw = call m x d (Some fixed) built_mult no_kw)).
  Proof.
    unfold get_fixed_model. repeat split.
    - intros ->. reflexivity.
    - intros Hn Hl. apply Nat.eqb_neq in Hn, Hl. now rewrite Hn, Hl.
    - intros Hn Hl. apply Nat.eqb_neq in Hn. rewrite Hn, Hl, Nat.eqb_refl. cbn.
      eexists. split; [reflexivity|]. repeat split; reflexivity.
  Qed.

  (* ---- simplify_model ---- *)
  Lemma equal_bounds_pos (b : bounds T) :
    equal_bounds b = pos_from (fun v => neqb v n0) 0 (map2 nsub (b_hi b) (b_lo b)).
  Proof. reflexivity. Qed.
  Lemma pos_from_in f (l : list T) : forall i k, In k (pos_from f i l) <->
    exists v, (i <= k)%nat /\ nth_error l (k - i) = Some v /\ f v = true.
  Proof.
    induction l as [|a l IH]; intros i k.
    - cbn. split; [tauto|]. intros (v & _ & Hv & _). destruct (k - i)%nat; discriminate.
    - rewrite <- (app_nil_l (pos_from f i (a :: l))).
      assert (E : pos_from f i (a :: l) = if f a then i :: pos_from f (S i) l else pos_from f (S i) l).
      { unfold pos_from. cbn. destruct (f a); reflexivity. }
      cbn [app]. rewrite E. clear E.
      assert (S1 : In k (pos_from f (S i) l) <->
        exists v, (S i <= k)%nat /\ nth_error (a :: l) (k - i) = Some v /\ f v = true).
      { rewrite IH. split; intros (v & Hk & Hv & Hf); exists v; repeat split; auto.
        - replace (k - i)%nat with (S (k - S i)) by lia. exact Hv.
        - replace (k - i)%nat with (S (k - S i)) in Hv by lia. exact Hv. }
      destruct (f a) eqn:Fa.
      + cbn [In]. rewrite S1. split.
        * intros [<-|(v & Hk & Hv & Hf)].
          -- exists a. rewrite Nat.sub_diag. auto.
          -- exists v. split; [lia|auto].
        * intros (v & Hk & Hv & Hf). destruct (Nat.eq_dec i k) as [->|Hn]; [now left|right].
          exists v. split; [lia|auto].
      + rewrite S1. split; intros (v & Hk & Hv & Hf).
        * exists v. split; [lia|auto].
        * destruct (Nat.eq_dec i k) as [->|Hn].
          -- rewrite Nat.sub_diag in Hv. cbn in Hv. congruence.
          -- exists v. split; [lia|auto].
  Qed.
  Lemma nth_map2 (f : T -> T -> T) : forall l1 l2 i,
    nth_error (map2 f l1 l2) i =
    match nth_error l1 i, nth_error l2 i with Some a, Some b => Some (f a b) | _, _ => None end.
  Proof.
    unfold map2. induction l1 as [|a l1 IH]; intros [|b l2] [|i]; cbn; auto.
    destruct (nth_error l1 i); reflexivity.
  Qed.
  Lemma equal_bounds_in (b : bounds T) i : In i (equal_bounds b) <-> pinned b i.
  Proof.
    rewrite equal_bounds_pos, pos_from_in, Nat.sub_0_r. unfold pinned. rewrite nth_map2.
    split.
    - intros (v & _ & Hv & Hf). destruct (nth_error (b_hi b) i) as [hi|] eqn:Eh; [|discriminate].
      destruct (nth_error (b_lo b) i) as [lo|] eqn:El; [|discriminate].
      injection Hv as <-. eauto 6.
    - intros (lo & hi & El & Eh & Hn). rewrite Eh, El. eexists. split; [lia|eauto].
  Qed.
  Lemma equal_bounds_nil (b : bounds T) : equal_bounds b = [] <-> forall i, ~ pinned b i.
  Proof.
    split.
    - intros E i Hi. apply equal_bounds_in in Hi. rewrite E in Hi. destruct Hi.
    - intros Hn. destruct (equal_bounds b) as [|i l] eqn:E; [reflexivity|].
      exfalso. apply (Hn i). apply equal_bounds_in. rewrite E. now left.
  Qed.

  (* the vector handed to fix_params_fmodel *)
  Lemma pins_vector (lo hi : list T) : length lo = length hi ->
    let idx := pos_from (fun v => neqb v n0) 0 (map2 nsub hi lo) in
    exists vals, fancy_get idx hi = Ok vals /\
      set_all idx vals (repeat nnan (length hi)) = pins lo hi.
  Proof.
    revert hi. induction lo as [|l lo IH]; intros [|h hi] Hl; try discriminate.
    - exists []. auto.
    - injection Hl as Hl. destruct (IH hi Hl) as (vals & Hg & Hs). cbv zeta in *.
      assert (E : pos_from (fun v => neqb v n0) 0 (map2 nsub (h :: hi) (l :: lo)) =
        if pinned_by l h
        then 0%nat :: map S (pos_from (fun v => neqb v n0) 0 (map2 nsub hi lo))
        else map S (pos_from (fun v => neqb v n0) 0 (map2 nsub hi lo))).
      { rewrite <- pos_from_S. unfold pos_from, map2, pinned_by. cbn.
        destruct (neqb (nsub h l) n0); reflexivity. }
      rewrite E. cbn [length repeat pins].
      destruct (pinned_by l h) eqn:Ep.
      + exists (h :: vals). split.
        * unfold fancy_get. cbn [rmapM at_pos nth_error rbind].
          change (rmapM (at_pos (h :: hi)) (map S (pos_from (fun v => neqb v n0) 0 (map2 nsub hi lo))))
            with (fancy_get (map S (pos_from (fun v => neqb v n0) 0 (map2 nsub hi lo))) (h :: hi)).
          rewrite fancy_get_S, Hg. reflexivity.
        * unfold set_all. cbn [combine fold_left fst snd set_nth].
          change (set_all (map S (pos_from (fun v => neqb v n0) 0 (map2 nsub hi lo))) vals
                    (h :: repeat nnan (length hi)) = h :: pins lo hi).
          rewrite set_all_S, Hs. reflexivity.
      + exists vals. split.
        * now rewrite fancy_get_S.
        * now rewrite set_all_S, Hs.
  Qed.

  Lemma pins_length (lo : list T) : forall hi, length lo = length hi ->
    length (pins lo hi) = length lo.
  Proof. induction lo as [|l lo IH]; intros [|h hi] Hl; try discriminate; cbn; auto. Qed.

  Lemma simplify_nothing fmt (m : fmodel T) x y d b :
    fm_bounds m x y d = Ok b -> length (b_lo b) = length (b_hi b) ->
    (forall i, ~ pinned b i) -> simplify_model fmt m x y d = Ok m.
  Proof.
    intros Eb El Hn. unfold simplify_model. rewrite Eb. cbn. rewrite El, Nat.eqb_refl. cbn.
    apply equal_bounds_nil in Hn. now rewrite Hn.
  Qed.

  Lemma simplify_lists fmt (m : fmodel T) x y d b i :
    fm_bounds m x y d = Ok b -> length (b_lo b) = length (b_hi b) -> b_nd b = false ->
    pinned b i -> simplify_model fmt m x y d = Err TypeError.
  Proof.
    intros Eb El Hnd Hp. unfold simplify_model. rewrite Eb. cbn. rewrite El, Nat.eqb_refl. cbn.
    destruct (equal_bounds b) as [|j l] eqn:E.
    - apply (proj1 (equal_bounds_nil b) E) in Hp. destruct Hp.
    - now rewrite Hnd.
  Qed.

  Lemma simplify_arrays fmt (m : fmodel T) x y d b i :
    fm_bounds m x y d = Ok b -> length (b_lo b) = fm_n m -> length (b_hi b) = fm_n m ->
    b_nd b = true -> pinned b i ->
    simplify_model fmt m x y d = fix_params_fmodel fmt m (pins (b_lo b) (b_hi b)).
  Proof.
    intros Eb El Eh Hnd Hp. unfold simplify_model. rewrite Eb. cbn. rewrite El, Eh, Nat.eqb_refl. cbn.
    destruct (equal_bounds b) as [|j l] eqn:E.
    - apply (proj1 (equal_bounds_nil b) E) in Hp. destruct Hp.
    - rewrite Hnd. cbn [negb]. rewrite <- E.
      assert (Hr : existsb (fun i0 => Nat.leb (fm_n m) i0) (equal_bounds b) = false).
      { apply not_true_iff_false. intros Hx. apply existsb_exists in Hx as (k & Hk & Hle).
        apply equal_bounds_in in Hk as (lo & hi & Hlo & _). apply Nat.leb_le in Hle.
        assert (k < length (b_lo b))%nat by (apply nth_error_Some; congruence). lia. }
      rewrite Hr. rewrite equal_bounds_pos.
      destruct (pins_vector (b_lo b) (b_hi b)) as (vals & Hg & Hs); [congruence|].
      cbv zeta in Hg, Hs. rewrite Hg. cbn. rewrite <- Eh, Hs. reflexivity.
  Qed.
End Proofs.

(* ---- over the extended reals: which bounds count as equal ---- *)
From Coq Require Import Reals Lra.
Lemma Reqb_true a b : Reqb a b = true <-> a = b.
Proof. unfold Reqb. destruct (Req_EM_T a b); split; congruence. Qed.
Lemma Reqb_false a b : Reqb a b = false <-> a <> b.
Proof. unfold Reqb. destruct (Req_EM_T a b); split; congruence. Qed.

Lemma pinned_by_iff (lo hi : XR) : pinned_by lo hi = true <-> exists r, lo = Fin r /\ hi = Fin r.
Proof.
  unfold pinned_by, n0. cbn. unfold xsub.
  destruct hi as [| | |h], lo as [| | |l]; cbn; split;
    try discriminate; try (intros (r & E1 & E2); discriminate).
  - intros E. apply Reqb_true in E. exists h. split; [f_equal; lra|reflexivity].
  - intros (r & [= ->] & [= ->]). apply Reqb_true. lra.
Qed.
Lemma pinned_iff (b : bounds XR) i : pinned b i <->
  exists r, nth_error (b_lo b) i = Some (Fin r) /\ nth_error (b_hi b) i = Some (Fin r).
Proof.
  unfold pinned. split.
  - intros (lo & hi & El & Eh & Hp). apply pinned_by_iff in Hp as (r & -> & ->). eauto.
  - intros (r & El & Eh). exists (Fin r), (Fin r). repeat split; auto.
    apply (pinned_by_iff (Fin r) (Fin r)). eauto.
Qed.

(* [out] is [ps] with the coinciding bounds inserted at their positions *)
Inductive merged : list XR -> list XR -> list XR -> list XR -> Prop :=
| mg_nil : merged [] [] [] []
| mg_pin r lo hi ps out : merged lo hi ps out ->
    merged (Fin r :: lo) (Fin r :: hi) ps (Fin r :: out)
| mg_free l h p lo hi ps out : ~ (exists r, l = Fin r /\ h = Fin r) -> merged lo hi ps out ->
    merged (l :: lo) (h :: hi) (p :: ps) (p :: out).

Lemma merged_fill lo hi ps out : merged lo hi ps out ->
  fill (pins lo hi) ps = out /\ length ps = n_free (pins lo hi).
Proof.
  induction 1 as [|r lo hi ps out Hm [IH1 IH2]|l h p lo hi ps out Hn Hm [IH1 IH2]].
  - split; reflexivity.
  - cbn [pins]. rewrite (proj2 (pinned_by_iff (Fin r) (Fin r))) by eauto.
    unfold n_free. cbn. split; [now rewrite IH1|exact IH2].
  - cbn [pins]. destruct (pinned_by l h) eqn:E.
    + apply pinned_by_iff in E. contradiction.
    + unfold n_free in *. cbn. split; [now rewrite IH1|now rewrite IH2].
Qed.
Lemma merged_exists lo : forall hi ps, length lo = length hi ->
  length ps = n_free (pins lo hi) -> exists out, merged lo hi ps out.
Proof.
  induction lo as [|l lo IH]; intros [|h hi] ps Hl Hp; try discriminate.
  - destruct ps; [|discriminate]. exists []. constructor.
  - injection Hl as Hl. cbn [pins] in Hp. destruct (pinned_by l h) eqn:E.
    + pose proof (proj1 (pinned_by_iff _ _) E) as (r & -> & ->). unfold n_free in Hp. cbn in Hp.
      destruct (IH hi ps Hl Hp) as (out & Ho). exists (Fin r :: out). now constructor.
    + unfold n_free in Hp. cbn in Hp. destruct ps as [|p ps]; [discriminate|].
      injection Hp as Hp. destruct (IH hi ps Hl Hp) as (out & Ho). exists (p :: out).
      constructor; auto. intros Hx. apply pinned_by_iff in Hx. congruence.
Qed.

Lemma n_free_pins_le (lo : list XR) : forall hi, (n_free (pins lo hi) <= length lo)%nat.
Proof.
  unfold n_free. induction lo as [|l lo IH]; intros [|h hi]; cbn [pins filter length]; try lia.
  specialize (IH hi). destruct (nisnan (if pinned_by l h then h else nnan)); cbn [length]; lia.
Qed.

Lemma simplify_predicts fmt (m : fmodel XR) x y d b i :
  fm_bounds m x y d = Ok b -> length (b_lo b) = fm_n m -> length (b_hi b) = fm_n m ->
  b_nd b = true -> pinned b i ->
  exists m', simplify_model fmt m x y d = Ok m' /\ (fm_n m' < fm_n m)%nat /\
    (forall ps, length ps = fm_n m' -> exists out, merged (b_lo b) (b_hi b) ps out) /\
    (forall ps out, merged (b_lo b) (b_hi b) ps out ->
       length ps = fm_n m' /\
       forall xs ds mult kw, call m' xs ds (Some ps) mult kw = call m xs ds (Some out) mult no_kw).
Proof.
  intros Eb El Eh Hnd Hp.
  rewrite (simplify_arrays fmt m x y d b i) by assumption.
  destruct (fix_accepted fmt m (pins (b_lo b) (b_hi b))) as (m' & E).
  { rewrite pins_length; congruence. }
  exists m'. destruct (fix_ok _ _ _ _ E) as (_ & Fn & _). rewrite Fn.
  split; [exact E|]. split; [|split].
  - clear - El Eh Hp. rewrite <- El. destruct (proj1 (pinned_iff _ _) Hp) as (r & H1 & H2).
    assert (L : length (b_lo b) = length (b_hi b)) by congruence. revert H1 H2 L.
    clear. generalize (b_lo b) (b_hi b). intros lo hi. revert lo hi.
    induction i as [|i IH]; intros [|l lo] [|h hi]; cbn [nth_error length]; try discriminate.
    + intros [= ->] [= ->] [= L]. pose proof (n_free_pins_le lo hi) as P. revert P.
      unfold n_free. cbn [pins].
      rewrite (proj2 (pinned_by_iff (Fin r) (Fin r))) by eauto. cbn [filter nisnan xisnan XROps]. lia.
    + intros H1 H2 [= L]. specialize (IH _ _ H1 H2 L). revert IH. unfold n_free. cbn [pins filter].
      destruct (nisnan (if pinned_by l h then h else nnan)); cbn [length]; lia.
  - intros ps Hps. apply merged_exists; congruence.
  - intros ps out Hm. destruct (merged_fill _ _ _ _ Hm) as [F1 F2]. split; [exact F2|].
    intros xs ds mult kw. rewrite (fixed_prediction fmt m m' _ xs ds ps mult kw E F2).
    now rewrite F1.
Qed.
