(* Cache variables do not change predictions (C07). *)
From Coq Require Import ZArith Arith String Ascii List Bool Lia.
From Verif Require Import Num Py Cal Model ModelProofs Base Dummy.
Import ListNotations.
Local Open Scope string_scope.
Local Arguments mask_name : simpl never.

Section Cache.
  Context {T : Type} `{NumOps T}.

  (* The model function looks up at most the cache variables in R, and wherever they hold what the
     associated function computes, the result is that of an evaluation without any cache. *)
  Definition transparent (x : list T) (d : option (list Z)) (m : fmodel T)
    (R : list (string * cachefun T)) : Prop :=
    forall act c p mode,
      (forall k f v, In (k, f) R -> dict_get c k = Some v -> f x d = Ok v) ->
      fm_f m x d p mode (mkKw act c) = fm_f m x d p mode (mkKw act []).

  (* what init_cache stores for a model: its own cache functions and the global ones it names *)
  Definition provides (m : fmodel T) (k : string) (f : cachefun T) : Prop :=
    In (k, f) (fm_dcache m) \/ (In k (fm_cvars m) /\ dict_get dict_f_cache k = Some f).

  Lemma dict_get_set {V} (d : dict V) k v k' :
    dict_get (dict_set d k v) k' = if String.eqb k' k then Some v else dict_get d k'.
  Proof.
    induction d as [|[a b] d IH]; cbn.
    - reflexivity.
    - destruct (String.eqb_spec k a) as [->|Ha]; cbn.
      + destruct (String.eqb_spec k' a); reflexivity.
      + rewrite IH. destruct (String.eqb_spec k' a) as [->|]; [|reflexivity].
        destruct (String.eqb_spec a k); congruence.
  Qed.

  Lemma dict_set_in {V} (d : dict V) k v k' v' :
    In (k', v') (dict_set d k v) -> (k' = k /\ v' = v) \/ In (k', v') d.
  Proof.
    induction d as [|[a b] d IH]; cbn.
    - intros [[= -> ->]|[]]; auto.
    - destruct (String.eqb_spec k a) as [->|Ha]; cbn.
      + intros [[= -> ->]|Hin]; auto.
      + intros [[= -> ->]|Hin]; [auto|]. destruct (IH Hin); auto.
  Qed.

  Lemma dict_update_in {V} (d2 : dict V) : forall d1 k v,
    In (k, v) (dict_update d1 d2) -> In (k, v) d1 \/ In (k, v) d2.
  Proof.
    unfold dict_update. induction d2 as [|[a b] d2 IH]; cbn; intros d1 k v Hin; [auto|].
    destruct (IH _ _ _ Hin) as [Hs|Hs]; [|auto].
    apply dict_set_in in Hs. destruct Hs as [[-> ->]|Hs]; auto.
  Qed.

  Lemma provides_tree (t : tree T) : null_free t -> forall k f,
    provides (build t) k f -> exists m, In m (leaves t) /\ provides m k f.
  Proof.
    assert (Hc : forall sep op mode (m1 m2 : fmodel T) k f,
      provides (combine_models sep op mode m1 m2) k f -> provides m1 k f \/ provides m2 k f).
    { intros sep op mode m1 m2 k f [Hd|[Hv Hg]]; unfold provides; cbn in *.
      - apply dict_update_in in Hd. tauto.
      - apply dedup_aux_in in Hv. rewrite in_app_iff in Hv. tauto. }
    induction 1 as [m Hm|a b Ha IHa Hb IHb|a b Ha IHa Hb IHb]; cbn; intros k f P.
    - rewrite (proj2 (String.eqb_neq _ _) Hm). exists m. cbn; auto.
    - unfold madd in P. rewrite !is_null_false in P by now apply null_free_name.
      apply Hc in P. destruct P as [P|P].
      + destruct (IHa _ _ P) as (m & ? & ?). exists m. rewrite in_app_iff. auto.
      + destruct (IHb _ _ P) as (m & ? & ?). exists m. rewrite in_app_iff. auto.
    - unfold mmul in P. rewrite !is_null_false in P by now apply null_free_name.
      apply Hc in P. destruct P as [P|P].
      + destruct (IHa _ _ P) as (m & ? & ?). exists m. rewrite in_app_iff. auto.
      + destruct (IHb _ _ P) as (m & ? & ?). exists m. rewrite in_app_iff. auto.
  Qed.

  Lemma init_cache_sound (m : fmodel T) x d c : init_cache m x d = Ok c ->
    forall k v, dict_get c k = Some v -> exists f, provides m k f /\ f x d = Ok v.
  Proof.
    unfold init_cache, rbind.
    assert (L1 : forall ks acc c1, init_cache_vars ks x d acc = Ok c1 ->
      forall k v, dict_get c1 k = Some v ->
        dict_get acc k = Some v \/
        (In k ks /\ exists f, dict_get dict_f_cache k = Some f /\ f x d = Ok v)).
    { induction ks as [|k0 ks IH]; cbn [init_cache_vars].
      - intros acc c1 [= <-]; auto.
      - intros acc c1. destruct (dict_get dict_f_cache k0) as [f|] eqn:Ef.
        + unfold rbind. destruct (f x d) as [v0|e] eqn:Ev; [|discriminate].
          intros E k v Hk. destruct (IH _ _ E k v Hk) as [Hs|(Hin & g & Hg & Eg)].
          * rewrite dict_get_set in Hs. destruct (String.eqb_spec k k0) as [->|]; [|auto].
            injection Hs as <-. right. split; [cbn; auto|]. eauto.
          * right. split; [cbn; auto|]. eauto.
        + intros E k v Hk. destruct (IH _ _ E k v Hk) as [Hs|(Hin & g & Hg & Eg)]; [auto|].
          right. split; [cbn; auto|]. eauto. }
    assert (L2 : forall fs acc c1, init_cache_dict fs x d acc = Ok c1 ->
      forall k v, dict_get c1 k = Some v ->
        dict_get acc k = Some v \/ (exists f, In (k, f) fs /\ f x d = Ok v)).
    { induction fs as [|[k0 f] fs IH]; cbn [init_cache_dict].
      - intros acc c1 [= <-]; auto.
      - intros acc c1. unfold rbind. destruct (f x d) as [v0|e] eqn:Ev; [|discriminate].
        intros E k v Hk. destruct (IH _ _ E k v Hk) as [Hs|(g & Hg & Eg)].
        + rewrite dict_get_set in Hs. destruct (String.eqb_spec k k0) as [->|]; [|auto].
          injection Hs as <-. right. exists f. cbn; auto.
        + right. exists g. cbn; auto. }
    destruct (init_cache_vars _ _ _ _) as [c1|e] eqn:E1; [|discriminate].
    intros E2 k v Hk. destruct (L2 _ _ _ E2 k v Hk) as [Hs|(g & Hg & Eg)].
    - destruct (L1 _ _ _ E1 k v Hs) as [Hn|(Hin & f & Hf & Ef)]; [discriminate|].
      exists f. split; [right; auto|assumption].
    - exists g. split; [left; assumption|assumption].
  Qed.

  Lemma transparent_combine sep op mode (m1 m2 : fmodel T) x d R1 R2 :
    transparent x d m1 R1 -> transparent x d m2 R2 ->
    transparent x d (combine_models sep op mode m1 m2) (R1 ++ R2).
  Proof.
    intros T1 T2 act c p md Hc. cbn. unfold f_combine.
    destruct (p_slice (fm_n m1) p) as [[p1 p2]|e]; [|reflexivity]. cbn.
    rewrite (T1 act c) by (intros k f v Hin; apply Hc; apply in_or_app; auto).
    rewrite (T2 act c) by (intros k f v Hin; apply Hc; apply in_or_app; auto).
    reflexivity.
  Qed.

  Lemma transparent_weaken x d (m : fmodel T) R R' :
    (forall kf, In kf R -> In kf R') -> transparent x d m R -> transparent x d m R'.
  Proof. intros I Tr act c p mode Hc. apply Tr. intros k f v Hin. apply Hc. auto. Qed.

  Lemma transparent_tree (reads : fmodel T -> list (string * cachefun T)) x d (t : tree T) :
    null_free t ->
    Forall (fun m => transparent x d m (reads m)) (leaves t) ->
    transparent x d (build t) (flat_map reads (leaves t)).
  Proof.
    induction 1 as [m Hm|a b Ha IHa Hb IHb|a b Ha IHa Hb IHb]; cbn.
    - rewrite (proj2 (String.eqb_neq _ _) Hm). cbn. rewrite app_nil_r.
      intros F. now inversion F.
    - rewrite Forall_app. intros [F1 F2]. rewrite flat_map_app.
      unfold madd. rewrite !is_null_false by now apply null_free_name.
      apply transparent_combine; auto.
    - rewrite Forall_app. intros [F1 F2]. rewrite flat_map_app.
      unfold mmul. rewrite !is_null_false by now apply null_free_name.
      apply transparent_combine; auto.
  Qed.

  (* Generic statement: if every cache variable some leaf reads is computed alike by every leaf
     that provides it, the prepared cache is invisible. *)
  Lemma cache_transparent_generic (reads : fmodel T -> list (string * cachefun T)) x d
    (t : tree T) c act p mode :
    Forall (fun m => transparent x d m (reads m)) (leaves t) ->
    (forall m1 m2 k f g, In m1 (leaves t) -> In m2 (leaves t) ->
       In (k, f) (reads m1) -> provides m2 k g -> f x d = g x d) ->
    prune t <> None ->
    init_cache (build t) x d = Ok c ->
    call (build t) x d p mode (mkKw act c) = call (build t) x d p mode (mkKw act []).
  Proof.
    destruct (prune t) as [t'|] eqn:P; [|congruence]. intros F Co _.
    rewrite (prune_build _ _ P). rewrite (leaves_prune _ _ P) in F, Co. intros E.
    pose proof (prune_null_free _ _ P) as NF.
    unfold call. apply (transparent_tree reads x d t' NF F).
    intros k f v Hin Hget.
    destruct (init_cache_sound _ _ _ _ E _ _ Hget) as (g & Hg & Eg).
    destruct (provides_tree t' NF k g Hg) as (m2 & Hm2 & Hp).
    apply in_flat_map in Hin. destruct Hin as (m1 & Hm1 & Hr).
    rewrite (Co m1 m2 k f g); assumption.
  Qed.

  (* ---- the shipped leaves ---- *)
  Lemma transparent_blind x d (m : fmodel T) :
    (forall p mode kw kw', kw_actuals kw = kw_actuals kw' ->
       fm_f m x d p mode kw = fm_f m x d p mode kw') ->
    transparent x d m [].
  Proof. intros B act c p mode _. now apply B. Qed.

  Lemma transparent_wday x d :
    transparent x d model_season_wday [("a_weekday", cache_a_weekday)].
  Proof.
    intros act c p mode Hc. cbn. unfold f_season_wday. destruct p; [|reflexivity].
    unfold cached_ints. cbn [kw_cache dict_get].
    destruct (dict_get c "a_weekday") as [v|] eqn:E; [|reflexivity].
    now rewrite (Hc "a_weekday" cache_a_weekday v) by (cbn; auto).
  Qed.

  Lemma transparent_month x d : transparent x d model_season_month [("a_month", cache_a_month)].
  Proof.
    intros act c p mode Hc. cbn. unfold f_season_month. destruct p; [|reflexivity].
    unfold cached_ints. cbn [kw_cache dict_get].
    destruct (dict_get c "a_month") as [v|] eqn:E; [|reflexivity].
    now rewrite (Hc "a_month" cache_a_month v) by (cbn; auto).
  Qed.

  Lemma transparent_month_old x d :
    transparent x d model_season_month_old [("a_month", cache_a_month)].
  Proof. exact (transparent_month x d). Qed.

  Lemma transparent_fourier x d :
    transparent x d model_season_fourier_yearly [("a_t_fourier", cache_a_t_fourier)].
  Proof.
    intros act c p mode Hc. cbn -[cache_a_t_fourier]. unfold f_fourier. cbn [kw_cache dict_get].
    destruct (dict_get c "a_t_fourier") as [v|] eqn:E; [|reflexivity].
    now rewrite (Hc "a_t_fourier" cache_a_t_fourier v) by (cbn; auto).
  Qed.

  Definition mask_cache (f : dummyfun T) : cachefun T := fun x d => rmap CMask (f x d).

  Lemma transparent_dummy x d name (f : dummyfun T) :
    transparent x d (dummy_model_of name f) [(mask_name name, mask_cache f)].
  Proof.
    intros act c p mode Hc. cbn [dummy_model_of mk_model fm_f]. unfold f_model_dummy.
    cbn [kw_cache dict_get].
    destruct (dict_get c (mask_name name)) as [v|] eqn:E; [|reflexivity].
    specialize (Hc (mask_name name) (mask_cache f) v (or_introl eq_refl) E).
    unfold mask_cache in Hc. now rewrite Hc.
  Qed.

  Lemma transparent_madd x d (m1 m2 : fmodel T) R1 R2 :
    transparent x d m1 R1 -> transparent x d m2 R2 -> transparent x d (madd m1 m2) (R1 ++ R2).
  Proof.
    intros T1 T2. unfold madd. destruct (is_null m1).
    - eapply transparent_weaken; [|exact T2]. intros; apply in_or_app; auto.
    - destruct (is_null m2).
      + eapply transparent_weaken; [|exact T1]. intros; apply in_or_app; auto.
      + now apply transparent_combine.
  Qed.
  Lemma transparent_mmul x d (m1 m2 : fmodel T) R1 R2 :
    transparent x d m1 R1 -> transparent x d m2 R2 -> transparent x d (mmul m1 m2) (R1 ++ R2).
  Proof.
    intros T1 T2. unfold mmul. destruct (is_null m1).
    - eapply transparent_weaken; [|exact T2]. intros; apply in_or_app; auto.
    - destruct (is_null m2).
      + eapply transparent_weaken; [|exact T1]. intros; apply in_or_app; auto.
      + now apply transparent_combine.
  Qed.

  (* a list of named masks, and the sum / product of their dummy models *)
  Definition mask_reads (l : list (string * dummyfun T)) : list (string * cachefun T) :=
    map (fun nf => (mask_name (fst nf), mask_cache (snd nf))) l.
  Definition dummies (l : list (string * dummyfun T)) : list (fmodel T) :=
    map (fun nf => dummy_model_of (fst nf) (snd nf)) l.

  Lemma transparent_reduce x d op (l : list (string * dummyfun T)) :
    (forall m1 m2 R1 R2, transparent x d m1 R1 -> transparent x d m2 R2 ->
       transparent x d (op m1 m2) (R1 ++ R2)) ->
    l <> [] ->
    transparent x d (reduce op (dummies l)) (mask_reads l).
  Proof.
    intros Hop. destruct l as [|[n f] l]; [congruence|]. intros _.
    assert (G : forall l R m, transparent x d m R ->
      transparent x d (fold_left op (dummies l) m) (R ++ mask_reads l)).
    { clear l. induction l as [|[n' f'] l IH]; intros R m Hm.
      - cbn. now rewrite app_nil_r.
      - change (mask_reads ((n', f') :: l))
          with ([(mask_name n', mask_cache f')] ++ mask_reads l)%list.
        rewrite app_assoc. cbn [dummies map fold_left fst snd].
        apply IH. apply Hop; [assumption|apply transparent_dummy]. }
    exact (G l _ _ (transparent_dummy x d n f)).
  Qed.

  Lemma transparent_all_dummies x d name n init cv dc (l : list (string * dummyfun T)) :
    l <> [] ->
    transparent x d
      (mk_model name n (f_all_dummies (reduce madd (dummies l)) (reduce mmul (dummies l)))
         init None None cv dc) (mask_reads l).
  Proof.
    intros N act c p mode Hc. cbn. unfold f_all_dummies, call.
    destruct (mode_of false mode).
    - apply (transparent_reduce x d mmul l (transparent_mmul x d) N). assumption.
    - apply (transparent_reduce x d madd l (transparent_madd x d) N). assumption.
  Qed.

  (* Leaves a user can compose: models that do not look at the cache, the seasonal models, dummy
     models, and sums of dummies as built for calendars (which register their masks) and for date
     lists (which do not). *)
  Inductive cleaf :=
  | CBlind (m : fmodel T)
  | CWday | CMonth | CMonthOld | CFourier
  | CDummy (name : string) (f : dummyfun T)
  | CCalendar (name : string) (masks : list (string * dummyfun T))
  | CDatelist (name : string) (masks : list (string * dummyfun T)).

  Definition cmodel (l : cleaf) : fmodel T :=
    match l with
    | CBlind m => m
    | CWday => model_season_wday
    | CMonth => model_season_month
    | CMonthOld => model_season_month_old
    | CFourier => model_season_fourier_yearly
    | CDummy name f => dummy_model_of name f
    | CCalendar name l =>
        mk_model name (length l)
          (f_all_dummies (reduce madd (dummies l)) (reduce mmul (dummies l)))
          (Some (init_neutral (length l))) None None
          (Some (fm_cvars (reduce madd (dummies l)))) (Some (fm_dcache (reduce madd (dummies l))))
    | CDatelist name l =>
        mk_model name (length l)
          (f_all_dummies (reduce madd (dummies l)) (reduce mmul (dummies l)))
          (Some (init_neutral (length l))) None None None None
    end.

  (* names of masks read, and of masks registered, by a leaf *)
  Definition masks_read (l : cleaf) : list (string * dummyfun T) :=
    match l with
    | CDummy name f => [(name, f)]
    | CCalendar _ l | CDatelist _ l => l
    | _ => []
    end.
  Definition masks_registered (l : cleaf) : list (string * dummyfun T) :=
    match l with
    | CDummy name f => [(name, f)]
    | CCalendar _ l => l
    | _ => []
    end.

  Definition creads (l : cleaf) : list (string * cachefun T) :=
    match l with
    | CBlind _ => []
    | CWday => [("a_weekday", cache_a_weekday)]
    | CMonth | CMonthOld => [("a_month", cache_a_month)]
    | CFourier => [("a_t_fourier", cache_a_t_fourier)]
    | _ => mask_reads (masks_read l)
    end.

  (* a model outside the cache machinery *)
  Definition blind (m : fmodel T) : Prop :=
    fm_cvars m = [] /\ fm_dcache m = [] /\
    forall x d p mode kw kw', kw_actuals kw = kw_actuals kw' ->
      fm_f m x d p mode kw = fm_f m x d p mode kw'.

  Definition cleaf_ok (l : cleaf) : Prop :=
    match l with
    | CBlind m => blind m
    | CCalendar _ l | CDatelist _ l => l <> []
    | _ => True
    end.

  Lemma ctransparent x d (l : cleaf) : cleaf_ok l -> transparent x d (cmodel l) (creads l).
  Proof.
    destruct l; cbn [cleaf_ok cmodel creads masks_read]; intros O.
    - apply transparent_blind. destruct O as (_ & _ & B). intros; now apply B.
    - apply transparent_wday.
    - apply transparent_month.
    - apply transparent_month_old.
    - apply transparent_fourier.
    - apply transparent_dummy.
    - now apply transparent_all_dummies.
    - now apply transparent_all_dummies.
  Qed.

  Lemma reduce_dcache_cvars (l : list (string * dummyfun T)) :
    (forall k f, In (k, f) (fm_dcache (reduce madd (dummies l))) -> In (k, f) (mask_reads l)) /\
    fm_cvars (reduce madd (dummies l)) = [].
  Proof.
    destruct l as [|[n f] l]; cbn; [split; [tauto|reflexivity]|].
    assert (G : forall l (m : fmodel T) (R : list (string * cachefun T)),
      (forall k g, In (k, g) (fm_dcache m) -> In (k, g) R) -> fm_cvars m = [] ->
      (forall k g, In (k, g) (fm_dcache (fold_left madd (dummies l) m)) ->
         In (k, g) (R ++ mask_reads l)) /\ fm_cvars (fold_left madd (dummies l) m) = []).
    { clear. induction l as [|[n f] l IH]; intros m R Hd Hv.
      - cbn. rewrite app_nil_r. auto.
      - change (mask_reads ((n, f) :: l))
          with ([(mask_name n, mask_cache f)] ++ mask_reads l)%list.
        rewrite app_assoc. cbn [dummies map fold_left fst snd].
        apply IH.
        + intros k g. unfold madd. destruct (is_null m).
          * cbn. intros [[= <- <-]|[]]. apply in_or_app. cbn; auto.
          * destruct (is_null (dummy_model_of n f)).
            -- intros Hin. apply in_or_app. left; auto.
            -- intros Hin. cbn in Hin.
               apply (dict_update_in [(mask_name n, mask_cache f)]) in Hin.
               apply in_or_app. destruct Hin as [Hin|Hin]; auto.
        + unfold madd. destruct (is_null m); [reflexivity|].
          destruct (is_null (dummy_model_of n f)); [assumption|].
          cbn. now rewrite Hv. }
    apply (G l (dummy_model_of n f) [(mask_name n, mask_cache f)]).
    - cbn. tauto.
    - reflexivity.
  Qed.

  Lemma mask_name_not_global name : dict_get (@dict_f_cache T _) (mask_name name) = None.
  Proof. reflexivity. Qed.

  Lemma global_not_mask k f : dict_get (@dict_f_cache T _) k = Some f ->
    forall name, k <> mask_name name.
  Proof. intros E name ->. now rewrite mask_name_not_global in E. Qed.

  Lemma creads_global l k f : In (k, f) (creads l) ->
    dict_get dict_f_cache k = Some f \/ In (k, f) (mask_reads (masks_read l)).
  Proof.
    destruct l; cbn [creads]; try (intros [[= <- <-]|[]]; left; reflexivity); auto.
  Qed.

  Lemma cprovides l k f : cleaf_ok l -> provides (cmodel l) k f ->
    dict_get dict_f_cache k = Some f \/ In (k, f) (mask_reads (masks_registered l)).
  Proof.
    intros O [Hd|[_ Hg]]; [|auto]. right. revert Hd.
    destruct l; cbn; try tauto.
    - destruct O as (_ & -> & _). cbn. tauto.
    - apply reduce_dcache_cvars.
  Qed.

  (* a composition described by its leaves *)
  Inductive ctree := CLeaf (l : cleaf) | CAdd (a b : ctree) | CMul (a b : ctree).
  Fixpoint cbuild (t : ctree) : fmodel T :=
    match t with
    | CLeaf l => cmodel l
    | CAdd a b => madd (cbuild a) (cbuild b)
    | CMul a b => mmul (cbuild a) (cbuild b)
    end.
  Fixpoint cleaves (t : ctree) : list cleaf :=
    match t with CLeaf l => [l] | CAdd a b | CMul a b => (cleaves a ++ cleaves b)%list end.

  Lemma provides_ctree (t : ctree) : forall k f,
    provides (cbuild t) k f -> exists l, In l (cleaves t) /\ provides (cmodel l) k f.
  Proof.
    assert (Hc : forall sep op mode (m1 m2 : fmodel T) k f,
      provides (combine_models sep op mode m1 m2) k f -> provides m1 k f \/ provides m2 k f).
    { intros sep op mode m1 m2 k f [Hd|[Hv Hg]]; unfold provides; cbn in *.
      - apply dict_update_in in Hd. tauto.
      - apply dedup_aux_in in Hv. rewrite in_app_iff in Hv. tauto. }
    induction t as [l|a IHa b IHb|a IHa b IHb]; cbn; intros k f P.
    - eauto.
    - unfold madd in P. destruct (is_null (cbuild a)), (is_null (cbuild b)).
      1,2: destruct (IHb _ _ P) as (l & ? & ?); exists l; rewrite in_app_iff; auto.
      + destruct (IHa _ _ P) as (l & ? & ?); exists l; rewrite in_app_iff; auto.
      + apply Hc in P. destruct P as [P|P].
        * destruct (IHa _ _ P) as (l & ? & ?); exists l; rewrite in_app_iff; auto.
        * destruct (IHb _ _ P) as (l & ? & ?); exists l; rewrite in_app_iff; auto.
    - unfold mmul in P. destruct (is_null (cbuild a)), (is_null (cbuild b)).
      1,2: destruct (IHb _ _ P) as (l & ? & ?); exists l; rewrite in_app_iff; auto.
      + destruct (IHa _ _ P) as (l & ? & ?); exists l; rewrite in_app_iff; auto.
      + apply Hc in P. destruct P as [P|P].
        * destruct (IHa _ _ P) as (l & ? & ?); exists l; rewrite in_app_iff; auto.
        * destruct (IHb _ _ P) as (l & ? & ?); exists l; rewrite in_app_iff; auto.
  Qed.

  Lemma transparent_ctree x d (t : ctree) :
    Forall cleaf_ok (cleaves t) ->
    transparent x d (cbuild t) (flat_map creads (cleaves t)).
  Proof.
    induction t as [l|a IHa b IHb|a IHa b IHb]; cbn.
    - rewrite app_nil_r. intros F. inversion F. now apply ctransparent.
    - rewrite Forall_app, flat_map_app. intros [F1 F2]. apply transparent_madd; auto.
    - rewrite Forall_app, flat_map_app. intros [F1 F2]. apply transparent_mmul; auto.
  Qed.

  (* Cached and uncached predictions agree if masks registered under the name of a mask that is
     read have the same values on the given samples. *)
  Lemma cache_invisible (t : ctree) x d c act p mode :
    Forall cleaf_ok (cleaves t) ->
    (forall name f g,
       In (name, f) (flat_map masks_read (cleaves t)) ->
       In (name, g) (flat_map masks_registered (cleaves t)) -> f x d = g x d) ->
    init_cache (cbuild t) x d = Ok c ->
    call (cbuild t) x d p mode (mkKw act c) = call (cbuild t) x d p mode (mkKw act []).
  Proof.
    intros O Co E. unfold call. apply (transparent_ctree x d t O).
    intros k f v Hin Hget.
    destruct (init_cache_sound _ _ _ _ E _ _ Hget) as (g & Hg & Eg).
    destruct (provides_ctree t k g Hg) as (l2 & Hl2 & Hp).
    apply in_flat_map in Hin. destruct Hin as (l1 & Hl1 & Hr).
    rewrite Forall_forall in O.
    apply cprovides in Hp; [|auto]. apply creads_global in Hr.
    destruct Hr as [Hr|Hr], Hp as [Hp|Hp].
    - rewrite Hr in Hp. injection Hp as ->. assumption.
    - apply in_map_iff in Hp. destruct Hp as ((n & h) & [= En _] & _).
      exfalso. eapply global_not_mask; [exact Hr|]. symmetry; exact En.
    - apply in_map_iff in Hr. destruct Hr as ((n & h) & [= En _] & _).
      exfalso. eapply global_not_mask; [exact Hp|]. symmetry; exact En.
    - apply in_map_iff in Hr. destruct Hr as ((n & h) & [= En <-] & Hin1).
      apply in_map_iff in Hp. destruct Hp as ((n' & h') & [= En' <-] & Hin2).
      cbn in En, En'. unfold mask_name in En, En'.
      assert (n = n') by (rewrite <- En' in En; now injection En). subst n'.
      unfold mask_cache in *. rewrite (Co n h h'); [assumption| |]; apply in_flat_map; eauto.
  Qed.
End Cache.

Section CacheFinal.
  Context {T : Type} {N : NumOps T}.

  Lemma trends_blind :
    Forall (@blind T) [model_null; model_constant; model_linear; model_linear_nondec;
                model_quasilinear; model_exp; model_decay; model_step; model_two_steps;
                model_sigmoid_step; model_sigmoid; model_ramp; model_spike].
  Proof. repeat constructor. Qed.

  Lemma init_cache_complete (m : fmodel T) x d c : init_cache m x d = Ok c ->
    forall k f, provides m k f -> exists v, dict_get c k = Some v.
  Proof.
    unfold init_cache, rbind.
    assert (L1 : forall ks acc c1, init_cache_vars ks x d acc = Ok c1 ->
      (forall k v, dict_get acc k = Some v -> exists v', dict_get c1 k = Some v') /\
      (forall k f, In k ks -> dict_get dict_f_cache k = Some f -> exists v, dict_get c1 k = Some v)).
    { induction ks as [|k0 ks IH]; cbn [init_cache_vars]; intros acc c1.
      - intros [= <-]. split; [eauto|intros ? ? []].
      - destruct (dict_get dict_f_cache k0) as [f0|] eqn:E0.
        + unfold rbind. destruct (f0 x d) as [v0|e]; [|discriminate].
          intros E. destruct (IH _ _ E) as [I1 I2]. split.
          * intros k v Hk. apply (I1 k (if String.eqb k k0 then v0 else v)).
            rewrite dict_get_set. destruct (String.eqb k k0); auto.
          * intros k f [<-|Hin] Hf; [|eauto]. apply (I1 k0 v0).
            now rewrite dict_get_set, String.eqb_refl.
        + intros E. destruct (IH _ _ E) as [I1 I2]. split; [assumption|].
          intros k f [<-|Hin] Hf; [congruence|eauto]. }
    assert (L2 : forall fs acc c1, init_cache_dict fs x d acc = Ok c1 ->
      (forall k v, dict_get acc k = Some v -> exists v', dict_get c1 k = Some v') /\
      (forall k f, In (k, f) fs -> exists v, dict_get c1 k = Some v)).
    { induction fs as [|[k0 f0] fs IH]; cbn [init_cache_dict]; intros acc c1.
      - intros [= <-]. split; [eauto|intros ? ? []].
      - unfold rbind. destruct (f0 x d) as [v0|e]; [|discriminate].
        intros E. destruct (IH _ _ E) as [I1 I2]. split.
        * intros k v Hk. apply (I1 k (if String.eqb k k0 then v0 else v)).
          rewrite dict_get_set. destruct (String.eqb k k0); auto.
        * intros k f [[= <- <-]|Hin]; [|eauto]. apply (I1 k0 v0).
          now rewrite dict_get_set, String.eqb_refl. }
    destruct (init_cache_vars _ _ _ _) as [c1|e] eqn:E1; [|discriminate].
    intros E2 k f [Hd|[Hv Hg]].
    - destruct (L2 _ _ _ E2) as [_ I2]. eauto.
    - destruct (L1 _ _ _ E1) as [_ I1]. destruct (I1 k f Hv Hg) as [v Ev].
      destruct (L2 _ _ _ E2) as [I3 _]. eauto.
  Qed.

  Lemma dict_update_keys {V} (d2 : dict V) : forall d1 k,
    (exists v, In (k, v) d1) \/ (exists v, In (k, v) d2) ->
    exists v, In (k, v) (dict_update d1 d2).
  Proof.
    assert (S : forall (d : dict V) k v k', (exists w, In (k', w) d) \/ k' = k ->
              exists w, In (k', w) (dict_set d k v)).
    { induction d as [|[a b] d IH]; cbn; intros k v k'.
      - intros [[? []]| ->]. eauto.
      - destruct (String.eqb_spec k a) as [->|Na].
        + intros [[w [[= -> ->]|Hw]]| ->]; cbn; eauto.
        + intros [[w [[= -> ->]|Hw]]| ->]; cbn; eauto.
          * destruct (IH k v k') as [u Hu]; eauto.
          * destruct (IH k v k) as [u Hu]; eauto. }
    unfold dict_update. induction d2 as [|[a b] d2 IH]; cbn; intros d1 k.
    - intros [Hk|[? []]]; auto.
    - intros Hk. apply IH. destruct Hk as [Hk|[v [[= -> ->]|Hv]]].
      + left. apply S. auto.
      + left. apply S. auto.
      + right. eauto.
  Qed.

  Lemma cache_prepared (m1 m2 : fmodel T) x d c k :
    fm_name m1 <> "null" -> fm_name m2 <> "null" ->
    init_cache (madd m1 m2) x d = Ok c \/ init_cache (mmul m1 m2) x d = Ok c ->
    (exists f, provides m1 k f) \/ (exists f, provides m2 k f) ->
    exists v, dict_get c k = Some v.
  Proof.
    intros N1 N2 E P. unfold madd, mmul in E. rewrite !is_null_false in E by assumption.
    assert (G : forall sep op mode, exists f, provides (combine_models sep op mode m1 m2) k f).
    { intros sep op mode.
      assert (Q : (exists f, In (k, f) (fm_dcache m1)) \/ (exists f, In (k, f) (fm_dcache m2)) \/
                  ((In k (fm_cvars m1) \/ In k (fm_cvars m2)) /\
                   exists f, dict_get (@dict_f_cache T N) k = Some f)).
      { destruct P as [[f [Hf|[Hv Hf]]]|[f [Hf|[Hv Hf]]]]; eauto 8. }
      destruct Q as [Q|[Q|[Q [f Hf]]]].
      - destruct (dict_update_keys (fm_dcache m2) (fm_dcache m1) k (or_introl Q)) as [f Hf].
        exists f. left. exact Hf.
      - destruct (dict_update_keys (fm_dcache m2) (fm_dcache m1) k (or_intror Q)) as [f Hf].
        exists f. left. exact Hf.
      - exists f. right. split; [|assumption]. cbn. apply in_or_app in Q.
        destruct (dedup_aux_complete String.eqb String.eqb_refl _ [] k Q)
          as [(b & [] & _)|(b & Hb & Eb)].
        apply String.eqb_eq in Eb. now subst b. }
    destruct E as [E|E].
    - destruct (G "+" nadd false) as [f Hf]. eapply init_cache_complete; eauto.
    - destruct (G "*" nmul true) as [f Hf]. eapply init_cache_complete; eauto.
  Qed.
End CacheFinal.

From Coq Require Import PrimFloat.
From Verif Require Import Ex.
Lemma same_name_collision :
  let _ := fops in
  exists m1 m2 c,
    get_model_dummy "d" (DNums [1]%float) = Ok m1 /\ get_model_dummy "d" (DNums [2]%float) = Ok m2 /\
    init_cache (madd m1 m2) [1; 2; 3]%float None = Ok c /\
    call (madd m1 m2) [1; 2; 3]%float None (Some [10; 20]%float) false no_kw
      = Ok (Ar [10; 20; 0]%float) /\
    call (madd m1 m2) [1; 2; 3]%float None (Some [10; 20]%float) false (mkKw None c)
      = Ok (Ar [0; 30; 0]%float).
Proof.
  cbv zeta.
  eexists. eexists. eexists. split; [reflexivity|]. split; [reflexivity|].
  split; [vm_compute; reflexivity|]. split; vm_compute; reflexivity.
Qed.
