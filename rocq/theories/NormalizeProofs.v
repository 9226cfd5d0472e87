(* Proofs about input normalisation (C33, C34). *)
From Coq Require Import ZArith String List Bool Lia Sorted Permutation.
From Verif Require Import Num Py Cal Model Freq Normalize ListProofs StringProofs GroupProofs NaiveProofs GridProofs.
Import ListNotations.
Local Open Scope Z_scope.

Section N.
  Context {T : Type} `{NumOps T}.

  (* ---------- specification ---------- *)
  (* order of the result: by source, then by x *)
  Definition ordered (by_src : bool) (a b : row T) : Prop :=
    if by_src then String.compare (r_src a) (r_src b) = Lt \/ (r_src a = r_src b /\ r_x a <= r_x b)
    else r_x a <= r_x b.
  (* the group of a row *)
  Definition gkey (t : raw T) (q : rawrow T) : string := if t_src t then r_src (q_row q) else EmptyString.
  (* its date: column, else index *)
  Definition qdate (t : raw T) (q : rawrow T) : Z :=
    if t_date t then r_date (q_row q) else if t_dtindex t then q_idx q else r_date (q_row q).
  (* date of the first row of a group *)
  Definition first_date (t : raw T) (s : string) : Z :=
    match find (fun q => String.eqb (gkey t q) s) (t_rows t) with Some q => qdate t q | None => 0 end.
  (* number of earlier rows in the same group *)
  Definition rank (t : raw T) (i : nat) (q : rawrow T) : Z :=
    Z.of_nat (length (filter (fun q' => String.eqb (gkey t q') (gkey t q)) (firstn i (t_rows t)))).
  Definition qx (t : raw T) (i : nat) (q : rawrow T) : Z :=
    if t_x t then r_x (q_row q)
    else if has_date_after t then (qdate t q - x_origin (first_date t (gkey t q))) / DAY
    else rank t i q.
  Definition expected (t : raw T) (iq : nat * rawrow T) : row T :=
    let (i, q) := iq in
    mkRow (qdate t q) (r_src (q_row q)) (qx t i q) (r_y (q_row q)) (r_w (q_row q)).

  (* ---------- groups ---------- *)
  Lemma groups_parts t : t_rows t <> [] -> groups_of t = parts (gkey t) (t_rows t).
  Proof.
    intros Hn. unfold groups_of, parts, keys, gkey, is, sources_of. destruct (t_src t) eqn:E.
    - rewrite map_map. apply map_ext. intros s. apply filter_ext. intros q. reflexivity.
    - destruct (t_rows t) as [|q l]; [congruence|]. clear. cbn [map].
      assert (D : dedup String.eqb (EmptyString :: map (fun _ : rawrow T => EmptyString) l) = [EmptyString]).
      { unfold dedup. cbn. induction l as [|a l IH]; [reflexivity|]. cbn. exact IH. }
      rewrite D. cbn [map filter]. f_equal. cbn. f_equal. symmetry. apply filter_all. reflexivity.
  Qed.

  Definition dated (t : raw T) (q : rawrow T) : row T :=
    if t_date t then q_row q else if t_dtindex t then set_date (q_row q) (q_idx q) else q_row q.
  Lemma dated_date t q : r_date (dated t q) = qdate t q.
  Proof. unfold dated, qdate. destruct (t_date t), (t_dtindex t); reflexivity. Qed.
  Lemma find_filter {A} (p : A -> bool) l : find p l = hd_error (filter p l).
  Proof. induction l as [|a l IH]; [reflexivity|]. cbn. destruct (p a); [reflexivity|exact IH]. Qed.

  (* rows of a group after preparation *)
  Definition group_rows (t : raw T) (s : string) : list (row T) :=
    map (expected t) (filter (fun iq => String.eqb (gkey t (snd iq)) s) (enumerate (t_rows t))).
  Lemma filter_enumerate_snd {A} (p : A -> bool) : forall l i,
    map snd (filter (fun q : nat * A => p (snd q)) (enum_from i l)) = filter p l.
  Proof.
    induction l as [|a l IH]; intros i; [reflexivity|]. cbn. destruct (p a); cbn; now rewrite IH.
  Qed.
  Lemma prepare_ok t s : (exists q, In q (t_rows t) /\ gkey t q = s) ->
    prepare t (filter (is (gkey t) s) (t_rows t)) = Ok (group_rows t s).
  Proof.
    intros Hs. unfold prepare. fold (dated t). change (map (fun q => dated t q)) with (map (dated t)).
    set (L := filter (is (gkey t) s) (t_rows t)).
    assert (HL : forall f : rawrow T -> row T, (forall i q, gkey t q = s -> expected t (i, q) = f q) ->
                 map f L = group_rows t s).
    { intros f Hf. unfold group_rows, L. rewrite <- (filter_enumerate_snd (is (gkey t) s) (t_rows t) 0), map_map.
      apply map_ext_in. intros [i q] Hq. apply filter_In in Hq as [_ Hq]. cbn [snd] in *.
      symmetry. apply Hf. now apply is_iff in Hq. }
    destruct (t_x t) eqn:Ex.
    - f_equal. apply HL. intros i q _. cbn [expected]. unfold qx. rewrite Ex. unfold dated, qdate.
      destruct (q_row q), (t_date t), (t_dtindex t); reflexivity.
    - destruct (has_date_after t) eqn:Ed.
      + destruct Hs as (q0 & Hq0 & E0).
        assert (In q0 L) by (apply filter_In; split; [exact Hq0|now apply is_iff]).
        destruct L as [|q1 L1] eqn:EL; [contradiction|]. rewrite <- EL in *.
        assert (Ef : first_date t s = qdate t q1).
        { unfold first_date. rewrite find_filter. change (filter (fun q => String.eqb (gkey t q) s) (t_rows t)) with (filter (is (gkey t) s) (t_rows t)).
          assert (filter (is (gkey t) s) (t_rows t) = q1 :: L1) as -> by exact EL. reflexivity. }
        assert (Eg : get_normalized_x_from_date (map r_date (map (dated t) L)) =
                     Ok (map (fun q => (qdate t q - x_origin (first_date t s)) / DAY) L)).
        { rewrite EL. cbn [map get_normalized_x_from_date]. rewrite dated_date, Ef. f_equal. cbn [map]. f_equal.
          rewrite !map_map. apply map_ext. intros q. now rewrite dated_date. }
        rewrite Eg. cbn [rbind]. f_equal.
        rewrite (combine_map_l (dated t)). rewrite map_map. rewrite GridProofs.combine_map_r, map_map.
        apply HL. intros i q Eq. cbn [expected]. unfold qx. rewrite Ex, Ed, Eq. cbn [fst snd].
        unfold set_x, dated, qdate, set_date. destruct (t_date t), (t_dtindex t); reflexivity.
      + f_equal.
        assert (Em : enumerate (map (dated t) L) = map (fun p => (fst p, dated t (snd p))) (enumerate L)).
        { clear. unfold enumerate. generalize 0%nat. induction L as [|a l IH]; intros i; [reflexivity|]. cbn. now rewrite IH. }
        rewrite Em, map_map. cbn [fst snd]. unfold L.
        rewrite (enumerate_filter (is (gkey t) s) (fun j q => set_x (dated t q) (Z.of_nat j))).
        unfold group_rows. apply map_ext_in. intros [i q] Hq. apply filter_In in Hq as [_ Hq]. cbn [fst snd] in *.
        apply is_iff in Hq. cbn [expected]. unfold qx, rank. rewrite Ex, Ed, Hq.
        unfold set_x, dated, qdate, set_date, is. destruct (t_date t), (t_dtindex t); reflexivity.
  Qed.

  Definition all_groups (t : raw T) : list (row T) := concat (map (group_rows t) (keys (gkey t) (t_rows t))).
  Lemma normalize_eq t : t_rows t <> [] -> t_y t = true ->
    normalize_df t = Ok (Some (mkFrame (has_date_after t) (t_src t) (t_w t) (isort (row_leb (t_src t)) (all_groups t)))).
  Proof.
    intros Hn Hy. unfold normalize_df. destruct (t_rows t) as [|q0 l0] eqn:E; [congruence|]. rewrite <- E in *.
    rewrite Hy. cbn [negb]. rewrite groups_parts by congruence. unfold parts.
    assert (P : rmapM (prepare t) (map (fun s => filter (is (gkey t) s) (t_rows t)) (keys (gkey t) (t_rows t))) =
                Ok (map (group_rows t) (keys (gkey t) (t_rows t)))).
    { assert (G : forall ss, (forall s, In s ss -> In s (keys (gkey t) (t_rows t))) ->
        rmapM (prepare t) (map (fun s => filter (is (gkey t) s) (t_rows t)) ss) = Ok (map (group_rows t) ss)).
      { induction ss as [|s ss IH]; intros Hs; [reflexivity|]. cbn [map rmapM].
        rewrite prepare_ok by (apply keys_in; apply Hs; now left). cbn [rbind].
        rewrite IH by (intros u Hu; apply Hs; now right). reflexivity. }
      apply G. auto. }
    rewrite P. reflexivity.
  Qed.

  Lemma enum_snd {A} (l : list A) : forall i, map snd (enum_from i l) = l.
  Proof. induction l as [|a l IH]; intros i; [reflexivity|]. cbn. now rewrite IH. Qed.
  Lemma all_groups_perm t : Permutation (all_groups t) (map (expected t) (enumerate (t_rows t))).
  Proof.
    unfold all_groups. transitivity (map (expected t) (concat (parts (fun iq => gkey t (snd iq)) (enumerate (t_rows t))))).
    - assert (E : keys (gkey t) (t_rows t) = keys (fun iq : nat * rawrow T => gkey t (snd iq)) (enumerate (t_rows t))).
      { unfold keys. f_equal. rewrite <- (enum_snd (t_rows t) 0) at 1. rewrite map_map. reflexivity. }
      rewrite E. unfold parts, group_rows. rewrite concat_map, map_map. reflexivity.
    - apply Permutation_map, concat_parts_perm.
  Qed.

  Lemma row_leb_iff b (x y : row T) : row_leb b x y = true <-> ordered b x y.
  Proof.
    unfold row_leb, ordered. destruct b; [|apply Z.leb_le].
    destruct (String.compare (r_src x) (r_src y)) eqn:E.
    - apply str_compare_eq in E. rewrite E, Z.leb_le. intuition congruence.
    - intuition.
    - split; [discriminate|]. intros [C|[C _]]; [discriminate|]. rewrite C, str_compare_refl in E. discriminate.
  Qed.
  Lemma row_leb_total b : total_leb (@row_leb T b).
  Proof.
    intros x y. rewrite !row_leb_iff. unfold ordered. destruct b; [|lia].
    destruct (String.compare (r_src x) (r_src y)) eqn:E; [apply str_compare_eq in E|auto|apply str_compare_gt in E; auto].
    destruct (Z.le_ge_cases (r_x x) (r_x y)); [left|right]; right; split; auto; lia.
  Qed.
  Lemma row_leb_trans b : trans_leb (@row_leb T b).
  Proof.
    intros x y z. rewrite !row_leb_iff. unfold ordered. destruct b; [|lia]. intros [L1|[E1 L1]] [L2|[E2 L2]].
    - left. eapply str_lt_trans; eauto.
    - left. now rewrite <- E2.
    - left. now rewrite E1.
    - right. split; [congruence|lia].
  Qed.
  Lemma sorted_rows b (l : list (row T)) : StronglySorted (ordered b) (isort (row_leb b) l).
  Proof.
    assert (S := isort_sorted (row_leb b) l (row_leb_total b) (row_leb_trans b)). induction S as [|a l' S IH F]; constructor; auto.
    rewrite Forall_forall in *. intros c Hc. apply row_leb_iff. now apply F.
  Qed.

  Theorem normalize_ok (t : raw T) : t_rows t <> [] -> t_y t = true ->
    exists rs, normalize_df t = Ok (Some (mkFrame (has_date_after t) (t_src t) (t_w t) rs)) /\
      Permutation rs (map (expected t) (enumerate (t_rows t))) /\ StronglySorted (ordered (t_src t)) rs.
  Proof.
    intros Hn Hy. eexists. split; [now apply normalize_eq|]. split; [|apply sorted_rows].
    rewrite <- isort_perm. apply all_groups_perm.
  Qed.
  Lemma normalize_none (t : raw T) : normalize_df t = Ok None <-> t_rows t = [].
  Proof.
    split; [|intros E; unfold normalize_df; now rewrite E].
    destruct (t_rows t) as [|q l] eqn:E; [reflexivity|]. destruct (t_y t) eqn:Ey.
    - rewrite normalize_eq by congruence. discriminate.
    - unfold normalize_df. rewrite E, Ey. discriminate.
  Qed.
  Lemma normalize_err (t : raw T) e : normalize_df t = Err e <-> e = AssertionError /\ t_y t = false /\ t_rows t <> [].
  Proof.
    destruct (t_rows t) as [|q l] eqn:E.
    - unfold normalize_df. rewrite E. split; [discriminate|intros (_ & _ & C); congruence].
    - destruct (t_y t) eqn:Ey.
      + rewrite normalize_eq by congruence. split; [discriminate|intros (_ & C & _); discriminate].
      + unfold normalize_df. rewrite E, Ey. cbn. split; [intros [= <-]; repeat split; congruence|intros (-> & _); reflexivity].
  Qed.

  (* ---------- idempotence ---------- *)
  Lemma expected_id (f : frame T) iq : In iq (enumerate (map (mkRaw 0) (rows f))) -> expected (raw_of f) iq = q_row (snd iq).
  Proof.
    destruct iq as [i q]. intros _. cbn [expected snd]. unfold qx, qdate. cbn. destruct (q_row q), (has_date f); reflexivity.
  Qed.
  Lemma ordered_src_leb (a b : row T) : ordered true a b -> str_leb (r_src a) (r_src b) = true.
  Proof. unfold ordered, str_leb. intros [-> | [-> _]]; [reflexivity|now rewrite str_compare_refl]. Qed.
  Lemma isort_ordered b (l : list (row T)) : StronglySorted (ordered b) l -> isort (row_leb b) l = l.
  Proof.
    intros S. apply isort_id. induction S as [|a l S IH F]; constructor; auto.
    rewrite Forall_forall in *. intros c Hc. apply row_leb_iff. now apply F.
  Qed.
  Lemma normalize_sorted (f : frame T) : rows f <> [] -> StronglySorted (ordered (has_src f)) (rows f) ->
    normalize_df (raw_of f) = Ok (Some f).
  Proof.
    intros Hn HS. rewrite normalize_eq; [|cbn; intros C; apply map_eq_nil in C; contradiction|reflexivity].
    assert (Ed : has_date_after (raw_of f) = has_date f) by (unfold has_date_after; cbn; apply orb_false_r).
    rewrite Ed. cbn [t_src raw_of t_w]. f_equal. f_equal.
    assert (Er : all_groups (raw_of f) = concat (parts (fun r => if has_src f then r_src r else EmptyString) (rows f))).
    { unfold all_groups, parts. f_equal.
      assert (Ek : keys (gkey (raw_of f)) (t_rows (raw_of f)) = keys (fun r => if has_src f then r_src r else EmptyString) (rows f)).
      { unfold keys. f_equal. cbn. rewrite map_map. reflexivity. }
      rewrite Ek. apply map_ext. intros s. unfold group_rows. cbn [t_rows raw_of].
      rewrite (map_ext_in _ (fun iq => q_row (snd iq))).
      2:{ intros iq Hi. apply filter_In in Hi as [Hi _]. now apply expected_id. }
      rewrite <- (map_map snd q_row). unfold enumerate.
      rewrite (filter_enumerate_snd (fun q => String.eqb (gkey (raw_of f) q) s) (map (mkRaw 0) (rows f)) 0).
      rewrite filter_map, map_map. cbn [q_row]. rewrite map_id. reflexivity. }
    rewrite Er. rewrite (concat_parts_sorted _ (length (rows f))); [|auto|].
    - rewrite isort_ordered by exact HS. destruct f; reflexivity.
    - unfold key_sorted. destruct (has_src f) eqn:Es.
      + clear - HS. induction HS as [|a l S IH F]; constructor; auto. rewrite Forall_forall in *. intros b Hb. now apply ordered_src_leb, F.
      + clear. induction (rows f) as [|a l IH]; constructor; auto. apply Forall_forall. reflexivity.
  Qed.
  Theorem normalize_idempotent (t : raw T) f : normalize_df t = Ok (Some f) -> normalize_df (raw_of f) = Ok (Some f).
  Proof.
    intros E. assert (Hn : t_rows t <> []) by (intros C; apply normalize_none in C; congruence).
    assert (Hy : t_y t = true).
    { destruct (t_y t) eqn:Ey; [reflexivity|]. assert (normalize_df t = Err AssertionError) by (apply normalize_err; auto). congruence. }
    destruct (normalize_ok t Hn Hy) as (rs & E' & P & S). rewrite E in E'. injection E' as ->.
    apply normalize_sorted; cbn [rows has_src]; [|exact S].
    intros ->. apply Permutation_nil in P. apply map_eq_nil in P. destruct (t_rows t); [congruence|discriminate].
  Qed.

  (* ---------- sources ---------- *)
  Definition restrict (t : raw T) (s : string) : raw T :=
    mkTable (t_y t) (t_w t) (t_x t) (t_date t) (t_src t) (t_dtindex t)
      (filter (fun q => String.eqb (r_src (q_row q)) s) (t_rows t)).
  Definition rows_of_source (f : frame T) (s : string) : list (row T) :=
    filter (fun r => String.eqb (r_src r) s) (rows f).
  Lemma expected_src t iq : r_src (expected t iq) = r_src (q_row (snd iq)).
  Proof. destruct iq. reflexivity. Qed.
  Lemma group_rows_prepare t s : (exists q, In q (t_rows t) /\ gkey t q = s) ->
    group_rows t s = match prepare t (filter (is (gkey t) s) (t_rows t)) with Ok l => l | Err _ => [] end.
  Proof. intros Hs. now rewrite prepare_ok. Qed.
  Theorem normalize_by_source (t : raw T) f s : t_src t = true -> normalize_df t = Ok (Some f) -> In s (map r_src (rows f)) ->
    normalize_df (restrict t s) = Ok (Some (mkFrame (has_date f) true (has_w f) (rows_of_source f s))).
  Proof.
    intros Hs E Hin. assert (Hn : t_rows t <> []) by (intros C; apply normalize_none in C; congruence).
    assert (Hy : t_y t = true).
    { destruct (t_y t) eqn:Ey; [reflexivity|]. assert (normalize_df t = Err AssertionError) by (apply normalize_err; auto). congruence. }
    rewrite normalize_eq in E by assumption. injection E as <-. cbn [rows has_date has_w rows_of_source] in *. unfold rows_of_source. cbn [rows].
    assert (Hq : exists q, In q (t_rows t) /\ gkey t q = s).
    { apply in_map_iff in Hin as (r & <- & Hr). apply isort_in in Hr. unfold all_groups in Hr. apply in_concat in Hr as (l & Hl & Hr).
      apply in_map_iff in Hl as (u & <- & Hu). unfold group_rows in Hr. apply in_map_iff in Hr as (iq & <- & Hi).
      apply filter_In in Hi as [Hi _]. exists (snd iq). split.
      - rewrite <- (enum_snd (t_rows t) 0). now apply in_map.
      - rewrite expected_src. unfold gkey. now rewrite Hs. }
    set (t' := restrict t s).
    assert (Er : t_rows t' = filter (is (gkey t) s) (t_rows t)).
    { cbn. apply filter_ext. intros q. unfold is, gkey. now rewrite Hs. }
    destruct Hq as (q0 & Hq0 & E0).
    assert (I0 : In q0 (t_rows t')) by (rewrite Er; apply filter_In; split; [exact Hq0|now apply is_iff]).
    assert (Hn' : t_rows t' <> []) by (intros C; rewrite C in I0; destruct I0).
    rewrite (normalize_eq t') by (assumption || exact Hy).
    assert (Eg' : gkey t' = gkey t) by reflexivity.
    change (has_date_after t') with (has_date_after t). change (t_src t') with (t_src t). change (t_w t') with (t_w t). rewrite Hs in *.
    f_equal. f_equal. f_equal.
    rewrite isort_filter by (apply row_leb_total || apply row_leb_trans). f_equal.
    assert (K : keys (gkey t) (t_rows t') = [s]).
    { assert (In s (keys (gkey t) (t_rows t'))) by (apply keys_in; eauto).
      assert (A : forall u, In u (keys (gkey t) (t_rows t')) -> u = s).
      { intros u Hu. apply keys_in in Hu as (q & Hq & <-). rewrite Er in Hq. apply filter_In in Hq as [_ Hq]. now apply is_iff in Hq. }
      pose proof (keys_nodup (gkey t) (t_rows t')) as N. destruct (keys (gkey t) (t_rows t')) as [|u [|v l]].
      - destruct H0.
      - now rewrite (A u (or_introl eq_refl)).
      - exfalso. inversion N as [|? ? Nu _]; subst. apply Nu. left.
        rewrite (A u (or_introl eq_refl)), (A v (or_intror (or_introl eq_refl))). reflexivity. }
    unfold all_groups at 1. rewrite Eg', K. cbn [map concat]. rewrite app_nil_r.
    unfold all_groups. rewrite (concat_pick (group_rows t) r_src _ s).
    - rewrite !group_rows_prepare; [|eauto|exists q0; rewrite Eg'; auto]. rewrite Eg'.
      assert (filter (is (gkey t) s) (t_rows t') = filter (is (gkey t) s) (t_rows t)) as ->.
      { rewrite Er. apply filter_all. intros q Hq. now apply filter_In in Hq. }
      reflexivity.
    - apply keys_nodup.
    - apply keys_in. eauto.
    - intros u b Hb. unfold group_rows in Hb. apply in_map_iff in Hb as (iq & <- & Hi). apply filter_In in Hi as [_ Hi].
      rewrite expected_src. apply String.eqb_eq in Hi. unfold gkey in Hi. now rewrite Hs in Hi.
  Qed.
End N.
