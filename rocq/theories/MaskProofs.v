(* The mask of filled rows (C83). *)
From Coq Require Import ZArith String List Bool Lia Reals Lra Sorted Permutation.
From Verif Require Import Num Py Cal Model Freq Interp Mask NumProofs ListProofs GridProofs InterpProofs TotalProofs2.
Import ListNotations.
Local Open Scope string_scope.
Local Open Scope list_scope.

Lemma lt_sorted_NoDup (l : list Z) : StronglySorted Z.lt l -> NoDup l.
Proof.
  induction 1 as [|a l Sl IH F]; constructor; [|exact IH]. intros I. rewrite Forall_forall in F. specialize (F a I). lia.
Qed.
Lemma sorted_nth_lt (l : list Z) : StronglySorted Z.lt l -> forall i j a b, (i < j)%nat ->
  nth_error l i = Some a -> nth_error l j = Some b -> (a < b)%Z.
Proof.
  induction 1 as [|c l Sl IH F]; intros i j a b L Ea Eb; [destruct i; discriminate|].
  destruct j as [|j]; [lia|]. cbn in Eb. destruct i as [|i].
  - cbn in Ea. injection Ea as <-. rewrite Forall_forall in F. apply F. eapply nth_error_In; exact Eb.
  - cbn in Ea. eapply IH; [|exact Ea|exact Eb]. lia.
Qed.
Lemma ok_eq {A} (a b : A) : Ok a = Ok b -> b = a.
Proof. congruence. Qed.

Lemma string_app_length (a b : string) : String.length (a ++ b)%string = (String.length a + String.length b)%nat.
Proof. induction a as [|c a IH]; cbn; [reflexivity|now rewrite IH]. Qed.

Section M.
  Context {T : Type} `{NumOps T}.

  Lemma null_test (m : fmodel T) :
    (is_null_model m = true <-> forall m', madd m m' = m') /\ (is_null_model m = true <-> forall m', mmul m m' = m').
  Proof.
    assert (K : forall sep op mode (m' : fmodel T), combine_models sep op mode m m' = m' -> False).
    { intros sep op mode m' E. apply (f_equal fm_name) in E. cbn [combine_models mk_model fm_name] in E.
      apply (f_equal String.length) in E. cbn [String.length append] in E. rewrite !string_app_length in E. cbn [String.length] in E. lia. }
    unfold madd, mmul, is_null_model, is_null. destruct (String.eqb (fm_name m) "null").
    - repeat split; reflexivity.
    - split; (split; [discriminate|]); intros C; exfalso; specialize (C model_constant); cbn [fm_name model_constant mk_model String.eqb Ascii.eqb Bool.eqb] in C;
        eapply K; exact C.
  Qed.
  Lemma no_gaps_iff (f : frame T) : no_gaps f = true <-> complete f.
  Proof.
    unfold no_gaps, complete. destruct (has_date f) eqn:Hd.
    - rewrite andb_true_iff, negb_true_iff, regular_iff, pos_date by exact Hd.
      pose proof (sparse_iff f) as Sp. split.
      + intros [A B]. split; [exact A|]. intros _ C. apply Sp in C. congruence.
      + intros [A B]. split; [exact A|]. apply not_true_iff_false. intros C. apply (B eq_refl). now apply Sp.
    - rewrite regular_iff, pos_num by exact Hd. split; [intros A; split; [exact A|discriminate]|now intros [A _]].
  Qed.
  Lemma mask_complete iy (f : frame T) : complete f -> interpolate_df_mask iy f = Ok (f, None).
  Proof.
    intros C. unfold interpolate_df_mask. rewrite (interp_complete iy f C). cbn [rbind]. now rewrite (proj2 (no_gaps_iff f) C).
  Qed.
  Lemma mask_table iy (f : frame T) : Py.rmap fst (interpolate_df_mask iy f) = interpolate_df iy f.
  Proof. unfold interpolate_df_mask. now destruct (interpolate_df iy f). Qed.
  Lemma mask_some iy (f g : frame T) : ~ complete f -> interpolate_df iy f = Ok g ->
    interpolate_df_mask iy f = Ok (g, Some (map (fun r => negb (existsb (Z.eqb (r_x r)) (map r_x (rows f)))) (rows g))).
  Proof.
    intros C E. unfold interpolate_df_mask. rewrite E. cbn [rbind].
    destruct (no_gaps f) eqn:Eg; [|reflexivity]. exfalso. now apply C, no_gaps_iff.
  Qed.
  Lemma existsb_Z (a : Z) l : existsb (Z.eqb a) l = true <-> In a l.
  Proof. rewrite existsb_exists. split; [intros (b & I & E); apply Z.eqb_eq in E; now subst|intros I; exists a; split; [exact I|apply Z.eqb_refl]]. Qed.

  (* the filled table: dates and x of its rows *)
  Lemma interp_dates_cols iy (f g : frame T) : has_date f = true -> ~ complete f -> NoDup (map r_date (rows f)) ->
    interpolate_df iy f = Ok g ->
    exists lo hi, In lo (map r_date (rows f)) /\ In hi (map r_date (rows f)) /\
      (forall t, In t (map r_date (rows f)) -> lo <= t <= hi)%Z /\
      asfreq_range lo hi (detect_freq (map r_date (rows f))) = Ok (map r_date (rows g)) /\
      to_ints (interp (map (fun t => match lookup r_date (rows f) t with Some r => nofZ (r_x r) | None => nnan end) (map r_date (rows g))))
      = Ok (map r_x (rows g)).
  Proof.
    intros Hd N D E. destruct (zmin_zmax (map r_date (rows f))) as (lo & hi & E1 & E2 & I1 & I2 & B).
    { intros C. apply map_eq_nil in C. now apply (irregular_nonempty f N). }
    exists lo, hi. split; [exact I1|]. split; [exact I2|]. split; [exact B|].
    destruct (interp_dates_x iy f g Hd N D E) as (grid & Gg & Ex). rewrite Gg. split; [|exact Ex].
    rewrite (dates_unfold iy f lo hi Hd N D E1 E2) in E.
    destruct (asfreq_range lo hi _) as [grid'|] eqn:Eg; [|discriminate]. f_equal. cbn [rbind] in E. cbv zeta in E.
    destruct (to_ints _) as [xs|] eqn:Ex'; [|discriminate]. cbn [rbind] in E. injection E as <-. cbn [rows] in Gg. rewrite <- Gg. clear Gg Ex.
    destruct (to_ints_nth _ _ Ex') as [Lx _]. unfold interp in Lx. rewrite interp_length in Lx. unfold column in Lx. rewrite !map_length in Lx.
    symmetry. eapply (mk_rows_proj (length grid'));
      try (unfold src_column; now rewrite ?map_length); try exact Lx;
      try (destruct iy; unfold interp; rewrite ?interp_length; unfold column; now rewrite !map_length).
  Qed.
  (* numbers as positions: rows of both variants have the x of the grid *)
  Lemma interp_numbers_cols iy (f g : frame T) : has_date f = false -> ~ complete f -> NoDup (map r_x (rows f)) ->
    interpolate_df iy f = Ok g ->
    NoDup (map r_x (rows g)) /\ forall x, In x (map r_x (rows f)) -> In x (map r_x (rows g)).
  Proof.
    intros Hd N D E. destruct (interp_numbers f Hd N D) as (lo & hi & rs & E0 & _ & _ & (K & R1 & R2) & Kept).
    assert (X : map r_x (rows g) = map r_x rs).
    { destruct iy; [|rewrite E0 in E; injection E as <-; reflexivity].
      pose proof (interp_y f N) as Y. rewrite E0 in Y. destruct Y as (g1 & E1 & Y). rewrite E1 in E. injection E as ->.
      now destruct Y as (_ & _ & _ & _ & _ & Y & _). }
    rewrite X. split.
    - rewrite K. apply lt_sorted_NoDup, zrange_sorted.
    - intros x Ix. apply in_map_iff in Ix as (r & <- & Ir). apply in_map. now apply Kept.
  Qed.
End M.

(* how many entries are new *)
Lemma count_new (kg : list Z) : NoDup kg -> forall kf, NoDup kf -> incl kf kg ->
  (length (filter (fun x => negb (existsb (Z.eqb x) kf)) kg) + length kf = length kg)%nat.
Proof.
  intros Ng kf Nf I.
  assert (P : (length (filter (fun x => existsb (Z.eqb x) kf) kg) = length kf)%nat).
  { apply Nat.le_antisymm.
    - apply NoDup_incl_length; [now apply NoDup_filter|]. intros x Hx. apply filter_In in Hx as [_ Hx]. now apply existsb_Z.
    - apply NoDup_incl_length; [exact Nf|]. intros x Hx. apply filter_In. split; [now apply I|now apply existsb_Z]. }
  rewrite <- P. clear. induction kg as [|a l IH]; [reflexivity|]. cbn [filter length].
  destruct (existsb (Z.eqb a) kf); cbn [negb length]; lia.
Qed.

(* ---- dates ---- *)
Lemma same_time lo hi freq grid : freq <> Some "H" -> asfreq_range lo hi freq = Ok grid ->
  forall t, In t grid -> (t mod DAY = lo mod DAY)%Z.
Proof.
  intros NH E.
  assert (Ff : forall n, (0 < n)%Z -> forall t, In t (fixed_range lo (n * DAY) hi) -> (t mod DAY = lo mod DAY)%Z).
  { intros n P t It. apply fixed_range_in in It as (k & K & -> & J); [|pose proof DAYp; nia].
    replace (lo + k * (n * DAY))%Z with (lo + (k * n) * DAY)%Z by ring. apply Z_mod_plus_full. }
  assert (Fm : forall sel day, in_month day -> forall t, In t (month_range lo hi sel day) -> (t mod DAY = lo mod DAY)%Z).
  { intros sel day P t It. apply month_range_in in It as (k & _ & -> & _); [|exact P].
    rewrite Z.add_comm, Z_mod_plus_full. apply Z.mod_mod. pose proof DAYp. lia. }
  unfold asfreq_range, date_range in E. destruct freq as [q|].
  - destruct (String.eqb_spec q "Q"); [apply ok_eq in E; subst grid; apply Fm, month_last_in|].
    destruct (String.eqb_spec q "H"); [congruence|].
    repeat match type of E with (if ?b then _ else _) = _ => destruct b end; try discriminate; apply ok_eq in E; subst grid;
      first [apply (Ff 1%Z); lia|apply (Ff 7%Z); lia|apply Fm; first [exact month_start_in|exact month_last_in]].
  - apply ok_eq in E. subst grid. apply (Ff 1%Z). lia.
Qed.
Lemma nth_gap (c : Z) l : StronglySorted Z.lt l -> (forall t, In t l -> (t mod DAY = c)%Z) ->
  forall d j a b, nth_error l j = Some a -> nth_error l (j + d) = Some b -> (a + Z.of_nat d * DAY <= b)%Z.
Proof.
  intros Ss C. induction d as [|d IH]; intros j a b Ea Eb.
  - rewrite Nat.add_0_r in Eb. assert (a = b) by congruence. lia.
  - assert (Ld : (j + d < length l)%nat). { assert (j + S d < length l)%nat by (apply nth_error_Some; congruence). lia. }
    destruct (nth_error l (j + d)) as [m|] eqn:Em; [|apply nth_error_None in Em; lia].
    specialize (IH j a m Ea Em).
    assert (m < b)%Z. { eapply (sorted_nth_lt l Ss (j + d) (j + S d)); [lia|exact Em|exact Eb]. }
    pose proof (C m (nth_error_In _ _ Em)) as Cm. pose proof (C b (nth_error_In _ _ Eb)) as Cb.
    assert (m + DAY <= b)%Z; [|lia].
    pose proof DAYp. pose proof (Z.div_mod m DAY ltac:(lia)). pose proof (Z.div_mod b DAY ltac:(lia)).
    assert (m / DAY < b / DAY)%Z by nia. nia.
Qed.
Lemma Int_part_bounds A B r : (IZR A <= r <= IZR B)%R -> (A <= Int_part r <= B)%Z.
Proof.
  intros [L U]. destruct (base_Int_part r) as [H1 H2]. split.
  - assert (A < Int_part r + 1)%Z; [|lia]. apply lt_IZR. rewrite plus_IZR. lra.
  - apply le_IZR. lra.
Qed.
Lemma Rtrunc_bounds A B r : (IZR A <= r <= IZR B)%R -> (A <= Rtrunc r <= B)%Z.
Proof.
  intros [L U]. unfold Rtrunc. destruct (Rltb_spec r 0); [|apply Int_part_bounds; lra].
  assert (- B <= Int_part (- r) <= - A)%Z; [|lia]. apply Int_part_bounds. rewrite !opp_IZR. lra.
Qed.

(* nearest values around a null entry *)
Lemma nearest_before (l : list XR) i : forall k, (k < i)%nat -> (exists v, valid l k v) ->
  (i <= length l)%nat -> exists j v, (k <= j < i)%nat /\ valid l j v /\ forall e, (j < e < i)%nat -> null_at l e.
Proof.
  induction i as [|i IH]; intros k L V Ll; [lia|].
  destruct (nth_error l i) as [w|] eqn:Ew; [|apply nth_error_None in Ew; lia].
  destruct (nisnan w) eqn:Nw.
  - assert (k <> i) as Ne. { intros ->. destruct V as (v & E & Nv). congruence. }
    destruct (IH k ltac:(lia) V ltac:(lia)) as (j & v & Lj & Vj & Nl). exists j, v. split; [lia|]. split; [exact Vj|].
    intros e He. destruct (Nat.eq_dec e i) as [->|]; [exists w; auto|apply Nl; lia].
  - exists i, w. split; [lia|]. split; [split; assumption|]. intros e He. lia.
Qed.
Lemma nearest_after (l : list XR) : forall d i, (exists v, valid l (i + S d) v) ->
  exists k v, (i < k <= i + S d)%nat /\ valid l k v /\ forall e, (i < e < k)%nat -> null_at l e.
Proof.
  induction d as [|d IH]; intros i (v & V).
  - exists (i + 1)%nat, v. split; [lia|]. split; [exact V|]. intros e He. lia.
  - assert (Ll : (i + S (S d) < length l)%nat). { apply nth_error_Some. destruct V as [V _]. congruence. }
    destruct (nth_error l (S i)) as [w|] eqn:Ew; [|apply nth_error_None in Ew; lia].
    destruct (nisnan w) eqn:Nw.
    + destruct (IH (S i)) as (k & u & Lk & Vk & Nl). { exists v. now replace (S i + S d)%nat with (i + S (S d))%nat by lia. }
      exists k, u. split; [lia|]. split; [exact Vk|]. intros e He. destruct (Nat.eq_dec e (S i)) as [->|]; [exists w; auto|apply Nl; lia].
    + exists (S i), w. split; [lia|]. split; [split; assumption|]. intros e He. lia.
Qed.

(* days: x of the samples counts the days of the dates *)
Definition counts_days (o : Z) (f : frame XR) : Prop := forall r, In r (rows f) -> (r_x r = (r_date r - o) / DAY)%Z.

Section D.
  Variables (f g : frame XR) (o lo : Z) (iy : bool).
  Hypothesis Hd : has_date f = true.
  Hypothesis Hn : ~ complete f.
  Hypothesis Hu : NoDup (map r_date (rows f)).
  Hypothesis Hlo : In lo (map r_date (rows f)).
  Hypothesis Hon : forall t, In t (map r_date (rows f)) -> (lo <= t)%Z /\ on_grid lo (detect_freq (map r_date (rows f))) t.
  Hypothesis Hh : detect_freq (map r_date (rows f)) <> Some "H".
  Hypothesis Hx : counts_days o f.
  Hypothesis Hg : interpolate_df iy f = Ok g.

  Lemma mask_grid : StronglySorted Z.lt (map r_date (rows g)) /\ incl (map r_date (rows f)) (map r_date (rows g)) /\
    (forall t, In t (map r_date (rows g)) -> (t mod DAY = lo mod DAY)%Z) /\
    (exists hi, In hi (map r_date (rows f)) /\ forall t, In t (map r_date (rows g)) -> (lo <= t <= hi)%Z).
  Proof.
    destruct (interp_dates_cols iy f g Hd Hn Hu Hg) as (lo' & hi & I1 & I2 & B & Eg & Ex).
    assert (lo' = lo) as -> by (pose proof (proj1 (Hon lo' I1)); pose proof (B lo Hlo); lia).
    destruct (asfreq_grid lo hi _ _ (proj2 (B lo Hlo)) Eg) as [Sg Bg].
    split; [exact Sg|]. split; [|split; [eapply same_time; eassumption|exists hi; split; assumption]].
    intros t It. destruct (asfreq_covers lo hi (detect_freq (map r_date (rows f))) t) as (g' & Eg' & It'); [now apply B|now apply Hon|]. congruence.
  Qed.
  Lemma mask_x r : In r (rows g) -> ~ In (r_date r) (map r_date (rows f)) -> ~ In (r_x r) (map r_x (rows f)).
  Proof.
    intros Ir Nd. destruct mask_grid as (Sg & Inc & Tm & (hi & Ihi & Bg)).
    destruct (interp_dates_cols iy f g Hd Hn Hu Hg) as (_ & _ & _ & _ & _ & _ & Ex).
    remember (map r_date (rows g)) as G eqn:EG.
    set (L := map (fun t => match lookup r_date (rows f) t with Some r => nofZ (r_x r) | None => nnan end) G) in Ex.
    apply In_nth_error in Ir as (i & Ei).
    assert (EGi : nth_error G i = Some (r_date r)) by (rewrite EG; now apply nth_error_map').
    assert (EX : nth_error (map r_x (rows g)) i = Some (r_x r)) by now apply nth_error_map'.
    assert (LL : length L = length G) by (unfold L; now rewrite map_length).
    assert (At : forall e t, nth_error G e = Some t -> nth_error L e = Some (match lookup r_date (rows f) t with Some r => nofZ (r_x r) | None => nnan end)).
    { intros e t Ee. unfold L. exact (map_nth_error _ _ _ Ee). }
    assert (Smp : forall e t, nth_error G e = Some t -> In t (map r_date (rows f)) -> valid L e (Fin (IZR ((t - o) / DAY)))).
    { intros e t Ee It. apply in_map_iff in It as (q & <- & Iq). split; [|reflexivity]. rewrite (At _ _ Ee), (lookup_in r_date (rows f) q Hu Iq).
      now rewrite (Hx q Iq). }
    assert (Val : forall e v, valid L e v -> exists t, nth_error G e = Some t /\ In t (map r_date (rows f)) /\ v = Fin (IZR ((t - o) / DAY))).
    { intros e v [Ev Nv]. destruct (nth_error G e) as [t|] eqn:Et.
      - exists t. split; [reflexivity|]. rewrite (At _ _ Et) in Ev. destruct (lookup r_date (rows f) t) as [q|] eqn:El.
        + pose proof (lookup_some _ _ _ _ El) as [Iq Kq]. split; [rewrite <- Kq; now apply in_map|]. injection Ev as <-. now rewrite (Hx q Iq), Kq.
        + injection Ev as <-. discriminate.
      - apply nth_error_None in Et. assert (nth_error L e = None) by (apply nth_error_None; lia). congruence. }
    assert (Nth : forall t, In t G -> exists e, nth_error G e = Some t) by (intros t It; now apply In_nth_error).
    destruct (Nth lo (Inc lo Hlo)) as (e0 & E0). destruct (Nth hi (Inc hi Ihi)) as (e1 & E1).
    assert (Ord : forall a b ta tb, nth_error G a = Some ta -> nth_error G b = Some tb -> (ta < tb)%Z -> (a < b)%nat).
    { intros a b ta tb Ea Eb Lt. destruct (Nat.lt_trichotomy a b) as [C|[C|C]]; [exact C| |].
      - subst. rewrite Ea in Eb. injection Eb as ->. lia.
      - pose proof (sorted_nth_lt G Sg b a _ _ C Eb Ea). lia. }
    assert (L0 : (e0 < i)%nat).
    { apply (Ord e0 i lo (r_date r) E0 EGi). destruct (Bg (r_date r) (nth_error_In _ _ EGi)) as [C _].
      assert (lo <> r_date r) by (intros C'; apply Nd; now rewrite <- C'). lia. }
    assert (L1 : (i < e1)%nat).
    { apply (Ord i e1 (r_date r) hi EGi E1). destruct (Bg (r_date r) (nth_error_In _ _ EGi)) as [_ C].
      assert (hi <> r_date r) by (intros C'; apply Nd; now rewrite <- C'). lia. }
    assert (Li : (i < length G)%nat) by (apply nth_error_Some; congruence).
    destruct (nearest_before L i e0 L0) as (j & vj & Lj & Vj & Nj); [exists (Fin (IZR ((lo - o) / DAY))); now apply Smp|lia|].
    destruct (nearest_after L (e1 - i - 1) i) as (k & vk & Lk & Vk & Nk).
    { exists (Fin (IZR ((hi - o) / DAY))). replace (i + S (e1 - i - 1))%nat with e1 by lia. now apply Smp. }
    destruct (Val _ _ Vj) as (tj & Ej & Ij & ->). destruct (Val _ _ Vk) as (tk & Ek & Ik & ->).
    assert (Nul : null_at L i).
    { exists XNaN. split; [|reflexivity]. rewrite (At _ _ EGi). destruct (lookup r_date (rows f) (r_date r)) as [q|] eqn:El; [|reflexivity].
      exfalso. apply Nd. pose proof (lookup_some _ _ _ _ El) as [Iq Kq]. rewrite <- Kq. now apply in_map. }
    assert (Nall : forall e, (j < e < k)%nat -> null_at L e).
    { intros e He. destruct (Nat.lt_trichotomy e i) as [C|[C|C]]; [apply Nj; lia|now subst|apply Nk; lia]. }
    pose proof (interp_between L j i k _ _ ltac:(lia) Vj Vk Nall) as Ebt. rewrite between_line in Ebt by lia.
    destruct (to_ints_nth _ _ Ex) as [_ Px]. destruct (Px i _ Ebt) as (z & Ez & Nz). cbn [ntrunc XROps] in Ez.
    assert (z = r_x r) by congruence. subst z.
    set (A := ((tj - o) / DAY)%Z) in *. set (B := ((tk - o) / DAY)%Z) in *.
    assert (Gap : (A + Z.of_nat (k - j) <= B)%Z).
    { pose proof (nth_gap (lo mod DAY) G Sg Tm (k - j) j tj tk Ej) as Q. replace (j + (k - j))%nat with k in Q by lia. specialize (Q Ek).
      unfold A, B. pose proof DAYp. apply Z.div_le_lower_bound; [lia|].
      pose proof (Z.mul_div_le (tj - o) DAY ltac:(lia)). lia. }
    assert (Bd : (A + 1 <= r_x r <= B - 1)%Z).
    { assert (Ez' : Rtrunc (IZR A + (IZR B - IZR A) * (INR i - INR j) / (INR k - INR j)) = r_x r) by congruence.
      rewrite <- Ez'. apply Rtrunc_bounds. rewrite plus_IZR, minus_IZR.
      assert (P : (0 < INR k - INR j)%R) by (apply Rlt_Rminus, lt_INR; lia).
      assert (Gp : (INR k - INR j <= IZR B - IZR A)%R).
      { rewrite <- minus_INR by lia. rewrite INR_IZR_INZ, <- minus_IZR. apply IZR_le. lia. }
      assert (I1 : (1 <= INR i - INR j)%R). { rewrite <- minus_INR by lia. apply (le_INR 1). lia. }
      assert (I2 : (INR i - INR j <= INR k - INR j - 1)%R).
      { assert (INR i + 1 <= INR k)%R; [|lra]. rewrite <- S_INR. apply le_INR. lia. }
      set (s := ((IZR B - IZR A) / (INR k - INR j))%R).
      assert (S1 : (1 <= s)%R). { unfold s. apply (Rmult_le_reg_r (INR k - INR j)); [exact P|]. unfold Rdiv. rewrite Rmult_assoc, Rinv_l by lra. lra. }
      assert (Sd : (IZR B - IZR A = s * (INR k - INR j))%R). { unfold s. field. lra. }
      replace ((IZR B - IZR A) * (INR i - INR j) / (INR k - INR j))%R with (s * (INR i - INR j))%R by (unfold s; field; lra).
      replace (IZR B)%R with (IZR A + s * (INR k - INR j))%R by lra. split; nra. }
    intros In0. apply in_map_iff in In0 as (q & Eq' & Iq). pose proof (Hx q Iq) as Xq.
    destruct (Nth (r_date q) (Inc _ (in_map r_date _ _ Iq))) as (e & Ee).
    assert (e <= j \/ k <= e)%nat as [C|C].
    { destruct (Nat.le_gt_cases e j) as [C|C]; [now left|]. right. destruct (Nat.le_gt_cases k e) as [C'|C']; [exact C'|].
      exfalso. destruct (Nall e ltac:(lia)) as (v & Ev & Nv). destruct (Smp e (r_date q) Ee (in_map r_date _ _ Iq)) as [Ev' Nv']. congruence. }
    - assert (r_date q <= tj)%Z. { destruct (Nat.eq_dec e j) as [->|]; [assert (r_date q = tj) by congruence; lia|].
        pose proof (sorted_nth_lt G Sg e j _ _ ltac:(lia) Ee Ej). lia. }
      assert (r_x q <= A)%Z. { rewrite Xq. apply Z.div_le_mono; [apply DAYp|lia]. } lia.
    - assert (tk <= r_date q)%Z. { destruct (Nat.eq_dec e k) as [->|]; [assert (r_date q = tk) by congruence; lia|].
        pose proof (sorted_nth_lt G Sg k e _ _ ltac:(lia) Ek Ee). lia. }
      assert (B <= r_x q)%Z. { rewrite Xq. apply Z.div_le_mono; [apply DAYp|lia]. } lia.
  Qed.
End D.

(* fixed steps of whole days: filled rows have the x of their day *)
Lemma seq_nth_error n i : (i < n)%nat -> nth_error (seq 0 n) i = Some i.
Proof. intros L. rewrite (nth_error_nth' _ 0%nat) by now rewrite seq_length. now rewrite seq_nth. Qed.
Lemma fixed_nth lo step hi e t : nth_error (fixed_range lo step hi) e = Some t -> t = (lo + Z.of_nat e * step)%Z.
Proof.
  unfold fixed_range. destruct (hi <? lo)%Z; [destruct e; discriminate|]. intros E.
  assert (e < Z.to_nat ((hi - lo) / step) + 1)%nat.
  { rewrite <- (seq_length (Z.to_nat ((hi - lo) / step) + 1) 0), <- (map_length (fun i => (lo + Z.of_nat i * step)%Z)). apply nth_error_Some. congruence. }
  rewrite (map_nth_error _ _ _ (seq_nth_error _ _ H)) in E. injection E as <-. reflexivity.
Qed.
Lemma fixed_x (f g : frame XR) (o lo n : Z) (iy : bool) : has_date f = true -> ~ complete f -> NoDup (map r_date (rows f)) ->
  In lo (map r_date (rows f)) -> counts_days o f ->
  (forall t, In t (map r_date (rows f)) -> (lo <= t)%Z /\ on_grid lo (detect_freq (map r_date (rows f))) t) ->
  (0 < n)%Z -> (forall hi, asfreq_range lo hi (detect_freq (map r_date (rows f))) = Ok (fixed_range lo (n * DAY) hi)) ->
  interpolate_df iy f = Ok g -> counts_days o g.
Proof.
  intros Hd Hn Hu Hlo Hx Hon P Fx Hg.
  destruct (interp_dates_cols iy f g Hd Hn Hu Hg) as (lo' & hi & I1 & I2 & B & Eg & Ex).
  assert (lo' = lo) as -> by (pose proof (proj1 (Hon lo' I1)); pose proof (B lo Hlo); lia).
  rewrite Fx in Eg. apply ok_eq in Eg. remember (map r_date (rows g)) as G eqn:EG.
  assert (Cov : forall t, In t (map r_date (rows f)) -> In t G).
  { intros t It. destruct (asfreq_covers lo hi (detect_freq (map r_date (rows f))) t) as (g' & Eg' & It'); [now apply B|now apply Hon|].
    rewrite Fx in Eg'. apply ok_eq in Eg'. congruence. }
  set (L := map (fun t => match lookup r_date (rows f) t with Some r => nofZ (r_x r) | None => nnan end) G) in Ex.
  assert (At : forall e t, nth_error G e = Some t -> nth_error L e = Some (match lookup r_date (rows f) t with Some r => nofZ (r_x r) | None => nnan end)).
  { intros e t Ee. unfold L. exact (map_nth_error _ _ _ Ee). }
  assert (LL : length L = length G) by (unfold L; now rewrite map_length).
  assert (Gn : forall e t, nth_error G e = Some t -> t = (lo + Z.of_nat e * (n * DAY))%Z).
  { intros e t Ee. rewrite Eg in Ee. now apply fixed_nth in Ee. }
  assert (Xn : forall e, ((lo + Z.of_nat e * (n * DAY) - o) / DAY = (lo - o) / DAY + n * Z.of_nat e)%Z).
  { intros e. replace (lo + Z.of_nat e * (n * DAY) - o)%Z with (lo - o + (n * Z.of_nat e) * DAY)%Z by ring. apply Z.div_add. pose proof DAYp; lia. }
  assert (Smp : forall e t, nth_error G e = Some t -> In t (map r_date (rows f)) -> nth_error L e = Some (Fin (IZR ((lo - o) / DAY + n * Z.of_nat e)))).
  { intros e t Ee It. rewrite (At _ _ Ee). apply in_map_iff in It as (q & <- & Iq). rewrite (lookup_in r_date (rows f) q Hu Iq), (Hx q Iq).
    rewrite (Gn _ _ Ee), Xn. reflexivity. }
  assert (OL : TotalProofs2.on_line (IZR ((lo - o) / DAY)) (IZR n) 0 L).
  { intros e v Ev. destruct (nth_error G e) as [t|] eqn:Et.
    - destruct (lookup r_date (rows f) t) as [q|] eqn:El.
      + right. pose proof (lookup_some _ _ _ _ El) as [Iq Kq]. assert (It : In t (map r_date (rows f))) by (rewrite <- Kq; now apply in_map).
        rewrite (Smp _ _ Et It) in Ev. injection Ev as <-. f_equal. rewrite plus_IZR, mult_IZR, Nat.add_0_l, INR_IZR_INZ. reflexivity.
      + left. rewrite (At _ _ Et), El in Ev. now injection Ev as <-.
    - apply nth_error_None in Et. assert (nth_error L e = None) by (apply nth_error_None; lia). congruence. }
  assert (Nth : forall t, In t G -> exists e, nth_error G e = Some t) by (intros t It; now apply In_nth_error).
  destruct (Nth lo (Cov lo Hlo)) as (e0 & E0). destruct (Nth hi (Cov hi I2)) as (e1 & E1). pose proof DAYp as Dp.
  assert (e0 = 0%nat) as ->. { pose proof (Gn _ _ E0). assert (Z.of_nat e0 * (n * DAY) = 0)%Z by lia. nia. }
  assert (L1 : (e1 < length G)%nat) by (apply nth_error_Some; congruence).
  assert (e1 = length L - 1)%nat as Ee1.
  { rewrite LL. destruct (nth_error G (length G - 1)) as [tl|] eqn:Etl; [|apply nth_error_None in Etl; lia].
    assert (tl <= hi)%Z. { apply nth_error_In in Etl. rewrite Eg in Etl. apply fixed_range_in in Etl as (k & _ & -> & J); [lia|nia]. }
    pose proof (Gn _ _ Etl). pose proof (Gn _ _ E1). assert (Z.of_nat (length G - 1) * (n * DAY) <= Z.of_nat e1 * (n * DAY))%Z by lia.
    apply Z.mul_le_mono_pos_r in H2; [lia|nia]. }
  assert (IL : interp L = map (fun k => Fin (IZR ((lo - o) / DAY) + IZR n * INR k)) (seq 0 (length L))).
  { apply interp_line; [exact OL|eexists; exact (Smp _ _ E0 Hlo)|]. rewrite <- Ee1. eexists. exact (Smp _ _ E1 I2). }
  intros r Ir. apply In_nth_error in Ir as (i & Ei).
  assert (EGi : nth_error G i = Some (r_date r)) by (rewrite EG; exact (map_nth_error _ _ _ Ei)).
  assert (Li : (i < length L)%nat) by (rewrite LL; apply nth_error_Some; congruence).
  destruct (to_ints_nth _ _ Ex) as [_ Px].
  assert (Ev : nth_error (interp L) i = Some (Fin (IZR ((lo - o) / DAY) + IZR n * INR i))).
  { rewrite IL. exact (map_nth_error _ _ _ (seq_nth_error _ _ Li)). }
  destruct (Px i _ Ev) as (z & Ez & Nz). rewrite (map_nth_error r_x _ _ Ei) in Nz. injection Nz as <-. cbn [ntrunc XROps] in Ez.
  rewrite INR_IZR_INZ, <- mult_IZR, <- plus_IZR, Rtrunc_IZR in Ez. injection Ez as <-.
  rewrite (Gn _ _ EGi). symmetry. apply Xn.
Qed.
Lemma days_x (f g : frame XR) (o lo : Z) (iy : bool) : has_date f = true -> ~ complete f -> NoDup (map r_date (rows f)) ->
  In lo (map r_date (rows f)) -> counts_days o f ->
  (detect_freq (map r_date (rows f)) = Some "D" /\ (forall t, In t (map r_date (rows f)) -> lo <= t /\ (t - lo) mod DAY = 0)%Z) \/
  (detect_freq (map r_date (rows f)) = Some (wday_name (weekday lo)) /\ (forall t, In t (map r_date (rows f)) -> lo <= t /\ (t - lo) mod (7 * DAY) = 0)%Z) ->
  interpolate_df iy f = Ok g -> counts_days o g.
Proof.
  intros Hd Hn Hu Hlo Hx [[Q On]|[Q On]] Hg.
  - apply (fixed_x f g o lo 1 iy); auto; [|lia|].
    + intros t It. rewrite Q. split; [now apply On|]. left. split; [reflexivity|now apply On].
    + intros hi. rewrite Q. reflexivity.
  - apply (fixed_x f g o lo 7 iy); auto; [|lia|].
    + intros t It. rewrite Q. split; [now apply On|]. right. right. left. split; [reflexivity|now apply On].
    + intros hi. rewrite Q. unfold asfreq_range, date_range. rewrite String.eqb_refl.
      destruct (weekday_name_cases lo) as [->|[->|[->|[->|[->|[->| ->]]]]]]; reflexivity.
Qed.

(* ---- the statements about the mask ---- *)
Definition marks (f g : frame XR) (key : row XR -> Z) (mask : list bool) : Prop :=
  length mask = length (rows g) /\
  (forall i r, nth_error (rows g) i = Some r -> (nth_error mask i = Some true <-> ~ In (key r) (map key (rows f)))) /\
  (length (filter (fun b : bool => b) mask) + length (rows f) = length (rows g))%nat.
Lemma marks_of (f g : frame XR) key : NoDup (map key (rows f)) -> NoDup (map key (rows g)) -> incl (map key (rows f)) (map key (rows g)) ->
  (forall r, In r (rows g) -> (In (r_x r) (map r_x (rows f)) <-> In (key r) (map key (rows f)))) ->
  marks f g key (map (fun r => negb (existsb (Z.eqb (r_x r)) (map r_x (rows f)))) (rows g)).
Proof.
  intros Nf Ng I K. split; [now rewrite map_length|]. 
  assert (Same : forall r, In r (rows g) -> negb (existsb (Z.eqb (r_x r)) (map r_x (rows f))) = negb (existsb (Z.eqb (key r)) (map key (rows f)))).
  { intros r Ir. f_equal. apply eq_true_iff_eq. rewrite !existsb_Z. now apply K. }
  split.
  - intros i r Ei. rewrite (map_nth_error _ _ _ Ei). rewrite (Same r (nth_error_In _ _ Ei)). rewrite <- existsb_Z.
    destruct (existsb _ _); cbn; split; congruence.
  - rewrite (map_ext_in _ _ _ Same), <- (map_length key (rows f)), <- (map_length key (rows g)), <- (count_new _ Ng _ Nf I). f_equal.
    clear. induction (rows g) as [|r l IH]; [reflexivity|]. cbn [map filter].
    destruct (negb _); cbn [length]; now rewrite IH.
Qed.
Lemma mask_numbers iy (f : frame XR) : has_date f = false -> ~ complete f -> NoDup (map r_x (rows f)) ->
  exists g mask, interpolate_df_mask iy f = Ok (g, Some mask) /\ interpolate_df iy f = Ok g /\ marks f g r_x mask.
Proof.
  intros Hd Hn Hu. assert (exists g, interpolate_df iy f = Ok g) as (g & E).
  { destruct (interp_numbers f Hd Hn Hu) as (lo & hi & rs & E & _). destruct iy; [|eauto].
    pose proof (interp_y f Hn) as Y. rewrite E in Y. destruct Y as (g1 & E1 & _). eauto. }
  destruct (interp_numbers_cols iy f g Hd Hn Hu E) as [Ng Inc].
  exists g. eexists. split; [exact (mask_some iy f g Hn E)|]. split; [exact E|]. apply marks_of; try assumption. tauto.
Qed.
Lemma mask_dates iy (f : frame XR) o lo : has_date f = true -> ~ complete f -> NoDup (map r_date (rows f)) ->
  In lo (map r_date (rows f)) ->
  (forall t, In t (map r_date (rows f)) -> (lo <= t)%Z /\ on_grid lo (detect_freq (map r_date (rows f))) t) ->
  detect_freq (map r_date (rows f)) <> Some "H" -> counts_days o f ->
  exists g mask, interpolate_df_mask iy f = Ok (g, Some mask) /\ interpolate_df iy f = Ok g /\ marks f g r_date mask.
Proof.
  intros Hd Hn Hu Hlo Hon Hh Hx. assert (exists g, interpolate_df iy f = Ok g) as (g & E).
  { destruct (interp_dates_ok f lo Hd Hn Hu Hlo Hon) as (hi & grid & rs & E & _). destruct iy; [|eauto].
    pose proof (interp_y f Hn) as Y. rewrite E in Y. destruct Y as (g1 & E1 & _). eauto. }
  destruct (mask_grid f g lo iy Hd Hn Hu Hlo Hon Hh E) as (Sg & Inc & _ & _).
  exists g. eexists. split; [exact (mask_some iy f g Hn E)|]. split; [exact E|]. apply marks_of; try assumption.
  - now apply lt_sorted_NoDup.
  - intros r Ir. split.
    + intros C. destruct (in_dec Z.eq_dec (r_date r) (map r_date (rows f))) as [D|D]; [exact D|].
      exfalso. now apply (mask_x f g o lo iy Hd Hn Hu Hlo Hon Hh Hx E r Ir D).
    + intros C. apply in_map_iff in C as (q & Eq' & Iq).
      destruct (interp_dates_cols iy f g Hd Hn Hu E) as (_ & _ & _ & _ & _ & _ & Ex).
      apply In_nth_error in Ir as (i & Ei). destruct (to_ints_nth _ _ Ex) as [_ Px].
      destruct (Px i (Fin (IZR (r_x q)))) as (z & Ez & Nz).
      { apply interp_keeps. split; [|reflexivity].
        rewrite (map_nth_error _ _ _ (map_nth_error r_date _ _ Ei)). rewrite <- Eq', (lookup_in r_date (rows f) q Hu Iq). reflexivity. }
      cbn [ntrunc XROps] in Ez. rewrite Rtrunc_IZR in Ez. injection Ez as <-.
      rewrite (map_nth_error r_x _ _ Ei) in Nz. injection Nz as ->. now apply in_map.
Qed.
