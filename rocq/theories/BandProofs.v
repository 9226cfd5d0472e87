(* Proofs about the shaded intervals of plots (Bands.v). *)
From Coq Require Import ZArith Lia Lra String List Bool Reals Sorting Permutation.
From Verif Require Import Num Py Cal Model Freq Outliers Pi.
From Verif Require Import NumProofs ListProofs StringProofs GroupProofs InterpProofs OutlierReals ForecastProofs PiProofs Bands.
Import ListNotations.
Local Open Scope string_scope.
Local Open Scope list_scope.

Section Stretches.
  Context {A : Type}.
  Implicit Types (w : A -> bool) (l m : list A).
  Lemma stretches_nonempty w l s : In s (stretches w l) -> s <> [] /\ forallb w s = true.
  Proof.
    revert s. induction l as [|a l IH]; intros s; [intros []|]. cbn [stretches]. destruct (w a) eqn:Wa; [|apply IH].
    destruct l as [|b l]; [intros [<-|[]]; cbn; rewrite Wa; split; [discriminate|reflexivity]|].
    destruct (w b) eqn:Wb.
    - destruct (stretches w (b :: l)) as [|t ts]; [intros [<-|[]]; cbn; rewrite Wa; split; [discriminate|reflexivity]|].
      intros [<-|Hs]; [|apply IH; now right]. split; [discriminate|]. cbn [forallb]. rewrite Wa. apply IH. now left.
    - intros [<-|Hs]; [|now apply IH]. cbn; rewrite Wa; split; [discriminate|reflexivity].
  Qed.
  Lemma stretches_none w l : forallb (fun a => negb (w a)) l = true -> stretches w l = [].
  Proof. induction l as [|a l IH]; [reflexivity|]. cbn. destruct (w a); [discriminate|]. exact IH. Qed.
  Lemma stretches_some w b l : w b = true -> stretches w (b :: l) <> [].
  Proof. intros W. cbn [stretches]. rewrite W. destruct l as [|c l]; [discriminate|]. destruct (w c); [|discriminate]. destruct (stretches w (c :: l)); discriminate. Qed.
  Lemma stretches_concat w l : concat (stretches w l) = filter w l.
  Proof.
    induction l as [|a l IH]; [reflexivity|]. cbn [stretches filter]. destruct (w a) eqn:Wa; [|exact IH].
    destruct l as [|b l]; [reflexivity|]. destruct (w b) eqn:Wb.
    - pose proof (stretches_some w b l Wb) as Ne. destruct (stretches w (b :: l)) as [|t ts]; [congruence|]. cbn [concat] in *. cbn [app]. now rewrite IH.
    - cbn [concat app]. now rewrite IH.
  Qed.
  Lemma stretches_drop w l m : forallb (fun a => negb (w a)) l = true -> stretches w (l ++ m) = stretches w m.
  Proof. induction l as [|a l IH]; [reflexivity|]. cbn. destruct (w a); [discriminate|]. exact IH. Qed.
  Lemma stretches_segment w l m k : m <> [] -> forallb (fun a => negb (w a)) l = true -> forallb w m = true -> forallb (fun a => negb (w a)) k = true ->
    stretches w (l ++ m ++ k) = [m].
  Proof.
    intros Nm Hl Hm Hk. rewrite stretches_drop by exact Hl. clear Hl. induction m as [|a m IH]; [congruence|]. cbn in Hm. apply andb_prop in Hm as [Wa Hm].
    cbn [app stretches]. rewrite Wa. destruct m as [|b m].
    - cbn [app] in *. destruct k as [|c k]; [reflexivity|]. pose proof Hk as Hk'. cbn in Hk. apply andb_prop in Hk as [Wc Hk]. apply negb_true_iff in Wc. rewrite Wc.
      now rewrite stretches_none.
    - specialize (IH ltac:(discriminate) Hm). cbn [app] in *. cbn in Hm. apply andb_prop in Hm as [-> _]. now rewrite IH.
  Qed.
  (* in a sorted list, rows between two rows that qualify *)
  Lemma sorted_segment (R : A -> A -> Prop) w l : StronglySorted R l ->
    (forall x y z, R x y -> R y z -> w x = true -> w z = true -> w y = true) ->
    exists a m b, l = a ++ m ++ b /\ forallb (fun a => negb (w a)) a = true /\ forallb w m = true /\ forallb (fun a => negb (w a)) b = true.
  Proof.
    intros S C. induction S as [|x l S (a & m & b & El & Ha & Hm & Hb) F]; [exists [], [], []; now repeat split|].
    destruct (w x) eqn:Wx.
    - destruct m as [|z m].
      + exists [], [x], l. split; [reflexivity|]. split; [reflexivity|]. split; [cbn; now rewrite Wx|]. rewrite El. cbn [app]. rewrite forallb_app. now rewrite Ha, Hb.
      + destruct a as [|y a].
        * exists [], (x :: z :: m), b. split; [now rewrite El|]. split; [reflexivity|]. split; [|exact Hb]. cbn [forallb]. rewrite Wx. exact Hm.
        * exfalso. subst l. rewrite Forall_forall in F. assert (R x y) as Rxy by (apply F; now left).
          inversion S as [|? ? S' F']; subst. rewrite Forall_forall in F'. assert (R y z) as Ryz by (apply F'; rewrite in_app_iff; right; now left).
          cbn in Ha, Hm. apply andb_prop in Ha as [Ha _]. apply andb_prop in Hm as [Hz _]. rewrite (C x y z) in Ha; auto. discriminate.
    - exists (x :: a), m, b. split; [now rewrite El|]. split; [cbn; now rewrite Wx|]. now split.
  Qed.
  Lemma forallb_filter f g l : forallb f l = true -> forallb f (filter g l) = true.
  Proof. rewrite !forallb_forall. intros F x Hx. apply filter_In in Hx as [Hx _]. now apply F. Qed.
  Lemma filter_all w l : forallb w l = true -> filter w l = l.
  Proof. induction l as [|a l IH]; [reflexivity|]. cbn. destruct (w a); [|discriminate]. intros F. now rewrite IH. Qed.
  Lemma filter_nothing w l : forallb (fun a => negb (w a)) l = true -> filter w l = [].
  Proof. induction l as [|a l IH]; [reflexivity|]. cbn. destruct (w a); [discriminate|]. exact IH. Qed.
  (* a segment gives one polygon at most, also after dropping rows *)
  Lemma segment_one w g l : (exists a m b, l = a ++ m ++ b /\ forallb (fun a => negb (w a)) a = true /\ forallb w m = true /\ forallb (fun a => negb (w a)) b = true) ->
    filter w (filter g l) <> [] -> stretches w (filter g l) = [filter w (filter g l)].
  Proof.
    intros (a & m & b & -> & Ha & Hm & Hb) Ne. rewrite !filter_app in *.
    rewrite (filter_nothing w (filter g a)) in * by (apply forallb_filter, Ha). rewrite (filter_nothing w (filter g b)) in * by (apply forallb_filter, Hb).
    rewrite (filter_all w (filter g m)) in * by (apply forallb_filter, Hm). cbn [app] in *. rewrite app_nil_r in *.
    apply stretches_segment; auto using forallb_filter.
  Qed.
  Lemma stretches_ext w w' l : (forall a, In a l -> w a = w' a) -> stretches w l = stretches w' l.
  Proof.
    induction l as [|a l IH]; intros E; [reflexivity|]. cbn [stretches]. rewrite (E a) by now left. rewrite IH by (intros b Hb; apply E; now right).
    destruct (w' a); [|reflexivity]. destruct l as [|b l]; [reflexivity|]. now rewrite (E b) by (right; now left).
  Qed.
End Stretches.

Section BandProofs.
  Context {T : Type} `{NumOps T}.
  Implicit Types (l : list (prow T)) (r : prow T).
  (* a row of the forecast shown in a cell *)
  Definition in_cell (subplots : bool) (src : string) (r : prow T) : bool := (negb subplots || String.eqb (p_src r) src) && negb (p_actual r).
  Definition not_weight (r : prow T) : bool := negb (String.eqb (p_model r) "weight").
  Lemma own_in_cell subplots src r : own_row subplots src r && negb (p_actual r) = in_cell subplots src r.
  Proof. unfold own_row, in_cell. now destruct subplots. Qed.
  Lemma has_column_iff q l : has_column q l = true <-> exists r v, In r l /\ In (q, v) (p_q r).
  Proof.
    unfold has_column, columns_of. rewrite existsb_exists. split.
    - intros (x & Hx & E). apply Z.eqb_eq in E. subst x. rewrite (dedup_in Z.eqb Z.eqb_eq) in Hx. apply in_flat_map in Hx as (r & Hr & Hq).
      apply in_map_iff in Hq as ((q' & v) & E & Hq). cbn in E. subst q'. now exists r, v.
    - intros (r & v & Hr & Hq). exists q. split; [|apply Z.eqb_refl]. rewrite (dedup_in Z.eqb Z.eqb_eq). apply in_flat_map. exists r. split; [exact Hr|].
      apply in_map_iff. now exists (q, v).
  Qed.
  Lemma entry_in q r : (exists v, In (q, v) (p_q r)) -> In (q, entry q r) (p_q r).
  Proof.
    intros (v & Hv). unfold entry. destruct (find _ (p_q r)) as [(q' & v')|] eqn:F.
    - pose proof (find_some _ _ F) as (I & E). cbn in E. apply Z.eqb_eq in E. now subst q'.
    - pose proof (find_none _ _ F _ Hv) as E. cbn in E. now rewrite Z.eqb_refl in E.
  Qed.
  Lemma entry_absent q r : (forall v, ~ In (q, v) (p_q r)) -> entry q r = nnan.
  Proof.
    intros A. unfold entry. destruct (find _ (p_q r)) as [(q' & v')|] eqn:F; [|reflexivity].
    pose proof (find_some _ _ F) as (I & E). cbn in E. apply Z.eqb_eq in E. subst q'. now apply A in I.
  Qed.

  (* what is shaded in a cell of a png *)
  Definition shaded (subplots : bool) (src : string) (lo hi : Z) (r : prow T) : bool :=
    in_cell subplots src r && not_weight r && negb (nisnan (entry lo r)) && negb (nisnan (entry hi r)).
  Lemma filter_filter' {A} (f g : A -> bool) (l : list A) : filter f (filter g l) = filter (fun a => f a && g a) l.
  Proof. induction l as [|a l IH]; [reflexivity|]. cbn. destruct (g a); cbn; [|now rewrite andb_false_r]. rewrite andb_true_r. destruct (f a); now rewrite IH. Qed.
  Lemma fill_shaded subplots src lo hi l :
    filter (to_fill subplots src lo hi) (filter not_weight l) = filter (shaded subplots src lo hi) l.
  Proof.
    rewrite filter_filter'. apply filter_ext. intros r. unfold to_fill, shaded. rewrite own_in_cell.
    destruct (in_cell subplots src r), (not_weight r), (nisnan (entry lo r)), (nisnan (entry hi r)); reflexivity.
  Qed.
  Theorem png_bands interval subplots src l band : In band (mpl_bands interval subplots src l) ->
    exists lo hi, In (lo, hi) [(5, 95); (20, 80)]%Z /\ interval = true /\ has_column lo l = true /\ has_column hi l = true /\
      concat band = map (corner lo hi) (filter (shaded subplots src lo hi) l) /\ Forall (fun poly => poly <> []) band.
  Proof.
    unfold mpl_bands. fold not_weight. intros Hb. apply in_flat_map in Hb as ((lo & hi) & Hp & Hb). exists lo, hi. split; [exact Hp|].
    destruct interval; [|destruct Hb]. destruct (has_column lo l) eqn:El; [|destruct Hb]. destruct (has_column hi l) eqn:Eh; [|destruct Hb].
    cbn [andb] in Hb. destruct Hb as [<-|[]]. repeat split.
    - rewrite <- fill_shaded, <- (stretches_concat (to_fill subplots src lo hi)). symmetry. apply concat_map.
    - apply Forall_forall. intros poly Hp'. apply in_map_iff in Hp' as (s & <- & Hs). apply stretches_nonempty in Hs as [Hs _]. destruct s; [congruence|discriminate].
  Qed.
  Theorem png_band_count subplots src l : length (mpl_bands true subplots src l) =
    ((if has_column 5 l && has_column 95 l then 1 else 0) + (if has_column 20 l && has_column 80 l then 1 else 0))%nat.
  Proof. unfold mpl_bands. cbn [flat_map andb]. rewrite app_nil_r, app_length. now destruct (has_column 5 l && has_column 95 l), (has_column 20 l && has_column 80 l). Qed.
  Theorem html_bands interval subplots q1 q2 src l band : In band (plotly_bands interval subplots q1 q2 src l) <->
    exists q, (q = q1 \/ q = q2) /\ interval = true /\ has_column q l = true /\ has_column (100 - q) l = true /\
      band = (map (fun r => (p_date r, entry q r)) (filter (in_cell subplots src) l), map (fun r => (p_date r, entry (100 - q) r)) (filter (in_cell subplots src) l)).
  Proof.
    unfold plotly_bands. rewrite (filter_ext _ _ (own_in_cell subplots src)). rewrite in_flat_map. split.
    - intros (q & Hq & Hb). exists q. split; [cbn in Hq; intuition auto|].
      destruct interval; [|destruct Hb]. destruct (has_column q l); [|destruct Hb]. destruct (has_column (100 - q) l); [|destruct Hb]. destruct Hb as [<-|[]]. now repeat split.
    - intros (q & Hq & -> & E1 & E2 & ->). exists q. split; [cbn; intuition auto|]. rewrite E1, E2. now left.
  Qed.
  Theorem no_bands interval subplots q1 q2 src l : interval = false \/ (forall r, In r l -> p_q r = []) ->
    mpl_bands interval subplots src l = [] /\ plotly_bands interval subplots q1 q2 src l = [].
  Proof.
    intros K. assert (forall q, interval && has_column q l = false) as E.
    { intros q. destruct K as [->|K]; [reflexivity|]. destruct (has_column q l) eqn:Hc; [|now rewrite andb_false_r].
      apply has_column_iff in Hc as (r & v & Hr & Hv). rewrite (K r Hr) in Hv. destruct Hv. }
    unfold mpl_bands, plotly_bands. cbn [flat_map]. now rewrite !E.
  Qed.

  (* ---------- tables of get_pi ---------- *)
  (* one panel per series if there are several *)
  Definition several (t : ptable T) : bool := pt_src t && Nat.ltb 1 (length (pi_sources t)).
  Definition segment (w : prow T -> bool) (l : list (prow T)) : Prop :=
    exists a m b, l = a ++ m ++ b /\ forallb (fun r => negb (w r)) a = true /\ forallb w m = true /\ forallb (fun r => negb (w r)) b = true.
  Theorem forecast_segment draw s n_cum q1 q2 wd t out src : get_pi draw s n_cum q1 q2 wd t = Ok out ->
    segment (in_cell (several t) src) out.
  Proof.
    intros E. destruct (several t) eqn:S.
    - apply andb_prop in S as [Hs L]. apply Nat.ltb_lt in L. destruct (get_pi_several _ _ _ _ _ _ _ _ Hs L E) as (k & parts & _ & _ & _ & Sd).
      apply (sorted_segment prow_le); [exact Sd|]. intros x y z Rxy Ryz Wx Wz. unfold in_cell in *. cbn [negb orb] in *.
      apply andb_prop in Wx as [Sx Ax]. apply andb_prop in Wz as [Sz Az]. apply String.eqb_eq in Sx, Sz. apply negb_true_iff in Ax, Az. unfold prow_le in *.
      destruct Rxy as [K|(E1 & K1)].
      { exfalso. destruct Ryz as [K'|(E2 & _)].
        - pose proof (str_lt_trans _ _ _ K K') as K2. rewrite Sx, Sz, str_compare_refl in K2. discriminate.
        - rewrite E2, Sx, Sz, str_compare_refl in K. discriminate. }
      destruct Ryz as [K'|(E2 & K2)]. { exfalso. rewrite <- E1, Sx, Sz, str_compare_refl in K'. discriminate. }
      rewrite <- E1, Sx, String.eqb_refl. cbn [andb]. destruct K2 as [(_ & K2)|(K2 & _)]; [congruence|]. now rewrite K2, Az.
    - assert (exists n u, pi_single u s n q1 q2 t = Ok out) as (n & u & E').
      { unfold get_pi in E. destruct (match n_cum with Some n => Ok n | None => days_from_freq wd end) as [k|]; [|discriminate]. cbn [rbind] in E.
        unfold several, pi_sources in S. rewrite S in E. eauto. }
      destruct (pi_single_rows _ _ _ _ _ _ _ E') as (step & _ & [(_ & _ & ->)|(last & _ & _ & _ & Eo)]).
      + exists (map actual_row (shown_actuals t)), [], []. split; [now rewrite !app_nil_r|]. split; [|split; reflexivity].
        apply forallb_forall. intros r Hr. apply in_map_iff in Hr as (d & <- & _). reflexivity.
      + cbv zeta in Eo. subst out. eexists _, _, []. rewrite app_nil_r. split; [reflexivity|]. split; [|split; [|reflexivity]]; apply forallb_forall; intros r Hr.
        * apply in_map_iff in Hr as (d & <- & _). reflexivity.
        * apply in_app_iff in Hr as [Hr|Hr]; apply in_map_iff in Hr as ((i & d) & <- & _); reflexivity.
  Qed.
End BandProofs.

(* over the reals *)
Lemma entries_ordered draw s n_cum q1 q2 wd (t : ptable XR) out r : finite_table t -> (1 <= s)%nat -> (q1 <= q2 <= 50)%Z ->
  get_pi draw s n_cum q1 q2 wd t = Ok out -> In r out -> p_actual r = false -> nisnan (p_y r) = false ->
  exists a b c d, entry q1 r = Fin a /\ entry q2 r = Fin b /\ entry (100 - q2) r = Fin c /\ entry (100 - q1) r = Fin d /\ (a <= b <= c)%R /\ (c <= d)%R /\
    (forall q, (q = q1 \/ q = 100 - q1 \/ q = q2 \/ q = 100 - q2)%Z -> exists v, In (q, v) (p_q r)).
Proof.
  intros F Hs Q E Hr A Ny. destruct (get_pi_ordered _ _ _ _ _ _ _ _ F Hs E r Hr) as [O B].
  unfold bounds_for in B. rewrite A in B.
  assert (G : forall q, (q = q1 \/ q = 100 - q1 \/ q = q2 \/ q = 100 - q2)%Z -> exists v, In (q, v) (p_q r)).
  { intros q Hq. apply B in Hq. apply in_map_iff in Hq as ([q' v] & <- & Hv). now exists v. }
  pose proof (entry_in q1 r (G q1 ltac:(auto))) as Ia. pose proof (entry_in q2 r (G q2 ltac:(auto))) as Ib.
  pose proof (entry_in (100 - q2) r (G (100 - q2)%Z ltac:(auto))) as Ic. pose proof (entry_in (100 - q1) r (G (100 - q1)%Z ltac:(auto))) as Id.
  pose proof (O _ _ _ _ Ia Ib ltac:(lia)) as Oab. pose proof (O _ _ _ _ Ib Ic ltac:(lia)) as Obc. pose proof (O _ _ _ _ Ic Id ltac:(lia)) as Ocd.
  rewrite Ny in Oab, Obc, Ocd. destruct Oab as (a & b & Ea & Eb & Lab), Obc as (b' & c & Eb' & Ec & Lbc), Ocd as (c' & d & Ec' & Ed & Lcd).
  exists a, b, c, d. repeat split; auto; try congruence; replace b' with b in * by congruence; replace c' with c in * by congruence; lra.
Qed.
Definition nested (q1 q2 : Z) (r : prow XR) : Prop :=
  exists a b c d, entry q1 r = Fin a /\ entry q2 r = Fin b /\ entry (100 - q2) r = Fin c /\ entry (100 - q1) r = Fin d /\ (a <= b <= c)%R /\ (c <= d)%R.
Lemma cell_nested draw s n_cum q1 q2 wd (t : ptable XR) out w : finite_table t -> (1 <= s)%nat -> (q1 <= q2 <= 50)%Z ->
  get_pi draw s n_cum q1 q2 wd t = Ok out -> (forall r, w r = true -> p_actual r = false) ->
  (forall r, In r (filter w out) -> nisnan (p_y r) = false) -> filter w out <> [] ->
  Forall (nested q1 q2) (filter w out) /\ forall q, (q = q1 \/ q = 100 - q1 \/ q = q2 \/ q = 100 - q2)%Z -> has_column q out = true.
Proof.
  intros F Hs Q E W Ny Ne.
  assert (K : forall r, In r (filter w out) -> nested q1 q2 r /\ forall q, (q = q1 \/ q = 100 - q1 \/ q = q2 \/ q = 100 - q2)%Z -> exists v, In (q, v) (p_q r)).
  { intros r Hr. pose proof (Ny r Hr) as Nr. apply filter_In in Hr as [Hr Wr].
    destruct (entries_ordered _ _ _ _ _ _ _ _ r F Hs Q E Hr (W r Wr) Nr) as (a & b & c & d & E1 & E2 & E3 & E4 & L1 & L2 & G). split; [now exists a, b, c, d|exact G]. }
  split; [apply Forall_forall; intros r Hr; now apply K|]. intros q Hq. apply has_column_iff. destruct (filter w out) as [|r rs] eqn:Ef; [congruence|].
  destruct (K r (or_introl eq_refl)) as (_ & G). destruct (G q Hq) as (v & Hv). exists r, v. split; [|exact Hv].
  assert (In r (filter w out)) as I by (rewrite Ef; now left). now apply filter_In in I.
Qed.
Lemma percent_5_20 : (5 <= 20 <= 50)%Z.
Proof. lia. Qed.
Lemma cell_forecast (w : prow XR -> bool) b src r : (in_cell b src r && w r = true -> p_actual r = false) /\ (in_cell b src r = true -> p_actual r = false).
Proof. unfold in_cell. destruct (p_actual r); rewrite ?andb_false_r; cbn; split; congruence. Qed.
Theorem png_intervals draw s n_cum wd (t : ptable XR) out src : finite_table t -> (1 <= s)%nat -> get_pi draw s n_cum 5 20 wd t = Ok out ->
  let rs := filter (fun r => in_cell (several t) src r && not_weight r) out in
  (forall r, In r rs -> nisnan (p_y r) = false) -> rs <> [] ->
  mpl_bands true (several t) src out = [[map (corner 5 95) rs]; [map (corner 20 80) rs]] /\ Forall (nested 5 20) rs.
Proof.
  intros F Hs E rs Ny Ne. destruct (cell_nested _ _ _ _ _ _ _ _ _ F Hs percent_5_20 E (fun r => proj1 (cell_forecast _ _ _ r)) Ny Ne) as [Nn Hc]. split; [|exact Nn].
  unfold mpl_bands. cbn [flat_map]. rewrite !Hc by lia. cbn [andb app]. fold (not_weight (T := XR)).
  assert (K : forall lo hi, (forall r, In r rs -> nisnan (entry lo r) = false /\ nisnan (entry hi r) = false) ->
            map (map (corner lo hi)) (stretches (to_fill (several t) src lo hi) (filter not_weight out)) = [map (corner lo hi) rs]).
  { intros lo hi B. rewrite (stretches_ext _ (in_cell (several t) src)).
    2: { intros r Hr. unfold to_fill. rewrite own_in_cell. destruct (in_cell (several t) src r) eqn:C; [|reflexivity]. apply filter_In in Hr as [Hr Nw].
         destruct (B r) as [-> ->]; [|reflexivity]. apply filter_In. split; [exact Hr|]. now rewrite C, Nw. }
    rewrite segment_one; [now rewrite filter_filter'| |now rewrite filter_filter'].
    exact (forecast_segment _ _ _ _ _ _ _ _ src E). }
  rewrite Forall_forall in Nn. rewrite !K; [reflexivity| |]; intros r Hr; destruct (Nn r Hr) as (a & b & c & d & E1 & E2 & E3 & E4 & _).
  - change (100 - 20)%Z with 80%Z in E3. now rewrite E2, E3.
  - change (100 - 5)%Z with 95%Z in E4. now rewrite E1, E4.
Qed.
Theorem html_intervals draw s n_cum q1 q2 wd (t : ptable XR) out src : finite_table t -> (1 <= s)%nat -> (q1 <= q2 <= 50)%Z -> get_pi draw s n_cum q1 q2 wd t = Ok out ->
  let rs := filter (in_cell (several t) src) out in
  (forall r, In r rs -> nisnan (p_y r) = false) -> rs <> [] ->
  plotly_bands true (several t) q1 q2 src out =
    map (fun q => (map (fun r => (p_date r, entry q r)) rs, map (fun r => (p_date r, entry (100 - q) r)) rs)) [q1; q2] /\ Forall (nested q1 q2) rs.
Proof.
  intros F Hs Q E rs Ny Ne. destruct (cell_nested _ _ _ _ _ _ _ _ _ F Hs Q E (fun r => proj2 (cell_forecast (fun _ => true) _ _ r)) Ny Ne) as [Nn Hc]. split; [|exact Nn].
  unfold plotly_bands. rewrite (filter_ext _ _ (own_in_cell (several t) src)). fold rs. cbn [flat_map]. rewrite !Hc by lia. reflexivity.
Qed.
