(* Proofs about gap filling (C31). *)
From Coq Require Import ZArith String List Bool Lia Reals Lra Sorted.
From Verif Require Import Num Py Cal Model Freq Normalize Fit Interp ListProofs NumProofs GridProofs FreqProofs.
Import ListNotations.
Local Open Scope string_scope.
Local Open Scope list_scope.

Section I.
  Context {T : Type} `{NumOps T}.

  (* ---------- interpolation of one column ---------- *)
  Definition valid (l : list T) (j : nat) (v : T) : Prop := nth_error l j = Some v /\ nisnan v = false.
  Definition null_at (l : list T) (j : nat) : Prop := exists v, nth_error l j = Some v /\ nisnan v = true.

  Lemma interp_length prev l : forall i, length (interp_from prev i l) = length l.
  Proof. revert prev. induction l as [|a l IH]; intros prev i; [reflexivity|]. cbn. destruct (nisnan a); cbn; now rewrite IH. Qed.
  Lemma next_valid_some l : forall i k v, next_valid i l = Some (k, v) ->
    exists d, k = (i + d)%nat /\ valid l d v /\ forall e, (e < d)%nat -> null_at l e.
  Proof.
    induction l as [|a l IH]; intros i k v E; [discriminate|]. cbn in E. destruct (nisnan a) eqn:Ea.
    - destruct (IH _ _ _ E) as (d & -> & V & N). exists (S d). split; [lia|]. split; [exact V|].
      intros [|e] He; [exists a; auto|apply N; lia].
    - injection E as <- <-. exists 0%nat. split; [lia|]. split; [split; [reflexivity|exact Ea]|intros e He; lia].
  Qed.
  Lemma next_valid_of l : forall i d v, valid l d v -> (forall e, (e < d)%nat -> null_at l e) ->
    next_valid i l = Some ((i + d)%nat, v).
  Proof.
    induction l as [|a l IH]; intros i d v [E V] N; [destruct d; discriminate|]. cbn. destruct d as [|d].
    - cbn in E. injection E as ->. rewrite V. now rewrite Nat.add_0_r.
    - destruct (N 0%nat ltac:(lia)) as (a' & E' & Na). cbn in E'. injection E' as <-. rewrite Na.
      rewrite (IH (S i) d v); [f_equal; f_equal; lia|now split|]. intros e He. apply (N (S e)). lia.
  Qed.
  Lemma next_valid_none l : forall i, (forall e, (e < length l)%nat -> null_at l e) -> next_valid i l = None.
  Proof.
    induction l as [|a l IH]; intros i N; [reflexivity|]. cbn.
    destruct (N 0%nat ltac:(cbn; lia)) as (a' & E' & Na). cbn in E'. injection E' as <-. rewrite Na.
    apply IH. intros e He. apply (N (S e)). cbn. lia.
  Qed.
  Lemma interp_keeps_from l : forall prev i j v, valid l j v -> nth_error (interp_from prev i l) j = Some v.
  Proof.
    induction l as [|a l IH]; intros prev i j v [E V]; [destruct j; discriminate|]. cbn. destruct j as [|j].
    - cbn in E. injection E as ->. now rewrite V.
    - destruct (nisnan a); cbn; apply IH; now split.
  Qed.
  Lemma interp_lead_from l : forall i j, (forall e, (e <= j)%nat -> null_at l e) ->
    nth_error (interp_from None i l) j = Some nnan.
  Proof.
    induction l as [|a l IH]; intros i j N.
    - destruct (N 0%nat ltac:(lia)) as (v & E & _). discriminate.
    - cbn. destruct (N 0%nat ltac:(lia)) as (a' & E' & Na). cbn in E'. injection E' as <-. rewrite Na.
      destruct j as [|j]; [reflexivity|]. cbn. apply IH. intros e He. apply (N (S e)). lia.
  Qed.
  (* what is put at a null position after a value *)
  Definition filler (p : nat * T) (q : option (nat * T)) (i : nat) : T :=
    match q with None => snd p | Some q => between p q i end.
  Lemma interp_prev l : forall p i j, (forall e, (e <= j)%nat -> null_at l e) ->
    nth_error (interp_from (Some p) i l) j = Some (filler p (next_valid (S (i + j)) (skipn (S j) l)) (i + j)).
  Proof.
    induction l as [|a l IH]; intros p i j N.
    - destruct (N 0%nat ltac:(lia)) as (v & E & _). discriminate.
    - cbn [interp_from]. destruct (N 0%nat ltac:(lia)) as (a' & E' & Na). cbn in E'. injection E' as <-. rewrite Na.
      destruct j as [|j]; cbn [nth_error skipn].
      + rewrite Nat.add_0_r. reflexivity.
      + rewrite (IH p (S i) j); [|intros e He; apply (N (S e)); lia]. f_equal.
        replace (S i + j)%nat with (i + S j)%nat by lia. reflexivity.
  Qed.
  Lemma interp_after l : forall prev i j d v, valid l j v -> (forall e, (j < e <= j + S d)%nat -> null_at l e) ->
    nth_error (interp_from prev i l) (j + S d) =
    Some (filler ((i + j)%nat, v) (next_valid (S (i + j + S d)) (skipn (S (j + S d)) l)) (i + j + S d)).
  Proof.
    induction l as [|a l IH]; intros prev i j d v [E V] N; [destruct j; discriminate|]. destruct j as [|j].
    - cbn in E. injection E as ->. cbn [interp_from]. rewrite V. cbn [Nat.add nth_error]. rewrite interp_prev.
      + replace (S i + d)%nat with (i + 0 + S d)%nat by lia. rewrite Nat.add_0_r. reflexivity.
      + intros e He. apply (N (S e)). lia.
    - cbn [interp_from]. assert (R : forall prev', nth_error (interp_from prev' (S i) l) (j + S d) =
        Some (filler ((i + S j)%nat, v) (next_valid (S (i + S j + S d)) (skipn (S (j + S d)) l)) (i + S j + S d))).
      { intros prev'. rewrite (IH prev' (S i) j d v); [|now split|intros e He; apply (N (S e)); lia].
        replace (S i + j)%nat with (i + S j)%nat by lia. reflexivity. }
      destruct (nisnan a); cbn [Nat.add nth_error skipn]; apply R.
  Qed.

  Lemma skipn_nth {A} (l : list A) : forall n e, nth_error (skipn n l) e = nth_error l (n + e).
  Proof. induction l as [|a l IH]; intros [|n] e; try reflexivity; [destruct e; reflexivity|]. cbn. apply IH. Qed.
  Lemma interp_keeps l j v : valid l j v -> nth_error (interp l) j = Some v.
  Proof. apply interp_keeps_from. Qed.
  Lemma interp_leading l j : (forall e, (e <= j)%nat -> null_at l e) -> nth_error (interp l) j = Some nnan.
  Proof. apply interp_lead_from. Qed.
  Lemma interp_between l j i k a b : (j < i < k)%nat -> valid l j a -> valid l k b ->
    (forall e, (j < e < k)%nat -> null_at l e) -> nth_error (interp l) i = Some (between (j, a) (k, b) i).
  Proof.
    intros L Va [Eb Vb] N. unfold interp. replace i with (j + S (i - j - 1))%nat at 1 by lia.
    rewrite (interp_after l None 0 j (i - j - 1) a Va); [|intros e He; apply N; lia]. f_equal.
    replace (0 + j + S (i - j - 1))%nat with i by lia. replace (j + S (i - j - 1))%nat with i by lia.
    rewrite (next_valid_of (skipn (S i) l) (S i) (k - S i) b).
    - cbn [filler]. replace (S i + (k - S i))%nat with k by lia. reflexivity.
    - split; [|exact Vb]. rewrite skipn_nth. replace (S i + (k - S i))%nat with k by lia. exact Eb.
    - intros e He. destruct (N (S i + e)%nat ltac:(lia)) as (v & E & Nv). exists v. split; [|exact Nv]. now rewrite skipn_nth.
  Qed.
  Lemma interp_trailing l j i a : (j < i < length l)%nat -> valid l j a ->
    (forall e, (j < e < length l)%nat -> null_at l e) -> nth_error (interp l) i = Some a.
  Proof.
    intros L Va N. unfold interp. replace i with (j + S (i - j - 1))%nat at 1 by lia.
    rewrite (interp_after l None 0 j (i - j - 1) a Va); [|intros e He; apply N; lia]. f_equal.
    rewrite next_valid_none; [reflexivity|]. intros e He.
    rewrite skipn_length in He. destruct (N (S (j + S (i - j - 1)) + e)%nat ltac:(lia)) as (v & E & Nv). exists v. split; [|exact Nv]. now rewrite skipn_nth.
  Qed.

  (* ---------- building rows ---------- *)
  Lemma mk_rows_cons d ds s ss x xs y ys w ws :
    @mk_rows T (d :: ds) (s :: ss) (x :: xs) (y :: ys) (w :: ws) = mkRow d s x y w :: mk_rows ds ss xs ys ws.
  Proof. reflexivity. Qed.
  Lemma mk_rows_nth ds ss xs ys ws : forall i d s x y w,
    nth_error ds i = Some d -> nth_error ss i = Some s -> nth_error xs i = Some x -> nth_error ys i = Some y ->
    nth_error ws i = Some w -> nth_error (@mk_rows T ds ss xs ys ws) i = Some (mkRow d s x y w).
  Proof.
    revert ss xs ys ws. induction ds as [|d0 ds IH]; intros [|s0 ss] [|x0 xs] [|y0 ys] [|w0 ws] [|i] d s x y w E1 E2 E3 E4 E5; try discriminate.
    - cbn in *. congruence.
    - rewrite mk_rows_cons. cbn [nth_error] in *. now apply IH.
  Qed.
  Lemma mk_rows_proj n ds ss xs ys ws : length ds = n -> length ss = n -> length xs = n -> length ys = n -> length ws = n ->
    map r_date (@mk_rows T ds ss xs ys ws) = ds /\ map r_x (mk_rows ds ss xs ys ws) = xs /\ map r_y (mk_rows ds ss xs ys ws) = ys.
  Proof.
    revert ds ss xs ys ws. induction n as [|n IH]; intros [|d ds] [|s ss] [|x xs] [|y ys] [|w ws] L1 L2 L3 L4 L5; try discriminate; [auto|].
    rewrite mk_rows_cons. cbn [map r_date r_x r_y]. cbn in *.
    destruct (IH ds ss xs ys ws) as (-> & -> & ->); try lia. auto.
  Qed.
  Lemma mk_rows_length n ds ss xs ys ws : length ds = n -> length ss = n -> length xs = n -> length ys = n -> length ws = n ->
    length (@mk_rows T ds ss xs ys ws) = n.
  Proof. intros L1 L2 L3 L4 L5. unfold mk_rows. rewrite map_length, !combine_length. lia. Qed.

  (* ---------- specification of the cases ---------- *)
  (* positions used for the gaps *)
  Definition pos (f : frame T) (r : row T) : Z := if has_date f then r_date r else r_x r.
  (* consecutive distinct positions are equally far apart *)
  Definition equally_spaced (l : list Z) : Prop := forall a b, In a (zdiff (zuniq l)) -> In b (zdiff (zuniq l)) -> a = b.
  Lemma regular_iff l : regular l = true <-> equally_spaced l.
  Proof.
    unfold regular, nunique_le1, equally_spaced. set (d := zdiff (zuniq l)). unfold zuniq.
    assert (I := fun z => dedup_in Z.eqb Z.eqb_eq d z). pose proof (dedup_nodup Z.eqb Z.eqb_eq d) as N.
    rewrite Nat.leb_le. split.
    - intros L a b Ha Hb. apply I in Ha, Hb. destruct (dedup Z.eqb d) as [|u [|v t]]; cbn in *; [tauto| |lia]. intuition congruence.
    - intros S. destruct (dedup Z.eqb d) as [|u [|v t]]; cbn; try lia. exfalso.
      assert (u = v). { apply S; apply I; cbn; auto. }
      subst. inversion N as [|? ? C]. apply C. now left.
  Qed.
  Definition sparse_days (f : frame T) : Prop :=
    detect_freq (map r_date (rows f)) = Some "D" /\
    exists a b l, zuniq (map r_date (rows f)) = a :: b :: l /\ (DAY < b - a)%Z.
  (* no gap filling needed *)
  Definition complete (f : frame T) : Prop :=
    equally_spaced (map (pos f) (rows f)) /\ (has_date f = true -> ~ sparse_days f).

  Lemma sparse_iff f : (match detect_freq (map r_date (rows f)), zdiff (zuniq (map r_date (rows f))) with
                    | Some fr, d :: _ => String.eqb fr "D" && (DAY <? d)%Z | _, _ => false end) = true <-> sparse_days f.
  Proof.
    unfold sparse_days. destruct (detect_freq (map r_date (rows f))) as [s|].
    - destruct (zuniq (map r_date (rows f))) as [|a [|b l]] eqn:E; cbn [zdiff].
      + split; [discriminate|]. intros (_ & a & b & l & C & _). discriminate.
      + split; [discriminate|]. intros (_ & a' & b & l & C & _). discriminate.
      + rewrite andb_true_iff, Z.ltb_lt, String.eqb_eq. split.
        * intros [-> L]. split; [reflexivity|]. eauto.
        * intros ([= ->] & a' & b' & l' & [= <- <- <-] & L). auto.
    - split; [discriminate|]. intros (C & _). discriminate.
  Qed.
  Lemma pos_num f : has_date f = false -> map (pos f) (rows f) = map r_x (rows f).
  Proof. intros E. apply map_ext. intros r. unfold pos. now rewrite E. Qed.
  Lemma pos_date f : has_date f = true -> map (pos f) (rows f) = map r_date (rows f).
  Proof. intros E. apply map_ext. intros r. unfold pos. now rewrite E. Qed.

  Lemma interp_complete iy f : complete f -> interpolate_df iy f = Ok f.
  Proof.
    intros [S D]. unfold interpolate_df. destruct (has_date f) eqn:E; cbn [negb].
    - rewrite pos_date in S by exact E. apply regular_iff in S. rewrite S.
      match goal with |- context [negb ?b] => replace b with false; [reflexivity|] end.
      symmetry. apply not_true_iff_false. rewrite sparse_iff. now apply D.
    - rewrite pos_num in S by exact E. apply regular_iff in S. now rewrite S.
  Qed.
  Lemma not_complete f : ~ complete f -> forall A (a b : A),
    (if has_date f then (if regular (map r_date (rows f)) && negb
       (match detect_freq (map r_date (rows f)), zdiff (zuniq (map r_date (rows f))) with
                    | Some fr, d :: _ => String.eqb fr "D" && (DAY <? d)%Z | _, _ => false end) then a else b)
     else if regular (map r_x (rows f)) then a else b) = b.
  Proof.
    intros N A a b. destruct (has_date f) eqn:E.
    - destruct (regular (map r_date (rows f)) && _) eqn:K; [|reflexivity]. exfalso. apply N. apply andb_true_iff in K as [R S]. split.
      + rewrite pos_date by exact E. now apply regular_iff.
      + intros _ C. apply sparse_iff in C. rewrite C in S. discriminate.
    - destruct (regular (map r_x (rows f))) eqn:K; [|reflexivity]. exfalso. apply N. split.
      + rewrite pos_num by exact E. now apply regular_iff.
      + congruence.
  Qed.
  Lemma interp_duplicates iy f : ~ complete f -> ~ NoDup (map (pos f) (rows f)) -> interpolate_df iy f = Err ValueError.
  Proof.
    intros N D. unfold interpolate_df. pose proof (not_complete f N) as K. destruct (has_date f) eqn:E; cbn [negb].
    - rewrite pos_date in D by exact E. specialize (K (res (frame T)) (Ok f)). rewrite K.
      assert (has_dup Z.eqb (map r_date (rows f)) = true) as ->; [|reflexivity].
      apply not_false_iff_true. intros C. apply D. now apply (has_dup_iff Z.eqb Z.eqb_eq).
    - rewrite pos_num in D by exact E. specialize (K (res (frame T)) (Ok f)). rewrite K.
      assert (has_dup Z.eqb (map r_x (rows f)) = true) as ->; [|reflexivity].
      apply not_false_iff_true. intros C. apply D. now apply (has_dup_iff Z.eqb Z.eqb_eq).
  Qed.

  (* ---------- rows of the filled table ---------- *)
  Lemma zmin_zmax (l : list Z) : l <> [] -> exists lo hi, zmin_opt l = Some lo /\ zmax_opt l = Some hi /\
    In lo l /\ In hi l /\ (forall z, In z l -> lo <= z <= hi)%Z.
  Proof.
    intros Hn. destruct (zmin_opt l) as [lo|] eqn:E1; [|destruct l; [congruence|discriminate]].
    destruct (zmax_opt l) as [hi|] eqn:E2; [|destruct l; [congruence|discriminate]].
    exists lo, hi. apply zmin_opt_iff in E1 as [I1 B1]. apply zmax_opt_iff in E2 as [I2 B2]. repeat split; auto.
  Qed.
  Lemma lookup_in (key : row T -> Z) rs r : NoDup (map key rs) -> In r rs -> lookup key rs (key r) = Some r.
  Proof.
    intros N I. unfold lookup. induction rs as [|a rs IH]; [destruct I|]. cbn in N. inversion N as [|? ? Na N']; subst. cbn.
    destruct (Z.eqb_spec (key a) (key r)) as [E|E].
    - destruct I as [->|I]; [reflexivity|]. exfalso. apply Na. rewrite E. now apply in_map.
    - destruct I as [->|I]; [congruence|]. now apply IH.
  Qed.
  Lemma lookup_some (key : row T -> Z) rs t r : lookup key rs t = Some r -> In r rs /\ key r = t.
  Proof. intros E. apply find_some in E as [I K]. apply Z.eqb_eq in K. auto. Qed.
  Lemma lookup_none (key : row T -> Z) rs t : lookup key rs t = None -> ~ In t (map key rs).
  Proof.
    intros E C. apply in_map_iff in C as (r & <- & I). apply (find_none _ _ E) in I. now rewrite Z.eqb_refl in I.
  Qed.

  (* the table re-indexed on a grid: one row per grid point, in order; rows of the original at grid
     points are in it unchanged; the other rows are empty *)
  Definition reindexed (key : row T -> Z) (orig : list (row T)) (grid : list Z) (rs : list (row T)) : Prop :=
    map key rs = grid /\
    (forall r, In r orig -> In (key r) grid -> In r rs) /\
    (forall r, In r rs -> In r orig \/
       (~ In (key r) (map key orig) /\ r_y r = nnan /\ r_w r = nnan /\ r_src r = "")).

  Lemma nth_error_map' {A B} (g : A -> B) l i a : nth_error l i = Some a -> nth_error (map g l) i = Some (g a).
  Proof. intros E. now apply map_nth_error. Qed.

  Definition plain (rs : list (row T)) (key : row T -> Z) (grid ds xs : list Z) : list (row T) :=
    let found := map (lookup key rs) grid in
    mk_rows ds (src_column found) xs (column r_y found) (column r_w found).
  Lemma plain_reindexed rs (key : row T -> Z) grid ds xs : NoDup (map key rs) ->
    length ds = length grid -> length xs = length grid ->
    map key (plain rs key grid ds xs) = grid ->
    (forall i t r, nth_error grid i = Some t -> lookup key rs t = Some r ->
       nth_error ds i = Some (r_date r) /\ nth_error xs i = Some (r_x r)) ->
    reindexed key rs grid (plain rs key grid ds xs).
  Proof.
    intros N Ld Lx K D. split; [exact K|].
    assert (At : forall i t r, nth_error grid i = Some t -> lookup key rs t = Some r ->
                   nth_error (plain rs key grid ds xs) i = Some r).
    { intros i t r Ei Lr. destruct (D _ _ _ Ei Lr) as [Dd Dx].
      assert (nth_error (map (lookup key rs) grid) i = Some (Some r)) as Ef by (rewrite <- Lr; now apply nth_error_map').
      unfold plain. rewrite (mk_rows_nth _ _ _ _ _ i (r_date r) (r_src r) (r_x r) (r_y r) (r_w r));
        [destruct r; reflexivity|exact Dd| |exact Dx| |]; unfold src_column, column; erewrite nth_error_map' by exact Ef; reflexivity. }
    split.
    - intros r Ir Ig. apply In_nth_error in Ig as (i & Ei). apply nth_error_In with i. apply (At i (key r) r Ei). now apply lookup_in.
    - intros r Ir. apply In_nth_error in Ir as (i & Ei).
      assert (Li : (i < length grid)%nat). { rewrite <- K, map_length. apply nth_error_Some. congruence. }
      destruct (nth_error grid i) as [t|] eqn:Et; [|apply nth_error_None in Et; lia].
      assert (key r = t) as Kr. { pose proof (nth_error_map' key _ _ _ Ei) as E. rewrite K in E. congruence. }
      destruct (lookup key rs t) as [r0|] eqn:El.
      + left. pose proof (At _ _ _ Et El) as E. assert (r = r0) as -> by congruence. now apply lookup_some in El as [I _].
      + right. split; [rewrite Kr; now apply lookup_none|].
        assert (nth_error (map (lookup key rs) grid) i = Some None) as Ef by (rewrite <- El; now apply nth_error_map').
        destruct (nth_error ds i) as [d|] eqn:Ed; [|apply nth_error_None in Ed; lia].
        destruct (nth_error xs i) as [x|] eqn:Ex; [|apply nth_error_None in Ex; lia].
        unfold plain in Ei. rewrite (mk_rows_nth _ _ _ _ _ i d "" x nnan nnan) in Ei;
          [|exact Ed| |exact Ex| |]; try (unfold src_column, column; erewrite nth_error_map' by exact Ef; reflexivity).
        injection Ei as <-. auto.
  Qed.

  Lemma irregular_nonempty (f : frame T) : ~ complete f -> rows f <> [].
  Proof.
    intros N E. apply N. split.
    - rewrite E. intros a b [].
    - intros _ (_ & a & b & l & C & _). rewrite E in C. discriminate.
  Qed.

  (* a table with numbers as positions *)
  Lemma interp_numbers f : has_date f = false -> ~ complete f -> NoDup (map r_x (rows f)) ->
    exists lo hi rs, interpolate_df false f = Ok (mkFrame false (has_src f) (has_w f) rs) /\
      In lo (map r_x (rows f)) /\ In hi (map r_x (rows f)) /\
      reindexed r_x (rows f) (zrange lo hi) rs /\ (forall r, In r (rows f) -> In r rs).
  Proof.
    intros Hd N D. destruct (zmin_zmax (map r_x (rows f))) as (lo & hi & E1 & E2 & I1 & I2 & B).
    { intros C. apply map_eq_nil in C. now apply (irregular_nonempty f N). }
    exists lo, hi.
    exists (plain (rows f) r_x (zrange lo hi)
       (map (fun o => match o with Some r => r_date r | None => 0%Z end) (map (lookup r_x (rows f)) (zrange lo hi))) (zrange lo hi)).
    split.
    { unfold interpolate_df. rewrite Hd. cbn [negb]. pose proof (not_complete f N (res (frame T)) (Ok f)) as K. rewrite Hd in K. rewrite K.
      rewrite (proj2 (has_dup_iff Z.eqb Z.eqb_eq _) D), E1, E2. reflexivity. }
    split; [exact I1|]. split; [exact I2|].
    assert (R : reindexed r_x (rows f) (zrange lo hi) (plain (rows f) r_x (zrange lo hi)
       (map (fun o => match o with Some r => r_date r | None => 0%Z end) (map (lookup r_x (rows f)) (zrange lo hi))) (zrange lo hi))).
    { apply plain_reindexed; [exact D|now rewrite !map_length|reflexivity| |].
      - unfold plain. eapply (mk_rows_proj (length (zrange lo hi))); unfold src_column, column; now rewrite ?map_length.
      - intros i t r Ei Lr. split.
        + rewrite map_map. erewrite nth_error_map' by exact Ei. now rewrite Lr.
        + apply lookup_some in Lr as [_ <-]. exact Ei. }
    split; [exact R|]. intros r Ir. apply R; [exact Ir|]. apply zrange_in. apply B. now apply in_map.
  Qed.

  (* the number of days and similar integers are exact numbers *)
  Definition exact_int (z : Z) : Prop := nisnan (nofZ z : T) = false /\ ntrunc (nofZ z : T) = Some z.
  Lemma to_ints_nth l : forall zs, to_ints l = Ok zs -> length zs = length l /\
    forall i a, nth_error l i = Some a -> exists z, ntrunc a = Some z /\ nth_error zs i = Some z.
  Proof.
    unfold to_ints. induction l as [|a l IH]; intros zs E; cbn in E.
    - injection E as <-. split; [reflexivity|]. intros [|i] b C; discriminate.
    - destruct (ntrunc a) as [z|] eqn:Ea; [|discriminate]. cbn in E.
      destruct (rmapM _ l) as [zs'|] eqn:El; [|discriminate]. cbn in E. injection E as <-.
      destruct (IH zs' eq_refl) as [L P]. split; [cbn; now rewrite L|]. intros [|i] b C.
      + cbn in C. injection C as <-. exists z. auto.
      + now apply P.
  Qed.
  Lemma to_ints_ok l : (forall a, In a l -> ntrunc a <> None) -> exists zs, to_ints l = Ok zs.
  Proof.
    unfold to_ints. induction l as [|a l IH]; intros F; [now exists []|]. cbn.
    destruct (ntrunc a) as [z|] eqn:Ea; [|exfalso; exact (F a (or_introl eq_refl) Ea)].
    destruct IH as (zs & ->); [intros b Hb; apply F; now right|]. now exists (z :: zs).
  Qed.
  Lemma to_ints_none l a : In a l -> ntrunc a = None -> to_ints l = Err ValueError.
  Proof.
    unfold to_ints. induction l as [|b l IH]; intros I E; [destruct I|]. cbn. destruct I as [->|I].
    - now rewrite E.
    - destruct (ntrunc b); [|reflexivity]. cbn. now rewrite (IH I E).
  Qed.

  (* a table with dates *)
  Lemma dates_unfold iy f lo hi : has_date f = true -> ~ complete f -> NoDup (map r_date (rows f)) ->
    zmin_opt (map r_date (rows f)) = Some lo -> zmax_opt (map r_date (rows f)) = Some hi ->
    interpolate_df iy f =
      rbind (asfreq_range lo hi (detect_freq (map r_date (rows f)))) (fun grid =>
      let found := map (lookup r_date (rows f)) grid in
      rbind (to_ints (interp (column (fun r => nofZ (r_x r)) found))) (fun xs =>
      Ok (mkFrame true (has_src f) (has_w f)
            (mk_rows grid (src_column found) xs (if iy then interp (column r_y found) else column r_y found)
               (if iy then interp (column r_w found) else column r_w found))))).
  Proof.
    intros Hd N D E1 E2. unfold interpolate_df. rewrite Hd. cbn [negb].
    pose proof (not_complete f N (res (frame T)) (Ok f)) as K. rewrite Hd in K. rewrite K.
    rewrite (proj2 (has_dup_iff Z.eqb Z.eqb_eq _) D), E1, E2. reflexivity.
  Qed.
  Lemma interp_dates f f' : has_date f = true -> ~ complete f -> NoDup (map r_date (rows f)) ->
    (forall r, In r (rows f) -> exact_int (r_x r)) -> interpolate_df false f = Ok f' ->
    exists lo hi grid rs, f' = mkFrame true (has_src f) (has_w f) rs /\
      In lo (map r_date (rows f)) /\ In hi (map r_date (rows f)) /\
      (forall t, In t (map r_date (rows f)) -> lo <= t <= hi)%Z /\
      asfreq_range lo hi (detect_freq (map r_date (rows f))) = Ok grid /\
      reindexed r_date (rows f) grid rs.
  Proof.
    intros Hd N D X E. destruct (zmin_zmax (map r_date (rows f))) as (lo & hi & E1 & E2 & I1 & I2 & B).
    { intros C. apply map_eq_nil in C. now apply (irregular_nonempty f N). }
    rewrite (dates_unfold false f lo hi Hd N D E1 E2) in E.
    destruct (asfreq_range lo hi _) as [grid|] eqn:Eg; [|discriminate]. cbn [rbind] in E. cbv zeta in E.
    destruct (to_ints _) as [xs|] eqn:Ex; [|discriminate]. cbn [rbind] in E. injection E as <-.
    exists lo, hi, grid. eexists. split; [reflexivity|]. split; [exact I1|]. split; [exact I2|]. split; [exact B|]. split; [exact Eg|].
    destruct (to_ints_nth _ _ Ex) as [Lx Px].
    assert (Lx' : length xs = length grid). { rewrite Lx. unfold interp. rewrite interp_length. unfold column. now rewrite !map_length. }
    apply (plain_reindexed (rows f) r_date grid grid xs); [exact D|reflexivity|exact Lx'| |].
    - unfold plain. eapply (mk_rows_proj (length grid)); unfold src_column, column; now rewrite ?map_length.
    - intros i t r Ei Lr. pose proof (lookup_some _ _ _ _ Lr) as [Ir Kr]. split; [now rewrite Kr|].
      destruct (X r Ir) as [X1 X2].
      destruct (Px i (nofZ (r_x r))) as (z & Ez & Nz); [|congruence].
      apply interp_keeps. split; [|exact X1]. unfold column. rewrite map_map. erewrite nth_error_map' by exact Ei. now rewrite Lr.
  Qed.
  (* the x of a filled row *)
  Lemma interp_dates_x iy f f' : has_date f = true -> ~ complete f -> NoDup (map r_date (rows f)) ->
    interpolate_df iy f = Ok f' ->
    exists grid, map r_date (rows f') = grid /\
      to_ints (interp (map (fun t => match lookup r_date (rows f) t with Some r => nofZ (r_x r) | None => nnan end) grid)) = Ok (map r_x (rows f')).
  Proof.
    intros Hd N D E. destruct (zmin_zmax (map r_date (rows f))) as (lo & hi & E1 & E2 & I1 & I2 & B).
    { intros C. apply map_eq_nil in C. now apply (irregular_nonempty f N). }
    rewrite (dates_unfold iy f lo hi Hd N D E1 E2) in E.
    destruct (asfreq_range lo hi _) as [grid|] eqn:Eg; [|discriminate]. cbn [rbind] in E. cbv zeta in E.
    destruct (to_ints _) as [xs|] eqn:Ex; [|discriminate]. cbn [rbind] in E. injection E as <-. cbn [rows].
    destruct (to_ints_nth _ _ Ex) as [Lx _]. unfold interp in Lx. rewrite interp_length in Lx. unfold column in Lx. rewrite !map_length in Lx.
    destruct (mk_rows_proj (length grid) grid (src_column (map (lookup r_date (rows f)) grid)) xs
       (if iy then interp (column r_y (map (lookup r_date (rows f)) grid)) else column r_y (map (lookup r_date (rows f)) grid))
       (if iy then interp (column r_w (map (lookup r_date (rows f)) grid)) else column r_w (map (lookup r_date (rows f)) grid))) as (Q1 & Q2 & _);
      try (unfold src_column; now rewrite ?map_length); try exact Lx;
      try (destruct iy; unfold interp; rewrite ?interp_length; unfold column; now rewrite !map_length).
    exists grid. rewrite Q1, Q2. split; [reflexivity|]. rewrite <- Ex. unfold column. rewrite map_map. reflexivity.
  Qed.

  (* interpolating y: the same table with the y and weight columns interpolated *)
  Lemma mk_rows_interp n ds ss xs ys ws : length ds = n -> length ss = n -> length xs = n -> length ys = n -> length ws = n ->
    map r_src (@mk_rows T ds ss xs ys ws) = ss /\ map r_w (mk_rows ds ss xs ys ws) = ws.
  Proof.
    revert ds ss xs ys ws. induction n as [|n IH]; intros [|d ds] [|s ss] [|x xs] [|y ys] [|w ws] L1 L2 L3 L4 L5; try discriminate; [auto|].
    rewrite mk_rows_cons. cbn [map r_src r_w]. cbn in *.
    destruct (IH ds ss xs ys ws) as (-> & ->); try lia. auto.
  Qed.
  Definition y_interpolated (f0 f1 : frame T) : Prop :=
    has_date f1 = has_date f0 /\ has_src f1 = has_src f0 /\ has_w f1 = has_w f0 /\
    map r_date (rows f1) = map r_date (rows f0) /\ map r_src (rows f1) = map r_src (rows f0) /\ map r_x (rows f1) = map r_x (rows f0) /\
    map r_y (rows f1) = interp (map r_y (rows f0)) /\ map r_w (rows f1) = interp (map r_w (rows f0)).
  Lemma mk_rows_y_interpolated n hd hs hw ds ss xs ys ws : length ds = n -> length ss = n -> length xs = n -> length ys = n -> length ws = n ->
    y_interpolated (mkFrame hd hs hw (mk_rows ds ss xs ys ws)) (mkFrame hd hs hw (mk_rows ds ss xs (interp ys) (interp ws))).
  Proof.
    intros L1 L2 L3 L4 L5.
    assert (length (interp ys) = n) by (unfold interp; now rewrite interp_length).
    assert (length (interp ws) = n) by (unfold interp; now rewrite interp_length).
    unfold y_interpolated. cbn [has_date has_src has_w rows].
    destruct (mk_rows_proj n ds ss xs ys ws) as (-> & -> & ->); auto.
    destruct (mk_rows_proj n ds ss xs (interp ys) (interp ws)) as (-> & -> & ->); auto.
    destruct (mk_rows_interp n ds ss xs ys ws) as (-> & ->); auto.
    destruct (mk_rows_interp n ds ss xs (interp ys) (interp ws)) as (-> & ->); auto 10.
  Qed.
  Lemma interp_y f : ~ complete f ->
    match interpolate_df false f with
    | Ok f0 => exists f1, interpolate_df true f = Ok f1 /\ y_interpolated f0 f1
    | Err e => interpolate_df true f = Err e
    end.
  Proof.
    intros N. unfold interpolate_df. pose proof (not_complete f N (res (frame T)) (Ok f)) as K. destruct (has_date f) eqn:Hd; cbn [negb].
    - rewrite !K. destruct (has_dup _ _); [reflexivity|].
      destruct (zmin_opt _); [|reflexivity]. destruct (zmax_opt _); [|reflexivity].
      destruct (asfreq_range _ _ _) as [grid|]; [|reflexivity]. cbn [rbind].
      destruct (to_ints _) as [xs|] eqn:Ex; [|reflexivity]. cbn [rbind]. eexists. split; [reflexivity|].
      destruct (to_ints_nth _ _ Ex) as [Lx _]. unfold interp in Lx. rewrite interp_length in Lx. unfold column in Lx. rewrite !map_length in Lx.
      apply (mk_rows_y_interpolated (length grid)); try exact Lx; unfold src_column, column; now rewrite ?map_length.
    - rewrite !K. destruct (has_dup _ _); [reflexivity|].
      destruct (zmin_opt _) as [lo|]; [|reflexivity]. destruct (zmax_opt _) as [hi|]; [|reflexivity].
      eexists. split; [reflexivity|].
      apply (mk_rows_y_interpolated (length (zrange lo hi))); unfold src_column, column; now rewrite ?map_length.
  Qed.
End I.

(* ---------- real numbers ---------- *)
Lemma between_line (j i k : nat) (a b : R) : (j < i < k)%nat ->
  between (j, Fin a) (k, Fin b) i =
  Fin (a + (b - a) * (INR i - INR j) / (INR k - INR j))%R.
Proof.
  intros L. unfold between. cbn [fst snd]. rewrite !ofZ_fin.
  assert (0 < INR k - INR j)%R as P. { apply Rlt_Rminus, lt_INR. lia. }
  rewrite <- !INR_IZR_INZ, !minus_INR by lia.
  cbn [nsub ndiv nmul nadd XROps]. unfold xsub. cbn [xopp xadd xdiv].
  unfold Reqb. destruct (Req_EM_T (INR k - INR j) 0) as [E|E]; [lra|]. cbn [xmul xadd]. f_equal. field. lra.
Qed.

Definition finite (a : XR) : Prop := exists r, a = Fin r.
Lemma next_valid_idx (l : list XR) i k v : next_valid i l = Some (k, v) -> (i <= k)%nat /\ In v l.
Proof.
  intros E. destruct (next_valid_some _ _ _ _ E) as (d & -> & [V _] & _). split; [lia|]. now apply nth_error_In in V.
Qed.
Lemma interp_finite_from (l : list XR) : (forall a, In a l -> finite a \/ a = XNaN) ->
  forall j v i, (j < i)%nat -> finite v -> forall a, In a (interp_from (Some (j, v)) i l) -> finite a.
Proof.
  induction l as [|b l IH]; intros F j v i L Fv a Ia; [destruct Ia|]. cbn [interp_from] in Ia.
  assert (F' : forall a, In a l -> finite a \/ a = XNaN) by (intros c Hc; apply F; now right).
  destruct (nisnan b) eqn:Eb.
  - destruct Ia as [<-|Ia].
    + destruct (next_valid (S i) l) as [[k w]|] eqn:En; [|exact Fv].
      destruct (next_valid_idx _ _ _ _ En) as [Lk Iw]. destruct (F' w Iw) as [[rw ->]| ->].
      * destruct Fv as [rv ->]. rewrite between_line by lia. eexists; reflexivity.
      * destruct (next_valid_some _ _ _ _ En) as (d & _ & [_ V] & _). discriminate.
    + eapply (IH F' j v (S i)); eauto; lia.
  - destruct (F b (or_introl eq_refl)) as [Fb|Fb]; [|subst; discriminate].
    destruct Ia as [<-|Ia]; [exact Fb|]. eapply (IH F' i b (S i)); eauto; lia.
Qed.
Lemma interp_finite (b : XR) l : finite b -> (forall a, In a l -> finite a \/ a = XNaN) ->
  forall a, In a (interp (b :: l)) -> finite a.
Proof.
  intros [r ->] F a Ia. unfold interp in Ia. cbn [interp_from nisnan XROps xisnan] in Ia. destruct Ia as [<-|Ia]; [eexists; reflexivity|].
  eapply interp_finite_from; [exact F| | |exact Ia]; [lia|eexists; reflexivity].
Qed.

(* a date on the grid of a frequency that starts at [lo] *)
Definition on_grid (lo : Z) (freq : option string) (t : Z) : Prop :=
  let month_day day k := (t = day k * DAY + lo mod DAY)%Z in
  match freq with
  | None => ((t - lo) mod DAY = 0)%Z
  | Some f =>
      (f = "D" /\ (t - lo) mod DAY = 0)%Z \/ (f = "H" /\ (t - lo) mod HOUR = 0)%Z \/
      (f = wday_name (weekday lo) /\ (t - lo) mod (7 * DAY) = 0)%Z \/
      (f = "MS" /\ exists k, month_day month_start k) \/ (f = "M" /\ exists k, month_day month_last k) \/
      (f = "Q" /\ exists k, month_day month_last (3 * k + 2)%Z) \/
      (f = "YS" /\ exists k, month_day month_start (12 * k)%Z) \/ (f = "Y" /\ exists k, month_day month_last (12 * k + 11)%Z)
  end.
Lemma asfreq_grid lo hi freq grid : (lo <= hi)%Z -> asfreq_range lo hi freq = Ok grid ->
  StronglySorted Z.lt grid /\ forall t, In t grid -> (lo <= t <= hi)%Z.
Proof.
  intros L E. unfold asfreq_range, date_range in E.
  assert (Ff : forall step, (0 < step)%Z -> StronglySorted Z.lt (fixed_range lo step hi) /\ forall t, In t (fixed_range lo step hi) -> (lo <= t <= hi)%Z).
  { intros step P. split; [now apply fixed_range_sorted|]. intros t It. apply fixed_range_in in It as (k & K & -> & J); [|exact P]. split; [nia|exact J]. }
  assert (Fm : forall sel day, in_month day -> StronglySorted Z.lt (month_range lo hi sel day) /\ forall t, In t (month_range lo hi sel day) -> (lo <= t <= hi)%Z).
  { intros sel day P. split; [now apply month_range_sorted|]. intros t It. unfold month_range in It. apply filter_In in It as [_ B].
    apply andb_true_iff in B as [B1 B2]. lia. }
  destruct freq as [f|]; [|injection E as <-; now apply Ff].
  repeat match type of E with (if ?b then _ else _) = _ => destruct b end; try discriminate; injection E as <-;
    first [now apply Ff|apply Fm; first [exact month_start_in|exact month_last_in]].
Qed.
Lemma asfreq_covers lo hi freq t : (lo <= t <= hi)%Z -> on_grid lo freq t ->
  exists grid, asfreq_range lo hi freq = Ok grid /\ In t grid.
Proof.
  intros L G.
  assert (Ff : forall step, (0 < step)%Z -> ((t - lo) mod step = 0)%Z -> In t (fixed_range lo step hi)).
  { intros step P M. apply fixed_range_in; [exact P|]. exists ((t - lo) / step)%Z. split; [apply Z.div_pos; lia|]. split; [|lia]. rewrite Z.mul_comm. pose proof (Z.div_mod (t - lo) step ltac:(lia)). lia. }
  assert (Fm : forall (sel : Z -> bool) day k, in_month day -> sel k = true -> (t = day k * DAY + lo mod DAY)%Z -> In t (month_range lo hi sel day)).
  { intros sel day k P S K. apply month_range_in; [exact P|]. exists k. auto. }
  destruct freq as [f|]; [|exists (fixed_range lo DAY hi); split; [reflexivity|]; apply Ff; [reflexivity|exact G]].
  unfold asfreq_range, date_range.
  destruct G as [[-> G]|[[-> G]|[[-> G]|[[-> (k & G)]|[[-> (k & G)]|[[-> (k & G)]|[[-> (k & G)]|[-> (k & G)]]]]]]]]; cbn [String.eqb Ascii.eqb Bool.eqb orb].
  - eexists; split; [reflexivity|]. now apply Ff.
  - eexists; split; [reflexivity|]. now apply Ff.
  - rewrite String.eqb_refl. destruct (weekday_name_cases lo) as [->|[->|[->|[->|[->|[->| ->]]]]]]; cbn [String.eqb Ascii.eqb Bool.eqb];
      (eexists; split; [reflexivity|]; now apply Ff).
  - destruct (weekday_name_cases lo) as [->|[->|[->|[->|[->|[->| ->]]]]]]; cbn [String.eqb Ascii.eqb Bool.eqb];
      (eexists; split; [reflexivity|]; now apply (Fm _ _ k month_start_in)).
  - destruct (weekday_name_cases lo) as [->|[->|[->|[->|[->|[->| ->]]]]]]; cbn [String.eqb Ascii.eqb Bool.eqb];
      (eexists; split; [reflexivity|]; now apply (Fm _ _ k month_last_in)).
  - eexists; split; [reflexivity|]. apply (Fm _ _ (3 * k + 2)%Z month_last_in); [|exact G].
    unfold quarter. apply Z.eqb_eq. Z.div_mod_to_equations. lia.
  - destruct (weekday_name_cases lo) as [->|[->|[->|[->|[->|[->| ->]]]]]]; cbn [String.eqb Ascii.eqb Bool.eqb orb];
      (eexists; split; [reflexivity|]; apply (Fm _ _ (12 * k)%Z month_start_in); [|exact G];
       unfold january; apply Z.eqb_eq; Z.div_mod_to_equations; lia).
  - destruct (weekday_name_cases lo) as [->|[->|[->|[->|[->|[->| ->]]]]]]; cbn [String.eqb Ascii.eqb Bool.eqb orb];
      (eexists; split; [reflexivity|]; apply (Fm _ _ (12 * k + 11)%Z month_last_in); [|exact G];
       unfold december; apply Z.eqb_eq; Z.div_mod_to_equations; lia).
Qed.

Lemma exact_int_real z : @exact_int XR _ z.
Proof.
  split; [reflexivity|]. rewrite ofZ_fin. cbn [ntrunc XROps]. f_equal. apply Rtrunc_IZR.
Qed.
(* dates all on the grid: the table is filled and no row is lost *)
Lemma interp_dates_ok (f : frame XR) lo : has_date f = true -> ~ complete f -> NoDup (map r_date (rows f)) ->
  In lo (map r_date (rows f)) -> (forall t, In t (map r_date (rows f)) -> (lo <= t)%Z /\ on_grid lo (detect_freq (map r_date (rows f))) t) ->
  exists hi grid rs, interpolate_df false f = Ok (mkFrame true (has_src f) (has_w f) rs) /\
    In hi (map r_date (rows f)) /\ (forall t, In t (map r_date (rows f)) -> (lo <= t <= hi)%Z) /\
    asfreq_range lo hi (detect_freq (map r_date (rows f))) = Ok grid /\
    reindexed r_date (rows f) grid rs /\ forall r, In r (rows f) -> In r rs.
Proof.
  intros Hd N D I0 G. destruct (zmin_zmax (map r_date (rows f))) as (lo' & hi & E1 & E2 & I1 & I2 & B).
  { intros C. rewrite C in I0. destruct I0. }
  assert (lo' = lo) as ->. { pose proof (G lo' I1) as [L _]. pose proof (B lo I0). lia. }
  destruct (asfreq_covers lo hi (detect_freq (map r_date (rows f))) lo) as (grid & Eg & Ig); [apply B; exact I0|apply G; exact I0|].
  destruct (asfreq_grid lo hi _ grid (proj2 (B lo I0)) Eg) as [Sg Bg].
  assert (Cov : forall t, In t (map r_date (rows f)) -> In t grid).
  { intros t It. destruct (asfreq_covers lo hi (detect_freq (map r_date (rows f))) t) as (g' & Eg' & It'); [apply B; exact It|apply G; exact It|]. congruence. }
  assert (exists g, grid = lo :: g) as (g & Gg).
  { destruct grid as [|a g]; [destruct Ig|]. exists g. f_equal. inversion Sg as [|? ? S' F]; subst.
    destruct Ig as [E|Ig]; [exact E|]. rewrite Forall_forall in F. specialize (F _ Ig). specialize (Bg a (or_introl eq_refl)). lia. }
  destruct (to_ints_ok (interp (column (fun r => nofZ (r_x r)) (map (lookup r_date (rows f)) grid)))) as (xs & Ex).
  { intros a Ia. assert (finite a) as (r & ->); [|discriminate]. rewrite Gg in Ia. cbn [map column] in Ia. unfold column in Ia. cbn [map] in Ia.
    apply in_map_iff in I0 as (r0 & K0 & J0). pose proof (lookup_in r_date (rows f) r0 D J0) as L0. rewrite K0 in L0. rewrite L0 in Ia.
    eapply interp_finite; [| |exact Ia].
    - rewrite ofZ_fin. eexists; reflexivity.
    - intros c Hc. rewrite map_map in Hc. apply in_map_iff in Hc as (t & <- & _). destruct (lookup r_date (rows f) t); [left; eexists; reflexivity|now right]. }
  assert (exists f', interpolate_df false f = Ok f') as (f' & Ef).
  { rewrite (dates_unfold false f lo hi Hd N D E1 E2), Eg. cbn [rbind]. cbv zeta. rewrite Ex. cbn [rbind]. eexists; reflexivity. }
  destruct (interp_dates f f' Hd N D (fun r _ => exact_int_real (r_x r)) Ef) as (lo1 & hi1 & grid1 & rs & -> & J1 & J2 & B1 & Eg1 & R).
  assert (lo1 = lo). { pose proof (B lo1 J1). pose proof (B1 lo I0). lia. }
  assert (hi1 = hi). { pose proof (B hi1 J2). pose proof (B1 hi I2). lia. }
  subst. exists hi, grid1, rs. assert (grid1 = lo :: g) as -> by congruence.
  repeat (split; [assumption|]). intros r Ir. apply R; [exact Ir|]. apply Cov. now apply in_map.
Qed.
