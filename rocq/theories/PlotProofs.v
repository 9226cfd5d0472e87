(* Facts about plot layouts (Plot.v). *)
From Coq Require Import ZArith String List Bool Lia Arith Permutation.
From Verif Require Import Num Py Model Pi Plot.
From Verif Require Import ListProofs StringProofs PiProofs.
Import ListNotations.
Local Open Scope string_scope.
Local Open Scope list_scope.

Lemma NoDup_app_intro {A} (l l' : list A) : NoDup l -> NoDup l' -> (forall a, In a l -> In a l' -> False) -> NoDup (l ++ l').
Proof.
  intros N N' D. induction N as [|a l Na N IH]; [exact N'|]. cbn. constructor.
  - rewrite in_app_iff. intros [K|K]; [contradiction|]. apply (D a); [now left|exact K].
  - apply IH. intros b I I'. apply (D b); [now right|exact I'].
Qed.

(* ---------- the grid ---------- *)
Definition ceil_of (a b q : nat) : Prop := (a <= q * b)%nat /\ (q * b < a + b)%nat.
Lemma grid_ok n : (1 <= n)%nat -> exists r c, grid n = Ok (r, c) /\
  (1 <= r)%nat /\ (1 <= c)%nat /\ (n <= r * r)%nat /\ ((r - 1) * (r - 1) < n)%nat /\ ceil_of n r c /\
  (n <= r * c)%nat /\ ((r - 1) * c < n)%nat.
Proof.
  intros N. unfold grid. set (r := Nat.sqrt_up n). destruct (Nat.sqrt_up_spec n N) as [A B]. fold r in A, B.
  rewrite <- Nat.sub_1_r in A.
  assert (R : (1 <= r)%nat) by (destruct r; [cbn in B; lia|lia]).
  destruct (Nat.eqb_spec r 0) as [E|_]; [lia|]. exists r, (ceil_nat n r). split; [reflexivity|].
  destruct (ceil_enough n r ltac:(lia)) as [C D]. set (c := ceil_nat n r) in *.
  repeat split; try assumption; try nia.
Qed.
Lemma grid_none : grid 0 = Err ZeroDivisionError.
Proof. reflexivity. Qed.

(* ---------- cells ---------- *)
(* row-major position i in a grid with c columns *)
Definition cell (c i : nat) : nat * nat := (i / c, i mod c)%nat.
Definition cells_from (c i n : nat) : list (nat * nat) := map (cell c) (seq i n).
Lemma cell_next c i : (0 < c)%nat -> cell c (Datatypes.S i) = if Nat.leb c (Datatypes.S (i mod c)) then (Datatypes.S (i / c), 0%nat) else (i / c, Datatypes.S (i mod c)).
Proof.
  intros C. unfold cell. pose proof (Nat.div_mod i c ltac:(lia)) as D. pose proof (Nat.mod_upper_bound i c ltac:(lia)) as B.
  destruct (Nat.leb_spec c (Datatypes.S (i mod c))) as [L|L].
  - f_equal; [symmetry; apply (Nat.div_unique (Datatypes.S i) c _ 0%nat); nia|symmetry; apply (Nat.mod_unique (Datatypes.S i) c (Datatypes.S (i / c)) 0%nat); nia].
  - f_equal; [symmetry; apply (Nat.div_unique (Datatypes.S i) c (i / c) (Datatypes.S (i mod c))); nia|symmetry; apply (Nat.mod_unique (Datatypes.S i) c (i / c) (Datatypes.S (i mod c))); nia].
Qed.
Lemma cell_in r c i : (0 < c)%nat -> (i < r * c)%nat -> (fst (cell c i) < r /\ snd (cell c i) < c)%nat.
Proof. intros C L. cbn. split; [apply Nat.div_lt_upper_bound; lia|apply Nat.mod_upper_bound; lia]. Qed.
Lemma cell_inj c i j : (0 < c)%nat -> cell c i = cell c j -> i = j.
Proof. intros C E. injection E as E1 E2. rewrite (Nat.div_mod i c), (Nat.div_mod j c) by lia. congruence. Qed.
Lemma cell_onto c x y : (y < c)%nat -> cell c (x * c + y) = (x, y).
Proof.
  intros L. unfold cell. rewrite Nat.add_comm. f_equal; [rewrite Nat.div_add, Nat.div_small by lia; lia|rewrite Nat.mod_add, Nat.mod_small by lia; lia].
Qed.

Lemma mpl_cells_ok {A} r c (l : list A) : (0 < c)%nat -> forall i, (i + length l <= r * c)%nat ->
  mpl_cells r c (i / c) (i mod c) l = Ok (combine l (cells_from c i (length l)), cell c (i + length l)).
Proof.
  intros C. induction l as [|a l IH]; intros i L; cbn [mpl_cells length] in *.
  - rewrite Nat.add_0_r. reflexivity.
  - destruct (cell_in r c i C ltac:(lia)) as [L1 L2]. cbn in L1, L2. apply Nat.ltb_lt in L1, L2. rewrite L1, L2. cbn [andb].
    pose proof (cell_next c i C) as Nx. unfold cell at 1 in Nx. specialize (IH (Datatypes.S i) ltac:(lia)).
    assert (E : (if Nat.leb c (Datatypes.S (i mod c)) then mpl_cells r c (Datatypes.S (i / c)) 0 l else mpl_cells r c (i / c) (Datatypes.S (i mod c)) l) =
                mpl_cells r c (Datatypes.S i / c) (Datatypes.S i mod c) l).
    { destruct (Nat.leb c (Datatypes.S (i mod c))); injection Nx as -> ->; reflexivity. }
    rewrite E, IH. cbn [rbind]. unfold cells_from. cbn [seq map combine]. do 2 f_equal. f_equal. lia.
Qed.
Lemma plotly_cells_ok {A} r c (l : list A) : (0 < c)%nat -> forall i, (i + length l <= r * c)%nat ->
  plotly_cells r c (Datatypes.S (i / c)) (Datatypes.S (i mod c)) l =
  Ok (combine l (map (fun p => (Datatypes.S (fst p), Datatypes.S (snd p))) (cells_from c i (length l)))).
Proof.
  intros C. induction l as [|a l IH]; intros i L; cbn [plotly_cells length] in *; [reflexivity|].
  destruct (cell_in r c i C ltac:(lia)) as [L1 L2]. cbn in L1, L2. 
  assert (Nat.leb (Datatypes.S (i / c)) r = true) as -> by (apply Nat.leb_le; lia).
  assert (Nat.leb (Datatypes.S (i mod c)) c = true) as -> by (apply Nat.leb_le; lia). cbn [andb].
  pose proof (cell_next c i C) as Nx. unfold cell at 1 in Nx. specialize (IH (Datatypes.S i) ltac:(lia)).
  assert (E : (if Nat.ltb c (Datatypes.S (Datatypes.S (i mod c))) then plotly_cells r c (Datatypes.S (Datatypes.S (i / c))) 1 l
               else plotly_cells r c (Datatypes.S (i / c)) (Datatypes.S (Datatypes.S (i mod c))) l) =
              plotly_cells r c (Datatypes.S (Datatypes.S i / c)) (Datatypes.S (Datatypes.S i mod c)) l).
  { change (Nat.ltb c (Datatypes.S (Datatypes.S (i mod c)))) with (Nat.leb c (Datatypes.S (i mod c))).
    destruct (Nat.leb c (Datatypes.S (i mod c))); injection Nx as -> ->; reflexivity. }
  rewrite E, IH. reflexivity.
Qed.
Lemma mpl_hidden_in r c : (0 < c)%nat -> forall k x y, k = (r - x)%nat -> (y < c)%nat -> forall p q,
  In (p, q) (mpl_hidden k r c x y) <-> (x * c + y <= p * c + q /\ p < r /\ q < c)%nat.
Proof.
  intros C. induction k as [|k IH]; intros x y K Y p q.
  - cbn. split; [tauto|]. intros (A & B & D). nia.
  - cbn [mpl_hidden]. assert (x < r)%nat by lia. destruct (Nat.ltb_spec x r) as [_|]; [|lia].
    rewrite in_app_iff, in_map_iff, (IH (Datatypes.S x) 0%nat) by lia. split.
    + intros [(j & E & I)|I]; [|nia]. injection E as <- <-. apply in_seq in I. nia.
    + intros (A & B & D). destruct (Nat.eq_dec x p) as [->|E].
      * left. exists q. split; [reflexivity|]. apply in_seq. nia.
      * right. nia.
Qed.
Lemma mpl_hidden_nodup r c : forall k x y, NoDup (mpl_hidden k r c x y).
Proof.
  assert (F : forall k x y p q, In (p, q) (mpl_hidden k r c x y) -> (x <= p)%nat).
  { induction k as [|k IH]; intros x y p q I; [destruct I|]. cbn [mpl_hidden] in I. destruct (Nat.ltb x r); [|destruct I].
    apply in_app_iff in I as [I|I]; [apply in_map_iff in I as (j & E & _); injection E; lia|]. apply IH in I. lia. }
  induction k as [|k IH]; intros x y; [constructor|]. cbn [mpl_hidden]. destruct (Nat.ltb x r); [|constructor].
  apply NoDup_app_intro.
  - apply FinFun.Injective_map_NoDup; [intros a b E; congruence|apply seq_NoDup].
  - apply IH.
  - intros (p & q) I1 I2. apply in_map_iff in I1 as (j & E & _). injection E as <- _. apply F in I2. lia.
Qed.
Lemma cells_nodup c i n : (0 < c)%nat -> NoDup (cells_from c i n).
Proof.
  intros C. unfold cells_from. apply FinFun.Injective_map_NoDup; [|apply seq_NoDup]. intros a b. now apply cell_inj.
Qed.

(* ---------- the whole plot ---------- *)
Section Plots.
  Context {T : Type}.
  Lemma panel_cells b (l : list (drow T)) cs : map (pl_cell (T := T)) (map (panel_of b l) cs) = map snd cs.
  Proof. rewrite map_map. apply map_ext. reflexivity. Qed.
  Lemma combine_snd {A B} (l : list A) (l' : list B) : length l = length l' -> map snd (combine l l') = l'.
  Proof. revert l'. induction l as [|a l IH]; intros [|b l'] E; try discriminate; [reflexivity|]. cbn. f_equal. apply IH. now injection E. Qed.
  Lemma combine_fst {A B} (l : list A) (l' : list B) : length l = length l' -> map fst (combine l l') = l.
  Proof. revert l'. induction l as [|a l IH]; intros [|b l'] E; try discriminate; [reflexivity|]. cbn. f_equal. apply IH. now injection E. Qed.
  Lemma cells_length c i n : length (cells_from c i n) = n.
  Proof. unfold cells_from. now rewrite map_length, seq_length. Qed.

  Theorem matplotlib_cells b (sources : list string) r c (l : list (drow T)) : sources <> [] -> grid (length sources) = Ok (r, c) ->
    exists ps hidden, matplotlib_create b sources (r, c) l = Ok (ps, hidden) /\
      map (pl_cell (T := T)) ps = cells_from c 0 (length sources) /\
      NoDup (map (pl_cell (T := T)) ps ++ hidden) /\
      (forall p q, In (p, q) (map (pl_cell (T := T)) ps ++ hidden) <-> (p < r /\ q < c)%nat).
  Proof.
    intros N G. assert (Ln : (1 <= length sources)%nat) by (destruct sources; [congruence|cbn; lia]).
    destruct (grid_ok _ Ln) as (r' & c' & G' & R & C & _ & _ & _ & B & _). rewrite G in G'. injection G' as <- <-.
    unfold matplotlib_create. set (l' := filter _ l).
    assert (M : mpl_cells r c 0 0 sources = Ok (combine sources (cells_from c 0 (length sources)), cell c (0 + length sources))).
    { rewrite <- (mpl_cells_ok r c sources ltac:(lia) 0%nat ltac:(lia)). f_equal; [symmetry; apply Nat.div_small; lia|symmetry; apply Nat.mod_small; lia]. }
    rewrite M. cbn [rbind]. destruct (cell c (0 + length sources)) as [x y] eqn:Ec. do 2 eexists. split; [reflexivity|].
    rewrite panel_cells, combine_snd by (now rewrite cells_length). split; [reflexivity|].
    assert (Y : (y < c)%nat). { injection Ec as _ <-. apply Nat.mod_upper_bound. lia. }
    assert (X : (x * c + y = length sources)%nat). { injection Ec as <- <-. cbn [Nat.add]. rewrite (Nat.div_mod (length sources) c) at 3 by lia. lia. }
    assert (H1 : forall p q, In (p, q) (cells_from c 0 (length sources)) <-> (p * c + q < length sources /\ q < c)%nat).
    { intros p q. unfold cells_from. rewrite in_map_iff. split.
      - intros (i & E & I). apply in_seq in I. injection E as <- <-. pose proof (Nat.mod_upper_bound i c ltac:(lia)). pose proof (Nat.div_mod i c ltac:(lia)). nia.
      - intros [A D]. exists (p * c + q)%nat. split; [now apply cell_onto|]. apply in_seq. lia. }
    assert (H2 := mpl_hidden_in r c ltac:(lia) (r - x) x y eq_refl Y).
    split.
    - apply NoDup_app_intro; [apply cells_nodup; lia|apply mpl_hidden_nodup|]. intros (p & q) I1 I2. apply H1 in I1. apply H2 in I2. lia.
    - intros p q. rewrite in_app_iff, H1, H2. split; [intros [K|K]; nia|]. intros [K1 K2]. nia.
  Qed.
  Theorem plotly_cells_grid b (sources : list string) r c (l : list (drow T)) : sources <> [] -> grid (length sources) = Ok (r, c) ->
    exists ps, plotly_create b sources (r, c) l = Ok ps /\
      map (pl_cell (T := T)) ps = map (fun p => (Datatypes.S (fst p), Datatypes.S (snd p))) (cells_from c 0 (length sources)).
  Proof.
    intros N G. assert (Ln : (1 <= length sources)%nat) by (destruct sources; [congruence|cbn; lia]).
    destruct (grid_ok _ Ln) as (r' & c' & G' & R & C & _ & _ & _ & B & _). rewrite G in G'. injection G' as <- <-.
    unfold plotly_create.
    pose proof (plotly_cells_ok r c sources ltac:(lia) 0%nat ltac:(lia)) as M. rewrite Nat.div_small, Nat.mod_small in M by lia. rewrite M.
    cbn [rbind]. eexists. split; [reflexivity|]. rewrite panel_cells. apply combine_snd. now rewrite map_length, cells_length.
  Qed.
  (* panels show the rows of their source, in the order in which sources appear among the actuals *)
  Theorem panels_content b (l : list (drow T)) cs p : In p (map (panel_of b l) cs) ->
    exists s, In s (map fst cs) /\ pl_title p = (if b then Some s else None) /\
      (forall r, In r (pl_actuals p) <-> In r l /\ d_actual r = true /\ (b = true -> d_src r = s)) /\
      (forall r, In r (pl_forecast p) <-> In r l /\ d_actual r = false /\ (b = true -> d_src r = s)).
  Proof.
    intros I. apply in_map_iff in I as ((s & c) & <- & I). exists s. split; [apply in_map_iff; now exists (s, c)|]. split; [reflexivity|]. cbn.
    split; intros r; rewrite filter_In, andb_true_iff; [|rewrite negb_true_iff]; destruct b; rewrite ?String.eqb_eq; intuition auto; discriminate.
  Qed.
  Lemma layout_sources b (l : list (drow T)) sub srcs g : layout b l = Ok (sub, srcs, g) ->
    (sub = true /\ b = true /\ (forall s, In s srcs <-> exists r, In r l /\ d_actual r = true /\ d_src r = s) /\ NoDup srcs /\ srcs <> [] /\ grid (length srcs) = Ok g) \/
    (sub = false /\ srcs = ["y"] /\ g = (1, 1)%nat /\ (b = true -> forall r r', In r l -> In r' l -> d_src r = d_src r')).
  Proof.
    unfold layout. destruct b; cbn [andb].
    - destruct (Nat.ltb_spec 1 (length (dedup String.eqb (map d_src l)))) as [L|L].
      + set (ss := dedup String.eqb _) at 1. destruct (grid (length ss)) as [g'|] eqn:G; [|discriminate]. cbn [rbind]. intros [= <- <- <-]. left.
        repeat split; auto.
        * intros I. apply (proj1 (dedup_in String.eqb str_eqb_spec _ _)) in I. apply in_map_iff in I as (r & E & I). apply filter_In in I as [I A]. now exists r.
        * intros (r & I & A & E). apply (proj2 (dedup_in String.eqb str_eqb_spec _ _)). apply in_map_iff. exists r. split; [exact E|]. now apply filter_In.
        * apply (dedup_nodup String.eqb str_eqb_spec).
        * intros C. fold ss in C. rewrite C in G. discriminate.
      + intros [= <- <- <-]. right. repeat split; auto. intros _ r r' I I'.
        assert (In (d_src r) (dedup String.eqb (map d_src l))) as K by (apply (proj2 (dedup_in String.eqb str_eqb_spec _ _)); now apply in_map).
        assert (In (d_src r') (dedup String.eqb (map d_src l))) as K' by (apply (proj2 (dedup_in String.eqb str_eqb_spec _ _)); now apply in_map).
        destruct (dedup String.eqb (map d_src l)) as [|a [|a' ?]]; [destruct K| |cbn in L; lia]. destruct K as [K|[]], K' as [K'|[]]. congruence.
    - intros [= <- <- <-]. right. repeat split; auto. discriminate.
  Qed.
  (* the layout fails exactly for several sources without any actuals *)
  Theorem layout_fails b (l : list (drow T)) : (exists e, layout b l = Err e) <->
    b = true /\ (exists r r', In r l /\ In r' l /\ d_src r <> d_src r') /\ (forall r, In r l -> d_actual r = false).
  Proof.
    unfold layout. destruct b; cbn [andb].
    2:{ split; [intros (e & E); discriminate|intros (E & _); discriminate]. }
    destruct (Nat.ltb_spec 1 (length (dedup String.eqb (map d_src l)))) as [L|L].
    - set (ss := dedup String.eqb (map d_src (filter (fun r => d_actual r) l))). split.
      + intros (e & E). split; [reflexivity|]. split.
        * assert (Nd := dedup_nodup String.eqb str_eqb_spec (map d_src l)).
          destruct (dedup String.eqb (map d_src l)) as [|a [|a' tl]] eqn:Ed; try (cbn in L; lia).
          assert (In a (map d_src l)) as Ia by (apply (proj1 (dedup_in String.eqb str_eqb_spec _ _)); rewrite Ed; now left).
          assert (In a' (map d_src l)) as Ia' by (apply (proj1 (dedup_in String.eqb str_eqb_spec _ _)); rewrite Ed; right; now left).
          apply in_map_iff in Ia as (r & <- & Ir). apply in_map_iff in Ia' as (r' & <- & Ir'). exists r, r'. repeat split; auto.
          intros C. apply NoDup_cons_iff in Nd as [Nd _]. apply Nd. rewrite C. now left.
        * intros r I. destruct (d_actual r) eqn:A; [|reflexivity]. exfalso.
          assert (In (d_src r) ss) as K. { apply (proj2 (dedup_in String.eqb str_eqb_spec _ _)). apply in_map. now apply filter_In. }
          destruct (grid_ok (length ss)) as (x & y & G & _); [destruct ss; [destruct K|cbn; lia]|]. rewrite G in E. discriminate.
      + intros (_ & _ & A). assert (filter (fun r => d_actual r) l = []) as F.
        { clear - A. induction l as [|a l IH]; [reflexivity|]. cbn. rewrite (A a (or_introl eq_refl)). apply IH. intros r I. apply A. now right. }
        unfold ss. rewrite F. exists ZeroDivisionError. reflexivity.
    - split; [intros (e & E); discriminate|]. intros (_ & (r & r' & I & I' & N) & _). exfalso. apply N.
      assert (In (d_src r) (dedup String.eqb (map d_src l))) as K by (apply (proj2 (dedup_in String.eqb str_eqb_spec _ _)); now apply in_map).
      assert (In (d_src r') (dedup String.eqb (map d_src l))) as K' by (apply (proj2 (dedup_in String.eqb str_eqb_spec _ _)); now apply in_map).
      destruct (dedup String.eqb (map d_src l)) as [|a [|a' ?]]; [destruct K| |cbn in L; lia]. destruct K as [K|[]], K' as [K'|[]]. congruence.
  Qed.

  (* ---------- return codes ---------- *)
  Definition library_for (L : libs) (output : string) : bool :=
    (String.eqb output "png" && has_mpl L) || (String.eqb output "html" && has_plotly L) || (String.eqb output "jupyter" && (has_plotly L && has_ipython L)).
  Definition no_path (path : option string) : Prop := path = None \/ path = Some "".
  Theorem plot_refused L output path z b (l : list (drow T)) : no_path path -> (output = "html" \/ output = "png") ->
    plot_forecast L output path z b l = Ok (mkPlot (Some 1%Z) None).
  Proof. intros [->| ->] [->| ->]; reflexivity. Qed.
  Lemma layout_drawable b (l : list (drow T)) sub srcs g : layout b l = Ok (sub, srcs, g) -> srcs <> [] /\ grid (length srcs) = Ok g.
  Proof.
    intros E. apply layout_sources in E as [(_ & _ & _ & _ & N & G)|(_ & N & -> & _)]; [auto|].
    destruct srcs as [|a [|? ?]]; try discriminate. split; [discriminate|reflexivity].
  Qed.
  (* the sizes the output needs *)
  Definition sized (output : string) (z : size) : Prop :=
    (output = "png" -> (exists w, z_width z = Some w) /\ (exists h, z_height z = Some h) /\ z_dpi z <> 0%Z) /\
    (output = "html" \/ output = "jupyter" -> z_height z <> Some 0%Z).
  Lemma sized_png z : sized "png" z <-> mpl_size z = Ok tt.
  Proof.
    unfold sized, mpl_size. destruct z as [[w|] [h|] d]; cbn; split; intros H.
    - destruct (proj1 H eq_refl) as (_ & _ & D). now destruct (Z.eqb_spec d 0).
    - destruct (Z.eqb_spec d 0) as [E0|D]; [discriminate|]. split; [eauto|intros [C|C]; discriminate].
    - destruct (proj1 H eq_refl) as (_ & (? & ?) & _). discriminate.
    - destruct (Z.eqb_spec d 0); discriminate.
    - destruct (proj1 H eq_refl) as ((? & ?) & _). discriminate.
    - discriminate.
    - destruct (proj1 H eq_refl) as ((? & ?) & _). discriminate.
    - discriminate.
  Qed.
  Lemma sized_plotly o z : o = "html" \/ o = "jupyter" -> (sized o z <-> plotly_size z = Ok tt).
  Proof.
    intros O. unfold sized, plotly_size. destruct (z_height z) as [h|]; split; intros H.
    - destruct (Z.eqb_spec h 0) as [->|]; [exfalso; now apply (proj2 H O)|reflexivity].
    - destruct (Z.eqb_spec h 0) as [E0|D]; [discriminate|]. split; [intros ->; destruct O; discriminate|congruence].
    - reflexivity.
    - split; [intros ->; destruct O; discriminate|discriminate].
  Qed.
  Theorem plot_code L output path z b (l : list (drow T)) x : layout b l = Ok x -> ~ (no_path path /\ (output = "html" \/ output = "png")) -> sized output z ->
    exists g, plot_forecast L output path z b l = Ok g /\
      ((pt_code g = Some 1%Z <-> output <> "png" /\ output <> "html" /\ output <> "jupyter") /\
       ((exists d, pt_drawn g = Some d) <-> library_for L output = true) /\
       (pt_code g <> Some 1%Z -> pt_code g = (if library_for L output && String.eqb output "jupyter" then None else Some 0%Z)) /\
       (forall f ps, pt_drawn g = Some (f, ps) -> f = match path with
          | Some p => if String.eqb output "jupyter" then None else Some (p ++ (if String.eqb output "png" then ".png" else ".html"))%string
          | None => None end)).
  Proof.
    destruct x as [[sub srcs] [r c]]. intros E N Sz. destruct (layout_drawable _ _ _ _ _ E) as [Ns G]. unfold plot_forecast.
    assert ((match path with None | Some "" => true | _ => false end && (String.eqb output "html" || String.eqb output "png"))%bool = false) as ->.
    { apply not_true_is_false. intros C. apply andb_prop in C as [C1 C2]. apply N. split.
      - destruct path as [[|? ?]|]; [now right|discriminate|now left].
      - apply orb_prop in C2. rewrite !String.eqb_eq in C2. exact C2. }
    rewrite E. cbn [rbind]. unfold library_for.
    destruct (matplotlib_cells sub srcs r c l Ns G) as (ps & h & E1 & _). destruct (plotly_cells_grid sub srcs r c l Ns G) as (ps' & E2 & _).
    destruct (String.eqb_spec output "png") as [->|D1].
    { cbn - [matplotlib_create plotly_create]. destruct (has_mpl L); [rewrite (proj1 (sized_png z) Sz); cbn [rbind]; rewrite E1; cbn [rbind]|]; eexists; (split; [reflexivity|]); cbn; repeat split; try discriminate; try tauto; eauto; try (intros (? & ?); discriminate).
      intros f ps0 [= <- _]. now destruct path. }
    destruct (String.eqb_spec output "html") as [->|D2].
    { cbn - [matplotlib_create plotly_create]. destruct (has_plotly L); [rewrite (proj1 (sized_plotly "html" z (or_introl eq_refl)) Sz); cbn [rbind]; rewrite E2; cbn [rbind]|]; eexists; (split; [reflexivity|]); cbn; repeat split; try discriminate; try tauto; eauto; try (intros (? & ?); discriminate).
      intros f ps0 [= <- _]. now destruct path. }
    destruct (String.eqb_spec output "jupyter") as [->|D3].
    { cbn - [matplotlib_create plotly_create]. destruct (has_plotly L && has_ipython L)%bool; [rewrite (proj1 (sized_plotly "jupyter" z (or_intror eq_refl)) Sz); cbn [rbind]; rewrite E2; cbn [rbind]|]; eexists; (split; [reflexivity|]); cbn; repeat split; try discriminate; try tauto; eauto; try (intros (? & ?); discriminate).
      intros f ps0 [= <- _]. now destruct path. }
    eexists. split; [reflexivity|]. cbn. repeat split; try discriminate; try tauto; try (intros (? & ?); discriminate).
  Qed.
  (* sizes that are missing or zero: nothing is drawn *)
  Theorem plot_unsized L output path z b (l : list (drow T)) x : layout b l = Ok x -> ~ (no_path path /\ (output = "html" \/ output = "png")) ->
    library_for L output = true -> ~ sized output z ->
    plot_forecast L output path z b l =
    Err (if String.eqb output "png" then match z_width z with None => TypeError | Some _ => if Z.eqb (z_dpi z) 0 then ZeroDivisionError else TypeError end else ZeroDivisionError).
  Proof.
    destruct x as [[sub srcs] [r c]]. intros E N Li Sz. unfold plot_forecast.
    assert ((match path with None | Some "" => true | _ => false end && (String.eqb output "html" || String.eqb output "png"))%bool = false) as ->.
    { apply not_true_is_false. intros C. apply andb_prop in C as [C1 C2]. apply N. split.
      - destruct path as [[|? ?]|]; [now right|discriminate|now left].
      - apply orb_prop in C2. rewrite !String.eqb_eq in C2. exact C2. }
    rewrite E. cbn [rbind]. unfold library_for in Li.
    assert (Pl : output = "html" \/ output = "jupyter" -> plotly_size z = Err ZeroDivisionError).
    { intros O. destruct (plotly_size z) as [[]|e] eqn:Ep; [exfalso; apply Sz; now apply (sized_plotly output z O)|]. revert Ep. unfold plotly_size. destruct (z_height z) as [h|]; [|discriminate]. now destruct (Z.eqb h 0). }
    destruct (String.eqb_spec output "png") as [->|D1].
    - cbn in Li. rewrite !orb_false_r in Li. rewrite Li. rewrite sized_png in Sz. revert Sz. unfold mpl_size. destruct (z_width z) as [w|]; [|reflexivity]. destruct (Z.eqb (z_dpi z) 0); [reflexivity|].
      destruct (z_height z); [|reflexivity]. intros C. now exfalso.
    - destruct (String.eqb_spec output "html") as [->|D2].
      + cbn in Li. rewrite !orb_false_r in Li. rewrite Li, (Pl (or_introl eq_refl)). reflexivity.
      + destruct (String.eqb_spec output "jupyter") as [->|D3]; [|discriminate]. cbn in Li. rewrite Li, (Pl (or_intror eq_refl)). reflexivity.
  Qed.
End Plots.
