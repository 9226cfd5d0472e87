(* Proofs about the command line (C74). *)
From Coq Require Import ZArith String Ascii List Bool QArith_base Lia Permutation.
From Verif Require Import Num Py Model Freq Normalize Fit Select Pi Forecast Plot App Main.
Import ListNotations.
Local Open Scope string_scope.
Local Open Scope list_scope.

(* ---- specification ---- *)
(* a name of an option: in full, or from "--" on as far as no other option begins alike *)
Definition begins (p s : string) : Prop := exists t, s = (p ++ t)%string.
Definition names (n : string) (a : action) : Prop :=
  In (n, a) option_table \/
  begins "--" n /\ exists full, In (full, a) option_table /\ begins n full /\ forall e, In e option_table -> begins n (fst e) -> e = (full, a).
(* words that argparse does not take for options *)
Definition argument (s : string) : Prop :=
  ~ begins "-" s \/ s = "-" \/
  ~ begins "-h" s /\ (forall e n, In e option_table -> begins n (fst e) -> begins "--" n -> s <> n /\ ~ begins (n ++ "=")%string s) /\
  (negative_number s = true \/ exists a b, s = (a ++ " " ++ b)%string).
(* one setting on the command line: --name value, --name=value, or the flag *)
Inductive setting := Value (name : string) (attached : bool) (d : dest) (v : string) | Flag (name : string).
Definition words (s : setting) : list string :=
  match s with Value n true _ v => [(n ++ "=" ++ v)%string] | Value n false _ v => [n; v] | Flag n => [n] end.
Definition command (l : list setting) : list string := concat (map words l).
Section Spec.
  Variable to_float : string -> option Q.
  Definition valid (s : setting) : Prop :=
    match s with
    | Value n attached d v => names n (Store d) /\ (attached = false -> argument v) /\ (d = DYears -> to_float v <> None)
    | Flag n => names n StoreTrue
    end.
  Definition dest_eqb (a b : dest) : bool :=
    match a, b with
    | DIn, DIn | DOut, DOut | DYears, DYears | DY, DY | DDate, DDate | DWeight, DWeight | DSource, DSource | DX, DX | DFormat, DFormat => true
    | _, _ => false
    end.
  Definition gives (d : dest) (s : setting) : bool := match s with Value _ _ d' _ => dest_eqb d d' | Flag _ => false end.
  (* the last value given for an option *)
  Definition final (d : dest) (l : list setting) : option string :=
    match find (gives d) (rev l) with Some (Value _ _ _ v) => Some v | _ => None end.
  Definition or_default (o : option string) (s : string) : string := match o with Some v => v | None => s end.
  Definition settled (l : list setting) : args :=
    mkArgs (final DIn l) (final DOut l)
      (match final DYears l with Some v => match to_float v with Some q => q | None => 2%Q end | None => 2%Q end)
      (or_default (final DY l) "y") (or_default (final DDate l) "date") (or_default (final DWeight l) "weight")
      (or_default (final DSource l) "source") (or_default (final DX l) "x")
      (existsb (fun s => match s with Flag _ => true | _ => false end) l) (or_default (final DFormat l) "png").
End Spec.

(* ---- strings ---- *)
Lemma begins_prefix p s : String.prefix p s = true <-> begins p s.
Proof.
  revert s. induction p as [|c p IH]; intros s.
  - split; [intros _; now exists s|intros _; now destruct s].
  - destruct s as [|b s]; [split; [discriminate|intros (t & K); discriminate]|]. cbn. destruct (ascii_dec c b) as [->|N].
    + change (prefix p s = true <-> begins (String b p) (String b s)). rewrite IH. split; intros (t & K); exists t; cbn in *; congruence.
    + split; [discriminate|intros (t & K); cbn in K; congruence].
Qed.
Lemma begins_starts p s : startswith s p = true <-> begins p s.
Proof. apply begins_prefix. Qed.
Fixpoint prefixes (s : string) : list string := match s with "" => [""] | String c r => "" :: map (String c) (prefixes r) end.
Lemma prefixes_in p s : begins p s <-> In p (prefixes s).
Proof.
  revert p. induction s as [|c s IH]; intros p; cbn.
  - split; [intros (t & K); destruct p; [now left|discriminate]|intros [<-|[]]; now exists ""].
  - split.
    + intros (t & K). destruct p as [|b p]; [now left|]. cbn in K. injection K as <- K. right. apply in_map. apply IH. now exists t.
    + intros [<-|I]; [now eexists|]. apply in_map_iff in I as (q & <- & I). apply IH in I as (t & ->). now exists t.
Qed.
Lemma split_eq_none s v : split_eq s = None -> split_eq (s ++ "=" ++ v) = Some (s, v).
Proof.
  induction s as [|c s IH]; intros K; [reflexivity|]. cbn in K |- *. destruct (Ascii.eqb c "="); [discriminate|].
  destruct (split_eq s) as [[a b]|]; [discriminate|]. cbn in IH. now rewrite IH.
Qed.
Lemma split_eq_some s p v : split_eq s = Some (p, v) -> s = (p ++ "=" ++ v)%string /\ split_eq p = None.
Proof.
  revert p. induction s as [|c s IH]; intros p K; [discriminate|]. cbn in K. destruct (Ascii.eqb_spec c "=") as [->|N].
  - injection K as <- <-. split; reflexivity.
  - destruct (split_eq s) as [[a b]|]; [|discriminate]. injection K as <- ->. destruct (IH a eq_refl) as [-> Q]. split; [reflexivity|].
    cbn. apply Ascii.eqb_neq in N. now rewrite N, Q.
Qed.
Lemma lookup_in s a : lookup s = Some a <-> In (s, a) option_table.
Proof.
  split.
  - unfold lookup. destruct (find _ _) as [[n b]|] eqn:E; [|discriminate]. intros [= <-]. apply find_some in E as [I K]. apply String.eqb_eq in K. cbn in K. now subst n.
  - intros I. cbn in I. decompose [or] I; try contradiction; match goal with H : (_, _) = (_, _) |- _ => injection H as <- <- end; reflexivity.
Qed.
Lemma table_no_eq p : (exists e, In e option_table /\ begins p (fst e)) -> split_eq p = None.
Proof.
  intros (e & I & B). apply prefixes_in in B.
  assert (K : forallb (fun e => forallb (fun p => match split_eq p with None => true | _ => false end) (prefixes (fst e))) option_table = true) by (vm_compute; reflexivity).
  rewrite forallb_forall in K. specialize (K e I). rewrite forallb_forall in K. specialize (K p B). destruct (split_eq p); [discriminate|reflexivity].
Qed.
Lemma append_empty s : (s ++ "")%string = s.
Proof. induction s as [|c s IH]; cbn; [reflexivity|now rewrite IH]. Qed.
Lemma begins_refl s : begins s s.
Proof. exists "". now rewrite append_empty. Qed.
Lemma append_assoc a b c : ((a ++ b) ++ c)%string = (a ++ (b ++ c))%string.
Proof. induction a as [|x a IH]; cbn; [reflexivity|now rewrite IH]. Qed.
Lemma names_table n a : names n a -> exists full, In (full, a) option_table /\ begins n full.
Proof. intros [I|(_ & full & I & B & _)]; [exists n; split; [exact I|apply begins_refl]|exists full; now split]. Qed.
Lemma table_dash e : In e option_table -> startswith (fst e) "-" = true /\ fst e <> "-".
Proof. intros I. cbn in I. decompose [or] I; try contradiction; subst e; split; (reflexivity || discriminate). Qed.
Lemma table_prefix e p : In e option_table -> begins p (fst e) -> p = "" \/ p = "-" \/ p = "-h" /\ snd e = Help \/ is_long p = true.
Proof.
  intros I B. apply prefixes_in in B.
  assert (K : forallb (fun e => forallb (fun p => String.eqb p "" || String.eqb p "-" || (String.eqb p "-h" && match snd e with Help => true | _ => false end) || is_long p) (prefixes (fst e))) option_table = true) by (vm_compute; reflexivity).
  rewrite forallb_forall in K. specialize (K e I). rewrite forallb_forall in K. specialize (K p B). cbn beta in K.
  apply orb_prop in K as [K|K]; [|auto]. apply orb_prop in K as [K|K].
  - apply orb_prop in K as [K|K]; apply String.eqb_eq in K; auto.
  - apply andb_prop in K as [K1 K2]. apply String.eqb_eq in K1. destruct (snd e); try discriminate. auto.
Qed.
Lemma table_two e : In e option_table -> String.length (fst e) = 2%nat -> e = ("-h", Help).
Proof. intros I L. cbn in I. decompose [or] I; try contradiction; subst e; try discriminate; reflexivity. Qed.
Lemma filter_unique {A} (P : A -> bool) x l : NoDup l -> In x l -> P x = true -> (forall y, In y l -> P y = true -> y = x) -> filter P l = [x].
Proof.
  induction l as [|a l IH]; intros N I Px U; [destruct I|]. inversion N as [|? ? Na Nl]; subst. cbn. destruct I as [->|I].
  - rewrite Px. f_equal. destruct (filter P l) as [|b m] eqn:E; [reflexivity|]. assert (K : In b (filter P l)) by (rewrite E; now left). apply filter_In in K as [Ib Pb].
    rewrite (U b (or_intror Ib) Pb) in Ib. contradiction.
  - destruct (P a) eqn:Pa; [rewrite (U a (or_introl eq_refl) Pa) in Na; contradiction|]. apply IH; auto. intros y J. apply U. now right.
Qed.
Lemma table_nodup : NoDup option_table.
Proof. repeat constructor; cbn; intros K; decompose [or] K; try discriminate; contradiction. Qed.
Lemma not_dash n a : names n a -> startswith n "-" = true /\ n <> "-" /\ (forall v, (n ++ v)%string <> "-") /\ (forall v, startswith (n ++ v) "-" = true).
Proof.
  intros K. assert (S1 : begins "-" n /\ n <> "-").
  { destruct K as [I|((t & ->) & _)]; [|split; [now eexists|discriminate]]. destruct (table_dash _ I) as [A B]. cbn in A, B. split; [now apply begins_starts|exact B]. }
  destruct S1 as [(t & ->) N]. destruct t as [|c t]; [contradiction|]. split; [reflexivity|]. split; [discriminate|]. split; [discriminate|reflexivity].
Qed.
Lemma long_begins n : is_long n = true <-> begins "--" n.
Proof. apply begins_starts. Qed.
Lemma classify_name n a : names n a -> classify n = Some (TOpt a (is_long n) None).
Proof.
  intros K. destruct (not_dash n a K) as (D & N & _). unfold classify. rewrite D. cbn [negb]. destruct (lookup n) as [a'|] eqn:E.
  - apply lookup_in in E. do 2 f_equal. destruct K as [I|(_ & full & I & B & U)].
    + apply lookup_in in E, I. congruence.
    + specialize (U _ E (begins_refl n)). congruence.
  - destruct K as [I|(L & full & I & B & U)]; [apply lookup_in in I; congruence|]. apply String.eqb_neq in N. rewrite N.
    assert (Se : split_eq n = None) by (apply table_no_eq; now exists (full, a)). rewrite Se. unfold abbreviated. apply long_begins in L. rewrite L, Se.
    rewrite (filter_unique (fun e => startswith (fst e) n) (full, a) option_table table_nodup I); [reflexivity|now apply begins_starts|].
    intros y J P. apply U; [exact J|now apply begins_starts].
Qed.
Lemma classify_attached n a v : names n a -> classify (n ++ "=" ++ v) = Some (TOpt a (is_long n) (Some v)).
Proof.
  intros K. destruct (not_dash n a K) as (_ & _ & N & D). destruct (names_table n a K) as (full & I & B).
  assert (Se : split_eq n = None) by (apply table_no_eq; now exists (full, a)). pose proof (split_eq_none n v Se) as Sv.
  unfold classify. rewrite D. cbn [negb]. destruct (lookup (n ++ "=" ++ v)) as [a'|] eqn:E.
  { apply lookup_in in E. assert (C : split_eq (n ++ "=" ++ v) = None) by (apply table_no_eq; exists (n ++ "=" ++ v, a')%string; split; [exact E|apply begins_refl]). congruence. }
  specialize (N ("=" ++ v)%string). apply String.eqb_neq in N. rewrite N, Sv. destruct (lookup n) as [a'|] eqn:E2.
  - apply lookup_in in E2. do 2 f_equal. destruct K as [J|(_ & full' & J & B' & U)]; [apply lookup_in in E2, J; congruence|]. specialize (U _ E2 (begins_refl n)). congruence.
  - destruct K as [J|(L & full' & J & B' & U)]; [apply lookup_in in J; congruence|]. unfold abbreviated.
    assert (L2 : is_long (n ++ "=" ++ v) = true) by (apply long_begins; destruct L as (t & ->); exists (t ++ "=" ++ v)%string; now rewrite append_assoc).
    rewrite L2, Sv. rewrite (filter_unique (fun e => startswith (fst e) n) (full', a) option_table table_nodup J); [apply long_begins in L; now rewrite L|now apply begins_starts|].
    intros y J' P. apply U; [exact J'|now apply begins_starts].
Qed.
Lemma has_space_iff s : has_space s = true <-> exists a b, s = (a ++ " " ++ b)%string.
Proof.
  induction s as [|c s IH]; cbn; [split; [discriminate|intros (a & b & K); destruct a; discriminate]|]. destruct (Ascii.eqb_spec c " ") as [->|N]; cbn.
  - split; [intros _; now exists "", s|reflexivity].
  - rewrite IH. split; intros (a & b & K).
    + exists (String c a), b. cbn. now rewrite K.
    + destruct a as [|x a]; cbn in K; injection K as -> K; [contradiction|]. now exists a, b.
Qed.
(* what abbreviations there can be *)
Lemma short_abbreviated s e : is_long s = false -> startswith s "-" = true -> s <> "-" ->
  In e option_table -> (fst e = substring 0 2 s \/ begins s (fst e)) -> e = ("-h", Help) /\ begins "-h" s.
Proof.
  intros L D N I K. destruct s as [|c1 [|c2 s]]; [discriminate|apply begins_starts in D as (t & K2); injection K2 as ->; contradiction|].
  assert (D1 : c1 = "-"%char) by (apply begins_starts in D as (t & K2); now injection K2). subst c1. destruct K as [K|K].
  - cbn in K. assert (substring 0 0 s = "") by (now destruct s). rewrite H in K. pose proof (table_two e I ltac:(now rewrite K)) as ->. split; [reflexivity|].
    cbn in K. injection K as <-. now exists s.
  - destruct (table_prefix e _ I K) as [C|[C|[[C H]|C]]]; try discriminate; [|congruence]. split; [|rewrite C; now exists ""].
    destruct e as [ne ae]. cbn in H, K. subst ae. rewrite C in K. cbn in I. decompose [or] I; try contradiction; try discriminate.
    + congruence.
    + match goal with H : (_, _) = (ne, _) |- _ => injection H as <- end. destruct K as (t & K). discriminate.
Qed.
Lemma long_split s p v : is_long s = true -> split_eq s = Some (p, v) -> begins "--" p.
Proof.
  intros L K. destruct (split_eq_some _ _ _ K) as [-> _]. apply long_begins in L as (t & L). destruct p as [|c1 [|c2 p]]; cbn in L; try discriminate.
  injection L as -> -> _. now exists p.
Qed.
Lemma classify_argument s : argument s <-> classify s = Some (TArg s).
Proof.
  unfold classify. split.
  - intros [N|[->|(Nh & Nl & R)]]; [destruct (startswith s "-") eqn:E; [apply begins_starts in E; contradiction|reflexivity]|reflexivity|].
    destruct (startswith s "-") eqn:E; [|reflexivity]. cbn [negb]. destruct (String.eqb_spec s "-") as [->|N]; [reflexivity|].
    assert (Lo : lookup s = None).
    { destruct (lookup s) as [a|] eqn:L; [|reflexivity]. exfalso. apply lookup_in in L. destruct (table_prefix _ _ L (begins_refl s)) as [->|[->|[[-> _]|K]]]; [discriminate|contradiction|apply Nh; now exists ""|].
      now apply (proj1 (Nl (s, a) s L (begins_refl s) (proj1 (long_begins s) K))). }
    rewrite Lo.
    assert (Sp : forall p v, split_eq s = Some (p, v) -> lookup p = None).
    { intros p v K. destruct (lookup p) as [a|] eqn:L; [|reflexivity]. exfalso. apply lookup_in in L. destruct (split_eq_some _ _ _ K) as [Es _].
      destruct (table_prefix _ _ L (begins_refl p)) as [->|[->|[[-> _]|Kl]]]; [cbn in L; decompose [or] L; try discriminate; contradiction|cbn in L; decompose [or] L; try discriminate; contradiction| |].
      - apply Nh. rewrite Es. now eexists.
      - apply (proj2 (Nl (p, a) p L (begins_refl p) (proj1 (long_begins p) Kl))). rewrite Es. exists v. now rewrite append_assoc. }
    assert (Ab : abbreviated s = []).
    { unfold abbreviated. destruct (is_long s) eqn:L.
      - destruct (split_eq s) as [[p v]|] eqn:Se.
        + destruct (filter _ option_table) as [|e l] eqn:Ef; [reflexivity|]. exfalso. assert (J : In e (filter (fun e => startswith (fst e) p) option_table)) by (rewrite Ef; now left).
          apply filter_In in J as [J B]. apply begins_starts in B. apply (proj2 (Nl e p J B (long_split _ _ _ L Se))). destruct (split_eq_some _ _ _ Se) as [-> _]. exists v. now rewrite append_assoc.
        + destruct (filter _ option_table) as [|e l] eqn:Ef; [reflexivity|]. exfalso. assert (J : In e (filter (fun e => startswith (fst e) s) option_table)) by (rewrite Ef; now left).
          apply filter_In in J as [J B]. apply begins_starts in B. now apply (proj1 (Nl e s J B (proj1 (long_begins s) L))).
      - destruct (flat_map _ option_table) as [|x l] eqn:Ef; [reflexivity|]. exfalso.
        assert (J : In x (x :: l)) by now left. rewrite <- Ef in J. apply in_flat_map in J as (e & Ie & J).
        apply Nh, (short_abbreviated s e L E N Ie). destruct (String.eqb_spec (fst e) (substring 0 2 s)); [now left|]. destruct (startswith (fst e) s) eqn:B; [right; now apply begins_starts|destruct J]. }
    rewrite Ab. destruct (split_eq s) as [[p v]|] eqn:Se.
    + rewrite (Sp p v eq_refl). destruct (negative_number s) eqn:Nn; [reflexivity|]. destruct R as [R|R]; [congruence|]. apply has_space_iff in R. now rewrite R.
    + destruct (negative_number s) eqn:Nn; [reflexivity|]. destruct R as [R|R]; [congruence|]. apply has_space_iff in R. now rewrite R.
  - destruct (startswith s "-") eqn:E; [cbn [negb]|intros _; left; intros B; apply begins_starts in B; congruence].
    destruct (lookup s) as [a|] eqn:Lo; [discriminate|]. destruct (String.eqb_spec s "-") as [->|N]; [intros _; right; now left|]. intros K. right. right.
    destruct (match split_eq s with Some (p, v) => match lookup p with Some a => Some (TOpt a (is_long p) (Some v)) | None => None end | None => None end) as [t|] eqn:Et.
    { injection K as ->. destruct (split_eq s) as [[p v]|]; [|discriminate]. destruct (lookup p); discriminate. }
    destruct (abbreviated s) as [|[[a l] v] [|? ?]] eqn:Ab; try discriminate.
    split; [|split].
    + intros (t & ->). unfold abbreviated in Ab. assert (Z : substring 0 2 ("-h" ++ t) = "-h") by (destruct t; reflexivity).
      cbn [is_long startswith String.prefix append] in Ab. cbn [append] in Z. rewrite Z in Ab. cbn in Ab. discriminate.
    + intros e n I B L. apply long_begins in L. pose proof (table_no_eq n (ex_intro _ e (conj I B))) as Se. unfold abbreviated in Ab. apply begins_starts in B. split.
      * intros ->. rewrite L, Se in Ab. apply map_eq_nil in Ab. assert (J : In e (filter (fun e => startswith (fst e) n) option_table)) by (now apply filter_In). rewrite Ab in J. destruct J.
      * intros (v & ->). rewrite append_assoc in *. cbn [append] in *. pose proof (split_eq_none n v Se) as Sv. cbn [append] in Sv.
        assert (L2 : is_long (n ++ String "=" v) = true) by (apply long_begins; apply long_begins in L; destruct L as (t & ->); exists (t ++ String "=" v)%string; now rewrite append_assoc).
        rewrite L2, Sv in Ab. apply map_eq_nil in Ab. assert (J : In e (filter (fun e => startswith (fst e) n) option_table)) by (now apply filter_In). rewrite Ab in J. destruct J.
    + destruct (negative_number s); [now left|]. destruct (has_space s) eqn:Hs; [|discriminate]. right. now apply has_space_iff.
Qed.
Lemma classify_arg_same s s' : classify s = Some (TArg s') -> s' = s.
Proof.
  unfold classify. destruct (startswith s "-"); cbn [negb]; [|congruence]. destruct (lookup s); [discriminate|]. destruct (String.eqb s "-"); [congruence|].
  destruct (split_eq s) as [[p v]|].
  - destruct (lookup p); [discriminate|]. destruct (abbreviated s) as [|[[a l] w] [|? ?]]; try discriminate. destruct (negative_number s); [congruence|]. destruct (has_space s); congruence.
  - destruct (abbreviated s) as [|[[a l] w] [|? ?]]; try discriminate. destruct (negative_number s); [congruence|]. destruct (has_space s); congruence.
Qed.
Lemma filter_single {A} (P : A -> bool) l x : filter P l = [x] -> In x l /\ P x = true /\ forall y, In y l -> P y = true -> y = x.
Proof.
  intros E. assert (I : In x (filter P l)) by (rewrite E; now left). apply filter_In in I as [I Px]. split; [exact I|]. split; [exact Px|].
  intros y J Py. assert (K : In y (filter P l)) by (now apply filter_In). rewrite E in K. destruct K as [<-|[]]. reflexivity.
Qed.
Lemma classify_option s a l v : classify s = Some (TOpt a l v) -> a <> Help ->
  exists n, names n a /\ (v = None /\ s = n \/ exists x, v = Some x /\ s = (n ++ "=" ++ x)%string).
Proof.
  unfold classify. destruct (startswith s "-") eqn:D; [cbn [negb]|discriminate]. destruct (lookup s) as [b|] eqn:Lo.
  { intros [= <- <- <-] _. apply lookup_in in Lo. exists s. split; [now left|]. now left. }
  destruct (String.eqb_spec s "-") as [->|N]; [discriminate|].
  destruct (match split_eq s with Some (p, v) => match lookup p with Some a => Some (TOpt a (is_long p) (Some v)) | None => None end | None => None end) as [t|] eqn:Et.
  { intros [= ->] _. destruct (split_eq s) as [[p w]|] eqn:Se; [|discriminate]. destruct (lookup p) as [b|] eqn:L; [|discriminate]. injection Et as <- <- <-.
    apply lookup_in in L. exists p. split; [now left|]. right. exists w. split; [reflexivity|]. apply (split_eq_some _ _ _ Se). }
  destruct (abbreviated s) as [|[[a' l'] v'] [|? ?]] eqn:Ab; [destruct (negative_number s); [discriminate|destruct (has_space s); discriminate]| |discriminate].
  intros [= -> -> ->] Nh. unfold abbreviated in Ab. destruct (is_long s) eqn:L.
  - destruct (split_eq s) as [[p w]|] eqn:Se.
    + destruct (filter _ option_table) as [|e [|? ?]] eqn:Ef; try discriminate. injection Ab as <- <- <-. destruct (filter_single _ _ _ Ef) as (I & B & U). exists p. split.
      * right. split; [exact (long_split _ _ _ L Se)|]. exists (fst e). split; [now rewrite <- surjective_pairing|]. split; [now apply begins_starts|].
        intros y J By. rewrite <- surjective_pairing. apply U; [exact J|now apply begins_starts].
      * right. exists w. split; [reflexivity|]. apply (split_eq_some _ _ _ Se).
    + destruct (filter _ option_table) as [|e [|? ?]] eqn:Ef; try discriminate. injection Ab as <- <- <-. destruct (filter_single _ _ _ Ef) as (I & B & U). exists s. split; [|now left].
      right. split; [now apply long_begins|]. exists (fst e). split; [now rewrite <- surjective_pairing|]. split; [now apply begins_starts|].
      intros y J By. rewrite <- surjective_pairing. apply U; [exact J|now apply begins_starts].
  - exfalso. assert (J : In (a, l, v) [(a, l, v)]) by now left. rewrite <- Ab in J. apply in_flat_map in J as (e & Ie & J).
    assert (Q : fst e = substring 0 2 s \/ begins s (fst e)).
    { destruct (String.eqb_spec (fst e) (substring 0 2 s)); [now left|]. destruct (startswith (fst e) s) eqn:B; [right; now apply begins_starts|destruct J]. }
    destruct (short_abbreviated s e L D N Ie Q) as [-> _]. apply Nh. destruct (String.eqb (fst ("-h", Help)) (substring 0 2 s)); [destruct J as [[= <- _ _]|[]]; reflexivity|].
    destruct (startswith (fst ("-h", Help)) s); [destruct J as [[= <- _ _]|[]]; reflexivity|destruct J].
Qed.
(* an abbreviation that two options share *)
Definition ambiguous (s : string) : Prop :=
  exists n e e', begins "--" n /\ In e option_table /\ In e' option_table /\ e <> e' /\ begins n (fst e) /\ begins n (fst e') /\
    lookup n = None /\ (s = n \/ begins (n ++ "=")%string s).
Lemma filter_two {A} (P : A -> bool) l x y r : NoDup l -> filter P l = x :: y :: r -> In x l /\ In y l /\ x <> y /\ P x = true /\ P y = true.
Proof.
  intros N E. pose proof (NoDup_filter P N) as Nf. rewrite E in Nf. inversion Nf as [|? ? K _]; subst.
  assert (I : forall z, In z (x :: y :: r) -> In z l /\ P z = true) by (intros z J; rewrite <- E in J; now apply filter_In).
  destruct (I x (or_introl eq_refl)), (I y (or_intror (or_introl eq_refl))). repeat split; auto. intros ->. apply K. now left.
Qed.
Lemma short_no_two s : is_long s = false -> startswith s "-" = true -> s <> "-" -> lookup s = None ->
  forall x y r, abbreviated s <> x :: y :: r.
Proof.
  intros L D N Lo x y r. unfold abbreviated. rewrite L. destruct s as [|c1 [|c2 s]]; [discriminate|apply begins_starts in D as (t & K2); injection K2 as ->; contradiction|].
  assert (D1 : c1 = "-"%char) by (apply begins_starts in D as (t & K2); now injection K2). subst c1.
  assert (D2 : c2 <> "-"%char) by (intros ->; destruct s; discriminate). assert (Z : substring 0 2 (String "-" (String c2 s)) = String "-" (String c2 "")) by (destruct s; reflexivity).
  rewrite Z. unfold option_table. cbn [flat_map fst snd String.eqb]. apply Ascii.eqb_neq in D2. rewrite Ascii.eqb_sym in D2. rewrite !D2. cbn [Ascii.eqb Bool.eqb].
  unfold startswith. cbn [String.prefix]. destruct (ascii_dec "-" "-"); [|contradiction]. destruct (ascii_dec c2 "-") as [->|]; [cbn in D2; discriminate|]. cbn [app].
  rewrite app_nil_r. match goal with |- (if ?b then _ else _) <> _ => destruct b end; [discriminate|]. match goal with |- (if ?b then _ else _) <> _ => destruct b end; discriminate.
Qed.
Lemma classify_none s : classify s = None -> ambiguous s.
Proof.
  unfold classify. destruct (startswith s "-") eqn:D; cbn [negb]; [|discriminate]. destruct (lookup s) as [a|] eqn:Lo; [discriminate|]. destruct (String.eqb_spec s "-") as [->|N]; [discriminate|].
  destruct (match split_eq s with Some (p, v) => match lookup p with Some a => Some (TOpt a (is_long p) (Some v)) | None => None end | None => None end) as [t|] eqn:Et; [discriminate|].
  destruct (abbreviated s) as [|[[a' l'] v'] [|z r]] eqn:Ab; [destruct (negative_number s); [discriminate|destruct (has_space s); discriminate]|discriminate|]. intros _.
  destruct (is_long s) eqn:L; [|exfalso; exact (short_no_two s L D N Lo _ _ _ Ab)]. unfold abbreviated in Ab. rewrite L in Ab. destruct (split_eq s) as [[p v]|] eqn:Se.
  - destruct (filter _ option_table) as [|e [|e' l2]] eqn:Ef; try discriminate. destruct (filter_two _ _ _ _ _ table_nodup Ef) as (I1 & I2 & Ne & B1 & B2). apply begins_starts in B1, B2.
    exists p, e, e'. destruct (split_eq_some _ _ _ Se) as [Es _]. repeat split; auto; [exact (long_split _ _ _ L Se)|destruct (lookup p); [discriminate|reflexivity]|].
    right. exists v. now rewrite append_assoc.
  - destruct (filter _ option_table) as [|e [|e' l2]] eqn:Ef; try discriminate. destruct (filter_two _ _ _ _ _ table_nodup Ef) as (I1 & I2 & Ne & B1 & B2). apply begins_starts in B1, B2.
    exists s, e, e'. repeat split; auto. now apply long_begins.
Qed.
Lemma classify_all_some l : (forall s, In s l -> ~ ambiguous s) -> classify_all l <> None.
Proof.
  induction l as [|s l IH]; intros K; [discriminate|]. cbn. destruct (classify s) eqn:E; [|exfalso; apply (K s (or_introl eq_refl)); now apply classify_none].
  destruct (classify_all l) eqn:E2; [discriminate|]. exfalso. apply IH; [|reflexivity]. intros x I. apply K. now right.
Qed.

(* ---- parsing ---- *)
Section Parsing.
  Variable to_float : string -> option Q.
  Definition tokens (s : setting) : list token :=
    match s with
    | Value n true d v => [TOpt (Store d) (is_long n) (Some v)]
    | Value n false d v => [TOpt (Store d) (is_long n) None; TArg v]
    | Flag n => [TOpt StoreTrue (is_long n) None]
    end.
  Definition apply (a : args) (s : setting) : args :=
    match s with
    | Value _ _ d v => match store to_float d v a with Some a' => a' | None => a end
    | Flag _ => set_all_fits a
    end.
  Lemma classify_all_app l l' t t' : classify_all l = Some t -> classify_all l' = Some t' -> classify_all (l ++ l') = Some (t ++ t').
  Proof.
    revert t. induction l as [|s l IH]; intros t K K'; cbn in K |- *; [injection K as <-; exact K'|].
    destruct (classify s) as [x|]; [|discriminate]. destruct (classify_all l) as [xs|]; [|discriminate]. injection K as <-. now rewrite (IH xs eq_refl K').
  Qed.
  Lemma classify_words s : valid to_float s -> classify_all (words s) = Some (tokens s).
  Proof.
    destruct s as [n [] d v|n]; cbn -[classify]; intros V.
    - destruct V as (K & _ & _). change (n ++ String "=" v)%string with (n ++ "=" ++ v)%string. now rewrite (classify_attached n _ v K).
    - destruct V as (K & A & _). rewrite (classify_name n _ K). rewrite (proj1 (classify_argument v) (A eq_refl)). reflexivity.
    - now rewrite (classify_name n _ V).
  Qed.
  Lemma classify_command l : Forall (valid to_float) l -> classify_all (command l) = Some (concat (map tokens l)).
  Proof. induction 1 as [|s l V F IH]; [reflexivity|]. cbn [command map concat]. apply classify_all_app; [now apply classify_words|exact IH]. Qed.
  Lemma store_valid n b d v a : valid to_float (Value n b d v) -> store to_float d v a = Some (apply a (Value n b d v)).
  Proof.
    intros (_ & _ & Y). cbn. destruct (store to_float d v a) as [a'|] eqn:E; [reflexivity|]. exfalso. destruct a as [i o q y dt w s x al f], d; try discriminate.
    cbn in E. apply Y; [reflexivity|]. now destruct (to_float v).
  Qed.
  Lemma consume_command l a : Forall (valid to_float) l -> consume to_float (concat (map tokens l)) false a = Parsed (fold_left apply l a).
  Proof.
    intros F. revert a. induction F as [|s l V F IH]; intros a; [reflexivity|]. cbn [map concat]. destruct s as [n [] d v|n]; cbn [tokens app consume fold_left].
    - rewrite (store_valid _ _ _ _ a V). apply IH.
    - rewrite (store_valid _ _ _ _ a V). apply IH.
    - apply IH.
  Qed.
  Lemma final_snoc d l s : final d (l ++ [s]) = match s with Value _ _ d' v => if dest_eqb d d' then Some v else final d l | Flag _ => final d l end.
  Proof. unfold final. rewrite rev_app_distr. cbn. destruct s as [n b d' v|n]; cbn; [|reflexivity]. now destruct (dest_eqb d d'). Qed.
  Lemma fold_settled l : Forall (valid to_float) l -> fold_left apply l no_args = settled to_float l.
  Proof.
    induction l as [|s l IH] using rev_ind; intros F; [reflexivity|]. apply Forall_app in F as [F1 F2]. inversion F2 as [|? ? V _]; subst.
    rewrite fold_left_app, (IH F1). cbn [fold_left]. unfold settled. rewrite !final_snoc, existsb_app. cbn [existsb].
    destruct s as [n b d v|n]; [|cbn; now rewrite orb_true_r]. cbn [orb]. rewrite orb_false_r. destruct V as (_ & _ & Y).
    destruct d; try reflexivity. cbn. specialize (Y eq_refl). destruct (to_float v); [reflexivity|contradiction].
  Qed.
  Theorem parse_accepts l : Forall (valid to_float) l -> parse_args to_float (command l) = Parsed (settled to_float l).
  Proof. intros F. unfold parse_args. rewrite (classify_command l F), (consume_command l _ F). now rewrite fold_settled. Qed.

  Lemma consume_extra ts a r : consume to_float ts true a <> Parsed r.
  Proof.
    assert (K : forall n ts a, (length ts <= n)%nat -> consume to_float ts true a <> Parsed r).
    { induction n as [|n IH]; intros t b L; [destruct t; [discriminate|cbn in L; lia]|]. destruct t as [|x t]; [discriminate|]. cbn in L.
      destruct x as [s|ac l v|]; cbn [consume]; [apply IH; lia| |apply IH; lia]. destruct ac as [d| |].
      - destruct v as [v|].
        + destruct (store to_float d v b); [apply IH; lia|discriminate].
        + destruct t as [|[v| |] t]; try discriminate. cbn in L. destruct (store to_float d v b); [apply IH; lia|discriminate].
      - destruct v; [discriminate|apply IH; lia].
      - destruct v as [s|]; [|discriminate]. destruct l; [discriminate|]. destruct (String.eqb s ""); [discriminate|]. destruct (only_h s); discriminate. }
    now apply (K (length ts)).
  Qed.
  Lemma store_years d v a a' : store to_float d v a = Some a' -> d = DYears -> to_float v <> None.
  Proof. intros K -> E. destruct a. cbn in K. rewrite E in K. discriminate. Qed.
  Lemma parse_complete_aux n argv ts a r : (length argv <= n)%nat -> classify_all argv = Some ts -> consume to_float ts false a = Parsed r ->
    exists l, Forall (valid to_float) l /\ argv = command l /\ r = fold_left apply l a.
  Proof.
    revert argv ts a. induction n as [|n IH]; intros argv ts a L C K.
    { destruct argv; [|cbn in L; lia]. injection C as <-. injection K as <-. now exists []. }
    destruct argv as [|s argv]; [injection C as <-; injection K as <-; now exists []|]. cbn [classify_all] in C. destruct (classify s) as [t|] eqn:Es; [|discriminate].
    destruct (classify_all argv) as [ts'|] eqn:Ct; [|discriminate]. injection C as <-. cbn in L. destruct t as [w|ac lg v|]; cbn [consume] in K; [now apply consume_extra in K| |now apply consume_extra in K].
    destruct ac as [d| |].
    - destruct (classify_option _ _ _ _ Es ltac:(discriminate)) as (nm & Nm & [[-> ->]|(x & -> & ->)]).
      + destruct ts' as [|[w| |] ts']; try discriminate. destruct argv as [|s' argv]; [discriminate|]. cbn [classify_all] in Ct. destruct (classify s') as [t'|] eqn:Es'; [|discriminate].
        destruct (classify_all argv) as [ts2|] eqn:Ct'; [|discriminate]. injection Ct as -> ->. pose proof (classify_arg_same _ _ Es'). subst w.
        destruct (store to_float d s' a) as [a'|] eqn:St; [|discriminate]. cbn in L. destruct (IH argv ts' a' ltac:(lia) Ct' K) as (l & F & -> & ->).
        exists (Value nm false d s' :: l). split; [|split; [reflexivity|cbn; now rewrite St]]. constructor; [|exact F].
        split; [exact Nm|]. split; [intros _; now apply classify_argument|exact (store_years _ _ _ _ St)].
      + destruct (store to_float d x a) as [a'|] eqn:St; [|discriminate]. destruct (IH argv ts' a' ltac:(lia) Ct K) as (l & F & -> & ->).
        exists (Value nm true d x :: l). split; [|split; [reflexivity|cbn; now rewrite St]]. constructor; [|exact F].
        split; [exact Nm|]. split; [discriminate|exact (store_years _ _ _ _ St)].
    - destruct (classify_option _ _ _ _ Es ltac:(discriminate)) as (nm & Nm & [[-> ->]|(x & -> & ->)]); [|discriminate].
      destruct (IH argv ts' _ ltac:(lia) Ct K) as (l & F & -> & ->). exists (Flag nm :: l). split; [constructor; [exact Nm|exact F]|]. now split.
    - destruct v as [w|]; [|discriminate]. destruct lg; [discriminate|]. destruct (String.eqb w ""); [discriminate|]. destruct (only_h w); discriminate.
  Qed.
  Theorem parse_iff argv a : parse_args to_float argv = Parsed a <-> exists l, Forall (valid to_float) l /\ argv = command l /\ a = settled to_float l.
  Proof.
    split; [|intros (l & F & -> & ->); now apply parse_accepts]. unfold parse_args. destruct (classify_all argv) as [ts|] eqn:C; [|discriminate]. intros K.
    destruct (parse_complete_aux _ argv ts _ a (le_n _) C K) as (l & F & E & ->). exists l. split; [exact F|]. split; [exact E|now apply fold_settled].
  Qed.
  (* every other command line ends the program *)
  Lemma consume_exit ts e a n : consume to_float ts e a = Exit n -> n = 0%Z \/ n = 1%Z \/ n = 2%Z.
  Proof.
    assert (Q : forall k ts e a, (length ts <= k)%nat -> consume to_float ts e a = Exit n -> n = 0%Z \/ n = 1%Z \/ n = 2%Z).
    { induction k as [|k IH]; intros t x b L; [destruct t; [|cbn in L; lia]; destruct x; [intros [= <-]; auto|discriminate]|].
      destruct t as [|y t]; [destruct x; [intros [= <-]; auto|discriminate]|]. cbn in L. destruct y as [s|ac l v|]; cbn [consume]; [apply IH; lia| |apply IH; lia]. destruct ac as [d| |].
      - destruct v as [v|].
        + destruct (store to_float d v b); [apply IH; lia|intros [= <-]; auto].
        + destruct t as [|[v| |] t]; try (intros [= <-]; auto; fail). cbn in L. destruct (store to_float d v b); [apply IH; lia|intros [= <-]; auto].
      - destruct v; [intros [= <-]; auto|apply IH; lia].
      - destruct v as [s|]; [|intros [= <-]; auto]. destruct l; [intros [= <-]; auto|]. destruct (String.eqb s ""); [intros [= <-]; auto|]. destruct (only_h s); intros [= <-]; auto. }
    apply (Q (length ts)). lia.
  Qed.
  (* the order of the options does not matter as long as none is given twice *)
  Definition subject (s : setting) : option dest := match s with Value _ _ d _ => Some d | Flag _ => None end.
  Lemma dest_eqb_eq a b : dest_eqb a b = true <-> a = b.
  Proof. split; [destruct a, b; (reflexivity || discriminate)|intros ->; now destruct b]. Qed.
  Lemma final_some d l v : final d l = Some v -> exists n b, In (Value n b d v) l.
  Proof.
    unfold final. destruct (find _ _) as [[n b d' w|n]|] eqn:E; try discriminate. intros [= ->]. apply find_some in E as [I K]. cbn in K. apply dest_eqb_eq in K. subst d'.
    apply in_rev in I. eauto.
  Qed.
  Lemma final_none d l : final d l = None <-> forall n b v, ~ In (Value n b d v) l.
  Proof.
    split.
    - unfold final. destruct (find _ _) as [[n b d' w|n]|] eqn:E; [discriminate|apply find_some in E as [_ K]; discriminate|]. intros _ n b v I. apply in_rev in I.
      pose proof (find_none _ _ E _ I) as K. cbn in K. destruct d; discriminate.
    - intros K. destruct (final d l) as [v|] eqn:E; [|reflexivity]. destruct (final_some _ _ _ E) as (n & b & I). now apply K in I.
  Qed.
  (* at most one value for an option *)
  Definition once (l : list setting) : Prop :=
    forall d n b v n' b' v', In (Value n b d v) l -> In (Value n' b' d v') l -> v = v'.
  (* two command lines say the same *)
  Definition same (l l' : list setting) : Prop :=
    (forall d v, (exists n b, In (Value n b d v) l) <-> (exists n b, In (Value n b d v) l')) /\
    ((exists n, In (Flag n) l) <-> (exists n, In (Flag n) l')).
  Lemma final_same l l' d : once l -> same l l' -> final d l = final d l'.
  Proof.
    intros O [S1 _]. destruct (final d l) as [v|] eqn:E.
    - destruct (final d l') as [v'|] eqn:E'.
      + destruct (final_some _ _ _ E) as (n & b & I). destruct (final_some _ _ _ E') as (n' & b' & I'). destruct (proj2 (S1 d v') (ex_intro _ n' (ex_intro _ b' I'))) as (n2 & b2 & I2).
        now rewrite (O d _ _ _ _ _ _ I I2).
      + destruct (final_some _ _ _ E) as (n & b & I). destruct (proj1 (S1 d v) (ex_intro _ n (ex_intro _ b I))) as (n2 & b2 & I2). now apply (proj1 (final_none d l') E') in I2.
    - destruct (final d l') as [v'|] eqn:E'; [|reflexivity]. destruct (final_some _ _ _ E') as (n & b & I). destruct (proj2 (S1 d v') (ex_intro _ n (ex_intro _ b I))) as (n2 & b2 & I2).
      now apply (proj1 (final_none d l) E) in I2.
  Qed.
  Theorem settled_same l l' : once l -> same l l' -> settled to_float l = settled to_float l'.
  Proof.
    intros O S1. unfold settled. rewrite !(final_same l l' _ O S1). f_equal. destruct S1 as [_ [A B]].
    apply eq_true_iff_eq. rewrite !existsb_exists. split.
    - intros ([?|n] & I & K); [discriminate|]. destruct (A (ex_intro _ n I)) as (n' & I'). now exists (Flag n').
    - intros ([?|n] & I & K); [discriminate|]. destruct (B (ex_intro _ n I)) as (n' & I'). now exists (Flag n').
  Qed.
  (* a help option among the words ends the program before anything is done *)
  Theorem help_exit l h rest : Forall (valid to_float) l -> names h Help -> (forall s, In s rest -> ~ ambiguous s) ->
    parse_args to_float (command l ++ h :: rest) = Exit 0.
  Proof.
    intros F Hn R. apply classify_all_some in R.
    unfold parse_args. destruct (classify_all rest) as [ts|] eqn:E; [|contradiction].
    assert (K : classify_all (command l ++ h :: rest) = Some (concat (map tokens l) ++ TOpt Help (is_long h) None :: ts)).
    { apply classify_all_app; [now apply classify_command|]. cbn [classify_all]. now rewrite (classify_name h _ Hn), E. }
    rewrite K. clear K. generalize no_args. induction F as [|s l V F IH]; intros a; [reflexivity|]. cbn [map concat]. rewrite <- app_assoc.
    destruct s as [n [] d v|n]; cbn [tokens app consume].
    - rewrite (store_valid _ _ _ _ a V). apply IH.
    - rewrite (store_valid _ _ _ _ a V). apply IH.
    - apply IH.
  Qed.
End Parsing.

Section MainRun.
  Context {T : Type} `{NumOps T}.
  Variable to_float : string -> option Q.
  Variables exists_ isdir : string -> bool.
  Variable W : string -> world T.
  Variable defaults : config T.
  Variable L : libs.
  Variable read : option string -> string -> string -> string -> string -> string -> raw T.
  Notation run := (main to_float exists_ isdir W defaults L read).
  (* the value given for an option, or its default *)
  Definition given (l : list setting) (d : dest) (default : string) : string := or_default (final d l) default.
  Definition years_given (l : list setting) : Q :=
    match final DYears l with Some v => match to_float v with Some q => q | None => 2%Q end | None => 2%Q end.
  Theorem main_command l : Forall (valid to_float) l ->
    run (command l) = Parsed (run_app exists_ isdir W defaults L (final DIn l) (final DOut l) (years_given l)
      (read (final DIn l) (given l DY "y") (given l DWeight "weight") (given l DX "x") (given l DDate "date") (given l DSource "source"))
      (existsb (fun s => match s with Flag _ => true | _ => false end) l) (given l DFormat "png")).
  Proof. intros F. unfold main. now rewrite (parse_accepts to_float l F). Qed.
  Theorem main_default p : argument p ->
    run ["--path_in"; p] = Parsed (run_app exists_ isdir W defaults L (Some p) None 2 (read (Some p) "y" "weight" "x" "date" "source") false "png").
  Proof.
    intros A. assert (V : Forall (valid to_float) [Value "--path_in" false DIn p]).
    { constructor; [|constructor]. split; [left; cbn; tauto|]. split; [intros _; exact A|discriminate]. }
    exact (main_command _ V).
  Qed.
  Theorem main_no_input l : Forall (valid to_float) l -> (forall n b v, ~ In (Value n b DIn v) l) -> run (command l) = Parsed (Err AssertionError).
  Proof. intros F K. rewrite (main_command l F). rewrite (proj2 (final_none DIn l) K). reflexivity. Qed.
  Theorem main_runs argv r : run argv = Parsed r -> exists l, Forall (valid to_float) l /\ argv = command l.
  Proof.
    unfold main. destruct (parse_args to_float argv) as [a|] eqn:E; [|discriminate]. intros _. apply parse_iff in E as (l & F & E & _). eauto.
  Qed.
  Theorem main_same l l' : Forall (valid to_float) l -> Forall (valid to_float) l' -> once l -> same l l' -> run (command l) = run (command l').
  Proof.
    intros F F' O S1. unfold main. now rewrite (parse_accepts to_float l F), (parse_accepts to_float l' F'), (settled_same to_float l l' O S1).
  Qed.
  Theorem main_exit argv n : run argv = Exit n -> n = 0%Z \/ n = 1%Z \/ n = 2%Z.
  Proof.
    unfold main, parse_args. destruct (classify_all argv); [|intros [= <-]; auto]. destruct (consume _ _ _ _) as [|m] eqn:E; [discriminate|]. intros [= <-]. exact (consume_exit _ _ _ _ _ E).
  Qed.
End MainRun.
