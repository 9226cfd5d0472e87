(* When a spike cannot be drawn (C12), bounds without samples (C11), letters after -h (C74). *)
From Coq Require Import ZArith String Ascii List Bool Reals Lia Lra Floats QArith_base.
From Verif Require Import Num Py Cal Fmt Model Base Dummy Main.
From Verif Require Import ListProofs NumProofs ModelProofs BaseProofs Ex Properties2.
Import ListNotations.
Local Open Scope string_scope.
Local Open Scope list_scope.

(* ================= C12 ================= *)
Lemma Rtrunc_spec r : ((r <= -1)%R -> (Rtrunc r < 0)%Z) /\ ((-1 < r)%R -> (0 <= Rtrunc r)%Z /\ (IZR (Rtrunc r) - 1 < r < IZR (Rtrunc r) + 1)%R).
Proof.
  unfold Rtrunc. destruct (Rltb_spec r 0) as [L|L].
  - destruct (base_Int_part (- r)) as [A B]. split; intros K.
    + assert (0 < Int_part (- r))%Z; [apply lt_IZR; lra|lia].
    + assert (Int_part (- r) < 1)%Z; [apply lt_IZR; lra|]. assert (-1 < Int_part (- r))%Z; [apply lt_IZR; lra|].
      assert (E : Int_part (- r) = 0%Z) by lia. rewrite E in *. change (IZR (- 0)) with 0%R. split; [lia|lra].
  - destruct (base_Int_part r) as [A B]. split; intros K; [lra|]. assert (-1 < Int_part r)%Z; [apply lt_IZR; lra|]. split; [lia|lra].
Qed.
Lemma Rtrunc_le (n : nat) r : (Rtrunc r <= Z.of_nat n)%Z <-> (r < INR n + 1)%R.
Proof.
  rewrite INR_IZR_INZ. destruct (Rle_dec r (-1)) as [K|K].
  - pose proof (proj1 (Rtrunc_spec r) K). assert (0 <= Z.of_nat n)%Z as J by lia. apply IZR_le in J. split; [lra|lia].
  - destruct (proj2 (Rtrunc_spec r)) as [P Q]; [lra|]. split; intros J.
    + apply IZR_le in J. lra.
    + unfold Rtrunc in *. destruct (Rltb_spec r 0) as [L|L].
      * destruct (base_Int_part (- r)). assert (-1 < Int_part (- r))%Z; [apply lt_IZR; lra|lia].
      * destruct (base_Int_part r). assert (Int_part r < Z.of_nat n + 1)%Z; [apply lt_IZR; rewrite plus_IZR; lra|lia].
Qed.
Lemma Rtrunc_neg r : (Rtrunc r <? 0)%Z = true <-> (r <= -1)%R.
Proof.
  rewrite Z.ltb_lt. destruct (Rtrunc_spec r) as [A B]. split; [intros K|exact A]. destruct (Rle_dec r (-1)) as [|J]; [assumption|]. assert (-1 < r)%R as J' by lra. specialize (B J'). lia.
Qed.
Lemma full_if n (c : XR) b : (n <? 0)%Z = b -> np_full n c = if b then Err ValueError else Ok (repeat c (Z.to_nat n)).
Proof. intros <-. reflexivity. Qed.
(* A spike is drawn exactly if its ends are finite and, cut towards zero, lie among the samples in the
   right order; with an infinite end Python's int() raises OverflowError, in the other cases the failure
   is a ValueError.  The result has one value per sample, or one more or one fewer. *)
Definition drawable (n : nat) (lo hi : XR) : Prop := exists l h, lo = Fin l /\ hi = Fin h /\ (-1 < l)%R /\ (-1 < h - l)%R /\ (h < INR n + 1)%R.
Definition infinite (v : XR) : Prop := v = XPInf \/ v = XNInf.
Theorem C12_spike_fails : forall xs d (a lo hi : XR) mult kw, let r := call model_spike xs d (Some [a; lo; hi]) mult kw in
  (drawable (length xs) lo hi <-> exists v, r = Ok (Ar v)) /\
  (infinite lo \/ (exists l, lo = Fin l /\ (-1 < l)%R) /\ infinite hi <-> r = Err OverflowError) /\
  (forall e, r = Err e -> e = OverflowError \/ e = ValueError) /\
  (forall v, r = Ok v -> exists w, v = Ar w /\ (length xs <= length w + 1 /\ length w <= length xs + 1)%nat).
Proof.
  intros xs d a lo hi mult kw. unfold call, infinite, drawable. cbn [fm_f model_spike mk_model]. unfold f_spike, unpack3. cbn [rbind].
  set (c := if mode_of false (Some mult) then n1 else n0). generalize c; clear c; intros c.
  destruct lo as [| | |l]; cbn.
  1-3: split; [split; [intros (? & ? & K & _); discriminate K|intros (? & K); discriminate K]|split; [|split; [intros e [= <-]; auto|intros v K; discriminate K]]].
  { split; [intros [[K|K]|[(? & K & _) _]]; discriminate K|intros K; discriminate K]. }
  1-2: split; [reflexivity|auto].
  destruct (Rtrunc l <? 0)%Z eqn:El; rewrite (full_if _ _ _ El).
  { apply Rtrunc_neg in El. cbn. split; [|split; [|split]].
    - split; [intros (l' & h & [= <-] & _ & K & _); lra|intros (? & K); discriminate K].
    - split; [intros [[K|K]|[(? & [= <-] & K) _]]; try discriminate; lra|intros K; discriminate K].
    - intros e [= <-]; auto.
    - discriminate. }
  assert (Hl : (-1 < l)%R). { destruct (Rle_dec l (-1)) as [K|]; [apply Rtrunc_neg in K; congruence|lra]. } apply Z.ltb_ge in El.
  cbn [rbind]. destruct hi as [| | |h]; cbn.
  1-3: split; [split; [intros (? & ? & _ & K & _); discriminate K|intros (? & K); discriminate K]|split; [|split; [intros e [= <-]; auto|intros v K; discriminate K]]].
  { split; [intros [[K|K]|[_ [K|K]]]; discriminate|discriminate]. }
  { split; [reflexivity|]. intros _. right. split; [now exists l|auto]. }
  { split; [reflexivity|]. intros _. right. split; [now exists l|auto]. }
  change (h + - l)%R with (h - l)%R. destruct (Rtrunc (h - l) <? 0)%Z eqn:Eh; rewrite (full_if _ _ _ Eh).
  { apply Rtrunc_neg in Eh. cbn. split; [|split; [|split]].
    - split; [intros (l' & h' & [= <-] & [= <-] & _ & K & _); lra|intros (? & K); discriminate K].
    - split; [intros [[K|K]|[_ [K|K]]]; discriminate|discriminate].
    - intros e [= <-]; auto.
    - discriminate. }
  assert (Hh : (-1 < h - l)%R). { destruct (Rle_dec (h - l) (-1)) as [K|]; [apply Rtrunc_neg in K; congruence|lra]. } apply Z.ltb_ge in Eh.
  cbn [rbind]. destruct (Z.of_nat (length xs) - Rtrunc h <? 0)%Z eqn:En; rewrite (full_if _ _ _ En).
  { apply Z.ltb_lt in En. cbn. split; [|split; [|split]].
    - split; [intros (l' & h' & [= <-] & [= <-] & _ & _ & K); apply Rtrunc_le in K; lia|intros (? & K); discriminate K].
    - split; [intros [[K|K]|[_ [K|K]]]; discriminate|discriminate].
    - intros e [= <-]; auto.
    - discriminate. }
  apply Z.ltb_ge in En. cbn [rbind]. split; [|split; [|split]].
  - split; [intros _; eauto|intros _]. exists l, h. repeat split; auto. apply Rtrunc_le. lia.
  - split; [intros [[K|K]|[_ [K|K]]]; discriminate|discriminate].
  - discriminate.
  - intros v [= <-]. eexists. split; [reflexivity|]. rewrite !app_length, !repeat_length.
    destruct (proj2 (Rtrunc_spec l) Hl) as [_ Bl], (proj2 (Rtrunc_spec (h - l)) Hh) as [_ Bh].
    assert (K : (Rtrunc h - 1 <= Rtrunc l + Rtrunc (h - l) <= Rtrunc h + 1)%Z); [|lia].
    clear - Hl Hh. assert (E : forall A B : Z, (IZR A < IZR B + 1)%R -> (A <= B)%Z) by (intros A B J; assert (A < B + 1)%Z; [apply lt_IZR; rewrite plus_IZR; lra|lia]).
    unfold Rtrunc. destruct (Rltb_spec l 0), (Rltb_spec (h - l) 0), (Rltb_spec h 0);
      repeat match goal with |- context [Int_part ?x] => let z := fresh "z" in let Ez := fresh "E" in destruct (base_Int_part x) as [? ?]; set (z := Int_part x) in *; clearbody z end;
      split; apply E; rewrite ?minus_IZR, ?plus_IZR, ?opp_IZR; try lra.
Qed.
Print Assumptions C12_spike_fails.
Example C12_spike_fails_example : drawable 3 (Fin (1 / 2)) (Fin 2) /\ infinite XPInf /\ let N := fops in
  let r lo hi := call (T := float) model_spike [0; 0; 0]%float None (Some [5; lo; hi]%float) false no_kw in
  r 0.5%float 2%float = Ok (Ar [5; 0]%float) /\ r (-0.5)%float 0.5%float = Ok (Ar [5; 0; 0; 0]%float) /\
  r nan 1%float = Err ValueError /\ r infinity 1%float = Err OverflowError /\ r 2%float 1%float = Err ValueError /\ r 1%float 5%float = Err ValueError.
Proof.
  split; [exists (1 / 2)%R, 2%R; cbn; repeat split; lra|]. split; [now left|]. vm_compute. repeat split.
Qed.

(* ================= C11 ================= *)
(* Bounds that are read off the data need some.  sigmoid_step: no values or no samples is a ValueError,
   values without samples an AttributeError; ramp: IndexError.  The other models have bounds whatever the
   data. *)
Theorem C11_bounds_no_samples : forall (T : Type) (N : NumOps T) (y : T) ys x d,
  fm_bounds (T := T) model_sigmoid_step (Some []) (Some (y :: ys)) d = Err ValueError /\
  fm_bounds (T := T) model_sigmoid_step (Some x) (Some []) d = Err ValueError /\
  fm_bounds (T := T) model_sigmoid_step None (Some (y :: ys)) d = Err AttributeError /\
  (forall ay, fm_bounds (T := T) model_ramp (Some []) ay d = Err IndexError) /\
  (forall m : fmodel T, In m [model_constant; model_linear; model_linear_nondec; model_quasilinear; model_exp; model_decay; model_step; model_two_steps; model_spike; model_sigmoid] ->
     exists b, forall ax ay ad, fm_bounds m ax ay ad = Ok b).
Proof.
  intros T N y ys x d. split; [reflexivity|]. split; [reflexivity|]. split; [reflexivity|]. split; [reflexivity|].
  intros m I. cbn in I. decompose [or] I; clear I; try contradiction; subst m; eexists; intros ax ay ad; reflexivity.
Qed.
Print Assumptions C11_bounds_no_samples.
Example C11_bounds_example : let N := fops in
  (exists b, fm_bounds (T := float) model_sigmoid_step (Some [0; 1]%float) (Some [2; 5]%float) None = Ok b) /\
  fm_bounds (T := float) model_sigmoid_step (Some []) (Some [2; 5]%float) None = Err ValueError.
Proof. split; [eexists; reflexivity|reflexivity]. Qed.

(* ================= C74 ================= *)
(* What follows -h in the same word: nothing or more letters h show the help (exit status 0), after an
   equals sign likewise; '-h=' ends in a traceback (1); anything else is an error (2). *)
Definition all_h (t : string) : Prop := forall c, In c (list_ascii_of_string t) -> c = "h"%char.
Definition help_status (t : string) (n : Z) : Prop :=
  (n = 0%Z /\ (all_h t \/ exists u, t = String "=" u /\ u <> "" /\ all_h u)) \/
  (n = 1%Z /\ t = "=") \/
  (n = 2%Z /\ ~ all_h t /\ t <> "=" /\ ~ exists u, t = String "=" u /\ all_h u).
Lemma only_h_iff t : only_h t = true <-> all_h t.
Proof.
  unfold all_h. induction t as [|c t IH]; [split; [intros _ c []|reflexivity]|]. cbn [only_h list_ascii_of_string]. rewrite andb_true_iff, IH, Ascii.eqb_eq. split.
  - intros [-> K] c' [<-|J]; [reflexivity|now apply K].
  - intros K. split; [apply K; now left|]. intros c' J. apply K. now right.
Qed.
Lemma substring_all t : substring 0 (String.length t) t = t.
Proof. induction t as [|c t IH]; [reflexivity|]. cbn [String.length substring]. now rewrite IH. Qed.
Theorem C74_help : forall to_float t rest, classify_all rest <> None ->
  exists n, parse_args to_float (("-h" ++ t)%string :: rest) = Exit n /\ help_status t n.
Proof.
  intros to_float t rest K. unfold parse_args. cbn [classify_all]. destruct (classify_all rest) as [ts|]; [clear K|congruence].
  destruct t as [|c t].
  { exists 0%Z. split; [reflexivity|]. left. split; [reflexivity|]. left. intros c []. }
  destruct (ascii_dec c "=") as [->|Ne].
  - assert (C : classify ("-h" ++ String "=" t) = Some (TOpt Help false (Some t))) by reflexivity. rewrite C. cbn [consume].
    assert (Nh : ~ all_h (String "=" t)) by (intros J; specialize (J "="%char (or_introl eq_refl)); discriminate J).
    destruct (String.eqb_spec t "") as [->|Nt]; [exists 1%Z; split; [reflexivity|]; right; left; split; reflexivity|].
    destruct (only_h t) eqn:H.
    + exists 0%Z. split; [reflexivity|]. left. split; [reflexivity|]. right. exists t. split; [reflexivity|]. split; [exact Nt|now apply only_h_iff].
    + exists 2%Z. split; [reflexivity|]. right. right. split; [reflexivity|]. split; [exact Nh|]. split; [congruence|].
      intros (u & [= <-] & J). apply only_h_iff in J. congruence.
  - assert (C : classify ("-h" ++ String c t) = Some (TOpt Help false (Some (String c t)))).
    { unfold classify. change (negb (startswith ("-h" ++ String c t) "-")) with false. cbv iota.
      change (lookup ("-h" ++ String c t)) with (@None action). change (String.eqb ("-h" ++ String c t) "-") with false. cbv iota.
      assert (S : match split_eq ("-h" ++ String c t) with Some (p, v) => match lookup p with Some a => Some (TOpt a (is_long p) (Some v)) | None => None end | None => None end = None).
      { cbn [append split_eq]. change (Ascii.eqb "-" "=") with false. change (Ascii.eqb "h" "=") with false. cbv iota.
        destruct (Ascii.eqb_spec c "=") as [->|_]; [contradiction|]. destruct (split_eq t) as [[a b]|]; reflexivity. }
      rewrite S. assert (A : abbreviated ("-h" ++ String c t) = [(Help, false, Some (String c t))]).
      { unfold abbreviated. change (is_long ("-h" ++ String c t)) with false. cbv iota.
        assert (Z : substring 0 2 ("-h" ++ String c t) = "-h") by reflexivity. rewrite Z.
        assert (Z2 : substring 2 (String.length ("-h" ++ String c t) - 2) ("-h" ++ String c t) = String c t) by (cbn [append String.length substring Nat.sub]; now rewrite substring_all). rewrite Z2. reflexivity. }
      rewrite A. reflexivity. }
    rewrite C. cbn [consume]. change (String.eqb (String c t) "") with false. cbv iota.
    destruct (only_h (String c t)) eqn:H.
    + exists 0%Z. split; [reflexivity|]. left. split; [reflexivity|]. left. now apply only_h_iff.
    + exists 2%Z. split; [reflexivity|]. right. right. split; [reflexivity|]. split; [intros J; apply only_h_iff in J; congruence|]. split; [congruence|]. intros (u & [= J _] & _). contradiction.
Qed.
Print Assumptions C74_help.
Example C74_help_example : let p := parse_args (fun _ => None) in
  classify_all ["x"] <> None /\ p ["-h"] = Exit 0 /\ p ["-hhh"; "x"] = Exit 0 /\ p ["-hx"] = Exit 2 /\ p ["-h=h"] = Exit 0 /\ p ["-h="] = Exit 1.
Proof. split; [discriminate|]. repeat split. Qed.
