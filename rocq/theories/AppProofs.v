(* Facts about the command line application (App.v). *)
From Coq Require Import ZArith String Ascii List Bool Lia QArith_base.
From Verif Require Import Num Py Model Freq Normalize Fit Select Pi Forecast Plot App.
From Verif Require Import StringProofs NormalizeProofs ForecastProofs PiProofs PlotProofs.
Import ListNotations.
Local Open Scope string_scope.

Fixpoint has_char (c : ascii) (s : string) : bool :=
  match s with "" => false | String d r => Ascii.eqb d c || has_char c r end.
(* a file name, and a folder name that does not end with a slash *)
Definition plain (s : string) : Prop := has_char slash s = false.
Definition no_trailing_slash (s : string) : Prop := forall d, s <> d ++ "/".

Lemma app_assoc_s (a b c : string) : (a ++ b) ++ c = a ++ (b ++ c).
Proof. induction a as [|x a IH]; [reflexivity|]. cbn. now rewrite IH. Qed.
Lemma app_nil_s (a : string) : a ++ "" = a.
Proof. induction a as [|x a IH]; [reflexivity|]. cbn. now rewrite IH. Qed.
Lemma split_plain s : plain s -> split_path s = ("", s).
Proof.
  unfold plain. induction s as [|c s IH]; intros P; [reflexivity|]. cbn in P. apply orb_false_iff in P as [P1 P2]. cbn. rewrite IH by exact P2. now rewrite P1.
Qed.
Lemma split_slash d f : plain f -> split_path (d ++ "/" ++ f) = (d ++ "/", f).
Proof.
  intros P. induction d as [|c d IH].
  - cbn [append]. cbn [split_path]. rewrite split_plain by exact P. reflexivity.
  - cbn [append split_path]. cbn [append] in IH. rewrite IH. now destruct d.
Qed.
Lemma rstrip_append_slash d : rstrip (d ++ "/") = rstrip d.
Proof. induction d as [|c d IH]; [reflexivity|]. cbn [append rstrip]. now rewrite IH. Qed.
Lemma rstrip_id d : no_trailing_slash d -> rstrip d = d.
Proof.
  induction d as [|c d IH]; intros N; [reflexivity|]. cbn [rstrip]. rewrite IH.
  - destruct d as [|x d]; [|reflexivity]. destruct (Ascii.eqb_spec c slash) as [->|]; [|reflexivity]. exfalso. exact (N "" eq_refl).
  - intros e E. apply (N (String c e)). cbn. now rewrite E.
Qed.
Lemma basename_plain f : plain f -> basename f = f.
Proof. intros P. unfold basename. now rewrite split_plain. Qed.
Lemma basename_slash d f : plain f -> basename (d ++ "/" ++ f) = f.
Proof. intros P. unfold basename. now rewrite split_slash. Qed.
Lemma dirname_plain f : plain f -> dirname f = "".
Proof. intros P. unfold dirname. now rewrite split_plain. Qed.
Lemma dirname_slash d f : plain f -> no_trailing_slash d -> dirname (d ++ "/" ++ f) = match d with "" => "/" | _ => d end.
Proof.
  intros P N. unfold dirname. rewrite split_slash by exact P. cbn [fst]. rewrite rstrip_append_slash, rstrip_id by exact N. now destruct d.
Qed.
Lemma last_char s c : ends_with_slash (s ++ String c "") = Ascii.eqb c slash.
Proof.
  unfold ends_with_slash. destruct s as [|x s].
  - cbn. unfold slash. destruct (Ascii.eqb c "/"); reflexivity.
  - cbn [append].
    assert (G : forall s, String.substring (String.length (s ++ String c "") - 1) 1 (s ++ String c "") = String c "").
    { clear. induction s as [|y s IH]; [reflexivity|]. cbn [append String.length]. replace (Datatypes.S (String.length (s ++ String c "")) - 1)%nat with (String.length (s ++ String c "")) by lia.
      destruct (String.length (s ++ String c "")) as [|k] eqn:E; [destruct s; discriminate|]. cbn [String.substring]. replace k with (Datatypes.S k - 1)%nat by lia. exact IH. }
    change (String x (s ++ String c "")) with (String x s ++ String c ""). rewrite (G (String x s)). cbn. unfold slash. destruct (Ascii.eqb c "/"); reflexivity.
Qed.
Lemma string_snoc s : s = "" \/ exists r c, s = r ++ String c "".
Proof.
  induction s as [|x s [->|(r & c & ->)]]; [now left|right; now exists "", x|right; now exists (String x r), c].
Qed.
Lemma ends_iff s : ends_with_slash s = false <-> no_trailing_slash s.
Proof.
  destruct (string_snoc s) as [->|(r & c & ->)].
  - split; [|reflexivity]. intros _ d E. destruct d; discriminate.
  - rewrite last_char. split.
    + intros N d E. assert (K : ends_with_slash (r ++ String c "") = ends_with_slash (d ++ "/")) by now rewrite E. rewrite !last_char in K. rewrite N in K. discriminate.
    + intros N. destruct (Ascii.eqb_spec c slash) as [->|]; [|reflexivity]. exfalso. exact (N r eq_refl).
Qed.
Lemma join_folder d f : no_trailing_slash d -> d <> "" -> startswith f "/" = false -> join d f = d ++ "/" ++ f.
Proof.
  intros N D F. unfold join. rewrite F. destruct (String.eqb_spec d "") as [|_]; [congruence|]. apply ends_iff in N. now rewrite N.
Qed.
Lemma stem_split s r : has_char dot s = false -> (r = "" \/ exists r', r = "." ++ r') -> stem (s ++ r) = s.
Proof.
  intros N R. induction s as [|c s IH]; cbn [append].
  - destruct R as [->|(r' & ->)]; reflexivity.
  - cbn in N. apply orb_false_iff in N as [N1 N2]. cbn [stem]. rewrite N1, IH; [reflexivity|exact N2].
Qed.
Lemma stem_parts s : exists r, s = stem s ++ r /\ (r = "" \/ exists r', r = "." ++ r') /\ has_char dot (stem s) = false.
Proof.
  induction s as [|c s (r & E & R & N)]; [exists ""; repeat split; now left|]. cbn [stem].
  destruct (Ascii.eqb_spec c dot) as [->|D].
  - exists (String dot s). repeat split. right. now exists s.
  - exists r. cbn [append has_char]. apply Ascii.eqb_neq in D. rewrite D, N, <- E. now repeat split.
Qed.
Lemma has_char_app c a b : has_char c (a ++ b) = (has_char c a || has_char c b)%bool.
Proof. induction a as [|x a IH]; [reflexivity|]. cbn. now rewrite IH, orb_assoc. Qed.
Lemma plain_start s : plain s -> startswith s "/" = false.
Proof.
  unfold plain. destruct s as [|c s]; [reflexivity|]. cbn [has_char]. intros P. apply orb_false_iff in P as [P _].
  unfold startswith. now rewrite prefix_letter.
Qed.
Lemma split_tail_plain s : plain (snd (split_path s)).
Proof.
  unfold plain. induction s as [|c s IH]; [reflexivity|]. cbn [split_path]. destruct (split_path s) as [h t]. cbn [snd] in IH.
  destruct h; [|exact IH]. destruct (Ascii.eqb c slash) eqn:E; cbn [snd has_char]; [exact IH|]. now rewrite E, IH.
Qed.
Lemma plain_stem s : plain s -> plain (stem s).
Proof.
  intros P. destruct (stem_parts s) as (r & E & _). unfold plain in *. rewrite E in P. rewrite has_char_app in P. now apply orb_false_iff in P.
Qed.

(* ---------- C51 ---------- *)
Theorem paths_ok ex dir i o : ex i = true -> dir i = false -> ex (match o with Some o => o | None => i end) = true ->
  exists p, app_paths ex dir (Some i) o = Ok p.
Proof. intros E D O. unfold app_paths. rewrite E, D, O. cbn [negb]. eexists. reflexivity. Qed.
Theorem paths_refused ex dir i o : app_paths ex dir i o = Err AssertionError <->
  (i = None \/ exists p, i = Some p /\ (ex p = false \/ dir p = true \/ exists q, o = Some q /\ ex q = false)).
Proof.
  unfold app_paths. destruct i as [p|]; [|split; auto]. split.
  - intros E. right. exists p. split; [reflexivity|]. destruct (ex p) eqn:Ex; cbn [negb] in E; [|auto]. destruct (dir p); [auto|]. right. right.
    destruct o as [q|].
    + exists q. split; [reflexivity|]. destruct (ex q); [discriminate|reflexivity].
    + rewrite Ex in E. discriminate.
  - intros [C|(p' & [= <-] & [C|[C|(q & -> & C)]])]; [discriminate|now rewrite C| |].
    + rewrite C. now destruct (ex p).
    + rewrite C. destruct (ex p); [|reflexivity]. now destruct (dir p).
Qed.
(* [i] is a path whose file name is [s] followed by nothing or by a dot and more *)
Definition named (i s : string) : Prop :=
  plain s /\ has_char dot s = false /\
  exists ext, (ext = "" \/ exists e, ext = "." ++ e /\ plain e) /\ (i = s ++ ext \/ exists d, i = d ++ "/" ++ s ++ ext).
(* [q] is the file called [f] in the folder that holds [dest]; the folder is the working directory
   for a path without slash *)
Definition beside (dest f q : string) : Prop :=
  (plain dest /\ q = f) \/ exists d g, dest = d ++ "/" ++ g /\ plain g /\ no_trailing_slash d /\ q = d ++ "/" ++ f.
Lemma named_stem i s : named i s -> stem (basename i) = s.
Proof.
  intros (P & D & ext & Ex & Hi).
  assert (Pe : plain (s ++ ext)). { unfold plain in *. rewrite has_char_app, P. destruct Ex as [->|(e & -> & Pe)]; [reflexivity|]. cbn. exact Pe. }
  assert (basename i = s ++ ext) as ->. { destruct Hi as [->|(d & ->)]; [now apply basename_plain|now apply basename_slash]. }
  apply stem_split; [exact D|]. destruct Ex as [->|(e & -> & _)]; [now left|right; now exists e].
Qed.
Lemma join_beside dest f q : plain f -> beside dest f q -> join (dirname dest) f = q.
Proof.
  intros P [(Pd & ->)|(d & g & -> & Pg & N & ->)].
  - rewrite dirname_plain by exact Pd. unfold join. now rewrite plain_start.
  - rewrite dirname_slash by assumption. destruct d as [|c d].
    + unfold join. now rewrite plain_start.
    + apply join_folder; [exact N|discriminate|now apply plain_start].
Qed.
Lemma plain_app a b : plain a -> plain b -> plain (a ++ b).
Proof. unfold plain. intros A B. now rewrite has_char_app, A, B. Qed.
Theorem paths_names ex dir i o s p : named i s -> app_paths ex dir (Some i) o = Ok p ->
  let dest := match o with Some o => o | None => i end in
  (forall q, beside dest (s ++ "_fcast.csv") q -> p_data p = q) /\
  (forall q, beside dest (s ++ "_metadata.csv") q -> p_meta p = q) /\
  (forall q, beside dest (s ++ "_fcast") q -> p_plot p = q).
Proof.
  intros Hn E dest. assert (Ps : plain s) by apply Hn. unfold app_paths in E. destruct (negb (ex i)); [discriminate|]. destruct (dir i); [discriminate|].
  destruct (negb (ex _)); [discriminate|]. rewrite (named_stem i s Hn) in E. injection E as <-. cbn [p_data p_meta p_plot].
  repeat split; intros q B; apply join_beside; auto; apply plain_app; auto; reflexivity.
Qed.
(* every path has a name in this sense *)
Lemma named_exists i : exists s, named i s.
Proof.
  destruct (stem_parts (basename i)) as (r & E & R & D). exists (stem (basename i)). pose proof (split_tail_plain i) as Pt.
  change (snd (split_path i)) with (basename i) in Pt. split; [now apply plain_stem|]. split; [exact D|]. exists r. split.
  - destruct R as [->|(e & ->)]; [now left|]. right. exists e. split; [reflexivity|]. unfold plain in *. rewrite E, has_char_app in Pt. apply orb_false_iff in Pt as [_ Pt]. exact Pt.
  - rewrite <- E. destruct (has_char slash i) eqn:Hp.
    + right. clear - Hp. assert (exists h t, i = h ++ "/" ++ t /\ plain t) as (h & t & -> & Ht).
      { induction i as [|c p IH]; [discriminate|]. cbn in Hp. destruct (has_char slash p) eqn:K.
        - destruct IH as (h & t & -> & Ht); [reflexivity|]. exists (String c h), t. now split.
        - rewrite orb_false_r in Hp. apply Ascii.eqb_eq in Hp as ->. exists "", p. split; [reflexivity|exact K]. }
      exists h. now rewrite basename_slash.
    + left. symmetry. now apply basename_plain.
Qed.
(* the three outputs differ from each other, and none is the input *)
Lemma append_inj a b c : a ++ b = a ++ c -> b = c.
Proof. induction a as [|x a IH]; [auto|]. cbn. intros [= E]. auto. Qed.
Lemma basename_join d f : plain f -> basename (join d f) = f.
Proof.
  intros P. unfold join. rewrite plain_start by exact P. destruct (String.eqb_spec d "") as [->|N]; cbn [orb]; [now apply basename_plain|].
  destruct (ends_with_slash d) eqn:E; [|now apply basename_slash].
  destruct (string_snoc d) as [->|(r & c & ->)]; [congruence|]. rewrite last_char in E. apply Ascii.eqb_eq in E as ->.
  change (String slash "") with "/". rewrite app_assoc_s. now apply basename_slash.
Qed.
Theorem paths_distinct ex dir i o p : app_paths ex dir (Some i) o = Ok p ->
  p_data p <> i /\ p_meta p <> i /\ p_plot p <> i /\ p_data p <> p_meta p /\
  (forall ext, p_plot p ++ ext = p_meta p -> False) /\ (p_plot p ++ ".csv" = p_data p).
Proof.
  destruct (named_exists i) as (s & Hn). intros E. assert (Ps : plain s) by apply Hn. unfold app_paths in E. destruct (negb (ex i)); [discriminate|]. destruct (dir i); [discriminate|].
  destruct (negb (ex _)); [discriminate|]. rewrite (named_stem i s Hn) in E. injection E as <-. cbn [p_data p_meta p_plot].
  set (d := dirname _).
  assert (P : forall x, plain x -> plain (s ++ x)) by (intros x Px; now apply plain_app).
  assert (B : forall x, plain x -> basename (join d (s ++ x)) = s ++ x) by (intros x Px; apply basename_join; auto).
  assert (I : forall r, join d (s ++ String "_" r) = i -> plain r -> False).
  { intros r K Pr. apply (f_equal basename) in K. rewrite B in K by exact Pr. destruct Hn as (_ & _ & e & Ex & Hi).
    assert (Pe : plain (s ++ e)). { apply P. destruct Ex as [->|(e' & -> & Pe)]; [reflexivity|]. exact Pe. }
    assert (basename i = s ++ e) as Bi. { destruct Hi as [->|(d' & ->)]; [now apply basename_plain|now apply basename_slash]. }
    rewrite Bi in K. apply append_inj in K. subst e. destruct Ex as [C|(e' & C & _)]; discriminate. }
  assert (J : forall x, plain x -> join d (s ++ x) = (if String.eqb d "" || ends_with_slash d then d else d ++ "/") ++ s ++ x).
  { intros x Px. unfold join. rewrite plain_start by auto. destruct (_ || _)%bool; [reflexivity|]. now rewrite app_assoc_s. }
  repeat split.
  - intros K. apply (I "fcast.csv" K). reflexivity.
  - intros K. apply (I "metadata.csv" K). reflexivity.
  - intros K. apply (I "fcast" K). reflexivity.
  - intros K. rewrite !J in K by reflexivity. now do 2 apply append_inj in K.
  - intros e K. rewrite !J in K by reflexivity. rewrite !app_assoc_s in K. now do 2 apply append_inj in K.
  - rewrite !J by reflexivity. now rewrite !app_assoc_s.
Qed.

(* ---------- the whole run ---------- *)
Section Run.
  Context {T : Type} `{NumOps T}.
  Lemma run_forecast_normalized W (c : config T) s (t : raw T) f : normalize_df t = Ok (Some f) -> run_forecast W c s (raw_of f) = run_forecast W c s t.
  Proof. intros E. unfold run_forecast. now rewrite (normalize_idempotent t f E), E. Qed.
  (* a run that completes has written what run_forecast returns for the table *)
  Theorem app_writes ex dir W (c : config T) L i o years (t : raw T) all fmt out :
    run_app ex dir W c L i o years t all fmt = Ok out ->
    exists p r, app_paths ex dir i o = Ok p /\ run_forecast W (app_config c years all) "src" t = Ok (Some r) /\
      out_data out = (p_data p, rs_data r) /\ out_meta out = (p_meta p, rs_meta r) /\
      (forall g, out_plot out = Some g -> plot_forecast L fmt (Some (p_plot p)) app_size true (rs_data r) = Ok g).
  Proof.
    unfold run_app. destruct (app_paths ex dir i o) as [p|]; [|discriminate]. cbn [rbind].
    destruct (normalize_df t) as [[f|]|] eqn:En; try discriminate. cbn [rbind]. rewrite (run_forecast_normalized W _ _ t f En).
    destruct (run_forecast W (app_config c years all) "src" t) as [[r|]|]; try discriminate. cbn [rbind].
    destruct (plot_forecast L fmt (Some (p_plot p)) app_size true (rs_data r)) as [g|[]] eqn:Eg; try discriminate; intros [= <-]; exists p, r; repeat split; auto.
    - intros g' [= <-]. exact Eg.
    - intros g' [=].
  Qed.
  Theorem app_refuses ex dir W (c : config T) L i o years (t : raw T) all fmt :
    (app_paths ex dir i o = Err AssertionError \/ ((exists p, app_paths ex dir i o = Ok p) /\ t_rows t = [])) ->
    run_app ex dir W c L i o years t all fmt = Err AssertionError.
  Proof.
    intros [E|((p & E) & Et)]; unfold run_app; rewrite E; [reflexivity|]. cbn [rbind]. unfold normalize_df. now rewrite Et.
  Qed.
End Run.
