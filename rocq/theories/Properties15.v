(* Properties C74: the command line. *)
From Coq Require Import ZArith String Ascii List Bool QArith_base Lia.
From Verif Require Import Num Py Model Freq Normalize Fit Select Pi Forecast Plot App Main MainProofs.
Import ListNotations.
Local Open Scope string_scope.
Local Open Scope list_scope.

(* A command line of settings runs the application with the last value of each option, or its default. *)
Theorem C74_command : forall (T : Type) (N : NumOps T) to_float ex dir (W : string -> world T) c L
  (read : option string -> string -> string -> string -> string -> string -> raw T) l, Forall (valid to_float) l ->
  main to_float ex dir W c L read (command l) =
  Parsed (run_app ex dir W c L (final DIn l) (final DOut l) (years_given to_float l)
    (read (final DIn l) (given l DY "y") (given l DWeight "weight") (given l DX "x") (given l DDate "date") (given l DSource "source"))
    (existsb (fun s => match s with Flag _ => true | _ => false end) l) (given l DFormat "png")).
Proof. exact @main_command. Qed.
Print Assumptions C74_command.

(* Only command lines of settings run it: anything else ends with exit code 0 (help), 1 or 2. *)
Theorem C74_only : forall to_float argv a, parse_args to_float argv = Parsed a <->
  exists l, Forall (valid to_float) l /\ argv = command l /\ a = settled to_float l.
Proof. exact parse_iff. Qed.
Print Assumptions C74_only.
Theorem C74_exit : forall (T : Type) (N : NumOps T) to_float ex dir (W : string -> world T) c L read argv n,
  main to_float ex dir W c L read argv = Exit n -> n = 0%Z \/ n = 1%Z \/ n = 2%Z.
Proof. exact @main_exit. Qed.
Print Assumptions C74_exit.

(* The order of the options, their abbreviations and the form '--name=value' make no difference. *)
Theorem C74_order : forall (T : Type) (N : NumOps T) to_float ex dir (W : string -> world T) c L read l l',
  Forall (valid to_float) l -> Forall (valid to_float) l' -> once l -> same l l' ->
  main to_float ex dir W c L read (command l) = main to_float ex dir W c L read (command l').
Proof. exact @main_same. Qed.
Print Assumptions C74_order.

(* Only --path_in is required, but its absence is found only by the assertion in run_forecast_app. *)
Theorem C74_default : forall (T : Type) (N : NumOps T) to_float ex dir (W : string -> world T) c L
  (read : option string -> string -> string -> string -> string -> string -> raw T) p, argument p ->
  main to_float ex dir W c L read ["--path_in"; p] =
  Parsed (run_app ex dir W c L (Some p) None 2 (read (Some p) "y" "weight" "x" "date" "source") false "png").
Proof. exact @main_default. Qed.
Print Assumptions C74_default.
Theorem C74_no_input : forall (T : Type) (N : NumOps T) to_float ex dir (W : string -> world T) c L read l,
  Forall (valid to_float) l -> (forall n b v, ~ In (Value n b DIn v) l) ->
  main to_float ex dir W c L read (command l) = Parsed (Err AssertionError).
Proof. exact @main_no_input. Qed.
Print Assumptions C74_no_input.

(* Every option, written out with its value, reaches its own argument of run_forecast_app. *)
Theorem C74_options : forall (T : Type) (N : NumOps T) to_float ex dir (W : string -> world T) c L
  (read : option string -> string -> string -> string -> string -> string -> raw T) p o n q y d w s x f,
  Forall argument [p; o; n; y; d; w; s; x; f] -> to_float n = Some q ->
  main to_float ex dir W c L read
    ["--path_in"; p; "--path_out"; o; "--forecast_years"; n; "--col_name_y"; y; "--col_name_date"; d; "--col_name_weight"; w;
     "--col_name_source"; s; "--col_name_x"; x; "--include_all_fits"; "--output_format"; f] =
  Parsed (run_app ex dir W c L (Some p) (Some o) q (read (Some p) y w x d s) true f).
Proof.
  intros T N to_float ex dir W c L read p o n q y d w s x f A E. rewrite Forall_forall in A.
  assert (V : Forall (valid to_float) [Value "--path_in" false DIn p; Value "--path_out" false DOut o; Value "--forecast_years" false DYears n;
    Value "--col_name_y" false DY y; Value "--col_name_date" false DDate d; Value "--col_name_weight" false DWeight w; Value "--col_name_source" false DSource s;
    Value "--col_name_x" false DX x; Flag "--include_all_fits"; Value "--output_format" false DFormat f]).
  { apply Forall_forall. intros k I. cbn in I. decompose [or] I; try contradiction; subst k; cbn [valid];
      try (split; [left; cbn; tauto|split; [intros _; apply A; cbn; tauto|congruence]]). left. cbn. tauto. }
  change (main to_float ex dir W c L read (command [Value "--path_in" false DIn p; Value "--path_out" false DOut o; Value "--forecast_years" false DYears n;
    Value "--col_name_y" false DY y; Value "--col_name_date" false DDate d; Value "--col_name_weight" false DWeight w; Value "--col_name_source" false DSource s;
    Value "--col_name_x" false DX x; Flag "--include_all_fits"; Value "--output_format" false DFormat f]) =
    Parsed (run_app ex dir W c L (Some p) (Some o) q (read (Some p) y w x d s) true f)).
  rewrite (main_command to_float ex dir W c L read _ V). unfold years_given, given. cbn. now rewrite E.
Qed.
Print Assumptions C74_options.

(* Help wins over everything that follows and is not ambiguous. *)
Theorem C74_help : forall to_float l h rest, Forall (valid to_float) l -> names h Help -> (forall s, In s rest -> ~ ambiguous s) ->
  parse_args to_float (command l ++ h :: rest) = Exit 0.
Proof. exact help_exit. Qed.
Print Assumptions C74_help.

(* A table of the options, written out. *)
Example C74_option_names : map fst option_table = ["-h"; "--help"; "--path_in"; "--path_out"; "--forecast_years"; "--col_name_y"; "--col_name_date";
  "--col_name_weight"; "--col_name_source"; "--col_name_x"; "--include_all_fits"; "--output_format"].
Proof. reflexivity. Qed.
Definition ex_float (s : string) : option Q :=
  if String.eqb s "1.5" then Some (3 # 2)%Q else if String.eqb s "-1" then Some (- 1)%Q else None.
Example C74_options_example : Forall argument ["/d/in.csv"; "/o"; "1.5"; "sales"; "day"; "wt"; "shop"; "n"; "html"] /\ ex_float "1.5" = Some (3 # 2)%Q.
Proof. split; [|reflexivity]. repeat (apply Forall_cons; [left; intros B; apply begins_prefix in B; discriminate|]). apply Forall_nil. Qed.
Definition ex_line : list setting :=
  [Value "--path_in" false DIn "/d/in.csv"; Value "--f" true DYears "1.5"; Flag "--inc"; Value "--col_name_y" false DY "sales"; Value "--col_name_y" true DY "-y"].
Example C74_example_valid : Forall (valid ex_float) ex_line.
Proof.
  assert (Nb : forall p s, String.prefix p s = false -> ~ begins p s) by (intros p s K B; apply begins_prefix in B; congruence).
  repeat apply Forall_cons; [..|apply Forall_nil].
  - split; [left; cbn; tauto|]. split; [|discriminate]. intros _. left. now apply Nb.
  - split; [|split; [discriminate|intros _ K; discriminate K]]. right. split; [now exists "f"|]. exists "--forecast_years". split; [cbn; tauto|]. split; [now eexists|].
    intros e I B. apply begins_prefix in B. cbn in I. decompose [or] I; try contradiction; subst e; try discriminate B. reflexivity.
  - right. split; [now exists "inc"|]. exists "--include_all_fits". split; [cbn; tauto|]. split; [now eexists|].
    intros e I B. apply begins_prefix in B. cbn in I. decompose [or] I; try contradiction; subst e; try discriminate B. reflexivity.
  - split; [left; cbn; tauto|]. split; [|discriminate]. intros _. left. now apply Nb.
  - split; [left; cbn; tauto|]. split; discriminate.
Qed.
Example C74_example_words : command ex_line = ["--path_in"; "/d/in.csv"; "--f=1.5"; "--inc"; "--col_name_y"; "sales"; "--col_name_y=-y"].
Proof. reflexivity. Qed.
Example C74_example : parse_args ex_float ["--path_in"; "/d/in.csv"; "--f=1.5"; "--inc"; "--col_name_y"; "sales"; "--col_name_y=-y"] =
  Parsed (mkArgs (Some "/d/in.csv") None (3 # 2) "-y" "date" "weight" "source" "x" true "png").
Proof. vm_compute. reflexivity. Qed.
(* other orders and forms *)
Example C74_example_order : once (firstn 4 ex_line) /\ same (firstn 4 ex_line) [Flag "--i"; Value "--path_i" true DIn "/d/in.csv"; Value "--col_name_y" false DY "sales"; Value "--fore" false DYears "1.5"].
Proof.
  split.
  - intros d n b v n' b' v' I J. cbn in I, J. decompose [or] I; decompose [or] J; try contradiction; congruence.
  - split.
    + intros d v. split; intros (n & b & I); cbn in I; decompose [or] I; try contradiction; try discriminate;
        match goal with K : Value _ _ _ _ = _ |- _ => injection K as <- <- <- <- end; cbn; eauto 10.
    + split; intros _; eexists; cbn; eauto.
Qed.
(* a word that begins with a dash is no value unless it is a number, has a space or is attached *)
Example C74_example_refused : parse_args ex_float ["--path_in"; "a"; "--col_name_y"; "-y"] = Exit 2 /\
  parse_args ex_float ["--path"; "a"] = Exit 2 /\ parse_args ex_float ["a.csv"] = Exit 2 /\ parse_args ex_float ["--path_in"; "a"; "--forecast_years"; "two"] = Exit 2 /\
  parse_args ex_float ["--path_in"; "a"; "--include_all_fits"; "yes"] = Exit 2 /\ parse_args ex_float ["--path_in"] = Exit 2.
Proof. vm_compute. repeat split. Qed.
(* a negative number of years is accepted here *)
Example C74_example_negative : parse_args ex_float ["--path_in"; "a"; "--forecast_years"; "-1"] = Parsed (mkArgs (Some "a") None (- 1) "y" "date" "weight" "source" "x" false "png").
Proof. vm_compute. reflexivity. Qed.
Example C74_example_help : parse_args ex_float ["--path_in"; "a"; "--he"; "--unknown"] = Exit 0 /\ parse_args ex_float ["--help"; "--path=a"] = Exit 2.
Proof. vm_compute. split; reflexivity. Qed.
Example C74_example_empty : parse_args ex_float [] = Parsed no_args.
Proof. reflexivity. Qed.
