(* The shipped trend and seasonality models.  Models anticipy/forecast_models.py 671-1276
   (naive models are in Naive.v, dummy variables in Dummy.v). *)
From Coq Require Import ZArith String List Bool.
From Verif Require Import Num Py Cal Fmt Model.
Import ListNotations.
Local Open Scope string_scope.

Section Base.
  Context {T : Type} `{NumOps T}.

  Definition nnat (n : nat) : T := nofZ (Z.of_nat n).

  (* ---- numpy helpers ---- *)
  Definition py_int (x : T) : res Z :=
    match ntrunc x with
    | Some z => Ok z
    | None => if nisnan x then Err ValueError else Err OverflowError
    end.
  (* np.full(n, c): negative dimensions raise ValueError *)
  Definition np_full (n : Z) (c : T) : res (list T) :=
    if (n <? 0)%Z then Err ValueError else Ok (repeat c (Z.to_nat n)).
  (* np.heaviside(x, 1) *)
  Definition heaviside1 (x : T) : T :=
    if nisnan x then nnan else if nltb x n0 then n0 else n1.
  (* l[i] for i >= 0, l[-i] for i >= 1 *)
  Definition at_pos (l : list T) (i : nat) : res T :=
    match nth_error l i with Some a => Ok a | None => Err IndexError end.
  Definition at_neg (l : list T) (i : nat) : res T :=
    if Nat.leb i (length l) then at_pos l (length l - i) else Err IndexError.
  (* builtin max(...) over an array *)
  Definition py_max (l : list T) : res T :=
    match l with [] => Err ValueError | a :: l' => Ok (nmax a l') end.
  Definition py_min (l : list T) : res T :=
    match l with [] => Err ValueError | a :: l' => Ok (nmin a l') end.
  (* np.max / np.min: a NaN entry wins *)
  Definition np_max (l : list T) : res T :=
    if existsb nisnan l then Ok nnan else py_max l.
  Definition np_min (l : list T) : res T :=
    if existsb nisnan l then Ok nnan else py_min l.
  (* index of the first entry satisfying f *)
  Fixpoint find_index (f : T -> bool) (i : nat) (l : list T) : option nat :=
    match l with [] => None | a :: l' => if f a then Some i else find_index f (S i) l' end.
  (* np.argmax: the first NaN if there is one, else the first maximum *)
  Definition np_argmax (l : list T) : res nat :=
    match find_index nisnan 0 l with
    | Some i => Ok i
    | None =>
        match l with
        | [] => Err ValueError
        | a :: l' =>
            match find_index (fun x => neqb x (nmax a l')) 0 l with
            | Some i => Ok i | None => Err ValueError
            end
        end
    end.
  (* DataFrame.nlargest(k, col).index: labels of the k largest non-null values, ties by position *)
  Definition nlargest {L} (k : nat) (l : list (L * T)) : list (L * T) :=
    firstn k (isort (fun a b => nleb (snd b) (snd a))
                (filter (fun a => negb (nisnan (snd a))) l)).
  (* nlargest(1, col).index[0]: IndexError when every value is null *)
  Definition largest1 {L} (l : list (L * T)) : res (L * T) :=
    match nlargest 1 l with a :: _ => Ok a | [] => Err IndexError end.
  (* number of distinct entries, np.unique(a).size *)
  Definition n_unique (l : list T) : nat := length (dedup neqb l).

  (* ---- spike, forecast_models.py 671-683: positions, not x values, are compared ---- *)
  Definition f_spike : mfun T :=
    fun a_x _ p mode _ =>
      let* (a, x_min, x_max) := unpack3 p in
      let c := if mode_of false mode then n1 else n0 in
      let* i_min := py_int x_min in
      let* l1 := np_full i_min c in
      let* i_len := py_int (nsub x_max x_min) in
      let* l2 := np_full i_len a in
      let* i_max := py_int x_max in
      let* l3 := np_full (Z.of_nat (length a_x) - i_max) c in
      Ok (Ar (l1 ++ l2 ++ l3)%list).

  (* forecast_models.py 686-698 (the first definition of _f_init_params_spike).  With a_y None the
     expression [1] + uniform(0,1,1) + [2] is numpy broadcasting: one number, not three. *)
  Definition init_spike : initfun T :=
    fun _ a_y _ _ rnd =>
      match a_y with
      | None => Ok [nadd (nadd n1 (uniform n0 n1 rnd 0)) (nofZ 2)]
      | Some y =>
          let* d := py_max (np_diff y) in
          let* i := np_argmax (np_diff y) in
          Ok [d; nnat i; nadd (nnat i) n1]
      end.
  Definition model_spike : fmodel T :=
    mk_model "spike" 3 f_spike (Some init_spike) None None None None.

  (* ---- spike between dates, forecast_models.py 706-749 ---- *)
  (* comparing None with a date raises TypeError *)
  Definition cmp_dates (a_date : option (list Z)) : res (list Z) :=
    match a_date with Some d => Ok d | None => Err TypeError end.
  Definition f_spike_date (date_start date_end : Z) : mfun T :=
    fun _ a_date p mode _ =>
      let* a := unpack1 p in
      let* d := cmp_dates a_date in
      let mask := map (fun t => (date_start <=? t)%Z && (t <? date_end)%Z) d in
      Ok (Ar (map (fun m => if mode_of false mode
                            then nadd (nmul (nofbool m) a) (nofbool (negb m))
                            else nmul (nofbool m) a) mask)).
  (* forecast_models.py 722-735 (the second definition) *)
  Definition init_spike_date : initfun T :=
    fun _ a_y _ _ rnd =>
      match a_y with
      | None => Ok [nadd n1 (uniform n0 n1 rnd 0)]
      | Some y => let* d := py_max (np_diff y) in Ok [d]
      end.
  Definition get_model_spike_date (date_start date_end : Z) : fmodel T :=
    mk_model ("spike_date[" ++ fmt_date date_start ++ "," ++ fmt_date date_end ++ "]") 1
      (f_spike_date date_start date_end) (Some init_spike_date) None None None None.

  (* ---- linear, forecast_models.py 754-779 ---- *)
  Definition f_linear : mfun T :=
    fun a_x _ p _ _ =>
      let* (a, b) := unpack2 p in Ok (Ar (map (fun x => nadd (nmul a x) b) a_x)).
  Definition init_linear : initfun T :=
    fun a_x a_y _ _ rnd =>
      match a_y with
      | None => Ok (uniforms n0 n1 rnd 2)
      | Some y =>
          let size := match a_x with
                      | Some x => (Z.of_nat (n_unique x) - 1)%Z
                      | None => (Z.of_nat (length y) - 1)%Z
                      end in
          let* y_last := at_neg y 1 in
          let* y_first := at_pos y 0 in
          Ok [ndiv (nsub y_last y_first) (nofZ size); y_first]
      end.
  Definition model_linear : fmodel T :=
    mk_model "linear" 2 f_linear (Some init_linear) None None None None.

  (* forecast_models.py 782-801 *)
  Definition init_linear_nondec : initfun T :=
    fun a_x a_y a_date _ rnd =>
      let* p := init_linear a_x a_y a_date false rnd in
      match p with
      | a :: p' => Ok ((if nltb a n0 then n0 else a) :: p')
      | [] => Err IndexError
      end.
  Definition bounds_linear_nondec : boundsfun T :=
    fun _ _ _ => Ok (mkBounds [n0; nninf] [npinf; npinf] false).
  Definition model_linear_nondec : fmodel T :=
    mk_model "linear_nondec" 2 f_linear (Some init_linear_nondec) (Some bounds_linear_nondec)
      None None None.

  (* ---- forecast_models.py 806-811 ---- *)
  Definition f_quasilinear : mfun T :=
    fun a_x _ p _ _ =>
      let* (a, b, c) := unpack3 p in
      Ok (Ar (map (fun x => nadd (nmul a (npow x b)) c) a_x)).
  Definition model_quasilinear : fmodel T :=
    mk_model "quasilinear" 3 f_quasilinear None None None None None.

  (* ---- forecast_models.py 816-822 ---- *)
  Definition f_exp : mfun T :=
    fun a_x _ p _ _ =>
      let* (a, b) := unpack2 p in Ok (Ar (map (fun x => nmul a (npow b x)) a_x)).
  Definition model_exp : fmodel T := mk_model "exponential" 2 f_exp None None None None None.

  (* ---- forecast_models.py 826-853 ---- *)
  Definition f_decay : mfun T :=
    fun a_x _ p _ _ =>
      let* (a, b, d) := unpack3 p in
      Ok (Ar (map (fun x => nadd (nmul a (nexp (nmul b x))) d) a_x)).
  Definition val_decay : validator T :=
    mkVal "_f_validate_input_decay"
      (fun _ a_y _ => if forallb (fun y => nltb n0 y) a_y then Ok true else Err AssertionError).
  Definition init_decay : initfun T :=
    fun _ a_y _ _ _ =>
      match a_y with
      | None => Ok [n0; n0; n0]
      | Some y =>
          let* y_first := at_pos y 0 in
          let* y_last := at_neg y 1 in
          let* mn := np_min y in
          let* mx := np_max y in
          let b := ndiv (nln (ndiv mn mx)) (nofZ (Z.of_nat (length y) - 1)) in
          let b := if nltb n0 b || neqb b nninf then dec (-1) 2 else b in
          Ok [nsub y_first y_last; b; y_last]
      end.
  Definition bounds_decay : boundsfun T :=
    fun _ _ _ => Ok (mkBounds [nninf; nninf; nninf] [npinf; n0; npinf] false).
  Definition model_decay : fmodel T :=
    mk_model "decay" 3 f_decay (Some init_decay) (Some bounds_decay) (Some [val_decay]) None None.

  (* ---- step, forecast_models.py 858-889 ---- *)
  Definition step_at (is_mult : bool) (a b x : T) : T :=
    if is_mult then nadd n1 (nmul (nsub b n1) (heaviside1 (nsub x a)))
    else nmul b (heaviside1 (nsub x a)).
  Definition f_step : mfun T :=
    fun a_x _ p mode _ =>
      let* (a, b) := unpack2 p in
      Ok (Ar (map (step_at (mode_of false mode) a b) a_x)).
  (* df.diff().abs() labelled by position *)
  Definition abs_diffs (y : list T) : list (nat * T) := enumerate (map nabs (pd_diff y)).
  Definition init_step : initfun T :=
    fun _ a_y _ _ rnd =>
      match a_y with
      | None => Ok (uniforms n0 n1 rnd 2)
      | Some y =>
          let* (a, b) := largest1 (abs_diffs y) in
          Ok [nnat a; nmul b (nofZ 2)]
      end.
  Definition model_step : fmodel T :=
    mk_model "step" 2 f_step (Some init_step) None None None None.

  (* ---- step at a date, forecast_models.py 894-929 ---- *)
  Definition f_step_date (date_start : Z) : mfun T :=
    fun _ a_date p mode _ =>
      let* a := unpack1 p in
      let* d := cmp_dates a_date in
      let mask := map (fun t => nofbool (date_start <=? t)%Z) d in
      Ok (Ar (map (fun m => if mode_of false mode then nadd (nmul m (nsub a n1)) n1
                            else nmul m a) mask)).
  Definition init_step_date : initfun T :=
    fun _ a_y _ _ rnd =>
      match a_y with
      | None => Ok (uniforms n0 n1 rnd 1)
      | Some y => let* (a, b) := largest1 (abs_diffs y) in Ok [nmul b (nofZ 2)]
      end.
  Definition get_model_step_date (date_start : Z) : fmodel T :=
    mk_model ("step_date[" ++ fmt_date date_start ++ "]") 1
      (f_step_date date_start) (Some init_step_date) None None None None.

  (* ---- n steps, forecast_models.py 933-994; shipped with n = 2 only ---- *)
  (* range(0, n + 1, 2) *)
  Definition range2 (n : nat) : list nat := map (fun i => 2 * i)%nat (seq 0 (n / 2 + 1)).
  Definition f_n_steps (n : nat) : mfun T :=
    fun a_x _ p mode _ =>
      let is_mult := mode_of false mode in
      match p with
      | None => Err TypeError
      | Some l =>
          fold_left
            (fun acc i =>
               let* y := acc in
               let* (a, b) := unpack2 (Some (firstn 2 (skipn i l))) in
               bcast2 (if is_mult then nmul else nadd) y
                 (Ar (map (step_at is_mult a b) a_x)))
            (range2 n) (Ok (Sc (nofbool is_mult)))
      end.
  (* params += [a[i], b[i]] for i in range(n): IndexError if fewer than n non-null differences *)
  Definition init_n_steps (n : nat) : initfun T :=
    fun _ a_y _ _ rnd =>
      match a_y with
      | None => Ok (uniforms n0 n1 rnd (n * 2))
      | Some y =>
          let l := nlargest n (abs_diffs y) in
          if Nat.eqb (length l) n then Ok (flat_map (fun ab => [nnat (fst ab); snd ab]) l)
          else Err IndexError
      end.
  Definition model_two_steps : fmodel T :=
    mk_model "two_steps" 4 (f_n_steps 2) (Some (init_n_steps 2)) None None None None.

  (* ---- sigmoid, forecast_models.py 1000-1056 ---- *)
  Definition sigmoid_at (is_mult : bool) (b c d x : T) : T :=
    let a := nofbool is_mult in
    nadd a (ndiv (nsub b a) (nadd n1 (nexp (nmul (nopp d) (nsub x c))))).
  Definition f_sigmoid : mfun T :=
    fun a_x _ p mode _ =>
      let* (b, c, d) := unpack3 p in
      Ok (Ar (map (sigmoid_at (mode_of false mode) b c d) a_x)).
  Definition init_sigmoid_step : initfun T :=
    fun _ a_y _ _ rnd =>
      match a_y with
      | None => Ok (uniforms n0 n1 rnd 3)
      | Some y =>
          let* (c, _) := largest1 (abs_diffs y) in
          let* b := at_pos y c in
          Ok [b; nnat c; nmul b b]
      end.
  Definition bounds_sigmoid_step : boundsfun T :=
    fun a_x a_y _ =>
      match a_y with
      | None => Ok (mkBounds [nninf; nninf; n0] [npinf; npinf; npinf] false)
      | Some y =>
          match a_x with
          | None => Err AttributeError
          | Some x =>
              let* ymax := py_max y in
              let* ymin := py_min y in
              let diff := nsub ymax ymin in
              let* xmin := py_min x in
              let* xmax := py_max x in
              Ok (mkBounds [nmul (nofZ (-2)) diff; xmin; n0]
                    [nmul (nofZ 2) diff; xmax; npinf] false)
          end
      end.
  Definition model_sigmoid_step : fmodel T :=
    mk_model "sigmoid_step" 3 f_sigmoid (Some init_sigmoid_step) (Some bounds_sigmoid_step)
      None None None.
  Definition model_sigmoid : fmodel T :=
    mk_model "sigmoid" 3 f_sigmoid None None None None None.

  (* ---- ramp, forecast_models.py 1066-1147 ---- *)
  Definition ramp_at (is_mult : bool) (a b x : T) : T :=
    if is_mult
    then nadd n1 (nmul (nmul (nsub x a) b) (heaviside1 (nsub x a)))
    else nmul (nmul (nsub x a) b) (heaviside1 (nsub x a)).
  Definition f_ramp : mfun T :=
    fun a_x _ p mode _ =>
      let* (a, b) := unpack2 p in
      Ok (Ar (map (ramp_at (mode_of false mode) a b) a_x)).
  (* int(np.ceil(0.15 * n)); exact rational arithmetic, which double rounding agrees with for
     n < 2^50 *)
  Definition skip15 (n : nat) : nat := (15 * n + 99) / 100.
  Definition init_ramp : initfun T :=
    fun a_x a_y _ _ rnd =>
      match a_y with
      | None =>
          let* a :=
            match a_x with
            | Some x =>
                let k := skip15 (length x) in
                let* lo := at_pos x k in
                let* hi := at_neg x (k + 1) in
                Ok (uniform lo hi rnd 0)
            | None => Ok (uniform n0 n1 rnd 0)
            end in
          Ok [a; uniform n0 n1 rnd 1]
      | Some y =>
          let* xy :=
            match a_x with
            | Some x => if Nat.eqb (length x) (length y)
                        then Ok (dedup_key neqb fst (combine x y))   (* drop_duplicates('x') *)
                        else Err ValueError
            | None => Ok (map (fun p => (nnat (fst p), snd p)) (enumerate y))
            end in
          let diff2 := combine (map fst xy) (map nabs (pd_diff (pd_diff (map snd xy)))) in
          let k := skip15 (length xy) in
          let* (a, b) := largest1 (tail_neg k (head_neg k diff2)) in
          Ok [a; b]
      end.
  Definition bounds_ramp : boundsfun T :=
    fun a_x _ _ =>
      match a_x with
      | None => Ok (mkBounds [nninf; nninf] [npinf; npinf] false)
      | Some x =>
          let k := skip15 (length x) in
          let* lo := at_pos x k in
          let* hi := (if Nat.eqb k 0 then at_pos x 0 else at_neg x k) in
          Ok (mkBounds [lo; nninf] [hi; npinf] false)
      end.
  Definition model_ramp : fmodel T :=
    mk_model "ramp" 2 f_ramp (Some init_ramp) (Some bounds_ramp) None None None.

  (* ---- weekday and month seasonality, forecast_models.py 1152-1222 ---- *)
  (* params_long[idx] with params_long = concatenate([[float(is_mult)], params]); the indices are
     never negative *)
  Definition season_lookup (is_mult : bool) (p : params T) (idx : list Z) : res (nval T) :=
    match p with
    | None => Err ValueError
    | Some l =>
        let* r := rmapM (fun i => at_pos (nofbool is_mult :: l) (Z.to_nat i)) idx in Ok (Ar r)
    end.
  (* cache lookup: value of a keyword argument, or computed now *)
  Definition cached_ints (kw : kwargs T) (k : string) (f : cachefun T) (a_x : list T)
    (a_date : option (list Z)) : res (list Z) :=
    let* v := match dict_get (kw_cache kw) k with Some v => Ok v | None => f a_x a_date end in
    match v with CInts l => Ok l | _ => Err TypeError end.
  Definition f_season_wday : mfun T :=
    fun a_x a_date p mode kw =>
      match p with
      | None => Err ValueError
      | Some _ =>
          let* idx := cached_ints kw "a_weekday" cache_a_weekday a_x a_date in
          season_lookup (mode_of false mode) p idx
      end.
  Definition val_season_wday : validator T :=
    mkVal "_f_validate_input_season_wday"
      (fun _ _ a_date =>
         match a_date with
         | None => Err AssertionError
         | Some d => if Nat.eqb (length (zuniq (map weekday d))) 7 then Ok true
                     else Err AssertionError
         end).
  Definition model_season_wday : fmodel T :=
    mk_model "season_wday" 6 f_season_wday None None (Some [val_season_wday])
      (Some ["a_weekday"]) None.

  (* np.mean, NaN on an empty selection *)
  Definition np_mean (l : list T) : T := ndiv (nsum l) (nnat (length l)).
  (* a_y[a_date.month == i] *)
  Definition month_mean (y : list T) (d : list Z) (i : Z) : T :=
    np_mean (map fst (filter (fun yt => (month (snd yt) =? i)%Z) (combine y d))).
  Definition init_season_month : initfun T :=
    fun _ a_y a_date is_mult rnd =>
      match a_y, a_date with
      | Some y, Some d =>
          if Nat.eqb (length y) (length d) then
            let base := month_mean y d 12 in
            let l := map (fun i => month_mean y d (Z.of_nat i)) (seq 1 11) in
            Ok (map (fun m => if is_mult then ndiv m base else nsub m base) l)
          else Err IndexError
      | _, _ => Ok (uniforms (nofZ (-1)) n1 rnd 11)
      end.
  Definition f_season_month : mfun T :=
    fun a_x a_date p mode kw =>
      match p with
      | None => Err ValueError
      | Some _ =>
          let* idx := cached_ints kw "a_month" cache_a_month a_x a_date in
          season_lookup (mode_of false mode) p idx
      end.
  Definition model_season_month : fmodel T :=
    mk_model "season_month" 11 f_season_month (Some init_season_month) None None
      (Some ["a_month"]) None.
  Definition model_season_month_old : fmodel T :=
    mk_model "season_month_old" 11 f_season_month None None None None None.

  (* ---- Fourier, forecast_models.py 1225-1276 ---- *)
  (* column i of the cache matrix *)
  Definition column (m : list (list T)) (i : nat) : list T := map (fun r => nth i r nnan) m.
  Definition dot (p c : list T) : T := nsum (map2 nmul p c).
  Definition n_cols (m : list (list T)) : nat := match m with [] => 0 | r :: _ => length r end.
  Definition matmul (p : list T) (m : list (list T)) : res (nval T) :=
    if Nat.eqb (length p) (length m)
    then Ok (Ar (map (fun i => dot p (column m i)) (seq 0 (n_cols m))))
    else Err ValueError.
  Definition f_fourier : mfun T :=
    fun a_x a_date p _ kw =>
      let* v := match dict_get (kw_cache kw) "a_t_fourier" with
                | Some v => Ok v | None => cache_a_t_fourier a_x a_date end in
      match v, p with
      | CMat m, Some l => matmul l m
      | CMat _, None => Err ValueError
      | _, _ => Err TypeError
      end.
  Definition init_fourier : initfun T :=
    fun _ a_y _ _ rnd =>
      let u := uniforms (dec 1 1000) n1 rnd 20 in
      match a_y with
      | None => Ok u
      | Some y =>
          let* mx := np_max y in
          let* mn := np_min y in
          Ok (map (nmul (nsub mx mn)) u)
      end.
  Definition bounds_fourier : boundsfun T :=
    fun _ _ _ => Ok (mkBounds (repeat nninf 20) (repeat npinf 20) false).
  Definition model_season_fourier_yearly : fmodel T :=
    mk_model "season_fourier_yearly" 20 f_fourier (Some init_fourier) (Some bounds_fourier)
      None (Some ["a_t_fourier"]) None.
End Base.
