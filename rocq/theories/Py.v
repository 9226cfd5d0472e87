(* Python exceptions as values, and the numpy / pandas / itertools primitives the code uses.
   Each helper names the library call it stands for and the places in /repo that make the call. *)
From Coq Require Import ZArith String Ascii List Bool.
From Verif Require Import Num.
Import ListNotations.

(* Exception classes that the modelled code can raise. *)
Inductive exn :=
| ValueError | AssertionError | TypeError | IndexError | AttributeError | KeyError
| ZeroDivisionError | OverflowError | LinAlgError.

Inductive res (A : Type) := Ok (a : A) | Err (e : exn).
Arguments Ok {A} a.
Arguments Err {A} e.

Definition rbind {A B} (r : res A) (f : A -> res B) : res B :=
  match r with Ok a => f a | Err e => Err e end.
Definition rmap {A B} (f : A -> B) (r : res A) : res B :=
  match r with Ok a => Ok (f a) | Err e => Err e end.

Notation "'let*' x := e 'in' k" := (rbind e (fun x => k))
  (at level 200, x pattern, right associativity).

Definition is_ok {A} (r : res A) : bool := match r with Ok _ => true | Err _ => false end.

(* [f(x) for x in l]: left to right, first exception wins. *)
Fixpoint rmapM {A B} (f : A -> res B) (l : list A) : res (list B) :=
  match l with
  | [] => Ok []
  | a :: l' => let* b := f a in let* bs := rmapM f l' in Ok (b :: bs)
  end.

(* ---- generic list helpers ---- *)

(* Stable insertion sort: pandas/numpy sort_values, list.sort().  For keys without ties every
   sorting algorithm gives this result; where ties matter the theorem says so. *)
Section Sort.
  Context {A : Type} (leb : A -> A -> bool).
  Fixpoint insert (a : A) (l : list A) : list A :=
    match l with
    | [] => [a]
    | b :: l' => if leb a b then a :: l else b :: insert a l'
    end.
  Fixpoint isort (l : list A) : list A :=
    match l with [] => [] | a :: l' => insert a (isort l') end.
End Sort.

(* drop_duplicates: keep the first row for each key *)
Section Dedup.
  Context {A : Type} (eqb : A -> A -> bool).
  Fixpoint dedup_aux (seen l : list A) : list A :=
    match l with
    | [] => []
    | a :: l' => if existsb (eqb a) seen then dedup_aux seen l'
                 else a :: dedup_aux (a :: seen) l'
    end.
  Definition dedup (l : list A) : list A := dedup_aux [] l.
  (* duplicated().any() *)
  Fixpoint has_dup (l : list A) : bool :=
    match l with [] => false | a :: l' => existsb (eqb a) l' || has_dup l' end.
End Dedup.

(* drop_duplicates(subset=key, keep='first') and keep='last' *)
Definition dedup_key {A K} (eqb : K -> K -> bool) (key : A -> K) (l : list A) : list A :=
  dedup (fun a b => eqb (key a) (key b)) l.
Definition dedup_key_last {A K} (eqb : K -> K -> bool) (key : A -> K) (l : list A) : list A :=
  rev (dedup_key eqb key (rev l)).

(* itertools.product(l1, l2) *)
Definition product {A B} (l1 : list A) (l2 : list B) : list (A * B) := list_prod l1 l2.

(* Python slices l[0:n], l[n:] *)
Definition take {A} := @firstn A.
Definition drop {A} := @skipn A.

(* df.head(-k), df.tail(-k) for k >= 0 *)
Definition head_neg {A} (k : nat) (l : list A) : list A := firstn (length l - k) l.
Definition tail_neg {A} (k : nat) (l : list A) : list A := skipn k l.

(* enumerate(l) *)
Fixpoint enum_from {A} (i : nat) (l : list A) : list (nat * A) :=
  match l with [] => [] | a :: l' => (i, a) :: enum_from (S i) l' end.
Definition enumerate {A} (l : list A) := enum_from 0 l.

(* Python dict as association list with unique keys, in insertion order *)
Section Dict.
  Context {V : Type}.
  Definition dict := list (string * V).
  Fixpoint dict_get (d : dict) (k : string) : option V :=
    match d with
    | [] => None
    | (k', v) :: d' => if String.eqb k k' then Some v else dict_get d' k
    end.
  Fixpoint dict_set (d : dict) (k : string) (v : V) : dict :=
    match d with
    | [] => [(k, v)]
    | (k', v') :: d' => if String.eqb k k' then (k', v) :: d' else (k', v') :: dict_set d' k v
    end.
  (* d1.update(d2) *)
  Definition dict_update (d1 d2 : dict) : dict :=
    fold_left (fun d kv => dict_set d (fst kv) (snd kv)) d2 d1.
End Dict.
Arguments dict : clear implicits.

(* ---- numeric arrays ---- *)
Section Arr.
  Context {T : Type} `{NumOps T}.

  (* A numpy value as returned by a model function: Python/numpy scalar or 1-D array. *)
  Inductive nval := Sc (t : T) | Ar (l : list T).

  (* elementwise binary operation with numpy broadcasting: scalars and arrays of length 1
     broadcast, other length mismatches raise ValueError *)
  Definition map2 (f : T -> T -> T) (l1 l2 : list T) : list T :=
    map (fun p => f (fst p) (snd p)) (combine l1 l2).

  Definition bcast2 (f : T -> T -> T) (a b : nval) : res nval :=
    match a, b with
    | Sc x, Sc y => Ok (Sc (f x y))
    | Sc x, Ar l => Ok (Ar (map (f x) l))
    | Ar l, Sc y => Ok (Ar (map (fun x => f x y) l))
    | Ar l1, Ar l2 =>
        if Nat.eqb (length l1) (length l2) then Ok (Ar (map2 f l1 l2))
        else match l1, l2 with
             | [x], _ => Ok (Ar (map (f x) l2))
             | _, [y] => Ok (Ar (map (fun x => f x y) l1))
             | _, _ => Err ValueError
             end
    end.

  Definition nval_map (f : T -> T) (a : nval) : nval :=
    match a with Sc x => Sc (f x) | Ar l => Ar (map f l) end.

  (* np.sum / pandas sum, left to right (numpy's pairwise grouping is not modelled; over XR it is
     irrelevant) *)
  Definition nsum (l : list T) : T := fold_left nadd l n0.

  (* np.diff *)
  Fixpoint np_diff (l : list T) : list T :=
    match l with
    | a :: ((b :: _) as l') => nsub b a :: np_diff l'
    | _ => []
    end.
  (* pandas Series.diff(): first entry null *)
  Definition pd_diff (l : list T) : list T :=
    match l with [] => [] | _ => nnan :: np_diff l end.

  (* pandas shift(1) *)
  Definition shift1 (l : list T) : list T :=
    match l with [] => [] | _ => nnan :: removelast l end.

  (* fillna(method='ffill'): [last] is the last non-null value seen so far *)
  Fixpoint ffill_from (last : T) (l : list T) : list T :=
    match l with
    | [] => []
    | a :: l' => if nisnan a then last :: ffill_from last l' else a :: ffill_from a l'
    end.
  Definition ffill (l : list T) : list T := ffill_from nnan l.
  (* fillna(method='bfill') *)
  Definition bfill (l : list T) : list T := rev (ffill (rev l)).
  (* s.fillna(v) *)
  Definition fillna (v : T) (l : list T) : list T := map (fun a => if nisnan a then v else a) l.

  (* np.max / builtin max with non-null values: left to right, replace on strictly greater *)
  Definition nmax (a : T) (l : list T) : T := fold_left (fun m x => if nltb m x then x else m) l a.
  Definition nmin (a : T) (l : list T) : T := fold_left (fun m x => if nltb x m then x else m) l a.

  (* math.log: ValueError (math domain error) on x <= 0 *)
  Definition py_log (x : T) : res T := if nleb x n0 then Err ValueError else Ok (nln x).
End Arr.
Arguments nval : clear implicits.

(* ---- integers (dates, x) ---- *)
(* s.diff() without its leading null: consecutive differences *)
Fixpoint zdiff (l : list Z) : list Z :=
  match l with
  | a :: ((b :: _) as l') => (b - a)%Z :: zdiff l'
  | _ => []
  end.
(* Series.min / max: null (None) on an empty series *)
Definition zmin_opt (l : list Z) : option Z :=
  match l with [] => None | a :: l' => Some (fold_left Z.min l' a) end.
Definition zmax_opt (l : list Z) : option Z :=
  match l with [] => None | a :: l' => Some (fold_left Z.max l' a) end.
(* sort_values().drop_duplicates() *)
Definition zsort (l : list Z) : list Z := isort Z.leb l.
Definition zuniq (l : list Z) : list Z := dedup Z.eqb l.
Definition sort_uniq (l : list Z) : list Z := zuniq (zsort l).
(* nunique() <= 1 *)
Definition nunique_le1 (l : list Z) : bool := Nat.leb (length (zuniq l)) 1.

(* ---- strings ---- *)
(* s1 < s2 on str *)
Definition str_ltb (a b : string) : bool :=
  match String.compare a b with Lt => true | _ => false end.
Definition str_leb (a b : string) : bool :=
  match String.compare a b with Gt => false | _ => true end.
(* s.startswith(p) *)
Definition startswith (s p : string) : bool := String.prefix p s.
