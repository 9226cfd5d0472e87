(* Numbers.  The Python code computes with numpy float64 values.  Every model definition in this
   development is written once over an arbitrary carrier [T] equipped with the operations below
   ([NumOps]); no law is part of the class.  Two carriers are provided:

   - [XR]: NaN, +inf, -inf and exact reals.  IEEE rules for the special values (NaN absorbs and
     never compares, inf - inf = NaN, 0 * inf = NaN, ...), exact arithmetic on finite values.
     Simplification: there is no signed zero, 1/0 is +inf.
   - primitive binary64 floats ([floatOps]), with the libm functions left as a parameter. *)
From Coq Require Import ZArith Reals Bool.
From Coq Require Import PrimFloat Uint63 FloatOps.
From Coq Require Import Lra.

Class NumOps (T : Type) := {
  nadd : T -> T -> T;
  nsub : T -> T -> T;
  nmul : T -> T -> T;
  ndiv : T -> T -> T;
  nopp : T -> T;
  nabs : T -> T;
  nleb : T -> T -> bool;
  nltb : T -> T -> bool;
  neqb : T -> T -> bool;
  nisnan : T -> bool;
  nnan : T;
  npinf : T;
  nninf : T;
  nofZ : Z -> T;
  (* int(x): truncation towards zero; [None] for NaN and infinities (Python raises) *)
  ntrunc : T -> option Z;
  nexp : T -> T;
  nln : T -> T;
  nsin : T -> T;
  ncos : T -> T;
  npow : T -> T -> T;
  nsqrt : T -> T;
  npi : T
}.

Declare Scope num_scope.
Delimit Scope num_scope with num.
Infix "+" := nadd : num_scope.
Infix "-" := nsub : num_scope.
Infix "*" := nmul : num_scope.
Infix "/" := ndiv : num_scope.
Notation "- x" := (nopp x) : num_scope.
Infix "<=?" := nleb : num_scope.
Infix "<?" := nltb : num_scope.
Infix "=?" := neqb : num_scope.

Definition n0 {T} `{NumOps T} : T := nofZ 0.
Definition n1 {T} `{NumOps T} : T := nofZ 1.
(* decimal literal a/b of the source, e.g. 0.15 = dec 15 100 (correctly rounded for a, b < 2^53) *)
Definition dec {T} `{NumOps T} (a b : Z) : T := ndiv (nofZ a) (nofZ b).
(* float(b) *)
Definition nofbool {T} `{NumOps T} (b : bool) : T := if b then n1 else n0.

(* ---------- Extended reals ---------- *)
Inductive XR := XNaN | XPInf | XNInf | Fin (r : R).

Local Open Scope R_scope.

Definition Rleb (a b : R) : bool := if Rle_dec a b then true else false.
Definition Rltb (a b : R) : bool := if Rlt_dec a b then true else false.
Definition Reqb (a b : R) : bool := if Req_EM_T a b then true else false.

Definition xadd (a b : XR) : XR :=
  match a, b with
  | Fin x, Fin y => Fin (x + y)
  | XNaN, _ | _, XNaN => XNaN
  | XPInf, XNInf | XNInf, XPInf => XNaN
  | XPInf, _ | _, XPInf => XPInf
  | XNInf, _ | _, XNInf => XNInf
  end.

Definition xopp (a : XR) : XR :=
  match a with XNaN => XNaN | XPInf => XNInf | XNInf => XPInf | Fin x => Fin (- x) end.

Definition xsub (a b : XR) : XR := xadd a (xopp b).

(* infinity with the sign of the finite number x (or of -x if neg) times infinity; 0 * inf = NaN *)
Definition xsgninf (x : R) (neg : bool) : XR :=
  if Reqb x 0 then XNaN
  else if xorb (Rltb x 0) neg then XNInf else XPInf.

Definition xmul (a b : XR) : XR :=
  match a, b with
  | Fin x, Fin y => Fin (x * y)
  | XNaN, _ | _, XNaN => XNaN
  | XPInf, XPInf | XNInf, XNInf => XPInf
  | XPInf, XNInf | XNInf, XPInf => XNInf
  | XPInf, Fin x | Fin x, XPInf => xsgninf x false
  | XNInf, Fin x | Fin x, XNInf => xsgninf x true
  end.

Definition xdiv (a b : XR) : XR :=
  match a, b with
  | XNaN, _ | _, XNaN => XNaN
  | Fin x, Fin y => if Reqb y 0 then xsgninf x false else Fin (x / y)
  | Fin _, (XPInf | XNInf) => Fin 0
  | XPInf, Fin y => if Rltb y 0 then XNInf else XPInf
  | XNInf, Fin y => if Rltb y 0 then XPInf else XNInf
  | _, _ => XNaN
  end.

Definition xabs (a : XR) : XR :=
  match a with XNaN => XNaN | XPInf | XNInf => XPInf | Fin x => Fin (Rabs x) end.

Definition xleb (a b : XR) : bool :=
  match a, b with
  | XNaN, _ | _, XNaN => false
  | XNInf, _ => true
  | _, XPInf => true
  | Fin x, Fin y => Rleb x y
  | _, _ => false
  end.

Definition xltb (a b : XR) : bool :=
  match a, b with
  | XNaN, _ | _, XNaN => false
  | XNInf, XNInf => false
  | XNInf, _ => true
  | XPInf, _ => false
  | _, XPInf => true
  | Fin x, Fin y => Rltb x y
  | Fin _, XNInf => false
  end.

Definition xeqb (a b : XR) : bool :=
  match a, b with
  | XPInf, XPInf | XNInf, XNInf => true
  | Fin x, Fin y => Reqb x y
  | _, _ => false
  end.

Definition xisnan (a : XR) : bool := match a with XNaN => true | _ => false end.

Definition Rtrunc (x : R) : Z := if Rltb x 0 then (- Int_part (- x))%Z else Int_part x.

Definition xexp (a : XR) : XR :=
  match a with XNaN => XNaN | XPInf => XPInf | XNInf => Fin 0 | Fin x => Fin (exp x) end.

(* numpy log: log 0 = -inf, log of a negative number is NaN *)
Definition xln (a : XR) : XR :=
  match a with
  | XNaN => XNaN | XPInf => XPInf | XNInf => XNaN
  | Fin x => if Reqb x 0 then XNInf else if Rltb x 0 then XNaN else Fin (ln x)
  end.

Definition xtrig (f : R -> R) (a : XR) : XR :=
  match a with Fin x => Fin (f x) | _ => XNaN end.

(* numpy power on finite arguments; infinite arguments are not modelled (NaN) *)
Definition xpow (a b : XR) : XR :=
  match a, b with
  | Fin x, Fin y =>
      if Rltb 0 x then Fin (Rpower x y)
      else if Reqb x 0 then
        (if Reqb y 0 then Fin 1 else if Rltb 0 y then Fin 0 else XPInf)
      else if Reqb y (IZR (Int_part y)) then Fin (powerRZ x (Int_part y)) else XNaN
  | _, _ => XNaN
  end.

(* numpy sqrt: NaN below zero *)
Definition xsqrt (a : XR) : XR :=
  match a with
  | XNaN | XNInf => XNaN | XPInf => XPInf
  | Fin x => if Rltb x 0 then XNaN else Fin (R_sqrt.sqrt x)
  end.

#[export] Instance XROps : NumOps XR := {
  nadd := xadd; nsub := xsub; nmul := xmul; ndiv := xdiv; nopp := xopp; nabs := xabs;
  nleb := xleb; nltb := xltb; neqb := xeqb; nisnan := xisnan;
  nnan := XNaN; npinf := XPInf; nninf := XNInf;
  nofZ := fun z => Fin (IZR z);
  ntrunc := fun a => match a with Fin x => Some (Rtrunc x) | _ => None end;
  nexp := xexp; nln := xln; nsin := xtrig sin; ncos := xtrig cos; npow := xpow; nsqrt := xsqrt; npi := Fin PI
}.

(* ---------- binary64 ---------- *)
Record libm := {
  lm_exp : float -> float; lm_ln : float -> float; lm_sin : float -> float;
  lm_cos : float -> float; lm_pow : float -> float -> float
}.

(* exact for |z| < 2^53 (and for negative z by symmetry); used for literals and counts only *)
Definition float_ofZ (z : Z) : float :=
  match z with
  | Z0 => 0%float
  | Zpos _ => of_uint63 (Uint63.of_Z z)
  | Zneg _ => (- of_uint63 (Uint63.of_Z (- z)))%float
  end.

(* truncation through the binary representation: x = s * m * 2^e *)
Definition float_trunc (x : float) : option Z :=
  match Prim2SF x with
  | SpecFloat.S754_zero _ => Some 0%Z
  | SpecFloat.S754_finite s m e =>
      let a := Z.shiftl (Zpos m) e in Some (if s then (- a)%Z else a)
  | _ => None
  end.

Definition floatOps (m : libm) : NumOps float := {|
  nadd := PrimFloat.add; nsub := PrimFloat.sub; nmul := PrimFloat.mul; ndiv := PrimFloat.div;
  nopp := PrimFloat.opp; nabs := PrimFloat.abs;
  nleb := PrimFloat.leb; nltb := PrimFloat.ltb; neqb := PrimFloat.eqb;
  nisnan := PrimFloat.is_nan;
  nnan := PrimFloat.nan; npinf := PrimFloat.infinity; nninf := PrimFloat.neg_infinity;
  nofZ := float_ofZ;
  ntrunc := float_trunc;
  nexp := lm_exp m; nln := lm_ln m; nsin := lm_sin m; ncos := lm_cos m; npow := lm_pow m; nsqrt := PrimFloat.sqrt;
  npi := 0x1.921fb54442d18p+1%float
|}.
