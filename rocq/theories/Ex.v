(* Support for concrete examples: binary64 carrier with placeholder libm functions (examples that
   use this instance do not call exp, log, sin, cos or pow). *)
From Coq Require Import ZArith List Bool PrimFloat.
From Verif Require Import Num Py Cal Model.

Definition libm0 : libm :=
  {| lm_exp := fun x => x; lm_ln := fun x => x; lm_sin := fun x => x; lm_cos := fun x => x;
     lm_pow := fun x _ => x |}.
Definition fops : NumOps float := floatOps libm0.

(* days of the week starting Monday 2018-01-01 *)
Definition jan2018 (n : nat) : list Z := map (fun i => ts 2018 1 (1 + Z.of_nat i)) (seq 0 n).
