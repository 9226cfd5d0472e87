(* Decimal and ISO date formatting, used in model names: str(int), str(date). *)
From Coq Require Import ZArith String Ascii List Bool.
From Verif Require Import Cal.
Local Open Scope string_scope.

Definition digit (n : Z) : string := String (ascii_of_nat (48 + Z.to_nat n)) EmptyString.

(* last k decimal digits of z, most significant first *)
Fixpoint digits (k : nat) (z : Z) : string :=
  match k with
  | O => ""
  | S k' => digits k' (z / 10) ++ digit (z mod 10)
  end.

(* str(datetime.date): YYYY-MM-DD, for years 0..9999 *)
Definition fmt_date (t : Z) : string :=
  digits 4 (year t) ++ "-" ++ digits 2 (month t) ++ "-" ++ digits 2 (dom t).
