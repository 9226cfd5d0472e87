(* Specification of the Gregorian calendar and finite checks: per year of a 400-year era, per day
   of a year, per month. *)
From Coq Require Import ZArith List Bool Lia.
From Verif Require Import Cal.
Import ListNotations.
Open Scope Z_scope.

(* ---- specification ---- *)
Definition leap (y : Z) : bool := (y mod 4 =? 0) && (negb (y mod 100 =? 0) || (y mod 400 =? 0)).
Definition days_in_month (y m : Z) : Z :=
  if m =? 2 then (if leap y then 29 else 28)
  else if (m =? 4) || (m =? 6) || (m =? 9) || (m =? 11) then 30 else 31.
Definition valid_date (y m d : Z) : Prop := 1 <= m <= 12 /\ 1 <= d <= days_in_month y m.

Definition upto (n : nat) : list Z := map Z.of_nat (seq 0 n).
Lemma upto_forallb n f : forallb f (upto n) = true -> forall z, 0 <= z < Z.of_nat n -> f z = true.
Proof.
  rewrite forallb_forall. intros F z Hz. apply F. unfold upto.
  apply in_map_iff. exists (Z.to_nat z). split; [lia|]. apply in_seq. lia.
Qed.

(* years of an era start in March: first day of year yoe, counted from the start of the era *)
Definition ystart (yoe : Z) : Z := 365 * yoe + yoe / 4 - yoe / 100.
Definition ylen (yoe : Z) : Z := if leap (yoe + 1) then 366 else 365.
(* the numerator of the year formula *)
Definition ynum (doe : Z) : Z := doe - doe / 1460 + doe / 36524 - doe / 146096.
Definition mp_of (m : Z) : Z := if 2 <? m then m - 3 else m + 9.
Definition m_of (mp : Z) : Z := if mp <? 10 then mp + 3 else mp - 9.
Definition mdoy (mp : Z) : Z := (153 * mp + 2) / 5.

Definition check_year (yoe : Z) : bool :=
  (ynum (ystart yoe) / 365 =? yoe) && (ynum (ystart yoe + ylen yoe - 1) / 365 =? yoe)
  && (0 <=? ystart yoe) && (ystart yoe + ylen yoe - 1 <=? 146096)
  && ((yoe =? 399) || (ystart (yoe + 1) =? ystart yoe + ylen yoe)).
Lemma sweep_years : forallb check_year (upto 400) = true.
Proof. vm_cast_no_check (eq_refl true). Qed.

(* longest length of a month *)
Definition dim_max (m : Z) : Z :=
  if m =? 2 then 29 else if (m =? 4) || (m =? 6) || (m =? 9) || (m =? 11) then 30 else 31.
Definition check_doy (doy : Z) : bool :=
  let mp := (5 * doy + 2) / 153 in
  let d := doy - mdoy mp + 1 in
  (0 <=? mp) && (mp <=? 11) && (1 <=? d) && (d <=? dim_max (m_of mp))
  && (if (m_of mp =? 2) && (d =? 29) then doy =? 365 else true).
Lemma sweep_doy : forallb check_doy (upto 366) = true.
Proof. vm_cast_no_check (eq_refl true). Qed.

Definition check_md (m d : Z) : bool :=
  (m <? 1) || (d <? 1) || (dim_max m <? d) ||
  ((m_of (mp_of m) =? m) &&
   ((5 * (mdoy (mp_of m) + d - 1) + 2) / 153 =? mp_of m) &&
   (0 <=? mdoy (mp_of m) + d - 1) &&
   (mdoy (mp_of m) + d - 1 <=? (if (m =? 2) && (d =? 29) then 365 else 364))).
Lemma sweep_md : forallb (fun m => forallb (check_md m) (upto 32)) (upto 13) = true.
Proof. vm_cast_no_check (eq_refl true). Qed.

Definition check_march (y : Z) : bool :=
  days_from_civil y 3 1 =? days_from_civil y 2 1 + (if leap y then 29 else 28).
Lemma sweep_march : forallb check_march (upto 400) = true.
Proof. vm_cast_no_check (eq_refl true). Qed.
