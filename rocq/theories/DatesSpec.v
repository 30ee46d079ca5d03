(** Specification vocabulary for C82, the validators of dates (xoa.cfgm). *)
From Verif Require Import PyDict PyRe.
From Verif Require Export Dates.
Open Scope string_scope.
(** The calendar *)
Definition leap_year (y : Z) : Prop := ((4 | y) /\ ~ (100 | y) \/ (400 | y))%Z.
Definition last_day (y m n : Z) : Prop :=
  ((In m [1; 3; 5; 7; 8; 10; 12] /\ n = 31) \/ (In m [4; 6; 9; 11] /\ n = 30) \/ (m = 2 /\ leap_year y /\ n = 29) \/ (m = 2 /\ ~ leap_year y /\ n = 28))%Z.
Definition valid (t : datetime) : Prop :=
  (1 <= year t <= 9999 /\ (exists n, last_day (year t) (month t) n /\ 1 <= day t <= n) /\ 0 <= hour t < 24 /\ 0 <= minute t < 60 /\ 0 <= second t < 60)%Z.
(** Numerals *)
Definition digit (n : nat) : string := String (ascii_of_nat (48 + n)) "".
Inductive numeral : string -> Z -> Prop :=
| one_digit a : (a < 10)%nat -> numeral (digit a) (Z.of_nat a)
| two_digits a b : (a < 10)%nat -> (b < 10)%nat -> numeral (digit a ++ digit b) (10 * Z.of_nat a + Z.of_nat b).
Inductive year_numeral : string -> Z -> Prop :=
| four_digits a b c d : (a < 10)%nat -> (b < 10)%nat -> (c < 10)%nat -> (d < 10)%nat ->
  year_numeral (digit a ++ digit b ++ digit c ++ digit d) (1000 * Z.of_nat a + 100 * Z.of_nat b + 10 * Z.of_nat c + Z.of_nat d).
(** Y-m-dTH:M:S; a day below 10 can have a space instead of 0 *)
Definition written (s : string) (t : datetime) : Prop := exists y mo d h mi sc T,
  s = y ++ "-" ++ mo ++ "-" ++ d ++ T ++ h ++ ":" ++ mi ++ ":" ++ sc /\ (T = "T" \/ T = "t") /\
  year_numeral y (year t) /\ numeral mo (month t) /\ (numeral d (day t) \/ exists a, (a < 10)%nat /\ d = " " ++ digit a /\ day t = Z.of_nat a) /\
  numeral h (hour t) /\ numeral mi (minute t) /\ numeral sc (second t).
(** The text of a date by isoformat() *)
Definition pad2 (n : Z) : string := digit (Z.to_nat (n / 10)) ++ digit (Z.to_nat (n mod 10)).
Definition isoformat (t : datetime) : string :=
  pad2 (year t / 100) ++ pad2 (year t mod 100) ++ "-" ++ pad2 (month t) ++ "-" ++ pad2 (day t) ++ "T" ++ pad2 (hour t) ++ ":" ++ pad2 (minute t) ++ ":" ++ pad2 (second t).
