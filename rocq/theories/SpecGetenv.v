(** SpecGetenv.v: integers as C writes them, independently of strtoul. *)
From Verif Require Import Base.

Definition decimal (c : Z) : Prop := 48 <= c <= 57.
Definition octal (c : Z) : Prop := 48 <= c <= 55.
Definition hexadecimal (c : Z) : Prop := 48 <= c <= 57 \/ 65 <= c <= 70 \/ 97 <= c <= 102.
Definition digit_value (c : Z) : Z := if c <=? 57 then c - 48 else if c <=? 70 then c - 55 else c - 87.
Definition value_in (b : Z) (s : bytes) : Z := fold_left (fun v c => v * b + digit_value c) s 0.
(** The integer constants of C: decimal ones do not begin with 0, octal ones do, hexadecimal ones begin with 0x or 0X. *)
Inductive constant : bytes -> Z -> Prop :=
| c_dec : forall c s, 49 <= c <= 57 -> Forall decimal s -> constant (c :: s) (value_in 10 (c :: s))
| c_oct : forall s, Forall octal s -> constant (48 :: s) (value_in 8 s)
| c_hex : forall x s, x = 120 \/ x = 88 -> s <> [] -> Forall hexadecimal s -> constant (48 :: x :: s) (value_in 16 s).
Definition white (c : Z) : Prop := c = 32 \/ 9 <= c <= 13.
(** White space, at most one sign, a constant; as an integer. *)
Inductive numeral : bytes -> Z -> Prop :=
| n_plain : forall w s v, Forall white w -> constant s v -> numeral (w ++ s) v
| n_plus : forall w s v, Forall white w -> constant s v -> numeral (w ++ 43 :: s) v
| n_minus : forall w s v, Forall white w -> constant s v -> numeral (w ++ 45 :: s) (- v).
(** The integer as an unsigned long: the largest one when its magnitude is too large, otherwise modulo 2^64. *)
Definition as_ulong (v : Z) : Z := if Z.abs v >=? 2^64 then 2^64 - 1 else v mod 2^64.
