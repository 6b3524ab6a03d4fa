(** ModelArgvBase.v: the value strings of binary, octal and hexadecimal variables of libmy/argv.c. int has 32 bits. *)
From Verif Require Import Base Lib Libc ModelArgv ModelArgvSize.

(** A digit as printf writes it. *)
Definition low_digit (d : Z) : Z := if d <? 10 then 48 + d else 87 + d.
(** The digits of [n] to base [b], most significant first ("%o", "%x" and the loop over the bits). *)
Fixpoint base_loop (fuel : nat) (b n : Z) (acc : bytes) : bytes :=
  match fuel with
  | O => acc
  | S k => let acc := low_digit (n mod b) :: acc in if n <? b then acc else base_loop k b (n / b) acc
  end.
(** The unsigned int of an int. *)
Definition unsigned_of (v : Z) : Z := v mod 2 ^ 32.
(** " (%d)". *)
Definition in_decimal (v : Z) : bytes := [32; 40] ++ fmt_ld v ++ [41].
(** argv.c:1612-1621, ARGV_OCT: "0" or "%#o (%d)", into a buffer that holds the text. *)
Definition oct_text (v : Z) : bytes := if v =? 0 then [48] else 48 :: base_loop 11 8 (unsigned_of v) [] ++ in_decimal v.
(** argv.c:1623-1632, ARGV_HEX: "0" or "%#x (%d)". *)
Definition hex_text (v : Z) : bytes := if v =? 0 then [48] else [48; 120] ++ base_loop 8 16 (unsigned_of v) [] ++ in_decimal v.
(** argv.c:1564-1610, ARGV_BIN: "0" or 0b, the bits from the highest that is set (the loop that tests the bits from 31 down to 0 writes
    the binary digits of the unsigned value), and the decimal equivalent. *)
Definition bin_text (v : Z) : bytes := if v =? 0 then [48] else [48; 98] ++ base_loop 32 2 (unsigned_of v) [] ++ in_decimal v.
