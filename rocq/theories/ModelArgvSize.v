(** ModelArgvSize.v: sizes with a unit (ARGV_SIZE) of libmy/argv.c, read and shown. long has 64 bits. *)
From Verif Require Import Base Lib Libc ModelLibmyIo.

(** argv.c:1367-1371: the blanks, signs and digits are skipped. *)
Fixpoint size_rest (s : bytes) : bytes :=
  match s with
  | c :: r => if (c =? 32) || (c =? 45) || (c =? 43) || ((48 <=? c) && (c <=? 57)) then size_rest r else s
  | [] => []
  end.
(** argv.c:1372-1383: the factor of the unit. *)
Definition size_factor (s : bytes) : Z :=
  match s with
  | c :: _ => if (c =? 98) || (c =? 66) then 1 else if (c =? 107) || (c =? 75) then 1024
              else if (c =? 109) || (c =? 77) then 1024 * 1024 else if (c =? 103) || (c =? 71) then 1024 * 1024 * 1024 else 1
  | [] => 1
  end.
(** argv.c:1360-1386, string_to_value for ARGV_SIZE; atol is strtol to base 10. *)
Definition string_to_size (arg : bytes) : outcome Z := i64 (fst (strtol arg) * size_factor (size_rest arg)).
(** argv.c:1387-1420, string_to_value for ARGV_U_SIZE: unsigned arithmetic. *)
Definition string_to_usize (arg : bytes) : Z := fst (strtol arg) mod 2 ^ 64 * size_factor (size_rest arg) mod 2 ^ 64.

(** printf("%ld", v). *)
Definition fmt_ld (v : Z) : bytes := if v <? 0 then 45 :: fmt_u (- v) else fmt_u v.
(** argv.c:1640-1664, the text of a value that is not 0; C's % and / (truncated). *)
Definition size_text (v : Z) : bytes :=
  let unit f u := fmt_ld (Z.quot v f) ++ [u; 32; 40] ++ fmt_ld v ++ [41] in
  if Z.rem v (1024 * 1024 * 1024) =? 0 then unit (1024 * 1024 * 1024) 103
  else if Z.rem v (1024 * 1024) =? 0 then unit (1024 * 1024) 109
  else if Z.rem v 1024 =? 0 then unit 1024 107
  else fmt_ld v.
(** argv.c:1640-1668, value_to_string for ARGV_SIZE, [size] > 0: the octets written, up to the NUL. *)
Definition value_size (v size : Z) : outcome bytes :=
  if v =? 0 then push size [] [48; 0] else push size [] (firstn (Z.to_nat (size - 1)) (size_text v) ++ [0]).
