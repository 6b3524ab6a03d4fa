(** ModelArgvUsize.v: the value string of an ARGV_U_SIZE variable of libmy/argv.c. *)
From Verif Require Import Base Lib Libc ModelArgvSize.

(** An unsigned long handed to printf for %ld. *)
Definition as_long (v : Z) : Z := if v <? 2 ^ 63 then v else v - 2 ^ 64.
(** argv.c:1670-1695, value_to_string for ARGV_U_SIZE, into a buffer that holds the text; unsigned % and /. *)
Definition usize_text (v : Z) : bytes :=
  let unit f u := fmt_ld (as_long (v / f)) ++ [u; 32; 40] ++ fmt_ld (as_long v) ++ [41] in
  if v =? 0 then [48]
  else if v mod (1024 * 1024 * 1024) =? 0 then unit (1024 * 1024 * 1024) 103
  else if v mod (1024 * 1024) =? 0 then unit (1024 * 1024) 109
  else if v mod 1024 =? 0 then unit 1024 107
  else fmt_ld (as_long v).
