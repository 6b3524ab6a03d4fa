(** ModelArgv.v: parts of libmy/argv.c that do not depend on the argument grid: argv_copy_args, the value strings of characters and
    strings, the integers of the binary, octal and hexadecimal types and the words of the environment variable. Not modelled here: the
    processing of the grid itself, usage messages, argument files.

    A buffer is the list of the octets written so far from its start; a write past its size is UB OobWrite. *)
From Verif Require Import Base Lib Libc.

(** argv.c:3559-3576, the inner loop: the text so far and size_c. *)
Fixpoint copy_chars (size : Z) (arg : bytes) (out : bytes) (size_c : Z) : outcome (bytes * Z) :=
  match arg with
  | [] => Ok (out, size_c)
  | c :: arg => if size_c >=? 2 then out <- push size out [c] ;; copy_chars size arg out (size_c - 1) else Ok (out, size_c)
  end.
(** argv.c:3555-3576, the loop over the arguments; [first]: argv_p == argv_argv + 1. *)
Fixpoint copy_args (size : Z) (first : bool) (args : list bytes) (out : bytes) (size_c : Z) : outcome bytes :=
  match args with
  | [] => Ok out
  | a :: args =>
    if size_c <? 2 then Ok out
    else
    '(out, size_c) <- (if first then Ok (out, size_c) else out <- push size out [32] ;; Ok (out, size_c - 1)) ;;
    '(out, size_c) <- copy_chars size a out size_c ;;
    copy_args size false args out size_c
  end.
(** argv.c:3532-3580, argv_copy_args: the octets of the buffer that were written; [args]: argv_argv without its first element, None before
    argv_process. *)
Definition argv_copy_args (args : option (list bytes)) (size : Z) : outcome bytes :=
  if size <=? 0 then Ok []
  else
  e <- push size [] [0] ;;
  match args with
  | None => Ok e
  | Some args => if size =? 1 then Ok e else out <- copy_args size true args [] size ;; push size out [0]
  end.

(** argv_loc.h:74, SPECIAL_CHARS as pairs of the letter and the character. *)
Definition special_chars : list (Z * Z) :=
  [(101, 27); (94, 94); (34, 34); (39, 39); (92, 92); (110, 10); (114, 13); (116, 9); (98, 8); (102, 12); (97, 7)].
(** argv.c:472-479: the letter of the special character. *)
Fixpoint special_of (c : Z) (l : list (Z * Z)) : option Z :=
  match l with
  | [] => None
  | (a, b) :: l => if b =? c then Some a else special_of c l
  end.
(** snprintf(p, n, ..) with the text [t]: what it writes. *)
Definition snprintf_n (n : Z) (t : bytes) : bytes := firstn (Z.to_nat (n - 1)) t ++ [0].
(** "%03o" of an octet. *)
Definition oct3 (c : Z) : bytes := [48 + c / 64; 48 + c / 8 mod 8; 48 + c mod 8].
(** argv.c:446-509, expand_buf, for the [s] octets that are looked at: the octets written, their number is the result. *)
Fixpoint expand_buf (s : bytes) (out : bytes) (size : Z) : outcome bytes :=
  match s with
  | [] => Ok out
  | c :: s =>
    match special_of c special_chars with
    | Some a => if zlen out + 2 >=? size then Ok out else out <- push size out (snprintf_n 2 [92; a]) ;; expand_buf s out size
    | None =>
      if (c <? 128) && isprint c then
        if zlen out + 1 >=? size then Ok out else out <- push size out [c] ;; expand_buf s out size
      else if zlen out + 4 >=? size then Ok out else out <- push size out (snprintf_n 4 (92 :: oct3 c)) ;; expand_buf s out size
    end
  end.
(** argv.c:3595-3650 and 1483-1522, argv_value_string for an ARGV_CHAR variable and for an ARGV_CHAR_P variable that is not NULL (the
    octets in front of its first NUL): the octets written and the length returned. *)
Definition value_char (c : Z) (size : Z) : outcome (bytes * Z) := o <- expand_buf [c] [] size ;; Ok (o, zlen o).
Definition value_string (s : bytes) (size : Z) : outcome (bytes * Z) := o <- expand_buf s [] size ;; Ok (o, zlen o).

(** A signed int. *)
Definition int_of (z : Z) : outcome Z := if (- 2147483648 <=? z) && (z <=? 2147483647) then Ok z else UB IntOverflow.
(** argv.c:195-210, btoi (without the spaces). *)
Fixpoint btoi_loop (s : bytes) (ret : Z) : outcome Z :=
  match s with
  | c :: s => if (c =? 48) || (c =? 49) then r <- int_of (ret * 2) ;; r <- int_of (r + (c - 48)) ;; btoi_loop s r else Ok ret
  | [] => Ok ret
  end.
Definition btoi (s : bytes) : outcome Z := btoi_loop (skip_space s) 0.
(** argv.c:226-241, otoi. *)
Fixpoint otoi_loop (s : bytes) (ret : Z) : outcome Z :=
  match s with
  | c :: s => if (48 <=? c) && (c <=? 55) then r <- int_of (ret * 8) ;; r <- int_of (r + (c - 48)) ;; otoi_loop s r else Ok ret
  | [] => Ok ret
  end.
Definition otoi (s : bytes) : outcome Z := otoi_loop (skip_space s) 0.
(** argv.c:258-289, htoi. *)
Fixpoint htoi_loop (s : bytes) (ret : Z) : outcome Z :=
  match s with
  | c :: s =>
    if ((48 <=? c) && (c <=? 57)) || ((97 <=? c) && (c <=? 102)) || ((65 <=? c) && (c <=? 70)) then
      r <- int_of (ret * 16) ;;
      r <- int_of (r + (if (97 <=? c) && (c <=? 102) then c - 97 + 10 else if (65 <=? c) && (c <=? 70) then c - 65 + 10 else c - 48)) ;;
      htoi_loop s r
    else Ok ret
  | [] => Ok ret
  end.
Definition htoi (s : bytes) : outcome Z :=
  let s := skip_space s in
  htoi_loop (match s with a :: b :: r => if (a =? 48) && ((b =? 120) || (b =? 88)) then r else s | _ => s end) 0.

(** strsep(3) on the string [s]: the token and what remains (None: the last token). *)
Fixpoint strsep (tok : bytes) (s : bytes) : bytes * option bytes :=
  match s with
  | [] => ([], None)
  | c :: s => if existsb (Z.eqb c) tok then ([], Some s) else let '(t, r) := strsep tok s in (c :: t, r)
  end.
(** argv.c:371-383: the tokens are counted. [s]: *str_p. *)
Fixpoint count_tokens (fuel : nat) (tok : bytes) (s : option bytes) (tok_c : Z) : outcome Z :=
  match s with
  | None => Ok tok_c
  | Some s =>
    match fuel with
    | O => NoFuel
    | S k => let '(t, r) := strsep tok s in count_tokens k tok r (match t with [] => tok_c | _ => tok_c + 1 end)
    end
  end.
(** argv.c:406-418: the tokens are stored in an array of [tok_n]. *)
Fixpoint load_tokens (fuel : nat) (tok : bytes) (s : option bytes) (tok_n : Z) (v : list bytes) : outcome (list bytes) :=
  if zlen v <? tok_n then
    match s with
    | None => Ok v
    | Some s =>
      match fuel with
      | O => NoFuel
      | S k => let '(t, r) := strsep tok s in load_tokens k tok r tok_n (match t with [] => v | _ => v ++ [t] end)
      end
    end
  else Ok v.
(** argv.c:358-421, vectorize; no tokens: NULL, and the count 0. *)
Definition vectorize (fuel : nat) (s tok : bytes) : outcome (list bytes) :=
  n <- count_tokens fuel tok (Some s) 0 ;;
  if n =? 0 then Ok [] else load_tokens fuel tok (Some s) n [].
