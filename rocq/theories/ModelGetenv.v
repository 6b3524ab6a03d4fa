(** ModelGetenv.v: libmy/getenv_int.h. *)
From Verif Require Import Base Libc.

(** The digits of base [b] at the head of s: accumulated value, whether there was one, the rest. *)
Fixpoint scan_base (b : Z) (s : bytes) (acc : Z) (seen : bool) : Z * bool * bytes :=
  match s with
  | c :: r => if (0 <=? hexval c) && (hexval c <? b) then scan_base b r (acc * b + hexval c) true else (acc, seen, s)
  | [] => (acc, seen, s)
  end.
(** strtoul(s, &endptr, 0) as in glibc (LP64): value and the string at endptr. A "0x" without a digit behind it is the number 0 followed by "x". *)
Definition strtoul_0 (s : bytes) : Z * bytes :=
  let '(neg, t) := scan_sign (skip_space s) in
  let '(v, seen, r) :=
    match t with
    | z :: x :: t' => if (z =? 48) && (toupper x =? 88) then
                        let '(v, seen, r) := scan_base 16 t' 0 false in if seen then (v, true, r) else (0, true, x :: t')
                      else scan_base (if z =? 48 then 8 else 10) t 0 false
    | [z] => scan_base (if z =? 48 then 8 else 10) t 0 false
    | [] => (0, false, [])
    end in
  if seen then ((if v >? 2^64 - 1 then 2^64 - 1 else if neg then (- v) mod 2^64 else v), r) else (0, s).

(** getenv_int, getenv_int.h:8-20: the return value and *value afterwards; [env]: what getenv(name) returns; [old]: *value before. *)
Definition getenv_int (env : option bytes) (old : Z) : bool * Z :=
  match env with
  | None => (false, old)
  | Some s => let '(v, t) := strtoul_0 s in (match t with [] => true | _ :: _ => false end, v)
  end.
