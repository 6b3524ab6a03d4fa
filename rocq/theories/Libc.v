(** Libc.v: the C library functions the modelled code calls ("C" locale, glibc, LP64, signed char).
    They are part of the trusted reading of the environment, not of /repo.
    A C string is the list of its characters without the terminating NUL. *)
From Coq Require Strings.String Strings.Ascii.
From Verif Require Import Base ModelName.
Export Coq.Strings.String.StringSyntax.
Delimit Scope string_scope with string.

(** A string literal of the C source. *)
Definition lit (s : String.string) : bytes :=
  map (fun a => Z.of_N (Ascii.N_of_ascii a)) (String.list_ascii_of_string s).
Arguments lit s%string.

(** ** <ctype.h> *)
Definition isspace (c : Z) : bool := (c =? 32) || ((9 <=? c) && (c <=? 13)).
Definition tolower (c : Z) : Z := if (65 <=? c) && (c <=? 90) then c + 32 else c.
Definition toupper (c : Z) : Z := if (97 <=? c) && (c <=? 122) then c - 32 else c.
(** Value of a hexadecimal digit, -1 for anything else. *)
Definition hexval (c : Z) : Z :=
  if (48 <=? c) && (c <=? 57) then c - 48
  else if (65 <=? c) && (c <=? 70) then c - 55
  else if (97 <=? c) && (c <=? 102) then c - 87
  else -1.
Definition isxdigit (c : Z) : bool := 0 <=? hexval c.
Definition isprint (c : Z) : bool := (32 <=? c) && (c <=? 126).

(** ** <string.h>, <strings.h> *)

(** strcmp(a, b) == 0. *)
Fixpoint streq (a b : bytes) : bool :=
  match a, b with [], [] => true | x :: a, y :: b => (x =? y) && streq a b | _, _ => false end.

(** strncmp(s, p, strlen(p)) == 0. *)
Fixpoint prefix_eq (p s : bytes) : bool :=
  match p, s with [], _ => true | x :: p, y :: s => (x =? y) && prefix_eq p s | _, _ => false end.

(** strcasecmp(a, b): the difference of the first differing lower-cased characters. *)
Fixpoint strcasecmp (a b : bytes) : Z :=
  match a, b with
  | [], [] => 0
  | x :: _, [] => tolower x
  | [], y :: _ => - tolower y
  | x :: a, y :: b => if tolower x =? tolower y then strcasecmp a b else tolower x - tolower y
  end.

(** strncasecmp(s, p, strlen(p)) == 0. *)
Fixpoint prefix_caseeq (p s : bytes) : bool :=
  match p, s with [], _ => true | x :: p, y :: s => (tolower x =? tolower y) && prefix_caseeq p s | _, _ => false end.

(** Split at the first character satisfying f (strpbrk / strcspn). *)
Fixpoint split_at (f : Z -> bool) (s : bytes) : bytes * bytes :=
  match s with
  | [] => ([], [])
  | c :: r => if f c then ([], s) else let '(a, b) := split_at f r in (c :: a, b)
  end.

(** while (isspace( *s)) s++ *)
Fixpoint skip_space (s : bytes) : bytes :=
  match s with c :: r => if isspace c then skip_space r else s | [] => [] end.

(** strtok_r(s, d, &save) for a one-character delimiter set: the token and the rest. *)
Fixpoint skip_delim (d : Z) (s : bytes) : bytes :=
  match s with c :: r => if c =? d then skip_delim d r else s | [] => [] end.
Definition strtok (d : Z) (s : bytes) : option (bytes * bytes) :=
  match skip_delim d s with
  | [] => None
  | s' => let '(t, r) := split_at (fun c => c =? d) s' in Some (t, match r with [] => [] | _ :: r' => r' end)
  end.

(** ** <stdlib.h> *)

(** The digits at the head of s: accumulated value, whether there was one, the rest. *)
Fixpoint scan_digits (s : bytes) (acc : Z) (seen : bool) : Z * bool * bytes :=
  match s with
  | c :: r => if is_digit c then scan_digits r (acc * 10 + (c - 48)) true else (acc, seen, s)
  | [] => (acc, seen, s)
  end.
Definition scan_sign (s : bytes) : bool * bytes :=
  match s with c :: r => if c =? 45 then (true, r) else if c =? 43 then (false, r) else (false, s) | [] => (false, s) end.

(** strtol(s, &endptr, 10): value and the string at endptr. *)
Definition strtol (s : bytes) : Z * bytes :=
  let '(neg, t) := scan_sign (skip_space s) in
  let '(v, seen, r) := scan_digits t 0 false in
  if seen then ((if neg then Z.max (- 2^63) (- v) else Z.min (2^63 - 1) v), r) else (0, s).

(** strtoul(s, &endptr, 10). *)
Definition strtoul (s : bytes) : Z * bytes :=
  let '(neg, t) := scan_sign (skip_space s) in
  let '(v, seen, r) := scan_digits t 0 false in
  if seen then ((if v >? 2^64 - 1 then 2^64 - 1 else if neg then (- v) mod 2^64 else v), r) else (0, s).

(** bsearch(key, base, n, size, cmp) as glibc implements it; [cmp] compares the key with an element. *)
Fixpoint bsearch_loop {A} (fuel : nat) (cmp : A -> Z) (t : list A) (l u : Z) : option A :=
  match fuel with
  | O => None
  | S k =>
    if l <? u then
      let idx := (l + u) / 2 in
      match nth_error t (Z.to_nat idx) with
      | None => None
      | Some e => let c := cmp e in
          if c <? 0 then bsearch_loop k cmp t l idx else if c >? 0 then bsearch_loop k cmp t (idx + 1) u else Some e
      end
    else None
  end.
Definition bsearch {A} (cmp : A -> Z) (t : list A) : option A := bsearch_loop (S (length t)) cmp t 0 (zlen t).

(** ** <stdio.h> *)

(** Result of one sscanf conversion: EOF, no match, or a value and the rest of the input. *)
Inductive scan := ScanEof | ScanNone | ScanVal (v : Z) (rest : bytes).

(** sscanf(s, "%lu") (also PRIu64); "%hu" and "%hhu" store the value modulo 2^16 and 2^8. *)
Definition scan_u (s : bytes) : scan :=
  match skip_space s with
  | [] => ScanEof
  | t => let '(neg, t) := scan_sign t in
      let '(v, seen, r) := scan_digits t 0 false in
      if seen then ScanVal (if v >? 2^64 - 1 then 2^64 - 1 else if neg then (- v) mod 2^64 else v) r else ScanNone
  end.

(** Up to [width] hexadecimal digits. *)
Fixpoint scan_xdigits (width : nat) (s : bytes) (acc : Z) (seen : bool) : Z * bool * bytes :=
  match width, s with
  | S w, c :: r => if isxdigit c then scan_xdigits w r (acc * 16 + hexval c) true else (acc, seen, s)
  | _, _ => (acc, seen, s)
  end.

(** sscanf(s, "%02hhx"): white space is skipped and does not count; a sign and an "0x" prefix count towards the
    width of 2. *)
Definition scan_hh (s : bytes) : scan :=
  match skip_space s with
  | [] => ScanEof
  | c :: r =>
    if (c =? 45) || (c =? 43) then
      let '(v, seen, r) := scan_xdigits 1 r 0 false in
      if seen then ScanVal (if c =? 45 then (- v) mod 256 else v) r else ScanNone
    else if (c =? 48) && (match r with x :: _ => tolower x =? 120 | [] => false end) then ScanVal 0 (tl r)
    else
      let '(v, seen, r) := scan_xdigits 2 (c :: r) 0 false in
      if seen then ScanVal v r else ScanNone
  end.

(** Decimal digits of a non-negative number below 10^20, as printf("%u") writes them. *)
Fixpoint dec_loop (fuel : nat) (n : Z) (acc : bytes) : bytes :=
  match fuel with
  | O => acc
  | S k => let acc := (48 + n mod 10) :: acc in if n <? 10 then acc else dec_loop k (n / 10) acc
  end.
Definition fmt_u (n : Z) : bytes := dec_loop 20 n [].

(** ** <arpa/inet.h> inet_pton, as in glibc *)

(** [done]: completed octets; [cur]: the octet being read, if a digit was seen. *)
Fixpoint pton4_loop (s : bytes) (done : bytes) (cur : option Z) : option bytes :=
  match s with
  | [] => match cur with Some v => if zlen done =? 3 then Some (done ++ [v]) else None | None => None end
  | c :: r =>
    if is_digit c then
      match cur with
      | None => if zlen done >=? 4 then None else pton4_loop r done (Some (c - 48))
      | Some v => if v =? 0 then None else if v * 10 + (c - 48) >? 255 then None else pton4_loop r done (Some (v * 10 + (c - 48)))
      end
    else match cur with
         | Some v => if c =? 46 then if zlen done >=? 3 then None else pton4_loop r (done ++ [v]) None else None
         | None => None
         end
  end.
Definition inet_pton4 (s : bytes) : option bytes := pton4_loop s [] None.

(** [tmp]: octets written so far; [colonp]: their number at the "::"; [curtok]: text of the current group;
    [nx], [val]: number and value of the hexadecimal digits since the last colon. *)
Fixpoint pton6_loop (s : bytes) (tmp : bytes) (colonp : option Z) (curtok : bytes) (nx val : Z)
  : option (bytes * option Z * Z * Z) :=
  match s with
  | [] => Some (tmp, colonp, nx, val)
  | c :: r =>
    if isxdigit c then
      if nx =? 4 then None else pton6_loop r tmp colonp curtok (nx + 1) (val * 16 + hexval c)
    else if c =? 58 then
      if nx =? 0 then
        match colonp with Some _ => None | None => pton6_loop r tmp (Some (zlen tmp)) r 0 0 end
      else if (match r with [] => true | _ => false end) then None
      else if zlen tmp + 2 >? 16 then None
      else pton6_loop r (tmp ++ [val / 256; val mod 256]) colonp r 0 0
    else if (c =? 46) && (zlen tmp + 4 <=? 16) then
      match inet_pton4 curtok with Some a => Some (tmp ++ a, colonp, 0, 0) | None => None end
    else None
  end.
Definition inet_pton6 (s : bytes) : option bytes :=
  match (match s with
         | [] => None
         | c :: r => if c =? 58 then match r with d :: _ => if d =? 58 then Some r else None | [] => None end else Some s
         end) with
  | None => None
  | Some s =>
    match pton6_loop s [] None s 0 0 with
    | None => None
    | Some (tmp, colonp, nx, val) =>
      if (nx >? 0) && (zlen tmp + 2 >? 16) then None else
      let tmp := if nx >? 0 then tmp ++ [val / 256; val mod 256] else tmp in
      match colonp with
      | None => if zlen tmp =? 16 then Some tmp else None
      | Some k => if zlen tmp =? 16 then None
          else Some (firstn (Z.to_nat k) tmp ++ repeat 0 (Z.to_nat (16 - zlen tmp)) ++ skipn (Z.to_nat k) tmp)
      end
    end
  end.
