(** ModelLookup3.v: libmy/lookup3.c, the hash functions, on a little-endian machine (HASH_LITTLE_ENDIAN 1, HASH_BIG_ENDIAN 0) and
    without -DVALGRIND. *)
From Verif Require Import Base.

(** uint32_t arithmetic. *)
Definition w32 (x : Z) : Z := x mod 2 ^ 32.
(** lookup3.c:75, rot. *)
Definition rot (x k : Z) : Z := Z.lor (w32 (Z.shiftl x k)) (Z.shiftr x (32 - k)).
Definition hstate : Type := Z * Z * Z.
(** lookup3.c:121-129, mix. *)
Definition mix (s : hstate) : hstate :=
  let '(a, b, c) := s in
  let a := w32 (a - c) in let a := Z.lxor a (rot c 4) in let c := w32 (c + b) in
  let b := w32 (b - a) in let b := Z.lxor b (rot a 6) in let a := w32 (a + c) in
  let c := w32 (c - b) in let c := Z.lxor c (rot b 8) in let b := w32 (b + a) in
  let a := w32 (a - c) in let a := Z.lxor a (rot c 16) in let c := w32 (c + b) in
  let b := w32 (b - a) in let b := Z.lxor b (rot a 19) in let a := w32 (a + c) in
  let c := w32 (c - b) in let c := Z.lxor c (rot b 4) in let b := w32 (b + a) in
  (a, b, c).
(** lookup3.c:156-165, final. *)
Definition final (s : hstate) : hstate :=
  let '(a, b, c) := s in
  let c := Z.lxor c b in let c := w32 (c - rot b 14) in
  let a := Z.lxor a c in let a := w32 (a - rot c 11) in
  let b := Z.lxor b a in let b := w32 (b - rot a 25) in
  let c := Z.lxor c b in let c := w32 (c - rot b 16) in
  let a := Z.lxor a c in let a := w32 (a - rot c 4) in
  let b := Z.lxor b a in let b := w32 (b - rot a 14) in
  let c := Z.lxor c b in let c := w32 (c - rot b 24) in
  (a, b, c).

(** a += x, b += x, c += x. *)
Definition adda (x : Z) (s : hstate) : hstate := let '(a, b, c) := s in (w32 (a + x), b, c).
Definition addb (x : Z) (s : hstate) : hstate := let '(a, b, c) := s in (a, w32 (b + x), c).
Definition addc (x : Z) (s : hstate) : hstate := let '(a, b, c) := s in (a, b, w32 (c + x)).

(** ** Word keys *)
(** lookup3.c:192-200 (and :237-245): the loop; the remaining words, the remaining length and the state. [k]: the words readable at k. *)
Fixpoint hw_loop (fuel : nat) (k : list Z) (len : Z) (s : hstate) : outcome (list Z * Z * hstate) :=
  match fuel with
  | O => NoFuel
  | S fuel =>
    if len >? 3 then
      k0 <- rd k 0 ;; k1 <- rd k 1 ;; k2 <- rd k 2 ;;
      hw_loop fuel (skipn 3 k) (len - 3) (mix (addc k2 (addb k1 (adda k0 s))))
    else Ok (k, len, s)
  end.
(** lookup3.c:203-211 (and :248-256): the switch falls through, so a case is run when the length is at least its number. *)
Definition hw_last (k : list Z) (len : Z) (s : hstate) : outcome hstate :=
  s <- (if len >=? 3 then (x <- rd k 2 ;; Ok (addc x s)) else Ok s) ;;
  s <- (if len >=? 2 then (x <- rd k 1 ;; Ok (addb x s)) else Ok s) ;;
  if len >=? 1 then (x <- rd k 0 ;; Ok (final (adda x s))) else Ok s.
(** lookup3.c:180-214. *)
Definition my_hashword (k : list Z) (length initval : Z) : outcome Z :=
  let i := w32 (0xdeadbeef + w32 (Z.shiftl (w32 length) 2) + initval) in
  '(k, len, s) <- hw_loop (S (Z.to_nat length)) k length (i, i, i) ;;
  '(a, b, c) <- hw_last k len s ;;
  Ok c.
(** lookup3.c:224-260: the new *pc and *pb. *)
Definition my_hashword2 (k : list Z) (length pc pb : Z) : outcome (Z * Z) :=
  let i := w32 (0xdeadbeef + w32 (Z.shiftl length 2) + pc) in
  '(k, len, s) <- hw_loop (S (Z.to_nat length)) k length (i, i, w32 (i + pb)) ;;
  '(a, b, c) <- hw_last k len s ;;
  Ok (c, b).

(** ** Octet keys *)
(** Little-endian loads at the i-th uint16_t or uint32_t. *)
Definition ld16 (m : bytes) (i : Z) : outcome Z := x <- rd m (2 * i) ;; y <- rd m (2 * i + 1) ;; Ok (x + 256 * y).
Definition ld32 (m : bytes) (i : Z) : outcome Z :=
  x <- rd m (4 * i) ;; y <- rd m (4 * i + 1) ;; z <- rd m (4 * i + 2) ;; w <- rd m (4 * i + 3) ;; Ok (x + 256 * y + 65536 * z + 16777216 * w).
(** (uint32_t)k[i] << n. *)
Definition sh (x n : Z) : Z := w32 (Z.shiftl x n).

(** lookup3.c:304-313 and :487-496: aligned to 4. *)
Fixpoint hl4_loop (fuel : nat) (k : bytes) (len : Z) (s : hstate) : outcome (bytes * Z * hstate) :=
  match fuel with
  | O => NoFuel
  | S fuel =>
    if len >? 12 then
      k0 <- ld32 k 0 ;; k1 <- ld32 k 1 ;; k2 <- ld32 k 2 ;;
      hl4_loop fuel (skipn 12 k) (len - 12) (mix (addc k2 (addb k1 (adda k0 s))))
    else Ok (k, len, s)
  end.
(** lookup3.c:327-343 and :510-526; [None]: case 0. *)
Definition hl4_last (k : bytes) (len : Z) (s : hstate) : outcome (option hstate) :=
  let put2 (mask : Z) := c <- ld32 k 2 ;; b <- ld32 k 1 ;; a <- ld32 k 0 ;; Ok (Some (adda a (addb b (addc (Z.land c mask) s)))) in
  let put1 (mask : Z) := b <- ld32 k 1 ;; a <- ld32 k 0 ;; Ok (Some (adda a (addb (Z.land b mask) s))) in
  let put0 (mask : Z) := a <- ld32 k 0 ;; Ok (Some (adda (Z.land a mask) s)) in
  if len =? 12 then put2 0xffffffff
  else if len =? 11 then put2 0xffffff
  else if len =? 10 then put2 0xffff
  else if len =? 9 then put2 0xff
  else if len =? 8 then put1 0xffffffff
  else if len =? 7 then put1 0xffffff
  else if len =? 6 then put1 0xffff
  else if len =? 5 then put1 0xff
  else if len =? 4 then put0 0xffffffff
  else if len =? 3 then put0 0xffffff
  else if len =? 2 then put0 0xffff
  else if len =? 1 then put0 0xff
  else if len =? 0 then Ok None
  else Ok (Some s).

(** lookup3.c:370-378 and :553-561: aligned to 2. *)
Definition two (k : bytes) (i : Z) : outcome Z := x <- ld16 k i ;; y <- ld16 k (i + 1) ;; Ok (w32 (x + sh y 16)).
Fixpoint hl2_loop (fuel : nat) (k : bytes) (len : Z) (s : hstate) : outcome (bytes * Z * hstate) :=
  match fuel with
  | O => NoFuel
  | S fuel =>
    if len >? 12 then
      a <- two k 0 ;; b <- two k 2 ;; c <- two k 4 ;;
      hl2_loop fuel (skipn 12 k) (len - 12) (mix (addc c (addb b (adda a s))))
    else Ok (k, len, s)
  end.
(** lookup3.c:381-414 and :564-597. *)
Definition hl2_last (k : bytes) (len : Z) (s : hstate) : outcome (option hstate) :=
  let ab (s : hstate) := b <- two k 2 ;; a <- two k 0 ;; Ok (Some (adda a (addb b s))) in
  let a_ (s : hstate) := a <- two k 0 ;; Ok (Some (adda a s)) in
  let case10 (s : hstate) := x <- ld16 k 4 ;; ab (addc x s) in
  let case6 (s : hstate) := x <- ld16 k 2 ;; a_ (addb x s) in
  let case2 (s : hstate) := x <- ld16 k 0 ;; Ok (Some (adda x s)) in
  if len =? 12 then (c <- two k 4 ;; ab (addc c s))
  else if len =? 11 then (x <- rd k 10 ;; case10 (addc (sh x 16) s))
  else if len =? 10 then case10 s
  else if len =? 9 then (x <- rd k 8 ;; ab (addc x s))
  else if len =? 8 then ab s
  else if len =? 7 then (x <- rd k 6 ;; case6 (addb (sh x 16) s))
  else if len =? 6 then case6 s
  else if len =? 5 then (x <- rd k 4 ;; a_ (addb x s))
  else if len =? 4 then a_ s
  else if len =? 3 then (x <- rd k 2 ;; case2 (adda (sh x 16) s))
  else if len =? 2 then case2 s
  else if len =? 1 then (x <- rd k 0 ;; Ok (Some (adda x s)))
  else if len =? 0 then Ok None
  else Ok (Some s).

(** A sequence of statements v += (uint32_t)k[i] << n. *)
Inductive reg := RA | RB | RC.
Definition add_reg (r : reg) (x : Z) (s : hstate) : hstate := match r with RA => adda x s | RB => addb x s | RC => addc x s end.
Fixpoint adds (k : bytes) (l : list (reg * Z * Z)) (s : hstate) : outcome hstate :=
  match l with
  | [] => Ok s
  | (r, i, n) :: l' => x <- rd k i ;; adds k l' (add_reg r (sh x n) s)
  end.
(** lookup3.c:420-437 and :603-620, one octet at a time. *)
Definition little_block : list (reg * Z * Z) :=
  [(RA, 0, 0); (RA, 1, 8); (RA, 2, 16); (RA, 3, 24); (RB, 4, 0); (RB, 5, 8); (RB, 6, 16); (RB, 7, 24); (RC, 8, 0); (RC, 9, 8); (RC, 10, 16); (RC, 11, 24)].
(** lookup3.c:713-730, hashbig. *)
Definition big_block : list (reg * Z * Z) :=
  [(RA, 0, 24); (RA, 1, 16); (RA, 2, 8); (RA, 3, 0); (RB, 4, 24); (RB, 5, 16); (RB, 6, 8); (RB, 7, 0); (RC, 8, 24); (RC, 9, 16); (RC, 10, 8); (RC, 11, 0)].
Fixpoint h1_loop (block : list (reg * Z * Z)) (fuel : nat) (k : bytes) (len : Z) (s : hstate) : outcome (bytes * Z * hstate) :=
  match fuel with
  | O => NoFuel
  | S fuel =>
    if len >? 12 then (s <- adds k block s ;; h1_loop block fuel (skipn 12 k) (len - 12) (mix s))
    else Ok (k, len, s)
  end.
(** lookup3.c:440-456 and :623-639: the cases 12, 11, ..., 1 fall through, so the statements for the octets [len-1], ..., 0 are run. *)
Definition little_cases : list (reg * Z * Z) :=
  [(RC, 11, 24); (RC, 10, 16); (RC, 9, 8); (RC, 8, 0); (RB, 7, 24); (RB, 6, 16); (RB, 5, 8); (RB, 4, 0); (RA, 3, 24); (RA, 2, 16); (RA, 1, 8); (RA, 0, 0)].
(** lookup3.c:733-749. *)
Definition big_cases : list (reg * Z * Z) :=
  [(RC, 11, 0); (RC, 10, 8); (RC, 9, 16); (RC, 8, 24); (RB, 7, 0); (RB, 6, 8); (RB, 5, 16); (RB, 4, 24); (RA, 3, 0); (RA, 2, 8); (RA, 1, 16); (RA, 0, 24)].
Definition h1_last (cases : list (reg * Z * Z)) (k : bytes) (len : Z) (s : hstate) : outcome (option hstate) :=
  if len =? 0 then Ok None
  else if (len <? 0) || (len >? 12) then Ok (Some s)
  else (s <- adds k (skipn (Z.to_nat (12 - len)) cases) s ;; Ok (Some s)).

(** The body common to lookup3.c:289-457 and :471-640 after the state is set up; [al]: the address of the key modulo 4. *)
Definition hl_body (al : Z) (k : bytes) (length : Z) (s : hstate) : outcome hstate :=
  let fuel := S (Z.to_nat length) in
  '(s, o) <- (if al =? 0 then ('(k, len, s) <- hl4_loop fuel k length s ;; o <- hl4_last k len s ;; Ok (s, o))
              else if al =? 2 then ('(k, len, s) <- hl2_loop fuel k length s ;; o <- hl2_last k len s ;; Ok (s, o))
              else ('(k, len, s) <- h1_loop little_block fuel k length s ;; o <- h1_last little_cases k len s ;; Ok (s, o))) ;;
  match o with None => Ok s | Some s => Ok (final s) end.
(** lookup3.c:289-461. *)
Definition my_hashlittle (al : Z) (key : bytes) (length initval : Z) : outcome Z :=
  let i := w32 (0xdeadbeef + w32 length + initval) in
  '(a, b, c) <- hl_body al key length (i, i, i) ;; Ok c.
(** lookup3.c:471-644: the new *pc and *pb. *)
Definition my_hashlittle2 (al : Z) (key : bytes) (length pc pb : Z) : outcome (Z * Z) :=
  let i := w32 (0xdeadbeef + w32 length + pc) in
  '(a, b, c) <- hl_body al key length (i, i, w32 (i + pb)) ;; Ok (c, b).
(** lookup3.c:655-753; HASH_BIG_ENDIAN is 0, so the octets are always read one at a time. *)
Definition my_hashbig (key : bytes) (length initval : Z) : outcome Z :=
  let i := w32 (0xdeadbeef + w32 length + initval) in
  '(k, len, s) <- h1_loop big_block (S (Z.to_nat length)) key length (i, i, i) ;;
  o <- h1_last big_cases k len s ;;
  let '(a, b, c) := match o with None => s | Some s => final s end in
  Ok c.
