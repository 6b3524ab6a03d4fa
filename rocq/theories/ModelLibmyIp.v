(** ModelLibmyIp.v: libmy/ip_arith.h, on both byte orders ([le]: little-endian host). Addresses are memory from the pointer on. *)
From Verif Require Import Base Lib.

(** Integers in memory. [le_val]: least significant octet first. *)
Fixpoint le_val (l : bytes) : Z := match l with [] => 0 | b :: l => b + 256 * le_val l end.
Fixpoint le_bytes (n : nat) (v : Z) : bytes := match n with O => [] | S n => v mod 256 :: le_bytes n (v / 256) end.
(** memcpy of n octets into, and out of, an unsigned variable of n octets. *)
Definition load (le : bool) (n : nat) (mem : bytes) : outcome Z :=
  if zlen mem <? Z.of_nat n then UB OobRead else Ok (le_val (if le then firstn n mem else rev (firstn n mem))).
Definition store (le : bool) (n : nat) (v : Z) : bytes := if le then le_bytes n v else rev (le_bytes n v).
(** endian.h: htobe32, htobe64 and be32toh, be64toh are the same function: reverse the octets on a little-endian host. *)
Definition swap (n : nat) (v : Z) : Z := le_val (rev (le_bytes n v)).
Definition htobe (le : bool) (n : nat) (v : Z) : Z := if le then swap n v else v.

Definition u32 (v : Z) : Z := v mod 4294967296.
Definition u64 (v : Z) : Z := v mod 18446744073709551616.

(** (1 << (32 - prefix_len)) - 1 in ip_arith.h:37 and 47: prefix_len and the difference are unsigned, 1 is an int. GCC defines
    1 << 31 as INT_MIN; subtracting 1 from it overflows. *)
Definition ip4_host (prefix_len : Z) : outcome Z :=
  let n := u32 (32 - prefix_len) in
  if n >=? 32 then UB BadShift else
  let x := if n =? 31 then - 2147483648 else Z.shiftl 1 n in
  if x - 1 <? - 2147483648 then UB IntOverflow else Ok (x - 1).
(** ip_arith.h:33-39, ip4_lower: the octets written to out. *)
Definition ip4_lower (le : bool) (address : bytes) (prefix_len : Z) : outcome bytes :=
  addr <- load le 4 address ;;
  m <- ip4_host prefix_len ;;
  Ok (store le 4 (Z.land addr (htobe le 4 (u32 (Z.lnot m))))).
(** ip_arith.h:43-49, ip4_upper. *)
Definition ip4_upper (le : bool) (address : bytes) (prefix_len : Z) : outcome bytes :=
  addr <- load le 4 address ;;
  m <- ip4_host prefix_len ;;
  Ok (store le 4 (Z.lor addr (htobe le 4 (u32 m)))).
(** ip_arith.h:52-59, ip4_incr. *)
Definition ip4_incr (le : bool) (address : bytes) : outcome bytes :=
  addr <- load le 4 address ;;
  Ok (store le 4 (htobe le 4 (u32 (htobe le 4 addr + 1)))).

(** x << n for uint64_t. *)
Definition shl64 (x n : Z) : outcome Z := if n >=? 64 then UB BadShift else Ok (u64 (Z.shiftl x n)).
(** ((1ULL << prefix_len) - 1ULL) << (64ULL - prefix_len) in ip_arith.h:68, 73, 90 and 95. *)
Definition mask64 (prefix_len : Z) : outcome Z :=
  x <- shl64 1 prefix_len ;; shl64 (u64 (x - 1)) (u64 (64 - prefix_len)).
(** ip_arith.h:63-81, ip6_lower. *)
Definition ip6_lower (le : bool) (address : bytes) (prefix_len : Z) : outcome bytes :=
  '(mask0, mask1) <-
    (if prefix_len <? 64 then m <- mask64 prefix_len ;; Ok (htobe le 8 m, htobe le 8 0)
     else if prefix_len <? 128 then m <- mask64 (prefix_len - 64) ;; Ok (htobe le 8 18446744073709551615, htobe le 8 m)
     else Ok (18446744073709551615, 18446744073709551615)) ;;
  addr0 <- load le 8 address ;;
  addr1 <- load le 8 (skipn 8 address) ;;
  Ok (store le 8 (Z.land addr0 mask0) ++ store le 8 (Z.land addr1 mask1)).
(** ip_arith.h:85-103, ip6_upper. *)
Definition ip6_upper (le : bool) (address : bytes) (prefix_len : Z) : outcome bytes :=
  '(mask0, mask1) <-
    (if prefix_len <? 64 then m <- mask64 prefix_len ;; Ok (htobe le 8 (u64 (Z.lnot m)), htobe le 8 18446744073709551615)
     else if prefix_len <? 128 then m <- mask64 (prefix_len - 64) ;; Ok (htobe le 8 0, htobe le 8 (u64 (Z.lnot m)))
     else Ok (0, 0)) ;;
  addr0 <- load le 8 address ;;
  addr1 <- load le 8 (skipn 8 address) ;;
  Ok (store le 8 (Z.lor addr0 mask0) ++ store le 8 (Z.lor addr1 mask1)).
(** ip_arith.h:106-122, ip6_incr. *)
Definition ip6_incr (le : bool) (address : bytes) : outcome bytes :=
  addr0 <- load le 8 address ;;
  addr1 <- load le 8 (skipn 8 address) ;;
  let addr0 := htobe le 8 addr0 in
  let addr1 := htobe le 8 addr1 in
  let '(addr0, addr1) := if addr1 =? 18446744073709551615 then (u64 (addr0 + 1), 0) else (addr0, u64 (addr1 + 1)) in
  Ok (store le 8 (htobe le 8 addr0) ++ store le 8 (htobe le 8 addr1)).
