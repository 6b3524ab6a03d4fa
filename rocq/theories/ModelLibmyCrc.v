(** ModelLibmyCrc.v: libmy/crc32c-slicing.c (both byte orders) and libmy/crc32c-sse42.c. *)
From Verif Require Import Base Lib ModelLibmyIp ModelLibmyCrcTables.

(** ** crc32c-slicing.c; [be]: WORDS_BIGENDIAN *)
(** g_crc_slicing[k][i]. *)
Definition tab (be : bool) (k : nat) (i : Z) : outcome Z :=
  match nth_error (if be then crc_tables_be else crc_tables_le) k with Some t => rd t i | None => UB OobRead end.
(** crc32c-slicing.c:1114 and 1116, also 1151 and 1161: one octet. *)
Definition crc_octet (be : bool) (crc b : Z) : outcome Z :=
  if be then t <- tab be 0 (Z.land (Z.lxor (Z.shiftr crc 24) b) 255) ;; Ok (Z.lxor t (u32 (Z.shiftl crc 8)))
  else t <- tab be 0 (Z.land (Z.lxor crc b) 255) ;; Ok (Z.lxor t (Z.shiftr crc 8)).
(** Reading *p. *)
Definition octet_at (mem : bytes) : outcome Z := match mem with [] => UB OobRead | b :: _ => Ok b end.
(** crc32c-slicing.c:1108-1118, the octets before the first address that is a multiple of 4; [addr]: p as a number, [len]: the
    octets left. *)
Fixpoint crc_head (be : bool) (len : nat) (addr : Z) (mem : bytes) (crc : Z) : outcome (Z * Z * bytes * nat) :=
  match len with
  | O => Ok (crc, addr, mem, O)
  | S len' =>
      if negb (Z.land addr 3 =? 0) then
        b <- octet_at mem ;; crc <- crc_octet be crc b ;; crc_head be len' (addr + 1) (tl mem) crc
      else Ok (crc, addr, mem, len)
  end.
(** *(uint32_t * )p *)
Definition load32 (be : bool) (addr : Z) (mem : bytes) : outcome Z :=
  if Z.land addr 3 =? 0 then load (negb be) 4 mem else UB Misaligned.
(** crc32c-slicing.c:1120-1146, the chunks of 8 octets. *)
Fixpoint crc_chunks (be : bool) (nqwords : nat) (addr : Z) (mem : bytes) (crc : Z) : outcome (Z * bytes) :=
  match nqwords with
  | O => Ok (crc, mem)
  | S nqwords =>
      x <- load32 be addr mem ;;
      let crc := Z.lxor crc x in
      let addr := addr + 4 in
      let mem := skipn 4 mem in
      next <- load32 be addr mem ;;
      let addr := addr + 4 in
      let mem := skipn 4 mem in
      t0 <- tab be (if be then 4 else 7) (Z.land crc 255) ;;
      t1 <- tab be (if be then 5 else 6) (Z.land (Z.shiftr crc 8) 255) ;;
      t2 <- tab be (if be then 6 else 5) (Z.land (Z.shiftr crc 16) 255) ;;
      t3 <- tab be (if be then 7 else 4) (Z.shiftr crc 24) ;;
      t4 <- tab be (if be then 0 else 3) (Z.land next 255) ;;
      t5 <- tab be (if be then 1 else 2) (Z.land (Z.shiftr next 8) 255) ;;
      t6 <- tab be (if be then 2 else 1) (Z.land (Z.shiftr next 16) 255) ;;
      t7 <- tab be (if be then 3 else 0) (Z.shiftr next 24) ;;
      crc_chunks be nqwords addr mem (Z.lxor (Z.lxor (Z.lxor (Z.lxor (Z.lxor (Z.lxor (Z.lxor t0 t1) t2) t3) t4) t5) t6) t7)
  end.
(** crc32c-slicing.c:1149-1151 and 1160-1161, the last octets. *)
Fixpoint crc_tail (be : bool) (len : nat) (mem : bytes) (crc : Z) : outcome Z :=
  match len with
  | O => Ok crc
  | S len => b <- octet_at mem ;; crc <- crc_octet be crc b ;; crc_tail be len (tl mem) crc
  end.
(** crc32c-slicing.c:1154-1158. *)
Definition crc_swap (crc : Z) : Z :=
  Z.lor (Z.lor (Z.lor (Z.land (u32 (Z.shiftl crc 24)) 0xFF000000) (Z.land (u32 (Z.shiftl crc 8)) 0x00FF0000))
               (Z.land (Z.shiftr crc 8) 0x0000FF00)) (Z.land (Z.shiftr crc 24) 0x000000FF).
(** crc32c-slicing.c:1099-1164, my_crc32c_slicing; [addr]: the address of the chunk. *)
Definition my_crc32c_slicing (be : bool) (addr : Z) (mem : bytes) (len : Z) : outcome Z :=
  '(crc, addr, mem, len) <- crc_head be (Z.to_nat len) addr mem 0xffffffff ;;
  '(crc, mem) <- crc_chunks be (Nat.div len 8) addr mem crc ;;
  crc <- crc_tail be (Nat.modulo len 8) mem crc ;;
  Ok (u32 (Z.lnot (if be then crc_swap crc else crc))).

(** ** crc32c-sse42.c *)
(** The instruction crc32 with an n-bit operand, as the Intel manual defines it: both operands bit-reflected, the destination
    shifted left by n, the source by 32, the remainder of the polynomial 0x11EDC6F41 taken, the result reflected. *)
Fixpoint reflect (n : nat) (x : Z) : Z :=
  match n with O => 0 | S n => Z.lor (Z.shiftl (Z.land x 1) (Z.of_nat n)) (reflect n (Z.shiftr x 1)) end.
(** Remainder modulo the polynomial: clear the bits 31 + n, ..., 32. *)
Fixpoint mod2 (n : nat) (x : Z) : Z :=
  match n with
  | O => x
  | S n => mod2 n (if Z.testbit x (32 + Z.of_nat n) then Z.lxor x (Z.shiftl 0x11EDC6F41 (Z.of_nat n)) else x)
  end.
Definition crc32_insn (n : nat) (dst src : Z) : Z :=
  reflect 32 (mod2 n (Z.lxor (Z.shiftl (reflect n src) 32) (Z.shiftl (reflect 32 dst) (Z.of_nat n)))).
(** Reading an n-octet integer through a pointer (x86-64 is little-endian). [strict]: the C standard's alignment rule; the
    instruction itself reads from any address. *)
Definition load_le (strict : bool) (n : nat) (addr : Z) (mem : bytes) : outcome Z :=
  if strict && negb (addr mod Z.of_nat n =? 0) then UB Misaligned else load true n mem.
(** crc32c-sse42.c:128-131, the loop. *)
Fixpoint sse_chunks (strict : bool) (n : nat) (addr : Z) (mem : bytes) (crc : Z) : outcome (Z * Z * bytes) :=
  match n with
  | O => Ok (crc, addr, mem)
  | S n => v <- load_le strict 8 addr mem ;; sse_chunks strict n (addr + 8) (skipn 8 mem) (crc32_insn 64 crc v)
  end.
(** One step of the switch: feed n octets. *)
Definition sse_feed (strict : bool) (n : nat) (st : Z * Z * bytes) : outcome (Z * Z * bytes) :=
  let '(crc, addr, mem) := st in v <- load_le strict n addr mem ;; Ok (crc32_insn (8 * n) crc v, addr + Z.of_nat n, skipn n mem).
(** crc32c-sse42.c:134-159, the switch: which operands, in which order. *)
Definition sse_tail (strict : bool) (len : nat) (st : Z * Z * bytes) : outcome (Z * Z * bytes) :=
  match len with
  | 7%nat => st <- sse_feed strict 1 st ;; st <- sse_feed strict 2 st ;; sse_feed strict 4 st
  | 6%nat => st <- sse_feed strict 2 st ;; sse_feed strict 4 st
  | 4%nat => sse_feed strict 4 st
  | 3%nat => st <- sse_feed strict 1 st ;; sse_feed strict 2 st
  | 2%nat => sse_feed strict 2 st
  | 5%nat => st <- sse_feed strict 4 st ;; sse_feed strict 1 st
  | 1%nat => sse_feed strict 1 st
  | _ => Ok st
  end.
(** crc32c-sse42.c:122-162, my_crc32c_sse42. *)
Definition my_crc32c_sse42 (strict : bool) (addr : Z) (mem : bytes) (len : Z) : outcome Z :=
  st <- sse_chunks strict (Nat.div (Z.to_nat len) 8) addr mem 0xFFFFFFFF ;;
  let '(crc, addr, mem) := st in
  '(crc, _, _) <- sse_tail strict (Nat.modulo (Z.to_nat len) 8) (u32 crc, addr, mem) ;;
  Ok (u32 (Z.lnot crc)).
(** crc32c.c:38-59, my_crc32c_runtime_detection and my_crc32c_first; [x86]: compiled by gcc for x86-64, [sse42]: what
    my_crc32c_sse42_supported returns. Simplified: the global function pointer is not kept, since after the first call (or the
    constructor) it is what is chosen here. *)
Definition my_crc32c (x86 sse42 be : bool) (addr : Z) (mem : bytes) (len : Z) : outcome Z :=
  if x86 && sse42 then my_crc32c_sse42 false addr mem len else my_crc32c_slicing be addr mem len.
