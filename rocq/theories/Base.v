(** Base.v: outcomes, octet strings and memory accesses shared by all models. *)
From Coq Require Export ZArith List Bool Lia.
From Coq Require Export ZifyBool.
Export ListNotations.
Global Open Scope Z_scope.

(** wdns/wdns.h.in:185-202, the return codes (enum wdns_res). *)
Inductive res : Type :=
| res_success | res_failure | res_invalid_compression_pointer | res_invalid_length_octet
| res_invalid_opcode | res_invalid_rcode | res_len | res_malloc | res_name_len | res_name_overflow
| res_out_of_bounds | res_overflow | res_parse_error | res_qdcount | res_unknown_opcode | res_unknown_rcode.

(** Numeric value of a return code (position in the C enum, wdns.h.in:185-202). *)
Definition res_code (r : res) : Z :=
  match r with
  | res_success => 0 | res_failure => 1 | res_invalid_compression_pointer => 2
  | res_invalid_length_octet => 3 | res_invalid_opcode => 4 | res_invalid_rcode => 5 | res_len => 6
  | res_malloc => 7 | res_name_len => 8 | res_name_overflow => 9 | res_out_of_bounds => 10
  | res_overflow => 11 | res_parse_error => 12 | res_qdcount => 13 | res_unknown_opcode => 14
  | res_unknown_rcode => 15
  end.

(** Undefined behaviours and aborts that the model keeps visible. *)
Inductive fault : Type :=
| OobRead      (* dereference outside the accessible octets *)
| OobWrite     (* store outside the destination buffer *)
| NullDeref    (* dereference of a NULL pointer *)
| Uninit       (* use of an uninitialised variable *)
| AssertFail   (* assert() fails *)
| Misaligned   (* access through a pointer that is not aligned for its type *)
| AbortCall    (* abort() is called *)
| BadShift     (* shift by the width or more, or signed result not representable *)
| IntOverflow. (* signed arithmetic overflow *)

(** Result of running a C function:
    [Ok v]: it returned (success, for functions returning wdns_res) with results [v];
    [Err r]: it returned the error code [r];
    [UB f]: undefined behaviour or abort;
    [NoFuel]: the model's fuel ran out (the loop did not finish within the given number of iterations). *)
Inductive outcome (A : Type) : Type :=
| Ok (a : A) | Err (r : res) | UB (f : fault) | NoFuel.
Arguments Ok {A} a.
Arguments Err {A} r.
Arguments UB {A} f.
Arguments NoFuel {A}.

Definition bind {A B : Type} (o : outcome A) (k : A -> outcome B) : outcome B :=
  match o with Ok a => k a | Err r => Err r | UB f => UB f | NoFuel => NoFuel end.

Notation "x <- e ;; k" := (bind e (fun x => k)) (at level 61, e at next level, right associativity).
Notation "' p <- e ;; k" := (bind e (fun p => k)) (at level 61, p pattern, e at next level, right associativity).

(** Octet strings are lists of [Z]; [bytes_ok] says every element is an octet. *)
Notation bytes := (list Z) (only parsing).
Definition is_byte (b : Z) : Prop := 0 <= b < 256.
Definition bytes_ok (l : bytes) : Prop := Forall is_byte l.

Definition zlen {A : Type} (l : list A) : Z := Z.of_nat (length l).

(** Dereference [m + i]. *)
Definition rd (m : bytes) (i : Z) : outcome Z :=
  if i <? 0 then UB OobRead
  else match nth_error m (Z.to_nat i) with Some b => Ok b | None => UB OobRead end.

(** Octets [m+i .. m+i+n), the source of a memcpy of n octets. *)
Definition rds (m : bytes) (i n : Z) : outcome bytes :=
  if (i <? 0) || (n <? 0) || (zlen m <? i + n) then UB OobRead
  else Ok (firstn (Z.to_nat n) (skipn (Z.to_nat i) m)).

(** Dereference a pointer represented by the suffix of memory it points to. *)
Definition hd_rd (p : bytes) : outcome Z :=
  match p with [] => UB OobRead | b :: _ => Ok b end.

(** The first n octets at a pointer represented by a suffix. *)
Definition take_rd (p : bytes) (n : Z) : outcome bytes :=
  if (n <? 0) || (zlen p <? n) then UB OobRead else Ok (firstn (Z.to_nat n) p).

(** Advance a pointer represented by a suffix. *)
Definition adv (p : bytes) (n : Z) : bytes := skipn (Z.to_nat n) p.

(** Append [bs] to a write-only destination of capacity [cap] of which [dst] has been written. *)
Definition push (cap : Z) (dst bs : bytes) : outcome bytes :=
  if cap <? zlen dst + zlen bs then UB OobWrite else Ok (dst ++ bs).

(** Store the octets [bs] at offset [off] of the buffer [buf]. *)
Definition blit (buf : bytes) (off : Z) (bs : bytes) : outcome bytes :=
  if (off <? 0) || (zlen buf <? off + zlen bs) then UB OobWrite
  else Ok (firstn (Z.to_nat off) buf ++ bs ++ skipn (Z.to_nat (off + zlen bs)) buf).

(** ASCII lower-casing of one octet as the C code does it: if ('A' <= c <= 'Z') c |= 0x20. *)
Definition dc (b : Z) : Z := if (65 <=? b) && (b <=? 90) then Z.lor b 32 else b.

(** Big-endian loads (ntohs/ntohl of a memcpy), wdns-private.h:51-63. *)
Definition be16 (a b : Z) : Z := a * 256 + b.
Definition be32 (a b c d : Z) : Z := ((a * 256 + b) * 256 + c) * 256 + d.
