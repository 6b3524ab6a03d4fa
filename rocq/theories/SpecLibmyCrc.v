(** SpecLibmyCrc.v: CRC-32C (Castagnoli; RFC 3720 appendix B.4), bit by bit: reflected polynomial 0x82F63B78, register and result
    complemented. *)
From Verif Require Import Base.

Definition bit_step (c : Z) : Z := if Z.odd c then Z.lxor (c / 2) 0x82F63B78 else c / 2.
Definition octet_step (c b : Z) : Z := Nat.iter 8 bit_step (Z.lxor c b).
Definition crc32c (l : bytes) : Z := 0xFFFFFFFF - fold_left octet_step l 0xFFFFFFFF.
(** Check value: the digits 1 to 9. *)
Example crc32c_check : crc32c [49; 50; 51; 52; 53; 54; 55; 56; 57] = 0xE3069283.
Proof. vm_compute. reflexivity. Qed.
