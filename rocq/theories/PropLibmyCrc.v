(** PropLibmyCrc.v: C85 (my_crc32c) and C86 (its loads and the alignment rule of the language). *)
From Verif Require Import Base Lib Libc ModelLibmyCrc SpecLibmyCrc ProofLibmyCrc2.

(** ** C85: every implementation computes CRC-32C, from any address, reading nothing outside the buffer ([rest] is arbitrary, also
    empty) *)
Theorem C85_slicing : forall be addr l rest, bytes_ok l -> my_crc32c_slicing be addr (l ++ rest) (zlen l) = Ok (crc32c l).
Proof. exact slicing_ok. Qed.
Print Assumptions C85_slicing.
Theorem C85_sse42 : forall addr l rest, bytes_ok l -> my_crc32c_sse42 false addr (l ++ rest) (zlen l) = Ok (crc32c l).
Proof. intros addr l rest F. apply sse_ok; [exact F|left; reflexivity]. Qed.
Print Assumptions C85_sse42.
Theorem C85_dispatch : forall x86 sse42 be addr l rest, bytes_ok l -> my_crc32c x86 sse42 be addr (l ++ rest) (zlen l) = Ok (crc32c l).
Proof. intros x86 sse42 be addr l rest F. unfold my_crc32c. destruct (x86 && sse42); [apply C85_sse42|apply C85_slicing]; exact F. Qed.
Print Assumptions C85_dispatch.
(** Damage within four consecutive octets always changes the result. *)
Theorem C85_burst : forall x86 sse42 be addr addr' p a b s, bytes_ok p -> bytes_ok a -> bytes_ok b -> bytes_ok s -> zlen a <= 4 -> zlen b = zlen a -> a <> b ->
  my_crc32c x86 sse42 be addr (p ++ a ++ s) (zlen (p ++ a ++ s)) <> my_crc32c x86 sse42 be addr' (p ++ b ++ s) (zlen (p ++ b ++ s)).
Proof.
  intros x86 sse42 be addr addr' p a b s P A B S L L' N E. assert (AA : forall x, bytes_ok x -> bytes_ok (p ++ x ++ s)) by (intros x X; apply Forall_app; split; [exact P|apply Forall_app; split; [exact X|exact S]]).
  pose proof (C85_dispatch x86 sse42 be addr (p ++ a ++ s) [] (AA a A)) as E1. pose proof (C85_dispatch x86 sse42 be addr' (p ++ b ++ s) [] (AA b B)) as E2. rewrite app_nil_r in E1, E2. rewrite E1, E2 in E.
  apply N, (burst_ok p a b s P A B S L L'). congruence.
Qed.
Print Assumptions C85_burst.
Example C85_ex : my_crc32c_slicing true 3 (lit "123456789123456789!") 18 = my_crc32c_sse42 false 3 (lit "123456789123456789!") 18
  /\ my_crc32c_slicing false 1 (lit "123456789") 9 = Ok 0xE3069283 /\ bytes_ok (lit "123456789").
Proof. split; [vm_compute; reflexivity|]. split; [vm_compute; reflexivity|]. vm_compute. repeat (constructor; [split; [discriminate|reflexivity]|]). constructor. Qed.

(** ** C86: by the language's alignment rule the slicing code is clean (C85_slicing: its model faults on a misaligned word), but
    the SSE 4.2 code reads integers through misaligned pointers: exactly when the buffer starts off a multiple of 8 and has 8
    octets or more, or, from a multiple of 8, when the length leaves 3, 6 or 7 *)
Theorem C86_aligned_refuted : forall addr l rest, bytes_ok l ->
  (8 <= zlen l -> addr mod 8 <> 0 -> my_crc32c_sse42 true addr (l ++ rest) (zlen l) = UB Misaligned) /\
  (addr mod 8 = 0 -> my_crc32c_sse42 true addr (l ++ rest) (zlen l) =
     if existsb (Z.eqb (zlen l mod 8)) [3; 6; 7] then UB Misaligned else Ok (crc32c l)).
Proof.
  intros addr l rest F. split; [intros L A; apply sse_start_bad; assumption|]. intros A. pose proof (Z.mod_pos_bound (zlen l) 8 ltac:(lia)) as M. cbn [existsb].
  destruct (Z.eqb_spec (zlen l mod 8) 3); [apply sse_tail_bad; auto; cbn [In]; lia|]. destruct (Z.eqb_spec (zlen l mod 8) 6); [apply sse_tail_bad; auto; cbn [In]; lia|]. destruct (Z.eqb_spec (zlen l mod 8) 7); [apply sse_tail_bad; auto; cbn [In]; lia|].
  cbn [orb]. apply sse_ok; [exact F|right]. split; [exact A|cbn [In]; lia].
Qed.
Print Assumptions C86_aligned_refuted.
Example C86_ex : my_crc32c_sse42 true 1 (lit "12345678") 8 = UB Misaligned /\ my_crc32c_sse42 true 0 (lit "123") 3 = UB Misaligned /\ my_crc32c_sse42 true 0 (lit "123456789") 9 = Ok 0xE3069283.
Proof. vm_compute. auto. Qed.
