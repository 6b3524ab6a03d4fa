(** PropLibmyIp.v: C76 and C77, libmy/ip_arith.h. [le]: byte order of the host; [rest]: whatever follows the address. *)
From Verif Require Import Base Lib ModelLibmyIp SpecLibmyIp ProofLibmyIp.

(** ** The range of a prefix *)
Theorem C76_ip4 : forall le a p rest, is_addr 4 a -> 2 <= p <= 32 ->
  (exists out, ip4_lower le (a ++ rest) p = Ok out /\ lowest 4 p a out) /\ (exists out, ip4_upper le (a ++ rest) p = Ok out /\ highest 4 p a out).
Proof. intros. split; [apply lower4|apply upper4]; assumption. Qed.
Print Assumptions C76_ip4.
Theorem C76_ip6 : forall le a p rest, is_addr 16 a -> 0 < p <= 128 -> p <> 64 ->
  (exists out, ip6_lower le (a ++ rest) p = Ok out /\ lowest 16 p a out) /\ (exists out, ip6_upper le (a ++ rest) p = Ok out /\ highest 16 p a out).
Proof. intros. split; [apply lower6|apply upper6]; assumption. Qed.
Print Assumptions C76_ip6.
(** Longer IPv6 "prefixes" count as 128. *)
Theorem C76_ip6_long : forall le m p, 128 <= p -> ip6_lower le m p = ip6_lower le m 128 /\ ip6_upper le m p = ip6_upper le m 128.
Proof. intros le m p P. unfold ip6_lower, ip6_upper. replace (p <? 64) with false by lia. replace (p <? 128) with false by lia. split; reflexivity. Qed.
Print Assumptions C76_ip6_long.
(** lowest and highest determine the result: two such addresses are the same octets. *)
Theorem C76_unique : forall n p a x y, (lowest n p a x -> lowest n p a y -> x = y) /\ (highest n p a x -> highest n p a y -> x = y).
Proof.
  assert (INJ : forall n x y, is_addr n x -> is_addr n y -> be_val x = be_val y -> x = y).
  { intros n x y [Lx X] [Ly Y] E. rewrite !be_le in E.
    assert (R : rev x = rev y). { rewrite <- (bytes_val (rev x)), <- (bytes_val (rev y)) by (apply octs_rev; assumption). rewrite !rev_length. replace (length y) with (length x) by (unfold zlen in *; lia). rewrite E. reflexivity. }
    rewrite <- (rev_involutive x), R. apply rev_involutive. }
  intros n p a x y. split; intros (A & B & C) (A' & B' & C'); apply (INJ n); auto; specialize (C y A' B'); specialize (C' x A B); lia.
Qed.
Print Assumptions C76_unique.
(** ** The next address *)
Theorem C76_incr : forall le a rest,
  (is_addr 4 a -> exists out, ip4_incr le (a ++ rest) = Ok out /\ is_addr 4 out /\ be_val out = (be_val a + 1) mod 2 ^ 32) /\
  (is_addr 16 a -> exists out, ip6_incr le (a ++ rest) = Ok out /\ is_addr 16 out /\ be_val out = (be_val a + 1) mod 2 ^ 128).
Proof. intros. split; [apply incr4|apply incr6]. Qed.
Print Assumptions C76_incr.

(** ** Prefix lengths for which the code is undefined: /0, /1 and anything above 32 (IPv4), /0 and /64 (IPv6), for every address *)
Theorem C77_defined_refuted : forall le a rest,
  (is_addr 4 a -> ip4_lower le (a ++ rest) 0 = UB BadShift /\ ip4_upper le (a ++ rest) 0 = UB BadShift /\
                  ip4_lower le (a ++ rest) 1 = UB IntOverflow /\ ip4_upper le (a ++ rest) 1 = UB IntOverflow /\
                  forall p, 32 < p < 2 ^ 32 -> exists f, ip4_lower le (a ++ rest) p = UB f /\ ip4_upper le (a ++ rest) p = UB f) /\
  (is_addr 16 a -> forall p, p = 0 \/ p = 64 -> ip6_lower le (a ++ rest) p = UB BadShift /\ ip6_upper le (a ++ rest) p = UB BadShift).
Proof.
  intros le a rest. split.
  - intros [L A]. assert (L' : length a = 4%nat) by (unfold zlen in L; lia). unfold ip4_lower, ip4_upper. rewrite load_ok by exact L'. cbn [bind]. repeat (split; [reflexivity|]).
    intros p P. change (2 ^ 32) with 4294967296 in P. unfold ip4_host, u32. rewrite <- (Z.mod_add (32 - p) 1) by lia. rewrite Z.mod_small by lia. exists BadShift. replace (32 - p + 1 * 4294967296 >=? 32) with true by lia. split; reflexivity.
  - intros _ p [->| ->]; split; reflexivity.
Qed.
Print Assumptions C77_defined_refuted.
(** Everywhere else the result is defined, and by C76 right. *)
Theorem C77_defined_partial : forall le a p rest,
  (is_addr 4 a -> 2 <= p <= 32 -> exists x y, ip4_lower le (a ++ rest) p = Ok x /\ ip4_upper le (a ++ rest) p = Ok y) /\
  (is_addr 16 a -> 0 < p -> p <> 64 -> exists x y, ip6_lower le (a ++ rest) p = Ok x /\ ip6_upper le (a ++ rest) p = Ok y).
Proof.
  intros le a p rest. split.
  - intros A P. destruct (C76_ip4 le a p rest A P) as [(x & X & _) (y & Y & _)]. exists x, y. auto.
  - intros A P N. destruct (Z_le_gt_dec p 128) as [Q|Q].
    + destruct (C76_ip6 le a p rest A (conj P Q) N) as [(x & X & _) (y & Y & _)]. exists x, y. auto.
    + destruct (C76_ip6_long le (a ++ rest) p ltac:(lia)) as [-> ->]. destruct (C76_ip6 le a 128 rest A ltac:(lia) ltac:(lia)) as [(x & X & _) (y & Y & _)]. exists x, y. auto.
Qed.
Print Assumptions C77_defined_partial.

(** Concrete cases: 192.0.2.77/26 and 2001:db8::ff/97, on both byte orders. *)
Example C76_ex4 : is_addr 4 [192; 0; 2; 77] /\ forall le, ip4_lower le [192; 0; 2; 77] 26 = Ok [192; 0; 2; 64] /\ ip4_upper le [192; 0; 2; 77] 26 = Ok [192; 0; 2; 127] /\ ip4_incr le [192; 0; 2; 255] = Ok [192; 0; 3; 0].
Proof. split; [split; [reflexivity|repeat constructor; lia]|]. intros [|]; vm_compute; repeat split; reflexivity. Qed.
Example C76_ex6 : forall le, ip6_upper le [32; 1; 13; 184; 0; 0; 0; 0; 0; 0; 0; 0; 0; 0; 0; 255] 97 = Ok [32; 1; 13; 184; 0; 0; 0; 0; 0; 0; 0; 0; 127; 255; 255; 255] /\
  ip6_lower le [32; 1; 13; 184; 0; 0; 0; 0; 0; 0; 0; 0; 0; 0; 0; 255] 30 = Ok [32; 1; 13; 184; 0; 0; 0; 0; 0; 0; 0; 0; 0; 0; 0; 0] /\
  ip6_incr le (repeat 255 16) = Ok (repeat 0 16).
Proof. intros [|]; vm_compute; repeat split; reflexivity. Qed.
