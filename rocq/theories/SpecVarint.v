(** SpecVarint.v: base-128 numbers, least significant group first, the top bit of every octet but the last set. *)
From Verif Require Import Base.

(** The number a sequence of octets stands for. *)
Fixpoint groups (l : bytes) : Z := match l with [] => 0 | b :: l => b mod 128 + 128 * groups l end.
(** A whole varint: all octets but the last have the top bit set. *)
Definition whole (l : bytes) : Prop := exists init last, l = init ++ [last] /\ Forall (fun b => 128 <= b < 256) init /\ 0 <= last < 128.
(** The shortest one: no superfluous zero group at the end. *)
Definition shortest (l : bytes) : Prop := forall init, l = init ++ [0] -> init = [].
