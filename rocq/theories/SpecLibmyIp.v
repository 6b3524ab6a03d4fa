(** SpecLibmyIp.v: addresses as numbers, prefixes as ranges. *)
From Verif Require Import Base.

(** The number in network byte order. *)
Definition be_val (l : bytes) : Z := fold_left (fun a b => 256 * a + b) l 0.
(** An address of [n] octets. *)
Definition is_addr (n : Z) (l : bytes) : Prop := zlen l = n /\ Forall (fun b => 0 <= b < 256) l.
(** a and b agree in the first p bits of n octets. *)
Definition same_prefix (n p : Z) (a b : bytes) : Prop := be_val a / 2 ^ (8 * n - p) = be_val b / 2 ^ (8 * n - p).
(** The lowest, the highest address in the prefix of a. *)
Definition lowest (n p : Z) (a x : bytes) : Prop := is_addr n x /\ same_prefix n p a x /\ forall y, is_addr n y -> same_prefix n p a y -> be_val x <= be_val y.
Definition highest (n p : Z) (a x : bytes) : Prop := is_addr n x /\ same_prefix n p a x /\ forall y, is_addr n y -> same_prefix n p a y -> be_val y <= be_val x.
