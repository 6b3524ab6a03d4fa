(** SpecWord.v: the words that name a type, a class or a service parameter key, and the texts of addresses: what the library reads, independently of
    the tables, of strtol and of inet_pton. *)
From Verif Require Import Base Libc SpecName SpecStrName SpecText SpecFormat SpecRead SpecTables.

(** An integer as strtol takes it as a whole: white space, a sign, digits; leading zeros are allowed. *)
Definition c_signed (t : bytes) (v : Z) : Prop :=
  exists w sg d n, t = w ++ sg ++ d /\ Forall white w /\ numeral d n /\ (((sg = [] \/ sg = [43]) /\ v = n) \/ (sg = [45] /\ v = - n)).
(** A mnemonic of the registry, or the prefix (TYPE or CLASS) followed by an integer of 16 bits; in any letter case. *)
Definition names_code (reg : list (Z * String.string)) (prefix t : bytes) (n : Z) : Prop :=
  (exists s, mnemonic reg n s /\ same_letters t s) \/
  (exists p e, t = p ++ e /\ same_letters p prefix /\ c_signed e n /\ 0 <= n <= 65535).
(** A key: its mnemonic or "key" followed by an unsigned integer (as strtoul takes it), in this letter case. *)
Definition names_key (t : bytes) (k : Z) : Prop :=
  mnemonic iana_svckeys k t \/ (exists e, t = lit "key" ++ e /\ c_unsigned e k /\ k < 65535).

(** RFC 4291, section 2.2: groups of one to four hexadecimal digits; IPv4 only as the last 32 bits ([v4]: allowed here). *)
Definition hex_group (t : bytes) (w : Z) : Prop :=
  1 <= zlen t <= 4 /\ exists vs, Forall2 hex_digit t vs /\ w = fold_left (fun a v => a * 16 + v) vs 0.
Inductive v6_part (v4 : bool) : bytes -> bytes -> Prop :=
| vp_one : forall t w, hex_group t w -> v6_part v4 t [w / 256; w mod 256]
| vp_more : forall t w s o, hex_group t w -> v6_part v4 s o -> v6_part v4 (t ++ 58 :: s) ([w / 256; w mod 256] ++ o)
| vp_ipv4 : forall t a, v4 = true -> ipv4_text a t -> bytes_ok a -> v6_part v4 t a.
Definition v6_side (v4 : bool) (t o : bytes) : Prop := (t = [] /\ o = []) \/ v6_part v4 t o.
(** All 16 octets, or "::" for at least one missing group. *)
Inductive v6_text : bytes -> bytes -> Prop :=
| v6_whole : forall t a, v6_part true t a -> zlen a = 16 -> v6_text t a
| v6_short : forall l r x y, v6_side false l x -> v6_side true r y -> zlen x + zlen y <= 14 ->
    v6_text (l ++ 58 :: 58 :: r) (x ++ repeat 0 (Z.to_nat (16 - zlen x - zlen y)) ++ y).
