(** SpecLookup3.v: Jenkins' lookup3 hash, as a function of the key alone: 32-bit words, zeros behind the end. *)
From Verif Require Import Base.

(** Rotation of 32 bits to the left. *)
Definition rotate (x k : Z) : Z := (x * 2 ^ k) mod 2 ^ 32 + x / 2 ^ (32 - k).
(** One line of mix, on the registers in rotation; and of final. *)
Definition mix_line (s : Z * Z * Z) (k : Z) : Z * Z * Z :=
  let '(x, y, z) := s in (y, (z + y) mod 2 ^ 32, Z.lxor ((x - z) mod 2 ^ 32) (rotate z k)).
Definition final_line (s : Z * Z * Z) (k : Z) : Z * Z * Z :=
  let '(x, y, z) := s in (y, (Z.lxor z y - rotate y k) mod 2 ^ 32, x).
Definition spec_mix (s : Z * Z * Z) : Z * Z * Z := fold_left mix_line [4; 6; 8; 16; 19; 4] s.
(** The results of final: registers b and c. *)
Definition spec_final (s : Z * Z * Z) : Z * Z :=
  let '(b, c, a) := fold_left final_line [14; 11; 25; 16; 4; 14; 24] s in (b, c).

(** The hash of [n] units ([per] units to a block of three words, [word i]: the i-th word) from the state [s]. *)
Definition add3 (s : Z * Z * Z) (x y z : Z) : Z * Z * Z := let '(a, b, c) := s in ((a + x) mod 2 ^ 32, (b + y) mod 2 ^ 32, (c + z) mod 2 ^ 32).
Definition add_block (word : Z -> Z) (s : Z * Z * Z) (j : Z) : Z * Z * Z := add3 s (word (3 * j)) (word (3 * j + 1)) (word (3 * j + 2)).
Fixpoint mixed (word : Z -> Z) (s : Z * Z * Z) (j : nat) : Z * Z * Z :=
  match j with O => s | S j' => spec_mix (add_block word (mixed word s j') (Z.of_nat j')) end.
(** (b, c): all blocks but the last are mixed in, the last one goes through final. *)
Definition spec_hash (per : Z) (word : Z -> Z) (n : Z) (s : Z * Z * Z) : Z * Z :=
  if n =? 0 then (let '(a, b, c) := s in (b, c))
  else let j := (n - 1) / per in spec_final (add_block word (mixed word s (Z.to_nat j)) j).

(** The words of an octet key, little-endian and big-endian. *)
Definition octet (k : bytes) (i : Z) : Z := nth (Z.to_nat i) k 0.
Definition le_word (k : bytes) (i : Z) : Z := octet k (4 * i) + 2 ^ 8 * octet k (4 * i + 1) + 2 ^ 16 * octet k (4 * i + 2) + 2 ^ 24 * octet k (4 * i + 3).
Definition be_word (k : bytes) (i : Z) : Z := 2 ^ 24 * octet k (4 * i) + 2 ^ 16 * octet k (4 * i + 1) + 2 ^ 8 * octet k (4 * i + 2) + octet k (4 * i + 3).
Definition key_word (k : list Z) (i : Z) : Z := nth (Z.to_nat i) k 0.
(** The start: a constant, the length in octets and the seed; the second seed goes to the third register. *)
Definition start (octets seed seed2 : Z) : Z * Z * Z :=
  let i := (3735928559 + octets + seed) mod 2 ^ 32 in (i, i, (i + seed2) mod 2 ^ 32).
Definition is_word (x : Z) : Prop := 0 <= x < 2 ^ 32.
