(** SpecLibmyText.v: hexadecimal text, quoted strings, replacement. *)
From Verif Require Import Base SpecFormat.

(** Two hexadecimal digits, of either case, per octet. *)
Inductive hex_text : bytes -> bytes -> Prop :=
| ht_nil : hex_text [] []
| ht_cons : forall h l x y s r, hex_digit h x -> hex_digit l y -> hex_text s r -> hex_text (h :: l :: s) (16 * x + y :: r).

(** Reading the rest of a quoted string: a printable character other than the quote and the backslash stands for itself,
    backslash quote for a quote, backslash x and two digits for an octet; the closing quote ends it. *)
Inductive quoted : bytes -> bytes -> Prop :=
| q_end : quoted [] [34]
| q_plain : forall c d t, 32 <= c <= 126 -> c <> 34 -> c <> 92 -> quoted d t -> quoted (c :: d) (c :: t)
| q_quote : forall d t, quoted d t -> quoted (34 :: d) (92 :: 34 :: t)
| q_hex : forall h l x y d t, hex_digit h x -> hex_digit l y -> quoted d t -> quoted (16 * x + y :: d) (92 :: 120 :: h :: l :: t).

(** Leftmost, non-overlapping replacement. *)
Definition occurs (old s : bytes) : Prop := exists a b, s = a ++ old ++ b.
(** [old] stands behind a, and at no earlier place. *)
Definition first_occurrence (old a b s : bytes) : Prop :=
  s = a ++ old ++ b /\ forall a' b', s = a' ++ old ++ b' -> (length a <= length a')%nat.
Inductive replaced (old new : bytes) : bytes -> bytes -> Prop :=
| r_none : forall s, ~ occurs old s -> replaced old new s s
| r_some : forall s a b r, first_occurrence old a b s -> replaced old new b r -> replaced old new s (a ++ new ++ r).
