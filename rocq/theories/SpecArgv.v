(** SpecArgv.v: argument lists as text, numbers in base 2, 8 and 16, and words. *)
From Verif Require Import Base.

(** The arguments, one blank between two. *)
Fixpoint with_blanks (args : list bytes) : bytes :=
  match args with [] => [] | [a] => a | a :: args => a ++ 32 :: with_blanks args end.
(** [s] is digits of base [b] with the values [ds], and then something that does not start with a digit. *)
Definition digits_then (digit : Z -> Z -> Prop) (ds : list Z) (s : bytes) : Prop :=
  exists text rest, s = text ++ rest /\ Forall2 digit text ds /\ match rest with [] => True | c :: _ => forall d, ~ digit c d end.
Definition binary_digit (c d : Z) : Prop := (c = 48 /\ d = 0) \/ (c = 49 /\ d = 1).
Definition octal_digit (c d : Z) : Prop := 48 <= c <= 55 /\ d = c - 48.
Definition hex_digit (c d : Z) : Prop := (48 <= c <= 57 /\ d = c - 48) \/ (97 <= c <= 102 /\ d = c - 87) \/ (65 <= c <= 70 /\ d = c - 55).
(** The number, most significant digit first. *)
Fixpoint number (b : Z) (ds : list Z) : Z := match ds with [] => 0 | d :: ds => d * b ^ Z.of_nat (length ds) + number b ds end.
(** The words of a text: its longest pieces without separators, in order. *)
Inductive words (sep : Z -> Prop) : bytes -> list bytes -> Prop :=
| words_nil : words sep [] []
| words_sep : forall c s ws, sep c -> words sep s ws -> words sep (c :: s) ws
| words_last : forall w, w <> [] -> Forall (fun c => ~ sep c) w -> words sep w [w]
| words_word : forall w c s ws, w <> [] -> Forall (fun c => ~ sep c) w -> sep c -> words sep s ws -> words sep (w ++ c :: s) (w :: ws).
