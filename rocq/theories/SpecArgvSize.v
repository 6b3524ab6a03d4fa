(** SpecArgvSize.v: sizes as text. *)
From Verif Require Import Base SpecName SpecFormat.

(** What a unit letter stands for. *)
Definition size_unit (c f : Z) : Prop :=
  (In c [98; 66] /\ f = 1) \/ (In c [107; 75] /\ f = 2 ^ 10) \/ (In c [109; 77] /\ f = 2 ^ 20) \/ (In c [103; 71] /\ f = 2 ^ 30).
(** [s] is a size of [v]: blanks, a sign, digits, and nothing or a unit letter and anything behind it. *)
Definition size_of (s : bytes) (v : Z) : Prop :=
  exists blanks sign ds tail f, s = blanks ++ sign ++ ds ++ tail /\ Forall (fun c => c = 32) blanks /\ ds <> [] /\ Forall digit ds /\
    dec_value ds <= 9223372036854775807 /\
    (tail = [] /\ f = 1 \/ exists c rest, tail = c :: rest /\ size_unit c f) /\
    ((sign = [] \/ sign = [43]) /\ v = dec_value ds * f \/ sign = [45] /\ v = - dec_value ds * f).
