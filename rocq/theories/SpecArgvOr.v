(** SpecArgvOr.v: tables of options. *)
From Verif Require Import Base.

(** An entry of a table: an option, ARGV_OR, ARGV_XOR or ARGV_LAST, and for options whether they were used. *)
Inductive ekind := EOpt | EOr | EXor | ELast.
Record entry := { e_kind : ekind; e_used : bool }.
(** Reading entry [i] of the table. *)
Definition entry_at (g : list entry) (i : Z) : outcome entry :=
  if i <? 0 then UB OobRead else match nth_error g (Z.to_nat i) with Some e => Ok e | None => UB OobRead end.
Definition link_at (g : list entry) (i : Z) : Prop := exists e, entry_at g i = Ok e /\ (e_kind e = EOr \/ e_kind e = EXor).
Definition used_at (g : list entry) (i : Z) : Prop := exists e, entry_at g i = Ok e /\ e_used e = true.
(** [i] and [j] are different options of a group: every second entry between them is an ARGV_OR or ARGV_XOR. *)
Definition same_group (g : list entry) (i j : Z) : Prop :=
  exists k, 0 < k /\ ((j = i + 2 * k /\ forall m, 0 <= m < k -> link_at g (i + 2 * m + 1)) \/ (j = i - 2 * k /\ forall m, 0 <= m < k -> link_at g (i - 2 * m - 1))).
