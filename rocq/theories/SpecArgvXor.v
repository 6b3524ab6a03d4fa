(** SpecArgvXor.v: a table of options as groups. *)
From Verif Require Import Base SpecArgvOr.

Definition xor_entry : entry := {| e_kind := EXor; e_used := false |}.
(** The entries of a group with ARGV_XOR between them. *)
Fixpoint joined (g : list entry) : list entry :=
  match g with [] => [] | [e] => [e] | e :: g => e :: xor_entry :: joined g end.
(** The table of groups; an entry that is not joined to another is a group of its own (ARGV_OR, too). *)
Definition table (gs : list (list entry)) : list entry := concat (map joined gs) ++ [{| e_kind := ELast; e_used := false |}].
Definition good_group (g : list entry) : Prop := g <> [] /\ Forall (fun e => e_kind e <> EXor /\ e_kind e <> ELast) g.
(** A group of two or more of which none is used. *)
Definition unused_group (g : list entry) : Prop := (2 <= length g)%nat /\ Forall (fun e => e_used e = false) g.
