(** SpecZonefile.v: what reading a zone file delivers, independently of the C code. *)
From Verif Require Import Base Libc ModelZonefile.

Definition fresh (events : list event) (tight : bool) : zstream := {| zs_events := events; zs_tight := tight; zs_feof := false |}.
Definition is_soa (r : zrr) : Prop := z_type r = 6.
(** One call's result: (status, record or NULL). *)
Inductive delivers : list event -> list (Z * option zrr) -> Prop :=
| dl_end : delivers [] []
| dl_blank : forall l d, delivers l d -> delivers (Blank :: l) d
| dl_rec : forall r l d, ~ is_soa r -> delivers l d -> delivers (Rec r :: l) ((0, Some r) :: d)
| dl_soa : forall r l d, is_soa r -> delivers l d -> delivers (Rec r :: l) ((0, None) :: d)
| dl_bad : forall s l d, delivers l d -> delivers (Bad s :: l) ((s, None) :: d).
(** The first [n] of [d], continued by NULL with status OK. *)
Definition first_calls (n : nat) (d : list (Z * option zrr)) : list (Z * option zrr) := firstn n d ++ repeat (0, None) (n - length d).
Definition records (l : list (Z * option zrr)) : list zrr := flat_map (fun p => match snd p with Some r => [r] | None => [] end) l.
(** A proper zone: comments, its SOA record, records of other types, comments. *)
Inductive zone : list event -> zrr -> list zrr -> Prop :=
| zn : forall a r l rs, Forall (eq Blank) a -> is_soa r -> body l rs -> zone (a ++ Rec r :: l) r rs
with body : list event -> list zrr -> Prop :=
| bd_end : body [] []
| bd_blank : forall l rs, body l rs -> body (Blank :: l) rs
| bd_rec : forall r l rs, ~ is_soa r -> body l rs -> body (Rec r :: l) (r :: rs).
