(** SpecFile.v: what loading a file of names means. *)
From Verif Require Import Base ModelName.

(** The lines of a text; the last one may lack its newline. *)
Inductive lines_of : bytes -> list bytes -> Prop :=
| lo_end : lines_of [] []
| lo_last : forall t, t <> [] -> ~ In 10 t -> lines_of t [t]
| lo_cons : forall l t ls, ~ In 10 l -> lines_of t ls -> lines_of (l ++ 10 :: t) (l :: ls).

(** Blank lines, lines starting with a space and comments. *)
Definition skipped (l : bytes) : Prop := l = [] \/ (exists r, l = 32 :: r) \/ (exists r, l = 35 :: r).

(** [loads ls names r]: reading the lines [ls] calls back with [names], in order, and returns [r]; the name of a
    line is what wdns_str_to_name gives for it. *)
Inductive loads : list bytes -> list (bytes * Z) -> res -> Prop :=
| ld_end : loads [] [] res_success
| ld_skip : forall l ls ns r, skipped l -> loads ls ns r -> loads (l :: ls) ns r
| ld_name : forall l ls nm ns r, ~ skipped l -> str_to_name l [] = Ok nm -> loads ls ns r -> loads (l :: ls) (nm :: ns) r
| ld_bad : forall l ls e, ~ skipped l -> str_to_name l [] = Err e -> loads (l :: ls) [] e.
