(** SpecFile2.v: what wdns_file_load_names does with any file, in terms of the turns in which it is read and of the written
    names of SpecStrName.v. *)
From Verif Require Import Base Lib SpecName SpecStrName.

(** A file is read in turns: a line with its newline, 1279 octets of a line that does not fit, or the rest without newline. *)
Inductive turns : bytes -> list bytes -> Prop :=
| tn_end : turns [] []
| tn_line : forall l t cs, ~ In 10 l -> zlen l <= 1278 -> turns t cs -> turns (l ++ 10 :: t) ((l ++ [10]) :: cs)
| tn_full : forall l t cs, ~ In 10 l -> zlen l = 1279 -> turns t cs -> turns (l ++ t) (l :: cs)
| tn_last : forall l, l <> [] -> ~ In 10 l -> zlen l < 1279 -> turns l [l].

(** Turns that are skipped: they start with a newline, a blank or '#'. *)
Definition passed_over (c : bytes) : Prop := exists x r, c = x :: r /\ (x = 10 \/ x = 32 \/ x = 35).
(** The text of a turn: up to its newline, or up to the first NUL, or all of it. *)
Definition text_of (c s : bytes) : Prop :=
  s <> [] /\ c_string s /\ (c = s ++ [10] \/ (~ In 10 s /\ c = s) \/ (~ In 10 s /\ exists r, c = s ++ 0 :: r)).

(** How it ends. *)
Inductive fend :=
| Returned (r : res)   (* the code is returned *)
| ReadsBefore          (* a turn that starts with NUL: the octet before the line buffer is read *)
| ReadsOn.             (* a lone backslash at the end of a text: the name reader goes on behind the end of the text *)

(** [delivers cs ns e]: the names given to the callback, in order, and the end. *)
Inductive delivers : list bytes -> list (bytes * Z) -> fend -> Prop :=
| dl_end : delivers [] [] (Returned res_success)
| dl_skip : forall c cs ns e, passed_over c -> delivers cs ns e -> delivers (c :: cs) ns e
| dl_nul : forall r cs, delivers ((0 :: r) :: cs) [] ReadsBefore
| dl_name : forall c s ls cs ns e, ~ passed_over c -> text_of c s -> written small s ls -> zlen (wire ls) <= 255 -> delivers cs ns e ->
    delivers (c :: cs) ((wire ls, zlen (wire ls)) :: ns) e
| dl_syntax : forall c s cs, ~ passed_over c -> text_of c s -> syntax_failure same s -> delivers (c :: cs) [] (Returned res_parse_error)
| dl_size : forall c s cs, ~ passed_over c -> text_of c s -> size_failure same s -> delivers (c :: cs) [] (Returned res_name_overflow)
| dl_cut : forall c s cs, ~ passed_over c -> text_of c s -> cut_escape same s -> delivers (c :: cs) [] ReadsOn.
