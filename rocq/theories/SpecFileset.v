(** SpecFileset.v: what a set of files that follows a list must do, independently of the C code. *)
From Coq Require Export Permutation Sorted.
From Verif Require Import Base ModelFileset.

(** The order of octet strings: a prefix comes first, otherwise the first different octet decides. *)
Definition before (a b : bytes) : Prop :=
  (exists c r, b = a ++ c :: r) \/ (exists p x y r s, a = p ++ x :: r /\ b = p ++ y :: s /\ x < y).

(** The line as a C string, without its newline. *)
Definition line_text (line s : bytes) : Prop := ~ In 0 s /\ (line = s ++ [10] \/ (line = s /\ last s 0 <> 10)).
(** The files listed: directory, slash, line; those that exist. *)
Definition lists (dir : bytes) (w : world) (names : list bytes) : Prop :=
  exists ss, Forall2 line_text (w_lines w) ss /\ names = filter (w_exists w) (map (fun s => dir ++ [47] ++ s) ss).

Definition held (fs : fileset) : list (bytes * Z) := map (fun e => (fe_name e, fe_ptr e)) (fs_entries fs).
Definition loaded (tr : list fevent) : list (bytes * Z) := flat_map (fun e => match e with Load f p => [(f, p)] | _ => [] end) tr.
Definition unloaded (tr : list fevent) : list (bytes * Z) := flat_map (fun e => match e with Unload f p => [(f, p)] | _ => [] end) tr.
(** A set whose entries have distinct names, in order. *)
Definition in_order (fs : fileset) : Prop := StronglySorted before (map fst (held fs)).
(** Whether [n] is one of [l]. *)
Definition is_in (n : bytes) (l : list bytes) : bool := if in_dec (list_eq_dec Z.eq_dec) n l then true else false.
(** Histories: any number of reloads of a new set, the list naming each existing file at most once each time. *)
Definition once (dir : bytes) (w : world) : Prop := exists ns, lists dir w ns /\ NoDup ns.
Definition reached (f : list fevent -> bytes -> Z) (dir : bytes) (fs : fileset) (tr : list fevent) : Prop :=
  exists ws, Forall (once dir) ws /\ fileset_run (Some f) true ws (fileset_init dir) [] = (fs, tr).
Definition load_all (l : list (bytes * Z)) : list fevent := map (fun p => Load (fst p) (snd p)) l.
Definition unload_all (l : list (bytes * Z)) : list fevent := map (fun p => Unload (fst p) (snd p)) l.
