(** ModelFileset.v: libmy/my_fileset.c, a set of loaded files that follows the list in a "set file". *)
From Verif Require Import Base Libc ModelName ModelDescr ModelFromStr.

(** What a caller can see: the calls of the load and unload functions, with the pointer load returned. *)
Inductive fevent := Load (f : bytes) (p : Z) | Unload (f : bytes) (p : Z).
(** struct fileset_entry, my_fileset.c:33-37; ptr as an opaque value. *)
Record fentry := { fe_keep : bool; fe_name : bytes; fe_ptr : Z }.
(** struct my_fileset, my_fileset.c:41-50; setdir = dirname(setfile) computed by libc, the set file itself is in [world]. The
    callbacks are given per call below ([None]: NULL); [last_ino] and [last_mtime] as a pair. *)
Record fileset := { fs_last : Z * Z; fs_dir : bytes; fs_entries : list fentry }.
(** What the system answers during one call: stat(setfile) (inode and mtime), fopen, the lines getline returns (with their newline),
    and stat on the listed paths. *)
Record world := { w_stat : option (Z * Z); w_open : bool; w_lines : list bytes; w_exists : bytes -> bool }.
(** The load callback: an arbitrary function of everything that happened before and of the name. *)
Definition loader : Type := option (list fevent -> bytes -> Z).

(** strcmp on NUL-terminated strings: octets compared as unsigned char. *)
Fixpoint strcmp (a b : bytes) : Z :=
  match a, b with
  | [], [] => 0
  | [], _ :: _ => -1
  | _ :: _, [] => 1
  | x :: a', y :: b' => if x <? y then -1 else if x >? y then 1 else strcmp a' b'
  end.

(** my_fileset.c:98-110, fetch_entry: bsearch with strcmp on the names; the index of the entry found and the entry. *)
Definition fetch_entry (entries : list fentry) (fname : bytes) : option (nat * fentry) :=
  bsearch (fun e => strcmp fname (fe_name (snd e))) (combine (seq 0 (length entries)) entries).

(** ( *entptr)->keep = true on the entry at an index. *)
Fixpoint set_keep (i : nat) (l : list fentry) : list fentry :=
  match l, i with
  | [], _ => []
  | e :: l', O => {| fe_keep := true; fe_name := fe_name e; fe_ptr := fe_ptr e |} :: l'
  | e :: l', S i' => e :: set_keep i' l'
  end.

(** my_fileset.c:190-195: setdir/line (up to a NUL in the line), one newline dropped at the end. *)
Definition path_of (dir line : bytes) : bytes :=
  let u := dir ++ 47 :: cstr line in
  if last u 0 =? 10 then removelast u else u.

(** my_fileset.c:189-213, the loop over the lines: the old entries, the new ones so far (in order), the events so far. *)
Fixpoint read_lines (ld : loader) (dir : bytes) (ex : bytes -> bool) (lines : list bytes) (old new : list fentry) (tr : list fevent)
  : list fentry * list fentry * list fevent :=
  match lines with
  | [] => (old, new, tr)
  | line :: lines' =>
    let fname := path_of dir line in
    if ex fname then
      match fetch_entry old fname with
      | None =>
          match ld with
          | Some f => let p := f tr fname in
              read_lines ld dir ex lines' old (new ++ [{| fe_keep := false; fe_name := fname; fe_ptr := p |}]) (tr ++ [Load fname p])
          | None => read_lines ld dir ex lines' old (new ++ [{| fe_keep := false; fe_name := fname; fe_ptr := 0 |}]) tr
          end
      | Some (i, e) =>
          read_lines ld dir ex lines' (set_keep i old) (new ++ [{| fe_keep := false; fe_name := fname; fe_ptr := fe_ptr e |}]) tr
      end
    else read_lines ld dir ex lines' old new tr
  end.

(** qsort with cmp_fileset_entry (my_fileset.c:217-220); modelled as insertion sort, the order of equal names is not specified by C. *)
Fixpoint insert_entry (e : fentry) (l : list fentry) : list fentry :=
  match l with
  | [] => [e]
  | x :: l' => if strcmp (fe_name e) (fe_name x) <=? 0 then e :: l else x :: insert_entry e l'
  end.
Fixpoint sort_entries (l : list fentry) : list fentry :=
  match l with [] => [] | e :: l' => insert_entry e (sort_entries l') end.

(** my_fileset.c:222-229 (and :134-140 in my_fileset_destroy, where keep is not looked at): unload of the old entries. *)
Definition unloads (un : bool) (l : list fentry) : list fevent :=
  if un then map (fun e => Unload (fe_name e) (fe_ptr e)) l else [].

(** my_fileset.c:65-82 and 161-233, my_fileset_reload. [tr]: everything that happened before. Result: the set and the trace. *)
Definition fileset_reload (ld : loader) (un : bool) (w : world) (fs : fileset) (tr : list fevent) : fileset * list fevent :=
  match w_stat w with
  | None => (fs, tr)
  | Some st =>
    if (fst (fs_last fs) =? fst st) && (snd (fs_last fs) =? snd st) then (fs, tr)
    else
    let fs := {| fs_last := st; fs_dir := fs_dir fs; fs_entries := fs_entries fs |} in
    if negb (w_open w) then (fs, tr)
    else
    let '(old, new, tr) := read_lines ld (fs_dir fs) (w_exists w) (w_lines w) (fs_entries fs) [] tr in
    ({| fs_last := fs_last fs; fs_dir := fs_dir fs; fs_entries := sort_entries new |},
     tr ++ unloads un (filter (fun e => negb (fe_keep e)) old))
  end.

(** my_fileset.c:112-129. *)
Definition fileset_init (dir : bytes) : fileset := {| fs_last := (0, 0); fs_dir := dir; fs_entries := [] |}.
(** my_fileset.c:131-147. *)
Definition fileset_destroy (un : bool) (fs : fileset) (tr : list fevent) : list fevent := tr ++ unloads un (fs_entries fs).
(** my_fileset.c:236-249: name and pointer of the entry at an index. *)
Definition fileset_get (fs : fileset) (i : Z) : option (bytes * Z) :=
  match nth_error (fs_entries fs) (Z.to_nat i) with Some e => Some (fe_name e, fe_ptr e) | None => None end.

(** A history: any sequence of reloads on a new set. *)
Fixpoint fileset_run (ld : loader) (un : bool) (ws : list world) (fs : fileset) (tr : list fevent) : fileset * list fevent :=
  match ws with
  | [] => (fs, tr)
  | w :: ws' => let '(fs, tr) := fileset_reload ld un w fs tr in fileset_run ld un ws' fs tr
  end.
