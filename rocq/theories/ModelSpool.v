(** ModelSpool.v: libmy/spooldir.c, a directory from which files are taken one at a time; and libmy/threadnum.c. *)
From Verif Require Import Base Libc.

(** The file system as far as it concerns one spool directory: what the names in incoming/ and in active/ stand for. A regular file carries its
    content (or identity); everything else (directories, ...) is [Other]. *)
Inductive node := Reg (id : Z) | Other.
Record spoolfs := { s_inc : bytes -> option node; s_act : bytes -> option node }.
Definition at_name (f : bytes -> option node) (n : bytes) (v : option node) : bytes -> option node :=
  fun x => if list_eq_dec Z.eq_dec x n then v else f x.

(** Where a call of spooldir_next is between two system calls. *)
Inductive spool_pc :=
| Scan (names : list bytes)      (* in the readdir loop; [names]: what readdir will still return before NULL *)
| Found (f : bytes)              (* spooldir.c:187, before stat of the destination *)
| Clash (f : bytes)              (* :190, before unlink *)
| Move (f : bytes)               (* :193, before rename *)
| Return (p : option bytes).     (* the path returned, or NULL *)

(** One system call of spooldir_next, spooldir.c:139-205. The path is dname_active, a slash and the name (the string functions are those of
    ModelVector). unlink of something that is not a file, and rename onto or of such a thing, fail. *)
Definition spool_step (dir : bytes) (pc : spool_pc) (fs : spoolfs) : spool_pc * spoolfs :=
  match pc with
  | Scan [] => (Return None, fs)
  | Scan (n :: ns) =>
      match n with
      | 46 :: _ => (Scan ns, fs)
      | _ => match s_inc fs n with Some (Reg _) => (Found n, fs) | _ => (Scan ns, fs) end
      end
  | Found f => match s_act fs f with Some _ => (Clash f, fs) | None => (Move f, fs) end
  | Clash f => (Move f, match s_act fs f with Some (Reg _) => {| s_inc := s_inc fs; s_act := at_name (s_act fs) f None |} | _ => fs end)
  | Move f =>
      match s_inc fs f, s_act fs f with
      | Some (Reg i), Some (Reg _) | Some (Reg i), None =>
          (Return (Some (dir ++ lit "/active/" ++ f)), {| s_inc := at_name (s_inc fs) f None; s_act := at_name (s_act fs) f (Some (Reg i)) |})
      | _, _ => (Return None, fs)
      end
  | Return p => (Return p, fs)
  end.
(** A whole call without anything between its system calls, and the file systems it goes through (the possible states after a crash). *)
Fixpoint spool_run (fuel : nat) (dir : bytes) (pc : spool_pc) (fs : spoolfs) : option bytes * spoolfs * list spoolfs :=
  match pc with
  | Return p => (p, fs, [fs])
  | _ =>
    match fuel with
    | O => (None, fs, [fs])
    | S fuel => let '(pc', fs') := spool_step dir pc fs in let '(p, fs'', l) := spool_run fuel dir pc' fs' in (p, fs'', fs :: l)
    end
  end.
(** spooldir_next when readdir returns [names] and then NULL. *)
Definition spooldir_next (dir : bytes) (names : list bytes) (fs : spoolfs) : option bytes * spoolfs * list spoolfs :=
  spool_run (length names + 4) dir (Scan names) fs.

(** Two processes (or two struct spooldir) on one directory: [sched] says whose system call is next. *)
Fixpoint spool_two (dir : bytes) (sched : list bool) (a b : spool_pc) (fs : spoolfs) : spool_pc * spool_pc * spoolfs :=
  match sched with
  | [] => (a, b, fs)
  | true :: l => let '(a', fs') := spool_step dir a fs in spool_two dir l a' b fs'
  | false :: l => let '(b', fs') := spool_step dir b fs in spool_two dir l a b' fs'
  end.

(** threadnum.c:5-20. Threads are numbers; a thread-local variable starts as 0. The lock is held over both statements (:11-14); for the schedule the
    four steps are separate. *)
Inductive tn_pc := TnIdle | TnLocked | TnStored | TnDone.
Record tn_state := { tn_lock : option Z; tn_next : Z; tn_local : Z -> Z; tn_pcs : Z -> tn_pc }.
Definition tn_set {A : Type} (f : Z -> A) (t : Z) (v : A) : Z -> A := fun x => if x =? t then v else f x.
(** One step of thread [t] in my_threadnum_register, None: it has to wait or has returned. *)
Definition tn_step (t : Z) (s : tn_state) : option tn_state :=
  match tn_pcs s t with
  | TnIdle => match tn_lock s with
              | None => Some {| tn_lock := Some t; tn_next := tn_next s; tn_local := tn_local s; tn_pcs := tn_set (tn_pcs s) t TnLocked |}
              | Some _ => None
              end
  | TnLocked => Some {| tn_lock := tn_lock s; tn_next := tn_next s; tn_local := tn_set (tn_local s) t (tn_next s); tn_pcs := tn_set (tn_pcs s) t TnStored |}
  | TnStored => Some {| tn_lock := None; tn_next := tn_next s + 1; tn_local := tn_local s; tn_pcs := tn_set (tn_pcs s) t TnDone |}
  | TnDone => None
  end.
Definition tn_init : tn_state := {| tn_lock := None; tn_next := 0; tn_local := fun _ => 0; tn_pcs := fun _ => TnIdle |}.
Fixpoint tn_run (sched : list Z) (s : tn_state) : tn_state :=
  match sched with [] => s | t :: l => tn_run l (match tn_step t s with Some s' => s' | None => s end) end.
(** my_threadnum of thread [t]. *)
Definition my_threadnum (t : Z) (s : tn_state) : Z := tn_local s t.
