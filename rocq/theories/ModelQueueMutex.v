(** ModelQueueMutex.v: libmy/my_queue_mutex.c, the same ring behind a mutex, any number of threads calling insert and remove.

    Every access to the shared object is a step and the steps of all threads interleave. All accesses are made with the lock
    held, so the program has no data race and plain memory is faithful. Simplification: pthread_mutex_lock and _unlock
    succeed and the allocations of init succeed (otherwise the process ends in an assertion). The ring arithmetic is the one of
    my_queue_mb.c (my_queue_mutex.c:60-61 and 104-114 are the same text as my_queue_mb.c:58-59 and 83-93) and is shared. *)
From Verif Require Import Base Lib ModelQueue.

Inductive op := OpIns (it : bytes) | OpRem.
Inductive result := RIns (ok : bool) (space : Z) | RRem (item : option bytes) (count : Z).

(** Where a thread is: in my_queue_mutex_insert (my_queue_mutex.c:116-133) or my_queue_mutex_remove (135-152). *)
Inductive tstate :=
| MIdle
| MInsWait (it : bytes)                               (* before q_lock *)
| MInsHead (it : bytes)                               (* lock held, before line 121 *)
| MInsTail (it : bytes) (head : Z)                    (* before line 122 *)
| MInsCopy (it : bytes) (head space : Z) (todo : list Z) (* in line 125, before 126 *)
| MInsUnlock (it : bytes) (ok : bool) (space : Z)     (* before q_unlock, line 130 *)
| MInsRet (ok : bool) (space : Z)
| MRemWait (got : bytes)
| MRemHead (got : bytes)
| MRemTail (got : bytes) (head : Z)
| MRemCopy (got : bytes) (tail count : Z) (todo : list Z)
| MRemUnlock (res : option bytes) (count : Z)
| MRemRet (res : option bytes) (count : Z).

Record mconfig := { x_mem : mem; x_lock : option nat; x_thr : nat -> tstate; x_fault : bool }.
Definition upd {A} (f : nat -> A) (t : nat) (v : A) : nat -> A := fun u => if Nat.eqb u t then v else f u.
Definition at_thread (c : mconfig) (t : nat) (s : tstate) : mconfig := {| x_mem := x_mem c; x_lock := x_lock c; x_thr := upd (x_thr c) t s; x_fault := x_fault c |}.
Definition with_mem (c : mconfig) (m : mem) : mconfig := {| x_mem := m; x_lock := x_lock c; x_thr := x_thr c; x_fault := x_fault c |}.
Definition with_lock (c : mconfig) (l : option nat) : mconfig := {| x_mem := x_mem c; x_lock := l; x_thr := x_thr c; x_fault := x_fault c |}.
Definition assert_in (c : mconfig) (ok : bool) : mconfig := {| x_mem := x_mem c; x_lock := x_lock c; x_thr := x_thr c; x_fault := x_fault c || negb ok |}.

Inductive mevent := ECall (t : nat) (o : op) | ERet (t : nat) (r : result).

Section Mutex.
Variables num size : Z.

Inductive mstep : mconfig -> option mevent -> mconfig -> Prop :=
(* my_queue_mutex_insert *)
| m_ins_call : forall c t it, x_thr c t = MIdle -> zlen it = size -> mstep c (Some (ECall t (OpIns it))) (at_thread c t (MInsWait it))
| m_ins_lock : forall c t it, x_thr c t = MInsWait it -> x_lock c = None -> mstep c None (with_lock (at_thread c t (MInsHead it)) (Some t))
| m_ins_head : forall c t it, x_thr c t = MInsHead it -> mstep c None (at_thread c t (MInsTail it (m_head (x_mem c))))
| m_ins_tail : forall c t it h, x_thr c t = MInsTail it h ->
    let space := q_space h (m_tail (x_mem c)) num in
    mstep c None (at_thread c t (if space >=? 1 then MInsCopy it h space (offsets size) else MInsUnlock it false space))
| m_ins_copy : forall c t it h sp a k b v, x_thr c t = MInsCopy it h sp (a ++ k :: b) -> rd it k = Ok v ->
    mstep c None (assert_in (with_mem (at_thread c t (MInsCopy it h sp (a ++ b))) (store (x_mem c) (LData (slot h size + k), v))) (in_data num size (slot h size + k)))
| m_ins_pub : forall c t it h sp, x_thr c t = MInsCopy it h sp [] ->
    mstep c None (with_mem (at_thread c t (MInsUnlock it true (sp - 1))) (store (x_mem c) (LHead, next h num)))
| m_ins_unlock : forall c t it ok sp, x_thr c t = MInsUnlock it ok sp -> mstep c None (with_lock (at_thread c t (MInsRet ok sp)) None)
| m_ins_ret : forall c t ok sp, x_thr c t = MInsRet ok sp -> mstep c (Some (ERet t (RIns ok sp))) (at_thread c t MIdle)
(* my_queue_mutex_remove *)
| m_rem_call : forall c t got, x_thr c t = MIdle -> zlen got = size -> mstep c (Some (ECall t OpRem)) (at_thread c t (MRemWait got))
| m_rem_lock : forall c t got, x_thr c t = MRemWait got -> x_lock c = None -> mstep c None (with_lock (at_thread c t (MRemHead got)) (Some t))
| m_rem_head : forall c t got, x_thr c t = MRemHead got -> mstep c None (at_thread c t (MRemTail got (m_head (x_mem c))))
| m_rem_tail : forall c t got h, x_thr c t = MRemTail got h ->
    let tail := m_tail (x_mem c) in let count := q_count h tail num in
    mstep c None (at_thread c t (if count >=? 1 then MRemCopy got tail count (offsets size) else MRemUnlock None count))
| m_rem_copy : forall c t got tl n a k b, x_thr c t = MRemCopy got tl n (a ++ k :: b) ->
    mstep c None (assert_in (at_thread c t (MRemCopy (setz got k (m_data (x_mem c) (slot tl size + k))) tl n (a ++ b))) (in_data num size (slot tl size + k)))
| m_rem_pub : forall c t got tl n, x_thr c t = MRemCopy got tl n [] ->
    mstep c None (with_mem (at_thread c t (MRemUnlock (Some got) (n - 1))) (store (x_mem c) (LTail, next tl num)))
| m_rem_unlock : forall c t res n, x_thr c t = MRemUnlock res n -> mstep c None (with_lock (at_thread c t (MRemRet res n)) None)
| m_rem_ret : forall c t res n, x_thr c t = MRemRet res n -> mstep c (Some (ERet t (RRem res n))) (at_thread c t MIdle).

Definition minit : mconfig := {| x_mem := init_mem; x_lock := None; x_thr := fun _ => MIdle; x_fault := false |}.
Inductive mrun : list mevent -> mconfig -> Prop :=
| mrun_init : mrun [] minit
| mrun_step : forall tr c e c', mrun tr c -> mstep c e c' -> mrun (tr ++ match e with Some x => [x] | None => [] end) c'.
End Mutex.
