(** ModelQueue.v: libmy/my_queue_mb.c, the single-producer single-consumer ring, on x86-64 with its store buffers (TSO).

    Two threads, one that only calls my_queue_insert and one that only calls my_queue_remove. Every load and store of the
    shared object is one step, and the steps of the two threads interleave in any way. A store goes into the thread's own
    FIFO store buffer and reaches memory at any later time; a load sees the thread's own buffered stores first; mfence waits
    for the thread's buffer to be empty (Sewell et al., x86-TSO). smp_wmb and smp_rmb are compiler barriers on x86-64
    (my_memory_barrier.h:5-9): the machine accesses are taken to be in program order. memcpy copies octet by octet in any
    order. Simplifications: the calloc of q_init always succeeds; the ia64 branch is not modelled. *)
From Verif Require Import Base Lib.

(** my_queue_mb.c:46-52: the shared members; data as a map from octet offsets. *)
Inductive loc := LHead | LTail | LData (i : Z).
Record mem := { m_head : Z; m_tail : Z; m_data : Z -> Z }.
Definition load (m : mem) (l : loc) : Z := match l with LHead => m_head m | LTail => m_tail m | LData i => m_data m i end.
Definition store (m : mem) (w : loc * Z) : mem :=
  match fst w with
  | LHead => {| m_head := snd w; m_tail := m_tail m; m_data := m_data m |}
  | LTail => {| m_head := m_head m; m_tail := snd w; m_data := m_data m |}
  | LData i => {| m_head := m_head m; m_tail := m_tail m; m_data := fun j => if j =? i then snd w else m_data m j |}
  end.
(** Store buffers, oldest entry first. What a thread with buffer [b] reads at [l]. *)
Definition buffer := list (loc * Z).
Definition drain (b : buffer) (m : mem) : mem := fold_left store b m.
Definition sees (b : buffer) (m : mem) (l : loc) : Z := load (drain b m) l.

Definition wrap32 (v : Z) : Z := v mod 4294967296.

(** my_queue_mb.c:54-65, my_queue_mb_init: the argument check. [num] is an unsigned. *)
Definition queue_init_ok (num : Z) : bool := negb ((num <? 2) || negb (Z.land (wrap32 (num - 1)) num =? 0)).
(** my_queue_mb.c:60,63: calloc, all zero. *)
Definition init_mem : mem := {| m_head := 0; m_tail := 0; m_data := fun _ => 0 |}.

(** my_queue_mb.c:83-87 and 89-93. *)
Definition q_space (head tail size : Z) : Z := Z.land (wrap32 (tail - wrap32 (head + 1))) (wrap32 (size - 1)).
Definition q_count (head tail size : Z) : Z := Z.land (wrap32 (head - tail)) (wrap32 (size - 1)).
(** my_queue_mb.c:103 and 123: head * q->sizeof_elem is computed in unsigned. *)
Definition slot (h size_elem : Z) : Z := wrap32 (h * size_elem).
(** my_queue_mb.c:105 and 125. *)
Definition next (h num : Z) : Z := Z.land (wrap32 (h + 1)) (wrap32 (num - 1)).

(** Progress of my_queue_mb_insert (my_queue_mb.c:95-113): before the load of head, before the load of tail, copying with the
    octets still to do, before the store of head, before returning. *)
Inductive pstate :=
| PIdle
| PEnter (it : bytes)
| PHead (it : bytes) (head : Z)
| PCopy (it : bytes) (head space : Z) (todo : list Z)
| PRet (it : bytes) (ok : bool) (space : Z).
(** Progress of my_queue_mb_remove (my_queue_mb.c:115-132): [got] is the caller's item. *)
Inductive cstate :=
| CIdle
| CEnter (got : bytes)
| CHead (got : bytes) (head : Z)
| CCopy (got : bytes) (tail count : Z) (todo : list Z)
| CFence (got : bytes) (tail count : Z)
| CRet (res : option bytes) (count : Z).

Record config := { q_mem : mem; q_pbuf : buffer; q_cbuf : buffer; q_prod : pstate; q_cons : cstate; q_fault : bool }.
Definition set_prod (c : config) (p : pstate) : config :=
  {| q_mem := q_mem c; q_pbuf := q_pbuf c; q_cbuf := q_cbuf c; q_prod := p; q_cons := q_cons c; q_fault := q_fault c |}.
Definition set_cons (c : config) (s : cstate) : config :=
  {| q_mem := q_mem c; q_pbuf := q_pbuf c; q_cbuf := q_cbuf c; q_prod := q_prod c; q_cons := s; q_fault := q_fault c |}.
Definition put_prod (c : config) (w : loc * Z) : config :=
  {| q_mem := q_mem c; q_pbuf := q_pbuf c ++ [w]; q_cbuf := q_cbuf c; q_prod := q_prod c; q_cons := q_cons c; q_fault := q_fault c |}.
Definition put_cons (c : config) (w : loc * Z) : config :=
  {| q_mem := q_mem c; q_pbuf := q_pbuf c; q_cbuf := q_cbuf c ++ [w]; q_prod := q_prod c; q_cons := q_cons c; q_fault := q_fault c |}.
Definition check (c : config) (ok : bool) : config :=
  {| q_mem := q_mem c; q_pbuf := q_pbuf c; q_cbuf := q_cbuf c; q_prod := q_prod c; q_cons := q_cons c; q_fault := q_fault c || negb ok |}.

(** What the callers see. *)
Inductive event :=
| InsCall (it : bytes)
| InsRet (ok : bool) (space : Z)
| RemCall
| RemRet (res : option bytes) (count : Z).

Definition setz {A} (l : list A) (i : Z) (v : A) : list A := firstn (Z.to_nat i) l ++ v :: skipn (Z.to_nat (i + 1)) l.
Definition offsets (n : Z) : list Z := map Z.of_nat (seq 0 (Z.to_nat n)).

Section Queue.
Variables num size : Z.       (* num_elems, sizeof_elem *)
Definition in_data (i : Z) : bool := (0 <=? i) && (i <? num * size).

Inductive step : config -> option event -> config -> Prop :=
(* The hardware: the oldest store of either buffer reaches memory. *)
| s_pflush : forall c w b, q_pbuf c = w :: b ->
    step c None {| q_mem := store (q_mem c) w; q_pbuf := b; q_cbuf := q_cbuf c; q_prod := q_prod c; q_cons := q_cons c; q_fault := q_fault c |}
| s_cflush : forall c w b, q_cbuf c = w :: b ->
    step c None {| q_mem := store (q_mem c) w; q_pbuf := q_pbuf c; q_cbuf := b; q_prod := q_prod c; q_cons := q_cons c; q_fault := q_fault c |}
(* my_queue_mb_insert. *)
| s_pcall : forall c it, q_prod c = PIdle -> zlen it = size -> step c (Some (InsCall it)) (set_prod c (PEnter it))
(* line 99: head = q->head. *)
| s_phead : forall c it, q_prod c = PEnter it -> step c None (set_prod c (PHead it (sees (q_pbuf c) (q_mem c) LHead)))
(* lines 100-102: tail = q->tail, space, the test. *)
| s_ptail : forall c it h, q_prod c = PHead it h ->
    let space := q_space h (sees (q_pbuf c) (q_mem c) LTail) num in
    step c None (set_prod c (if space >=? 1 then PCopy it h space (offsets size) else PRet it false space))
(* line 103: one octet of memcpy(&q->data[head * q->sizeof_elem], item, q->sizeof_elem). *)
| s_pcopy : forall c it h space a k b v, q_prod c = PCopy it h space (a ++ k :: b) -> rd it k = Ok v ->
    step c None (check (put_prod (set_prod c (PCopy it h space (a ++ b))) (LData (slot h size + k), v)) (in_data (slot h size + k)))
(* lines 104-108: q->head = (head + 1) & (q->num_elems - 1); space--. *)
| s_ppub : forall c it h space, q_prod c = PCopy it h space [] ->
    step c None (put_prod (set_prod c (PRet it true (space - 1))) (LHead, next h num))
(* lines 110-112. *)
| s_pret : forall c it ok space, q_prod c = PRet it ok space -> step c (Some (InsRet ok space)) (set_prod c PIdle)
(* my_queue_mb_remove; the caller's item has some contents. *)
| s_ccall : forall c got, q_cons c = CIdle -> zlen got = size -> step c (Some RemCall) (set_cons c (CEnter got))
(* line 119: head = q->head. *)
| s_chead : forall c got, q_cons c = CEnter got -> step c None (set_cons c (CHead got (sees (q_cbuf c) (q_mem c) LHead)))
(* lines 120-122: tail = q->tail, count, the test. *)
| s_ctail : forall c got h, q_cons c = CHead got h ->
    let tail := sees (q_cbuf c) (q_mem c) LTail in let count := q_count h tail num in
    step c None (set_cons c (if count >=? 1 then CCopy got tail count (offsets size) else CRet None count))
(* line 123: one octet of memcpy(item, &q->data[tail * q->sizeof_elem], q->sizeof_elem). *)
| s_ccopy : forall c got t count a k b, q_cons c = CCopy got t count (a ++ k :: b) ->
    step c None (check (set_cons c (CCopy (setz got k (sees (q_cbuf c) (q_mem c) (LData (slot t size + k)))) t count (a ++ b))) (in_data (slot t size + k)))
(* line 124: smp_mb(). *)
| s_cfence : forall c got t count, q_cons c = CCopy got t count [] -> q_cbuf c = [] -> step c None (set_cons c (CFence got t count))
(* lines 125-127: q->tail = (tail + 1) & (q->num_elems - 1); count--. *)
| s_cpub : forall c got t count, q_cons c = CFence got t count ->
    step c None (put_cons (set_cons c (CRet (Some got) (count - 1))) (LTail, next t num))
(* lines 129-131. *)
| s_cret : forall c res count, q_cons c = CRet res count -> step c (Some (RemRet res count)) (set_cons c CIdle).

Definition init : config := {| q_mem := init_mem; q_pbuf := []; q_cbuf := []; q_prod := PIdle; q_cons := CIdle; q_fault := false |}.

(** Runs from the initial state with the events seen so far, oldest first. *)
Inductive run : list event -> config -> Prop :=
| run_init : run [] init
| run_step : forall tr c e c', run tr c -> step c e c' -> run (tr ++ match e with Some x => [x] | None => [] end) c'.
End Queue.
