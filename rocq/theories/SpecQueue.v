(** SpecQueue.v: what a history of calls says about a queue. Independent of the ring. *)
From Verif Require Import Base ModelQueue.

(** Items whose insertion has returned true so far, and the item of an insertion still under way. *)
Definition ins_step (st : list bytes * list bytes) (e : event) : list bytes * list bytes :=
  match e with
  | InsCall it => (fst st, [it])
  | InsRet true _ => (fst st ++ snd st, [])
  | InsRet false _ => (fst st, [])
  | _ => st
  end.
Definition inserted (tr : list event) : list bytes := fst (fold_left ins_step tr ([], [])).
Definition pending (tr : list event) : list bytes := snd (fold_left ins_step tr ([], [])).
(** Items that removals have returned so far; is a removal under way? *)
Definition removed (tr : list event) : list bytes := concat (map (fun e => match e with RemRet (Some it) _ => [it] | _ => [] end) tr).
Definition rem_step (b : bool) (e : event) : bool := match e with RemCall => true | RemRet _ _ => false | _ => b end.
Definition removing (tr : list event) : bool := fold_left rem_step tr false.

(** The space the last insertion reported (all of it, before the first), and the count the last removal reported. *)
Definition last_space (num : Z) (tr : list event) : Z := fold_left (fun s e => match e with InsRet _ s' => s' | _ => s end) tr (num - 1).
Definition last_count (tr : list event) : Z := fold_left (fun s e => match e with RemRet _ s' => s' | _ => s end) tr 0.

Definition prefix {A} (a b : list A) : Prop := exists r, b = a ++ r.
(** Arguments the C functions can have: 2 <= num, a power of two, unsigned. *)
Definition queue_args (num size : Z) : Prop := (exists k, 1 <= k <= 31 /\ num = 2 ^ k) /\ 0 <= size < 2 ^ 32.
(** All octet offsets fit unsigned arithmetic. *)
Definition offsets_fit (num size : Z) : Prop := (num - 1) * size < 2 ^ 32.

(** Continuing from a given configuration, with the events seen on the way. *)
Section Steps.
Variables num size : Z.
Inductive steps (c : config) : list event -> config -> Prop :=
| steps_nil : steps c [] c
| steps_snoc : forall tr c1 e c2, steps c tr c1 -> step num size c1 e c2 -> steps c (tr ++ match e with Some x => [x] | None => [] end) c2.
End Steps.

(** Nothing under way and all stores in memory. *)
Definition quiet (c : config) : Prop := q_prod c = PIdle /\ q_cons c = CIdle /\ q_pbuf c = [] /\ q_cbuf c = [].

(** Steps of its own thread that a call still needs at most. *)
Section Work.
Variable size : Z.
Definition pwork (p : pstate) : Z :=
  match p with PIdle => 0 | PRet _ _ _ => 1 | PCopy _ _ _ todo => 2 + zlen todo | PHead _ _ => 3 + Z.max 0 size | PEnter _ => 4 + Z.max 0 size end.
Definition cwork (c : cstate) : Z :=
  match c with CIdle => 0 | CRet _ _ => 1 | CFence _ _ _ => 3 | CCopy _ _ _ todo => 4 + zlen todo | CHead _ _ => 5 + Z.max 0 size | CEnter _ => 6 + Z.max 0 size end.
End Work.
