(** SpecQueueMutex.v: linearizability against a bounded first-in first-out queue. Independent of the ring. *)
From Verif Require Import Base ModelQueue ModelQueueMutex.

(** One operation on a queue of capacity [cap], done at once: its result and the new contents. *)
Definition apply (cap : Z) (o : op) (q : list bytes) : result * list bytes :=
  match o with
  | OpIns it => if zlen q <? cap then (RIns true (cap - zlen q - 1), q ++ [it]) else (RIns false 0, q)
  | OpRem => match q with [] => (RRem None 0, []) | it :: q' => (RRem (Some it) (zlen q'), q') end
  end.

(** Calls and returns, and the instants at which operations take effect. *)
Inductive aevent := Vis (e : mevent) | Lin (t : nat) (o : op) (r : result).
Inductive phase := TIdle | TCalled (o : op) | TDone (r : result).
(** Each thread calls, its operation takes effect once between call and return, and the return has its result; the
    operations in the order in which they take effect are a run of the queue. *)
Inductive lin_ok (cap : Z) : list aevent -> (nat -> phase) -> list bytes -> Prop :=
| lin_nil : lin_ok cap [] (fun _ => TIdle) []
| lin_call : forall tr ph q t o, lin_ok cap tr ph q -> ph t = TIdle -> lin_ok cap (tr ++ [Vis (ECall t o)]) (upd ph t (TCalled o)) q
| lin_lin : forall tr ph q t o r q', lin_ok cap tr ph q -> ph t = TCalled o -> apply cap o q = (r, q') -> lin_ok cap (tr ++ [Lin t o r]) (upd ph t (TDone r)) q'
| lin_ret : forall tr ph q t r, lin_ok cap tr ph q -> ph t = TDone r -> lin_ok cap (tr ++ [Vis (ERet t r)]) (upd ph t TIdle) q.
Definition visible (tr : list aevent) : list mevent := concat (map (fun e => match e with Vis x => [x] | Lin _ _ _ => [] end) tr).
Definition linearizable (cap : Z) (tr : list mevent) : Prop := exists atr ph q, lin_ok cap atr ph q /\ visible atr = tr.

(** Continuing from a configuration, with the events seen on the way. *)
Section Steps.
Variables num size : Z.
Inductive msteps (c : mconfig) : list mevent -> mconfig -> Prop :=
| msteps_nil : msteps c [] c
| msteps_cons : forall e c1 tr c2, mstep num size c e c1 -> msteps c1 tr c2 -> msteps c (match e with Some x => [x] | None => [] end ++ tr) c2.
End Steps.
