(** SpecOom.v: what running out of memory may do to a call. *)
From Verif Require Import Base ModelOom.

(** The call ends as it would with enough memory. *)
Definition same_end {A} (o : outcome A) (r : oout A) : Prop :=
  match o with
  | Ok a => exists n, r = OVal a n
  | Err c => exists n, r = OErr c n
  | UB f => r = OUB f
  | NoFuel => r = ONoFuel
  end.
(** Fail-stop: or some request failed, and the process ends by the failed assert or by an access through NULL. *)
Definition fail_stop {A} (fails : Z -> bool) (o : outcome A) (r : oout A) : Prop :=
  same_end o r \/ ((exists k, fails k = true) /\ (r = OAbort \/ r = ONull)).
