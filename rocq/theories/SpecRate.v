(** SpecRate.v: the ticks of a rate limiter. *)
From Verif Require Import Base ModelLibmyIo.

(** A tick: the second, or, for periods below one second, the part of the second, counted in periods. [b] is in a later tick than [a]. *)
Definition later_tick (period a b : timespec) : Prop :=
  tv_sec a < tv_sec b \/ (tv_nsec period > 0 /\ tv_sec a = tv_sec b /\ tv_nsec a / tv_nsec period < tv_nsec b / tv_nsec period).
(** The periods of the rates 1 to 10^9. *)
Definition is_period (p : timespec) : Prop := (tv_sec p = 1 /\ tv_nsec p = 0) \/ (tv_sec p = 0 /\ 0 < tv_nsec p < 1000000000).
