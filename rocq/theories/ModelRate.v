(** ModelRate.v: libmy/my_rate.c, the rate limiter. The clock arithmetic is that of ModelLibmyIo.v.

    The doubles of adjust_rate and of the period are replaced by exact quotients. What the clock shows is input: [gap], the
    nanoseconds from the last return (or from the time t0) to the call, and [late], by how much clock_nanosleep returns after the
    deadline (TIMER_ABSTIME, CLOCK_MONOTONIC, no signal: its result is not looked at). *)
From Verif Require Import Base Lib ModelLibmyIo.

Definition billion : Z := 1000000000.
(** A clock reading. *)
Definition of_nanos (n : Z) : timespec := {| tv_sec := n / billion; tv_nsec := n mod billion |}.
Definition to_nanos (t : timespec) : Z := billion * tv_sec t + tv_nsec t.

(** my_rate.c:25-29, struct my_rate. *)
Record limiter := { l_next : timespec; l_period : timespec; l_start : timespec; l_count : Z; l_adj : Z; l_rate : Z; l_freq : Z }.
(** my_rate.c:90-92, 108-109 with my_time.h:58-62: 1.0 / 0 is infinity, whose conversion to time_t is undefined; 1 second; less. *)
Definition period_of (rate : Z) : outcome timespec :=
  if rate =? 0 then UB IntOverflow else Ok {| tv_sec := 1 / rate; tv_nsec := (billion / rate) mod billion |}.
(** my_rate.c:96-112, my_rate_init; calloc clears the rest. *)
Definition my_rate_init (rate freq : Z) : outcome limiter :=
  p <- period_of rate ;;
  Ok {| l_next := of_nanos 0; l_period := p; l_start := of_nanos 0; l_count := 0; l_adj := rate; l_rate := rate; l_freq := freq |}.
(** my_rate.c:62-93, adjust_rate: the new adj_rate and period. The average rate is infinite, or more than an unsigned, or an unsigned;
    the quotient rate / average is kept between 99/100 and 101/100. *)
Definition adjust_rate (r : limiter) (now : timespec) : outcome limiter :=
  elapsed <- my_timespec_sub (l_start r) now ;;
  ns <- ts_nanos elapsed ;;
  if ns <=? 0 then UB IntOverflow
  else
  let actual := l_count r * billion / ns in
  if actual >? 4294967295 then UB IntOverflow
  else
  let adj := if l_rate r * 100 <? 99 * actual then l_adj r * 99 / 100
             else if l_rate r * 100 >? 101 * actual then l_adj r * 101 / 100
             else l_adj r * l_rate r / actual in
  if adj >? 4294967295 then UB IntOverflow
  else
  p <- period_of adj ;;
  Ok {| l_next := l_next r; l_period := p; l_start := l_start r; l_count := l_count r; l_adj := adj; l_rate := l_rate r; l_freq := l_freq r |}.

(** my_rate.c:124-186, my_rate_sleep. The time of the return is the last reading of the clock. *)
Definition my_rate_sleep (r : limiter) (now : timespec) (late : Z) : outcome (limiter * timespec) :=
  let set_next r t := {| l_next := t; l_period := l_period r; l_start := l_start r; l_count := l_count r; l_adj := l_adj r; l_rate := l_rate r; l_freq := l_freq r |} in
  let r := {| l_next := l_next r; l_period := l_period r; l_start := l_start r; l_count := (l_count r + 1) mod 2 ^ 64; l_adj := l_adj r; l_rate := l_rate r; l_freq := l_freq r |} in
  r <- (if l_count r =? 1 then
          t <- calc_next_tick 1 now (l_period r) ;;
          Ok {| l_next := t; l_period := l_period r; l_start := now; l_count := l_count r; l_adj := l_adj r; l_rate := l_rate r; l_freq := l_freq r |}
        else Ok r) ;;
  r <- (if negb (l_freq r =? 0) && (l_count r mod l_freq r =? 0) && (l_count r >? l_freq r) then adjust_rate r now else Ok r) ;;
  til <- my_timespec_sub now (l_next r) ;;
  n <- ts_nanos til ;;
  let ret := if n >? 0 then of_nanos (to_nanos (l_next r) + late) else now in
  t <- calc_next_tick 1 ret (l_period r) ;;
  Ok (set_next r t, ret).
(** Calls one after the other; result: the times of their returns. *)
Fixpoint calls (r : limiter) (last : timespec) (cs : list (Z * Z)) : outcome (list timespec) :=
  match cs with
  | [] => Ok []
  | (gap, late) :: cs =>
    '(r, t) <- my_rate_sleep r (of_nanos (to_nanos last + gap)) late ;;
    ts <- calls r t cs ;;
    Ok (t :: ts)
  end.
