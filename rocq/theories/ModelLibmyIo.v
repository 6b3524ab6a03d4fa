(** ModelLibmyIo.v: libmy/read_bytes.h and the arithmetic of libmy/my_time.h. *)
From Verif Require Import Base Lib.

(** ** read_bytes.h *)
(** What read(2) did: it delivered octets (none: end of file), was interrupted (EINTR), or failed otherwise. *)
Inductive read_result := Data (l : bytes) | Interrupted | Failed.
(** A descriptor: the octets still to come. read(fd, buf, n): any non-empty part of what is there, at most n octets; the end of
    file when nothing is there; or an interruption or a failure at any time. *)
Inductive reads (n : Z) : bytes -> read_result -> bytes -> Prop :=
| rd_data : forall l rest, l <> [] -> zlen l <= n -> reads n (l ++ rest) (Data l) rest
| rd_eof : reads n [] (Data []) []
| rd_int : forall s, reads n s Interrupted s
| rd_fail : forall s, reads n s Failed s.
(** read_bytes.h:9-24, as a relation: descriptor and octets needed before; results of the calls of read, octets stored in buf,
    value returned, and descriptor afterwards. [None]: has not returned yet. *)
Inductive read_bytes : bytes -> Z -> list read_result -> bytes -> option bool -> bytes -> Prop :=
| rb_done : forall s needed, ~ needed > 0 -> read_bytes s needed [] [] (Some true) s
| rb_wait : forall s needed, needed > 0 -> read_bytes s needed [] [] None s
| rb_again : forall s needed s' rs buf r s2, needed > 0 -> reads needed s Interrupted s' -> read_bytes s' needed rs buf r s2 -> read_bytes s needed (Interrupted :: rs) buf r s2
| rb_error : forall s needed s', needed > 0 -> reads needed s Failed s' -> read_bytes s needed [Failed] [] (Some false) s'
| rb_eof : forall s needed s', needed > 0 -> reads needed s (Data []) s' -> read_bytes s needed [Data []] [] (Some false) s'
| rb_some : forall s needed l s' rs buf r s2, needed > 0 -> reads needed s (Data l) s' -> l <> [] -> read_bytes s' (needed - zlen l) rs buf r s2 -> read_bytes s needed (Data l :: rs) (l ++ buf) r s2.

(** ** my_time.h: struct timespec, both members 64 bits, signed overflow undefined. *)
Record timespec := { tv_sec : Z; tv_nsec : Z }.
Definition i64 (v : Z) : outcome Z := if (- 9223372036854775808 <=? v) && (v <=? 9223372036854775807) then Ok v else UB IntOverflow.
(** my_time.h:36-39, and my_rate.c:54-57, the loop of my_timespec_add. *)
Fixpoint carry_loop (fuel : nat) (sec nsec : Z) : outcome timespec :=
  if nsec >=? 1000000000 then
    match fuel with
    | O => NoFuel
    | S fuel => sec <- i64 (sec + 1) ;; nsec <- i64 (nsec - 1000000000) ;; carry_loop fuel sec nsec
    end
  else Ok {| tv_sec := sec; tv_nsec := nsec |}.
(** my_time.h:32-40, my_timespec_add: b += a. *)
Definition my_timespec_add (fuel : nat) (a b : timespec) : outcome timespec :=
  sec <- i64 (tv_sec b + tv_sec a) ;; nsec <- i64 (tv_nsec b + tv_nsec a) ;; carry_loop fuel sec nsec.
(** my_time.h:42-51, my_timespec_sub: b -= a. *)
Definition my_timespec_sub (a b : timespec) : outcome timespec :=
  sec <- i64 (tv_sec b - tv_sec a) ;; nsec <- i64 (tv_nsec b - tv_nsec a) ;;
  if nsec <? 0 then sec <- i64 (sec - 1) ;; nsec <- i64 (nsec + 1000000000) ;; Ok {| tv_sec := sec; tv_nsec := nsec |}
  else Ok {| tv_sec := sec; tv_nsec := nsec |}.
(** my_rate.c:31-35, ts_nanos: the product is computed in 64 bits. *)
Definition ts_nanos (ts : timespec) : outcome Z := p <- i64 (tv_sec ts * 1000000000) ;; i64 (p + tv_nsec ts).
(** C's % (truncated). *)
Definition crem (a b : Z) : Z := Z.rem a b.
(** my_rate.c:37-60, calc_next_tick. *)
Definition calc_next_tick (fuel : nat) (t m : timespec) : outcome timespec :=
  sec <- (if tv_sec m >? 0 then s <- i64 (tv_sec t - crem (tv_sec t) (tv_sec m)) ;; i64 (s + tv_sec m) else Ok (tv_sec t)) ;;
  nsec <- (if tv_nsec m >? 0 then s <- i64 (tv_nsec t - crem (tv_nsec t) (tv_nsec m)) ;; i64 (s + tv_nsec m) else Ok 0) ;;
  carry_loop fuel sec nsec.
