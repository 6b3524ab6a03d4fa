(** ModelArgvXor.v: libmy/argv.c, the check that an option of every group joined by ARGV_XOR is used. *)
From Verif Require Import Base SpecArgvOr.

Definition is_xor (e : entry) : bool := match e_kind e with EXor => true | _ => false end.
(** argv.c:1954-1999, check_xor up to the messages; [s]: the entries from arg_p on, [prev]: the one in front of it. [mode] None: the
    outer loop at arg_p; [Some ok]: the inner loop behind its first arg_p++, [ok]: start_p is NULL. true: an error is reported. *)
Fixpoint xor_loop (mode : option bool) (prev : option entry) (s : list entry) : outcome bool :=
  match mode, s with
  | _, [] => UB OobRead
  | None, e :: s' =>
    match e_kind e with
    | ELast => Ok false
    | EXor => match prev with None => UB OobRead | Some p => xor_loop (Some (e_used p)) (Some e) s' end
    | _ => xor_loop None (Some e) s'
    end
  | Some ok, o :: s' =>
    let ok := ok || e_used o in
    match s' with
    | [] => UB OobRead
    | n :: s'' => if is_xor n then xor_loop (Some ok) (Some n) s'' else if ok then xor_loop None (Some o) s' else Ok true
    end
  end.
Definition check_xor (g : list entry) : outcome bool := xor_loop None None g.
