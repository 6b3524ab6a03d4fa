(** ModelArgvOr.v: libmy/argv.c, the check that at most one option of a group joined by ARGV_OR or ARGV_XOR is used. *)
From Verif Require Import Base Lib SpecArgvOr.

Definition is_link (k : ekind) : bool := match k with EOr | EXor => true | _ => false end.
Definition is_last (k : ekind) : bool := match k with ELast => true | _ => false end.
(** argv.c:1867-1877: the entries below; result: the one that is used. *)
Fixpoint check_below (fuel : nat) (g : list entry) (i : Z) : outcome (option Z) :=
  match fuel with
  | O => NoFuel
  | S k =>
    if i <? 0 then Ok None
    else
    l <- entry_at g (i + 1) ;;
    if negb (is_link (e_kind l)) then Ok None
    else
    e <- entry_at g i ;;
    if e_used e then Ok (Some i) else check_below k g (i - 2)
  end.
(** argv.c:1880-1895: the entries above. *)
Fixpoint check_above (fuel : nat) (g : list entry) (i : Z) : outcome (option Z) :=
  match fuel with
  | O => NoFuel
  | S k =>
    e <- entry_at g i ;;
    if is_last (e_kind e) then Ok None
    else
    l <- entry_at g (i - 1) ;;
    if is_last (e_kind l) then Ok None
    else if negb (is_link (e_kind l)) then Ok None
    else if e_used e then Ok (Some i) else check_above k g (i + 2)
  end.
(** argv.c:1863-1932, check_or, called by do_arg (argv.c:2325-2333) for every option that is used; true: an error is reported. *)
Definition check_or (fuel : nat) (g : list entry) (which : Z) : outcome bool :=
  m <- check_below fuel g (which - 2) ;;
  match m with
  | Some _ => Ok true
  | None => m <- check_above fuel g (which + 2) ;; Ok (match m with Some _ => true | None => false end)
  end.
