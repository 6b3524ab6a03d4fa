(** ModelList.v: libmy/list.h, doubly linked lists. *)
From Verif Require Import Base.

(** Memory: for every list its head and tail, for every element (an address above 0) its link. NULL is 0, the mark of an unlinked
    element is -1 (list.h:25-36). *)
Record dmem := { d_head : Z -> Z; d_tail : Z -> Z; d_prev : Z -> Z; d_next : Z -> Z }.
Definition put (f : Z -> Z) (a v : Z) : Z -> Z := fun x => if x =? a then v else f x.

(** Stores and loads; through NULL or through the mark they are undefined behaviour. *)
Definition set_head (l v : Z) (m : dmem) : dmem := {| d_head := put (d_head m) l v; d_tail := d_tail m; d_prev := d_prev m; d_next := d_next m |}.
Definition set_tail (l v : Z) (m : dmem) : dmem := {| d_head := d_head m; d_tail := put (d_tail m) l v; d_prev := d_prev m; d_next := d_next m |}.
Definition set_prev (e v : Z) (m : dmem) : outcome dmem :=
  if e >? 0 then Ok {| d_head := d_head m; d_tail := d_tail m; d_prev := put (d_prev m) e v; d_next := d_next m |} else UB NullDeref.
Definition set_next (e v : Z) (m : dmem) : outcome dmem :=
  if e >? 0 then Ok {| d_head := d_head m; d_tail := d_tail m; d_prev := d_prev m; d_next := put (d_next m) e v |} else UB NullDeref.
Definition get_prev (e : Z) (m : dmem) : outcome Z := if e >? 0 then Ok (d_prev m e) else UB NullDeref.
Definition get_next (e : Z) (m : dmem) : outcome Z := if e >? 0 then Ok (d_next m e) else UB NullDeref.

(** list.h:26-27, ISC_LIST_INIT. *)
Definition list_init (l : Z) (m : dmem) : outcome dmem := Ok (set_tail l 0 (set_head l 0 m)).
(** list.h:30-36, ISC_LINK_INIT and ISC_LINK_LINKED. *)
Definition link_init (e : Z) (m : dmem) : outcome dmem := m <- set_prev e (-1) m ;; set_next e (-1) m.
Definition link_linked (e : Z) (m : dmem) : outcome bool := p <- get_prev e m ;; Ok (negb (p =? -1)).
(** list.h:38-40, :117-118. *)
Definition list_empty (l : Z) (m : dmem) : bool := d_head m l =? 0.

(** list.h:42-57, ISC_LIST_PREPEND (ISC_LINK_INSIST is empty, list.h:23). *)
Definition prepend (l e : Z) (m : dmem) : outcome dmem :=
  m <- (if negb (d_head m l =? 0) then set_prev (d_head m l) e m else Ok (set_tail l e m)) ;;
  m <- set_prev e 0 m ;;
  m <- set_next e (d_head m l) m ;;
  Ok (set_head l e m).
(** list.h:62-77, ISC_LIST_APPEND. *)
Definition append (l e : Z) (m : dmem) : outcome dmem :=
  m <- (if negb (d_tail m l =? 0) then set_next (d_tail m l) e m else Ok (set_head l e m)) ;;
  m <- set_prev e (d_tail m l) m ;;
  m <- set_next e 0 m ;;
  Ok (set_tail l e m).
(** list.h:82-109, ISC_LIST_UNLINK. *)
Definition unlink (l e : Z) (m : dmem) : outcome dmem :=
  n <- get_next e m ;;
  m <- (if negb (n =? 0) then (p <- get_prev e m ;; set_prev n p m) else (p <- get_prev e m ;; Ok (set_tail l p m))) ;;
  p <- get_prev e m ;;
  m <- (if negb (p =? 0) then (n <- get_next e m ;; set_next p n m) else (n <- get_next e m ;; Ok (set_head l n m))) ;;
  m <- set_prev e (-1) m ;;
  set_next e (-1) m.
(** list.h:120-136, ISC_LIST_INSERTBEFORE. *)
Definition insert_before (l b e : Z) (m : dmem) : outcome dmem :=
  p <- get_prev b m ;;
  if p =? 0 then prepend l e m
  else
    m <- set_prev e p m ;;
    m <- set_prev b e m ;;
    p <- get_prev e m ;;
    m <- set_next p e m ;;
    set_next e b m.
(** list.h:138-154, ISC_LIST_INSERTAFTER. *)
Definition insert_after (l a e : Z) (m : dmem) : outcome dmem :=
  n <- get_next a m ;;
  if n =? 0 then append l e m
  else
    m <- set_next e n m ;;
    m <- set_next a e m ;;
    n <- get_next e m ;;
    m <- set_prev n e m ;;
    set_prev e a m.
(** list.h:156-166, ISC_LIST_APPENDLIST. *)
Definition append_list (l k : Z) (m : dmem) : outcome dmem :=
  m <- (if list_empty l m then Ok (set_tail l (d_tail m k) (set_head l (d_head m k) m))
        else if negb (list_empty k m) then
          (m <- set_next (d_tail m l) (d_head m k) m ;;
           m <- set_prev (d_head m k) (d_tail m l) m ;;
           Ok (set_tail l (d_tail m k) m))
        else Ok m) ;;
  Ok (set_tail k 0 (set_head k 0 m)).

(** The calls a program makes. *)
Inductive list_op := OInit (l : Z) | OPrepend (l e : Z) | OAppend (l e : Z) | OUnlink (l e : Z) | OBefore (l b e : Z) | OAfter (l a e : Z) | OAppendList (l k : Z).
Definition run_op (o : list_op) (m : dmem) : outcome dmem :=
  match o with
  | OInit l => list_init l m
  | OPrepend l e => prepend l e m
  | OAppend l e => append l e m
  | OUnlink l e => unlink l e m
  | OBefore l b e => insert_before l b e m
  | OAfter l a e => insert_after l a e m
  | OAppendList l k => append_list l k m
  end.
Fixpoint run_ops (os : list list_op) (m : dmem) : outcome dmem :=
  match os with [] => Ok m | o :: os' => m <- run_op o m ;; run_ops os' m end.

(** ISC_LIST_HEAD and then ISC_LIST_NEXT up to NULL, at most [n] steps; and backwards from ISC_LIST_TAIL. *)
Fixpoint walk (n : nat) (e : Z) (m : dmem) : outcome (list Z) :=
  match n with
  | O => NoFuel
  | S n' => if e =? 0 then Ok [] else (k <- get_next e m ;; r <- walk n' k m ;; Ok (e :: r))
  end.
Fixpoint walk_back (n : nat) (e : Z) (m : dmem) : outcome (list Z) :=
  match n with
  | O => NoFuel
  | S n' => if e =? 0 then Ok [] else (k <- get_prev e m ;; r <- walk_back n' k m ;; Ok (e :: r))
  end.
