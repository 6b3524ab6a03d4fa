(** ModelLibmyHeap.v: libmy/heap.c, the binary heap (no relation to the malloc heap of ModelHeap.v).

    The pointer vector is the list of its elements (ModelVector.v models vector.h itself); an item is the number of the pointer,
    NULL is 0. Positions are natural numbers: a vector of pointers has fewer than 2^61 elements, so 2 * pos + 1 and pos - 1
    (pos > startpos >= 0) do not wrap. The comparison function is a pure function of its two arguments. *)
From Verif Require Import Base Lib.

Section Heap.
(** heap.c:24-34: struct heap's cmp, and heap.h:6. *)
Variable cmp : Z -> Z -> Z.
(** heap.c:31-35, cmp_wrapper: 1 if a is before b. It is never -1, so the tests of lines 63-64 and 87-88 are dead. *)
Definition before (a b : Z) : bool := cmp a b <? 0.

(** vector.h:144-148, ptrvec_value: asserts the index. *)
Definition value (v : list Z) (i : nat) : outcome Z := match nth_error v i with Some x => Ok x | None => UB AssertFail end.
(** ptrvec_data(h->vec)[pos] = x. *)
Definition set (v : list Z) (i : nat) (x : Z) : outcome (list Z) :=
  if Nat.ltb i (length v) then Ok (firstn i v ++ x :: skipn (S i) v) else UB OobWrite.

(** heap.c:59-70, the loop of siftdown and the store after it. Fuel: pos. *)
Fixpoint siftdown_loop (fuel : nat) (v : list Z) (startpos pos : nat) (newitem : Z) : outcome (list Z) :=
  match fuel with
  | O => if Nat.ltb startpos pos then NoFuel else set v pos newitem
  | S fuel =>
      if Nat.ltb startpos pos then
        let parentpos := Nat.div2 (pos - 1) in
        parent <- value v parentpos ;;
        if before newitem parent
        then v <- set v pos parent ;; siftdown_loop fuel v startpos parentpos newitem
        else set v pos newitem
      else set v pos newitem
  end.
(** heap.c:54-73, siftdown. *)
Definition siftdown (v : list Z) (startpos pos : nat) : outcome (list Z) :=
  newitem <- value v pos ;; siftdown_loop pos v startpos pos newitem.

(** heap.c:83-97, the loop of siftup: the position and the vector at its end. Fuel: the number of elements. *)
Fixpoint siftup_loop (fuel : nat) (v : list Z) (pos : nat) : outcome (list Z * nat) :=
  let childpos := (2 * pos + 1)%nat in
  match fuel with
  | O => if Nat.ltb childpos (length v) then NoFuel else Ok (v, pos)
  | S fuel =>
      if Nat.ltb childpos (length v) then
        let rightpos := S childpos in
        childpos <- (if Nat.ltb rightpos (length v) then
                       c <- value v childpos ;; r <- value v rightpos ;;
                       Ok (if before c r then childpos else rightpos)
                     else Ok childpos) ;;
        x <- value v childpos ;;
        v <- set v pos x ;;
        siftup_loop fuel v childpos
      else Ok (v, pos)
  end.
(** heap.c:75-100, siftup. *)
Definition siftup (v : list Z) (pos : nat) : outcome (list Z) :=
  newitem <- value v pos ;;
  '(v, p) <- siftup_loop (length v) v pos ;;
  v <- set v p newitem ;;
  siftdown v pos p.

(** heap.c:102-107, heap_push. *)
Definition heap_push (v : list Z) (item : Z) : outcome (list Z) :=
  let v := v ++ [item] in siftdown v 0 (length v - 1).
(** heap.c:109-126, heap_pop: the item and the new vector. *)
Definition heap_pop (v : list Z) : outcome (Z * list Z) :=
  if Nat.ltb (length v) 1 then Ok (0, v) else
  lastelt <- value v (length v - 1) ;;
  let v := firstn (length v - 1) v in
  if Nat.ltb 0 (length v) then
    returnitem <- value v 0 ;;
    v <- set v 0 lastelt ;;
    v <- siftup v 0 ;;
    Ok (returnitem, v)
  else Ok (lastelt, v).
(** heap.c:128-137, heap_replace. *)
Definition heap_replace (v : list Z) (item : Z) : outcome (Z * list Z) :=
  if Nat.ltb (length v) 1 then Ok (0, v) else
  returnitem <- value v 0 ;;
  v <- set v 0 item ;;
  v <- siftup v 0 ;;
  Ok (returnitem, v).
(** heap.c:139-145, heap_peek. *)
Definition heap_peek (v : list Z) : outcome Z := if Nat.ltb (length v) 1 then Ok 0 else value v 0.
(** heap.c:147-153, heap_get: i and the size are size_t, so size - 1 wraps for an empty heap. *)
Definition heap_get (v : list Z) (i : Z) : outcome Z :=
  if i >? (zlen v - 1) mod 2 ^ 64 then Ok 0 else value v (Z.to_nat i).
(** heap.c:155-159, heap_size. *)
Definition heap_size (v : list Z) : Z := zlen v.

(** A call of the interface, its result (0 for push), and the heap afterwards. heap.c:37-44, heap_init: the empty vector. *)
Inductive call := Push (x : Z) | Pop | Replace (x : Z) | Peek | Get (i : Z) | Size.
Definition perform (v : list Z) (c : call) : outcome (Z * list Z) :=
  match c with
  | Push x => v <- heap_push v x ;; Ok (0, v)
  | Pop => heap_pop v
  | Replace x => heap_replace v x
  | Peek => r <- heap_peek v ;; Ok (r, v)
  | Get i => r <- heap_get v i ;; Ok (r, v)
  | Size => Ok (heap_size v, v)
  end.
Fixpoint history (v : list Z) (cs : list call) : outcome (list Z * list Z) :=
  match cs with
  | [] => Ok ([], v)
  | c :: cs => '(r, v) <- perform v c ;; '(rs, v) <- history v cs ;; Ok (r :: rs, v)
  end.
End Heap.
