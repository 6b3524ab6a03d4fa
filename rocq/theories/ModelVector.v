(** ModelVector.v: model of libmy/vector.h (VECTOR_GENERATE), libmy/my_alloc.h and libmy/ubuf.h.

    Elements are [Z] (uint8_t for ubuf, uint16_t for u16buf); [esz] is sizeof(type).
    A block of memory is a list of cells, [None] being a cell never written since it was allocated.
    [ok b] says whether the allocator serves a request of [b] octets during the call: the environment
    decides, size by size.  The request sizes made by one call are pairwise different, so a function of
    the size is as general as a sequence of answers. *)
From Verif Require Import Base.

(** vector.h:22-26.  [v_p] is the offset of _p from _v. *)
Record vec : Type := mkVec { v_blk : list (option Z); v_p : Z; v_n : Z; v_alloced : Z; v_hint : Z }.

(** size_t arithmetic (LP64). *)
Definition szt (x : Z) : Z := x mod 2 ^ 64.

(** my_alloc.h:16-22 (my_malloc): fresh cells, or assert(ptr != NULL) fails. *)
Definition my_malloc (ok : Z -> bool) (esz size : Z) : outcome (list (option Z)) :=
  if ok size then Ok (repeat None (Z.to_nat (size / esz))) else UB AssertFail.

(** my_alloc.h:24-30 (my_realloc): the old cells that fit are kept, the others are fresh. *)
Definition my_realloc (ok : Z -> bool) (esz : Z) (blk : list (option Z)) (size : Z) : outcome (list (option Z)) :=
  let c := Z.to_nat (size / esz) in
  if ok size then Ok (firstn c blk ++ repeat None (c - length blk)) else UB AssertFail.

(** Store the elements [l] at cell offset [off] of a block. *)
Definition cells_store (blk : list (option Z)) (off : Z) (l : bytes) : outcome (list (option Z)) :=
  if (off <? 0) || (zlen blk <? off + zlen l) then UB OobWrite
  else Ok (firstn (Z.to_nat off) blk ++ map Some l ++ skipn (Z.to_nat (off + zlen l)) blk).

(** Load the cell at offset [i]. *)
Definition cell_load (blk : list (option Z)) (i : Z) : outcome Z :=
  if i <? 0 then UB OobRead
  else match nth_error blk (Z.to_nat i) with
       | Some (Some a) => Ok a | Some None => UB Uninit | None => UB OobRead end.

(** Load the [k] cells at offset [i] (the source of a memcpy of k elements). *)
Fixpoint cells_load (blk : list (option Z)) (i : Z) (k : nat) : outcome bytes :=
  match k with
  | O => Ok []
  | S k => a <- cell_load blk i ;; l <- cells_load blk (i + 1) k ;; Ok (a :: l)
  end.

Section Vec.
Variable esz : Z.
Variable ok : Z -> bool.

(** vector.h:27-38 (_init).  [hint] is an unsigned int; the calloc of the struct asks for its 40 octets. *)
Definition vec_init (hint : Z) : outcome vec :=
  if negb (ok 40) then UB AssertFail else
  let hint := if hint =? 0 then 1 else hint in
  blk <- my_malloc ok esz (szt (hint * esz)) ;;
  Ok (mkVec blk 0 0 hint hint).

(** vector.h:39-48 (_reinit). *)
Definition vec_reinit (hint : Z) : outcome vec :=
  let hint := if hint =? 0 then 1 else hint in
  blk <- my_malloc ok esz (szt (hint * esz)) ;;
  Ok (mkVec blk 0 0 hint hint).

(** vector.h:49-59 (_detach): the caller gets the old block and the number of elements. *)
Definition vec_detach (v : vec) : outcome ((list (option Z) * Z) * vec) :=
  blk <- my_malloc ok esz (szt (v_hint v * esz)) ;;
  Ok ((v_blk v, v_n v), mkVec blk 0 0 (v_hint v) (v_hint v)).

(** One turn of the growing loops, vector.h:74-77 and 85-88. *)
Definition vec_grow (v : vec) : outcome vec :=
  let a := szt (v_alloced v * 2) in
  blk <- my_realloc ok esz (v_blk v) (szt (a * esz)) ;;
  Ok (mkVec blk (v_n v) (v_n v) a (v_hint v)).

(** vector.h:69-79 (_reserve). *)
Fixpoint vec_reserve_loop (fuel : nat) (v : vec) (k : Z) : outcome vec :=
  match fuel with
  | O => NoFuel
  | S f => if szt (v_alloced v - v_n v) <? k then v' <- vec_grow v ;; vec_reserve_loop f v' k else Ok v
  end.
Definition vec_reserve (v : vec) (k : Z) : outcome vec := vec_reserve_loop 65 v k.

(** vector.h:80-93 (_add). *)
Fixpoint vec_add_loop (fuel : nat) (v : vec) : outcome vec :=
  match fuel with
  | O => NoFuel
  | S f => if v_alloced v <? szt (v_n v + 1) then v' <- vec_grow v ;; vec_add_loop f v' else Ok v
  end.
Definition vec_add (v : vec) (a : Z) : outcome vec :=
  v <- vec_add_loop 65 v ;;
  blk <- cells_store (v_blk v) (v_n v) [a] ;;
  let n := szt (v_n v + 1) in
  Ok (mkVec blk n n (v_alloced v) (v_hint v)).

(** vector.h:94-102 (_append); [l] are the [n_elems] elements read from a block other than the vector's. *)
Definition vec_append (v : vec) (l : bytes) : outcome vec :=
  v <- vec_reserve v (zlen l) ;;
  blk <- cells_store (v_blk v) (v_n v) l ;;
  let n := szt (v_n v + zlen l) in
  Ok (mkVec blk n n (v_alloced v) (v_hint v)).

(** vector.h:103-108 (_extend), for two different vectors (elems stays valid while vec0 is reallocated). *)
Definition vec_extend (v w : vec) : outcome vec :=
  l <- cells_load (v_blk w) 0 (Z.to_nat (v_n w)) ;;
  vec_append v l.

(** vector.h:109-120 (_reset). *)
Definition vec_reset (v : vec) : outcome vec :=
  if v_hint v <? v_alloced v then
    blk <- my_realloc ok esz (v_blk v) (szt (v_hint v * esz)) ;;
    Ok (mkVec blk 0 0 (v_hint v) (v_hint v))
  else Ok (mkVec (v_blk v) 0 0 (v_alloced v) (v_hint v)).

(** vector.h:121-129 (_clip). *)
Definition vec_clip (v : vec) (k : Z) : vec :=
  if k <? v_n v then mkVec (v_blk v) k k (v_alloced v) (v_hint v) else v.

(** vector.h:130-141 (_bytes, _size). *)
Definition vec_bytes (v : vec) : Z := szt (v_n v * esz).
Definition vec_size (v : vec) : Z := v_n v.

(** vector.h:142-148 (_value). *)
Definition vec_value (v : vec) (i : Z) : outcome Z :=
  if i <? v_n v then cell_load (v_blk v) i else UB AssertFail.

(** vector.h:149-160: _ptr is [v_p]; _data is [v_blk]. *)

(** vector.h:161-168 (_advance). *)
Definition vec_advance (v : vec) (x : Z) : outcome vec :=
  if szt (v_alloced v - v_n v) <? x then UB AssertFail
  else let n := szt (v_n v + x) in Ok (mkVec (v_blk v) n n (v_alloced v) (v_hint v)).

(** A client's stores: through _ptr() (e.g. ubuf.h:88) and through _data()[i]
    (e.g. wdns/str_to_rdata_ubuf.c:124, 308, 337, 905). *)
Definition vec_store_ptr (v : vec) (l : bytes) : outcome vec :=
  blk <- cells_store (v_blk v) (v_p v) l ;; Ok (mkVec blk (v_p v) (v_n v) (v_alloced v) (v_hint v)).
Definition vec_store_data (v : vec) (i : Z) (l : bytes) : outcome vec :=
  blk <- cells_store (v_blk v) i l ;; Ok (mkVec blk (v_p v) (v_n v) (v_alloced v) (v_hint v)).

(** The client idiom reserve, store through _ptr, advance. *)
Definition vec_emit (v : vec) (l : bytes) : outcome vec :=
  v <- vec_reserve v (zlen l) ;; v <- vec_store_ptr v l ;; vec_advance v (zlen l).

(** ubuf.h:52-54, 82-84: drop the last element when it is NUL. *)
Definition ubuf_unterm (v : vec) : outcome vec :=
  if 0 <? vec_size v then
    b <- vec_value v (vec_size v - 1) ;;
    Ok (if b =? 0 then vec_clip v (vec_size v - 1) else v)
  else Ok v.

(** ubuf.h:33-37 (ubuf_new). *)
Definition ubuf_new : outcome vec := vec_init 64.

(** ubuf.h:39-46 (ubuf_dup_cstr); the size_t argument is converted to unsigned. *)
Definition ubuf_dup_cstr (s : bytes) : outcome vec :=
  v <- vec_init ((zlen s + 1) mod 2 ^ 32) ;; vec_append v s.

(** ubuf.h:48-54 (ubuf_add_cstr). *)
Definition ubuf_add_cstr (v : vec) (s : bytes) : outcome vec :=
  v <- ubuf_unterm v ;; vec_append v s.

(** ubuf.h:56-64 (ubuf_cterm). *)
Definition ubuf_cterm (v : vec) : outcome vec :=
  if vec_size v =? 0 then vec_append v [0]
  else if 0 <? vec_size v then
    b <- vec_value v (vec_size v - 1) ;;
    if negb (b =? 0) then vec_append v [0] else Ok v
  else Ok v.

(** ubuf.h:66-71 (ubuf_cstr): what the returned pointer points to. *)
Definition ubuf_cstr (v : vec) : outcome (list (option Z) * vec) :=
  v <- ubuf_cterm v ;; Ok (v_blk v, v).

(** ubuf.h:73-96 (ubuf_add_fmt); [s] is the text vsnprintf produces for the format and arguments.
    vsnprintf returns an int and fails when the text is longer than INT_MAX. *)
Definition ubuf_add_fmt (v : vec) (s : bytes) : outcome vec :=
  v <- ubuf_unterm v ;;
  if 2147483647 <? zlen s then UB AssertFail else
  v <- vec_reserve v (szt (vec_size v + zlen s + 1)) ;;
  v <- vec_store_ptr v (s ++ [0]) ;;
  vec_advance v (zlen s).

(** ubuf.h:98-106 (ubuf_rstrip). *)
Definition ubuf_rstrip (v : vec) (c : Z) : outcome vec :=
  if 0 <? vec_size v then
    b <- vec_value v (vec_size v - 1) ;;
    Ok (if b =? c mod 256 then vec_clip v (vec_size v - 1) else v)
  else Ok v.

End Vec.

(** The operations of a history. *)
Inductive vop : Type :=
| Vreinit (hint : Z) | Vdetach | Vreserve (k : Z) | Vadd (a : Z) | Vappend (l : bytes) | Vreset | Vclip (k : Z)
| Vemit (l : bytes) | Vset (i : Z) (l : bytes)
| Vadd_cstr (s : bytes) | Vcterm | Vadd_fmt (s : bytes) | Vrstrip (c : Z).

Definition vstep (esz : Z) (ok : Z -> bool) (v : vec) (o : vop) : outcome vec :=
  match o with
  | Vreinit h => vec_reinit esz ok h
  | Vdetach => '(_, v') <- vec_detach esz ok v ;; Ok v'
  | Vreserve k => vec_reserve esz ok v k
  | Vadd a => vec_add esz ok v a
  | Vappend l => vec_append esz ok v l
  | Vreset => vec_reset esz ok v
  | Vclip k => Ok (vec_clip v k)
  | Vemit l => vec_emit esz ok v l
  | Vset i l => vec_store_data v i l
  | Vadd_cstr s => ubuf_add_cstr esz ok v s
  | Vcterm => ubuf_cterm esz ok v
  | Vadd_fmt s => ubuf_add_fmt esz ok v s
  | Vrstrip c => ubuf_rstrip v c
  end.

(** A history: every operation comes with the allocator's behaviour during it. *)
Fixpoint vrun (esz : Z) (v : vec) (h : list ((Z -> bool) * vop)) : outcome vec :=
  match h with
  | [] => Ok v
  | (ok, o) :: h => v' <- vstep esz ok v o ;; vrun esz v' h
  end.
