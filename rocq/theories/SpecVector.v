(** SpecVector.v: the growable buffer as a list. *)
From Verif Require Import Base ModelVector.

(** Drop a last element satisfying [p]. *)
Definition drop_last (p : Z -> bool) (l : bytes) : bytes :=
  match rev l with b :: r => if p b then rev r else l | [] => l end.

(** The effect of each operation on the list of elements. *)
Definition lstep (l : bytes) (o : vop) : bytes :=
  match o with
  | Vreinit _ | Vdetach | Vreset => []
  | Vreserve _ => l
  | Vadd a => l ++ [a]
  | Vappend xs | Vemit xs => l ++ xs
  | Vclip k => firstn (Z.to_nat k) l
  | Vset i xs => firstn (Z.to_nat i) l ++ xs ++ skipn (Z.to_nat (i + zlen xs)) l
  | Vadd_cstr s | Vadd_fmt s => drop_last (fun b => b =? 0) l ++ s
  | Vcterm => match rev l with 0 :: _ => l | _ => l ++ [0] end
  | Vrstrip c => drop_last (fun b => b =? c mod 256) l
  end.

(** The caller's obligations: C argument types, and stores through _data() stay inside the contents. *)
Definition vop_pre (l : bytes) (o : vop) : Prop :=
  match o with
  | Vreinit h => 0 <= h < 2 ^ 32
  | Vreserve k | Vclip k => 0 <= k < 2 ^ 64
  | Vset i xs => 0 <= i /\ i + zlen xs <= zlen l
  | _ => True
  end.

(** The elements an operation needs room for (beyond those present), an upper bound. *)
Definition vop_need (l : bytes) (o : vop) : Z :=
  match o with
  | Vreserve k => zlen l + k
  | Vadd _ | Vcterm => zlen l + 1
  | Vappend xs | Vemit xs | Vadd_cstr xs => zlen l + zlen xs
  | Vadd_fmt s => 2 * zlen l + zlen s + 1
  | _ => 0
  end.

Fixpoint lrun (l : bytes) (h : list ((Z -> bool) * vop)) : bytes :=
  match h with [] => l | (_, o) :: h => lrun (lstep l o) h end.

Fixpoint vpre (l : bytes) (h : list ((Z -> bool) * vop)) : Prop :=
  match h with [] => True | (_, o) :: h => vop_pre l o /\ vpre (lstep l o) h end.

(** The buffer [v] holds the elements [l]: its block has as many cells as the recorded capacity (octet
    count below 2^63), the first cells are written and are [l], the size is the length of [l] and the
    write pointer is just after them. *)
Definition holds (esz : Z) (v : vec) (l : bytes) : Prop :=
  (exists junk, v_blk v = map Some l ++ junk) /\
  zlen (v_blk v) = v_alloced v /\ v_n v = zlen l /\ v_p v = zlen l /\
  1 <= v_hint v < 2 ^ 32 /\ 1 <= v_alloced v /\ v_alloced v * esz < 2 ^ 63.

(** No allocator serves a request of 2^63 octets or more (PTRDIFF_MAX). *)
Definition sane (ok : Z -> bool) : Prop := forall b, ok b = true -> b < 2 ^ 63.
