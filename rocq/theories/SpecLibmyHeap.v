(** SpecLibmyHeap.v: a priority queue as a bag of items. Independent of the heap. *)
From Verif Require Import Base ModelLibmyHeap.
From Coq Require Import Permutation.

(** The comparison function orders the items: "before" is a strict weak order. *)
Definition orders (cmp : Z -> Z -> Z) : Prop :=
  (forall a b, cmp a b < 0 -> 0 <= cmp b a) /\ (forall a b c, 0 <= cmp a b -> 0 <= cmp b c -> 0 <= cmp a c).
(** Nothing in the bag comes before m. *)
Definition first_of (cmp : Z -> Z -> Z) (m : Z) (bag : list Z) : Prop := In m bag /\ forall x, In x bag -> 0 <= cmp x m.

(** One call on a bag (a list up to permutation): result and new bag. *)
Inductive does (cmp : Z -> Z -> Z) : list Z -> call -> Z -> list Z -> Prop :=
| d_push : forall bag x, does cmp bag (Push x) 0 (x :: bag)
| d_pop_empty : does cmp [] Pop 0 []
| d_pop : forall bag m rest, first_of cmp m bag -> Permutation bag (m :: rest) -> does cmp bag Pop m rest
| d_replace_empty : forall x, does cmp [] (Replace x) 0 []
| d_replace : forall bag x m rest, first_of cmp m bag -> Permutation bag (m :: rest) -> does cmp bag (Replace x) m (x :: rest)
| d_peek_empty : does cmp [] Peek 0 []
| d_peek : forall bag m, first_of cmp m bag -> does cmp bag Peek m bag
| d_get : forall bag i x, 0 <= i < zlen bag -> In x bag -> does cmp bag (Get i) x bag
| d_get_out : forall bag i, zlen bag <= i -> does cmp bag (Get i) 0 bag
| d_size : forall bag, does cmp bag Size (zlen bag) bag
| d_perm : forall bag bag' c r out, Permutation bag bag' -> does cmp bag' c r out -> does cmp bag c r out.
Inductive does_all (cmp : Z -> Z -> Z) : list Z -> list call -> list Z -> list Z -> Prop :=
| da_nil : forall bag, does_all cmp bag [] [] bag
| da_cons : forall bag c r bag1 cs rs bag2, does cmp bag c r bag1 -> does_all cmp bag1 cs rs bag2 -> does_all cmp bag (c :: cs) (r :: rs) bag2.
(** The items, each not before the one in front of it. *)
Fixpoint in_order (cmp : Z -> Z -> Z) (l : list Z) : Prop := match l with [] => True | x :: l' => (forall y, In y l' -> 0 <= cmp y x) /\ in_order cmp l' end.
(** heap_get is not called while the heap is empty ([n]: the number of items), and its argument is a size_t. *)
Fixpoint gets_ok (n : Z) (cs : list call) : Prop :=
  match cs with
  | [] => True
  | Push _ :: cs => gets_ok (n + 1) cs
  | Pop :: cs => gets_ok (Z.max 0 (n - 1)) cs
  | Get i :: cs => 0 <= i < 2 ^ 64 /\ 0 < n /\ gets_ok n cs
  | _ :: cs => gets_ok n cs
  end.
