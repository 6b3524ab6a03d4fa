(** SpecRb.v: red-black trees, independently of the algorithms. *)
From Verif Require Import Base ModelRb.
From Verif Require Export SpecSplay.

(** The elements from left to right. *)
Fixpoint elements {A} (t : rbt A) : list A := match t with L => [] | N _ l x r => elements l ++ x :: elements r end.
(** A subtree whose root has the color [c] (NULL is black), in which a red node has black children and every way down meets [n] black nodes. *)
Inductive colored {A} : color -> nat -> rbt A -> Prop :=
| k_leaf : colored Black 0 L
| k_red : forall n l x r, colored Black n l -> colored Black n r -> colored Red n (N Red l x r)
| k_black : forall cl cr n l x r, colored cl n l -> colored cr n r -> colored Black (S n) (N Black l x r).
Definition redblack {A} (t : rbt A) : Prop := exists n, colored Black n t.
Fixpoint height {A} (t : rbt A) : nat := match t with L => O | N _ l _ r => S (Nat.max (height l) (height r)) end.
(** The node N c l x r with the ancestors [p] is in the tree [t]. *)
Definition node_of {A} (t : rbt A) (c : color) (l : rbt A) (x : A) (r : rbt A) (p : list (frame A)) : Prop := zip (N c l x r) p = t.
(** All trees that insertions, and removals of their nodes, make from the empty tree. *)
Inductive grown {A} (cmp : A -> A -> Z) : rbt A -> Prop :=
| g_init : grown cmp L
| g_insert : forall t x o t', grown cmp t -> rb_insert cmp x t = Ok (o, t') -> grown cmp t'
| g_remove : forall t c l x r p fuel t', grown cmp t -> node_of t c l x r p -> rb_remove fuel c l x r p = Ok t' -> grown cmp t'.
