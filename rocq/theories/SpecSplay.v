(** SpecSplay.v: ordered sets as sorted lists, independently of trees. *)
From Verif Require Import Base ModelSplay.
From Coq Require Import Sorted.

(** The comparison function is consistent: a total preorder. *)
Record comparison {A : Type} (cmp : A -> A -> Z) : Prop := {
  cmp_sym : forall x y, cmp x y < 0 <-> cmp y x > 0;
  cmp_trans : forall x y z, cmp x y <= 0 -> cmp y z <= 0 -> cmp x z <= 0 }.
(** The elements of a tree from left to right. *)
Fixpoint inorder {A} (t : tree A) : list A := match t with Leaf => [] | Node l x r => inorder l ++ x :: inorder r end.
Definition sorted {A} (cmp : A -> A -> Z) (l : list A) : Prop := StronglySorted (fun x y => cmp x y < 0) l.
(** [x] put into a sorted list before the first element that is greater. *)
Fixpoint put {A} (cmp : A -> A -> Z) (x : A) (l : list A) : list A :=
  match l with [] => [x] | y :: r => if cmp x y <? 0 then x :: l else y :: put cmp x r end.
(** Without the elements equal to [x]. *)
Definition without {A} (cmp : A -> A -> Z) (x : A) (l : list A) : list A := filter (fun y => negb (cmp x y =? 0)) l.
(** The trees that can be there: any operations in any order, from the empty tree. *)
Inductive built {A} (cmp : A -> A -> Z) : tree A -> Prop :=
| b_init : built cmp Leaf
| b_insert : forall t x r t', built cmp t -> splay_insert cmp x t = Ok (r, t') -> built cmp t'
| b_remove : forall t x r t', built cmp t -> splay_remove cmp x t = Ok (r, t') -> built cmp t'
| b_find : forall t x r t', built cmp t -> splay_find cmp x t = Ok (r, t') -> built cmp t'
| b_next : forall t x r t', built cmp t -> splay_next cmp x t = Ok (r, t') -> built cmp t'
| b_min_max : forall t v r t', built cmp t -> splay_min_max v t = Ok (r, t') -> built cmp t'.
