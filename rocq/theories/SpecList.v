(** SpecList.v: lists of elements as mathematical sequences. *)
From Verif Require Import Base ModelList.

(** [seqs l]: the elements of list [l], in order. A legal call and its result. *)
Inductive legal : (Z -> list Z) -> list_op -> (Z -> list Z) -> Prop :=
| lg_init : forall s s' l, s l = [] -> s' l = [] -> (forall k, k <> l -> s' k = s k) -> legal s (OInit l) s'
| lg_prepend : forall s s' l e, 0 < e -> (forall k, ~ In e (s k)) -> s' l = e :: s l -> (forall k, k <> l -> s' k = s k) -> legal s (OPrepend l e) s'
| lg_append : forall s s' l e, 0 < e -> (forall k, ~ In e (s k)) -> s' l = s l ++ [e] -> (forall k, k <> l -> s' k = s k) -> legal s (OAppend l e) s'
| lg_unlink : forall s s' l e a b, s l = a ++ e :: b -> s' l = a ++ b -> (forall k, k <> l -> s' k = s k) -> legal s (OUnlink l e) s'
| lg_before : forall s s' l x e a b, 0 < e -> (forall k, ~ In e (s k)) -> s l = a ++ x :: b -> s' l = a ++ e :: x :: b -> (forall k, k <> l -> s' k = s k) -> legal s (OBefore l x e) s'
| lg_after : forall s s' l x e a b, 0 < e -> (forall k, ~ In e (s k)) -> s l = a ++ x :: b -> s' l = a ++ x :: e :: b -> (forall k, k <> l -> s' k = s k) -> legal s (OAfter l x e) s'
| lg_appendlist : forall s s' l k, l <> k -> s' l = s l ++ s k -> s' k = [] -> (forall i, i <> l -> i <> k -> s' i = s i) -> legal s (OAppendList l k) s'.
Inductive history : (Z -> list Z) -> list list_op -> (Z -> list Z) -> Prop :=
| hs_nil : forall s, history s [] s
| hs_cons : forall s o s1 os s2, legal s o s1 -> history s1 os s2 -> history s (o :: os) s2.

(** Memory before the first call: all lists and links initialised. *)
Definition fresh_mem (m : dmem) : Prop := (forall l, d_head m l = 0 /\ d_tail m l = 0) /\ forall e, d_prev m e = -1 /\ d_next m e = -1.
