(** ModelRb.v: libmy/tree.h:291-741, the red-black trees. A node is given by its place: the subtree below it and the path of its ancestors (what the
    parent pointers reach), so that the assignments of a rotation are one step on this place. RB_AUGMENT is the default, which does nothing. *)
From Verif Require Import Base.

Inductive color := Red | Black.
Inductive rbt (A : Type) : Type := L | N (c : color) (l : rbt A) (x : A) (r : rbt A).
Arguments L {A}.
Arguments N {A} c l x r.
(** An ancestor: we are in its left ([InL], with its right subtree) or its right subtree ([InR], with its left subtree). The parent comes first. *)
Inductive frame (A : Type) : Type := InL (c : color) (x : A) (r : rbt A) | InR (c : color) (x : A) (l : rbt A).
Arguments InL {A} c x r.
Arguments InR {A} c x l.
Definition up {A} (t : rbt A) (f : frame A) : rbt A := match f with InL c x r => N c t x r | InR c x l => N c l x t end.
Definition zip {A} (t : rbt A) (p : list (frame A)) : rbt A := fold_left up p t.
Definition fcolor {A} (f : frame A) : color := match f with InL c _ _ | InR c _ _ => c end.
(** x && RB_COLOR(x) == RB_RED. *)
Definition is_red {A} (t : rbt A) : bool := match t with N Red _ _ _ => true | _ => false end.
Definition blacken {A} (t : rbt A) : rbt A := match t with L => L | N _ l x r => N Black l x r end.

(** RB_INSERT_COLOR, tree.h:401-443, for elm = [t] with the ancestors [p]: the tree. *)
Fixpoint insert_color {A} (t : rbt A) (p : list (frame A)) : outcome (rbt A) :=
  match p with
  | [] => Ok (blacken t)
  | f :: p1 =>
    match fcolor f with
    | Black => Ok (blacken (zip t p))
    | Red =>
      match p1 with
      | [] => UB NullDeref  (* RB_LEFT(gparent) *)
      | InL _ g u :: p2 =>
          if is_red u then insert_color (N Red (match f with InL _ x r => N Black t x r | InR _ x l => N Black l x t end) g (blacken u)) p2
          else match f with
               | InR _ x l => match t with
                              | L => UB NullDeref
                              | N _ el e er => Ok (blacken (zip (N Black (N Red l x el) e (N Red er g u)) p2))
                              end
               | InL _ x r => Ok (blacken (zip (N Black t x (N Red r g u)) p2))
               end
      | InR _ g u :: p2 =>
          if is_red u then insert_color (N Red (blacken u) g (match f with InL _ x r => N Black t x r | InR _ x l => N Black l x t end)) p2
          else match f with
               | InL _ x r => match t with
                              | L => UB NullDeref
                              | N _ el e er => Ok (blacken (zip (N Black (N Red u g el) e (N Red er x r)) p2))
                              end
               | InR _ x l => Ok (blacken (zip (N Black (N Red u g l) x t) p2))
               end
      end
    end
  end.
(** RB_INSERT, :588-618: the equal node or NULL, and the tree. *)
Fixpoint insert_at {A} (cmp : A -> A -> Z) (elm : A) (t : rbt A) (p : list (frame A)) : outcome (option A * rbt A) :=
  match t with
  | L => t' <- insert_color (N Red L elm L) p ;; Ok (None, t')
  | N c l x r =>
      if cmp elm x <? 0 then insert_at cmp elm l (InL c x r :: p)
      else if cmp elm x >? 0 then insert_at cmp elm r (InR c x l :: p)
      else Ok (Some x, zip t p)
  end.
Definition rb_insert {A} (cmp : A -> A -> Z) (elm : A) (t : rbt A) : outcome (option A * rbt A) := insert_at cmp elm t [].

(** RB_REMOVE_COLOR, :445-520, for elm = [t] (possibly NULL) with the ancestors [p], of which parent is the first. *)
Fixpoint remove_color {A} (fuel : nat) (t : rbt A) (p : list (frame A)) : outcome (rbt A) :=
  match fuel with
  | O => NoFuel
  | S fuel =>
    if is_red t then Ok (zip (blacken t) p)
    else match p with
    | [] => Ok (blacken t)
    | InL cp x s :: p1 =>
        (* the sibling, after the rotation when it is red: the color of parent, the sibling, the ancestors *)
        '(cp, s, p1) <- match s with
                        | L => UB NullDeref
                        | N Red sl y sr => Ok (Red, sl, InL Black y sr :: p1)
                        | N Black _ _ _ => Ok (cp, s, p1)
                        end ;;
        match s with
        | L => UB NullDeref
        | N _ sl y sr =>
            if negb (is_red sl) && negb (is_red sr) then remove_color fuel (N cp t x (N Red sl y sr)) p1
            else
              '(sl, y, sr) <- (if negb (is_red sr) then match sl with L => UB NullDeref | N _ a z b => Ok (a, z, N Red b y sr) end else Ok (sl, y, sr)) ;;
              Ok (blacken (zip (N cp (N Black t x sl) y (blacken sr)) p1))
        end
    | InR cp x s :: p1 =>
        '(cp, s, p1) <- match s with
                        | L => UB NullDeref
                        | N Red sl y sr => Ok (Red, sr, InR Black y sl :: p1)
                        | N Black _ _ _ => Ok (cp, s, p1)
                        end ;;
        match s with
        | L => UB NullDeref
        | N _ sl y sr =>
            if negb (is_red sl) && negb (is_red sr) then remove_color fuel (N cp (N Red sl y sr) x t) p1
            else
              '(sl, y, sr) <- (if negb (is_red sl) then match sr with L => UB NullDeref | N _ a z b => Ok (N Red sl y a, z, b) end else Ok (sl, y, sr)) ;;
              Ok (blacken (zip (N cp (blacken sl) y (N Black sr x t)) p1))
        end
    end
  end.
(** :533-536, the leftmost node of the tree N c l x r: its color, the node, its right child and the ancestors up to x. *)
Fixpoint first_node {A} (c : color) (l : rbt A) (x : A) (r : rbt A) (p : list (frame A)) : color * A * rbt A * list (frame A) :=
  match l with L => (c, x, r, p) | N cl ll lx lr => first_node cl ll lx lr (InL c x r :: p) end.
Definition recolor {A} (fuel : nat) (c : color) (t : rbt A) (p : list (frame A)) : outcome (rbt A) :=
  match c with Black => remove_color fuel t p | Red => Ok (zip t p) end.
(** RB_REMOVE, :522-586, of the node N c l x r with the ancestors [p]: the tree (it returns the node x). *)
Definition rb_remove {A} (fuel : nat) (c : color) (l : rbt A) (x : A) (r : rbt A) (p : list (frame A)) : outcome (rbt A) :=
  match l, r with
  | L, _ => recolor fuel c r p
  | _, L => recolor fuel c l p
  | _, N cr rl rx rr => let '(c2, y, child, q) := first_node cr rl rx rr [] in recolor fuel c2 child (q ++ InR c y l :: p)
  end.

(** RB_FIND, :621-635; RB_NFIND, :638-656. *)
Fixpoint rb_find {A} (cmp : A -> A -> Z) (elm : A) (t : rbt A) : option A :=
  match t with L => None | N _ l x r => if cmp elm x <? 0 then rb_find cmp elm l else if cmp elm x >? 0 then rb_find cmp elm r else Some x end.
Fixpoint nfind_loop {A} (cmp : A -> A -> Z) (elm : A) (t : rbt A) (res : option A) : option A :=
  match t with L => res | N _ l x r => if cmp elm x <? 0 then nfind_loop cmp elm l (Some x) else if cmp elm x >? 0 then nfind_loop cmp elm r res else Some x end.
Definition rb_nfind {A} (cmp : A -> A -> Z) (elm : A) (t : rbt A) : option A := nfind_loop cmp elm t None.
(** RB_MINMAX, :702-715. *)
Fixpoint minmax_loop {A} (val : Z) (t : rbt A) (parent : option A) : option A :=
  match t with L => parent | N _ l x r => minmax_loop val (if val <? 0 then l else r) (Some x) end.
Definition rb_minmax {A} (val : Z) (t : rbt A) : option A := minmax_loop val t None.
(** RB_NEXT, :659-678, and RB_PREV, :681-700, of the node N c l x r with the ancestors [p]. *)
Fixpoint climb_right {A} (p : list (frame A)) : option A := match p with [] => None | InL _ x _ :: _ => Some x | InR _ _ _ :: p => climb_right p end.
Fixpoint climb_left {A} (p : list (frame A)) : option A := match p with [] => None | InR _ x _ :: _ => Some x | InL _ _ _ :: p => climb_left p end.
Definition rb_next {A} (r : rbt A) (p : list (frame A)) : option A := match r with L => climb_right p | N _ _ _ _ => minmax_loop (-1) r None end.
Definition rb_prev {A} (l : rbt A) (p : list (frame A)) : option A := match l with L => climb_left p | N _ _ _ _ => minmax_loop 1 l None end.
