(** ModelSplay.v: libmy/tree.h:58-289, the splay trees. The nodes are the elements; a tree is what the left and right pointers of its root reach
    (NULL: Leaf), so the pointer assignments of one statement group are one tree construction. [cmp] is the comparison macro argument. *)
From Verif Require Import Base.

Inductive tree (A : Type) : Type := Leaf | Node (l : tree A) (x : A) (r : tree A).
Arguments Leaf {A}.
Arguments Node {A} l x r.
Fixpoint tsize {A} (t : tree A) : nat := match t with Leaf => O | Node l _ r => S (tsize l + tsize r) end.

(** The trees under construction in SPLAY, tree.h:221-222: from __node.right to __left (nodes with their left subtrees, the last linked first), and
    from __node.left to __right (nodes with their right subtrees). *)
Definition spine (A : Type) : Type := list (A * tree A).
Fixpoint hang_left {A} (s : spine A) (t : tree A) : tree A := match s with [] => t | (y, l) :: s => hang_left s (Node l y t) end.
Fixpoint hang_right {A} (s : spine A) (t : tree A) : tree A := match s with [] => t | (y, r) :: s => hang_right s (Node t y r) end.
(** SPLAY_ASSEMBLE, :106-111; it reads through the root. *)
Definition assemble {A} (t : tree A) (L R : spine A) : outcome (tree A) :=
  match t with Leaf => UB NullDeref | Node l x r => Ok (Node (hang_left L l) x (hang_right R r)) end.

(** The loop of SPLAY, :224-248; [k]: the comparison of elm with a node. SPLAY_ROTATE_*, :82-92; SPLAY_LINK*, :94-104. *)
Fixpoint splay_loop {A} (fuel : nat) (k : A -> Z) (t : tree A) (L R : spine A) : outcome (tree A) :=
  match fuel with
  | O => NoFuel
  | S fuel =>
    match t with
    | Leaf => UB NullDeref
    | Node l x r =>
        if k x =? 0 then assemble t L R
        else if k x <? 0 then
          match l with
          | Leaf => assemble t L R
          | Node ll y lr =>
              if k y <? 0 then
                match ll with
                | Leaf => assemble (Node ll y (Node lr x r)) L R
                | Node _ _ _ => splay_loop fuel k ll L ((y, Node lr x r) :: R)
                end
              else splay_loop fuel k l L ((x, r) :: R)
          end
        else
          match r with
          | Leaf => assemble t L R
          | Node rl y rr =>
              if k y >? 0 then
                match rr with
                | Leaf => assemble (Node (Node l x rl) y rr) L R
                | Node _ _ _ => splay_loop fuel k rr ((y, Node l x rl) :: L) R
                end
              else splay_loop fuel k r ((x, l) :: L) R
          end
    end
  end.
(** SPLAY, :215-250. *)
Definition splay {A} (k : A -> Z) (t : tree A) : outcome (tree A) := splay_loop (S (tsize t)) k t [] [].
(** SPLAY_MINMAX, :256-285, with __comp: the comparison with a constant result, except that 0 never ends (it is not used). *)
Definition splay_minmax {A} (val : Z) (t : tree A) : outcome (tree A) := if val =? 0 then NoFuel else splay (fun _ => val) t.

(** SPLAY_INSERT, :158-182: the existing node or NULL, and the tree. *)
Definition splay_insert {A} (cmp : A -> A -> Z) (elm : A) (t : tree A) : outcome (option A * tree A) :=
  match t with
  | Leaf => Ok (None, Node Leaf elm Leaf)
  | Node _ _ _ =>
      t <- splay (cmp elm) t ;;
      match t with
      | Leaf => UB NullDeref
      | Node l x r =>
          let c := cmp elm x in
          if c <? 0 then Ok (None, Node l elm (Node Leaf x r))
          else if c >? 0 then Ok (None, Node (Node l x Leaf) elm r)
          else Ok (Some x, t)
      end
  end.
(** SPLAY_REMOVE, :184-213: elm or NULL. *)
Definition splay_remove {A} (cmp : A -> A -> Z) (elm : A) (t : tree A) : outcome (option A * tree A) :=
  match t with
  | Leaf => Ok (None, t)
  | Node _ _ _ =>
      t <- splay (cmp elm) t ;;
      match t with
      | Leaf => UB NullDeref
      | Node l x r =>
          if cmp elm x =? 0 then
            match l with
            | Leaf => Ok (Some elm, r)
            | Node _ _ _ => l <- splay (cmp elm) l ;; match l with Leaf => UB NullDeref | Node ll y _ => Ok (Some elm, Node ll y r) end
            end
          else Ok (None, t)
      end
  end.
(** SPLAY_FIND, :122-131. *)
Definition splay_find {A} (cmp : A -> A -> Z) (elm : A) (t : tree A) : outcome (option A * tree A) :=
  match t with
  | Leaf => Ok (None, t)
  | Node _ _ _ =>
      t <- splay (cmp elm) t ;;
      match t with Leaf => UB NullDeref | Node _ x _ => if cmp elm x =? 0 then Ok (Some x, t) else Ok (None, t) end
  end.
Fixpoint leftmost {A} (t : tree A) : option A := match t with Leaf => None | Node Leaf x _ => Some x | Node l _ _ => leftmost l end.
(** SPLAY_NEXT, :133-146, for an element of the tree, which is then its root ([UB Uninit]: it is not, and its own right pointer would be followed). *)
Definition splay_next {A} (cmp : A -> A -> Z) (elm : A) (t : tree A) : outcome (option A * tree A) :=
  t <- splay (cmp elm) t ;;
  match t with Leaf => UB NullDeref | Node _ x r => if cmp elm x =? 0 then Ok (leftmost r, t) else UB Uninit end.
(** SPLAY_MIN (val = -1) and SPLAY_MAX (val = 1), :148-153, :281-284. *)
Definition splay_min_max {A} (val : Z) (t : tree A) : outcome (option A * tree A) :=
  match t with
  | Leaf => Ok (None, t)
  | Node _ _ _ => t <- splay_minmax val t ;; match t with Leaf => UB NullDeref | Node _ x _ => Ok (Some x, t) end
  end.
(** SPLAY_FOREACH, :286-289: the nodes visited. *)
Fixpoint splay_from {A} (fuel : nat) (cmp : A -> A -> Z) (x : option A) (t : tree A) : outcome (list A * tree A) :=
  match x with
  | None => Ok ([], t)
  | Some x => match fuel with
              | O => NoFuel
              | S fuel => '(n, t) <- splay_next cmp x t ;; '(l, t) <- splay_from fuel cmp n t ;; Ok (x :: l, t)
              end
  end.
Definition splay_foreach {A} (cmp : A -> A -> Z) (t : tree A) : outcome (list A * tree A) :=
  '(x, t) <- splay_min_max (-1) t ;; splay_from (tsize t) cmp x t.
