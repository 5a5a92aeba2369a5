(** The RB_* macros of compat/sys/tree.h:303-751, expanded for one element type.  RB_ROTATE_LEFT/RIGHT, RB_INSERT_COLOR, RB_REMOVE_COLOR, RB_REMOVE, RB_INSERT,
    RB_FIND, RB_NFIND and RB_MINMAX (tree.h:347-668, 715-727) are the text of zt_tree.c (RB_AUGMENT is empty, tree.h:342, so the walk up to the root in RB_REMOVE,
    tree.h:575-579, only reads and is left out; zt_tree.c aborts in places where the tree is corrupt) and are the definitions of RbtModel.v,
    used here as they are: in particular the elements are heap cells, NULL is 0, the head is its root pointer, the comparison sees only the addresses, and
    running out of [fuel] is Loop.  This file has what zt_tree.c does not have (RB_PREV, RB_FOREACH_REVERSE) or does differently (RB_EMPTY, RB_NEXT of NULL). *)
From Verif Require Import Prelude Heap RbtModel.

(* tree.h:698-700: while (right(elm)) elm = right(elm) *)
Fixpoint rightmost (fuel : nat) (h : nheap) (elm : nat) {struct fuel} : outcome nat :=
  match fuel with O => Loop | S fuel => e <- load h elm ;; if right e =? 0 then Ok elm else rightmost fuel h (right e) end.
(* tree.h:706-709: climb while elm is a left child; the result is the parent then *)
Fixpoint climb_left (fuel : nat) (h : nheap) (elm : nat) {struct fuel} : outcome nat :=
  match fuel with
  | O => Loop
  | S fuel =>
      e <- load h elm ;;
      if parent e =? 0 then Ok (parent e) else p <- load h (parent e) ;; if elm =? left p then climb_left fuel h (parent e) else Ok (parent e)
  end.
(* tree.h:694-713 RB_PREV *)
Definition rb_prev (fuel : nat) (h : nheap) (elm : nat) : outcome nat :=
  e <- load h elm ;;
  if negb (left e =? 0) then rightmost fuel h (left e)
  else if parent e =? 0 then climb_left fuel h elm
  else p <- load h (parent e) ;; if elm =? right p then Ok (parent e) else climb_left fuel h elm.
(* tree.h:672-691 RB_NEXT: zt_rbt_next without its test for NULL *)
Definition rb_next (fuel : nat) (h : nheap) (elm : nat) : outcome nat :=
  e <- load h elm ;;
  if negb (right e =? 0) then leftmost fuel h (right e)
  else if parent e =? 0 then climb fuel h elm
  else p <- load h (parent e) ;; if elm =? left p then Ok (parent e) else climb fuel h elm.
(* tree.h:742-745 RB_FOREACH: the addresses visited *)
Fixpoint rb_from (fuel lf : nat) (h : nheap) (x : nat) {struct fuel} : outcome (list nat) :=
  match fuel with
  | O => Loop
  | S fuel => if x =? 0 then Ok [] else n <- rb_next lf h x ;; r <- rb_from fuel lf h n ;; Ok (x :: r)
  end.
Definition rb_foreach (fuel : nat) (h : nheap) (head : nat) : outcome (list nat) := x <- minmax fuel h head (-1)%Z ;; rb_from fuel fuel h x.
(* tree.h:747-750 RB_FOREACH_REVERSE *)
Fixpoint rb_back (fuel lf : nat) (h : nheap) (x : nat) {struct fuel} : outcome (list nat) :=
  match fuel with
  | O => Loop
  | S fuel => if x =? 0 then Ok [] else n <- rb_prev lf h x ;; r <- rb_back fuel lf h n ;; Ok (x :: r)
  end.
Definition rb_foreach_reverse (fuel : nat) (h : nheap) (head : nat) : outcome (list nat) := x <- minmax fuel h head 1%Z ;; rb_back fuel fuel h x.
(* tree.h:331 RB_EMPTY *)
Definition rb_empty (head : nat) : bool := head =? 0.

(* tree.h:730-750, the interface *)
Inductive call := Insert (x : nat) | Remove (x : nat) | Find (x : nat) | Nfind (x : nat) | Next (x : nat) | Prev (x : nat) | Min | Max | Foreach | ForeachReverse | Empty.
Inductive answer := Node (a : nat) | Visited (l : list nat) | Bool (b : bool).
(* one use of a macro; the answer is its value (for the loops, the elements the body sees) *)
Definition do_call (fuel : nat) (cmp : nat -> nat -> Z) (h : nheap) (head : nat) (c : call) : outcome (nheap * nat * answer) :=
  match c with
  | Insert x => ' (h, head, r) <- insert fuel cmp h head x ;; Ok (h, head, Node r)
  | Remove x => ' (h, head, r) <- remove fuel h head x ;; Ok (h, head, Node r)
  | Find x => r <- find fuel cmp h head x ;; Ok (h, head, Node r)
  | Nfind x => r <- nfind fuel cmp h head x ;; Ok (h, head, Node r)
  | Next x => r <- rb_next fuel h x ;; Ok (h, head, Node r)
  | Prev x => r <- rb_prev fuel h x ;; Ok (h, head, Node r)
  | Min => r <- minmax fuel h head (-1)%Z ;; Ok (h, head, Node r)
  | Max => r <- minmax fuel h head 1%Z ;; Ok (h, head, Node r)
  | Foreach => r <- rb_foreach fuel h head ;; Ok (h, head, Visited r)
  | ForeachReverse => r <- rb_foreach_reverse fuel h head ;; Ok (h, head, Visited r)
  | Empty => Ok (h, head, Bool (rb_empty head))
  end.
Fixpoint do_calls (fuel : nat) (cmp : nat -> nat -> Z) (h : nheap) (head : nat) (cs : list call) {struct cs} : outcome (nheap * nat * list answer) :=
  match cs with
  | [] => Ok (h, head, [])
  | c :: cs => ' (h, head, r) <- do_call fuel cmp h head c ;; ' (h, head, rs) <- do_calls fuel cmp h head cs ;; Ok (h, head, r :: rs)
  end.
