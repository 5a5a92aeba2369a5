(** Model of src/libzt/zt_tree.c, zt_tree.h.  A node is a heap cell (it is embedded in the user's structure); NULL is 0.  The state is the heap and the
    root pointer *head.  The comparison callback sees only the addresses (it reads the user's structures, which this code does not touch).
    [fuel] bounds the loops; running out of it is the outcome Loop. *)
From Verif Require Import Prelude Heap.

(* zt_tree.h:37 *)
Inductive col := red | black.
Definition is_red (c : col) : bool := match c with red => true | black => false end.
(* zt_tree.h:36-39 *)
Record node := mknode { colour : col; left : nat; right : nat; parent : nat }.
Definition nheap := heap node.

(* assignments to one member *)
Definition setc (h : nheap) (a : nat) (v : col) : outcome nheap := n <- load h a ;; store h a (mknode v (left n) (right n) (parent n)).
Definition setl (h : nheap) (a v : nat) : outcome nheap := n <- load h a ;; store h a (mknode (colour n) v (right n) (parent n)).
Definition setr (h : nheap) (a v : nat) : outcome nheap := n <- load h a ;; store h a (mknode (colour n) (left n) v (parent n)).
Definition setp (h : nheap) (a v : nat) : outcome nheap := n <- load h a ;; store h a (mknode (colour n) (left n) (right n) v).
(* zt_tree.c:52-57 zt_rbt_set_blackred *)
Definition set_blackred (h : nheap) (b r : nat) : outcome nheap := h <- setc h b black ;; setc h r red.

(* zt_tree.c:59-74 zt_rbt_rotate_left *)
Definition rotate_left (h : nheap) (head elm : nat) : outcome (nheap * nat) :=
  e <- load h elm ;; let tmp := right e in
  t <- load h tmp ;; h <- setr h elm (left t) ;;
  h <- (if left t =? 0 then Ok h else setp h (left t) elm) ;;
  e <- load h elm ;; h <- setp h tmp (parent e) ;;
  ' (h, head) <- (if parent e =? 0 then Ok (h, tmp)
                  else p <- load h (parent e) ;;
                       if elm =? left p then h <- setl h (parent e) tmp ;; Ok (h, head) else h <- setr h (parent e) tmp ;; Ok (h, head)) ;;
  h <- setl h tmp elm ;; h <- setp h elm tmp ;; Ok (h, head).
(* zt_tree.c:76-91 zt_rbt_rotate_right *)
Definition rotate_right (h : nheap) (head elm : nat) : outcome (nheap * nat) :=
  e <- load h elm ;; let tmp := left e in
  t <- load h tmp ;; h <- setl h elm (right t) ;;
  h <- (if right t =? 0 then Ok h else setp h (right t) elm) ;;
  e <- load h elm ;; h <- setp h tmp (parent e) ;;
  ' (h, head) <- (if parent e =? 0 then Ok (h, tmp)
                  else p <- load h (parent e) ;;
                       if elm =? left p then h <- setl h (parent e) tmp ;; Ok (h, head) else h <- setr h (parent e) tmp ;; Ok (h, head)) ;;
  h <- setr h tmp elm ;; h <- setp h elm tmp ;; Ok (h, head).

(* tmp && colour(tmp) == red *)
Definition red_node (h : nheap) (a : nat) : outcome bool := if a =? 0 then Ok false else n <- load h a ;; Ok (is_red (colour n)).
(* zt_tree.c:94-138 zt_rbt_insert_colour *)
Fixpoint insert_colour (fuel : nat) (h : nheap) (head elt : nat) {struct fuel} : outcome (nheap * nat) :=
  match fuel with
  | O => Loop
  | S fuel =>
      e <- load h elt ;; let par := parent e in
      b <- red_node h par ;;
      if negb b then h <- setc h head black ;; Ok (h, head)
      else
        p <- load h par ;; let gpar := parent p in
        g <- load h gpar ;;
        if par =? left g then
          let tmp := right g in
          b <- red_node h tmp ;;
          if b then h <- setc h tmp black ;; h <- set_blackred h par gpar ;; insert_colour fuel h head gpar
          else
            ' (h, head, par, elt) <- (if right p =? elt then ' (h, head) <- rotate_left h head par ;; Ok (h, head, elt, par) else Ok (h, head, par, elt)) ;;
            h <- set_blackred h par gpar ;; ' (h, head) <- rotate_right h head gpar ;; insert_colour fuel h head elt
        else
          let tmp := left g in
          b <- red_node h tmp ;;
          if b then h <- setc h tmp black ;; h <- set_blackred h par gpar ;; insert_colour fuel h head gpar
          else
            ' (h, head, par, elt) <- (if left p =? elt then ' (h, head) <- rotate_right h head par ;; Ok (h, head, elt, par) else Ok (h, head, par, elt)) ;;
            h <- set_blackred h par gpar ;; ' (h, head) <- rotate_left h head gpar ;; insert_colour fuel h head elt
  end.

(* a == NULL || colour(a) == black *)
Definition black_node (h : nheap) (a : nat) : outcome bool := b <- red_node h a ;; Ok (negb b).
(* zt_tree.c:223-225 *)
Definition blacken (h : nheap) (elm : nat) : outcome nheap := if elm =? 0 then Ok h else setc h elm black.
(* zt_tree.c:140-226 zt_rbt_remove_colour *)
Fixpoint remove_colour (fuel : nat) (h : nheap) (head par elm : nat) {struct fuel} : outcome (nheap * nat) :=
  match fuel with
  | O => Loop
  | S fuel =>
      b <- black_node h elm ;;
      if b && negb (elm =? head) then
        p <- load h par ;;
        if left p =? elm then
          let tmp := right p in
          t <- load h tmp ;;
          ' (h, head, tmp) <- (if is_red (colour t) then
                                 h <- set_blackred h tmp par ;; ' (h, head) <- rotate_left h head par ;;
                                 p <- load h par ;; _ <- guard (negb (right p =? 0)) ;; Ok (h, head, right p)
                               else Ok (h, head, tmp)) ;;
          t <- load h tmp ;;
          bl <- black_node h (left t) ;; br <- black_node h (right t) ;;
          if bl && br then
            h <- setc h tmp red ;; p <- load h par ;; remove_colour fuel h head (parent p) par
          else
            ' (h, head, tmp) <- (if br then
                                   h <- (if left t =? 0 then Ok h else setc h (left t) black) ;;
                                   h <- setc h tmp red ;; ' (h, head) <- rotate_right h head tmp ;;
                                   p <- load h par ;; Ok (h, head, right p)
                                 else Ok (h, head, tmp)) ;;
            p <- load h par ;; h <- setc h tmp (colour p) ;; h <- setc h par black ;;
            t <- load h tmp ;; h <- (if right t =? 0 then Ok h else setc h (right t) black) ;;
            ' (h, head) <- rotate_left h head par ;; h <- blacken h head ;; Ok (h, head)
        else
          let tmp := left p in
          t <- load h tmp ;;
          ' (h, head, tmp) <- (if is_red (colour t) then
                                 h <- set_blackred h tmp par ;; ' (h, head) <- rotate_right h head par ;;
                                 p <- load h par ;; _ <- guard (negb (left p =? 0)) ;; Ok (h, head, left p)
                               else Ok (h, head, tmp)) ;;
          t <- load h tmp ;;
          bl <- black_node h (left t) ;; br <- black_node h (right t) ;;
          if bl && br then
            h <- setc h tmp red ;; p <- load h par ;; remove_colour fuel h head (parent p) par
          else
            ' (h, head, tmp) <- (if bl then
                                   h <- (if right t =? 0 then Ok h else setc h (right t) black) ;;
                                   h <- setc h tmp red ;; ' (h, head) <- rotate_left h head tmp ;;
                                   p <- load h par ;; Ok (h, head, left p)
                                 else Ok (h, head, tmp)) ;;
            p <- load h par ;; h <- setc h tmp (colour p) ;; h <- setc h par black ;;
            t <- load h tmp ;; h <- (if left t =? 0 then Ok h else setc h (left t) black) ;;
            ' (h, head) <- rotate_right h head par ;; h <- blacken h head ;; Ok (h, head)
      else h <- blacken h elm ;; Ok (h, head)
  end.

(* zt_tree.c:245-248, 371-374: while (left(elm)) elm = left(elm) *)
Fixpoint leftmost (fuel : nat) (h : nheap) (elm : nat) {struct fuel} : outcome nat :=
  match fuel with O => Loop | S fuel => e <- load h elm ;; if left e =? 0 then Ok elm else leftmost fuel h (left e) end.
(* zt_tree.c:256-264, 303-311: put new in the place of old below par (or at the root) *)
Definition relink (h : nheap) (head par old new : nat) : outcome (nheap * nat) :=
  if par =? 0 then Ok (h, new)
  else p <- load h par ;; if left p =? old then h <- setl h par new ;; Ok (h, head) else h <- setr h par new ;; Ok (h, head).
(* zt_tree.c:229-317 zt_rbt_remove *)
Definition remove (fuel : nat) (h : nheap) (head old : nat) : outcome (nheap * nat * nat) :=
  e <- load h old ;;
  ' (h, head, c, par, child) <-
    (if (left e =? 0) || (right e =? 0) then
       let child := if left e =? 0 then right e else left e in
       h <- (if child =? 0 then Ok h else setp h child (parent e)) ;;
       ' (h, head) <- relink h head (parent e) old child ;;
       Ok (h, head, colour e, parent e, child)
     else
       elm <- leftmost fuel h (right e) ;;
       m <- load h elm ;;
       let child := right m in let par := parent m in let c := colour m in
       h <- (if child =? 0 then Ok h else setp h child par) ;;
       ' (h, head) <- relink h head par elm child ;;
       m <- load h elm ;; let par := if parent m =? old then elm else par in
       o <- load h old ;;
       h <- setl h elm (left o) ;; h <- setr h elm (right o) ;; h <- setp h elm (parent o) ;; h <- setc h elm (colour o) ;;
       ' (h, head) <- relink h head (parent o) old elm ;;
       o <- load h old ;;
       h <- setp h (left o) elm ;;
       h <- (if right o =? 0 then Ok h else setp h (right o) elm) ;;
       Ok (h, head, c, par, child)) ;;
  ' (h, head) <- (if is_red c then Ok (h, head) else remove_colour fuel h head par child) ;;
  Ok (h, head, old).

(* zt_tree.c:328-339: the search of zt_rbt_insert; (parent, comp, found) *)
Fixpoint descend (fuel : nat) (cmp : nat -> nat -> Z) (h : nheap) (elm tmp par : nat) (comp : Z) {struct fuel} : outcome (nat * Z * nat) :=
  match fuel with
  | O => Loop
  | S fuel =>
      if tmp =? 0 then Ok (par, comp, 0)
      else let c := cmp elm tmp in
           if (c <? 0)%Z then t <- load h tmp ;; descend fuel cmp h elm (left t) tmp c
           else if (0 <? c)%Z then t <- load h tmp ;; descend fuel cmp h elm (right t) tmp c
           else Ok (tmp, c, tmp)
  end.
(* zt_tree.c:320-354 zt_rbt_insert; the result pointer is NULL when the element was inserted *)
Definition insert (fuel : nat) (cmp : nat -> nat -> Z) (h : nheap) (head elm : nat) : outcome (nheap * nat * nat) :=
  ' (par, comp, found) <- descend fuel cmp h elm head 0 0%Z ;;
  if negb (found =? 0) then Ok (h, head, found)
  else
    h <- setp h elm par ;; h <- setr h elm 0 ;; h <- setl h elm 0 ;; h <- setc h elm red ;;
    ' (h, head) <- (if par =? 0 then Ok (h, elm) else if (comp <? 0)%Z then h <- setl h par elm ;; Ok (h, head) else h <- setr h par elm ;; Ok (h, head)) ;;
    ' (h, head) <- insert_colour fuel h head elm ;;
    Ok (h, head, 0).
(* zt_tree.c:357-375 zt_rbt_find *)
Fixpoint find_from (fuel : nat) (cmp : nat -> nat -> Z) (h : nheap) (elm tmp : nat) {struct fuel} : outcome nat :=
  match fuel with
  | O => Loop
  | S fuel =>
      if tmp =? 0 then Ok 0
      else let c := cmp elm tmp in
           if (c <? 0)%Z then t <- load h tmp ;; find_from fuel cmp h elm (left t)
           else if (0 <? c)%Z then t <- load h tmp ;; find_from fuel cmp h elm (right t)
           else Ok tmp
  end.
Definition find fuel cmp h (head elm : nat) := find_from fuel cmp h elm head.
(* zt_tree.c:378-399 zt_rbt_nfind *)
Fixpoint nfind_from (fuel : nat) (cmp : nat -> nat -> Z) (h : nheap) (elm tmp res : nat) {struct fuel} : outcome nat :=
  match fuel with
  | O => Loop
  | S fuel =>
      if tmp =? 0 then Ok res
      else let c := cmp elm tmp in
           if (c <? 0)%Z then t <- load h tmp ;; nfind_from fuel cmp h elm (left t) tmp
           else if (0 <? c)%Z then t <- load h tmp ;; nfind_from fuel cmp h elm (right t) res
           else Ok tmp
  end.
Definition nfind fuel cmp h (head elm : nat) := nfind_from fuel cmp h elm head 0.
(* zt_tree.c:413-417: climb while elm is a right child; the result is the parent then *)
Fixpoint climb (fuel : nat) (h : nheap) (elm : nat) {struct fuel} : outcome nat :=
  match fuel with
  | O => Loop
  | S fuel =>
      e <- load h elm ;;
      if parent e =? 0 then Ok (parent e) else p <- load h (parent e) ;; if elm =? right p then climb fuel h (parent e) else Ok (parent e)
  end.
(* zt_tree.c:401-420 zt_rbt_next *)
Definition next (fuel : nat) (h : nheap) (elm : nat) : outcome nat :=
  if elm =? 0 then Ok 0
  else
    e <- load h elm ;;
    if negb (right e =? 0) then leftmost fuel h (right e)
    else if parent e =? 0 then climb fuel h elm
    else p <- load h (parent e) ;; if elm =? left p then Ok (parent e) else climb fuel h elm.
(* zt_tree.c:422-437 zt_rbt_minmax *)
Fixpoint minmax_from (fuel : nat) (h : nheap) (val : Z) (tmp par : nat) {struct fuel} : outcome nat :=
  match fuel with
  | O => Loop
  | S fuel => if tmp =? 0 then Ok par else t <- load h tmp ;; minmax_from fuel h val (if (val <? 0)%Z then left t else right t) tmp
  end.
Definition minmax fuel h (head : nat) val := minmax_from fuel h val head 0.
(* zt_tree.h:69-72 zt_rbt_for_each: the addresses visited *)
Fixpoint each_from (fuel lf : nat) (h : nheap) (x : nat) {struct fuel} : outcome (list nat) :=
  match fuel with
  | O => Loop
  | S fuel => if x =? 0 then Ok [] else n <- next lf h x ;; r <- each_from fuel lf h n ;; Ok (x :: r)
  end.
Definition for_each (fuel : nat) (h : nheap) (head : nat) : outcome (list nat) := x <- minmax fuel h head (-1)%Z ;; each_from fuel fuel h x.
(* zt_tree.h:74-77 zt_rbt_for_each_safe with a body that removes the elements for which del is true *)
Fixpoint safe_from (fuel lf : nat) (del : nat -> bool) (h : nheap) (head x n : nat) {struct fuel} : outcome (nheap * nat * list nat) :=
  match fuel with
  | O => Loop
  | S fuel =>
      if x =? 0 then Ok (h, head, [])
      else
        ' (h, head) <- (if del x then ' (h, head, _) <- remove lf h head x ;; Ok (h, head) else Ok (h, head)) ;;
        n' <- (if n =? 0 then Ok 0 else next lf h n) ;;
        ' (h, head, r) <- safe_from fuel lf del h head n n' ;; Ok (h, head, x :: r)
  end.
Definition for_each_safe (fuel : nat) (del : nat -> bool) (h : nheap) (head : nat) : outcome (nheap * nat * list nat) :=
  x <- minmax fuel h head (-1)%Z ;; n <- next fuel h x ;; safe_from fuel fuel del h head x n.
(* zt_tree.h:56 zt_rbt_empty(e), e the root pointer *)
Definition empty (h : nheap) (e : nat) : outcome bool := n <- load h e ;; Ok (parent n =? 0).
