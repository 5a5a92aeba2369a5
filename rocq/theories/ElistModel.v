(** Model of src/libzt/zt_list.h (intrusive circular lists), zt_stack.h and zt_queue.h on a heap.
    struct zt_elist { prev, next } (zt_list.h:20-22); addresses are naturals, NULL = 0. *)
From Verif Require Import Prelude Heap.

Record link := mklink { prev : nat; next : nat }.
Definition lmem := heap link.

(** p->next = v; and p->prev = v; *)
Definition set_next (m : lmem) (p v : nat) : outcome lmem := c <- load m p ;; store m p (mklink (prev c) v).
Definition set_prev (m : lmem) (p v : nat) : outcome lmem := c <- load m p ;; store m p (mklink v (next c)).
(* zt_list.h:36, 38 *)
Definition get_next (m : lmem) (p : nat) : outcome nat := c <- load m p ;; Ok (next c).
Definition get_prev (m : lmem) (p : nat) : outcome nat := c <- load m p ;; Ok (prev c).

(* zt_list.h:31-34 zt_elist_reset *)
Definition elist_reset (m : lmem) (p : nat) : outcome lmem := m1 <- set_prev m p p ;; set_next m1 p p.
(* zt_list.h:51-55 zt_elist_empty *)
Definition elist_empty (m : lmem) (h : nat) : outcome bool := n <- get_next m h ;; Ok (Nat.eqb n h).
(* zt_list.h:58-63 zt_elist_remove2 *)
Definition elist_remove2 (m : lmem) (p n : nat) : outcome lmem := m1 <- set_prev m n p ;; set_next m1 p n.
(* zt_list.h:65-69 zt_elist_remove *)
Definition elist_remove (m : lmem) (e : nat) : outcome lmem :=
  p <- get_prev m e ;; n <- get_next m e ;; elist_remove2 m p n.
(* zt_list.h:71-78 zt_elist_add2 *)
Definition elist_add2 (m : lmem) (e p n : nat) : outcome lmem :=
  m1 <- set_prev m n e ;; m2 <- set_next m1 e n ;; m3 <- set_prev m2 e p ;; set_next m3 p e.
(* zt_list.h:80-84 zt_elist_add *)
Definition elist_add (m : lmem) (h e : nat) : outcome lmem := n <- get_next m h ;; elist_add2 m e h n.
(* zt_list.h:86-90 zt_elist_add_tail *)
Definition elist_add_tail (m : lmem) (h e : nat) : outcome lmem := p <- get_prev m h ;; elist_add2 m e p h.
(* zt_list.h:92-104 zt_elist_join *)
Definition elist_join (m : lmem) (h l : nat) : outcome lmem :=
  first <- get_next m l ;; last <- get_prev m l ;; at_ <- get_next m h ;;
  m1 <- set_prev m first h ;; m2 <- set_next m1 h first ;;
  m3 <- set_next m2 last at_ ;; set_prev m3 at_ last.

(* zt_list.h:43-45 zt_elist_for_each; the loop body records the visited element *)
Fixpoint for_each_loop (fuel : nat) (m : lmem) (h p : nat) : outcome (list nat) :=
  match fuel with O => Loop | S f =>
    if Nat.eqb p h then Ok [] else
    n <- get_next m p ;; r <- for_each_loop f m h n ;; Ok (p :: r)
  end.
Definition elist_for_each (fuel : nat) (m : lmem) (h : nat) : outcome (list nat) :=
  p <- get_next m h ;; for_each_loop fuel m h p.
(* zt_list.h:47-49 zt_elist_for_each_safe with an arbitrary body that may change the memory *)
Fixpoint for_each_safe_loop (fuel : nat) (body : lmem -> nat -> outcome lmem) (m : lmem) (h p n : nat) : outcome (list nat * lmem) :=
  match fuel with O => Loop | S f =>
    if Nat.eqb p h then Ok ([], m) else
    m1 <- body m p ;;
    n' <- get_next m1 n ;;
    ' (r, m2) <- for_each_safe_loop f body m1 h n n' ;;
    Ok (p :: r, m2)
  end.
Definition elist_for_each_safe (fuel : nat) (body : lmem -> nat -> outcome lmem) (m : lmem) (h : nat) : outcome (list nat * lmem) :=
  p <- get_next m h ;; n <- get_next m p ;; for_each_safe_loop fuel body m h p n.

(* zt_stack.h:15-18: empty, peek, push *)
Definition stack_empty := elist_empty.
Definition stack_peek := get_next.
Definition stack_push := elist_add.
(* zt_stack.h:20-32 zt_stack_pop (0 = NULL) *)
Definition stack_pop (m : lmem) (s : nat) : outcome (nat * lmem) :=
  b <- stack_empty m s ;;
  if b then Ok (0, m) else
  e <- get_next m s ;; m1 <- elist_remove m e ;; Ok (e, m1).

(* zt_queue.h:16-19: empty, peek, enqueue *)
Definition queue_empty := elist_empty.
Definition queue_peek := get_prev.
Definition queue_enqueue := elist_add.
(* zt_queue.h:21-29 zt_queue_dequeue *)
Definition queue_dequeue (m : lmem) (q : nat) : outcome (nat * lmem) :=
  e <- get_prev m q ;; m1 <- elist_remove m e ;; Ok (e, m1).
