(** Model of the CIRCLEQ macros of compat/sys/queue.h (lines 467-573): circular queues, with every element a block in memory.
    A pointer to an element points to an element or, cast from void pointer, to the head of the queue ([ptr]); the two are never equal. Using the head as an element is undefined. Simplification: heads are not allocated and have numbers; the user's part of an element is an integer. *)
From Verif Require Import Prelude HeapModel.
Local Open Scope nat_scope.

Inductive ptr := Elm (e : nat) | Hd (q : nat).
(* queue.h:479-483 CIRCLEQ_ENTRY *)
Record node := mknode { nx : ptr; pv : ptr; data : Z }.
(* queue.h:470-474 CIRCLEQ_HEAD: first, last *)
Record mem := mkmem { heap : hp node; heads : nat -> ptr * ptr }.
Definition set_head (m : mem) (q : nat) (h : ptr * ptr) : mem := mkmem (heap m) (fun p => if Nat.eqb p q then h else heads m p).
Definition set_first (m : mem) (q : nat) (p : ptr) : mem := set_head m q (p, snd (heads m q)).
Definition set_last (m : mem) (q : nat) (p : ptr) : mem := set_head m q (fst (heads m q), p).
Definition cell (m : mem) (p : ptr) : outcome node := match p with Elm e => hget (heap m) e | Hd _ => UB end.
Definition put (m : mem) (p : ptr) (c : node) : mem := match p with Elm e => mkmem (hput (heap m) e c) (heads m) | Hd _ => m end.
Definition next_of (m : mem) (p : ptr) : outcome ptr := c <- cell m p ;; Ok (nx c).
Definition prev_of (m : mem) (p : ptr) : outcome ptr := c <- cell m p ;; Ok (pv c).
Definition set_nx (m : mem) (p n : ptr) : outcome mem := c <- cell m p ;; Ok (put m p (mknode n (pv c) (data c))).
Definition set_pv (m : mem) (p n : ptr) : outcome mem := c <- cell m p ;; Ok (put m p (mknode (nx c) n (data c))).
(* p == (void * )(head) *)
Definition is_hd (q : nat) (p : ptr) : bool := match p with Hd r => Nat.eqb r q | Elm _ => false end.

(* queue.h:488-491 CIRCLEQ_INIT (and 476-477, the static initialiser) *)
Definition c_init (m : mem) (q : nat) : mem := set_last (set_first m q (Hd q)) q (Hd q).
(* queue.h:493-501 CIRCLEQ_INSERT_AFTER *)
Definition c_insert_after (m : mem) (q l e : nat) : outcome mem :=
  n <- next_of m (Elm l) ;;
  m <- set_nx m (Elm e) n ;;
  m <- set_pv m (Elm e) (Elm l) ;;
  n <- next_of m (Elm l) ;;
  m <- (if is_hd q n then Ok (set_last m q (Elm e)) else set_pv m n (Elm e)) ;;
  set_nx m (Elm l) (Elm e).
(* queue.h:503-511 CIRCLEQ_INSERT_BEFORE *)
Definition c_insert_before (m : mem) (q l e : nat) : outcome mem :=
  m <- set_nx m (Elm e) (Elm l) ;;
  p <- prev_of m (Elm l) ;;
  m <- set_pv m (Elm e) p ;;
  p <- prev_of m (Elm l) ;;
  m <- (if is_hd q p then Ok (set_first m q (Elm e)) else set_nx m p (Elm e)) ;;
  set_pv m (Elm l) (Elm e).
(* queue.h:513-521 CIRCLEQ_INSERT_HEAD *)
Definition c_insert_head (m : mem) (q e : nat) : outcome mem :=
  m <- set_nx m (Elm e) (fst (heads m q)) ;;
  m <- set_pv m (Elm e) (Hd q) ;;
  m <- (if is_hd q (snd (heads m q)) then Ok (set_last m q (Elm e)) else set_pv m (fst (heads m q)) (Elm e)) ;;
  Ok (set_first m q (Elm e)).
(* queue.h:523-531 CIRCLEQ_INSERT_TAIL *)
Definition c_insert_tail (m : mem) (q e : nat) : outcome mem :=
  m <- set_nx m (Elm e) (Hd q) ;;
  m <- set_pv m (Elm e) (snd (heads m q)) ;;
  m <- (if is_hd q (fst (heads m q)) then Ok (set_first m q (Elm e)) else set_nx m (snd (heads m q)) (Elm e)) ;;
  Ok (set_last m q (Elm e)).
(* queue.h:533-544 CIRCLEQ_REMOVE *)
Definition c_remove (m : mem) (q e : nat) : outcome mem :=
  n <- next_of m (Elm e) ;;
  p <- prev_of m (Elm e) ;;
  m <- (if is_hd q n then Ok (set_last m q p) else set_pv m n p) ;;
  p <- prev_of m (Elm e) ;;
  n <- next_of m (Elm e) ;;
  (if is_hd q p then Ok (set_first m q n) else set_nx m p n).
(* queue.h:546-549 CIRCLEQ_FOREACH, 551-554 CIRCLEQ_FOREACH_REVERSE: the elements visited; [step] is next_of or prev_of *)
Fixpoint walk (step : mem -> ptr -> outcome ptr) (f : nat) (m : mem) (q : nat) (p : ptr) {struct f} : outcome (list ptr) :=
  match f with O => Loop | S f => if is_hd q p then Ok [] else n <- step m p ;; r <- walk step f m q n ;; Ok (p :: r) end.

Inductive call := Init (q : nat) | InsertHead (q e : nat) | InsertTail (q e : nat) | InsertAfter (q l e : nat) | InsertBefore (q l e : nat) | Remove (q e : nat)
  | Empty (q : nat) | FirstOf (q : nat) | LastOf (q : nat) | NextOf (q e : nat) | PrevOf (q e : nat) | LoopNext (q e : nat) | LoopPrev (q e : nat) | Foreach (q : nat) | ForeachReverse (q : nat).
Inductive answer := Done | Bool (b : bool) | Ptr (p : ptr) | Seen (l : list ptr).
Definition quiet (x : outcome mem) : outcome (answer * mem) := m <- x ;; Ok (Done, m).
Definition do_call (fuel : nat) (m : mem) (c : call) : outcome (answer * mem) :=
  match c with
  | Init q => Ok (Done, c_init m q)
  | InsertHead q e => quiet (c_insert_head m q e)
  | InsertTail q e => quiet (c_insert_tail m q e)
  | InsertAfter q l e => quiet (c_insert_after m q l e)
  | InsertBefore q l e => quiet (c_insert_before m q l e)
  | Remove q e => quiet (c_remove m q e)
  (* queue.h:559-563 *)
  | Empty q => Ok (Bool (is_hd q (fst (heads m q))), m)
  | FirstOf q => Ok (Ptr (fst (heads m q)), m)
  | LastOf q => Ok (Ptr (snd (heads m q)), m)
  | NextOf _ e => n <- next_of m (Elm e) ;; Ok (Ptr n, m)
  | PrevOf _ e => n <- prev_of m (Elm e) ;; Ok (Ptr n, m)
  (* queue.h:565-572 *)
  | LoopNext q e => n <- next_of m (Elm e) ;; Ok (Ptr (if is_hd q n then fst (heads m q) else n), m)
  | LoopPrev q e => n <- prev_of m (Elm e) ;; Ok (Ptr (if is_hd q n then snd (heads m q) else n), m)
  | Foreach q => l <- walk next_of fuel m q (fst (heads m q)) ;; Ok (Seen l, m)
  | ForeachReverse q => l <- walk prev_of fuel m q (snd (heads m q)) ;; Ok (Seen l, m)
  end.
Fixpoint calls (fuel : nat) (m : mem) (l : list call) : outcome (list answer * mem) :=
  match l with [] => Ok ([], m) | c :: r => ' (a, m) <- do_call fuel m c ;; ' (o, m) <- calls fuel m r ;; Ok (a :: o, m) end.
