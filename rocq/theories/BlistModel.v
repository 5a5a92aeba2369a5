(** Model of the LIST macros of compat/sys/queue.h (lines 79-144): lists whose elements know their successor and the address of the pointer to them, with every element a block in memory.
    The type of le_prev is the address of a pointer to an element: lh_first of a head or le_next of an element ([slot]). Simplification: heads are not allocated and have numbers; the user's part of an element is an integer. *)
From Verif Require Import Prelude HeapModel.
Local Open Scope nat_scope.

Inductive slot := First (q : nat) | Next (e : nat).
(* queue.h:92-96 LIST_ENTRY *)
Record node := mknode { nx : nat; pv : slot; data : Z }.
(* queue.h:84-87 LIST_HEAD *)
Record mem := mkmem { heap : hp node; heads : nat -> nat }.
Definition set_head (m : mem) (q e : nat) : mem := mkmem (heap m) (fun p => if Nat.eqb p q then e else heads m p).
Definition next_of (m : mem) (e : nat) : outcome nat := c <- hget (heap m) e ;; Ok (nx c).
Definition prev_of (m : mem) (e : nat) : outcome slot := c <- hget (heap m) e ;; Ok (pv c).
Definition set_nx (m : mem) (e n : nat) : outcome mem := c <- hget (heap m) e ;; Ok (mkmem (hput (heap m) e (mknode n (pv c) (data c))) (heads m)).
Definition set_pv (m : mem) (e : nat) (s : slot) : outcome mem := c <- hget (heap m) e ;; Ok (mkmem (hput (heap m) e (mknode (nx c) s (data c))) (heads m)).
(* *s = e *)
Definition assign (m : mem) (s : slot) (e : nat) : outcome mem := match s with First q => Ok (set_head m q e) | Next f => set_nx m f e end.

(* queue.h:101-103 LIST_INIT (and 89-90, the static initialiser) *)
Definition l_init (m : mem) (q : nat) : mem := set_head m q 0.
(* queue.h:105-111 LIST_INSERT_AFTER *)
Definition l_insert_after (m : mem) (l e : nat) : outcome mem :=
  n <- next_of m l ;;
  m <- set_nx m e n ;;
  m <- (if n =? 0 then Ok m else k <- next_of m l ;; set_pv m k (Next e)) ;;
  m <- set_nx m l e ;;
  set_pv m e (Next l).
(* queue.h:113-118 LIST_INSERT_BEFORE *)
Definition l_insert_before (m : mem) (l e : nat) : outcome mem :=
  p <- prev_of m l ;;
  m <- set_pv m e p ;;
  m <- set_nx m e l ;;
  p <- prev_of m l ;;
  m <- assign m p e ;;
  set_pv m l (Next e).
(* queue.h:120-125 LIST_INSERT_HEAD *)
Definition l_insert_head (m : mem) (q e : nat) : outcome mem :=
  let f := heads m q in
  m <- set_nx m e f ;;
  m <- (if f =? 0 then Ok m else set_pv m (heads m q) (Next e)) ;;
  set_pv (set_head m q e) e (First q).
(* queue.h:127-132 LIST_REMOVE *)
Definition l_remove (m : mem) (e : nat) : outcome mem :=
  n <- next_of m e ;;
  m <- (if n =? 0 then Ok m else k <- next_of m e ;; p <- prev_of m e ;; set_pv m k p) ;;
  p <- prev_of m e ;;
  n <- next_of m e ;;
  assign m p n.
(* queue.h:134-137 LIST_FOREACH: the elements visited *)
Fixpoint walk (f : nat) (m : mem) (e : nat) {struct f} : outcome (list nat) :=
  match f with O => Loop | S f => if e =? 0 then Ok [] else n <- next_of m e ;; r <- walk f m n ;; Ok (e :: r) end.

(** [InsertAfter], [InsertBefore], [Remove] and [NextOf] say in which list the element is; the macros are not told *)
Inductive call := Init (q : nat) | InsertHead (q e : nat) | InsertAfter (q l e : nat) | InsertBefore (q l e : nat) | Remove (q e : nat)
  | Empty (q : nat) | FirstOf (q : nat) | NextOf (q e : nat) | Foreach (q : nat).
Definition quiet (x : outcome mem) : outcome (list nat * mem) := m <- x ;; Ok ([], m).
Definition do_call (fuel : nat) (m : mem) (c : call) : outcome (list nat * mem) :=
  match c with
  | Init q => Ok ([], l_init m q)
  | InsertHead q e => quiet (l_insert_head m q e)
  | InsertAfter _ l e => quiet (l_insert_after m l e)
  | InsertBefore _ l e => quiet (l_insert_before m l e)
  | Remove _ e => quiet (l_remove m e)
  (* queue.h:142-144 *)
  | Empty q => Ok ([if heads m q =? 0 then 1 else 0], m)
  | FirstOf q => Ok ([heads m q], m)
  | NextOf _ e => n <- next_of m e ;; Ok ([n], m)
  | Foreach q => l <- walk fuel m (heads m q) ;; Ok (l, m)
  end.
Fixpoint calls (fuel : nat) (m : mem) (l : list call) : outcome (list (list nat) * mem) :=
  match l with [] => Ok ([], m) | c :: r => ' (a, m) <- do_call fuel m c ;; ' (o, m) <- calls fuel m r ;; Ok (a :: o, m) end.
