(** Model of the tail queues of compat/sys/queue.h (TAILQ macros, lines 364-464) and of the two queues of a thread pool (zt_threads.c) on them, with every entry a block of its own.
    The type of tqh_last and tqe_prev is "address of a pointer to an entry"; such an address is tqh_first of a queue or tqe_next of an entry ([slot]).
    Simplifications: the pool's locks are TpModel's subject, here one call follows the other; calloc succeeds. *)
From Verif Require Import Prelude HeapModel.
Local Open Scope nat_scope.

Inductive slot := First (q : nat) | Next (e : nat).
(* zt_threads.h:72-76: tqe_next, tqe_prev, data *)
Record entry := mkentry { nx : nat; pv : slot; data : Z }.
(* a queue head: tqh_first, tqh_last; queues are not allocated and have numbers *)
Record mem := mkmem { heap : hp entry; heads : nat -> nat * slot }.
Definition set_head (m : mem) (q : nat) (h : nat * slot) : mem := mkmem (heap m) (fun p => if Nat.eqb p q then h else heads m p).
Definition set_last (m : mem) (q : nat) (s : slot) : mem := set_head m q (fst (heads m q), s).
Definition set_first (m : mem) (q : nat) (e : nat) : mem := set_head m q (e, snd (heads m q)).
Definition get (m : mem) (e : nat) : outcome entry := hget (heap m) e.
Definition set_nx (m : mem) (e n : nat) : outcome mem := c <- get m e ;; Ok (mkmem (hput (heap m) e (mkentry n (pv c) (data c))) (heads m)).
Definition set_pv (m : mem) (e : nat) (s : slot) : outcome mem := c <- get m e ;; Ok (mkmem (hput (heap m) e (mkentry (nx c) s (data c))) (heads m)).
(* *s and *s = e *)
Definition deref (m : mem) (s : slot) : outcome nat := match s with First q => Ok (fst (heads m q)) | Next e => c <- get m e ;; Ok (nx c) end.
Definition assign (m : mem) (s : slot) (e : nat) : outcome mem := match s with First q => Ok (set_first m q e) | Next f => set_nx m f e end.
(* ((struct headname * )s)->tqh_last: the two links of an entry lie as the two of a head *)
Definition pun (m : mem) (s : slot) : outcome slot := match s with First q => Ok (snd (heads m q)) | Next e => c <- get m e ;; Ok (pv c) end.

(* queue.h:387-390 *)
Definition tq_init (m : mem) (q : nat) : mem := set_head m q (0, First q).
(* queue.h:392-400 *)
Definition tq_insert_head (m : mem) (q e : nat) : outcome mem :=
  let f := fst (heads m q) in
  m <- set_nx m e f ;;
  m <- (if f =? 0 then Ok (set_last m q (Next e)) else set_pv m f (Next e)) ;;
  set_pv (set_first m q e) e (First q).
(* queue.h:402-407 *)
Definition tq_insert_tail (m : mem) (q e : nat) : outcome mem :=
  m <- set_nx m e 0 ;;
  m <- set_pv m e (snd (heads m q)) ;;
  m <- assign m (snd (heads m q)) e ;;
  Ok (set_last m q (Next e)).
(* queue.h:409-417 *)
Definition tq_insert_after (m : mem) (q l e : nat) : outcome mem :=
  c <- get m l ;;
  m <- set_nx m e (nx c) ;;
  m <- (if nx c =? 0 then Ok (set_last m q (Next e)) else set_pv m (nx c) (Next e)) ;;
  m <- set_nx m l e ;;
  set_pv m e (Next l).
(* queue.h:419-424 *)
Definition tq_insert_before (m : mem) (l e : nat) : outcome mem :=
  c <- get m l ;;
  m <- set_pv m e (pv c) ;;
  m <- set_nx m e l ;;
  c <- get m l ;;
  m <- assign m (pv c) e ;;
  set_pv m l (Next e).
(* queue.h:426-433 *)
Definition tq_remove (m : mem) (q e : nat) : outcome mem :=
  c <- get m e ;;
  m <- (if nx c =? 0 then Ok (set_last m q (pv c)) else set_pv m (nx c) (pv c)) ;;
  c <- get m e ;;
  assign m (pv c) (nx c).
(* queue.h:445-452 *)
Definition tq_concat (m : mem) (q r : nat) : outcome mem :=
  let f := fst (heads m r) in
  if f =? 0 then Ok m else
  m <- assign m (snd (heads m q)) f ;;
  m <- set_pv m (fst (heads m r)) (snd (heads m q)) ;;
  Ok (tq_init (set_last m q (snd (heads m r))) r).
(* queue.h:457-464 *)
Definition tq_empty (m : mem) (q : nat) : bool := fst (heads m q) =? 0.
Definition tq_first (m : mem) (q : nat) : nat := fst (heads m q).
Definition tq_next (m : mem) (e : nat) : outcome nat := c <- get m e ;; Ok (nx c).
Definition tq_last (m : mem) (q : nat) : outcome nat := s <- pun m (snd (heads m q)) ;; deref m s.
Definition tq_prev (m : mem) (e : nat) : outcome nat := c <- get m e ;; s <- pun m (pv c) ;; deref m s.
(* queue.h:435-438 TAILQ_FOREACH, 440-443 TAILQ_FOREACH_REVERSE: the entries visited *)
Fixpoint tq_foreach (fuel : nat) (m : mem) (e : nat) : outcome (list nat) := match fuel with O => Loop | S f => if e =? 0 then Ok [] else n <- tq_next m e ;; r <- tq_foreach f m n ;; Ok (e :: r) end.
Fixpoint tq_reverse (fuel : nat) (m : mem) (e : nat) : outcome (list nat) := match fuel with O => Loop | S f => if e =? 0 then Ok [] else n <- tq_prev m e ;; r <- tq_reverse f m n ;; Ok (e :: r) end.

(** ** A program that uses the macros on queues 0 to N-1 *)
Inductive op := InsHead (q e : nat) | InsTail (q e : nat) | InsAfter (q a e : nat) | InsBefore (a e : nat) | Remove (q e : nat) | Concat (q r : nat).
Definition exec (m : mem) (o : op) : outcome mem :=
  match o with
  | InsHead q e => tq_insert_head m q e | InsTail q e => tq_insert_tail m q e | InsAfter q a e => tq_insert_after m q a e
  | InsBefore a e => tq_insert_before m a e | Remove q e => tq_remove m q e | Concat q r => tq_concat m q r
  end.
Fixpoint execs (m : mem) (l : list op) : outcome mem := match l with [] => Ok m | o :: r => m <- exec m o ;; execs m r end.
(* TAILQ_INIT of every queue *)
Fixpoint inits (n : nat) (m : mem) : mem := match n with O => m | S k => tq_init (inits k m) k end.
(* the caller's entries, from calloc, with their data *)
Fixpoint entries (pick : nat -> list nat -> nat) (h : hp entry) (vs : list Z) : list nat * hp entry :=
  match vs with [] => ([], h) | v :: r => let (e, h) := hnew pick h (mkentry 0 (First 0) v) in let (es, h) := entries pick h r in (e :: es, h) end.

(** ** The queues of a pool: 0 is iput_queue, 1 oput_queue *)
(* zt_threads.c:596-597 *)
Definition pool_start : mem := tq_init (tq_init (mkmem (mkhp [] 0) (fun _ => (0, First 0))) 0) 1.
(* zt_threads.c:399-404, 424-429 zt_threadpool_insert_iput, zt_threadpool_insert_oput *)
Definition insert (pick : nat -> list nat -> nat) (m : mem) (q : nat) (d : Z) : outcome mem :=
  let (e, h) := hnew pick (heap m) (mkentry 0 (First 0) d) in tq_insert_tail (mkmem h (heads m)) q e.
(* zt_threads.c:282-322, 347-387: what a loop takes, and the free when the worker is done (one step here); 438-464 zt_threadpool_get_oput; None: the queue is empty *)
Definition take (m : mem) (q : nat) : outcome (option Z * mem) :=
  if tq_empty m q then Ok (None, m) else
  let e := tq_first m q in
  m <- tq_remove m q e ;;
  c <- get m e ;;
  h <- hfree (heap m) e ;;
  Ok (Some (data c), mkmem h (heads m)).
(* the calls of the threads, one after the other *)
Inductive call := Insert (q : nat) (d : Z) | Take (q : nat).
Fixpoint calls (pick : nat -> list nat -> nat) (m : mem) (l : list call) : outcome (list (option Z) * mem) :=
  match l with
  | [] => Ok ([], m)
  | Insert q d :: r => m <- insert pick m q d ;; calls pick m r
  | Take q :: r => ' (x, m) <- take m q ;; ' (xs, m) <- calls pick m r ;; Ok (x :: xs, m)
  end.
