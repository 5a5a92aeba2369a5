(** Model of the callback tables of src/libzt/zt_threads.c:19-262, of the return values and timeouts of zt_threads/zt_threads_pthreads.c, and of making, feeding, starting and
    stopping a pool with signalling pipes, zt_threads.c:390-600, as one thread sees it.  (The loops of the worker threads and their interleaving are in TpModel.v.)
    A function pointer is a number, 0 for NULL.  What a callback or a pthread function answers is given by [ans].
    Simplifications: one calling thread; calloc succeeds; a pipe holds at most [cap] bytes and writing to a full one blocks. *)
From Verif Require Import Prelude TimeModel.
Local Open Scope Z_scope.

Definition fn := nat.
Definition set (f : fn) : bool := negb (f =? 0)%nat.
(* zt_threads.h:20-25, 27-32, 34-41 *)
Record lock_cbs := mklock { k_alloc : fn; k_free : fn; k_lock : fn; k_unlock : fn }.
Record cond_cbs := mkcond { c_alloc : fn; c_free : fn; c_signal : fn; c_wait : fn }.
Record cntrl_cbs := mkcntrl { t_start : fn; t_end : fn; t_kill : fn; t_id : fn; t_join : fn; t_detach : fn }.
(* zt_threads.h:43-71 *)
Record pool_cbs := mkpcbs { p_iput_loop : fn; p_oput_loop : fn; p_init : fn; p_iput_worker : fn; p_oput_worker : fn; p_finalize : fn }.
Definition no_lock := mklock O O O O.
Definition no_cond := mkcond O O O O.
Definition no_cntrl := mkcntrl O O O O O O.
(** the library's own loops *)
Definition iput_loop : fn := 1%nat.
Definition oput_loop : fn := 2%nat.
(* zt_threads.c:19-33 *)
Definition pool0 := mkpcbs iput_loop oput_loop O O O O.

(* zt_threads.c:37-52 *)
Definition set_lock_callbacks (t : lock_cbs) (cbs : option lock_cbs) : Z * lock_cbs :=
  match cbs with
  | None => (0, no_lock)
  | Some c => if set (k_alloc c) && set (k_free c) && set (k_lock c) && set (k_unlock c) then (0, c) else (-1, t)
  end.
(* zt_threads.c:54-69 *)
Definition set_cond_callbacks (t : cond_cbs) (cbs : option cond_cbs) : Z * cond_cbs :=
  match cbs with
  | None => (0, no_cond)
  | Some c => if set (c_alloc c) && set (c_free c) && set (c_signal c) && set (c_wait c) then (0, c) else (-1, t)
  end.
(* zt_threads.c:71-86 *)
Definition set_cntrl_callbacks (t : cntrl_cbs) (cbs : option cntrl_cbs) : Z * cntrl_cbs :=
  match cbs with
  | None => (0, no_cntrl)
  | Some c => if set (t_start c) && set (t_end c) then (0, c) else (-1, t)
  end.
(* zt_threads.c:208-262 *)
Definition disable_iput_loop (t : pool_cbs) : pool_cbs := mkpcbs O (p_oput_loop t) (p_init t) (p_iput_worker t) (p_oput_worker t) (p_finalize t).
Definition disable_oput_loop (t : pool_cbs) : pool_cbs := mkpcbs (p_iput_loop t) O (p_init t) (p_iput_worker t) (p_oput_worker t) (p_finalize t).
Definition set_pool_callbacks (t : pool_cbs) (cbs : option pool_cbs) : Z * pool_cbs :=
  match cbs with
  | None => (0, mkpcbs iput_loop oput_loop O O O (p_finalize t))
  | Some c =>
      let pick (n o : fn) := if set n then n else o in
      (0, mkpcbs (pick (p_iput_loop c) (p_iput_loop t)) (pick (p_oput_loop c) (p_oput_loop t)) (pick (p_init c) (p_init t))
            (pick (p_iput_worker c) (p_iput_worker t)) (pick (p_oput_worker c) (p_oput_worker t)) (pick (p_finalize c) (p_finalize t)))
  end.

(** "if (cb) return cb(...); return dflt;": the result, and the callbacks called *)
Definition via (f : fn) (ans : fn -> Z) (dflt : Z) : Z * list fn := if set f then (ans f, [f]) else (dflt, []).
Inductive op := AllocLock | FreeLock | Lock | Unlock | CondAlloc | CondFree | CondSignal | CondWait | Start | End | Kill | Join | Id | Detach.
(* zt_threads.c:88-206; a function without result is given the result 0 *)
Definition call (l : lock_cbs) (c : cond_cbs) (t : cntrl_cbs) (ans : fn -> Z) (o : op) : Z * list fn :=
  match o with
  | AllocLock => via (k_alloc l) ans 0 | FreeLock => via (k_free l) (fun _ => 0) 0 | Lock => via (k_lock l) ans 0 | Unlock => via (k_unlock l) ans 0
  | CondAlloc => via (c_alloc c) ans 0 | CondFree => via (c_free c) (fun _ => 0) 0 | CondSignal => via (c_signal c) ans 0 | CondWait => via (c_wait c) ans 0
  | Start => via (t_start t) ans 0 | End => via (t_end t) (fun _ => 0) 0 | Kill => via (t_kill t) ans 0 | Join => via (t_join t) ans 0 | Id => via (t_id t) ans 0
  | Detach => via (t_detach t) ans (-1)
  end.

(** ** zt_threads_pthreads.c *)
Definition NONBLOCKING : Z := 1.
Definition ETIMEDOUT : Z := 110.
(* 38-49: which function is called; its answer is returned as it is *)
Inductive locker := Trylock | Mutexlock.
Definition pthreads_lock (mode : Z) (ans : locker -> Z) : Z := if Z.land mode NONBLOCKING =? 0 then ans Mutexlock else ans Trylock.
(* 85-99 *)
Inductive signaller := Broadcast | Signal.
Definition pthreads_cond_signal (broadcast : Z) (ans : signaller -> Z) : Z :=
  let status := if broadcast =? 0 then ans Signal else ans Broadcast in if status =? 0 then 0 else -1.
(** the answer of pthread_cond_wait, or of pthread_cond_timedwait with a deadline (seconds, nanoseconds) *)
Definition waiter := option (Z * Z) -> Z.
(* 101-137; [now] is what gettimeofday says *)
Definition pthreads_cond_wait (fuel : nat) (now : timeval) (tv : option timeval) (ans : waiter) : outcome Z :=
  match tv with
  | Some t =>
      let m : tmem := fun q => match q with O => mktv 0 0 | S O => now | _ => t end in
      m <- zt_add_time fuel m 0 1 2 ;;
      nsec <- lck (tv_usec (m 0%nat) * 1000) ;;
      let status := ans (Some (tv_sec (m 0%nat), nsec)) in
      Ok (if status =? ETIMEDOUT then 1 else if status =? 0 then 0 else -1)
  | None => let status := ans None in Ok (if status =? 0 then 0 else -1)
  end.

(** ** the pool *)
(** a signalling pipe: its two ends and the bytes waiting in it; None: -1, -1 *)
Record pipe := mkpipe { rd_end : Z; wr_end : Z; waiting : list Z }.
(** a thread slot: NULL, allocated but never started, running *)
Inductive slot := Empty | Unstarted | Running.
Record pool := mkpool { iq : list Z; oq : list Z; ipipe : option pipe; opipe : option pipe; min_threads : Z; ithreads : list slot; othreads : option (list slot); killed : bool }.
(* 562-600 zt_threadpool_init; p1, p2: what the two calls of pipe() give; the pool, and the descriptors closed.
   When pipe() fails it leaves the two numbers alone: 0 and 0, from calloc. *)
Definition pool_init (t : pool_cbs) (mint : Z) (want_i want_o : bool) (p1 p2 : option (Z * Z)) : option pool * list Z :=
  let make (pi po : option pipe) :=
    (Some (mkpool [] [] pi po mint (repeat Empty (Z.to_nat mint)) (if set (p_oput_loop t) then Some (repeat Empty (Z.to_nat mint)) else None) false), []) in
  let second pi :=
    if want_o then
      match p2 with
      | Some (r, w) => make pi (Some (mkpipe r w []))
      | None => (None, if want_i then [0; 0] else [])
      end
    else make pi None in
  if want_i then
    match p1 with
    | Some (r, w) => second (Some (mkpipe r w []))
    | None => (None, [])
    end
  else second None.

(** write(fd, &x, 1); ok = false: the call fails *)
Definition put (cap : nat) (p : option pipe) (x : Z) (ok : bool) : outcome (Z * option pipe) :=
  match p with
  | None => Ok (0, None)
  | Some q => if ok then if (length (waiting q) <? cap)%nat then Ok (0, Some (mkpipe (rd_end q) (wr_end q) (waiting q ++ [x]))) else Loop else Ok (-1, p)
  end.
(* 390-412 *)
Definition insert_iput (cap : nat) (p : pool) (d : Z) (ok : bool) : outcome (Z * pool) :=
  ' (r, q) <- put cap (ipipe p) 0 ok ;; Ok (r, mkpool (iq p ++ [d]) (oq p) q (opipe p) (min_threads p) (ithreads p) (othreads p) (killed p)).
(* 414-436 *)
Definition insert_oput (cap : nat) (p : pool) (d : Z) (ok : bool) : outcome (Z * pool) :=
  ' (r, q) <- put cap (opipe p) 0 ok ;; Ok (r, mkpool (iq p) (oq p ++ [d]) (ipipe p) q (min_threads p) (ithreads p) (othreads p) (killed p)).
(* 438-464; 0 is NULL *)
Definition get_oput (p : pool) : Z * pool :=
  match oq p with
  | [] => (0, p)
  | d :: r => (d, mkpool (iq p) r (ipipe p) (opipe p) (min_threads p) (ithreads p) (othreads p) (killed p))
  end.
(* 466-485 zt_threadpool_start; gives k: does the k-th call of zt_threads_start succeed *)
Fixpoint start_loop (n k : nat) (gives : nat -> bool) : list slot :=
  match n with O => [] | S n => (if gives k then Running else Unstarted) :: start_loop n (S k) gives end.
Definition pool_start (t : pool_cbs) (p : pool) (gives : nat -> bool) : outcome (Z * pool) :=
  let n := Z.to_nat (min_threads p) in
  let it := if set (p_iput_loop t) then start_loop n 0 gives else ithreads p in
  let k := if set (p_iput_loop t) then n else O in
  ot <- (if set (p_oput_loop t) && negb (n =? 0)%nat then match othreads p with None => UB | Some _ => Ok (Some (start_loop n k gives)) end else Ok (othreads p)) ;;
  Ok (0, mkpool (iq p) (oq p) (ipipe p) (opipe p) (min_threads p) it ot (killed p)).
(* 487-505 *)
Definition iput_fd_reader (p : pool) : Z := match ipipe p with Some q => rd_end q | None => -1 end.
Definition iput_fd_writer (p : pool) : Z := match ipipe p with Some q => wr_end q | None => -1 end.
Definition oput_fd_reader (p : pool) : Z := match opipe p with Some q => rd_end q | None => -1 end.
Definition oput_fd_writer (p : pool) : Z := match opipe p with Some q => wr_end q | None => -1 end.
(** joining: of a thread never started, or none, is undefined *)
Definition join_all (l : list slot) : outcome unit := if forallb (fun x => match x with Running => true | _ => false end) l then Ok tt else UB.
(* 507-542 zt_threadpool_kill, for threads that end; i ends as min_threads *)
Definition pool_kill (cap : nat) (t : pool_cbs) (p : pool) (ok1 ok2 : bool) : outcome (Z * pool) :=
  _ <- (if set (p_iput_loop t) then join_all (ithreads p) else Ok tt) ;;
  _ <- (if set (p_oput_loop t) then match othreads p with Some l => join_all l | None => if 0 <? min_threads p then UB else Ok tt end else Ok tt) ;;
  ' (r1, po) <- put cap (opipe p) 1 ok1 ;;
  ' (r2, pi) <- put cap (ipipe p) (Z.max 0 (min_threads p) mod 256) ok2 ;;
  Ok (if (r1 <? 0) || (r2 <? 0) then -1 else 0, mkpool (iq p) (oq p) pi po (min_threads p) (ithreads p) (othreads p) true).
