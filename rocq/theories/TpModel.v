(** Model of the thread pool of src/libzt/zt_threads.c (lines 264-600) over the
    pthreads back end src/libzt/zt_threads/zt_threads_pthreads.c.

    The pool is a transition system.  One step is one shared memory action of
    one thread: a lock, an unlock, a wait, a signal, a test or an update of a
    queue under its lock, a read or write of the kill flag, the call or return
    of a user callback.  Any thread that can move may move next.

    Simplifications:
    - memory is sequentially consistent (the kill flag is a plain int written
      without the lock, zt_threads.c 520, so C11 calls it a data race);
    - calloc and pthread calls do not fail; no signalling pipes
      (zt_threadpool_init(n, m, 0, 0), so every iput_fd_sigs / oput_fd_sigs is -1);
    - the default loops run on both sides; the callbacks (iput_worker,
      oput_worker, finalize) return any value, do not call the pool themselves
      and always return; init is not modelled (it only yields init_data);
    - TAILQ from sys/queue.h is a list; entries are identified by the calloc'd
      node (a number never used before) and carry the caller's data pointer;
    - zt_threadpool_start is over: its threads are at the top of their loops
      (a thread not scheduled yet is indistinguishable from that);
    - zt_threadpool_kill is called at most once (joining twice is undefined). *)
From Coq Require Import List ZArith Bool Arith Lia.
From Verif Require Import Prelude.
Import ListNotations.

(** The two halves: input queue and output queue. zt_threads.h 79-98 *)
Inductive side := I_ | O_.

Definition side_eqb (x y : side) : bool :=
  match x, y with I_, I_ | O_, O_ => true | _, _ => false end.

(** struct zt_threadpool_entry, zt_threads.h 71-75: the node and its data *)
Record entry := mkentry { e_id : nat; e_data : Z }.

(** Where insert returns to: the client, or the input loop, which then frees
    the job [e] it had taken (zt_threads.c 380-387) *)
Inductive cont := ToClient | ToLoop (e : entry).

(** Program points. *)
Inductive pc :=
| LTop (x : side)                 (* 275-278 / 340-343: about to lock *)
| LLocked (x : side)              (* 282 / 347: holds the lock *)
| LExit (x : side)                (* 284 / 349: saw empty and kill *)
| LToWait (x : side)              (* 288 / 353: saw empty, no kill; not waiting yet *)
| LWait (x : side)                (* inside pthread_cond_wait *)
| LWoken (x : side)               (* woken, must take the lock again *)
| LReacq (x : side)               (* 289 / 354: holds the lock again *)
| LGot (x : side) (e : entry)     (* 292-306 / 357-373: entry removed *)
| LRun (x : side) (e : entry)     (* 308 / 375: lock released *)
| LIn (x : side) (e : entry)      (* 311 / 378: inside the callback *)
| LFree (x : side) (e : entry)    (* 320 / 385: about to free the entry *)
| LDone (x : side)                (* pthread_exit *)
| PLock (x : side) (e : entry) (k : cont)  (* 402 / 427 *)
| PEnq (x : side) (e : entry) (k : cont)   (* 404 / 429 *)
| PSig (x : side) (k : cont)               (* 405 / 430 *)
| PUnl (x : side) (k : cont)               (* 413 / 438 *)
| GLock                           (* 448 *)
| GDeq                            (* 451-456 *)
| GUnl (r : option entry)         (* 459 *)
| GRet (r : option entry)         (* 461-468 *)
| KSet                            (* 520 *)
| KBc (x : side)                  (* 523, 524 *)
| KJoin (j : nat)                 (* 526-534 *)
| Idle.                           (* a client between calls *)

(** What can be observed.  Newest last. *)
Inductive event :=
| EPut (t : nat) (x : side) (e : entry) (k : cont) (* entry linked at the tail;
                                               [ToLoop j]: as the output of job j *)
| ETake (t : nat) (x : side) (e : entry)    (* entry unlinked by t *)
| ECall (t : nat) (x : side) (e : entry)    (* worker callback of x entered *)
| ERet (t : nat) (x : side) (e : entry) (r : option Z)  (* ... left; None is NULL *)
| EDrop (t : nat) (x : side) (e : entry)    (* no worker callback is set *)
| EFinal (t : nat) (d : Z)                  (* finalize callback *)
| EGet (t : nat) (r : option entry)         (* get_oput returns the data of r, or NULL *)
| EFree (e : entry)                         (* free(entry) *)
| EKill                                     (* kill flag set *)
| EBcast (x : side)
| EExit (t : nat) (x : side)
| EKilled.                                  (* zt_threadpool_kill returns *)

(** queue and mutex owner of one half *)
Record half := mkhalf { h_q : list entry; h_owner : option nat }.

(** struct zt_threadpool, zt_threads.h 77-99, plus the threads themselves.
    Threads 0..n-1 run the input loop, n..2n-1 the output loop, the others are
    clients. [s_shut]: zt_threadpool_kill has been called. *)
Record st := mkst {
  s_n : nat; s_thr : list pc; s_i : half; s_o : half;
  s_kill : bool; s_shut : bool; s_next : nat; s_log : list event }.

Record cfg := mkcfg { c_iw : bool; c_ow : bool; c_fin : bool }.

Definition has_worker (c : cfg) (x : side) : bool :=
  match x with I_ => c_iw c | O_ => c_ow c end.

Definition hf (x : side) (s : st) : half :=
  match x with I_ => s_i s | O_ => s_o s end.

Definition set_half (x : side) (h : half) (s : st) : st :=
  match x with
  | I_ => mkst (s_n s) (s_thr s) h (s_o s) (s_kill s) (s_shut s) (s_next s) (s_log s)
  | O_ => mkst (s_n s) (s_thr s) (s_i s) h (s_kill s) (s_shut s) (s_next s) (s_log s)
  end.

Definition set_thr (l : list pc) (s : st) : st :=
  mkst (s_n s) l (s_i s) (s_o s) (s_kill s) (s_shut s) (s_next s) (s_log s).

Definition goto (t : nat) (p : pc) (s : st) : st := set_thr (upd (s_thr s) t p) s.

Definition emit (ev : event) (s : st) : st :=
  mkst (s_n s) (s_thr s) (s_i s) (s_o s) (s_kill s) (s_shut s) (s_next s)
       (s_log s ++ [ev]).

Definition set_q (x : side) (q : list entry) (s : st) : st :=
  set_half x (mkhalf q (h_owner (hf x s))) s.

Definition set_owner (x : side) (o : option nat) (s : st) : st :=
  set_half x (mkhalf (h_q (hf x s)) o) s.

(** pthread_mutex_lock: possible only when nobody holds it.
    zt_threads_pthreads.c 38-49 *)
Definition lock (x : side) (t : nat) (s : st) : option st :=
  match h_owner (hf x s) with
  | None => Some (set_owner x (Some t) s)
  | Some _ => None
  end.

(** pthread_mutex_unlock, zt_threads_pthreads.c 51-58 *)
Definition unlock (x : side) (s : st) : st := set_owner x None s.

(** calloc of an entry: 399-400, 424-425 *)
Definition alloc_entry (d : Z) (s : st) : entry * st :=
  (mkentry (s_next s) d,
   mkst (s_n s) (s_thr s) (s_i s) (s_o s) (s_kill s) (s_shut s) (S (s_next s)) (s_log s)).

Definition waits (x : side) (p : pc) : bool :=
  match p with LWait y => side_eqb x y | _ => false end.

(** pthread_cond_broadcast: every thread waiting on x becomes runnable *)
Definition wake_all (x : side) (l : list pc) : list pc :=
  map (fun p => if waits x p then LWoken x else p) l.

(** The thread joined at the j-th join: 526-534 joins input thread i then
    output thread i, for i = 0 .. min_threads-1 *)
Definition joined (n j : nat) : nat :=
  if Nat.even j then Nat.div2 j else n + Nat.div2 j.

(** How the environment resolves what the code leaves open. *)
Inductive choice :=
| Go                              (* carry on *)
| Spurious                        (* pthread_cond_wait returns on its own *)
| Ret (r : option Z)              (* a callback returns r *)
| Pick (w : nat)                  (* pthread_cond_signal wakes thread w *)
| CallInsert (x : side) (d : Z)   (* a client calls insert_iput / insert_oput *)
| CallGet | CallKill.

Definition step (c : cfg) (t : nat) (ch : choice) (s : st) : option st :=
  match nth_error (s_thr s) t with
  | None => None
  | Some p =>
    match p, ch with
    (* 278 / 343 *)
    | LTop x, Go =>
        match lock x t s with Some s1 => Some (goto t (LLocked x) s1) | None => None end
    (* 282-294 / 347-359 *)
    | LLocked x, Go =>
        match h_q (hf x s) with
        | [] => if s_kill s then Some (goto t (LExit x) s)
                else Some (goto t (LToWait x) s)
        | e :: r => Some (emit (ETake t x e) (goto t (LGot x e) (set_q x r s)))
        end
    (* 284-286 / 349-351 *)
    | LExit x, Go => Some (emit (EExit t x) (goto t (LDone x) (unlock x s)))
    (* 288 / 353: release the lock and wait, in one step *)
    | LToWait x, Go => Some (goto t (LWait x) (unlock x s))
    | LWait x, Spurious => Some (goto t (LWoken x) s)
    | LWoken x, Go =>
        match lock x t s with Some s1 => Some (goto t (LReacq x) s1) | None => None end
    (* 289-290 / 354-355 *)
    | LReacq x, Go => Some (goto t (LTop x) (unlock x s))
    (* 306 / 373 *)
    | LGot x e, Go => Some (goto t (LRun x e) (unlock x s))
    (* 308-311 / 375-378 *)
    | LRun x e, Go =>
        if has_worker c x then Some (emit (ECall t x e) (goto t (LIn x e) s))
        else Some (emit (EDrop t x e) (goto t (LFree x e) s))
    (* 378-383 *)
    | LIn I_ e, Ret r =>
        match r with
        | None => Some (emit (ERet t I_ e None) (goto t (LFree I_ e) s))
        | Some d =>
            let '(e2, s1) := alloc_entry d s in
            Some (emit (ERet t I_ e (Some d)) (goto t (PLock O_ e2 (ToLoop e)) s1))
        end
    (* 311-318 *)
    | LIn O_ e, Ret r =>
        let s1 := emit (ERet t O_ e r) (goto t (LFree O_ e) s) in
        match r with
        | Some d => Some (if c_fin c then emit (EFinal t d) s1 else s1)
        | None => Some s1
        end
    (* 320-322 / 385-387 *)
    | LFree x e, Go => Some (emit (EFree e) (goto t (LTop x) s))
    (* 393-416 / 418-441 *)
    | Idle, CallInsert x d =>
        let '(e, s1) := alloc_entry d s in Some (goto t (PLock x e ToClient) s1)
    | PLock x e k, Go =>
        match lock x t s with Some s1 => Some (goto t (PEnq x e k) s1) | None => None end
    | PEnq x e k, Go =>
        Some (emit (EPut t x e k) (goto t (PSig x k) (set_q x (h_q (hf x s) ++ [e]) s)))
    | PSig x k, Pick w =>
        match nth_error (s_thr s) w with
        | Some p' => if waits x p' then Some (goto t (PUnl x k) (goto w (LWoken x) s))
                     else None
        | None => None
        end
    | PSig x k, Go =>
        if existsb (waits x) (s_thr s) then None else Some (goto t (PUnl x k) s)
    | PUnl x k, Go =>
        Some (goto t (match k with ToClient => Idle | ToLoop e => LFree I_ e end)
                   (unlock x s))
    (* 443-469 *)
    | Idle, CallGet => Some (goto t GLock s)
    | GLock, Go =>
        match lock O_ t s with Some s1 => Some (goto t GDeq s1) | None => None end
    | GDeq, Go =>
        match h_q (hf O_ s) with
        | [] => Some (goto t (GUnl None) s)
        | e :: r => Some (emit (ETake t O_ e) (goto t (GUnl (Some e)) (set_q O_ r s)))
        end
    | GUnl r, Go => Some (goto t (GRet r) (unlock O_ s))
    | GRet r, Go =>
        match r with
        | None => Some (emit (EGet t None) (goto t Idle s))
        | Some e => Some (emit (EGet t (Some e)) (emit (EFree e) (goto t Idle s)))
        end
    (* 514-549 *)
    | Idle, CallKill =>
        if s_shut s then None
        else Some (mkst (s_n s) (upd (s_thr s) t KSet) (s_i s) (s_o s) (s_kill s) true
                        (s_next s) (s_log s))
    | KSet, Go =>
        Some (emit EKill
          (mkst (s_n s) (upd (s_thr s) t (KBc I_)) (s_i s) (s_o s) true (s_shut s)
                (s_next s) (s_log s)))
    | KBc x, Go =>
        Some (emit (EBcast x)
          (goto t (match x with I_ => KBc O_ | O_ => KJoin 0 end)
             (set_thr (wake_all x (s_thr s)) s)))
    | KJoin j, Go =>
        if Nat.eqb j (2 * s_n s) then Some (emit EKilled (goto t Idle s))
        else match nth_error (s_thr s) (joined (s_n s) j) with
             | Some (LDone _) => Some (goto t (KJoin (S j)) s)
             | _ => None
             end
    | _, _ => None
    end
  end.

(** zt_threadpool_init 551-600 and zt_threadpool_start 471-492, with [m] client
    threads around. *)
Definition start (n m : nat) : st :=
  mkst n (repeat (LTop I_) n ++ repeat (LTop O_) n ++ repeat Idle m)
       (mkhalf [] None) (mkhalf [] None) false false 0 [].

(** A schedule: who moves, and how the environment resolves the choice. *)
Fixpoint run (c : cfg) (l : list (nat * choice)) (s : st) : option st :=
  match l with
  | [] => Some s
  | (t, ch) :: r => match step c t ch s with Some s1 => run c r s1 | None => None end
  end.
