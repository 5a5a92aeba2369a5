(** Model of zt_atexit (src/libzt/zt_atexit.c) called by several threads: cb_stack is not protected by a lock (the FIXME at zt_atexit.c:31).
    A step of a thread is one access to shared memory; steps interleave in any order; memory is sequentially consistent.
    Simplifications: those of AtexitModel; calloc and atexit lock for themselves, so each is one step; a thread's writes to its new callback before that is linked (zt_atexit.c:61-62) are made together with the
    next step. *)
From Verif Require Import Prelude Heap ElistModel AtexitModel.

(** where a thread is in zt_atexit(fn, data), with its new callback [cb] and the [n] it read from cb_stack.next *)
Inductive pc :=
| Idle
| Check (cb : nat) | Register (cb : nat) | Read (cb : nat)
| Link1 (cb n : nat) | Link2 (cb n : nat) | Link3 (cb n : nat) | Link4 (cb n : nat).
(** [todo]: the calls (fn, data) not yet finished; [at_]: where in the first of them *)
Record thread := mkthread { todo : list (nat * nat); at_ : pc }.
Record world := mkworld { st : state; ths : list thread }.

(** one step of a thread *)
Definition tstep (s : state) (t : thread) : outcome (state * thread) :=
  match todo t with
  | [] => Ok (s, t)
  | (fn, data) :: r =>
      match at_ t with
      (* zt_atexit.c:53-55 *)
      | Idle => _ <- guard (negb (fn =? 0)) ;; let (cb, m) := alloc (mem s) (mklink 0 0) in Ok (mkstate m (cbs s) (libc s) (log s), mkthread (todo t) (Check cb))
      (* zt_atexit.c:57-59 *)
      | Check cb => e <- stack_empty (mem s) cb_stack ;; Ok (s, mkthread (todo t) (if e : bool then Register cb else Read cb))
      | Register cb => Ok (mkstate (mem s) (cbs s) (Hzt :: libc s) (log s), mkthread (todo t) (Read cb))
      (* zt_atexit.c:61-64; zt_list.h:83: head->next is read, then the four writes of zt_list.h:74-77 *)
      | Read cb => n <- get_next (mem s) cb_stack ;; Ok (mkstate (mem s) (setc (cbs s) cb (Some (fn, data))) (libc s) (log s), mkthread (todo t) (Link1 cb n))
      | Link1 cb n => m <- set_prev (mem s) n cb ;; Ok (mkstate m (cbs s) (libc s) (log s), mkthread (todo t) (Link2 cb n))
      | Link2 cb n => m <- set_next (mem s) cb n ;; Ok (mkstate m (cbs s) (libc s) (log s), mkthread (todo t) (Link3 cb n))
      | Link3 cb n => m <- set_prev (mem s) cb cb_stack ;; Ok (mkstate m (cbs s) (libc s) (log s), mkthread (todo t) (Link4 cb n))
      | Link4 cb n => m <- set_next (mem s) cb_stack cb ;; Ok (mkstate m (cbs s) (libc s) (log s ++ [Reg fn data]), mkthread r Idle)
      end
  end.
(** thread [i] runs for a step *)
Definition step (w : world) (i : nat) : outcome world :=
  match nth_error (ths w) i with
  | None => Ok w
  | Some t => ' (s, t) <- tstep (st w) t ;; Ok (mkworld s (upd (ths w) i t))
  end.
Fixpoint run (w : world) (sched : list nat) : outcome world := match sched with [] => Ok w | i :: r => w <- step w i ;; run w r end.
(** every thread with the registrations it will make *)
Definition begin (ps : list (list (nat * nat))) : world := mkworld start (map (fun p => mkthread p Idle) ps).
(** exit, with callbacks that register nothing *)
Definition exits (fuel : nat) (s : state) : outcome state := exit_run fuel (fun _ _ => []) (fun _ => []) s.
