(** Model of src/libzt/zt_log.c used by several threads (the build with HAVE_PTHREADS, CMakeLists.txt:15-16).
    A step of a thread is one access to shared memory: log_default_ptr, the mutex, a logger's fields, a print.  Steps interleave in any order; memory is sequentially consistent.
    Shared: the loggers, log_default_ptr, log_mutex, the loggers given to zt_atexit, what was printed (by which thread, on which logger).
    Of a thread alone: its debug information (zt_log.c:43-50, 72-88: pthread_getspecific; None until its first use).
    Simplifications: those of LogModel; one print is one step (stdio locks the stream); levels and options do not change; sprintf's text of the environment is the same for all calls. *)
From Verif Require Import Prelude Heap CstrModel LogModel.
Local Open Scope Z_scope.

(** the calls of a thread *)
Inductive op :=
(* [d] given: zt_log_set_debug_info before zt_log_lprintf, as in zt_log_dprintf (zt_log.h:84-89) *)
| Print (log : nat) (d : option dbg) (level : Z) (fmt : text) (args : list text)
| Logger (log : nat)
| Close (log : nat).
(** what zt_log_get_logger was called for *)
Inductive why := ForPrint (level : Z) (fmt : text) (args : list text) | ForLogger.
(** where a thread is.  Get0..Get6: in zt_log_get_logger; Set1..Set4: in zt_log_set_logger(p), called by zt_log_logger (None) or by zt_log_close of a logger;
    Pr1: at the test of zt_log_lprintf; Pr2: at that of zt_log_lvprintf; Free: in zt_log_close, at the destructor *)
Inductive pc :=
| Idle
| Get0 (w : why) | Get1 (w : why) | Get2 (w : why) | Get3 (w : why) | Get4 (w : why) | Get5 (w : why) | Get6 (w : why)
| Set1 (p : nat) (c : option nat) | Set2 (p : nat) (c : option nat) | Set3 (p last : nat) (c : option nat) | Set4 (p last : nat) (c : option nat)
| Pr1 (p : nat) (level : Z) (fmt : text) (args : list text) | Pr2 (p : nat) (level : Z) (fmt : text) (args : list text)
| Free (p : nat).
(** [todo]: the calls not yet finished; [at_]: where in the first of them; [info]: the debug information; [ran]: the calls finished and [got]: what their zt_log_logger
    returned (both only a record) *)
Record thread := mkthread { todo : list op; at_ : pc; info : option dbg; ran : list op; got : list nat }.
Record shared := mkshared { lgs : heap logger; dflt : nat; mutex : option nat; exits : list nat; out : list (nat * (nat * text)) }.
Definition set_dflt (g : shared) (p : nat) := mkshared (lgs g) p (mutex g) (exits g) (out g).
Definition set_mutex (g : shared) (m : option nat) := mkshared (lgs g) (dflt g) m (exits g) (out g).
Definition go (t : thread) (c : pc) : thread := mkthread (todo t) c (info t) (ran t) (got t).
Definition set_info (t : thread) (d : dbg) : thread := mkthread (todo t) (at_ t) (Some d) (ran t) (got t).
(** the call is over, with these results *)
Definition finish (t : thread) (res : list nat) : thread := mkthread (tl (todo t)) Idle (info t) (ran t ++ firstn 1 (todo t)) (got t ++ res).
(* zt_log.c:72-88 zt_log_get_ctx: zt_calloc at the first use *)
Definition context (t : thread) : dbg := match info t with Some d => d | None => mkdbg None 0 None end.

(** one step of thread [i]; None: it has nothing to do, or waits for the mutex *)
Definition tstep (e : env) (i : nat) (g : shared) (t : thread) : outcome (option (shared * thread)) :=
  match at_ t with
  | Idle =>
      match todo t with
      | [] => Ok None
      (* zt_log.c:224-232 zt_log_lprintf *)
      | Print log d level fmt args :: _ =>
          let t := match d with Some d => set_info t d | None => t end in
          Ok (Some (g, go t (if (log =? 0)%nat then Get0 (ForPrint level fmt args) else Pr1 log level fmt args)))
      (* zt_log.c:135-150 zt_log_logger *)
      | Logger log :: _ => Ok (Some (g, go t (if (log =? 0)%nat && (dflt g =? 0)%nat then Get0 ForLogger else Set1 log None)))
      (* zt_log.c:300-307 zt_log_close *)
      | Close log :: _ => Ok (Some (g, if (log =? 0)%nat then finish t [] else go t (if (log =? dflt g)%nat then Set1 0 (Some log) else Free log)))
      end
  (* zt_log.c:91-113 zt_log_get_logger *)
  | Get0 w => Ok (Some (g, go t (if (dflt g =? 0)%nat then Get1 w else Get6 w)))
  | Get1 w => match mutex g with None => Ok (Some (set_mutex g (Some i), go t (Get2 w))) | Some _ => Ok None end
  | Get2 w => Ok (Some (g, go t (if (dflt g =? 0)%nat then Get3 w else Get5 w)))
  | Get3 w => let (p, h) := alloc (lgs g) (mklogger Stderr WITH_LEVEL log_max) in Ok (Some (mkshared h p (mutex g) (exits g) (out g), go t (Get4 w)))
  | Get4 w => Ok (Some (mkshared (lgs g) (dflt g) (mutex g) (dflt g :: exits g) (out g), go t (Get5 w)))
  | Get5 w => Ok (Some (set_mutex g None, go t (Get6 w)))
  (* zt_log.c:112: log_default_ptr is read once more *)
  | Get6 w =>
      match w with
      | ForPrint level fmt args => Ok (Some (g, if (dflt g =? 0)%nat then finish (set_info t no_dbg) [] else go t (Pr1 (dflt g) level fmt args)))
      | ForLogger => Ok (Some (g, finish t [dflt g]))
      end
  (* zt_log.c:116-131 zt_log_set_logger *)
  | Set1 p c => match mutex g with None => Ok (Some (set_mutex g (Some i), go t (Set2 p c))) | Some _ => Ok None end
  | Set2 p c => Ok (Some (g, go t (Set3 p (dflt g) c)))
  | Set3 p last c => Ok (Some (set_dflt g p, go t (Set4 p last c)))
  | Set4 p last c => Ok (Some (set_mutex g None, match c with None => finish t [last] | Some q => go t (Free q) end))
  (* zt_log.c:232-238 *)
  | Pr1 p level fmt args =>
      l <- load (lgs g) p ;; Ok (Some (g, if l_level l <? level then finish (set_info t no_dbg) [] else go t (Pr2 p level fmt args)))
  (* zt_log.c:247-262; the text is LogModel's *)
  | Pr2 p level fmt args =>
      l <- load (lgs g) p ;;
      if l_level l <? level then Ok (Some (g, finish (set_info t no_dbg) []))
      else
        s <- print (mkstate (lgs g) (dflt g) (context t) (exits g) []) e p l level (context t) fmt args ;;
        Ok (Some (mkshared (lgs g) (dflt g) (mutex g) (exits g) (out g ++ map (fun x => (i, x)) (LogModel.out s)), finish (set_info t no_dbg) []))
  (* zt_log.c:309-311 *)
  | Free p => h <- release (lgs g) p ;; Ok (Some (mkshared h (dflt g) (mutex g) (exits g) (out g), finish t []))
  end.

Record world := mkworld { gl : shared; ths : list thread }.
(** thread [i] runs for a step, if it can *)
Definition step (e : env) (w : world) (i : nat) : outcome world :=
  match nth_error (ths w) i with
  | None => Ok w
  | Some t => r <- tstep e i (gl w) t ;; match r with None => Ok w | Some (g, t) => Ok (mkworld g (upd (ths w) i t)) end
  end.
Fixpoint run (e : env) (w : world) (sched : list nat) : outcome world :=
  match sched with [] => Ok w | i :: r => w <- step e w i ;; run e w r end.
(** the threads before any of them has run *)
Definition start (g : shared) (ps : list (list op)) : world := mkworld g (map (fun p => mkthread p Idle None [] []) ps).
