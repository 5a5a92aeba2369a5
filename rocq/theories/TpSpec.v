(** Specification vocabulary for the thread pool (C37, C38): what can be read
    off the event log, executions, and rest states. *)
From Coq Require Import List ZArith Bool Arith Lia.
From Verif Require Import Prelude TpModel.
Import ListNotations.

(** Executions: any schedule from a freshly started pool of n input and n output
    threads with m client threads. *)
Definition reachable (c : cfg) (s : st) : Prop :=
  exists n m l, run c l (start n m) = Some s.

(** ** Reading the log *)
Definition only (x y : side) {A} (a : A) : list A := if side_eqb x y then [a] else [].

(** entries put in queue x, oldest first *)
Definition puts (x : side) (l : list event) : list entry :=
  flat_map (fun ev => match ev with EPut _ y e _ => only x y e | _ => [] end) l.
(** entries removed from queue x *)
Definition takes (x : side) (l : list event) : list entry :=
  flat_map (fun ev => match ev with ETake _ y e => only x y e | _ => [] end) l.
(** entries handed to the worker callback of side x *)
Definition calls (x : side) (l : list event) : list entry :=
  flat_map (fun ev => match ev with ECall _ y e => only x y e | _ => [] end) l.
(** entries whose worker callback returned *)
Definition returns (x : side) (l : list event) : list entry :=
  flat_map (fun ev => match ev with ERet _ y e _ => only x y e | _ => [] end) l.
(** entries thrown away because no worker is set *)
Definition drops (x : side) (l : list event) : list entry :=
  flat_map (fun ev => match ev with EDrop _ y e => only x y e | _ => [] end) l.
(** entries whose data zt_threadpool_get_oput returned *)
Definition gets (l : list event) : list entry :=
  flat_map (fun ev => match ev with EGet _ (Some e) => [e] | _ => [] end) l.
Definition frees (l : list event) : list entry :=
  flat_map (fun ev => match ev with EFree e => [e] | _ => [] end) l.
(** (job, output) for each input worker that returned a non-NULL output *)
Definition produced (l : list event) : list (entry * Z) :=
  flat_map (fun ev => match ev with ERet _ I_ e (Some d) => [(e, d)] | _ => [] end) l.
(** (job, output) for each output put in the output queue by an input worker *)
Definition published (l : list event) : list (entry * Z) :=
  flat_map (fun ev => match ev with
                      | EPut _ O_ e2 (ToLoop e) => [(e, e_data e2)] | _ => [] end) l.

(** ** Reading the threads *)
(** the entry a pool thread of side x holds and has not handed over yet *)
Definition holding (x : side) (p : pc) : list entry :=
  match p with LGot y e | LRun y e => only x y e | _ => [] end.
(** the entry whose callback is running *)
Definition inside (x : side) (p : pc) : list entry :=
  match p with LIn y e => only x y e | _ => [] end.
(** the entry get_oput is about to return *)
Definition fetching (p : pc) : list entry :=
  match p with GUnl (Some e) | GRet (Some e) => [e] | _ => [] end.
(** an output on its way to the output queue *)
Definition publishing (p : pc) : list (entry * Z) :=
  match p with
  | PLock O_ e2 (ToLoop e) | PEnq O_ e2 (ToLoop e) => [(e, e_data e2)]
  | _ => [] end.
(** program points between a successful lock of x and its unlock *)
Definition in_critical (x : side) (p : pc) : bool :=
  match p with
  | LLocked y | LExit y | LToWait y | LReacq y | LGot y _
  | PEnq y _ _ | PSig y _ | PUnl y _ => side_eqb x y
  | GDeq | GUnl _ => side_eqb x O_
  | _ => false end.

Definition held (x : side) (s : st) : list entry := flat_map (holding x) (s_thr s).
Definition running (x : side) (s : st) : list entry := flat_map (inside x) (s_thr s).
Definition queue (x : side) (s : st) : list entry := h_q (hf x s).

(** ** Executions without new client calls and without spurious wake-ups *)
Definition internal (ch : choice) : bool :=
  match ch with Go | Ret _ | Pick _ => true | _ => false end.

(** Nothing more happens unless a client makes a call (or a wait returns
    spuriously): no thread can move on its own. *)
Definition at_rest (c : cfg) (s : st) : Prop :=
  forall t ch, internal ch = true -> step c t ch s = None.

(** thread indices of the two halves *)
Definition pool_thread (x : side) (s : st) (t : nat) : Prop :=
  match x with I_ => t < s_n s | O_ => s_n s <= t < 2 * s_n s end.

(** No broadcast of the shutdown reaches side x while a thread of that side has
    already looked at the flag but not yet gone to sleep. *)
Definition caught_napping (x : side) (s : st) : bool :=
  existsb (fun p => match p with LToWait y => side_eqb x y | _ => false end) (s_thr s).
Definition calm_step (t : nat) (s : st) : Prop :=
  forall x, nth_error (s_thr s) t = Some (KBc x) -> caught_napping x s = false.

Fixpoint calm (c : cfg) (l : list (nat * choice)) (s : st) : Prop :=
  match l with
  | [] => True
  | (t, ch) :: r => calm_step t s /\
                    match step c t ch s with Some s1 => calm c r s1 | None => True end
  end.
