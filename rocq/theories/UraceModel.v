(** Model of calls of zt_uuid4 (src/libzt/zt_uuid.c) that overlap in several threads.  A step is one of: a read or write of a static, the seeding of a state, the refilling of a state, the reading of a number from a state
    (each atomic, in one global order: what a compiler and weak memory add is not modelled).  Threads are numbered, numbers are not reused. *)
From Verif Require Import Prelude RandModel UuidModel.
Local Open Scope Z_scope.

(** the thread-specific block of a thread: not yet allocated, there, freed by the destructor of the key when the thread ended (zt_uuid.c:37) *)
Inductive slot := Empty | Live (s : rstate) | Freed.
(** where a thread is in zt_uuid4; [acc] are the numbers it has got *)
Inductive pc := Idle | Check | Seed | SetFlag | Draw (acc : list Z) | Call (p : nat) (acc : list Z) | Read (p : nat) (acc : list Z).
(** the statics of zt_uuid4 (zt_uuid.c:68-69): the pointer (whose state it points to) and the flag; the blocks; the threads *)
Record sys := mksys { ptr : option nat; flag : bool; slots : nat -> slot; pcs : nat -> pc }.
Definition set {A} (f : nat -> A) (t : nat) (v : A) : nat -> A := fun u => if Nat.eqb u t then v else f u.
Definition goto (w : sys) (t : nat) (c : pc) : sys := mksys (ptr w) (flag w) (slots w) (set (pcs w) t c).
Definition put (w : sys) (p : nat) (s : rstate) : sys := mksys (ptr w) (flag w) (set (slots w) p (Live s)) (pcs w).
(** *p: undefined if the block is not there *)
Definition load (w : sys) (p : nat) : outcome rstate := match slots w p with Live s => Ok s | _ => UB end.
Definition the (p : option nat) : outcome nat := match p with Some p => Ok p | None => UB end.

(* zt_uuid.c:65-91, thread t when the time is now; the UUID when the call returns *)
Definition step (w : sys) (t : nat) (now : Z) : outcome (sys * option (list Z)) :=
  match pcs w t with
  | Idle => (* zt_uuid.c:73, 44-63: state = zt_uuid4_get_ctx() *)
      match slots w t with
      | Empty => Ok (goto (mksys (Some t) (flag w) (set (slots w) t (Live (mkr (repeat 0 624) 0 0))) (pcs w)) t Check, None)
      | Live _ => Ok (goto (mksys (Some t) (flag w) (slots w) (pcs w)) t Check, None)
      | Freed => UB
      end
  | Check => (* :75 *) Ok (goto w t (if flag w then Draw [] else Seed), None)
  | Seed => (* :76 *) p <- the (ptr w) ;; s <- load w p ;; s <- srandom s now ;; Ok (goto (put w p s) t SetFlag, None)
  | SetFlag => (* :77 *) Ok (goto (mksys (ptr w) true (slots w) (pcs w)) t (Draw []), None)
  | Draw acc => (* :80-83: the argument of zt_random_uint32 *) p <- the (ptr w) ;; Ok (goto w t (Call p acc), None)
  | Call p acc => (* zt_random.c:101-123 *) s <- load w p ;; s <- (if initialized s =? INITIALIZED then Ok s else srandom s now) ;; s <- refill s ;; Ok (goto (put w p s) t (Read p acc), None)
  | Read p acc => (* zt_random.c:125-132 *) s <- load w p ;; y <- rd (mt s) (mti s) ;;
      let w := put w p (mkr (mt s) (S (mti s)) (initialized s)) in
      match acc ++ [temper y] with
      | [v1; v2; v3; v4] => Ok (goto w t Idle, Some (stamp 4 (le4 v1 ++ le4 v2 ++ le4 v3 ++ le4 v4)))
      | acc => Ok (goto w t (Draw acc), None)
      end
  end.
(** a thread that is not in a call ends: the destructor frees its block *)
Definition exit_thread (w : sys) (t : nat) : sys := mksys (ptr w) (flag w) (match slots w t with Empty => slots w | _ => set (slots w) t Freed end) (pcs w).
Inductive act := Step (t : nat) (now : Z) | Exit (t : nat).
Fixpoint run (w : sys) (l : list act) : outcome (sys * list (nat * list Z)) :=
  match l with
  | [] => Ok (w, [])
  | Step t now :: r => ' (w, o) <- step w t now ;; ' (w, us) <- run w r ;; Ok (w, match o with Some u => (t, u) :: us | None => us end)
  | Exit t :: r => match pcs w t with Idle => run (exit_thread w t) r | _ => run w r end
  end.
Definition sys0 : sys := mksys None false (fun _ => Empty) (fun _ => Idle).
