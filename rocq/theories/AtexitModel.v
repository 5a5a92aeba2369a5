(** Model of src/libzt/zt_atexit.c on top of the link heap of zt_list.h / zt_stack.h (ElistModel.v), together with the part of the C library it
    needs: atexit() and the running of the registered handlers by exit() in reverse order of registration, handlers registered meanwhile being run next.
    Simplifications: memory does not run out and atexit() always accepts; a callback may register further callbacks, with either function, but does not
    call exit() or longjmp(). *)
From Verif Require Import Prelude Heap ElistModel.

(** what the program under test does with the two registration functions *)
Inductive action :=
| Zatexit (fn data : nat)      (* zt_atexit(fn, data); fn = 0 is NULL *)
| Catexit (k : nat).           (* atexit(h_k), a handler of the program's own *)
(** what is observed: registrations and calls of the callbacks given to zt_atexit *)
Inductive event := Reg (fn data : nat) | Call (fn data : nat).
(** a handler known to the C library *)
Inductive handler := Hzt | Huser (k : nat).

(** static cb_stack (zt_atexit.c:32) is the link at address 1; [cbs] holds the fields fn and data (zt_atexit.c:25-29) of the live callbacks *)
Record state := mkstate { mem : lmem; cbs : nat -> option (nat * nat); libc : list handler; log : list event }.
Definition cb_stack := 1.
(* zt_atexit.c:32: static zt_stack(cb_stack) *)
Definition start : state := mkstate (mkheap (fun a => if Nat.eqb a 1 then Some (mklink 1 1) else None) 2) (fun _ => None) [] [].
Definition setc (f : nat -> option (nat * nat)) (a : nat) (v : option (nat * nat)) : nat -> option (nat * nat) := fun b => if Nat.eqb b a then v else f b.

(* zt_atexit.c:49-65 zt_atexit *)
Definition zt_atexit (s : state) (fn data : nat) : outcome state :=
  _ <- guard (negb (fn =? 0)) ;;
  let '(cb, m) := alloc (mem s) (mklink 0 0) in
  e <- stack_empty m cb_stack ;;
  let l := if e then Hzt :: libc s else libc s in
  m <- stack_push m cb_stack cb ;;
  Ok (mkstate m (setc (cbs s) cb (Some (fn, data))) l (log s ++ [Reg fn data])).

Definition act (s : state) (a : action) : outcome state :=
  match a with
  | Zatexit fn data => zt_atexit s fn data
  | Catexit k => Ok (mkstate (mem s) (cbs s) (Huser k :: libc s) (log s))
  end.
Fixpoint acts (s : state) (l : list action) : outcome state := match l with [] => Ok s | a :: r => s <- act s a ;; acts s r end.

(* zt_atexit.c:34-47 _atexit_call; [does fn data] is what the callback fn does when called with data *)
Fixpoint atexit_call (fuel : nat) (does : nat -> nat -> list action) (s : state) {struct fuel} : outcome state :=
  match fuel with
  | O => Loop
  | S fuel =>
      e <- stack_empty (mem s) cb_stack ;;
      if e then Ok s else
      ' (cb, m) <- stack_pop (mem s) cb_stack ;;
      match cbs s cb with
      | None => UB
      | Some (fn, data) =>
          let s := mkstate m (cbs s) (libc s) (log s) in
          if negb (cb =? 0) && negb (fn =? 0) then
            s <- acts (mkstate (mem s) (cbs s) (libc s) (log s ++ [Call fn data])) (does fn data) ;;
            m <- release (mem s) cb ;;
            atexit_call fuel does (mkstate m (setc (cbs s) cb None) (libc s) (log s))
          else atexit_call fuel does s
      end
  end.

(** exit(): the C library runs its handlers, last registered first; [huser k] is what the program's own handler k does *)
Fixpoint exit_run (fuel : nat) (does : nat -> nat -> list action) (huser : nat -> list action) (s : state) {struct fuel} : outcome state :=
  match fuel with
  | O => Loop
  | S fuel =>
      match libc s with
      | [] => Ok s
      | h :: r =>
          let s := mkstate (mem s) (cbs s) r (log s) in
          s <- match h with Hzt => atexit_call fuel does s | Huser k => acts s (huser k) end ;;
          exit_run fuel does huser s
      end
  end.

(** a whole program: the actions it performs before it exits, then exit() *)
Definition program (fuel : nat) (does : nat -> nat -> list action) (huser : nat -> list action) (l : list action) : outcome state :=
  s <- acts start l ;; exit_run fuel does huser s.
