(** What a correct history of registrations and calls of exit callbacks is. *)
From Verif Require Import Prelude AtexitModel.

(** [pending l]: the callbacks registered and not yet called after the events l, the last registered first;
    None if at some point a callback is called that is not the last registered among those not called yet *)
Fixpoint replay (stk : list (nat * nat)) (l : list event) : option (list (nat * nat)) :=
  match l with
  | [] => Some stk
  | Reg fn data :: r => replay ((fn, data) :: stk) r
  | Call fn data :: r =>
      match stk with
      | (f, d) :: stk' => if (f =? fn) && (d =? data) then replay stk' r else None
      | [] => None
      end
  end.
Definition pending (l : list event) : option (list (nat * nat)) := replay [] l.

(** the number of registrations, and of calls, of a callback *)
Fixpoint regs (fn data : nat) (l : list event) : nat :=
  match l with [] => 0 | Reg f d :: r => (if (f =? fn) && (d =? data) then 1 else 0) + regs fn data r | _ :: r => regs fn data r end.
Fixpoint calls (fn data : nat) (l : list event) : nat :=
  match l with [] => 0 | Call f d :: r => (if (f =? fn) && (d =? data) then 1 else 0) + calls fn data r | _ :: r => calls fn data r end.

(** no NULL callback is registered *)
Definition nonnull (a : action) : Prop := match a with Zatexit fn _ => fn <> 0 | Catexit _ => True end.
