(** What circular queues are for their user: sequences of elements that can be read in both directions; past either end is the head. *)
From Verif Require Import Prelude CircleqModel.
Local Open Scope nat_scope.
Definition state := nat -> option (list nat). (* None: the head was not initialised *)
Definition set (Q : state) (q : nat) (l : list nat) : state := fun p => if p =? q then Some l else Q p.
Definition of (Q : state) (q : nat) : list nat := match Q q with Some l => l | None => [] end.
Fixpoint after (l e : nat) (L : list nat) : list nat := match L with [] => [] | x :: L => if x =? l then x :: e :: L else x :: after l e L end.
Fixpoint before (l e : nat) (L : list nat) : list nat := match L with [] => [] | x :: L => if x =? l then e :: x :: L else x :: before l e L end.
Definition without (e : nat) (L : list nat) : list nat := filter (fun x => negb (x =? e)) L.
(* the first element, d if there is none *)
Definition start (d : ptr) (L : list nat) : ptr := match L with [] => d | x :: _ => Elm x end.
(* what follows e, d if it is the last *)
Fixpoint next_in (d : ptr) (e : nat) (L : list nat) : ptr := match L with [] => d | x :: L => if x =? e then start d L else next_in d e L end.
(* answer and new state *)
Definition spec (Q : state) (c : call) : answer * state :=
  match c with
  | Init q => (Done, set Q q [])
  | InsertHead q e => (Done, set Q q (e :: of Q q))
  | InsertTail q e => (Done, set Q q (of Q q ++ [e]))
  | InsertAfter q l e => (Done, set Q q (after l e (of Q q)))
  | InsertBefore q l e => (Done, set Q q (before l e (of Q q)))
  | Remove q e => (Done, set Q q (without e (of Q q)))
  | Empty q => (Bool match of Q q with [] => true | _ => false end, Q)
  | FirstOf q => (Ptr (start (Hd q) (of Q q)), Q)
  | LastOf q => (Ptr (start (Hd q) (rev (of Q q))), Q)
  | NextOf q e => (Ptr (next_in (Hd q) e (of Q q)), Q)
  | PrevOf q e => (Ptr (next_in (Hd q) e (rev (of Q q))), Q)
  | LoopNext q e => (Ptr (next_in (start (Hd q) (of Q q)) e (of Q q)), Q)
  | LoopPrev q e => (Ptr (next_in (start (Hd q) (rev (of Q q))) e (rev (of Q q))), Q)
  | Foreach q => (Seen (map Elm (of Q q)), Q)
  | ForeachReverse q => (Seen (map Elm (rev (of Q q))), Q)
  end.
Section S.
Variable E : list nat.  (* the program's elements *)
Definition ready (Q : state) (q : nat) : Prop := Q q <> None.
Definition free (Q : state) (e : nat) : Prop := In e E /\ forall q, ~ In e (of Q q).
(* heads are initialised, an element that is inserted is in no queue, one that is named is in the queue named *)
Definition allowed (Q : state) (c : call) : Prop :=
  match c with
  | Init _ => True
  | InsertHead q e | InsertTail q e => ready Q q /\ free Q e
  | InsertAfter q l e | InsertBefore q l e => free Q e /\ In l (of Q q)
  | Remove q e | NextOf q e | PrevOf q e | LoopNext q e | LoopPrev q e => In e (of Q q)
  | Empty q | FirstOf q | LastOf q | Foreach q | ForeachReverse q => ready Q q
  end.
Fixpoint history (Q : state) (l : list call) : Prop := match l with [] => True | c :: r => allowed Q c /\ history (snd (spec Q c)) r end.
End S.
Fixpoint answers (Q : state) (l : list call) : list answer * state := match l with [] => ([], Q) | c :: r => let (a, Q) := spec Q c in let (o, Q) := answers Q r in (a :: o, Q) end.
