(** What singly-linked lists are for their user: sequences of elements. *)
From Verif Require Import Prelude StailqModel.
Local Open Scope nat_scope.
Definition state := nat -> option (list nat). (* None: the head was not initialised *)
Definition set (Q : state) (q : nat) (l : list nat) : state := fun p => if p =? q then Some l else Q p.
Definition of (Q : state) (q : nat) : list nat := match Q q with Some l => l | None => [] end.
Fixpoint after (l e : nat) (L : list nat) : list nat := match L with [] => [] | x :: L => if x =? l then x :: e :: L else x :: after l e L end.
Definition without (e : nat) (L : list nat) : list nat := filter (fun x => negb (x =? e)) L.
Fixpoint next_in (e : nat) (L : list nat) : nat := match L with [] => 0 | x :: L => if x =? e then hd 0 L else next_in e L end.
(* answer and new state *)
Definition spec (Q : state) (c : call) : list nat * state :=
  match c with
  | Init q => ([], set Q q [])
  | InsertHead q e => ([], set Q q (e :: of Q q))
  | InsertTail q e => ([], set Q q (of Q q ++ [e]))
  | InsertAfter q l e => ([], set Q q (after l e (of Q q)))
  | RemoveHead q => ([], set Q q (tl (of Q q)))
  | Remove q e => ([], set Q q (without e (of Q q)))
  | Concat q r => ([], set (set Q r []) q (of Q q ++ of Q r))
  | Empty q => ([match of Q q with [] => 1 | _ => 0 end], Q)
  | FirstOf q => ([hd 0 (of Q q)], Q)
  | NextOf q e => ([next_in e (of Q q)], Q)
  | Foreach q => (of Q q, Q)
  end.
Section S.
Variable tail : bool.   (* do heads know their last element (STAILQ, SIMPLEQ) or not (SLIST) *)
Variable E : list nat.  (* the program's elements *)
Definition ready (Q : state) (q : nat) : Prop := Q q <> None.
Definition free (Q : state) (e : nat) : Prop := In e E /\ forall q, ~ In e (of Q q).
(* heads are initialised, an element that is inserted is in no list, one that is named is in the list named *)
Definition allowed (Q : state) (c : call) : Prop :=
  match c with
  | Init _ => True
  | InsertHead q e => ready Q q /\ free Q e
  | InsertTail q e => tail = true /\ ready Q q /\ free Q e
  | InsertAfter q l e => ready Q q /\ free Q e /\ In l (of Q q)
  | RemoveHead q => of Q q <> []
  | Remove q e | NextOf q e => In e (of Q q)
  | Concat q r => tail = true /\ ready Q q /\ ready Q r /\ q <> r
  | Empty q | FirstOf q | Foreach q => ready Q q
  end.
Fixpoint history (Q : state) (l : list call) : Prop := match l with [] => True | c :: r => allowed Q c /\ history (snd (spec Q c)) r end.
End S.
Fixpoint answers (Q : state) (l : list call) : list (list nat) * state := match l with [] => ([], Q) | c :: r => let (a, Q) := spec Q c in let (o, Q) := answers Q r in (a :: o, Q) end.
