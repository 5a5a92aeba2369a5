(** What a tail queue is for its user: the list of its entries.
    This file says what each macro of compat/sys/queue.h does to the lists, and which calls are allowed; and what the queues of a pool answer.  It does not mention links. *)
From Verif Require Import Prelude TailqModel.
Local Open Scope nat_scope.

Definition lists := nat -> list nat.
Definition set (Q : lists) (q : nat) (l : list nat) : lists := fun p => if p =? q then l else Q p.
Section N.
Variable N : nat. (* the queues are 0 to N-1 *)
Variable es : list nat. (* the program's entries *)
(* an entry of the program that is in no queue *)
Definition idle (Q : lists) (e : nat) : Prop := In e es /\ forall q, q < N -> ~ In e (Q q).
Inductive does : lists -> op -> lists -> Prop :=
| d_head Q q e : q < N -> idle Q e -> does Q (InsHead q e) (set Q q (e :: Q q))
| d_tail Q q e : q < N -> idle Q e -> does Q (InsTail q e) (set Q q (Q q ++ [e]))
| d_after Q q a e l r : q < N -> idle Q e -> Q q = l ++ a :: r -> does Q (InsAfter q a e) (set Q q (l ++ a :: e :: r))
| d_before Q q a e l r : q < N -> idle Q e -> Q q = l ++ a :: r -> does Q (InsBefore a e) (set Q q (l ++ e :: a :: r))
| d_remove Q q e l r : q < N -> Q q = l ++ e :: r -> does Q (Remove q e) (set Q q (l ++ r))
| d_concat Q p q : p < N -> q < N -> p <> q -> does Q (Concat p q) (set (set Q p (Q p ++ Q q)) q []).
Inductive history : lists -> list op -> lists -> Prop :=
| h_nil Q : history Q [] Q
| h_cons Q o Q1 l Q2 : does Q o Q1 -> history Q1 l Q2 -> history Q (o :: l) Q2.
End N.
Definition empty : lists := fun _ => [].
(* what the user sees of queue q in memory m: the list l *)
Definition shows (m : mem) (q : nat) (l : list nat) : Prop :=
  tq_empty m q = (match l with [] => true | _ => false end) /\ tq_first m q = hd 0 l /\ tq_last m q = Ok (last l 0) /\
  (forall fuel, length l < fuel -> tq_foreach fuel m (tq_first m q) = Ok l) /\
  (forall fuel e, length l < fuel -> tq_last m q = Ok e -> tq_reverse fuel m e = Ok (rev l)) /\
  (forall a e r, l = a ++ e :: r -> tq_next m e = Ok (hd 0 r) /\ tq_prev m e = Ok (last a 0)).

(** A pool: two lists of data; the calls and their answers *)
Fixpoint fifo (a b : list Z) (l : list call) : list (option Z) * (list Z * list Z) :=
  match l with
  | [] => ([], (a, b))
  | Insert 0 d :: r => fifo (a ++ [d]) b r
  | Insert _ d :: r => fifo a (b ++ [d]) r
  | Take 0 :: r => match a with [] => let (o, f) := fifo a b r in (None :: o, f) | x :: a => let (o, f) := fifo a b r in (Some x :: o, f) end
  | Take _ :: r => match b with [] => let (o, f) := fifo a b r in (None :: o, f) | x :: b => let (o, f) := fifo a b r in (Some x :: o, f) end
  end.
(* the calls are on the two queues *)
Definition two (c : call) : Prop := match c with Insert q _ => q < 2 | Take q => q < 2 end.
