(** What is seen of zt_atexit in several threads, independently of the model's steps. *)
From Verif Require Import Prelude AtexitModel.
(** the callbacks whose registration returned, in the order in which that happened *)
Definition registered (l : list event) : list (nat * nat) := flat_map (fun e => match e with Reg f d => [(f, d)] | Call _ _ => [] end) l.
(** the callbacks called at exit, in the order of the calls *)
Definition called (l : list event) : list (nat * nat) := flat_map (fun e => match e with Call f d => [(f, d)] | Reg _ _ => [] end) l.
(** [a] is [b] without some of its elements: same order, none twice that is there once *)
Inductive sub {A} : list A -> list A -> Prop :=
| sub_nil : sub [] []
| sub_keep x a b : sub a b -> sub (x :: a) (x :: b)
| sub_drop x a b : sub a b -> sub a (x :: b).
