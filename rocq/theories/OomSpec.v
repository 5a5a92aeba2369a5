(** What is seen of an array of strings, and of requests for memory. *)
From Verif Require Import Prelude HeapModel OomModel.
(** the strings a program reads with zt_ptr_array_length and zt_ptr_array_get_idx (zt_ptr_array.c:181-192) *)
Fixpoint all_ok {A B} (f : A -> outcome B) (l : list A) : outcome (list B) := match l with [] => Ok [] | x :: r => y <- f x ;; ys <- all_ok f r ;; Ok (y :: ys) end.
Definition strings (m : mem) (a : nat) : outcome (list (list Z)) := ' (_, c, d) <- arr_at m a ;; ' (_, l) <- slots_at m d ;; _ <- safe (c <=? length l) ;; all_ok (text_at m) (firstn c l).
(** the strings of a NULL-terminated array, whose block is as long as it says *)
Definition terminated (m : mem) (p : nat) (l : list (list Z)) : Prop := exists ps n z, slots_at m p = Ok (n, ps ++ 0 :: z) /\ n = length (ps ++ 0 :: z) /\ Forall (fun x => x <> 0) ps /\ all_ok (text_at m) ps = Ok l.
(** the number of requests refused from the i-th up to the j-th, exclusive *)
Definition refused (gives : nat -> bool) (i j : nat) : nat := length (filter (fun k => negb (gives k)) (seq i (j - i))).
(** the blocks in use are [L] *)
Definition in_use (m : mem) (L : list (nat * blk)) : Prop := owns (heap m) L.
