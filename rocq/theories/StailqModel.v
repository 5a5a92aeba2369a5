(** Model of the singly-linked lists of compat/sys/queue.h: SLIST (lines 147-205), STAILQ (208-287) and SIMPLEQ (290-361), with every element a block in memory.
    The three differ in the names of the fields and in what a head has: SLIST macros are the STAILQ macros without the assignments to stqh_last, SIMPLEQ macros are the STAILQ macros to the letter (there is no SIMPLEQ_CONCAT). [tail] tells whether the heads have the field.
    The type of stqh_last is the address of a pointer to an element: stqh_first of a head or stqe_next of an element ([slot]). Simplification: heads are not allocated and have numbers; the user's part of an element is an integer. *)
From Verif Require Import Prelude HeapModel.
Local Open Scope nat_scope.

Inductive slot := First (q : nat) | Next (e : nat).
(* queue.h:158-161, 219-222, 302-305 *)
Record node := mknode { nx : nat; data : Z }.
(* queue.h:150-153, 210-214, 293-297: first, last *)
Record mem := mkmem { heap : hp node; heads : nat -> nat * slot }.
Section T.
Variable tail : bool.
Variable fuel : nat.
Definition set_head (m : mem) (q : nat) (h : nat * slot) : mem := mkmem (heap m) (fun p => if Nat.eqb p q then h else heads m p).
Definition set_first (m : mem) (q e : nat) : mem := set_head m q (e, snd (heads m q)).
Definition set_last (m : mem) (q : nat) (s : slot) : mem := if tail then set_head m q (fst (heads m q), s) else m.
Definition next_of (m : mem) (e : nat) : outcome nat := c <- hget (heap m) e ;; Ok (nx c).
Definition set_nx (m : mem) (e n : nat) : outcome mem := c <- hget (heap m) e ;; Ok (mkmem (hput (heap m) e (mknode n (data c))) (heads m)).
(* *s = e *)
Definition assign (m : mem) (s : slot) (e : nat) : outcome mem := match s with First q => Ok (set_first m q e) | Next f => set_nx m f e end.

(* queue.h:166-168 SLIST_INIT, 227-230 STAILQ_INIT, 310-313 SIMPLEQ_INIT *)
Definition q_init (m : mem) (q : nat) : mem := set_last (set_first m q 0) q (First q).
(* queue.h:175-178, 232-236, 315-319 INSERT_HEAD *)
Definition q_insert_head (m : mem) (q e : nat) : outcome mem :=
  let f := fst (heads m q) in
  m <- set_nx m e f ;;
  let m := if f =? 0 then set_last m q (Next e) else m in
  Ok (set_first m q e).
(* queue.h:238-242, 321-325 INSERT_TAIL *)
Definition q_insert_tail (m : mem) (q e : nat) : outcome mem :=
  m <- set_nx m e 0 ;;
  m <- assign m (snd (heads m q)) e ;;
  Ok (set_last m q (Next e)).
(* queue.h:170-173, 244-248, 327-331 INSERT_AFTER *)
Definition q_insert_after (m : mem) (q l e : nat) : outcome mem :=
  n <- next_of m l ;;
  m <- set_nx m e n ;;
  let m := if n =? 0 then set_last m q (Next e) else m in
  set_nx m l e.
(* queue.h:180-182, 250-253, 333-336 REMOVE_HEAD *)
Definition q_remove_head (m : mem) (q : nat) : outcome mem :=
  n <- next_of m (fst (heads m q)) ;;
  let m := set_first m q n in
  Ok (if n =? 0 then set_last m q (First q) else m).
(* queue.h:184-195, 255-267, 338-349 REMOVE: the search and the unlinking *)
Fixpoint remove_from (f : nat) (m : mem) (q cur e : nat) {struct f} : outcome mem :=
  match f with
  | O => Loop
  | S f =>
      n <- next_of m cur ;;
      if n =? e then
        k <- next_of m n ;;
        m <- set_nx m cur k ;;
        Ok (if k =? 0 then set_last m q (Next cur) else m)
      else remove_from f m q n e
  end.
Definition q_remove (m : mem) (q e : nat) : outcome mem :=
  if fst (heads m q) =? e then q_remove_head m q else remove_from fuel m q (fst (heads m q)) e.
(* queue.h:274-280 STAILQ_CONCAT *)
Definition q_concat (m : mem) (q r : nat) : outcome mem :=
  let f := fst (heads m r) in
  if f =? 0 then Ok m else
  m <- assign m (snd (heads m q)) f ;;
  let m := set_last m q (snd (heads m r)) in
  Ok (q_init m r).
(* queue.h:197-198, 269-272, 351-354 FOREACH: the elements visited *)
Fixpoint walk (f : nat) (m : mem) (e : nat) {struct f} : outcome (list nat) :=
  match f with O => Loop | S f => if e =? 0 then Ok [] else n <- next_of m e ;; r <- walk f m n ;; Ok (e :: r) end.

Inductive call := Init (q : nat) | InsertHead (q e : nat) | InsertTail (q e : nat) | InsertAfter (q l e : nat) | RemoveHead (q : nat) | Remove (q e : nat) | Concat (q r : nat)
  | Empty (q : nat) | FirstOf (q : nat) | NextOf (q e : nat) | Foreach (q : nat).
Definition quiet (x : outcome mem) : outcome (list nat * mem) := m <- x ;; Ok ([], m).
Definition do_call (m : mem) (c : call) : outcome (list nat * mem) :=
  match c with
  | Init q => Ok ([], q_init m q)
  | InsertHead q e => quiet (q_insert_head m q e)
  | InsertTail q e => quiet (q_insert_tail m q e)
  | InsertAfter q l e => quiet (q_insert_after m q l e)
  | RemoveHead q => quiet (q_remove_head m q)
  | Remove q e => quiet (q_remove m q e)
  | Concat q r => quiet (q_concat m q r)
  (* queue.h:203-205, 285-287, 359-361 *)
  | Empty q => Ok ([if fst (heads m q) =? 0 then 1 else 0], m)
  | FirstOf q => Ok ([fst (heads m q)], m)
  | NextOf _ e => n <- next_of m e ;; Ok ([n], m)
  | Foreach q => l <- walk fuel m (fst (heads m q)) ;; Ok (l, m)
  end.
Fixpoint calls (m : mem) (l : list call) : outcome (list (list nat) * mem) :=
  match l with [] => Ok ([], m) | c :: r => ' (a, m) <- do_call m c ;; ' (o, m) <- calls m r ;; Ok (a :: o, m) end.
End T.
