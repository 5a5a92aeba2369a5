(** Model of src/libzt/zt_llist.h: singly linked "pairs" on a heap.
    struct zt_pair { void *head; zt_pair *tail; } (zt_llist.h:13-17): items are Z (0 = NULL), links are
    addresses (0 = NULL).  Every loop takes fuel and answers [Loop] when it runs out. *)
From Verif Require Import Prelude Heap.

Record pair := mkpair { head : Z; tail : nat }.
Definition mem := heap pair.

(* zt_llist.h:25-35 zt_llist_free *)
Fixpoint llist_free (fuel : nat) (m : mem) (p : nat) : outcome mem :=
  match fuel with O => Loop | S f =>
    if Nat.eqb p 0 then Ok m else
    c <- load m p ;;
    m' <- release m p ;;
    llist_free f m' (tail c)
  end.

(* zt_llist.h:37-46 zt_llist_cons *)
Definition llist_cons (m : mem) (item : Z) (t : nat) : outcome (nat * mem) :=
  Ok (alloc m (mkpair item t)).

(* zt_llist.h:50-53 the walk shared by nth and nthtail; offt is a C int *)
Fixpoint walk (fuel : nat) (m : mem) (p : nat) (offt : Z) : outcome nat :=
  match fuel with O => Loop | S f =>
    if Nat.eqb p 0 then Ok p else
    if (offt >? 0)%Z then c <- load m p ;; walk f m (tail c) (offt - 1) else Ok p
  end.

(* zt_llist.h:48-59 zt_llist_nth *)
Definition llist_nth (fuel : nat) (m : mem) (p : nat) (offt : Z) : outcome Z :=
  q <- walk fuel m p offt ;;
  _ <- guard (negb (Nat.eqb q 0)) ;;
  c <- load m q ;; Ok (head c).

(* zt_llist.h:61-71 zt_llist_nthtail *)
Definition llist_nthtail (fuel : nat) (m : mem) (p : nat) (offt : Z) : outcome nat :=
  q <- walk fuel m p offt ;;
  _ <- guard (negb (Nat.eqb q 0)) ;;
  c <- load m q ;; Ok (tail c).

(* zt_llist.h:73-84 zt_llist_ppop: result and the new value of the list variable *)
Definition llist_ppop (m : mem) (l : nat) : outcome (nat * nat) :=
  if Nat.eqb l 0 then Ok (0, 0) else c <- load m l ;; Ok (l, tail c).

(* zt_llist.h:86-100 zt_llist_pop: item, the new list variable, memory *)
Definition llist_pop (m : mem) (l : nat) : outcome (Z * nat * mem) :=
  ' (z, l') <- llist_ppop m l ;;
  if Nat.eqb z 0 then Ok (0%Z, l', m) else
  c <- load m z ;;
  m' <- release m z ;;
  Ok (head c, l', m').

(* zt_llist.h:102-106 zt_llist_push: the new list variable *)
Definition llist_push (m : mem) (item : Z) (l : nat) : outcome (nat * mem) := llist_cons m item l.

(* zt_llist.h:108-113 zt_llist_ppush *)
Definition llist_ppush (m : mem) (p l : nat) : outcome (nat * mem) :=
  c <- load m p ;;
  m' <- store m p (mkpair (head c) l) ;;
  Ok (p, m').

(* zt_llist.h:119-121 / 149-154: while (l != NULL) ppush(ppop(&l), &r) *)
Fixpoint drain (fuel : nat) (m : mem) (l r : nat) : outcome (nat * mem) :=
  match fuel with O => Loop | S f =>
    if Nat.eqb l 0 then Ok (r, m) else
    ' (p, l') <- llist_ppop m l ;;
    ' (r', m') <- llist_ppush m p r ;;
    drain f m' l' r'
  end.

(* zt_llist.h:115-123 zt_llist_nreverse *)
Definition llist_nreverse (fuel : nat) (m : mem) (l : nat) : outcome (nat * mem) := drain fuel m l 0.

(* zt_llist.h:131-136 the copying loop of zt_llist_reverse *)
Fixpoint copyrev (fuel : nat) (m : mem) (p r : nat) : outcome (nat * mem) :=
  match fuel with O => Loop | S f =>
    if Nat.eqb p 0 then Ok (r, m) else
    c <- load m p ;;
    ' (r', m') <- llist_cons m (head c) r ;;
    c' <- load m' p ;;
    copyrev f m' (tail c') r'
  end.
(* zt_llist.h:125-138 zt_llist_reverse *)
Definition llist_reverse (fuel : nat) (m : mem) (l : nat) : outcome (nat * mem) := copyrev fuel m l 0.

(* zt_llist.h:144-147 first loop of zt_llist_nmerge *)
Fixpoint mergeloop (fuel : nat) (cmp : Z -> Z -> Z) (m : mem) (l1 l2 r : nat) : outcome (nat * nat * nat * mem) :=
  match fuel with O => Loop | S f =>
    if Nat.eqb l1 0 || Nat.eqb l2 0 then Ok (l1, l2, r, m) else
    c1 <- load m l1 ;;
    c2 <- load m l2 ;;
    if negb (cmp (head c2) (head c1) =? 0)%Z then
      ' (p, l1') <- llist_ppop m l1 ;;
      ' (r', m') <- llist_ppush m p r ;;
      mergeloop f cmp m' l1' l2 r'
    else
      ' (p, l2') <- llist_ppop m l2 ;;
      ' (r', m') <- llist_ppush m p r ;;
      mergeloop f cmp m' l1 l2' r'
  end.
(* zt_llist.h:140-157 zt_llist_nmerge *)
Definition llist_nmerge (fuel : nat) (cmp : Z -> Z -> Z) (m : mem) (l1 l2 : nat) : outcome (nat * mem) :=
  ' (l1a, l2a, r, m1) <- mergeloop fuel cmp m l1 l2 0 ;;
  ' (r1, m2) <- drain fuel m1 l1a r ;;
  ' (r2, m3) <- drain fuel m2 l2a r1 ;;
  llist_nreverse fuel m3 r2.

(* zt_llist.h:173-176 the two-speed loop of zt_llist_split; returns the node to cut after *)
Fixpoint splitloop (fuel : nat) (m : mem) (lst tl : nat) : outcome nat :=
  match fuel with O => Loop | S f =>
    if Nat.eqb tl 0 then Ok lst else
    c <- load m tl ;;
    if Nat.eqb (tail c) 0 then Ok lst else
    cl <- load m lst ;;
    ct <- load m (tail c) ;;
    splitloop f m (tail cl) (tail ct)
  end.
(* zt_llist.h:160-180 zt_llist_split *)
Definition llist_split (fuel : nat) (m : mem) (lst : nat) : outcome (nat * mem) :=
  if Nat.eqb lst 0 then Ok (0, m) else
  c <- load m lst ;;
  if Nat.eqb (tail c) 0 then Ok (lst, m) else
  k <- splitloop fuel m lst (tail c) ;;
  ck <- load m k ;;
  m' <- store m k (mkpair (head ck) 0) ;;
  Ok (tail ck, m').

(* zt_llist.h:182-193 zt_llist_sort.  C leaves the order of the two recursive calls open; they touch
   disjoint cells, here the first half is sorted first. *)
Fixpoint llist_sort (fuel : nat) (cmp : Z -> Z -> Z) (m : mem) (lst : nat) : outcome (nat * mem) :=
  match fuel with O => Loop | S f =>
    if Nat.eqb lst 0 then Ok (lst, m) else
    c <- load m lst ;;
    if Nat.eqb (tail c) 0 then Ok (lst, m) else
    ' (l2, m1) <- llist_split (S f) m lst ;;
    ' (a, m2) <- llist_sort f cmp m1 lst ;;
    ' (b, m3) <- llist_sort f cmp m2 l2 ;;
    llist_nmerge (S f) cmp m3 a b
  end.
