(** What a user of several sets relies on: for every set in memory, the list of its members; what an operation with any choice of sets as arguments does to the lists. *)
From Verif Require Import Prelude HashModel TableModel SetModel TptrModel TptrSpec SptrModel SetProofs.
Open Scope Z_scope.

Section S.
Variable matchf : elt -> elt -> bool.
(** e is one of l, for the set's notion of equality (same hash, match function says so) *)
Definition memb (l : list elt) (e : elt) : bool := existsb (fun x => (elt_hash x =? elt_hash e) && matchf x e) l.
(** the sets in memory have the members LL: no member twice, the counters are right, all nodes in place (SetProofs.is_set, TptrSpec.represents) *)
Definition one_set (h : heap elt elt) (s : pzset) (l : list elt) : Prop := exists S, represents h (ptbl s) (stbl S) /\ plen s = slen S /\ is_set matchf S l.
Definition sound (w : world) (LL : list (list elt)) : Prop := NoDup (map fst (cells (wheap w))) /\ Forall2 (one_set (wheap w)) (wsets w) LL.
(** going through L, every wanted element is added to l, until one is there already *)
Fixpoint absorb (want : list elt -> elt -> bool) (L l : list elt) : Z * list elt :=
  match L with [] => (0, l) | e :: L => if want l e then if memb l e then (1, l) else absorb want L (e :: l) else absorb want L l end.
Definition at_ (LL : list (list elt)) (i : nat) : list elt := nth i LL [].

(** programs *)
Inductive sop := SNew | SInsert (i : nat) (e : elt) | SMember (i : nat) (e : elt) | SUnion (u i j : nat) | SIntersection (v i j : nat) | SDifference (v i j : nat) | SSubset (i j : nat) | SEqual (i j : nat).
Variable pick : nat -> list nat -> nat.
Definition sstep (fuel : nat) (w : world) (o : sop) : outcome (Z * world) :=
  let b2z (b : bool) : Z := if b then 1 else 0 in
  match o with
  | SNew => Ok (0, w_init w)
  | SInsert i e => w_insert matchf pick fuel w i e
  | SMember i e => b <- w_member matchf fuel w i e ;; Ok (b2z b, w)
  | SUnion u i j => w_union matchf pick fuel w u i j
  | SIntersection v i j => w_intersection matchf pick fuel w v i j
  | SDifference v i j => w_difference matchf pick fuel w v i j
  | SSubset i j => b <- w_is_subset matchf fuel w i j ;; Ok (b2z b, w)
  | SEqual i j => b <- w_is_equal matchf fuel w i j ;; Ok (b2z b, w)
  end.
(** the sets an operation names exist *)
Definition named (n : nat) (o : sop) : Prop :=
  match o with SNew => True | SInsert i _ | SMember i _ => (i < n)%nat | SUnion a b c | SIntersection a b c | SDifference a b c => (a < n)%nat /\ (b < n)%nat /\ (c < n)%nat | SSubset i j | SEqual i j => (i < n)%nat /\ (j < n)%nat end.
Fixpoint srun (w : world) (os : list sop) : outcome (list Z * world) :=
  match os with [] => Ok ([], w) | o :: os => ' (r, w) <- sstep (S (4 * length (cells (wheap w)))) w o ;; ' (l, w) <- srun w os ;; Ok (r :: l, w) end.
Fixpoint all_named (n : nat) (os : list sop) : Prop :=
  match os with [] => True | o :: os => named n o /\ all_named (match o with SNew => S n | _ => n end) os end.
End S.
