(** Histories of a program that uses the garbage collector. *)
From Verif Require Import Prelude GcModel GcProofs.
From Coq Require Import Permutation.

Inductive op := Register (x : nat) | Unregister (x : nat) | Protect (x : nat) | Unprotect (x : nat) | Write (x : nat) (ks : list nat) | Forget (x : nat) (ks : list nat) | Collect (full : bool) | Enable | Disable.
(** the collector, the pointers in the user's objects, the objects that were ever unprotected, the objects that are protected *)
Record world := mkw { wg : gc; kids : nat -> list nat; unp : list nat; prot : list nat }.
Definition setk (k : nat -> list nat) (x : nat) (ks : list nat) : nat -> list nat := fun y => if (y =? x)%nat then ks else k y.
(** Write: store new pointers in an object, and zt_gc_mark each of them.  Forget: remove pointers from an object. *)
Definition step (fuel : nat) (w : world) (o : op) : outcome world :=
  match o with
  | Register x => g <- gc_register fuel (kids w) (wg w) x ;; Ok (mkw g (kids w) (unp w) (prot w))
  | Unregister x => g <- gc_unregister fuel (kids w) (wg w) x ;; Ok (mkw g (kids w) (unp w) (del x (prot w)))
  | Protect x => Ok (mkw (gc_protect (wg w) x) (kids w) (unp w) (x :: prot w))
  | Unprotect x => g <- gc_unprotect (wg w) x ;; Ok (mkw g (kids w) (x :: unp w) (del x (prot w)))
  | Write x ks => g <- mark_all (wg w) ks ;; Ok (mkw g (setk (kids w) x ks) (unp w) (prot w))
  | Forget x ks => Ok (mkw (wg w) (setk (kids w) x ks) (unp w) (prot w))
  | Collect full => g <- gc_collect fuel (kids w) (wg w) full ;; Ok (mkw g (kids w) (unp w) (prot w))
  | Enable => g <- gc_enable fuel (kids w) (wg w) ;; Ok (mkw g (kids w) (unp w) (prot w))
  | Disable => Ok (mkw (gc_disable (wg w)) (kids w) (unp w) (prot w))
  end.
(** no incremental collection has stopped half-way *)
Definition idle (w : world) : Prop := scan (wg w) = 0.
(** the objects that the collector holds: what zt_gc_for_each visits *)
Definition live (w : world) (x : nat) : Prop := In x (map fst (gc_for_each (wg w))).
Definition allowed (w : world) (o : op) : Prop :=
  match o with
  | Register x => x <> 0 /\ ~ live w x /\ (forall y, In y (kids w x) -> y = x \/ live w y) /\ pb (wg w) x = false
  | Unregister x => idle w /\ forall z, live w z -> z <> x -> ~ In x (kids w z)
  | Protect x => x <> 0 /\ (forall y, In y (kids w x) -> y = x \/ live w y) /\ (idle w \/ kids w x = [])
  | Unprotect x => x <> 0
  | Write x ks => (forall y, In y ks -> live w y) /\ (idle w \/ forall y, In y ks -> ~ In y (unp w))
  | Forget x ks => incl ks (kids w x)
  | Enable => (enabled (wg w) < 0)%Z
  | Collect _ | Disable => True
  end.
Definition does (w : world) (o : op) (w' : world) : Prop := exists N, forall fuel, N <= fuel -> step fuel w o = Ok w'.
Inductive history (marks al : Z) (k : nat -> list nat) : world -> Prop :=
| Start : history marks al k (mkw (gc_init marks al) k [] [])
| Call w o w' : history marks al k w -> allowed w o -> does w o w' -> history marks al k w'.
