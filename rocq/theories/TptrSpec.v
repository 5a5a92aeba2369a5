(** What it means that nodes in memory make up a table, and programs that change a table while they iterate over it. *)
From Verif Require Import Prelude HashModel TableModel TptrModel.
Open Scope Z_scope.

Section S.
Context {K D : Type}.
Notation heap := (heap K D).
Notation nd := (node K D).
Notation an := (nat * nd)%type.
(** a chain from a pointer: addresses and nodes *)
Definition cell (n : nd) (q : option nat) : hnode K D := mkhnode (nkey n) (ndatum n) (nhash n) q.
Fixpoint chain (h : heap) (p : option nat) (l : list an) : Prop :=
  match l with [] => p = None | (x, n) :: l => p = Some x /\ exists q, look (cells h) x = Some (cell n q) /\ chain h q l end.
Record rep (h : heap) (t : ptable) (L : list (list an)) : Prop := mkrep {
  r_chains : Forall2 (chain h) (pbuckets t) L;
  r_apart : NoDup (map fst (concat L));
  r_heap : NoDup (map fst (cells h)) }.
Definition tab (t : ptable) (L : list (list an)) : table K D := mktable (pbits t) (pdup t) (map (map snd) L).


(** the table T of TableModel.v, in memory *)
Definition represents (h : heap) (t : ptable) (T : table K D) : Prop := exists L, rep h t L /\ T = tab t L.
Definition binding (n : nd) : K * D := (nkey n, ndatum n).
Definition bindings (T : table K D) : list (K * D) := map binding (concat (tbuckets T)).

Variable hash : K -> Z.
Variable cmp : K -> K -> bool.
(** every key has a bucket; every node is in the bucket of its key, with the hash of its key *)
Definition bounded (T : table K D) : Prop := forall k, (slot K D hash T k < length (tbuckets T))%nat.
Definition placed (T : table K D) : Prop := forall i c n, nth_error (tbuckets T) i = Some c -> In n c -> nhash n = hash (nkey n) /\ slot K D hash T (nkey n) = i.

Variable pick : nat -> list nat -> nat.
(** a callback that remembers the bindings it was given, and adds those that g wants added (any number, anywhere in the table); seen, and what it tried to add, are kept *)
Fixpoint psets (h : heap) (t : ptable) (ops : list (K * D)) : outcome (heap * ptable) :=
  match ops with [] => Ok (h, t) | (k, d) :: ops => ' (_, h, t) <- pset hash cmp pick (S (length (cells h))) h t k d ;; psets h t ops end.
Definition inserting {V} (g : V -> K -> D -> Z * V * list (K * D)) (h : heap) (t : ptable) (u : V * list (K * D) * list (K * D)) (k : K) (d : D) : outcome (Z * heap * ptable * (V * list (K * D) * list (K * D))) :=
  let '(v, seen, put) := u in let '(r, v, ops) := g v k d in ' (h, t) <- psets h t ops ;; Ok (r, h, t, (v, seen ++ [(k, d)], put ++ ops)).
(** a callback that deletes the key it was given *)
Definition deleting {V} (g : V -> K -> D -> Z * V) (h : heap) (t : ptable) (u : V * list (K * D)) (k : K) (d : D) : outcome (Z * heap * ptable * (V * list (K * D))) :=
  let '(v, seen) := u in ' (_, h, t) <- pdel hash cmp (S (length (cells h))) h t k ;; let '(r, v) := g v k d in Ok (r, h, t, (v, seen ++ [(k, d)])).
(** a callback that only looks *)
Definition looking {V} (g : V -> K -> D -> Z * V) (h : heap) (t : ptable) (v : V) (k : K) (d : D) : outcome (Z * heap * ptable * V) := let '(r, v) := g v k d in Ok (r, h, t, v).

(** a program that uses one table, its answers, with the table in memory and with TableModel's *)
Inductive pop := PSet (k : K) (d : D) | PGet (k : K) | PDel (k : K).
Inductive pans := ASet (rc : Z) | AGet (r : option D) | ADel (r : option D).
Definition pstep (h : heap) (t : ptable) (o : pop) : outcome (pans * heap * ptable) :=
  let fuel := S (length (cells h)) in
  match o with
  | PSet k d => ' (rc, h, t) <- pset hash cmp pick fuel h t k d ;; Ok (ASet rc, h, t)
  | PGet k => r <- pget hash cmp fuel h t k ;; Ok (AGet r, h, t)
  | PDel k => ' (r, h, t) <- pdel hash cmp fuel h t k ;; Ok (ADel r, h, t)
  end.
Definition lstep (T : table K D) (o : pop) : outcome (pans * table K D) :=
  match o with
  | PSet k d => ' (rc, T) <- table_set K D hash cmp T k d ;; Ok (ASet rc, T)
  | PGet k => r <- table_get K D hash cmp T k ;; Ok (AGet r, T)
  | PDel k => ' (r, T) <- table_del K D hash cmp T k ;; Ok (ADel r, T)
  end.
Fixpoint prun (h : heap) (t : ptable) (os : list pop) : outcome (list pans * heap * ptable) :=
  match os with [] => Ok ([], h, t) | o :: os => ' (a, h, t) <- pstep h t o ;; ' (l, h, t) <- prun h t os ;; Ok (a :: l, h, t) end.
Fixpoint lrun (T : table K D) (os : list pop) : outcome (list pans * table K D) :=
  match os with [] => Ok ([], T) | o :: os => ' (a, T) <- lstep T o ;; ' (l, T) <- lrun T os ;; Ok (a :: l, T) end.
End S.
Arguments PSet {K D}. Arguments PGet {K D}. Arguments PDel {K D}.
