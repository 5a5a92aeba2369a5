(** Histories of the ez_mempool API, and what a user expects of them.
    The expected state: the live pools, each with the root of its tree; the registrations (pool, (destructor, data)); the blocks that only the user has. *)
From Verif Require Import Prelude Heap EzModel.
From Coq Require Import Permutation.

Inductive op := Init (parent : nat) | Alloc (p : nat) (f : cb) | Add (p d size : nat) (f : cb) | Strdup (p len : nat) | Malloc | Mfree (d : nat) | Destroy (r : nat).
(** the program: the heap after, the address returned (0 if none), the destructor calls *)
Definition step (fuel : nat) (h : eheap) (o : op) : outcome (eheap * nat * list (cb * nat)) :=
  match o with
  | Init p => ' (h, a) <- init h p ;; Ok (h, a, [])
  | Alloc p f => ' (h, d) <- ez_alloc h p f ;; Ok (h, d, [])
  | Add p d n f => ' (h, _) <- add_buffer h p d n f ;; Ok (h, 0, [])
  | Strdup p n => ' (h, d) <- ez_strdup h p n ;; Ok (h, d, [])
  | Malloc => let (d, h) := alloc h Block in Ok (h, d, [])
  | Mfree d => h <- drop h d Free ;; Ok (h, 0, [])
  | Destroy r => ' (h, l) <- destroy fuel h r ;; Ok (h, 0, l)
  end.

Record st := mkst { pools : list (nat * nat); rg : list (nat * (cb * nat)); mine : list nat }.
Definition empty : st := mkst [] [] [].
Definition root_of (s : st) (p : nat) : nat := match find (fun e => fst e =? p) (pools s) with Some e => snd e | None => 0 end.
Definition isuser (f : cb) : bool := match f with User _ => true | _ => false end.
Definition blocks (rg : list (nat * (cb * nat))) : list nat := map (fun e => snd (snd e)) (filter (fun e => negb (isuser (fst (snd e)))) rg).
Definition remove1 (d : nat) (l : list nat) : list nat := filter (fun x => negb (x =? d)) l.
(** the calls a careful user makes: pools are live, a buffer handed over to be freed is his own, and only roots are destroyed *)
Definition allowed (s : st) (o : op) : Prop :=
  match o with
  | Init p => p = 0 \/ In p (map fst (pools s))
  | Alloc p _ => In p (map fst (pools s))
  | Add p d _ f => In p (map fst (pools s)) /\ (isuser f = true \/ d = 0 \/ In d (mine s))
  | Strdup p _ => In p (map fst (pools s))
  | Malloc => True
  | Mfree d => In d (mine s)
  | Destroy r => In (r, r) (pools s)
  end.
(** the expected state after a call that returned [a] *)
Definition next (s : st) (o : op) (a : nat) : st :=
  match o with
  | Init p => mkst ((a, if p =? 0 then a else root_of s p) :: pools s) (rg s) (mine s)
  | Alloc p f => mkst (pools s) ((p, (f, a)) :: rg s) (if isuser f then a :: mine s else mine s)
  | Add p d n f => if (d =? 0) || (n =? 0) then s else mkst (pools s) ((p, (f, d)) :: rg s) (if isuser f then mine s else remove1 d (mine s))
  | Strdup p n => if n =? 0 then mkst (pools s) (rg s) (a :: mine s) else mkst (pools s) ((p, (Free, a)) :: rg s) (mine s)
  | Malloc => mkst (pools s) (rg s) (a :: mine s)
  | Mfree d => mkst (pools s) (rg s) (remove1 d (mine s))
  | Destroy r => mkst (filter (fun e => negb (snd e =? r)) (pools s)) (filter (fun e => negb (root_of s (fst e) =? r)) (rg s)) (mine s)
  end.
(** the destructor calls expected of it *)
Definition logged (s : st) (o : op) (log : list (cb * nat)) : Prop :=
  match o with Destroy r => Permutation log (map snd (filter (fun e => root_of s (fst e) =? r) (rg s))) | _ => log = [] end.
(** what is in memory: exactly the pools, the blocks, and one header per registration *)
Definition memory (s : st) (h : eheap) : Prop :=
  NoDup (map fst (pools s) ++ mine s ++ blocks (rg s)) /\
  (forall b, (exists c u n p, cells h b = Some (Pool c u n p)) <-> In b (map fst (pools s))) /\
  (forall b, cells h b = Some Block <-> In b (mine s ++ blocks (rg s))) /\
  (exists hs, NoDup hs /\ length hs = length (rg s) /\ forall b, (exists d n f, cells h b = Some (Chunk d n f)) <-> In b hs).
(** the call terminates with this outcome, whatever the (large enough) bound on its recursion *)
Definition does (h : eheap) (o : op) (h' : eheap) (a : nat) (log : list (cb * nat)) : Prop := exists N, forall fuel, N <= fuel -> step fuel h o = Ok (h', a, log).
(** histories from the start of the program: every call is one that a careful user makes; the expected state follows what the calls returned *)
Inductive history : eheap -> st -> Prop :=
| Start : history (mkheap (fun _ => None) 1) empty
| Call h s o h' a log : history h s -> allowed s o -> does h o h' a log -> history h' (next s o a).
