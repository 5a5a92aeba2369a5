(** Model of src/libzt/zt_table.c with the chains as they are in memory: nodes at addresses, linked by next pointers.  TableModel.v has the same functions on lists;
    PropTptr.v proves that they agree.  A node's address is whatever the pool's allocator picks among those not in use ([pick], given a clock and the addresses in use);
    a released node cannot be read.  Simplifications: as in TableModel.v otherwise.  Loops over a chain take fuel (a chain could be cyclic): [Loop] when it runs out. *)
From Verif Require Import Prelude HashModel TableModel.
Open Scope Z_scope.

Section Tptr.
Variable K D : Type.
Variable hash : K -> Z.
Variable cmp : K -> K -> bool.

(* zt_table.c:38-45 struct table_node; [hn] is the field next *)
Record hnode := mkhnode { hk : K; hd : D; hh : Z; hn : option nat }.
(** the nodes in use, with their addresses; how often the allocator was called *)
Record heap := mkheap { cells : list (nat * hnode); clock : nat }.
Fixpoint look (l : list (nat * hnode)) (x : nat) : option hnode := match l with [] => None | (y, n) :: l => if (y =? x)%nat then Some n else look l x end.
Definition hget (h : heap) (x : nat) : outcome hnode := match look (cells h) x with Some n => Ok n | None => UB end.
Definition hput (h : heap) (x : nat) (n : hnode) : heap := mkheap (map (fun c => if (fst c =? x)%nat then (x, n) else c) (cells h)) (clock h).
Definition hfree (h : heap) (x : nat) : heap := mkheap (filter (fun c => negb (fst c =? x)%nat) (cells h)) (clock h).
Variable pick : nat -> list nat -> nat.
Definition halloc (h : heap) (n : hnode) : heap * nat := let x := pick (clock h) (map fst (cells h)) in (mkheap ((x, n) :: cells h) (S (clock h)), x).

(* zt_table.c:47-59 struct zt_table *)
Record ptable := mkptable { pbits : Z; pdup : bool; pbuckets : list (option nat) }.
Definition pslot (t : ptable) (k : K) : nat := Z.to_nat (hash_sub32_mask (hash k) (pbits t)).
Definition head_at (t : ptable) (i : nat) : outcome (option nat) := match nth_error (pbuckets t) i with Some p => Ok p | None => UB end.
Definition set_head (t : ptable) (i : nat) (p : option nat) : ptable := mkptable (pbits t) (pdup t) (upd (pbuckets t) i p).

(* zt_table.c:99-136: the bucket array of a new table is all NULL *)
Definition pinit (use_hint dup : bool) (hint : Z) : ptable := let nb := num_buckets use_hint hint in mkptable (nbits ((nb - 1) mod 2 ^ 64)) dup (repeat None (Z.to_nat nb)).

(* zt_table.c:176-185, 212-221 *)
Fixpoint pfind (fuel : nat) (h : heap) (p : option nat) (k : K) : outcome (option hnode) :=
  match fuel with
  | O => Loop
  | S f => match p with None => Ok None | Some x => n <- hget h x ;; if (hh n =? hash k) && cmp (hk n) k then Ok (Some n) else pfind f h (hn n) k end
  end.
(* zt_table.c:164-199 zt_table_set *)
Definition pset (fuel : nat) (h : heap) (t : ptable) (k : K) (d : D) : outcome (Z * heap * ptable) :=
  p <- head_at t (pslot t k) ;;
  x <- (if pdup t then Ok None else pfind fuel h p k) ;;
  match x with
  | Some _ => Ok (1, h, t)
  | None => let '(h, x) := halloc h (mkhnode k d (hash k) p) in Ok (0, h, set_head t (pslot t k) (Some x))
  end.
(* zt_table.c:201-225 zt_table_get *)
Definition pget (fuel : nat) (h : heap) (t : ptable) (k : K) : outcome (option D) :=
  p <- head_at t (pslot t k) ;; x <- pfind fuel h p k ;; Ok (match x with Some n => Some (hd n) | None => None end).
(* zt_table.c:239-258: prev and node are addresses *)
Fixpoint pdel_loop (fuel : nat) (h : heap) (t : ptable) (i : nat) (prev : nat) (p : option nat) (k : K) : outcome (option D * heap * ptable) :=
  match fuel with
  | O => Loop
  | S f =>
      match p with
      | None => Ok (None, h, t)
      | Some x =>
          n <- hget h x ;;
          if (hh n =? hash k) && cmp (hk n) k then
            ' (h, t) <- (if (prev =? x)%nat then Ok (h, set_head t i (hn n))
                         else m <- hget h prev ;; Ok (hput h prev (mkhnode (hk m) (hd m) (hh m) (hn n)), t)) ;;
            Ok (Some (hd n), hfree h x, t)
          else pdel_loop f h t i prev (hn n) k
      end
  end.
(* zt_table.c:227-259 zt_table_del *)
Definition pdel (fuel : nat) (h : heap) (t : ptable) (k : K) : outcome (option D * heap * ptable) :=
  p <- head_at t (pslot t k) ;; match p with None => Ok (None, h, t) | Some x => pdel_loop fuel h t (pslot t k) x p k end.

(* zt_table.c:261-278 zt_table_copy of a table onto itself: the bucket heads are read when their turn comes, next after the set *)
Fixpoint pself_chain (fuel0 fuel : nat) (h : heap) (t : ptable) (p : option nat) : outcome (heap * ptable) :=
  match fuel with
  | O => Loop
  | S f => match p with
           | None => Ok (h, t)
           | Some x => n <- hget h x ;; ' (_, h, t) <- pset fuel0 h t (hk n) (hd n) ;; m <- hget h x ;; pself_chain fuel0 f h t (hn m)
           end
  end.
Fixpoint pself_loop (fuel : nat) (h : heap) (t : ptable) (is : list nat) : outcome (heap * ptable) :=
  match is with [] => Ok (h, t) | i :: is => p <- head_at t i ;; ' (h, t) <- pself_chain fuel fuel h t p ;; pself_loop fuel h t is end.
Definition pself_copy (fuel : nat) (h : heap) (t : ptable) : outcome (heap * ptable) := pself_loop fuel h t (seq 0 (length (pbuckets t))).

(* zt_table.c:280-299 zt_table_for_each: next is read before the callback is called; the callback may use the table *)
Section Each.
Variable U : Type.
Variable cb : heap -> ptable -> U -> K -> D -> outcome (Z * heap * ptable * U).
Fixpoint peach_chain (fuel : nat) (h : heap) (t : ptable) (u : U) (p : option nat) : outcome (Z * heap * ptable * U) :=
  match fuel with
  | O => Loop
  | S f => match p with
           | None => Ok (0, h, t, u)
           | Some x => n <- hget h x ;; ' (r, h, t, u) <- cb h t u (hk n) (hd n) ;; if r =? 0 then peach_chain f h t u (hn n) else Ok (r, h, t, u)
           end
  end.
Fixpoint peach_loop (fuel : nat) (h : heap) (t : ptable) (u : U) (is : list nat) : outcome (Z * heap * ptable * U) :=
  match is with
  | [] => Ok (0, h, t, u)
  | i :: is => p <- head_at t i ;; ' (r, h, t, u) <- peach_chain fuel h t u p ;; if r =? 0 then peach_loop fuel h t u is else Ok (r, h, t, u)
  end.
Definition peach (fuel : nat) (h : heap) (t : ptable) (u : U) : outcome (Z * heap * ptable * U) := peach_loop fuel h t u (seq 0 (length (pbuckets t))).
End Each.
End Tptr.
Arguments mkhnode {K D}. Arguments hk {K D}. Arguments hd {K D}. Arguments hh {K D}. Arguments hn {K D}. Arguments mkheap {K D}. Arguments cells {K D}. Arguments clock {K D}.
Arguments look {K D}. Arguments hget {K D}. Arguments hput {K D}. Arguments hfree {K D}. Arguments halloc {K D}.
Arguments pslot {K}. Arguments pfind {K D}. Arguments pset {K D}. Arguments pget {K D}. Arguments pdel_loop {K D}. Arguments pdel {K D}. Arguments pself_chain {K D}. Arguments pself_loop {K D}. Arguments pself_copy {K D}.
Arguments peach_chain {K D U}. Arguments peach_loop {K D U}. Arguments peach {K D U}.
