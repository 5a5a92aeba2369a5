(** Model of src/libzt/zt_ez_mempool.c, zt_ez_mempool.h.  Pools, chunk headers and the users' blocks are heap cells; a block's bytes and size are not modelled.
    zt_malloc/zt_calloc/zt_strdup succeed or abort (zt_malloc.c).  Every destructor call is logged.  [fuel] bounds the recursion; running out of it is Loop. *)
From Verif Require Import Prelude Heap.

(* free_cb: NULL, free, or a function of the user, which is only recorded *)
Inductive cb := Default | Free | User (k : nat).
(* zt_ez_mempool.h:11-23 *)
Inductive cell :=
| Pool (chunks subpools next parent : nat)
| Chunk (data next : nat) (f : cb)
| Block.
Definition eheap := heap cell.
Definition load_pool (h : eheap) (a : nat) : outcome (nat * nat * nat * nat) := c <- load h a ;; match c with Pool c s n p => Ok (c, s, n, p) | _ => UB end.
Definition load_chunk (h : eheap) (a : nat) : outcome (nat * nat * cb) := c <- load h a ;; match c with Chunk d n f => Ok (d, n, f) | _ => UB end.

(* zt_ez_mempool.c:35-63 zt_ez_mempool_init with pool_append *)
Definition init (h : eheap) (parent : nat) : outcome (eheap * nat) :=
  let (a, h) := alloc h (Pool 0 0 0 0) in
  if parent =? 0 then Ok (h, a)
  else
    ' (c, s, n, p) <- load_pool h parent ;;
    h <- (if s =? 0 then Ok h else store h a (Pool 0 0 s 0)) ;;
    h <- store h parent (Pool c a n p) ;;
    ' (c, s, n, _) <- load_pool h a ;;
    h <- store h a (Pool c s n parent) ;; Ok (h, a).
(* zt_ez_mempool.c:9-19 chunk_append(&pool->chunks, chunk) *)
Definition chunk_append (h : eheap) (pool chunk : nat) : outcome eheap :=
  ' (c, s, n, p) <- load_pool h pool ;;
  h <- (if c =? 0 then Ok h else ' (d, _, f) <- load_chunk h chunk ;; store h chunk (Chunk d c f)) ;;
  store h pool (Pool chunk s n p).
(* zt_ez_mempool.c:21-33, 108-121 zt_ez_mempool_alloc: the address of the block *)
Definition ez_alloc (h : eheap) (pool : nat) (f : cb) : outcome (eheap * nat) :=
  let (ch, h) := alloc h (Chunk 0 0 Default) in
  let (d, h) := alloc h Block in
  h <- store h ch (Chunk d 0 f) ;;
  h <- chunk_append h pool ch ;; Ok (h, d).
(* zt_ez_mempool.c:132-154 zt_ez_mempool_add_buffer *)
Definition add_buffer (h : eheap) (pool data : nat) (size : nat) (f : cb) : outcome (eheap * Z) :=
  if (data =? 0) || (size =? 0) then Ok (h, (-1)%Z)
  else let (ch, h) := alloc h (Chunk data 0 f) in h <- chunk_append h pool ch ;; Ok (h, 0%Z).
(* zt_ez_mempool.c:123-130 zt_ez_mempool_strdup of a string of the given length *)
Definition ez_strdup (h : eheap) (pool : nat) (len : nat) : outcome (eheap * nat) :=
  let (d, h) := alloc h Block in ' (h, _) <- add_buffer h pool d len Free ;; Ok (h, d).

(* zt_ez_mempool.c:76-80; zt_free of NULL does nothing *)
Definition drop (h : eheap) (d : nat) (f : cb) : outcome eheap :=
  match f with User _ => Ok h | Default | Free => if d =? 0 then Ok h else c <- load h d ;; match c with Block => release h d | _ => UB end end.
(* zt_ez_mempool.c:65-85 free_chunks *)
Fixpoint free_chunks (fuel : nat) (h : eheap) (ch : nat) : outcome (eheap * list (cb * nat)) :=
  match fuel with
  | O => Loop
  | S fuel =>
      if ch =? 0 then Ok (h, [])
      else ' (d, n, f) <- load_chunk h ch ;; h <- drop h d f ;; h <- release h ch ;; ' (h, l) <- free_chunks fuel h n ;; Ok (h, (f, d) :: l)
  end.
(* zt_ez_mempool.c:87-106 zt_ez_mempool_destroy; [chain] is the loop of lines 99-103 *)
Fixpoint destroy (fuel : nat) (h : eheap) (a : nat) {struct fuel} : outcome (eheap * list (cb * nat)) :=
  match fuel with
  | O => Loop
  | S fuel =>
      ' (c, s, n, p) <- load_pool h a ;;
      h <- (if p =? 0 then Ok h else ' (pc, _, pn, pp) <- load_pool h p ;; store h p (Pool pc 0 pn pp)) ;;
      ' (h, l1) <- free_chunks fuel h c ;;
      ' (h, l2) <- chain fuel h s ;;
      h <- release h a ;; Ok (h, l1 ++ l2)
  end
with chain (fuel : nat) (h : eheap) (x : nat) {struct fuel} : outcome (eheap * list (cb * nat)) :=
  match fuel with
  | O => Loop
  | S fuel =>
      if x =? 0 then Ok (h, [])
      else ' (_, _, n, _) <- load_pool h x ;; ' (h, l1) <- destroy fuel h x ;; ' (h, l2) <- chain fuel h n ;; Ok (h, l1 ++ l2)
  end.
