(** Model of the memory of pointer arrays: src/libzt/zt_ptr_array.c with the struct, the block of pointers and the members at addresses an allocator picks.  The arithmetic on one array is PtrArrayModel's.
    A pointer is the number of an address, NULL is 0.  Simplifications: malloc succeeds; the free callback, if there is one, is free; a member holds one number. *)
From Verif Require Import Prelude PtrArrayModel HeapModel.
Local Open Scope Z_scope.

(* zt_ptr_array.h:8-14 zt_ptr_array; the block array->array; a member *)
Inductive pcell := PArr (size count : Z) (data : nat) (cb : bool) | PBlk (slots : list (option Z)) | PMem (tag : Z).
Notation pmem := (hp pcell).

Definition rd_arr (m : pmem) (a : nat) : outcome (Z * Z * nat * bool) := c <- hget m a ;; match c with PArr s n d f => Ok (s, n, d, f) | _ => UB end.
Definition rd_blk (m : pmem) (d : nat) : outcome (list (option Z)) := c <- hget m d ;; match c with PBlk l => Ok l | _ => UB end.
Definition rd_mem (m : pmem) (p : nat) : outcome Z := c <- hget m p ;; match c with PMem t => Ok t | _ => UB end.
(* the array as PtrArrayModel sees it *)
Definition load (m : pmem) (a : nat) : outcome (parr * nat) := ' (s, n, d, f) <- rd_arr m a ;; l <- rd_blk m d ;; Ok (mkparr s n l f, d).
Definition save (m : pmem) (a d : nat) (x : parr) : pmem := hput (hput m d (PBlk (slots x))) a (PArr (size x) (count x) d (cb x)).
(* zt_ptr_array.c:182-194 zt_ptr_array_get_idx *)
Definition m_get (m : pmem) (a : nat) (idx : Z) : outcome Z := ' (x, _) <- load m a ;; pa_get x idx.
(* zt_ptr_array.c:80-93 zt_ptr_array_move_idx_to_idx *)
Definition m_move (m : pmem) (a : nat) (src dst : Z) : outcome (Z * pmem) := ' (x, d) <- load m a ;; ' (r, x') <- pa_move x src dst ;; Ok (r, save m a d x').
(* zt_ptr_array.c:103-112 the loop of zt_ptr_array_del: the callback is called in the middle *)
Fixpoint m_del_loop (fuel : nat) (m : pmem) (a : nat) (p i : Z) : outcome pmem :=
  match fuel with
  | O => Loop
  | S fuel =>
      ' (x, d) <- load m a ;;
      if i <? count x then
        v <- rd x i ;;
        if v =? p then
          ' (_, x1) <- pa_move x (count x - 1) i ;;
          let m := save m a d (mkparr (size x1) (count x1 - 1) (slots x1) (cb x1)) in
          m <- (if cb x then hfree m (Z.to_nat p) else Ok m) ;;
          m_del_loop fuel m a p (i + 1)
        else m_del_loop fuel m a p (i + 1)
      else Ok m
  end.
(* zt_ptr_array.c:95-115 zt_ptr_array_del *)
Definition m_del (m : pmem) (a : nat) (p : Z) : outcome (Z * pmem) :=
  if p =? 0 then Ok (-1, m) else ' (x, _) <- load m a ;; m <- m_del_loop (S (Z.to_nat (count x))) m a p 0 ;; Ok (-1, m).
(* zt_ptr_array.c:161-173 *)
Fixpoint m_free_loop (n : nat) (m : pmem) (a : nat) (i : Z) : outcome pmem :=
  match n with
  | O => Ok m
  | S n => ' (x, _) <- load m a ;; v <- rd x i ;; m <- (if v =? 0 then Ok m else hfree m (Z.to_nat v)) ;; m_free_loop n m a (i + 1)
  end.
(* zt_ptr_array.c:152-180 zt_ptr_array_free *)
Definition m_free (m : pmem) (a : nat) (members : Z) : outcome (Z * pmem) :=
  ' (x, d) <- load m a ;;
  m <- (if members >? 0 then m_free_loop (Z.to_nat (count x)) m a 0 else Ok m) ;;
  ' (_, _, d, _) <- rd_arr m a ;;
  m <- hfree m d ;; m <- hfree m a ;; Ok (0, m).

Section M.
Variable pick : nat -> list nat -> nat.
(* zt_ptr_array.c:9-27 zt_ptr_array_init *)
Definition m_init (m : pmem) (f : bool) : nat * pmem :=
  let '(a, m) := hnew pick m (PArr 32 0 0 f) in
  let '(d, m) := hnew pick m (PBlk (repeat None 32)) in
  (a, hput m a (PArr 32 0 d f)).
(* zt_ptr_array.c:44-78 zt_ptr_array_resize *)
Definition m_resize (m : pmem) (a : nat) (expand : Z) : outcome (Z * pmem) :=
  ' (x, d) <- load m a ;;
  let sz := if expand =? 0 then DEFAULT_SIZE else expand in
  _ <- safe (size x + sz <=? I32MAX) ;;
  if size x + sz <? size x then Ok (-1, m) else
  let '(nd, m) := hnew pick m (PBlk (repeat None (Z.to_nat (size x + sz)))) in
  l <- rd_blk m nd ;;
  l <- pa_copy_data x l ;;
  let m := hput m nd (PBlk l) in
  m <- hfree m d ;;
  Ok (0, hput m a (PArr (size x + sz) (count x) nd (cb x))).
(* zt_ptr_array.c:134-150 zt_ptr_array_add *)
Definition m_add (m : pmem) (a : nat) (p : Z) : outcome (Z * pmem) :=
  if p =? 0 then Ok (0, m) else
  ' (x, _) <- load m a ;;
  ' (r, m) <- (if count x >=? size x then m_resize m a 0 else Ok (0, m)) ;;
  if r <? 0 then Ok (-1, m) else
  ' (x, d) <- load m a ;;
  x' <- wr x (count x) p ;;
  Ok (0, save m a d (mkparr (size x') (count x' + 1) (slots x') (cb x'))).
(* zt_ptr_array.c:117-132 zt_ptr_array_cat; dst and src may be the same *)
Fixpoint m_cat_loop (fuel : nat) (m : pmem) (dst src : nat) (i : Z) : outcome (Z * pmem) :=
  match fuel with
  | O => Loop
  | S fuel =>
      ' (x, _) <- load m src ;;
      if i <? count x then
        v <- pa_get x i ;;
        ' (r, m) <- m_add m dst v ;;
        if negb (r =? 0) then Ok (-1, m) else m_cat_loop fuel m dst src (i + 1)
      else Ok (0, m)
  end.
Definition m_cat (m : pmem) (dst src : nat) : outcome (Z * pmem) := ' (x, _) <- load m src ;; m_cat_loop (S (Z.to_nat (count x))) m dst src 0.
End M.
