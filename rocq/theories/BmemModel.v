(** Model of the memory of buffers: src/libzt/zt_buf.c with the structs and their blocks at addresses an allocator picks, and the pointers zt_buf_get hands out.
    Simplifications: malloc and realloc succeed; realloc always gives a new block, so that the old one is gone (C leaves pointers into it indeterminate even where it stays); memcpy of 0 bytes is a no-op whatever the pointers. *)
From Verif Require Import Prelude Blocks HeapModel.
Local Open Scope Z_scope.

(* a pointer into a block: address and offset; NULL *)
Notation bptr := (option (nat * Z)).
(* zt_buf.c:13-18 zt_buf, and a block of bytes *)
Inductive bcell := BBuf (len max : Z) (buf top : bptr) | BBlk (l : list (option Z)).
Notation bmem := (hp bcell).
Definition B64 : Z := 18446744073709551616.
Definition rd_buf (m : bmem) (a : nat) : outcome (Z * Z * bptr * bptr) := c <- hget m a ;; match c with BBuf n x b t => Ok (n, x, b, t) | _ => UB end.
Definition rd_blk (m : bmem) (d : nat) : outcome (list (option Z)) := c <- hget m d ;; match c with BBlk l => Ok l | _ => UB end.
(* n bytes at p *)
Definition rd_at (m : bmem) (p : bptr) (n : Z) : outcome (list Z) :=
  if n =? 0 then Ok [] else match p with None => UB | Some (d, o) => l <- rd_blk m d ;; _ <- safe (0 <=? o) ;; rdn l (Z.to_nat o) (Z.to_nat n) end.
Definition wr_at (m : bmem) (p : bptr) (b : list Z) : outcome bmem :=
  match b with [] => Ok m | _ => match p with None => UB | Some (d, o) => l <- rd_blk m d ;; _ <- safe (0 <=? o) ;; l <- wrn l (Z.to_nat o) b ;; Ok (hput m d (BBlk l)) end end.
Definition plus (p : bptr) (n : Z) : bptr := match p with Some (d, o) => Some (d, o + n) | None => None end.
(* p - q as size_t *)
Definition minus (p q : bptr) : outcome Z := match p, q with None, None => Ok 0 | Some (d, o), Some (e, u) => if Nat.eqb d e then Ok ((o - u) mod B64) else UB | _, _ => UB end.
(* memcpy must not be used on ranges that overlap *)
Definition apart (p q : bptr) (n : Z) : bool := match p, q with Some (d, o), Some (e, u) => negb (Nat.eqb d e) || (o + n <=? u) || (u + n <=? o) | _, _ => true end.
(* what is added: bytes of the caller's own, or n bytes where a pointer points *)
Inductive bsrc := Own (b : list Z) | At (p : bptr) (n : Z).
Definition srclen (s : bsrc) : Z := match s with Own b => Z.of_nat (length b) | At _ n => n end.
Definition memcpy (m : bmem) (p : bptr) (s : bsrc) : outcome bmem :=
  match s with Own b => wr_at m p b | At q n => b <- rd_at m q n ;; _ <- safe ((n =? 0) || apart p q n) ;; wr_at m p b end.

(* zt_buf.c:36-39 zt_buf_get *)
Definition m_get (m : bmem) (a : nat) : outcome bptr := ' (n, _, b, _) <- rd_buf m a ;; Ok (if n =? 0 then None else b).
(* zt_buf.c:41-44 zt_buf_unused_sz *)
Definition m_unused (m : bmem) (a : nat) : outcome Z := ' (n, x, _, _) <- rd_buf m a ;; Ok ((x - n) mod B64).
(* zt_buf.c:46-49 zt_buf_length *)
Definition m_length (m : bmem) (a : nat) : outcome Z := ' (n, _, _, _) <- rd_buf m a ;; Ok n.
(* zt_buf.c:74-89 zt_buf_drain *)
Definition m_drain (m : bmem) (a : nat) (k : Z) : outcome (Z * bmem) :=
  if k =? 0 then Ok (0, m) else
  ' (n, x, b, t) <- rd_buf m a ;;
  if k <? n then g <- minus t b ;; Ok (n - k, hput m a (BBuf (n - k) ((x - g) mod B64) (plus b k) t))
  else Ok (0, hput m a (BBuf 0 x b t)).
(* zt_buf.c:110-120 zt_buf_remove: the bytes copied to the caller's memory and the number returned *)
Definition m_remove (m : bmem) (a : nat) (k : Z) : outcome (list Z * Z * bmem) :=
  ' (n, _, b, _) <- rd_buf m a ;;
  let k := if k >? n then n else k in
  d <- rd_at m b k ;; ' (_, m) <- m_drain m a k ;; Ok (d, k, m).
(* zt_buf.c:160-169 zt_buf_free *)
Definition m_free (m : bmem) (a : nat) : outcome bmem :=
  ' (_, _, _, t) <- rd_buf m a ;;
  m <- match t with None => Ok m | Some (d, o) => if o =? 0 then hfree m d else UB end ;; hfree m a.
(* zt_buf.c:131-143 zt_buf_iov_len *)
Fixpoint m_iov_len (v : list bsrc) (n : Z) : Z := match v with [] => n | s :: v => m_iov_len v ((n + srclen s) mod B64) end.

Section M.
Variable pick : nat -> list nat -> nat.
(* zt_buf.c:20-34 zt_buf_new *)
Definition m_new (m : bmem) : nat * bmem := hnew pick m (BBuf 0 0 None None).
(* realloc *)
Definition m_realloc (m : bmem) (p : bptr) (n : Z) : outcome (nat * bmem) :=
  match p with
  | None => Ok (hnew pick m (BBlk (repeat None (Z.to_nat n))))
  | Some (d, o) =>
      if o =? 0 then
        l <- rd_blk m d ;;
        let '(x, m) := hnew pick m (BBlk (firstn (Z.to_nat n) l ++ repeat None (Z.to_nat n - length l))) in
        m <- hfree m d ;; Ok (x, m)
      else UB
  end.
(* zt_buf.c:53-72 zt_buf_expand; what it assigns to top first (lines 63-65) it assigns again *)
Definition m_expand (m : bmem) (a : nat) (k : Z) : outcome bmem :=
  let r := if k <? 1024 then 1024 else k in
  ' (n, _, b, _) <- rd_buf m a ;;
  ' (d, m) <- m_realloc m b ((n + r) mod B64) ;;
  Ok (hput m a (BBuf n ((n + r) mod B64) (Some (d, 0)) (Some (d, 0)))).
(* zt_buf.c:122-129 zt_buf_reserve *)
Definition m_reserve (m : bmem) (a : nat) (k : Z) : outcome bmem := u <- m_unused m a ;; if k >? u then m_expand m a k else Ok m.
(* zt_buf.c:91-101 zt_buf_add *)
Definition m_add (m : bmem) (a : nat) (s : bsrc) : outcome bmem :=
  u <- m_unused m a ;;
  m <- (if srclen s >? u then m_expand m a (srclen s) else Ok m) ;;
  ' (n, x, b, t) <- rd_buf m a ;;
  m <- memcpy m (plus b n) s ;;
  Ok (hput m a (BBuf ((n + srclen s) mod B64) x b t)).
(* zt_buf.c:103-108 zt_buf_add_buf; the two may be the same *)
Definition m_add_buf (m : bmem) (a b : nat) : outcome bmem :=
  ' (n, _, p, _) <- rd_buf m b ;;
  m <- m_add m a (At p n) ;;
  ' (n, _, _, _) <- rd_buf m b ;;
  ' (_, m) <- m_drain m b n ;; Ok m.
(* zt_buf.c:153-155 *)
Fixpoint m_iov_loop (m : bmem) (a : nat) (v : list bsrc) : outcome bmem := match v with [] => Ok m | s :: v => m <- m_add m a s ;; m_iov_loop m a v end.
(* zt_buf.c:145-158 zt_buf_iov_add *)
Definition m_iov_add (m : bmem) (a : nat) (v : list bsrc) : outcome bmem := m <- m_reserve m a (m_iov_len v 0) ;; m_iov_loop m a v.
End M.
