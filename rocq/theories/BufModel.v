(** Model of src/libzt/zt_buf.c.  The allocation is a list of bytes ([None] = not yet written), or no block at all
    (buf == top == NULL).  top always is the start of the block; buf = top + off.  size_t arithmetic wraps at 2^64.
    Simplifications: realloc succeeds; memcpy of 0 bytes through a NULL buf (new buffer) is taken as a no-op. *)
From Verif Require Import Prelude Blocks.
Open Scope Z_scope.

(* zt_buf.c:13-18 *)
Record buf := mkbuf { len : Z; max : Z; blk : option (list (option Z)); off : Z }.
Definition W64 : Z := 18446744073709551616.

Definition cap (b : buf) : Z := match blk b with Some l => Z.of_nat (length l) | None => 0 end.
Definition block (b : buf) : list (option Z) := match blk b with Some l => l | None => [] end.

(* zt_buf.c:20-34 zt_buf_new *)
Definition buf_new : buf := mkbuf 0 0 None 0.
(* zt_buf.c:41-44 *)
Definition buf_unused (b : buf) : Z := (max b - len b) mod W64.
(* zt_buf.c:46-49 *)
Definition buf_length (b : buf) : Z := len b.

(* zt_buf.c:36-39 zt_buf_get, with the bytes the caller may read there (NULL when empty) *)
Definition buf_get (b : buf) : outcome (option (list Z)) :=
  if len b =? 0 then Ok None else
  d <- rdn (block b) (Z.to_nat (off b)) (Z.to_nat (len b)) ;; Ok (Some d).

(* realloc: the old contents up to the new size, new bytes uninitialised; UB for a pointer that is not the block's start *)
Definition realloc (b : buf) (n : Z) : outcome (list (option Z)) :=
  match blk b with
  | None => Ok (repeat None (Z.to_nat n))
  | Some l => if off b =? 0 then Ok (firstn (Z.to_nat n) l ++ repeat None (Z.to_nat n - length l)) else UB
  end.

(* zt_buf.c:53-72 zt_buf_expand *)
Definition buf_expand (b : buf) (n : Z) : outcome buf :=
  let rlen := if n <? 1024 then 1024 else n in
  let sz := (len b + rlen) mod W64 in
  l <- realloc b sz ;;
  Ok (mkbuf (len b) sz (Some l) 0).

(* zt_buf.c:74-89 zt_buf_drain; top - buf = - off *)
Definition buf_drain (b : buf) (n : Z) : Z * buf :=
  if n =? 0 then (0, b) else
  if n <? len b then
    let b' := mkbuf (len b - n) ((max b - ((- off b) mod W64)) mod W64) (blk b) (off b + n) in (len b', b')
  else (0, mkbuf 0 (max b) (blk b) (off b)).

(* zt_buf.c:91-101 zt_buf_add *)
Definition buf_add (b : buf) (d : list Z) : outcome buf :=
  let n := Z.of_nat (length d) in
  b1 <- (if n >? buf_unused b then buf_expand b n else Ok b) ;;
  l <- wrn (block b1) (Z.to_nat (off b1 + len b1)) d ;;
  Ok (mkbuf ((len b1 + n) mod W64) (max b1) (match blk b1 with Some _ => Some l | None => None end) (off b1)).

(* zt_buf.c:110-120 zt_buf_remove: bytes copied out and the count returned *)
Definition buf_remove (b : buf) (n : Z) : outcome (list Z * Z * buf) :=
  let olen := if n >? len b then len b else n in
  d <- rdn (block b) (Z.to_nat (off b)) (Z.to_nat olen) ;;
  Ok (d, olen, snd (buf_drain b olen)).

(* zt_buf.c:122-129 zt_buf_reserve *)
Definition buf_reserve (b : buf) (n : Z) : outcome buf := if n >? buf_unused b then buf_expand b n else Ok b.

(* zt_buf.c:103-108 zt_buf_add_buf for two different buffers *)
Definition buf_add_buf (a b : buf) : outcome (buf * buf) :=
  d <- rdn (block b) (Z.to_nat (off b)) (Z.to_nat (len b)) ;;
  a' <- buf_add a d ;;
  Ok (a', snd (buf_drain b (len b))).

(* zt_buf.c:131-143 zt_buf_iov_len *)
Definition iov_len (v : list (list Z)) : Z := fold_left (fun n d => (n + Z.of_nat (length d)) mod W64) v 0.
(* zt_buf.c:153-155 the loop of zt_buf_iov_add *)
Fixpoint iov_loop (b : buf) (v : list (list Z)) : outcome buf :=
  match v with [] => Ok b | d :: r => b1 <- buf_add b d ;; iov_loop b1 r end.
(* zt_buf.c:145-158 zt_buf_iov_add *)
Definition buf_iov_add (b : buf) (v : list (list Z)) : outcome buf :=
  b1 <- buf_reserve b (iov_len v) ;; iov_loop b1 v.
