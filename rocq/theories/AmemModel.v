(** Model of src/libzt/zt_array.c and src/libzt/zt_bstream.c with the memory they use: every array and every stream is a block of its own, an array's data another one, all of them at addresses
    the C library picks among those not in use.  What is computed with the bytes is in ArrayModel.v; here it is which block is allocated, pointed to and freed.
    Simplifications: allocation succeeds; a header is one cell, data blocks are lists of bytes; realloc frees the old block and allocates a new one (at the same address or another). *)
From Verif Require Import Prelude Blocks ArrayModel.
Open Scope Z_scope.

(** blocks of one kind: association lists *)
Fixpoint aget {A} (l : list (nat * A)) (x : nat) : option A := match l with [] => None | (y, v) :: l => if (y =? x)%nat then Some v else aget l x end.
Definition aput {A} (l : list (nat * A)) (x : nat) (v : A) : list (nat * A) := map (fun c => if (fst c =? x)%nat then (x, v) else c) l.
Definition adel {A} (l : list (nat * A)) (x : nat) : list (nat * A) := filter (fun c => negb (fst c =? x)%nat) l.
Definition here {A} (o : option A) : outcome A := match o with Some v => Ok v | None => UB end.

(* zt_array.h:11-15 struct zt_array; zt_bstream.h:8-13 struct zt_bstream *)
Record ahdr := mkah { hlen : Z; hsize : Z; hdata : option nat }.
Record strm := mkst { sflip : bool; soff : Z; sarr : nat }.
(** data blocks come from malloc ([true]) or are other memory of the program ([false]) *)
Record mem := mkmem { blk : list (nat * (bool * list (option Z))); hdr : list (nat * ahdr); str : list (nat * strm); clk : nat }.
Definition taken (m : mem) : list nat := map fst (blk m) ++ map fst (hdr m) ++ map fst (str m).

Section Amem.
Variable pick : nat -> list nat -> nat.
Definition new_blk (m : mem) (l : list (option Z)) : mem * nat := let p := pick (clk m) (taken m) in (mkmem ((p, (true, l)) :: blk m) (hdr m) (str m) (S (clk m)), p).
Definition new_hdr (m : mem) (h : ahdr) : mem * nat := let x := pick (clk m) (taken m) in (mkmem (blk m) ((x, h) :: hdr m) (str m) (S (clk m)), x).
Definition new_str (m : mem) (s : strm) : mem * nat := let x := pick (clk m) (taken m) in (mkmem (blk m) (hdr m) ((x, s) :: str m) (S (clk m)), x).
Definition set_hdr (m : mem) (x : nat) (h : ahdr) : mem := mkmem (blk m) (aput (hdr m) x h) (str m) (clk m).
Definition set_str (m : mem) (x : nat) (s : strm) : mem := mkmem (blk m) (hdr m) (aput (str m) x s) (clk m).
Definition set_blk (m : mem) (p : nat) (l : list (option Z)) : outcome mem := ' (b, _) <- here (aget (blk m) p) ;; Ok (mkmem (aput (blk m) p (b, l)) (hdr m) (str m) (clk m)).
(** free(p): only what came from malloc and is still in use; free(NULL) does nothing *)
Definition free_blk (m : mem) (p : option nat) : outcome mem :=
  match p with None => Ok m | Some p => ' (b, _) <- here (aget (blk m) p) ;; if (b : bool) then Ok (mkmem (adel (blk m) p) (hdr m) (str m) (clk m)) else UB end.
(** the array at x, as ArrayModel sees it *)
Definition load (m : mem) (x : nat) : outcome arr :=
  h <- here (aget (hdr m) x) ;; match hdata h with None => Ok (mkarr (hlen h) (hsize h) None) | Some p => ' (_, l) <- here (aget (blk m) p) ;; Ok (mkarr (hlen h) (hsize h) (Some l)) end.

(** a data block for contents d, or NULL *)
Definition new_data (m : mem) (d : option (list (option Z))) : mem * option nat := match d with None => (m, None) | Some l => let '(m, p) := new_blk m l in (m, Some p) end.
(* zt_array.c:20-35 zt_array_new; 101-116 zt_array_copy: header and data of the array v (computed by ArrayModel) *)
Definition place (m : mem) (v : arr) : mem * nat :=
  let '(m, x) := new_hdr m (mkah 0 0 None) in let '(m, p) := new_data m (adata v) in (set_hdr m x (mkah (alen v) (asize v) p), x).
Definition m_new (m : mem) (len size : Z) : outcome (mem * nat) := v <- array_new len size ;; Ok (place m v).
Definition m_copy (m : mem) (x : nat) (len : Z) : outcome (mem * nat) := a <- load m x ;; v <- array_copy a len ;; Ok (place m v).
(* zt_array.c:37-43 zt_array_free *)
Definition m_free (m : mem) (x : nat) : outcome mem := h <- here (aget (hdr m) x) ;; m <- free_blk m (hdata h) ;; Ok (mkmem (blk m) (adel (hdr m) x) (str m) (clk m)).
(* zt_array.c:45-58 zt_array_set_data with copy: the old data pointer is overwritten *)
Definition m_set_data (m : mem) (x : nat) (data : option (list Z)) (len size : Z) : outcome mem :=
  _ <- here (aget (hdr m) x) ;; v <- array_set_data data len size true ;; let '(m, p) := new_data m (adata v) in Ok (set_hdr m x (mkah (alen v) (asize v) p)).
(* zt_array.c:45-58 without copy: the caller's pointer is stored *)
Definition m_set_ref (m : mem) (x : nat) (data : option nat) (len size : Z) : outcome mem :=
  _ <- here (aget (hdr m) x) ;; _ <- guard (match data with Some _ => len >? 0 | None => len =? 0 end) ;; _ <- guard (size >? 0) ;; Ok (set_hdr m x (mkah len size data)).
(* zt_array.c:60-70 zt_array_with *)
Definition m_with (m : mem) (data : option (list Z)) (len size : Z) : outcome (mem * nat) := let '(m, x) := new_hdr m (mkah 0 0 None) in m <- m_set_data m x data len size ;; Ok (m, x).
Definition m_with_ref (m : mem) (data : option nat) (len size : Z) : outcome (mem * nat) := let '(m, x) := new_hdr m (mkah 0 0 None) in m <- m_set_ref m x data len size ;; Ok (m, x).
(* zt_array.c:78-99 zt_array_resize: calloc if the length is 0 (whatever the data pointer is), else realloc *)
Definition m_resize (m : mem) (x : nat) (len : Z) : outcome mem :=
  h <- here (aget (hdr m) x) ;;
  _ <- guard (len >? 0) ;;
  if hlen h =? 0 then
    let '(m, p) := new_blk m (zeros ((len * hsize h) mod W64)) in Ok (set_hdr m x (mkah len (hsize h) (Some p)))
  else
    a <- load m x ;; m <- free_blk m (hdata h) ;; v <- array_resize a len ;; let '(m, p) := new_data m (adata v) in Ok (set_hdr m x (mkah len (hsize h) p)).
(* zt_array.c:125-136 zt_array_set_length *)
Definition m_set_length (m : mem) (x : nat) (len : Z) : outcome (Z * mem) := h <- here (aget (hdr m) x) ;; Ok (hlen h, set_hdr m x (mkah len (hsize h) (hdata h))).
(** writing through the data pointer *)
Definition store (m : mem) (x : nat) (v : arr) : outcome mem :=
  h <- here (aget (hdr m) x) ;; match hdata h, adata v with Some p, Some l => set_blk m p l | None, None => Ok m | _, _ => UB end.
(* zt_array.c:154-163 zt_array_elem_copy, 179-189 zt_array_put *)
Definition m_get (m : mem) (x : nat) (o : Z) : outcome (list Z) := a <- load m x ;; array_elem_copy a o.
Definition m_put (m : mem) (x : nat) (o : Z) (e : list Z) : outcome mem := a <- load m x ;; v <- array_put a o e ;; store m x v.

(* zt_bstream.c:88-97 zt_bstream_new *)
Definition s_new (m : mem) : outcome (mem * nat) := let '(m, s) := new_str m (mkst false 0 0) in ' (m, x) <- m_new m 0 1 ;; Ok (set_str m s (mkst false 0 x), s).
(* zt_bstream.c:99-110 zt_bstream_clone *)
Definition s_clone (m : mem) (s : nat) : outcome (mem * nat) :=
  b <- here (aget (str m) s) ;; let '(m, t) := new_str m (mkst false 0 0) in
  h <- here (aget (hdr m) (sarr b)) ;; ' (m, x) <- m_copy m (sarr b) (hlen h) ;; Ok (set_str m t (mkst false (soff b) x), t).
(* zt_bstream.c:112-120 zt_bstream_free *)
Definition s_free (m : mem) (s : nat) : outcome mem := b <- here (aget (str m) s) ;; m <- m_free m (sarr b) ;; Ok (mkmem (blk m) (hdr m) (adel (str m) s) (clk m)).
(* zt_bstream.c:48-54 zt_bstream_truncate *)
Definition s_truncate (m : mem) (s : nat) : outcome (Z * mem) := b <- here (aget (str m) s) ;; m_set_length m (sarr b) 0.
(* zt_bstream.c:75-86 zt_bstream_rewind *)
Definition s_rewind (m : mem) (s : nat) : outcome (Z * mem) := b <- here (aget (str m) s) ;; Ok (soff b, set_str m s (mkst (sflip b) 0 (sarr b))).
(** assigning to the public field flipendian *)
Definition s_flip (m : mem) (s : nat) (f : bool) : outcome mem := b <- here (aget (str m) s) ;; Ok (set_str m s (mkst f (soff b) (sarr b))).
(* zt_bstream.c:56-62 zt_bstream_set_data with copy *)
Definition s_set_data (m : mem) (s : nat) (data : option (list Z)) (len : Z) : outcome mem := b <- here (aget (str m) s) ;; m_set_data m (sarr b) data len 1.
(* zt_bstream.c:64-73 zt_bstream_set_array *)
Definition s_set_array (m : mem) (s x : nat) (o : Z) : outcome mem := b <- here (aget (str m) s) ;; m <- m_free m (sarr b) ;; Ok (set_str m s (mkst (sflip b) o x)).
(* zt_bstream.c:122-131 zt_bstream_read *)
Definition s_read (m : mem) (s : nat) (n : nat) : outcome (list Z * mem) :=
  b <- here (aget (str m) s) ;; a <- load m (sarr b) ;; ' (d, o) <- array_get_all a (soff b) n (sflip b) ;; Ok (d, set_str m s (mkst (sflip b) o (sarr b))).
(* zt_bstream.c:175-193 zt_bstream_write *)
Definition s_write (m : mem) (s : nat) (d : list Z) : outcome mem :=
  b <- here (aget (str m) s) ;; h <- here (aget (hdr m) (sarr b)) ;;
  m <- (if Z.of_nat (length d) >? (hlen h - soff b) mod W64 then m_resize m (sarr b) (((hlen h + Z.of_nat (length d)) mod W64 * 2) mod W64) else Ok m) ;;
  a <- load m (sarr b) ;; ' (o, v) <- array_put_all a d (soff b) (sflip b) ;; m <- store m (sarr b) v ;; Ok (set_str m s (mkst (sflip b) o (sarr b))).
End Amem.
