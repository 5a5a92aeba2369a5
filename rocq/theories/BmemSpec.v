(** Programs on buffers and pointers into them: in memory, and with buffers as byte strings. *)
From Verif Require Import Prelude HeapModel BmemModel.
Local Open Scope Z_scope.

(** buffers, and the pointers zt_buf_get gave, are numbered in the order in which they were made *)
Inductive bin := IOwn (b : list Z) | IPtr (h : nat) (n : Z).       (* bytes of the program's own; the first n bytes at a pointer *)
Inductive bop :=
| BNew | BAdd (i : nat) (s : bin) | BIov (i : nat) (l : list bin) | BAddBuf (i j : nat)   (* the contents of j go to i *)
| BDrain (i : nat) (n : Z) | BRemove (i : nat) (n : Z) | BReserve (i : nat) (n : Z)
| BGet (i : nat) | BLook (h : nat) (n : Z)                        (* ask for the pointer; look at n bytes there *)
| BLen (i : nat) | BFree (i : nat).
Inductive bres := RDone | RNum (z : Z) | RPtr (b : bool) | RBytes (l : list Z) | RTook (l : list Z) (n : Z).   (* the bytes; the number returned *)
Definition live {A} (l : list (option A)) (i : nat) : outcome A := match nth_error l i with Some (Some v) => Ok v | _ => UB end.

(** a buffer: its contents; the bytes drained since it last grew; the size of its block, and the size it takes it for; how often it grew, how often it was emptied *)
Record vb := mkvb { vs : list Z; vdr : Z; vcap : Z; vmax : Z; vgen : nat; vera : nat }.
Definition size (v : vb) : Z := Z.of_nat (length (vs v)).
Definition vnew : vb := mkvb [] 0 0 0 0 0.
(** room for n more bytes; a buffer from which something was drained cannot grow.  Sizes of 2 GB and more are left open (Abort) *)
Definition vgrow (v : vb) (n : Z) : outcome vb :=
  if n >? vmax v - size v then
    _ <- safe (vdr v =? 0) ;; _ <- guard (size v + Z.max 1024 n <? 2147483648) ;;
    Ok (mkvb (vs v) 0 (size v + Z.max 1024 n) (size v + Z.max 1024 n) (S (vgen v)) (vera v))
  else Ok v.
Definition vput (v : vb) (d : list Z) : outcome vb :=
  _ <- safe (vdr v + size v + Z.of_nat (length d) <=? vcap v) ;; Ok (mkvb (vs v ++ d) (vdr v) (vcap v) (vmax v) (vgen v) (vera v)).
Definition vdrain (v : vb) (n : Z) : Z * vb :=
  if n =? 0 then (0, v)
  else if n <? size v then (size v - n, mkvb (skipn (Z.to_nat n) (vs v)) (vdr v + n) (vcap v) (vmax v + vdr v) (vgen v) (vera v))
  else (0, mkvb [] (vdr v) (vcap v) (vmax v) (vgen v) (S (vera v))).
(** a pointer: NULL, or the buffer, how often that had grown and been emptied, and the bytes that were there *)
Record vworld := mkvw { vbufs : list (option vb); vhand : list (option (nat * nat * nat * list Z)) }.
Definition vw0 := mkvw [] [].
(** the bytes at a pointer: those that were there when it was given out, as long as the buffer has not grown and was not emptied *)
Definition vlook (w : vworld) (h : nat) (n : Z) : outcome (list Z) :=
  _ <- guard (0 <=? n) ;;
  match nth_error (vhand w) h with
  | None => UB
  | Some o => if n =? 0 then Ok [] else match o with
      | None => UB
      | Some (j, g, e, b) => v <- live (vbufs w) j ;; _ <- guard (Nat.eqb (vgen v) g && Nat.eqb (vera v) e && (n <=? Z.of_nat (length b))) ;; Ok (firstn (Z.to_nat n) b)
      end end.
Definition vbytes (w : vworld) (s : bin) : outcome (list Z) := match s with IOwn b => Ok b | IPtr h n => vlook w h n end.
Definition inlen (s : bin) : Z := match s with IOwn b => Z.of_nat (length b) | IPtr _ n => n end.
Definition vset (w : vworld) (i : nat) (v : vb) : vworld := mkvw (upd (vbufs w) i (Some v)) (vhand w).
(** the bytes are looked at after the buffer has grown *)
Definition vadd (w : vworld) (i : nat) (s : bin) : outcome vworld :=
  v <- live (vbufs w) i ;; v <- vgrow v (inlen s) ;; let w := vset w i v in
  d <- vbytes w s ;; v <- vput v d ;; Ok (vset w i v).
Fixpoint vadds (w : vworld) (i : nat) (l : list bin) : outcome vworld := match l with [] => Ok w | s :: l => w <- vadd w i s ;; vadds w i l end.
Definition total (l : list bin) : Z := fold_right (fun s n => inlen s + n) 0 l.
Definition vstep (w : vworld) (o : bop) : outcome (bres * vworld) :=
  match o with
  | BNew => Ok (RDone, mkvw (vbufs w ++ [Some vnew]) (vhand w))
  | BAdd i s => w <- vadd w i s ;; Ok (RNum 0, w)
  | BIov i l =>
      _ <- guard (forallb (fun s => 0 <=? inlen s) l && (total l <? 2147483648)) ;;
      v <- live (vbufs w) i ;; v <- vgrow v (total l) ;; w <- vadds (vset w i v) i l ;; Ok (RNum 0, w)
  | BAddBuf i j =>
      vi <- live (vbufs w) i ;; vj <- live (vbufs w) j ;;
      v <- vgrow vi (size vj) ;; _ <- safe (negb (Nat.eqb i j) || Nat.eqb (vgen v) (vgen vi)) ;;
      v <- vput v (vs vj) ;; let w := vset w i v in
      vj <- live (vbufs w) j ;; Ok (RNum 0, vset w j (snd (vdrain vj (size vj))))
  | BDrain i n => _ <- guard (0 <=? n) ;; v <- live (vbufs w) i ;; let '(r, v) := vdrain v n in Ok (RNum r, vset w i v)
  | BRemove i n => _ <- guard (0 <=? n) ;; v <- live (vbufs w) i ;; Ok (RTook (firstn (Z.to_nat n) (vs v)) (Z.min n (size v)), vset w i (snd (vdrain v (Z.min n (size v)))))
  | BReserve i n => _ <- guard (0 <=? n) ;; v <- live (vbufs w) i ;; v <- vgrow v n ;; Ok (RNum 0, vset w i v)
  | BGet i =>
      v <- live (vbufs w) i ;;
      match vs v with [] => Ok (RPtr false, mkvw (vbufs w) (vhand w ++ [None])) | b => Ok (RPtr true, mkvw (vbufs w) (vhand w ++ [Some (i, vgen v, vera v, b)])) end
  | BLook h n => b <- vlook w h n ;; Ok (RBytes b, w)
  | BLen i => v <- live (vbufs w) i ;; Ok (RNum (size v), w)
  | BFree i => _ <- live (vbufs w) i ;; Ok (RDone, mkvw (upd (vbufs w) i None) (vhand w))
  end.
Fixpoint vrun (w : vworld) (os : list bop) : outcome (list bres * vworld) :=
  match os with [] => Ok ([], w) | o :: os => ' (r, w) <- vstep w o ;; ' (l, w) <- vrun w os ;; Ok (r :: l, w) end.

(** in memory: the addresses of the open buffers, and the pointers given out *)
Record bworld := mkbw { bm : bmem; bbufs : list (option nat); bhand : list bptr }.
Definition bw0 := mkbw (mkhp [] 0) [] [].
Definition source (w : bworld) (s : bin) : outcome bsrc := match s with IOwn b => Ok (Own b) | IPtr h n => match nth_error (bhand w) h with Some p => Ok (At p n) | None => UB end end.
Fixpoint sources (w : bworld) (l : list bin) : outcome (list bsrc) := match l with [] => Ok [] | s :: l => x <- source w s ;; y <- sources w l ;; Ok (x :: y) end.
Section P.
Variable pick : nat -> list nat -> nat.
Definition bstep (w : bworld) (o : bop) : outcome (bres * bworld) :=
  match o with
  | BNew => let '(a, m) := m_new pick (bm w) in Ok (RDone, mkbw m (bbufs w ++ [Some a]) (bhand w))
  | BAdd i s => a <- live (bbufs w) i ;; s <- source w s ;; m <- m_add pick (bm w) a s ;; Ok (RNum 0, mkbw m (bbufs w) (bhand w))
  | BIov i l => a <- live (bbufs w) i ;; l <- sources w l ;; m <- m_iov_add pick (bm w) a l ;; Ok (RNum 0, mkbw m (bbufs w) (bhand w))
  | BAddBuf i j => a <- live (bbufs w) i ;; b <- live (bbufs w) j ;; m <- m_add_buf pick (bm w) a b ;; Ok (RNum 0, mkbw m (bbufs w) (bhand w))
  | BDrain i n => a <- live (bbufs w) i ;; ' (r, m) <- m_drain (bm w) a n ;; Ok (RNum r, mkbw m (bbufs w) (bhand w))
  | BRemove i n => a <- live (bbufs w) i ;; ' (d, k, m) <- m_remove (bm w) a n ;; Ok (RTook d k, mkbw m (bbufs w) (bhand w))
  | BReserve i n => a <- live (bbufs w) i ;; m <- m_reserve pick (bm w) a n ;; Ok (RNum 0, mkbw m (bbufs w) (bhand w))
  | BGet i => a <- live (bbufs w) i ;; p <- m_get (bm w) a ;; Ok (RPtr (match p with Some _ => true | None => false end), mkbw (bm w) (bbufs w) (bhand w ++ [p]))
  | BLook h n => match nth_error (bhand w) h with Some p => b <- rd_at (bm w) p n ;; Ok (RBytes b, w) | None => UB end
  | BLen i => a <- live (bbufs w) i ;; n <- m_length (bm w) a ;; Ok (RNum n, w)
  | BFree i => a <- live (bbufs w) i ;; m <- m_free (bm w) a ;; Ok (RDone, mkbw m (upd (bbufs w) i None) (bhand w))
  end.
Fixpoint brun (w : bworld) (os : list bop) : outcome (list bres * bworld) :=
  match os with [] => Ok ([], w) | o :: os => ' (r, w) <- bstep w o ;; ' (l, w) <- brun w os ;; Ok (r :: l, w) end.
End P.
