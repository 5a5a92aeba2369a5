(** Programs on any number of arrays and streams: as they run in memory, and as if every array and stream were a value of its own (ArrayModel.v: C17, C18), with a count of the blocks that are dropped. *)
From Verif Require Import Prelude Blocks ArrayModel AmemModel.
Open Scope Z_scope.

(** arrays and streams are named by the order of their creation *)
Inductive aop :=
| ANew (len size : Z) | AWith (data : list Z) (len size : Z) | ACopy (i : nat) (len : Z) | AFree (i : nat) | ASetData (i : nat) (data : list Z) (len size : Z) | AResize (i : nat) (len : Z) | ASetLength (i : nat) (len : Z)
| AGet (i : nat) (o : Z) | APut (i : nat) (o : Z) (e : list Z)
| BNew | BClone (j : nat) | BFree (j : nat) | BTruncate (j : nat) | BRewind (j : nat) | BFlip (j : nat) (f : bool) | BSetData (j : nat) (data : list Z) (len : Z) | BSetArray (j i : nat) (o : Z) | BRead (j : nat) (n : nat) | BWrite (j : nat) (d : list Z).

(** values.  A freed array or stream, or an array given to a stream, is None *)
Record vstate := mkvs { vA : list (option arr); vS : list (option bstream); dropped : nat }.
Definition live {A} (l : list (option A)) (i : nat) : outcome A := match nth_error l i with Some (Some v) => Ok v | _ => UB end.
Definition has_data (a : arr) : nat := match adata a with Some _ => 1 | None => 0 end.
Definition vadd (v : vstate) (a : arr) : vstate := mkvs (vA v ++ [Some a]) (vS v) (dropped v).
Definition vputA (v : vstate) (i : nat) (a : option arr) (n : nat) : vstate := mkvs (upd (vA v) i a) (vS v) (dropped v + n).
Definition vputS (v : vstate) (j : nat) (b : option bstream) (n : nat) : vstate := mkvs (vA v) (upd (vS v) j b) (dropped v + n).
Definition grows (b : bstream) (d : list Z) : bool := Z.of_nat (length d) >? (alen (bdata b) - offt b) mod W64.
Definition vstep (v : vstate) (o : aop) : outcome (list Z * vstate) :=
  match o with
  | ANew len size => a <- array_new len size ;; Ok ([], vadd v a)
  | AWith data len size => a <- array_with (Some data) len size true ;; Ok ([], vadd v a)
  | ACopy i len => a <- live (vA v) i ;; c <- array_copy a len ;; Ok ([], vadd v c)
  | AFree i => a <- live (vA v) i ;; Ok ([], vputA v i None 0)
  | ASetData i data len size => a <- live (vA v) i ;; c <- array_set_data (Some data) len size true ;; Ok ([], vputA v i (Some c) (has_data a))
  | AResize i len => a <- live (vA v) i ;; c <- array_resize a len ;; Ok ([], vputA v i (Some c) (if alen a =? 0 then has_data a else 0))
  | ASetLength i len => a <- live (vA v) i ;; let '(r, c) := array_set_length a len in Ok ([r], vputA v i (Some c) 0)
  | AGet i o => a <- live (vA v) i ;; e <- array_elem_copy a o ;; Ok (e, v)
  | APut i o e => a <- live (vA v) i ;; c <- array_put a o e ;; Ok ([], vputA v i (Some c) 0)
  | BNew => b <- bs_new ;; Ok ([], mkvs (vA v) (vS v ++ [Some b]) (dropped v))
  | BClone j => b <- live (vS v) j ;; c <- bs_clone b ;; Ok ([], mkvs (vA v) (vS v ++ [Some c]) (dropped v))
  | BFree j => b <- live (vS v) j ;; Ok ([], vputS v j None 0)
  | BTruncate j => b <- live (vS v) j ;; let '(r, c) := bs_truncate b in Ok ([r], vputS v j (Some c) 0)
  | BRewind j => b <- live (vS v) j ;; let '(r, c) := bs_rewind b in Ok ([r], vputS v j (Some c) 0)
  | BFlip j f => b <- live (vS v) j ;; Ok ([], vputS v j (Some (mkbs f (offt b) (bdata b))) 0)
  | BSetData j data len => b <- live (vS v) j ;; c <- bs_set_data b (Some data) len true ;; Ok ([], vputS v j (Some c) (has_data (bdata b)))
  | BSetArray j i o => b <- live (vS v) j ;; a <- live (vA v) i ;; Ok ([], vputS (vputA v i None 0) j (Some (bs_set_array b a o)) 0)
  | BRead j n => b <- live (vS v) j ;; ' (d, c) <- bs_read b n ;; Ok (d, vputS v j (Some c) 0)
  | BWrite j d => b <- live (vS v) j ;; c <- bs_write b d ;; Ok ([], vputS v j (Some c) (if grows b d && (alen (bdata b) =? 0) then has_data (bdata b) else 0))
  end.
Fixpoint vrun (v : vstate) (os : list aop) : outcome (list (list Z) * vstate) :=
  match os with [] => Ok ([], v) | o :: os => ' (r, v) <- vstep v o ;; ' (l, v) <- vrun v os ;; Ok (r :: l, v) end.

(** in memory: the program's variables hold the addresses *)
Record pstate := mkps { pm : mem; pA : list nat; pS : list nat }.
Section M.
Variable pick : nat -> list nat -> nat.
Definition pstep (p : pstate) (o : aop) : outcome (list Z * pstate) :=
  let m := pm p in
  let a i := here (nth_error (pA p) i) in let s j := here (nth_error (pS p) j) in
  let quiet (x : outcome mem) := m <- x ;; Ok ([], mkps m (pA p) (pS p)) in
  let newA (x : outcome (mem * nat)) := ' (m, x) <- x ;; Ok ([], mkps m (pA p ++ [x]) (pS p)) in
  let newS (x : outcome (mem * nat)) := ' (m, x) <- x ;; Ok ([], mkps m (pA p) (pS p ++ [x])) in
  let says (x : outcome (Z * mem)) := ' (r, m) <- x ;; Ok ([r], mkps m (pA p) (pS p)) in
  match o with
  | ANew len size => newA (m_new pick m len size)
  | AWith data len size => newA (m_with pick m (Some data) len size)
  | ACopy i len => x <- a i ;; newA (m_copy pick m x len)
  | AFree i => x <- a i ;; quiet (m_free m x)
  | ASetData i data len size => x <- a i ;; quiet (m_set_data pick m x (Some data) len size)
  | AResize i len => x <- a i ;; quiet (m_resize pick m x len)
  | ASetLength i len => x <- a i ;; says (m_set_length m x len)
  | AGet i o => x <- a i ;; e <- m_get m x o ;; Ok (e, p)
  | APut i o e => x <- a i ;; quiet (m_put m x o e)
  | BNew => newS (s_new pick m)
  | BClone j => x <- s j ;; newS (s_clone pick m x)
  | BFree j => x <- s j ;; quiet (s_free m x)
  | BTruncate j => x <- s j ;; says (s_truncate m x)
  | BRewind j => x <- s j ;; says (s_rewind m x)
  | BFlip j f => x <- s j ;; quiet (s_flip m x f)
  | BSetData j data len => x <- s j ;; quiet (s_set_data pick m x (Some data) len)
  | BSetArray j i o => x <- s j ;; y <- a i ;; quiet (s_set_array m x y o)
  | BRead j n => x <- s j ;; ' (d, m) <- s_read m x n ;; Ok (d, mkps m (pA p) (pS p))
  | BWrite j d => x <- s j ;; quiet (s_write pick m x d)
  end.
Fixpoint prun (p : pstate) (os : list aop) : outcome (list (list Z) * pstate) :=
  match os with [] => Ok ([], p) | o :: os => ' (r, p) <- pstep p o ;; ' (l, p) <- prun p os ;; Ok (r :: l, p) end.
End M.
Definition pstart : pstate := mkps (mkmem [] [] [] 0) [] [].
Definition vstart : vstate := mkvs [] [] 0.

(** which blocks of memory belong to which array: address of the header, the array, address of its data *)
Definition item : Type := nat * arr * option nat.
Definition ihdr (i : item) : nat * ahdr := let '(x, v, p) := i in (x, mkah (alen v) (asize v) p).
Definition iblk (i : item) : list (nat * (bool * list (option Z))) := let '(_, v, p) := i in match p, adata v with Some p, Some l => [(p, (true, l))] | _, _ => [] end.
Definition iok (i : item) : Prop := let '(_, v, p) := i in match p, adata v with Some _, Some _ | None, None => True | _, _ => False end.
