(** Model of src/libzt/zt_array.c and src/libzt/zt_bstream.c.  The data block is a list of bytes ([None] = never
    written) or NULL.  size_t arithmetic wraps at 2^64.  Simplifications: allocation succeeds, calloc(0) returns a
    non-NULL pointer (glibc); blocks that become unreachable (set_data) are not tracked. *)
From Verif Require Import Prelude Blocks.
Open Scope Z_scope.

Definition W64 : Z := 18446744073709551616.
(* zt_array.h:11-15 *)
Record arr := mkarr { alen : Z; asize : Z; adata : option (list (option Z)) }.
Definition ablock (a : arr) : list (option Z) := match adata a with Some l => l | None => [] end.
Definition zeros (n : Z) : list (option Z) := repeat (Some 0) (Z.to_nat n).

(* zt_array.c:6-17 arrayrep_init *)
Definition arrayrep_init (len size : Z) (d : option (list (option Z))) : outcome arr :=
  _ <- guard (match d with Some _ => len >? 0 | None => len =? 0 end) ;;
  _ <- guard (size >? 0) ;;
  Ok (mkarr len size d).

(* zt_array.c:20-35 zt_array_new *)
Definition array_new (len size : Z) : outcome arr :=
  if len >? 0 then arrayrep_init len size (Some (zeros ((len * size) mod W64)))
  else arrayrep_init len size None.

(* zt_array.c:45-58 zt_array_set_data (the old contents are simply replaced), data being the caller's bytes (NULL = None) *)
Definition array_set_data (data : option (list Z)) (len size : Z) (copy : bool) : outcome arr :=
  if copy then
    let n := (len * size) mod W64 in
    a <- arrayrep_init len size (Some (zeros n)) ;;
    src <- (match data with Some d => Ok d | None => UB end) ;;
    d <- rdn (map Some src) 0 (Z.to_nat n) ;;
    b <- wrn (ablock a) 0 d ;;
    Ok (mkarr (alen a) (asize a) (Some b))
  else arrayrep_init len size (option_map (map Some) data).

(* zt_array.c:60-70 zt_array_with *)
Definition array_with := array_set_data.
(* zt_array.c:72-76 zt_array_with_cstr, str without its NUL *)
Definition array_with_cstr (s : list Z) : outcome arr := array_with (Some s) (Z.of_nat (length s)) 1 true.

(* zt_array.c:78-99 zt_array_resize *)
Definition array_resize (a : arr) (len : Z) : outcome arr :=
  _ <- guard (len >? 0) ;;
  let n := (len * asize a) mod W64 in
  if alen a =? 0 then Ok (mkarr len (asize a) (Some (zeros n))) else
  (* realloc *)
  let l := firstn (Z.to_nat n) (ablock a) ++ repeat None (Z.to_nat n - length (ablock a)) in
  if len >? alen a then
    let rlen := len - alen a in
    let k := (rlen * asize a) mod W64 in
    b <- wrn l (Z.to_nat ((alen a * asize a) mod W64)) (repeat 0 (Z.to_nat k)) ;;
    Ok (mkarr len (asize a) (Some b))
  else Ok (mkarr len (asize a) (Some l)).

(* zt_array.c:101-116 zt_array_copy *)
Definition array_copy (a : arr) (len : Z) : outcome arr :=
  c <- array_new len (asize a) ;;
  if (alen a >? 0) && (alen c >? 0) then
    d <- rdn (ablock a) 0 (Z.to_nat ((Z.min (alen a) (alen c) * asize c) mod W64)) ;;
    b <- wrn (ablock c) 0 d ;;
    Ok (mkarr (alen c) (asize c) (Some b))
  else Ok c.

(* zt_array.c:118-123, 138-143 *)
Definition array_length (a : arr) : Z := alen a.
(* zt_array.c:125-136 zt_array_set_length: old length and the array *)
Definition array_set_length (a : arr) (len : Z) : Z * arr := (alen a, mkarr len (asize a) (adata a)).

(* zt_array.c:154-163 zt_array_elem_copy: the bytes copied out *)
Definition array_elem_copy (a : arr) (offt : Z) : outcome (list Z) :=
  _ <- guard (offt <? alen a) ;;
  rdn (ablock a) (Z.to_nat ((offt * asize a) mod W64)) (Z.to_nat (asize a)).
(* zt_array.c:165-177 zt_array_get: the address (offset into the block) of the element *)
Definition array_get (a : arr) (offt : Z) : outcome Z :=
  _ <- guard (offt <? alen a) ;;
  Ok ((offt * asize a) mod W64).
(* zt_array.c:179-189 zt_array_put; elem is the caller's element: memcpy reads [size] bytes of it *)
Definition array_put (a : arr) (offt : Z) (elem : list Z) : outcome arr :=
  _ <- guard (offt <? alen a) ;;
  d <- rdn (map Some elem) 0 (Z.to_nat (asize a)) ;;
  b <- wrn (ablock a) (Z.to_nat ((offt * asize a) mod W64)) d ;;
  Ok (mkarr (alen a) (asize a) (match adata a with Some _ => Some b | None => None end)).

(* zt_bstream.h:8-13 *)
Record bstream := mkbs { flip : bool; offt : Z; bdata : arr }.

(* zt_bstream.c:9-12 (13-15 with the bytes already reversed): put one byte after the other *)
Fixpoint put_bytes (a : arr) (o : Z) (s : list Z) : outcome (Z * arr) :=
  match s with
  | [] => Ok (o, a)
  | c :: r => a' <- array_put a o [c] ;; put_bytes a' ((o + 1) mod W64) r
  end.
(* zt_bstream.c:3-18 _array_put *)
Definition array_put_all (a : arr) (s : list Z) (o : Z) (fl : bool) : outcome (Z * arr) :=
  put_bytes a o (if fl then rev s else s).
(* zt_bstream.c:26-37: get n bytes *)
Fixpoint get_bytes (a : arr) (o : Z) (n : nat) : outcome (list Z * Z) :=
  match n with
  | O => Ok ([], o)
  | S n' => p <- array_get a o ;;
            c <- rdn (ablock a) (Z.to_nat p) 1 ;;
            ' (r, o') <- get_bytes a ((o + 1) mod W64) n' ;;
            Ok (c ++ r, o')
  end.
(* zt_bstream.c:20-39 _array_get: the caller's buffer afterwards *)
Definition array_get_all (a : arr) (o : Z) (n : nat) (fl : bool) : outcome (list Z * Z) :=
  ' (d, o') <- get_bytes a o n ;; Ok (if fl then rev d else d, o').

(* zt_bstream.c:89-97 zt_bstream_new *)
Definition bs_new : outcome bstream := a <- array_new 0 1 ;; Ok (mkbs false 0 a).
(* zt_bstream.c:41-46 *)
Definition bs_is_empty (b : bstream) : bool := array_length (bdata b) =? 0.
(* zt_bstream.c:49-54 *)
Definition bs_truncate (b : bstream) : Z * bstream :=
  let '(o, a) := array_set_length (bdata b) 0 in (o, mkbs (flip b) (offt b) a).
(* zt_bstream.c:56-62 *)
Definition bs_set_data (b : bstream) (data : option (list Z)) (len : Z) (copy : bool) : outcome bstream :=
  a <- array_set_data data len 1 copy ;; Ok (mkbs (flip b) (offt b) a).
(* zt_bstream.c:64-73 *)
Definition bs_set_array (b : bstream) (a : arr) (o : Z) : bstream := mkbs (flip b) o a.
(* zt_bstream.c:75-86 *)
Definition bs_rewind (b : bstream) : Z * bstream := (offt b, mkbs (flip b) 0 (bdata b)).
(* zt_bstream.c:99-110 zt_bstream_clone (the calloc leaves flipendian 0) *)
Definition bs_clone (b : bstream) : outcome bstream :=
  a <- array_copy (bdata b) (array_length (bdata b)) ;; Ok (mkbs false (offt b) a).
(* zt_bstream.c:122-131 zt_bstream_read of n = len * size bytes *)
Definition bs_read (b : bstream) (n : nat) : outcome (list Z * bstream) :=
  ' (d, o) <- array_get_all (bdata b) (offt b) n (flip b) ;; Ok (d, mkbs (flip b) o (bdata b)).
(* zt_bstream.c:175-193 zt_bstream_write of the len * size bytes d *)
Definition bs_write (b : bstream) (d : list Z) : outcome bstream :=
  let tlen := Z.of_nat (length d) in
  let al := array_length (bdata b) in
  a <- (if tlen >? (al - offt b) mod W64 then array_resize (bdata b) (((al + tlen) mod W64 * 2) mod W64) else Ok (bdata b)) ;;
  ' (o, a') <- array_put_all a d (offt b) (flip b) ;;
  Ok (mkbs (flip b) o a').

(** host representation of an n-byte unsigned value (little endian) *)
Fixpoint le_bytes (n : nat) (v : Z) : list Z :=
  match n with O => [] | S n' => v mod 256 :: le_bytes n' (v / 256) end.
Fixpoint le_value (l : list Z) : Z := match l with [] => 0 | c :: r => c + 256 * le_value r end.
(* zt_bstream.c:195-235 zt_bstream_write_{byte,uint8,uint16,uint32,uint64,float,double}: n = 1,1,2,4,8,4,8 *)
Definition bs_write_uint (b : bstream) (n : nat) (v : Z) : outcome bstream := bs_write b (le_bytes n v).
(* zt_bstream.c:133-173 zt_bstream_read_{byte,uint8,...} *)
Definition bs_read_uint (b : bstream) (n : nat) : outcome (Z * bstream) := ' (d, b') <- bs_read b n ;; Ok (le_value d, b').
