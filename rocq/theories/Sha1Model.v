(** Model of src/libzt/zt_sha1.c (little-endian host: HOST_BIGENDIAN not defined).  uint32_t values are Z in [0, 2^32), bytes Z in [0, 256).
    Simplifications: the cast of a byte buffer to a union with uint32_t members is modelled as little-endian word access; alignment and
    strict-aliasing are not modelled. *)
From Verif Require Import Prelude CstrModel.
Open Scope Z_scope.

Definition W32 : Z := 4294967296.
(* zt_sha1.c:28 rol *)
Definition rol (v b : Z) : Z := Z.lor (Z.shiftl v b mod W32) (Z.shiftr v (32 - b)).
Definition add32 (x y : Z) : Z := (x + y) mod W32.

(* the five local variables a, b, c, d, e of zt_sha1.c:54-58 *)
Inductive var := Va | Vb | Vc | Vd | Ve.
Record regs := mkregs { ra : Z; rb : Z; rc : Z; rd_ : Z; re : Z }.
Definition get (r : regs) (v : var) : Z := match v with Va => ra r | Vb => rb r | Vc => rc r | Vd => rd_ r | Ve => re r end.
Definition set (r : regs) (v : var) (x : Z) : regs :=
  match v with
  | Va => mkregs x (rb r) (rc r) (rd_ r) (re r) | Vb => mkregs (ra r) x (rc r) (rd_ r) (re r) | Vc => mkregs (ra r) (rb r) x (rd_ r) (re r)
  | Vd => mkregs (ra r) (rb r) (rc r) x (re r) | Ve => mkregs (ra r) (rb r) (rc r) (rd_ r) x
  end.

(* zt_sha1.c:35-36 blk0(i): the value, and the block after the assignment *)
Definition swap (w : Z) : Z := Z.lor (Z.land (rol w 24) 0xFF00FF00) (Z.land (rol w 8) 0x00FF00FF).
Definition blk0 (l : list Z) (i : nat) : Z * list Z := let v := swap (nth i l 0) in (v, upd l i v).
(* zt_sha1.c:39-40 blk(i) *)
Definition blk (l : list Z) (i : nat) : Z * list Z :=
  let at_ k := nth (k mod 16)%nat l 0 in
  let v := rol (Z.lxor (Z.lxor (Z.lxor (at_ (i + 13)%nat) (at_ (i + 8)%nat)) (at_ (i + 2)%nat)) (at_ i)) 1 in
  (v, upd l (i mod 16) v).

Inductive kind := R0 | R1 | R2 | R3 | R4.
(* zt_sha1.c:43-47 the function and the constant of each kind *)
Definition mix (k : kind) (w x y : Z) : Z :=
  match k with
  | R0 | R1 => Z.lxor (Z.land w (Z.lxor x y)) y
  | R2 | R4 => Z.lxor (Z.lxor w x) y
  | R3 => Z.lor (Z.land (Z.lor w x) y) (Z.land w x)
  end.
Definition konst (k : kind) : Z := match k with R0 | R1 => 0x5A827999 | R2 => 0x6ED9EBA1 | R3 => 0x8F1BBCDC | R4 => 0xCA62C1D6 end.
Record round := rd { rk : kind; rv : var; rw : var; rx : var; ry : var; rz : var; ri : nat }.
(* zt_sha1.c:43-47 R0 ... R4: z += mix + blk + konst + rol(v, 5); w = rol(w, 30); *)
Definition do_round (s : regs * list Z) (r : round) : regs * list Z :=
  let '(g, l) := s in
  let '(m, l') := match rk r with R0 => blk0 l (ri r) | _ => blk l (ri r) end in
  let g1 := set g (rz r) (add32 (get g (rz r)) (add32 (add32 (add32 (mix (rk r) (get g (rw r)) (get g (rx r)) (get g (ry r))) m) (konst (rk r))) (rol (get g (rv r)) 5))) in
  (set g1 (rw r) (rol (get g1 (rw r)) 30), l').

(* zt_sha1.c:71-91, one entry per macro call *)
Definition rounds : list round := [
   rd R0 Va Vb Vc Vd Ve 0; rd R0 Ve Va Vb Vc Vd 1; rd R0 Vd Ve Va Vb Vc 2; rd R0 Vc Vd Ve Va Vb 3;
   rd R0 Vb Vc Vd Ve Va 4; rd R0 Va Vb Vc Vd Ve 5; rd R0 Ve Va Vb Vc Vd 6; rd R0 Vd Ve Va Vb Vc 7;
   rd R0 Vc Vd Ve Va Vb 8; rd R0 Vb Vc Vd Ve Va 9; rd R0 Va Vb Vc Vd Ve 10; rd R0 Ve Va Vb Vc Vd 11;
   rd R0 Vd Ve Va Vb Vc 12; rd R0 Vc Vd Ve Va Vb 13; rd R0 Vb Vc Vd Ve Va 14; rd R0 Va Vb Vc Vd Ve 15;
   rd R1 Ve Va Vb Vc Vd 16; rd R1 Vd Ve Va Vb Vc 17; rd R1 Vc Vd Ve Va Vb 18; rd R1 Vb Vc Vd Ve Va 19;
   rd R2 Va Vb Vc Vd Ve 20; rd R2 Ve Va Vb Vc Vd 21; rd R2 Vd Ve Va Vb Vc 22; rd R2 Vc Vd Ve Va Vb 23;
   rd R2 Vb Vc Vd Ve Va 24; rd R2 Va Vb Vc Vd Ve 25; rd R2 Ve Va Vb Vc Vd 26; rd R2 Vd Ve Va Vb Vc 27;
   rd R2 Vc Vd Ve Va Vb 28; rd R2 Vb Vc Vd Ve Va 29; rd R2 Va Vb Vc Vd Ve 30; rd R2 Ve Va Vb Vc Vd 31;
   rd R2 Vd Ve Va Vb Vc 32; rd R2 Vc Vd Ve Va Vb 33; rd R2 Vb Vc Vd Ve Va 34; rd R2 Va Vb Vc Vd Ve 35;
   rd R2 Ve Va Vb Vc Vd 36; rd R2 Vd Ve Va Vb Vc 37; rd R2 Vc Vd Ve Va Vb 38; rd R2 Vb Vc Vd Ve Va 39;
   rd R3 Va Vb Vc Vd Ve 40; rd R3 Ve Va Vb Vc Vd 41; rd R3 Vd Ve Va Vb Vc 42; rd R3 Vc Vd Ve Va Vb 43;
   rd R3 Vb Vc Vd Ve Va 44; rd R3 Va Vb Vc Vd Ve 45; rd R3 Ve Va Vb Vc Vd 46; rd R3 Vd Ve Va Vb Vc 47;
   rd R3 Vc Vd Ve Va Vb 48; rd R3 Vb Vc Vd Ve Va 49; rd R3 Va Vb Vc Vd Ve 50; rd R3 Ve Va Vb Vc Vd 51;
   rd R3 Vd Ve Va Vb Vc 52; rd R3 Vc Vd Ve Va Vb 53; rd R3 Vb Vc Vd Ve Va 54; rd R3 Va Vb Vc Vd Ve 55;
   rd R3 Ve Va Vb Vc Vd 56; rd R3 Vd Ve Va Vb Vc 57; rd R3 Vc Vd Ve Va Vb 58; rd R3 Vb Vc Vd Ve Va 59;
   rd R4 Va Vb Vc Vd Ve 60; rd R4 Ve Va Vb Vc Vd 61; rd R4 Vd Ve Va Vb Vc 62; rd R4 Vc Vd Ve Va Vb 63;
   rd R4 Vb Vc Vd Ve Va 64; rd R4 Va Vb Vc Vd Ve 65; rd R4 Ve Va Vb Vc Vd 66; rd R4 Vd Ve Va Vb Vc 67;
   rd R4 Vc Vd Ve Va Vb 68; rd R4 Vb Vc Vd Ve Va 69; rd R4 Va Vb Vc Vd Ve 70; rd R4 Ve Va Vb Vc Vd 71;
   rd R4 Vd Ve Va Vb Vc 72; rd R4 Vc Vd Ve Va Vb 73; rd R4 Vb Vc Vd Ve Va 74; rd R4 Va Vb Vc Vd Ve 75;
   rd R4 Ve Va Vb Vc Vd 76; rd R4 Vd Ve Va Vb Vc 77; rd R4 Vc Vd Ve Va Vb 78; rd R4 Vb Vc Vd Ve Va 79].

(* l[i] of the union: little-endian words of the 64 bytes *)
Fixpoint le_words (l : list Z) : list Z :=
  match l with b0 :: b1 :: b2 :: b3 :: r => b0 + b1 * 256 + b2 * 65536 + b3 * 16777216 :: le_words r | _ => [] end.
Definition word_le (w : Z) : list Z := [w mod 256; w / 256 mod 256; w / 65536 mod 256; w / 16777216 mod 256].
(* zt_sha1.c:51-99 _sha1_transform: the new state and the buffer as it is left behind *)
Definition transform (st : regs) (buffer : list Z) : regs * list Z :=
  let '(g, l) := fold_left do_round rounds (st, le_words buffer) in
  (mkregs (add32 (ra st) (ra g)) (add32 (rb st) (rb g)) (add32 (rc st) (rc g)) (add32 (rd_ st) (rd_ g)) (add32 (re st) (re g)),
   concat (map word_le l)).

(* zt_sha1.h:22-26 struct zt_sha1_ctx *)
Record ctx := mkctx { state : regs; count0 : Z; count1 : Z; buffer : list Z }.
(* zt_sha1.c:101-111 zt_sha1_init; [junk] is what the 64-byte buffer contains before *)
Definition sha1_init (junk : list Z) : ctx := mkctx (mkregs 0x67452301 0xEFCDAB89 0x98BADCFE 0x10325476 0xC3D2E1F0) 0 0 junk.

(* memcpy of src[from .. from+n) to dst[at ..) *)
Definition copy (dst : list Z) (at_ : Z) (src : list Z) (from n : Z) : outcome (list Z) :=
  if (0 <=? n) && (0 <=? from) && (from + n <=? zlen src) && (0 <=? at_) && (at_ + n <=? zlen dst)
  then Ok (firstn (Z.to_nat at_) dst ++ firstn (Z.to_nat n) (skipn (Z.to_nat from) src) ++ skipn (Z.to_nat (at_ + n)) dst) else UB.

(* zt_sha1.c:132-134 the loop over whole blocks of the caller's data; returns the state, the data as left behind, and i *)
Fixpoint update_loop (fuel : nat) (st : regs) (data : list Z) (i llen : Z) : outcome (regs * list Z * Z) :=
  if (i + 63) mod W32 <? llen then
    match fuel with
    | O => Loop
    | S f =>
        if (i + 64 <=? zlen data) then
          let '(st', blk) := transform st (firstn 64 (skipn (Z.to_nat i) data)) in
          update_loop f st' (firstn (Z.to_nat i) data ++ blk ++ skipn (Z.to_nat i + 64) data) ((i + 64) mod W32) llen
        else UB
    end
  else Ok (st, data, i).
(* zt_sha1.c:113-138 zt_sha1_update; returns the context and the caller's data as left behind *)
Definition sha1_update (c : ctx) (data : list Z) (len : Z) : outcome (ctx * list Z) :=
  _ <- guard (len <=? 4294967295 - 1) ;;
  let llen := len mod W32 in
  let j := Z.land (Z.shiftr (count0 c) 3) 63 in
  let c0 := add32 (count0 c) (Z.shiftl llen 3 mod W32) in
  let c1 := if c0 <? Z.shiftl llen 3 mod W32 then add32 (count1 c) 1 else count1 c in
  let c1 := add32 c1 (Z.shiftr llen 29) in
  if (j + llen) mod W32 >? 63 then
    let i := 64 - j in
    b <- copy (buffer c) j data 0 i ;;
    let '(st, b) := transform (state c) b in
    ' (st, data, i) <- update_loop (length data) st data i llen ;;
    b <- copy b 0 data i ((llen - i) mod W32) ;;
    Ok (mkctx st c0 c1 b, data)
  else
    b <- copy (buffer c) j data 0 llen ;;
    Ok (mkctx (state c) c0 c1 b, data).

(* zt_sha1.c:152-154 *)
Fixpoint pad_loop (fuel : nat) (c : ctx) : outcome ctx :=
  if Z.land (count0 c) 504 =? 448 then Ok c
  else match fuel with O => Loop | S f => ' (c, _) <- sha1_update c [0; 0] 1 ;; pad_loop f c end.
Definition be_bytes (w : Z) : list Z := map (fun k => Z.land (Z.shiftr w (k * 8)) 255) [3; 2; 1; 0].
(* zt_sha1.c:140-166 zt_sha1_finalize: the digest and the wiped context *)
Definition sha1_finalize (c : ctx) : outcome (list Z * ctx) :=
  let finalcount := be_bytes (count1 c) ++ be_bytes (count0 c) in
  ' (c, _) <- sha1_update c [128; 0] 1 ;;
  c <- pad_loop 64 c ;;
  ' (c, _) <- sha1_update c finalcount 8 ;;
  let s := state c in
  Ok (be_bytes (ra s) ++ be_bytes (rb s) ++ be_bytes (rc s) ++ be_bytes (rd_ s) ++ be_bytes (re s),
      mkctx (mkregs 0 0 0 0 0) 0 0 (repeat 0 64)).
(* zt_sha1.c:168-176 zt_sha1_data: the digest and the caller's data as left behind *)
Definition sha1_data (junk data : list Z) (len : Z) : outcome (list Z * list Z) :=
  ' (c, data) <- sha1_update (sha1_init junk) data len ;;
  ' (d, _) <- sha1_finalize c ;;
  Ok (d, data).
(* zt_sha1.c:178-183 zt_sha1_tostr *)
Definition sha1_tostr (digest sha1 : list Z) : outcome (list Z) :=
  ' (_, h) <- zt_binary_to_hex digest 20 (Some sha1) 41 ;; match h with Some h => Ok h | None => UB end.
(* zt_sha1.c:185-190 zt_str_tosha1 *)
Definition str_tosha1 (sha1 digest : list Z) : outcome (list Z) :=
  ' (_, d) <- zt_hex_to_binary sha1 40 (Some digest) 20 ;; match d with Some d => Ok d | None => UB end.
