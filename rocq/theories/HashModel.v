(** Model of src/libzt/zt_hash.c and zt_hash.h.  Unsigned 32/64 bit values are Z reduced mod 2^w. *)
From Verif Require Export Prelude.
Open Scope Z_scope.

(** zt_hash.h:27-28, 35-36 *)
Definition HASH64_INIT : Z := 0xcbf29ce484222325.
Definition HASH64_PRIME : Z := 0x100000001b3.
Definition HASH32_INIT : Z := 0x811c9dc5.
Definition HASH32_PRIME : Z := 0x01000193.

(** zt_hash.c:32-38 body of the loop: hval ^= *bp++; hval *= PRIME; *)
Definition hash_step (w prime hval b : Z) : Z := (Z.lxor hval b * prime) mod 2 ^ w.

(** zt_hash.c:32-38 : while (bp < be); [rest] is the memory from bp, [n] = be - bp.  Reading past the
    end of the object is undefined. *)
Fixpoint hash_loop (w prime : Z) (n : nat) (rest : list Z) (hval : Z) : outcome Z :=
  match n with
  | O => Ok hval
  | S n' => match rest with
            | [] => UB
            | b :: r => hash_loop w prime n' r (hash_step w prime hval b)
            end
  end.

(** zt_hash.c:22-41 zt_hash32_buff *)
Definition zt_hash32_buff (buf : list Z) (len : nat) (hval : Z) : outcome Z :=
  hash_loop 32 HASH32_PRIME len buf (if hval =? 0 then HASH32_INIT else hval).
(** zt_hash.c:64-83 zt_hash64_buff *)
Definition zt_hash64_buff (buf : list Z) (len : nat) (hval : Z) : outcome Z :=
  hash_loop 64 HASH64_PRIME len buf (if hval =? 0 then HASH64_INIT else hval).

(** zt_hash.c:52-57 : while ( *s) *)
Fixpoint hash_cloop (w prime : Z) (rest : list Z) (hval : Z) : outcome Z :=
  match rest with
  | [] => UB
  | b :: r => if b =? 0 then Ok hval else hash_cloop w prime r (hash_step w prime hval b)
  end.
(** zt_hash.c:43-60 zt_hash32_cstr *)
Definition zt_hash32_cstr (str : list Z) (hval : Z) : outcome Z :=
  hash_cloop 32 HASH32_PRIME str (if hval =? 0 then HASH32_INIT else hval).
(** zt_hash.c:85-105 zt_hash64_cstr *)
Definition zt_hash64_cstr (str : list Z) (hval : Z) : outcome Z :=
  hash_cloop 64 HASH64_PRIME str (if hval =? 0 then HASH64_INIT else hval).

(** zt_hash.h:42 ZT_HASH_MASK(x) : ((uint32_t)1 << x) - 1, for x < 32 *)
Definition hash_mask (x : Z) : Z := (Z.shiftl 1 x mod 2 ^ 32 - 1) mod 2 ^ 32.
(** zt_hash.h:44-54 *)
Definition hash24_mask (h : Z) : Z := Z.lxor (Z.shiftr h 24) (Z.land h (hash_mask 24)).
Definition hash16_mask (h : Z) : Z := Z.lxor (Z.shiftr h 16) (Z.land h (hash_mask 16)).
Definition hash8_mask (h : Z) : Z := Z.land (Z.lxor (Z.shiftr h 8) h) (hash_mask 8).
Definition hash4_mask (h : Z) : Z := Z.land (Z.lxor (Z.shiftr h 4) h) (hash_mask 4).
(** zt_hash.h:57-64 ZT_HASH_SUB32_MASK *)
Definition hash_sub32_mask (h x : Z) : Z :=
  if x <? 32 then
    if x <? 16 then Z.land (Z.lxor (Z.shiftr h x) h) (hash_mask x)
    else Z.lxor (Z.shiftr h x) (Z.land h (hash_mask x))
  else h.
