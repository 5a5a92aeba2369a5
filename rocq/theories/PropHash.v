(** C06: FNV-1a hashing (zt_hash.c, zt_hash.h). *)
From Verif Require Import HashModel HashProofs.
Open Scope Z_scope.

Theorem C06_hash32_buff_is_fnv1a : forall buf len seed, (len <= length buf)%nat ->
  zt_hash32_buff buf len seed = Ok (fnv1a 32 0x01000193 (seed_of 0x811c9dc5 seed) (firstn len buf)).
Proof. exact buff32. Qed.
Print Assumptions C06_hash32_buff_is_fnv1a.

Theorem C06_hash64_buff_is_fnv1a : forall buf len seed, (len <= length buf)%nat ->
  zt_hash64_buff buf len seed = Ok (fnv1a 64 0x100000001b3 (seed_of 0xcbf29ce484222325 seed) (firstn len buf)).
Proof. exact buff64. Qed.
Print Assumptions C06_hash64_buff_is_fnv1a.

(** The string versions agree with the buffer versions on the bytes before the NUL, whatever follows it. *)
Theorem C06_hash32_cstr : forall s tl seed, Forall (fun b => b <> 0) s ->
  zt_hash32_cstr (s ++ 0 :: tl) seed = zt_hash32_buff s (length s) seed.
Proof. exact cstr32. Qed.
Print Assumptions C06_hash32_cstr.
Theorem C06_hash64_cstr : forall s tl seed, Forall (fun b => b <> 0) s ->
  zt_hash64_cstr (s ++ 0 :: tl) seed = zt_hash64_buff s (length s) seed.
Proof. exact cstr64. Qed.
Print Assumptions C06_hash64_cstr.

(** Incremental hashing. *)
Theorem C06_incremental32 : forall a b seed h, zt_hash32_buff a (length a) seed = Ok h -> h <> 0 ->
  zt_hash32_buff (a ++ b) (length (a ++ b)) seed = zt_hash32_buff b (length b) h.
Proof. exact incr32. Qed.
Print Assumptions C06_incremental32.
Theorem C06_incremental64 : forall a b seed h, zt_hash64_buff a (length a) seed = Ok h -> h <> 0 ->
  zt_hash64_buff (a ++ b) (length (a ++ b)) seed = zt_hash64_buff b (length b) h.
Proof. exact incr64. Qed.
Print Assumptions C06_incremental64.

(** Changing a single byte always changes the hash. *)
Theorem C06_single_byte_change32 : forall seed pre b c post h1 h2, 0 <= seed < 2 ^ 32 ->
  bytes (pre ++ b :: post) -> 0 <= c < 256 -> b <> c ->
  zt_hash32_buff (pre ++ b :: post) (length (pre ++ b :: post)) seed = Ok h1 ->
  zt_hash32_buff (pre ++ c :: post) (length (pre ++ c :: post)) seed = Ok h2 -> h1 <> h2.
Proof. exact one_byte32. Qed.
Print Assumptions C06_single_byte_change32.
Theorem C06_single_byte_change64 : forall seed pre b c post h1 h2, 0 <= seed < 2 ^ 64 ->
  bytes (pre ++ b :: post) -> 0 <= c < 256 -> b <> c ->
  zt_hash64_buff (pre ++ b :: post) (length (pre ++ b :: post)) seed = Ok h1 ->
  zt_hash64_buff (pre ++ c :: post) (length (pre ++ c :: post)) seed = Ok h2 -> h1 <> h2.
Proof. exact one_byte64. Qed.
Print Assumptions C06_single_byte_change64.

(** Folding to x < 32 bits: in range, and the xor of the shifted hash with itself. *)
Theorem C06_fold_sub32 : forall h x, 0 <= h < 2 ^ 32 -> 0 <= x < 32 ->
  0 <= hash_sub32_mask h x < 2 ^ x /\
  hash_sub32_mask h x = Z.lxor (h / 2 ^ x) h mod 2 ^ x.
Proof. exact sub32_both. Qed.
Print Assumptions C06_fold_sub32.
Theorem C06_fold_wide : forall h x, 32 <= x -> hash_sub32_mask h x = h.
Proof. exact sub32_wide. Qed.
Print Assumptions C06_fold_wide.
Theorem C06_fold_named : forall h, 0 <= h < 2 ^ 32 ->
  (0 <= hash24_mask h < 2 ^ 24 /\ hash24_mask h = Z.lxor (h / 2 ^ 24) h mod 2 ^ 24) /\
  (0 <= hash16_mask h < 2 ^ 16 /\ hash16_mask h = Z.lxor (h / 2 ^ 16) h mod 2 ^ 16) /\
  (0 <= hash8_mask h < 2 ^ 8 /\ hash8_mask h = Z.lxor (h / 2 ^ 8) h mod 2 ^ 8) /\
  (0 <= hash4_mask h < 2 ^ 4 /\ hash4_mask h = Z.lxor (h / 2 ^ 4) h mod 2 ^ 4).
Proof. exact named_masks_spec. Qed.
Print Assumptions C06_fold_named.

(** Published FNV-1a test vectors for "a" and "foobar" (these are tests). *)
Example C06_ex : zt_hash32_buff [97] 1 0 = Ok 0xe40c292c /\ zt_hash64_buff [97] 1 0 = Ok 0xaf63dc4c8601ec8c /\
  zt_hash32_cstr ([102;111;111;98;97;114] ++ [0]) 0 = Ok 0xbf9cf968 /\
  zt_hash64_cstr ([102;111;111;98;97;114] ++ [0]) 0 = Ok 0x85944171f73967e8.
Proof. vm_compute. auto. Qed.
