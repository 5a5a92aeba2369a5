(** Model of src/libzt/zt_table.c.  Keys (pointer, key_len) and data (pointer, datum_len) are abstract types K and D, the hash
    and comparison callbacks are functions (their cdata is folded in).  Simplifications: a bucket's chain of pool nodes is a list;
    the pools behind the nodes and the table itself are modelled in MemModel.v, not here; allocation succeeds; a NULL name is
    printed by snprintf as in glibc; get/del's "errno = ENOENT; return NULL" is the value [None]. *)
From Verif Require Import Prelude HashModel.
Open Scope Z_scope.

(* zt_table.c:15-24 nbits (uint8_t result); fuel 64 covers size_t *)
Fixpoint nbits_loop (fuel : nat) (val n : Z) : Z :=
  match fuel with
  | O => n
  | S f => let v := Z.shiftr val 1 in if v =? 0 then n else nbits_loop f v ((n + 1) mod 256)
  end.
Definition nbits (val : Z) : Z := nbits_loop 64 val 1.

(* zt_table.c:26-36 powers_of_2 *)
Definition powers_of_2 : list Z :=
  [2; 4; 8; 16; 32; 64; 128; 256; 512; 1024; 2048; 4096; 8192; 16384; 32768; 65535; 131072; 262144; 524288; 1048576; 2097152;
   4194304; 8388608; 16777216; 33554432; 67108864; 134217728; 268435456; 536870912; 1073741824; 2147483648; 4294967295].
(* zt_table.c:104-113; nbuckets stays 0 when the hint is too big *)
Fixpoint pick_size (l : list Z) (hint : Z) : Z :=
  match l with [] => 0 | p :: r => if p >? hint then p else pick_size r hint end.
(* zt_table.c:102-113 *)
Definition num_buckets (use_hint : bool) (hint : Z) : Z := if use_hint then hint else pick_size powers_of_2 hint.

Section Table.
Variable K D : Type.
(* zt_table.h:19-20 *)
Variable hash : K -> Z.
Variable cmp : K -> K -> bool.

(* zt_table.c:38-45 struct table_node *)
Record node := mknode { nkey : K; ndatum : D; nhash : Z }.
(* zt_table.c:47-59 struct zt_table *)
Record table := mktable { tbits : Z; tdup : bool; tbuckets : list (list node) }.

(* zt_table.c:99-136 zt_table_init *)
Definition table_init (use_hint dup : bool) (hint : Z) : table :=
  let nb := num_buckets use_hint hint in
  mktable (nbits ((nb - 1) mod 2 ^ 64)) dup (repeat [] (Z.to_nat nb)).

(* zt_table.c:172, 211, 235 bucket index of a key *)
Definition slot (t : table) (k : K) : nat := Z.to_nat (hash_sub32_mask (hash k) (tbits t)).
(* h->buckets[nkey]; UB outside the bucket array *)
Definition chain_at (t : table) (k : K) : outcome (list node) :=
  match nth_error (tbuckets t) (slot t k) with Some c => Ok c | None => UB end.

(* zt_table.c:179-180, 215-216, 240-241 *)
Definition hit (n : node) (k : K) : bool := (nhash n =? hash k) && cmp (nkey n) k.

(* zt_table.c:178-185 and 214-221: first node of the chain that matches *)
Fixpoint find_node (c : list node) (k : K) : option node :=
  match c with [] => None | n :: r => if hit n k then Some n else find_node r k end.

(* zt_table.c:164-199 zt_table_set *)
Definition table_set (t : table) (k : K) (d : D) : outcome (Z * table) :=
  c <- chain_at t k ;;
  match (if tdup t then None else find_node c k) with
  | Some _ => Ok (1, t)
  | None => Ok (0, mktable (tbits t) (tdup t) (upd (tbuckets t) (slot t k) (mknode k d (hash k) :: c)))
  end.

(* zt_table.c:201-225 zt_table_get *)
Definition table_get (t : table) (k : K) : outcome (option D) :=
  c <- chain_at t k ;;
  Ok (match find_node c k with Some n => Some (ndatum n) | None => None end).

(* zt_table.c:239-256 the loop of zt_table_del: prev is the first node of the chain [first] throughout; the datum and the chain
   afterwards *)
Fixpoint del_loop (first : node) (c : list node) (k : K) : option (D * list node) :=
  match c with
  | [] => None
  | n :: r => if hit n k then Some (ndatum n, first :: r)   (* 247: prev->next = node->next *)
              else del_loop first r k
  end.
(* zt_table.c:237, 244-245: the first node is its own prev *)
Definition del_chain (c : list node) (k : K) : option (D * list node) :=
  match c with
  | [] => None
  | n :: r => if hit n k then Some (ndatum n, r) else del_loop n r k
  end.
(* zt_table.c:227-259 zt_table_del *)
Definition table_del (t : table) (k : K) : outcome (option D * table) :=
  c <- chain_at t k ;;
  match del_chain c k with
  | Some (d, c') => Ok (Some d, mktable (tbits t) (tdup t) (upd (tbuckets t) (slot t k) c'))
  | None => Ok (None, t)
  end.

(* zt_table.c:286-297: all nodes in the order for_each and copy visit them *)
Definition all_nodes (t : table) : list node := concat (tbuckets t).

(* zt_table.c:280-299 zt_table_for_each; the callback is a state transformer returning an int.  Simplification: it does not
   modify the table *)
Fixpoint visit {S} (f : S -> K -> D -> Z * S) (l : list node) (s : S) : Z * S :=
  match l with
  | [] => (0, s)
  | n :: r => let '(res, s') := f s (nkey n) (ndatum n) in if res =? 0 then visit f r s' else (res, s')
  end.
Definition table_for_each {S} (t : table) (f : S -> K -> D -> Z * S) (s : S) : Z * S := visit f (all_nodes t) s.

End Table.
Arguments mknode {K D}. Arguments nkey {K D}. Arguments ndatum {K D}. Arguments nhash {K D}.
Arguments mktable {K D}. Arguments tbits {K D}. Arguments tdup {K D}. Arguments tbuckets {K D}.
Arguments all_nodes {K D}. Arguments table_for_each {K D S}. Arguments visit {K D S}.

(* zt_table.c:267-275 the body of zt_table_copy: set every binding of t1 in t2 (t2 has its own callbacks) *)
Fixpoint copy_loop {K D} (hash2 : K -> Z) (cmp2 : K -> K -> bool) (l : list (node K D)) (t2 : table K D) : outcome (table K D) :=
  match l with
  | [] => Ok t2
  | n :: r => ' (_, t2') <- table_set K D hash2 cmp2 t2 (nkey n) (ndatum n) ;; copy_loop hash2 cmp2 r t2'
  end.
(* zt_table.c:261-278 zt_table_copy; t1 and t2 are different tables *)
Definition table_copy {K D} (hash2 : K -> Z) (cmp2 : K -> K -> bool) (t1 t2 : table K D) : outcome (Z * table K D) :=
  t2' <- copy_loop hash2 cmp2 (all_nodes t1) t2 ;;
  Ok (match all_nodes t1 with [] => 0 | _ => 1 end, t2').

(** stock callbacks *)
(* zt_table.c:302-309 zt_table_hash_int: &skey is the address of the pointer, so the first key_len bytes of the key pointer's own
   value (little endian) are hashed; UB for key_len > 8 *)
Fixpoint ptr_bytes (n : nat) (p : Z) : list Z := match n with O => [] | S n' => p mod 256 :: ptr_bytes n' (p / 256) end.
Definition table_hash_int (key : Z) (key_len : nat) : outcome Z := zt_hash32_buff (ptr_bytes 8 key) key_len HASH32_INIT.
(* memcmp of the first n bytes *)
Fixpoint memeq (n : nat) (a b : list Z) : outcome bool :=
  match n with
  | O => Ok true
  | S n' => match a, b with
            | x :: a', y :: b' => if x =? y then memeq n' a' b' else Ok false
            | _, _ => UB end
  end.
(* zt_table.c:311-320 zt_table_compare_int *)
Definition table_compare_int (lhs : Z) (lhs_len : nat) (rhs : Z) (rhs_len : nat) : outcome bool :=
  if Nat.eqb lhs_len rhs_len then memeq lhs_len (ptr_bytes 8 lhs) (ptr_bytes 8 rhs) else Ok false.
(* strncmp(a, b, n) == 0 *)
Fixpoint strneq (n : nat) (a b : list Z) : outcome bool :=
  match n with
  | O => Ok true
  | S n' => match a, b with
            | x :: a', y :: b' => if x =? y then (if x =? 0 then Ok true else strneq n' a' b') else Ok false
            | _, _ => UB end
  end.
(* zt_table.c:322-329 zt_table_hash_string *)
Definition table_hash_string (key : list Z) (key_len : nat) : outcome Z := zt_hash32_cstr key HASH32_INIT.
(* zt_table.c:331-340 zt_table_compare_string; 360-369 zt_table_compare_buff is the same text *)
Definition table_compare_string (lhs : list Z) (lhs_len : nat) (rhs : list Z) (rhs_len : nat) : outcome bool :=
  if Nat.eqb lhs_len rhs_len then strneq lhs_len lhs rhs else Ok false.
Definition table_compare_buff := table_compare_string.
(* zt_table.c:351-358 zt_table_hash_buff *)
Definition table_hash_buff (key : list Z) (key_len : nat) : outcome Z := zt_hash32_buff key key_len HASH32_INIT.
(* strcasecmp(a, b) == 0 in the C locale *)
Definition lower (c : Z) : Z := if (65 <=? c) && (c <=? 90) then c + 32 else c.
Fixpoint strcaseeq (a b : list Z) : outcome bool :=
  match a, b with
  | x :: a', y :: b' => if lower x =? lower y then (if x =? 0 then Ok true else strcaseeq a' b') else Ok false
  | _, _ => UB
  end.
(* zt_table.c:342-349 zt_table_compare_string_case *)
Definition table_compare_string_case (lhs : list Z) (lhs_len : nat) (rhs : list Z) (rhs_len : nat) : outcome bool := strcaseeq lhs rhs.
