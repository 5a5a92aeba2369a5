(** C19, C20: zt_table.c.  [holds K D hash t l]: the table t contains exactly the bindings l (a list, most recent first), and every
    key's bucket index is inside the bucket array.  [same hash cmp k k']: equal hash and cmp(k,k') != 0. *)
From Verif Require Import Prelude HashModel HashProofs TableModel TableProofs TableCopy TableKeys.
From Coq Require Import Permutation.
Open Scope Z_scope.

(** A table created with a hint outside 32768..65534 and below 2^31 (or USE_HINT with 2^1..2^31), used with any hash function
    of 32-bit values, is empty and every bucket index is in bounds. *)
Theorem C19_init_partial : forall (K D : Type) (hash : K -> Z) dup hint, (forall k, 0 <= hash k < 2 ^ 32) ->
  0 <= hint < 2147483648 -> ~ (32768 <= hint < 65535) -> holds K D hash (table_init K D false dup hint) [].
Proof. intros K D hash dup hint H H1 H2. destruct (pick_good hint H1 H2) as (b & G & N). eapply init_bounds; eauto. Qed.
Print Assumptions C19_init_partial.
Theorem C19_init_hint_partial : forall (K D : Type) (hash : K -> Z) dup b, (forall k, 0 <= hash k < 2 ^ 32) ->
  1 <= b < 32 -> holds K D hash (table_init K D true dup (2 ^ b)) [].
Proof. intros K D hash dup b H B. refine (init_bounds K D hash true dup (2 ^ b) b _ (hint_good b B) H). split; [reflexivity|exact B]. Qed.
Print Assumptions C19_init_hint_partial.

Theorem C19_get : forall (K D : Type) (hash : K -> Z) (cmp : K -> K -> bool) t l k, holds K D hash t l ->
  table_get K D hash cmp t k = Ok (lookup K D hash cmp l k).
Proof. exact get_ok. Qed.
Print Assumptions C19_get.
(** set: a key already present is refused (result 1, nothing changes) unless duplicates are allowed *)
Theorem C19_set : forall (K D : Type) (hash : K -> Z) (cmp : K -> K -> bool) t l k d, holds K D hash t l ->
  exists t', tdup t' = tdup t /\
    (if negb (tdup t) && (match lookup K D hash cmp l k with Some _ => true | None => false end)
     then table_set K D hash cmp t k d = Ok (1, t') /\ holds K D hash t' l
     else table_set K D hash cmp t k d = Ok (0, t') /\ holds K D hash t' ((k, d) :: l)).
Proof.
  intros K D hash cmp t l k d H. destruct (set_ok K D hash cmp t l k d H) as (t' & E1 & E2 & E3). exists t'. split; [exact E3|].
  unfold ref_set in *. destruct (tdup t); cbn [negb andb]; [split; assumption|]. destruct (lookup K D hash cmp l k); split; assumption.
Qed.
Print Assumptions C19_set.
(** del of a missing key changes nothing; the exact effect on a present key: the binding goes, but of the more recent bindings in
    its bucket only the most recent one stays *)
Theorem C19_del_missing : forall (K D : Type) (hash : K -> Z) (cmp : K -> K -> bool) t l k, holds K D hash t l ->
  lookup K D hash cmp l k = None -> table_del K D hash cmp t k = Ok (None, t).
Proof. exact del_missing. Qed.
Print Assumptions C19_del_missing.
Theorem C19_del_effect : forall (K D : Type) (hash : K -> Z) (cmp : K -> K -> bool) t l1 k' d l2 k,
  holds K D hash t (l1 ++ (k', d) :: l2) -> same K hash cmp k' k = true -> lookup K D hash cmp l1 k = None ->
  exists t', table_del K D hash cmp t k = Ok (Some d, t') /\ holds K D hash t' (keep_first K D hash t k false l1 ++ l2) /\ tdup t' = tdup t.
Proof. exact del_found. Qed.
Print Assumptions C19_del_effect.
(** hence del removes exactly one binding when at most one more recent binding shares its bucket *)
Theorem C19_del_partial : forall (K D : Type) (hash : K -> Z) (cmp : K -> K -> bool) t l1 k' d l2 k,
  holds K D hash t (l1 ++ (k', d) :: l2) -> same K hash cmp k' k = true -> lookup K D hash cmp l1 k = None ->
  (length (mates K D hash t k l1) <= 1)%nat ->
  exists t', table_del K D hash cmp t k = Ok (Some d, t') /\ holds K D hash t' (l1 ++ l2).
Proof.
  intros K D hash cmp t l1 k' d l2 k H S N M. destruct (del_found K D hash cmp t l1 k' d l2 k H S N) as (t' & E1 & E2 & _).
  exists t'. split; [exact E1|]. now rewrite keep_first_id in E2 by exact M.
Qed.
Print Assumptions C19_del_partial.
(** histories of set, get and del *)
Theorem C19_history_partial : forall (K D : Type) (hash : K -> Z) (cmp : K -> K -> bool) ops t l, holds K D hash t l ->
  deletes_ok K D hash cmp (tbits t) (tdup t) l ops ->
  exists t', run K D hash cmp t ops = Ok (fst (ref_run K D hash cmp (tdup t) l ops), t') /\
    holds K D hash t' (snd (ref_run K D hash cmp (tdup t) l ops)).
Proof. exact run_ok. Qed.
Print Assumptions C19_history_partial.

(** the stock key types: the comparison identifies what it should and equal keys hash equally *)
Theorem C19_int_keys : forall p q n, (n <= 8)%nat ->
  exists r h1 h2, table_compare_int p n q n = Ok r /\ table_hash_int p n = Ok h1 /\ table_hash_int q n = Ok h2 /\
    (r = true <-> p mod 256 ^ Z.of_nat n = q mod 256 ^ Z.of_nat n) /\ (r = true -> h1 = h2).
Proof. exact int_keys. Qed.
Print Assumptions C19_int_keys.
Theorem C19_string_keys_partial : forall s1 s2 t1 t2 n1 n2, Forall (fun b => b <> 0) s1 -> Forall (fun b => b <> 0) s2 ->
  (length s1 <= n1)%nat -> (length s2 <= n2)%nat ->
  exists r h1 h2, table_compare_string (s1 ++ 0 :: t1) n1 (s2 ++ 0 :: t2) n2 = Ok r /\
    table_hash_string (s1 ++ 0 :: t1) n1 = Ok h1 /\ table_hash_string (s2 ++ 0 :: t2) n2 = Ok h2 /\
    (r = true <-> n1 = n2 /\ s1 = s2) /\ (r = true -> h1 = h2).
Proof. exact string_keys. Qed.
Print Assumptions C19_string_keys_partial.
Theorem C19_buff_keys_partial : forall a b n1 n2, Forall (fun x => x <> 0) (firstn n1 a) -> (n1 <= length a)%nat -> (n2 <= length b)%nat ->
  exists r h1 h2, table_compare_buff a n1 b n2 = Ok r /\ table_hash_buff a n1 = Ok h1 /\ table_hash_buff b n2 = Ok h2 /\
    (r = true <-> n1 = n2 /\ firstn n1 a = firstn n2 b) /\ (r = true -> h1 = h2).
Proof. exact buff_keys. Qed.
Print Assumptions C19_buff_keys_partial.

(** the case-insensitive comparison: true exactly when the two texts have the same letters up to ASCII case *)
Definition same_letter (x y : Z) : Prop := x = y \/ (65 <= x <= 90 /\ y = x + 32) \/ (65 <= y <= 90 /\ x = y + 32).
Theorem C19_string_case_compare : forall s1 s2 t1 t2 n1 n2, Forall (fun b => b <> 0) s1 -> Forall (fun b => b <> 0) s2 ->
  exists r, table_compare_string_case (s1 ++ 0 :: t1) n1 (s2 ++ 0 :: t2) n2 = Ok r /\ (r = true <-> Forall2 same_letter s1 s2).
Proof.
  assert (X : forall x y, x <> 0 -> y <> 0 -> (lower x =? lower y) = true <-> same_letter x y).
  { intros x y Hx Hy. rewrite Z.eqb_eq. unfold lower, same_letter.
    destruct (Z.leb_spec 65 x), (Z.leb_spec x 90), (Z.leb_spec 65 y), (Z.leb_spec y 90); cbn [andb]; lia. }
  intros s1. unfold table_compare_string_case. induction s1 as [|x s1 IH]; intros [|y s2] t1 t2 n1 n2 F1 F2; cbn [app strcaseeq].
  - exists true. split; [reflexivity|]. split; auto.
  - inversion F2; subst. exists false. split; [|split; [discriminate|intros H; inversion H]].
    destruct (lower 0 =? lower y) eqn:E; [|reflexivity]. exfalso. apply Z.eqb_eq in E. unfold lower in E. cbn in E.
    destruct (Z.leb_spec 65 y), (Z.leb_spec y 90); cbn [andb] in E; lia.
  - inversion F1; subst. exists false. split; [|split; [discriminate|intros H; inversion H]].
    destruct (lower x =? lower 0) eqn:E; [|reflexivity]. exfalso. apply Z.eqb_eq in E. unfold lower in E. cbn in E.
    destruct (Z.leb_spec 65 x), (Z.leb_spec x 90); cbn [andb] in E; lia.
  - inversion F1; inversion F2; subst. destruct (lower x =? lower y) eqn:E.
    + replace (x =? 0) with false by (symmetry; apply Z.eqb_neq; assumption). apply X in E; auto.
      destruct (IH s2 t1 t2 n1 n2) as (r & R1 & R2); auto. exists r. split; [exact R1|]. rewrite R2.
      split; [intros; constructor; auto|intros H'; inversion H'; auto].
    + exists false. split; [reflexivity|]. split; [discriminate|]. intros H'. inversion H'; subst.
      assert ((lower x =? lower y) = true) by (apply X; auto). congruence.
Qed.
Print Assumptions C19_string_case_compare.
Example C19_case_compare_ex : Forall2 same_letter [72; 105; 49] [104; 73; 49] /\ ~ Forall2 same_letter [64] [96].
Proof. split; [repeat constructor; unfold same_letter; lia|]. intros H. inversion H; subst. unfold same_letter in *. lia. Qed.

(** Violations. *)
(** deleting the third binding of a chain also loses the second one (keys 0,2,4,.. share a bucket) *)
Theorem C19_del_loses_bindings_refuted : exists t t', run Z Z (fun k => k * 4) Z.eqb (table_init Z Z true false 2) [Oset Z Z 1 10; Oset Z Z 2 20; Oset Z Z 3 30; Odel Z Z 1] = Ok ([Rset Z 0; Rset Z 0; Rset Z 0; Rget Z (Some 10)], t) /\
  run Z Z (fun k => k * 4) Z.eqb t [Oget Z Z 2] = Ok ([Rget Z None], t').
Proof. do 2 eexists. split; [vm_compute; reflexivity|vm_compute; reflexivity]. Qed.
Print Assumptions C19_del_loses_bindings_refuted.
(** the size table says 65535 instead of 65536: the last bucket index is out of bounds *)
Theorem C19_hint_65535_refuted : exists hint, 0 <= hint /\ forall dup d,
  table_set Z Z (fun k => k) Z.eqb (table_init Z Z false dup hint) 65535 d = UB /\
  table_get Z Z (fun k => k) Z.eqb (table_init Z Z false dup hint) 65535 = UB.
Proof.
  exists 40000. split; [lia|]. intros dup d.
  assert (C : chain_at Z Z (fun k => k) (table_init Z Z false dup 40000) 65535 = UB).
  { unfold chain_at. assert (N : nth_error (tbuckets (table_init Z Z false dup 40000)) (slot Z Z (fun k => k) (table_init Z Z false dup 40000) 65535) = None); [|now rewrite N].
    apply nth_error_None. unfold table_init, slot. cbn [tbuckets tbits]. rewrite repeat_length.
    assert (E1 : num_buckets false 40000 = 65535) by reflexivity. rewrite E1.
    assert (E2 : hash_sub32_mask 65535 (nbits ((65535 - 1) mod 2 ^ 64)) = 65535) by (vm_compute; reflexivity). rewrite E2. lia. }
  unfold table_set, table_get. rewrite C. cbn [obind]. split; reflexivity.
Qed.
Print Assumptions C19_hint_65535_refuted.
(** a hint of 2^32 - 1 or more leaves the table without buckets: every access is out of bounds *)
Theorem C19_huge_hint_refuted : forall hint (k d : Z) dup hash, 2 ^ 32 - 1 <= hint ->
  table_get Z Z hash Z.eqb (table_init Z Z false dup hint) k = UB /\ table_set Z Z hash Z.eqb (table_init Z Z false dup hint) k d = UB.
Proof.
  intros hint k d dup hash H.
  assert (P : num_buckets false hint = 0).
  { unfold num_buckets, powers_of_2. cbn [pick_size].
    repeat match goal with |- context [?a >? hint] => replace (a >? hint) with false by (symmetry; rewrite Z.gtb_ltb; apply Z.ltb_ge; lia) end. reflexivity. }
  assert (C : chain_at Z Z hash (table_init Z Z false dup hint) k = UB).
  { unfold chain_at, table_init. rewrite P. cbn [tbuckets]. destruct (slot _ _ _ _ _); reflexivity. }
  unfold table_get, table_set. rewrite C. split; reflexivity.
Qed.
Print Assumptions C19_huge_hint_refuted.
(** USE_HINT with a size that is not a power of two, or 1 *)
Theorem C19_use_hint_refuted : exists hint k, 0 < hint /\ table_get Z Z (fun k => k) Z.eqb (table_init Z Z true false hint) k = UB.
Proof. exists 3, 3. split; [lia|]. vm_compute. reflexivity. Qed.
Print Assumptions C19_use_hint_refuted.
(** a hash callback returns unsigned long: with 2^16 or more buckets a value above 2^32 indexes out of bounds *)
Theorem C19_wide_hash_refuted : exists k, table_get Z Z (fun k => k) Z.eqb (table_init Z Z true false (2 ^ 16)) k = UB.
Proof.
  exists (2 ^ 40). unfold table_get, chain_at.
  assert (N : nth_error (tbuckets (table_init Z Z true false (2 ^ 16))) (slot Z Z (fun k => k) (table_init Z Z true false (2 ^ 16)) (2 ^ 40)) = None); [|now rewrite N].
  apply nth_error_None. unfold table_init, slot. cbn [tbuckets tbits]. rewrite repeat_length.
  assert (E1 : num_buckets true (2 ^ 16) = 65536) by reflexivity. rewrite E1.
  assert (E2 : hash_sub32_mask (2 ^ 40) (nbits ((65536 - 1) mod 2 ^ 64)) = 16777216) by (vm_compute; reflexivity). rewrite E2. lia.
Qed.
Print Assumptions C19_wide_hash_refuted.
(** string keys given with a key_len shorter than the string: equal to the comparison, different hashes, so not found *)
Theorem C19_string_prefix_keys_refuted : exists a b n h1 h2, table_compare_string a n b n = Ok true /\
  table_hash_string a n = Ok h1 /\ table_hash_string b n = Ok h2 /\ h1 <> h2.
Proof. exists [97; 98; 0], [97; 99; 0], 1%nat. do 2 eexists. split; [reflexivity|]. split; [vm_compute; reflexivity|]. split; [vm_compute; reflexivity|]. discriminate. Qed.
Print Assumptions C19_string_prefix_keys_refuted.
(** case-insensitive comparison has no matching hash *)
Theorem C19_string_case_refuted : exists a b n h1 h2, table_compare_string_case a n b n = Ok true /\
  table_hash_string a n = Ok h1 /\ table_hash_string b n = Ok h2 /\ h1 <> h2.
Proof. exists [97; 0], [65; 0], 1%nat. do 2 eexists. split; [reflexivity|]. split; [vm_compute; reflexivity|]. split; [vm_compute; reflexivity|]. discriminate. Qed.
Print Assumptions C19_string_case_refuted.
(** binary keys: compare_buff stops at a NUL byte, so different buffers are taken for equal (same hash, same length) *)
Theorem C19_binary_keys_refuted : exists a b n h, a <> b /\ length a = n /\ length b = n /\ table_compare_buff a n b n = Ok true /\
  table_hash_buff a n = Ok h /\ table_hash_buff b n = Ok h.
Proof.
  exists [0; 5; 212; 225; 181; 19], [0; 110; 208; 33; 45; 68], 6%nat. eexists. split; [discriminate|]. split; [reflexivity|]. split; [reflexivity|].
  split; [reflexivity|]. split; vm_compute; reflexivity.
Qed.
Print Assumptions C19_binary_keys_refuted.

Example C19_ex : deletes_ok Z Z (fun k => Z.abs k mod 2 ^ 32) Z.eqb 2 false [] [Oset Z Z 1 10; Oset Z Z 5 20; Odel Z Z 1; Oget Z Z 5; Oset Z Z 5 7] /\
  fst (ref_run Z Z (fun k => Z.abs k mod 2 ^ 32) Z.eqb false [] [Oset Z Z 1 10; Oset Z Z 5 20; Odel Z Z 1; Oget Z Z 5; Oset Z Z 5 7]) =
    [Rset Z 0; Rset Z 0; Rget Z (Some 10); Rget Z (Some 20); Rset Z 1] /\ tbits (table_init Z Z true false 4) = 2 /\
  holds Z Z (fun k => Z.abs k mod 2 ^ 32) (table_init Z Z true false (2 ^ 2)) [].
Proof.
  split; [|split; [vm_compute; reflexivity|split; [reflexivity|]]].
  - repeat split. intros _. vm_compute. repeat constructor.
  - apply C19_init_hint_partial; [|lia]. intros k. apply Z.mod_pos_bound. lia.
Qed.

(** ---- C20 ---- *)
(** for_each calls the callback on bindings in some order L which is a permutation of the table's bindings (each binding exactly
    once), stopping after the first non-zero result, which it returns *)
Theorem C20_for_each : forall (K D : Type) (hash : K -> Z) t l, holds K D hash t l -> exists L, Permutation L l /\
  forall (S : Type) (f : S -> K -> D -> Z * S) s, 
    table_for_each t f s = (snd (fst (spec_visit K D f L s)), snd (spec_visit K D f L s)).
Proof.
  intros K D hash t l H. exists (map (binding K D) (all_nodes t)). split; [exact (all_nodes_perm K D hash t l H)|].
  intros S f s. apply (visit_spec K D).
Qed.
Print Assumptions C20_for_each.
Theorem C20_for_each_complete : forall (K D : Type) (hash : K -> Z) t l, holds K D hash t l -> exists L, Permutation L l /\
  forall (S : Type) (f : S -> K -> D -> Z * S) s, (forall s k d, fst (f s k d) = 0) ->
    table_for_each t f s = (0, fold_left (fun s e => snd (f s (fst e) (snd e))) L s).
Proof.
  intros K D hash t l H. exists (map (binding K D) (all_nodes t)). split; [exact (all_nodes_perm K D hash t l H)|].
  intros S f s Z0. unfold table_for_each. rewrite (visit_spec K D), visit_all by exact Z0. reflexivity.
Qed.
Print Assumptions C20_for_each_complete.
(** copy into a table without duplicate keys: its own bindings win, all others come from the source (whose state is not touched);
    the result tells whether the source was non-empty *)
Theorem C20_copy : forall (K D : Type) (hash : K -> Z) (cmp : K -> K -> bool) t1 l1 t2 l2, equivalence K cmp ->
  holds K D hash t1 l1 -> holds K D hash t2 l2 -> tdup t2 = false ->
  exists t2', table_copy hash cmp t1 t2 = Ok (match l1 with [] => 0 | _ => 1 end, t2') /\
    forall k, table_get K D hash cmp t2' k = Ok (match lookup K D hash cmp l2 k with Some d => Some d | None => lookup K D hash cmp l1 k end).
Proof.
  intros K D hash cmp t1 l1 t2 l2 E H1 H2 Du. destruct (copy_lookup K D hash cmp t1 l1 t2 l2 E H1 H2 Du) as (r & t' & E1 & E2).
  destruct (copy_ok K D hash cmp t1 l1 t2 l2 H1 H2) as (t'' & F1 & _). assert (r = match l1 with [] => 0 | _ => 1 end) by congruence. subst r.
  exists t'. split; assumption.
Qed.
Print Assumptions C20_copy.
Theorem C20_copy_to_empty : forall (K D : Type) (hash : K -> Z) (cmp : K -> K -> bool) t1 l1 t2, equivalence K cmp ->
  holds K D hash t1 l1 -> holds K D hash t2 [] -> tdup t2 = false ->
  exists r t2', table_copy hash cmp t1 t2 = Ok (r, t2') /\ forall k, table_get K D hash cmp t2' k = table_get K D hash cmp t1 k.
Proof.
  intros K D hash cmp t1 l1 t2 E H1 H2 Du. destruct (copy_lookup K D hash cmp t1 l1 t2 [] E H1 H2 Du) as (r & t' & E1 & E2).
  exists r, t'. split; [exact E1|]. intros k. rewrite E2, (get_ok K D hash cmp t1 l1 k H1). reflexivity.
Qed.
Print Assumptions C20_copy_to_empty.
(** a target that allows duplicates, source without duplicates *)
Theorem C20_copy_dup_partial : forall (K D : Type) (hash : K -> Z) (cmp : K -> K -> bool) t1 l1 t2, equivalence K cmp ->
  holds K D hash t1 l1 -> holds K D hash t2 [] -> tdup t2 = true ->
  (forall k, (length (filter (fun e => same K hash cmp (fst e) k) l1) <= 1)%nat) ->
  exists r t2', table_copy hash cmp t1 t2 = Ok (r, t2') /\ forall k, table_get K D hash cmp t2' k = Ok (lookup K D hash cmp l1 k).
Proof. exact copy_lookup_dup. Qed.
Print Assumptions C20_copy_dup_partial.
(** with duplicate keys the copy answers with the oldest datum, the original with the newest *)
Theorem C20_copy_dup_refuted : exists t r t', run Z Z Z.abs Z.eqb (table_init Z Z true true 2) [Oset Z Z 1 10; Oset Z Z 1 20] = Ok ([Rset Z 0; Rset Z 0], t) /\
  table_copy Z.abs Z.eqb t (table_init Z Z true true 2) = Ok (r, t') /\
  table_get Z Z Z.abs Z.eqb t 1 = Ok (Some 20) /\ table_get Z Z Z.abs Z.eqb t' 1 = Ok (Some 10).
Proof. do 3 eexists. split; [vm_compute; reflexivity|]. split; [vm_compute; reflexivity|]. split; vm_compute; reflexivity. Qed.
Print Assumptions C20_copy_dup_refuted.

Example C20_ex : exists t t' r, run Z Z Z.abs Z.eqb (table_init Z Z true false 2) [Oset Z Z 1 10; Oset Z Z 2 20; Oset Z Z 3 30] = Ok ([Rset Z 0; Rset Z 0; Rset Z 0], t) /\
  table_copy Z.abs Z.eqb t (table_init Z Z false false 7) = Ok (r, t') /\ table_get Z Z Z.abs Z.eqb t' 2 = Ok (Some 20) /\
  table_for_each t (fun s k d => (0, s + d)) 0 = (0, 60).
Proof. do 3 eexists. split; [vm_compute; reflexivity|]. split; [vm_compute; reflexivity|]. split; vm_compute; reflexivity. Qed.
