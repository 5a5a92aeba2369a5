(** C21: zt_set.c.  Elements are (pointer value, length).  [is_set matchf s l]: the set object s has exactly the members l (pairwise
    different); [mem matchf l e]: some member of l equals e, i.e. has the same hash and matchf says equal. *)
From Verif Require Import Prelude HashModel HashProofs TableModel TableProofs TableCopy TableKeys SetModel SetProofs.
From Coq Require Import Permutation.
Open Scope Z_scope.

Theorem C21_hash : forall p n, (n <= 8)%nat -> table_hash_int p n = Ok (elt_hash (p, n)).
Proof.
  intros p n H. unfold elt_hash. cbn [fst snd]. unfold table_hash_int. rewrite buff32 by (rewrite ptr_bytes_len; exact H). reflexivity.
Qed.
Print Assumptions C21_hash.
Theorem C21_init : forall matchf, is_set matchf set_init [].
Proof. exact init_set. Qed.
Print Assumptions C21_init.
Theorem C21_is_member : forall matchf s l e, is_set matchf s l ->
  exists b, set_is_member matchf s e = Ok b /\ (b = true <-> mem matchf l e).
Proof. exact member_ok. Qed.
Print Assumptions C21_is_member.
Theorem C21_insert : forall matchf s l e, is_set matchf s l ->
  (mem matchf l e -> set_insert matchf s e = Ok (1, s)) /\
  (~ mem matchf l e -> exists s', set_insert matchf s e = Ok (0, s') /\ is_set matchf s' (e :: l)).
Proof. intros matchf s l e H. split; intros M; [eapply insert_old; eauto|now apply insert_new]. Qed.
Print Assumptions C21_insert.
(** intersection and difference into a target that shares no member with the result (e.g. an empty one); operands unchanged *)
Theorem C21_intersection : forall matchf, equivalence elt matchf -> forall si s1 s2 li l1 l2,
  is_set matchf si li -> is_set matchf s1 l1 -> is_set matchf s2 l2 ->
  (forall e, mem matchf l1 e -> mem matchf l2 e -> ~ mem matchf li e) ->
  exists u l, set_intersection matchf si s1 s2 = Ok (0, u) /\ is_set matchf u l /\
    forall e, mem matchf l e <-> mem matchf li e \/ (mem matchf l1 e /\ mem matchf l2 e).
Proof. exact intersection_ok. Qed.
Print Assumptions C21_intersection.
Theorem C21_difference : forall matchf, equivalence elt matchf -> forall sd s1 s2 ld l1 l2,
  is_set matchf sd ld -> is_set matchf s1 l1 -> is_set matchf s2 l2 ->
  (forall e, mem matchf l1 e -> ~ mem matchf l2 e -> ~ mem matchf ld e) ->
  exists u l, set_difference matchf sd s1 s2 = Ok (0, u) /\ is_set matchf u l /\
    forall e, mem matchf l e <-> mem matchf ld e \/ (mem matchf l1 e /\ ~ mem matchf l2 e).
Proof. exact difference_ok. Qed.
Print Assumptions C21_difference.
(** union: only when the three sets are pairwise disjoint *)
Theorem C21_union_partial : forall matchf, equivalence elt matchf -> forall su s1 s2 lu l1 l2,
  is_set matchf su lu -> is_set matchf s1 l1 -> is_set matchf s2 l2 ->
  (forall e, mem matchf l1 e -> ~ mem matchf lu e) -> (forall e, mem matchf l2 e -> ~ mem matchf lu e /\ ~ mem matchf l1 e) ->
  exists u l, set_union matchf su s1 s2 = Ok (0, u) /\ is_set matchf u l /\
    forall e, mem matchf l e <-> mem matchf lu e \/ mem matchf l1 e \/ mem matchf l2 e.
Proof. exact union_ok. Qed.
Print Assumptions C21_union_partial.
Theorem C21_is_subset : forall matchf, equivalence elt matchf -> forall s1 s2 l1 l2, is_set matchf s1 l1 -> is_set matchf s2 l2 ->
  exists b, set_is_subset matchf s1 s2 = Ok b /\ (b = true <-> forall e, mem matchf l1 e -> mem matchf l2 e).
Proof. exact subset_ok. Qed.
Print Assumptions C21_is_subset.
Theorem C21_is_equal : forall matchf, equivalence elt matchf -> forall s1 s2 l1 l2, is_set matchf s1 l1 -> is_set matchf s2 l2 ->
  exists b, set_is_equal matchf s1 s2 = Ok b /\ (b = true <-> forall e, mem matchf l1 e <-> mem matchf l2 e).
Proof. exact equal_ok. Qed.
Print Assumptions C21_is_equal.

(** the stock integer match function *)
Definition int_match (a b : elt) : bool :=
  match table_compare_int (fst a) (snd a) (fst b) (snd b) with Ok r => r | _ => false end.

(** Violations.  remove looks the element up with length 0: the element stays, the length is decremented and NULL is stored *)
Theorem C21_remove_refuted : exists s s1 s2 r p, set_insert int_match set_init (5, 4%nat) = Ok (0, s) /\
  set_remove int_match s 5 = Ok (r, p, s1) /\ p = 0 /\ slen s1 = 0 /\ set_is_member int_match s1 (5, 4%nat) = Ok true /\
  set_insert int_match set_init (6, 4%nat) = Ok (0, s2) /\ set_is_subset int_match s2 s1 = Ok false /\ set_is_equal int_match s1 set_init = Ok false.
Proof. do 5 eexists. split; [vm_compute; reflexivity|]. split; [vm_compute; reflexivity|]. split; [reflexivity|]. split; [reflexivity|]. split; [vm_compute; reflexivity|]. split; [vm_compute; reflexivity|]. split; vm_compute; reflexivity. Qed.
Print Assumptions C21_remove_refuted.
(** in general: unless the set has a zero-length element matching, remove never removes *)
Theorem C21_remove_never_removes_refuted : forall matchf s l p, is_set matchf s l -> ~ mem matchf l (p, 0%nat) ->
  exists s', set_remove matchf s p = Ok (0, 0, s') /\ stbl s' = stbl s /\ slen s' = slen s - 1.
Proof. exact remove_effect. Qed.
Print Assumptions C21_remove_never_removes_refuted.
(** union stops at the first member of the second set that is already present *)
Fixpoint ins (l : list elt) (s : zset) : outcome zset :=
  match l with [] => Ok s | e :: r => ' (_, s') <- set_insert int_match s e ;; ins r s' end.
Theorem C21_union_refuted : exists s1 s2 u r, ins [(3, 4%nat)] set_init = Ok s1 /\ ins [(1, 4%nat); (3, 4%nat)] set_init = Ok s2 /\
  set_union int_match set_init s1 s2 = Ok (r, u) /\ set_is_member int_match s2 (1, 4%nat) = Ok true /\ set_is_member int_match u (1, 4%nat) = Ok false.
Proof.
  do 4 eexists. split; [vm_compute; reflexivity|]. split; [vm_compute; reflexivity|]. split; [vm_compute; reflexivity|].
  split; vm_compute; reflexivity.
Qed.
Print Assumptions C21_union_refuted.
Theorem C21_long_element_refuted : forall p, table_hash_int p 9 = UB.
Proof. reflexivity. Qed.
Print Assumptions C21_long_element_refuted.

(** integers as elements: equal lengths and equal low bytes *)
Definition int4_match (a b : elt) : bool := Nat.eqb (snd a) (snd b) && (fst a mod 256 ^ Z.of_nat (snd a) =? fst b mod 256 ^ Z.of_nat (snd b)).
Lemma int4_match_equiv : equivalence elt int4_match.
Proof.
  unfold int4_match. split; [|split].
  - intros a. now rewrite Nat.eqb_refl, Z.eqb_refl.
  - intros a b. now rewrite Nat.eqb_sym, Z.eqb_sym.
  - intros a b c H1 H2. apply andb_prop in H1, H2. destruct H1 as [A1 A2], H2 as [B1 B2]. apply Nat.eqb_eq in A1, B1. apply Z.eqb_eq in A2, B2.
    rewrite A1, B1, Nat.eqb_refl. cbn. apply Z.eqb_eq. congruence.
Qed.
(** it is zt_table_compare_int *)
Theorem C21_int_match : forall a b, (snd a <= 8)%nat -> int4_match a b = int_match a b.
Proof.
  intros [p n] [q m]. cbn [fst snd]. intros L. unfold int4_match, int_match. cbn [fst snd]. destruct (Nat.eqb_spec n m) as [->|N].
  - destruct (int_keys p q m L) as (r & _ & _ & E & _ & _ & I & _). rewrite E. cbn [andb].
    destruct r, (Z.eqb_spec (p mod 256 ^ Z.of_nat m) (q mod 256 ^ Z.of_nat m)); auto; [exfalso; apply n; now apply I|exfalso; apply I in e; discriminate].
  - unfold table_compare_int. apply Nat.eqb_neq in N. now rewrite N.
Qed.
Print Assumptions C21_int_match.
Example C21_ex : equivalence elt int4_match /\ exists s1 s2 u, ins [(1, 4%nat); (2, 4%nat); (3, 4%nat)] set_init = Ok s1 /\ ins [(3, 4%nat); (4, 4%nat); (1, 4%nat)] set_init = Ok s2 /\
  set_intersection int_match set_init s1 s2 = Ok (0, u) /\ slen u = 2 /\ set_is_member int_match u (3, 4%nat) = Ok true /\ set_is_subset int_match u s1 = Ok true.
Proof.
  split; [exact int4_match_equiv|]. do 3 eexists. split; [vm_compute; reflexivity|]. split; [vm_compute; reflexivity|]. split; [vm_compute; reflexivity|].
  split; [reflexivity|]. split; vm_compute; reflexivity.
Qed.
