From Verif Require Import Prelude HashModel HashProofs TableModel.
Open Scope Z_scope.

Lemma memeq_ok n : forall a b, (n <= length a)%nat -> (n <= length b)%nat ->
  exists r, memeq n a b = Ok r /\ (r = true <-> firstn n a = firstn n b).
Proof.
  induction n as [|n IH]; intros a b Ha Hb; cbn [memeq firstn]; [exists true; split; [reflexivity|tauto]|].
  destruct a as [|x a]; [cbn in Ha; lia|]. destruct b as [|y b]; [cbn in Hb; lia|]. cbn [length] in *.
  destruct (Z.eqb_spec x y) as [->|N].
  - destruct (IH a b ltac:(lia) ltac:(lia)) as (r & E & I). exists r. split; [exact E|]. rewrite I. split; congruence.
  - exists false. split; [reflexivity|]. split; congruence.
Qed.
Lemma ptr_bytes_len n p : length (ptr_bytes n p) = n.
Proof. revert p. induction n; intros p; cbn; auto. Qed.
Lemma ptr_bytes_firstn : forall n m p q, (n <= m)%nat -> (firstn n (ptr_bytes m p) = firstn n (ptr_bytes m q) <-> p mod 256 ^ Z.of_nat n = q mod 256 ^ Z.of_nat n).
Proof.
  induction n as [|n IH]; intros m p q L.
  - cbn [firstn]. change (256 ^ Z.of_nat 0) with 1. rewrite !Z.mod_1_r. tauto.
  - destruct m as [|m]; [lia|]. cbn [ptr_bytes firstn]. rewrite Nat2Z.inj_succ, Z.pow_succ_r by lia.
    assert (P : 0 < 256 ^ Z.of_nat n) by (apply Z.pow_pos_nonneg; lia). rewrite !Z.rem_mul_r by lia. specialize (IH m (p / 256) (q / 256) ltac:(lia)).
    split.
    + intros H. assert (H1 : p mod 256 = q mod 256) by congruence. assert (H2 : firstn n (ptr_bytes m (p / 256)) = firstn n (ptr_bytes m (q / 256))) by congruence.
      apply IH in H2. lia.
    + intros H. assert (A := Z.mod_pos_bound p 256 ltac:(lia)). assert (B := Z.mod_pos_bound q 256 ltac:(lia)).
      assert (H1 : p mod 256 = q mod 256) by lia. assert (H2 : (p / 256) mod 256 ^ Z.of_nat n = (q / 256) mod 256 ^ Z.of_nat n) by lia.
      apply IH in H2. congruence.
Qed.
Lemma int_keys p q n : (n <= 8)%nat ->
  exists r h1 h2, table_compare_int p n q n = Ok r /\ table_hash_int p n = Ok h1 /\ table_hash_int q n = Ok h2 /\
    (r = true <-> p mod 256 ^ Z.of_nat n = q mod 256 ^ Z.of_nat n) /\ (r = true -> h1 = h2).
Proof.
  intros L. unfold table_compare_int, table_hash_int. rewrite Nat.eqb_refl.
  destruct (memeq_ok n (ptr_bytes 8 p) (ptr_bytes 8 q)) as (r & E & I); try (rewrite ptr_bytes_len; lia).
  rewrite !buff32 by (rewrite ptr_bytes_len; lia). do 3 eexists. split; [exact E|]. split; [reflexivity|]. split; [reflexivity|].
  split; [rewrite I; apply ptr_bytes_firstn; lia|]. intros R. apply I in R. now rewrite R.
Qed.

(** C strings: s without NULs, followed by NUL and anything *)
Lemma strneq_cstr : forall s1 s2 t1 t2 n, Forall (fun b => b <> 0) s1 -> Forall (fun b => b <> 0) s2 -> 
  exists r, strneq n (s1 ++ 0 :: t1) (s2 ++ 0 :: t2) = Ok r /\ (r = true <-> firstn n s1 = firstn n s2).
Proof.
  induction s1 as [|x s1 IH]; intros [|y s2] t1 t2 n F1 F2; destruct n as [|n]; cbn [strneq app firstn].
  - exists true; split; [reflexivity|tauto].
  - exists true. split; [reflexivity|tauto].
  - exists true; split; [reflexivity|tauto].
  - inversion F2; subst. destruct (Z.eqb_spec 0 y); [congruence|]. exists false. split; [reflexivity|split; discriminate].
  - exists true; split; [reflexivity|tauto].
  - inversion F1; subst. destruct (Z.eqb_spec x 0); [congruence|]. exists false. split; [reflexivity|split; discriminate].
  - exists true; split; [reflexivity|tauto].
  - inversion F1; inversion F2; subst. destruct (Z.eqb_spec x y) as [->|N].
    + destruct (Z.eqb_spec y 0); [congruence|]. destruct (IH s2 t1 t2 n) as (r & E & I); auto. exists r. split; [exact E|]. rewrite I. split; congruence.
    + exists false. split; [reflexivity|]. split; congruence.
Qed.
Lemma string_keys s1 s2 t1 t2 n1 n2 : Forall (fun b => b <> 0) s1 -> Forall (fun b => b <> 0) s2 -> (length s1 <= n1)%nat -> (length s2 <= n2)%nat ->
  exists r h1 h2, table_compare_string (s1 ++ 0 :: t1) n1 (s2 ++ 0 :: t2) n2 = Ok r /\
    table_hash_string (s1 ++ 0 :: t1) n1 = Ok h1 /\ table_hash_string (s2 ++ 0 :: t2) n2 = Ok h2 /\
    (r = true <-> n1 = n2 /\ s1 = s2) /\ (r = true -> h1 = h2).
Proof.
  intros F1 F2 L1 L2. unfold table_compare_string, table_hash_string.
  rewrite !cstr32 by assumption. rewrite !buff32 by lia.
  destruct (Nat.eqb_spec n1 n2) as [->|N].
  - destruct (strneq_cstr s1 s2 t1 t2 n2 F1 F2) as (r & E & I). do 3 eexists. split; [exact E|]. split; [reflexivity|]. split; [reflexivity|].
    rewrite !firstn_all2 in I by lia. split; [rewrite I; tauto|]. intros R. apply I in R. now rewrite R.
  - do 3 eexists. split; [reflexivity|]. split; [reflexivity|]. split; [reflexivity|]. split; [|discriminate]. split; [discriminate|tauto].
Qed.
Lemma strneq_buf : forall n a b, Forall (fun x => x <> 0) (firstn n a) -> (n <= length a)%nat -> (n <= length b)%nat ->
  exists r, strneq n a b = Ok r /\ (r = true <-> firstn n a = firstn n b).
Proof.
  induction n as [|n IH]; intros a b F Ha Hb; cbn [strneq]; [exists true; split; [reflexivity|cbn; tauto]|].
  destruct a as [|x a]; [cbn in Ha; lia|]. destruct b as [|y b]; [cbn in Hb; lia|]. cbn [length firstn] in *.
  inversion F; subst. destruct (Z.eqb_spec x y) as [->|N].
  - destruct (Z.eqb_spec y 0); [congruence|]. destruct (IH a b) as (r & E & I); auto; try lia. exists r. split; [exact E|]. rewrite I. split; congruence.
  - exists false. split; [reflexivity|]. split; congruence.
Qed.
Lemma buff_keys a b n1 n2 : Forall (fun x => x <> 0) (firstn n1 a) -> (n1 <= length a)%nat -> (n2 <= length b)%nat ->
  exists r h1 h2, table_compare_buff a n1 b n2 = Ok r /\ table_hash_buff a n1 = Ok h1 /\ table_hash_buff b n2 = Ok h2 /\
    (r = true <-> n1 = n2 /\ firstn n1 a = firstn n2 b) /\ (r = true -> h1 = h2).
Proof.
  intros F La Lb. unfold table_compare_buff, table_compare_string, table_hash_buff. rewrite !buff32 by assumption.
  destruct (Nat.eqb_spec n1 n2) as [->|N].
  - destruct (strneq_buf n2 a b F La Lb) as (r & E & I). do 3 eexists. split; [exact E|]. split; [reflexivity|]. split; [reflexivity|].
    split; [rewrite I; tauto|]. intros R. apply I in R. now rewrite R.
  - do 3 eexists. split; [reflexivity|]. split; [reflexivity|]. split; [reflexivity|]. split; [|discriminate]. split; [discriminate|tauto].
Qed.
