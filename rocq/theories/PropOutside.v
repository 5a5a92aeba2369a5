(** C02, C15, C17, C18: what happens outside the cases the contract covers, for every argument. *)
From Verif Require Import Prelude Blocks ArrayModel ArrayProofs BstreamProofs.
Local Open Scope Z_scope.

(** *** C18: after a truncation the position decides: at the start the stream is as good as new, anywhere else every write fails *)
Theorem C18_truncate_exact : forall b s d, is_stream b s -> d <> [] -> Z.of_nat (length (sbytes s)) + Z.of_nat (length d) * 2 < W64 ->
  (spos s <> O -> bs_write (snd (bs_truncate b)) d = Abort) /\
  (spos s = O -> exists b', bs_write (snd (bs_truncate b)) d = Ok b' /\ is_stream b' (s_write (mkss [] 0 (sflip s)) d)).
Proof.
  intros b s d H N B. pose proof H as (E & SZ & O & P & F). assert (L : 0 < Z.of_nat (length d)) by (destruct d; [congruence|cbn [length]; lia]). split; intros PZ.
  - unfold bs_truncate, array_set_length, bs_write, array_length. cbn [snd alen bdata offt flip]. cbv zeta. rewrite O. rewrite (Z.mod_eq (0 - Z.of_nat (spos s))) by (unfold W64; lia).
    replace ((0 - Z.of_nat (spos s)) / W64) with (-1) by (apply Z.div_unique with (W64 - Z.of_nat (spos s)); [left|]; unfold W64 in *; lia).
    replace (Z.of_nat (length d) >? 0 - Z.of_nat (spos s) - W64 * -1) with false by lia. cbn [obind]. unfold array_put_all. destruct (if flip b then rev d else d) as [|c r] eqn:Q.
    + exfalso. apply N. destruct (flip b); [|exact Q]. rewrite <- (rev_involutive d), Q. reflexivity.
    + cbn [put_bytes]. unfold array_put. cbn [alen]. replace (Z.of_nat (spos s) <? 0) with false by lia. reflexivity.
  - assert (IS : is_stream (mkbs (sflip s) 0 (mkarr 0 1 None)) (mkss [] 0 (sflip s))).
    { unfold is_stream, elems, ablock. cbn. repeat split; auto; try lia; unfold W64; lia. }
    destruct (write_ok _ _ d IS) as (b' & W & I); [right; cbn [sbytes length]; lia|]. exists b'. split; [|exact I]. rewrite <- W. unfold bs_truncate, array_set_length, bs_write, array_length. cbn [snd alen bdata offt flip]. rewrite O, PZ, SZ, F. cbn [Z.of_nat].
    replace (Z.of_nat (length d) >? (0 - 0) mod W64) with true; [reflexivity|]. symmetry. change ((0 - 0) mod W64) with 0. lia.
Qed.
Example C18_truncate_exact_ex : is_stream (mkbs true 1 (mkarr 2 1 (Some [Some 1; Some 2]))) (mkss [1; 2] 1 true) /\ is_stream (mkbs true 0 (mkarr 2 1 (Some [Some 1; Some 2]))) (mkss [1; 2] 0 true) /\
  (match bs_write (snd (bs_truncate (mkbs true 0 (mkarr 2 1 (Some [Some 1; Some 2]))))) [7; 8] with Ok b => bdata b = mkarr 4 1 (Some [Some 8; Some 7; Some 0; Some 0]) | _ => False end).
Proof. split; [|split; [|vm_compute; reflexivity]]; unfold is_stream, elems; cbn; repeat split; auto; try lia; discriminate. Qed.

(** *** C17: set_length changes nothing but the length: elements of the block stay what they are, the others below the new length are outside the block *)
Theorem C17_set_length_exact : forall a es n i, elems a es -> 0 <= i < n ->
  (i < Z.of_nat (length es) -> array_elem_copy (snd (array_set_length a n)) i = Ok (nth (Z.to_nat i) es [])) /\
  (Z.of_nat (length es) <= i -> i * asize a < W64 -> array_elem_copy (snd (array_set_length a n)) i = UB /\ (forall e, Z.of_nat (length e) = asize a -> array_put (snd (array_set_length a n)) i e = UB)).
Proof.
  intros a es n i H I. split.
  - intros K. pose proof H as (E1 & _). assert (G : array_elem_copy a i = Ok (nth (Z.to_nat i) es [])) by (destruct (nth_split es [] (n := Z.to_nat i)) as (l1 & l2 & Q & LL); [lia|]; rewrite Q in H; apply get_ok in H; rewrite LL, Z2Nat.id in H by lia; exact H). rewrite <- G. unfold array_elem_copy, array_set_length. cbn [snd alen asize]. rewrite E1. replace (i <? n) with true by lia. replace (i <? Z.of_nat (length es)) with true by lia. reflexivity.
  - intros K WW. pose proof H as (E1 & E2 & E3 & E4 & E5 & E6). assert (LB : Z.of_nat (length (ablock a)) <= i * asize a) by (rewrite E5, map_length, (concat_len es (asize a) E4); nia).
    unfold array_elem_copy, array_put, array_set_length. cbn [snd alen asize]. replace (i <? n) with true by lia. cbn [guard obind]. rewrite Z.mod_small by nia. change (ablock {| alen := n; asize := asize a; adata := adata a |}) with (ablock a). split.
    + destruct (Z.to_nat (asize a)) as [|k] eqn:K1; [lia|]. cbn [rdn]. replace (nth_error (ablock a) (Z.to_nat (i * asize a))) with (@None (option Z)) by (symmetry; apply nth_error_None; lia). reflexivity.
    + intros e LE. pose proof (rdn_ok e [] [] (Z.to_nat (asize a)) ltac:(lia)) as R. cbn [app length] in R. rewrite app_nil_r in R. rewrite R. cbn [obind]. rewrite firstn_all2 by lia. destruct e as [|v e]; [cbn [length] in LE; lia|]. cbn [wrn]. replace (Z.to_nat (i * asize a) <? length (ablock a))%nat with false by (symmetry; apply Nat.ltb_ge; lia). reflexivity.
Qed.
Example C17_set_length_exact_ex : elems (mkarr 2 2 (Some [Some 1; Some 2; Some 3; Some 4])) [[1; 2]; [3; 4]] /\ array_elem_copy (snd (array_set_length (mkarr 2 2 (Some [Some 1; Some 2; Some 3; Some 4])) 5)) 1 = Ok [3; 4].
Proof. split; [|reflexivity]. unfold elems. cbn. repeat split; auto; try lia; discriminate. Qed.
Print Assumptions C18_truncate_exact. Print Assumptions C17_set_length_exact.
