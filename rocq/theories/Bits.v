(** Bit-level arithmetic facts. *)
From Coq Require Import ZArith Lia.
Open Scope Z_scope.

Lemma lor_low q r k : 0 <= k -> 0 <= r < 2 ^ k -> Z.lor (q * 2 ^ k) r = q * 2 ^ k + r.
Proof.
  intros K R. assert (L : Z.land (q * 2 ^ k) r = 0).
  { apply Z.bits_inj'. intros i Hi. rewrite Z.land_spec, Z.bits_0. destruct (Z.lt_ge_cases i k) as [A|A].
    - rewrite Z.mul_pow2_bits_low by exact A. reflexivity.
    - destruct (Z.eq_dec r 0) as [->|N]; [rewrite Z.bits_0; apply Bool.andb_false_r|].
      rewrite (Z.bits_above_log2 r i); [apply Bool.andb_false_r|lia|]. apply Z.log2_lt_pow2; [lia|]. apply Z.lt_le_trans with (2 ^ k); [lia|]. apply Z.pow_le_mono_r; lia. }
  rewrite Z.add_nocarry_lxor by exact L. now rewrite Z.lxor_lor by exact L.
Qed.
Lemma land_high a n k : 0 <= k -> 0 <= n -> Z.land a (Z.ones n * 2 ^ k) = ((a / 2 ^ k) mod 2 ^ n) * 2 ^ k.
Proof.
  intros K N. rewrite <- !Z.shiftl_mul_pow2 by exact K. rewrite <- Z.land_ones by exact N. rewrite <- Z.shiftr_div_pow2 by exact K.
  rewrite Z.shiftl_land. apply Z.bits_inj'. intros i Hi. rewrite !Z.land_spec. destruct (Z.lt_ge_cases i k) as [A|A].
  - rewrite (Z.shiftl_spec_low (Z.ones n)) by exact A. now rewrite !Bool.andb_false_r.
  - rewrite (Z.shiftl_spec_high (Z.shiftr a k)) by lia. rewrite Z.shiftr_spec by lia. now replace (i - k + k) with i by lia.
Qed.
Lemma land_le a m : 0 <= m -> 0 <= Z.land a m <= m.
Proof.
  intros M. assert (N : 0 <= Z.land a m) by (apply Z.land_nonneg; now right). split; [exact N|].
  assert (D : Z.land (Z.ldiff m a) (Z.land m a) = 0).
  { rewrite (Z.land_comm m a), Z.land_assoc, Z.land_ldiff. apply Z.land_0_l. }
  pose proof (Z.lor_ldiff_and m a) as E. rewrite <- Z.lxor_lor, <- Z.add_nocarry_lxor in E by exact D.
  assert (P : 0 <= Z.ldiff m a) by (apply Z.ldiff_nonneg; now left). rewrite (Z.land_comm a m). lia.
Qed.
Lemma bits_lt x n : 0 <= n -> 0 <= x -> (x < 2 ^ n <-> forall i, n <= i -> Z.testbit x i = false).
Proof.
  intros N P. split.
  - intros H i I. destruct (Z.eq_dec x 0) as [->|E]; [apply Z.bits_0|]. apply Z.bits_above_log2; [exact P|]. assert (Z.log2 x < n) by (apply Z.log2_lt_pow2; lia). lia.
  - intros H. destruct (Z.eq_dec x 0) as [->|E]; [apply Z.pow_pos_nonneg; lia|]. apply Z.log2_lt_pow2; [lia|]. destruct (Z.lt_ge_cases (Z.log2 x) n) as [L|L]; [exact L|].
    specialize (H _ L). rewrite Z.bit_log2 in H by lia. discriminate.
Qed.
Lemma lxor_lt x y n : 0 <= n -> 0 <= x < 2 ^ n -> 0 <= y < 2 ^ n -> 0 <= Z.lxor x y < 2 ^ n.
Proof.
  intros N X Y. assert (P : 0 <= Z.lxor x y) by (apply Z.lxor_nonneg; lia). split; [exact P|]. apply bits_lt; [exact N|exact P|]. intros i I. rewrite Z.lxor_spec.
  rewrite (proj1 (bits_lt x n N ltac:(lia)) ltac:(lia) i I), (proj1 (bits_lt y n N ltac:(lia)) ltac:(lia) i I). reflexivity.
Qed.
Lemma lor_lt x y n : 0 <= n -> 0 <= x < 2 ^ n -> 0 <= y < 2 ^ n -> 0 <= Z.lor x y < 2 ^ n.
Proof.
  intros N X Y. assert (P : 0 <= Z.lor x y) by (apply Z.lor_nonneg; lia). split; [exact P|]. apply bits_lt; [exact N|exact P|]. intros i I. rewrite Z.lor_spec.
  rewrite (proj1 (bits_lt x n N ltac:(lia)) ltac:(lia) i I), (proj1 (bits_lt y n N ltac:(lia)) ltac:(lia) i I). reflexivity.
Qed.
