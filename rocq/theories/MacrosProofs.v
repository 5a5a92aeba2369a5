From Verif Require Import MacrosModel.
Open Scope Z_scope.

Lemma clamp_correct x lo hi : lo <= hi ->
  lo <= m_clamp x lo hi <= hi /\ (lo <= x <= hi -> m_clamp x lo hi = x) /\
  forall y, lo <= y <= hi -> Z.abs (x - m_clamp x lo hi) <= Z.abs (x - y).
Proof.
  intros H. unfold m_clamp. destruct (Z.ltb_spec hi x) as [A|A]; [|destruct (Z.ltb_spec x lo) as [B|B]];
    repeat split; intros; lia.
Qed.

Lemma bounds_correct a b :
  m_ceiling a b = Z.min a b /\ m_floor a b = Z.max a b /\ m_max a b = Z.max a b /\ m_min a b = Z.min a b
  /\ m_abs a = Z.abs a.
Proof.
  unfold m_ceiling, m_floor, m_max, m_min, m_abs.
  destruct (Z.ltb_spec b a), (Z.ltb_spec a b), (Z.ltb_spec a 0); repeat split; lia.
Qed.

Lemma bits_correct t b i : 0 <= i ->
  Z.testbit (bit_set t b) i = orb (Z.testbit t i) (Z.testbit b i) /\
  Z.testbit (bit_unset t b) i = andb (Z.testbit t i) (negb (Z.testbit b i)).
Proof.
  intros Hi. unfold bit_set, bit_unset. rewrite Z.lor_spec, Z.land_spec, Z.lnot_spec by exact Hi. auto.
Qed.

Lemma isset_correct t b :
  bit_isset t b = true <-> exists i, 0 <= i /\ Z.testbit t i = true /\ Z.testbit b i = true.
Proof.
  unfold bit_isset. destruct (Z.eqb_spec (Z.land t b) 0) as [E|E]; cbn [negb]; split; intros H.
  - discriminate.
  - destruct H as (i & _ & A & B). assert (X : Z.testbit (Z.land t b) i = true).
    { rewrite Z.land_spec, A, B. reflexivity. } rewrite E, Z.bits_0 in X. discriminate.
  - destruct (Z_lt_dec (Z.land t b) 0) as [N|N].
    + assert (0 <= Z.log2 (Z.lnot (Z.land t b)) + 1) by (pose proof (Z.log2_nonneg (Z.lnot (Z.land t b))); lia).
      exists (Z.log2 (Z.lnot (Z.land t b)) + 1). split; [assumption|].
      apply andb_prop. rewrite <- Z.land_spec. apply Z.bits_above_log2_neg; [lia|]. 
      unfold Z.lnot in *. lia.
    + exists (Z.log2 (Z.land t b)). split; [apply Z.log2_nonneg|].
      apply andb_prop. rewrite <- Z.land_spec. apply Z.bit_log2. lia.
  - reflexivity.
Qed.

Lemma isunset_correct t b : (bit_isunset t b = true <->
    forall i, 0 <= i -> Z.testbit t i = true -> Z.testbit b i = false) /\
  bit_isunset (bit_unset t b) b = true.
Proof.
  split.
  - unfold bit_isunset. destruct (bit_isset t b) eqn:E; cbn [negb]; split; intros H.
    + discriminate.
    + apply isset_correct in E. destruct E as (i & Hi & A & B). rewrite (H i Hi A) in B. discriminate.
    + intros i Hi A. destruct (Z.testbit b i) eqn:B; [|reflexivity].
      assert (X : bit_isset t b = true) by (apply isset_correct; eauto). congruence.
    + reflexivity.
  - unfold bit_isunset. destruct (bit_isset (bit_unset t b) b) eqn:E; [|reflexivity].
    apply isset_correct in E. destruct E as (i & Hi & A & B).
    destruct (bits_correct t b i Hi) as [_ C]. rewrite C, B, andb_false_r in A. discriminate.
Qed.
