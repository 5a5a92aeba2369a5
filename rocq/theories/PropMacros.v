(** C44: macros of zt_macros.h. *)
From Verif Require Import MacrosModel MacrosProofs.
Open Scope Z_scope.

(** The clamped value lies in the interval, equals x when x does, and no value of the interval is nearer. *)
Theorem C44_clamp : forall x lo hi, lo <= hi ->
  lo <= m_clamp x lo hi <= hi /\ (lo <= x <= hi -> m_clamp x lo hi = x) /\
  forall y, lo <= y <= hi -> Z.abs (x - m_clamp x lo hi) <= Z.abs (x - y).
Proof. exact clamp_correct. Qed.
Print Assumptions C44_clamp.

Theorem C44_bounds : forall a b,
  m_ceiling a b = Z.min a b /\ m_floor a b = Z.max a b /\ m_max a b = Z.max a b /\ m_min a b = Z.min a b
  /\ m_abs a = Z.abs a.
Proof. exact bounds_correct. Qed.
Print Assumptions C44_bounds.

(** Bit by bit effect of the flag macros. *)
Theorem C44_bits : forall t b i, 0 <= i ->
  Z.testbit (bit_set t b) i = orb (Z.testbit t i) (Z.testbit b i) /\
  Z.testbit (bit_unset t b) i = andb (Z.testbit t i) (negb (Z.testbit b i)).
Proof. exact bits_correct. Qed.
Print Assumptions C44_bits.

Theorem C44_isset : forall t b,
  bit_isset t b = true <-> exists i, 0 <= i /\ Z.testbit t i = true /\ Z.testbit b i = true.
Proof. exact isset_correct. Qed.
Print Assumptions C44_isset.

Theorem C44_isunset : forall t b, (bit_isunset t b = true <->
    forall i, 0 <= i -> Z.testbit t i = true -> Z.testbit b i = false) /\
  bit_isunset (bit_unset t b) b = true.
Proof. exact isunset_correct. Qed.
Print Assumptions C44_isunset.

Example C44_ex : m_clamp 9 2 5 = 5 /\ m_clamp (-3) 2 5 = 2 /\ bit_isset (bit_set 8 4) 4 = true /\
  bit_unset 13 4 = 9.
Proof. repeat split. Qed.
