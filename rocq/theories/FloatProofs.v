(** Proofs about FloatModel.v. *)
From Coq Require Import Lqa.
From Verif Require Import Prelude FloatModel.
Local Open Scope Q_scope.

Lemma pow2_pos e : 0 < 2 ^ e.
Proof. apply Qpower_0_lt. reflexivity. Qed.
Lemma pow2_add a b : 2 ^ (a + b) == 2 ^ a * 2 ^ b.
Proof. apply Qpower_plus. intros H. discriminate H. Qed.
Lemma pow2_Z k : (0 <= k)%Z -> inject_Z (2 ^ k) == 2 ^ k.
Proof. intros K. apply (Zpower_Qpower 2 k K). Qed.
Lemma pow2_S k : 2 ^ (k + 1) == 2 * 2 ^ k.
Proof. rewrite pow2_add. change (2 ^ 1) with 2. ring. Qed.
Lemma pow2_lt_inv a b : 2 ^ a < 2 ^ b -> (a < b)%Z.
Proof. intros H. destruct (Z.lt_ge_cases a b) as [L|L]; [exact L|]. exfalso. apply (Qlt_irrefl (2 ^ a)). apply (Qlt_le_trans _ _ _ H). apply Qpower_le_compat_l; [exact L|discriminate]. Qed.

(** 2 ^ lead x <= x < 2 ^ (lead x + 1) *)
Lemma log_bounds x : 0 < x -> let k := (Z.log2 (Qnum x) - Z.log2 (QDen x))%Z in 2 ^ (k - 1) < x /\ x < 2 ^ (k + 1).
Proof.
  intros X k. destruct x as [n d]. unfold Qlt in X. cbn [Qnum Qden] in *. rewrite Z.mul_0_l, Z.mul_1_r in X. cbn [Qnum Qden] in k.
  pose proof (Z.log2_spec n X) as [N1 N2]. pose proof (Z.log2_spec (Zpos d) (Pos2Z.is_pos d)) as [D1 D2]. pose proof (Z.log2_nonneg n) as LN. pose proof (Z.log2_nonneg (Zpos d)) as LD.
  set (a := Z.log2 n) in *. set (b := Z.log2 (Z.pos d)) in *.
  rewrite Zle_Qle, pow2_Z in N1 by exact LN. rewrite Zlt_Qlt, pow2_Z in N2 by lia. rewrite Zle_Qle, pow2_Z in D1 by exact LD. rewrite Zlt_Qlt, pow2_Z in D2 by lia.
  assert (E : (n # d) == inject_Z n / inject_Z (Z.pos d)) by (unfold Qeq, inject_Z, Qdiv, Qmult, Qinv; cbn; lia). rewrite E.
  assert (DP : 0 < inject_Z (Z.pos d)) by reflexivity. pose proof (pow2_pos a) as PA. pose proof (pow2_pos b) as PB.
  assert (KA : 2 ^ k * 2 ^ b == 2 ^ a) by (rewrite <- pow2_add; unfold k; replace (a - b + b)%Z with a by lia; reflexivity). pose proof (pow2_pos k) as PK.
  assert (K1 : 2 ^ k == 2 * 2 ^ (k - 1)) by (rewrite <- pow2_S; replace (k - 1 + 1)%Z with k by lia; reflexivity).
  change (Z.succ a) with (a + 1)%Z in N2. change (Z.succ b) with (b + 1)%Z in D2. rewrite pow2_S in N2. rewrite pow2_S in D2. rewrite pow2_S. set (A := 2 ^ a) in *. set (B := 2 ^ b) in *. set (K := 2 ^ k) in *. set (K0 := 2 ^ (k - 1)) in *. set (N := inject_Z n) in *. set (D := inject_Z (Z.pos d)) in *. clearbody A B K K0 N D. split.
  - apply Qlt_shift_div_l; [exact DP|]. nra.
  - apply Qlt_shift_div_r; [exact DP|]. nra.
Qed.
Lemma lead_ok x : 0 < x -> 2 ^ lead x <= x /\ x < 2 ^ (lead x + 1).
Proof.
  intros X. destruct (log_bounds x X) as [L U]. cbv zeta in *. unfold lead. set (k := (Z.log2 (Qnum x) - Z.log2 (QDen x))%Z) in *. destruct (Qle_bool (2 ^ k) x) eqn:E.
  - apply Qle_bool_iff in E. now split.
  - replace (k - 1 + 1)%Z with k by lia. split; [now apply Qlt_le_weak|]. apply Qnot_le_lt. intros H. apply Qle_bool_iff in H. congruence.
Qed.
Lemma nearest_ok y : y - (1 # 2) <= inject_Z (nearest y) <= y + (1 # 2).
Proof.
  unfold nearest. pose proof (Qfloor_le y) as F1. pose proof (Qlt_floor y) as F2. set (q := Qfloor y) in *. rewrite inject_Z_plus in F2. change (inject_Z 1) with 1 in F2.
  assert (S1 : inject_Z (q + 1) == inject_Z q + 1) by (rewrite inject_Z_plus; reflexivity).
  destruct (Qcompare_spec (y - inject_Z q) (1 # 2)) as [E|E|E].
  - destruct (Z.even q); [|rewrite S1]; split; lra.
  - split; lra.
  - rewrite S1. split; lra.
Qed.
Lemma nearest_int n : nearest (inject_Z n) = n.
Proof. unfold nearest. rewrite Qfloor_Z. destruct (Qcompare_spec (inject_Z n - inject_Z n) (1 # 2)) as [E|E|E]; [exfalso; lra|reflexivity|exfalso; lra]. Qed.
Lemma nearest_comp y z : y == z -> nearest y = nearest z.
Proof. intros E. unfold nearest. rewrite (Qfloor_comp _ _ E). assert (X : (y - inject_Z (Qfloor z) ?= 1 # 2) = (z - inject_Z (Qfloor z) ?= 1 # 2)) by (now rewrite E). now rewrite X. Qed.

Lemma rnd_pos p x : 0 < x -> rnd p x = inject_Z (nearest (x / 2 ^ (lead x - (p - 1)))) * 2 ^ (lead x - (p - 1)).
Proof. intros X. unfold rnd. destruct (Qle_bool x 0) eqn:E; [|reflexivity]. apply Qle_bool_iff in E. exfalso. lra. Qed.
Lemma rnd_0 p x : x <= 0 -> rnd p x = 0.
Proof. intros X. unfold rnd. apply Qle_bool_iff in X. now rewrite X. Qed.
(** the relative error is at most 2 ^ -p *)
Lemma rnd_err p x : 0 <= x -> x * (2 ^ p - 1) <= rnd p x * 2 ^ p <= x * (2 ^ p + 1).
Proof.
  intros X. destruct (Qlt_le_dec 0 x) as [P|N]; [|rewrite rnd_0 by exact N; assert (x == 0) by lra; pose proof (pow2_pos p); split; nra].
  rewrite rnd_pos by exact P. destruct (lead_ok x P) as [L _]. set (e := (lead x - (p - 1))%Z). pose proof (nearest_ok (x / 2 ^ e)) as [N1 N2]. set (m := inject_Z _) in *. clearbody m. pose proof (pow2_pos e) as PE. pose proof (pow2_pos p) as PP.
  assert (E : 2 ^ e * 2 ^ p == 2 * 2 ^ lead x) by (rewrite <- pow2_add, <- pow2_S; unfold e; replace (lead x - (p - 1) + p)%Z with (lead x + 1)%Z by lia; reflexivity).
  assert (XY : x == x / 2 ^ e * 2 ^ e) by (field; intros H; rewrite H in PE; discriminate PE).
  set (y := x / 2 ^ e) in *. clearbody y. set (K := 2 ^ lead x) in *. set (B := 2 ^ e) in *. set (T := 2 ^ p) in *. clearbody K B T.
  assert (H1 : (y - (1 # 2)) * B <= m * B) by (apply Qmult_le_compat_r; lra). assert (H2 : m * B <= (y + (1 # 2)) * B) by (apply Qmult_le_compat_r; lra).
  assert (G1 : (x - (1 # 2) * B) * T <= m * B * T) by (apply Qmult_le_compat_r; lra). assert (G2 : m * B * T <= (x + (1 # 2) * B) * T) by (apply Qmult_le_compat_r; lra). split; lra.
Qed.
(** numbers of p bits are not changed *)
Lemma rnd_exact p m e : (0 <= m < 2 ^ p)%Z -> (0 <= p)%Z -> rnd p (inject_Z m * 2 ^ e) == inject_Z m * 2 ^ e.
Proof.
  intros [M0 M1] P. pose proof (pow2_pos e) as PE. destruct (Z.eq_dec m 0) as [->|NZ]; [rewrite rnd_0; [change (inject_Z 0) with 0; ring|change (inject_Z 0) with 0; lra]|].
  assert (MP : 0 < inject_Z m) by (change 0 with (inject_Z 0); rewrite <- Zlt_Qlt; lia). set (x := inject_Z m * 2 ^ e). assert (X : 0 < x) by (unfold x; nra). rewrite rnd_pos by exact X.
  destruct (lead_ok x X) as [L _]. set (k := lead x) in *. set (e' := (k - (p - 1))%Z).
  assert (U : x < 2 ^ (p + e)) by (unfold x; rewrite pow2_add, <- (pow2_Z p) by exact P; apply Qmult_lt_compat_r; [exact PE|]; now rewrite <- Zlt_Qlt).
  assert (KE : (k < p + e)%Z) by (apply pow2_lt_inv; apply (Qle_lt_trans _ _ _ L U)).
  assert (Y : x / 2 ^ e' == inject_Z (m * 2 ^ (e - e'))).
  { rewrite inject_Z_mult, pow2_Z by (unfold e'; lia). unfold x. assert (E : 2 ^ e == 2 ^ (e - e') * 2 ^ e') by (rewrite <- pow2_add; replace (e - e' + e')%Z with e by lia; reflexivity). rewrite E. field. pose proof (pow2_pos e') as PE'. intros H. rewrite H in PE'. discriminate PE'. }
  rewrite (nearest_comp _ _ Y), nearest_int, <- Y. field. pose proof (pow2_pos e') as PE'. intros H. rewrite H in PE'. discriminate PE'.
Qed.
Lemma lead_comp x y : 0 < x -> x == y -> lead x = lead y.
Proof.
  intros X E. assert (Y : 0 < y) by (rewrite <- E; exact X). destruct (lead_ok x X) as [L1 U1]. destruct (lead_ok y Y) as [L2 U2].
  assert (A : (lead x < lead y + 1)%Z) by (apply pow2_lt_inv, (Qle_lt_trans _ x); [exact L1|rewrite E; exact U2]). assert (B : (lead y < lead x + 1)%Z) by (apply pow2_lt_inv, (Qle_lt_trans _ y); [exact L2|rewrite <- E; exact U1]). lia.
Qed.
Lemma rnd_comp p x y : x == y -> rnd p x == rnd p y.
Proof.
  intros E. destruct (Qlt_le_dec 0 x) as [X|X]; [|rewrite !rnd_0; [reflexivity|rewrite <- E; exact X|exact X]]. assert (Y : 0 < y) by (rewrite <- E; exact X). rewrite !rnd_pos by assumption. rewrite (lead_comp x y X E).
  assert (Q1 : x / 2 ^ (lead y - (p - 1)) == y / 2 ^ (lead y - (p - 1))) by (now rewrite E). rewrite (nearest_comp _ _ Q1). reflexivity.
Qed.
Lemma rnd_eq p x m e : x == inject_Z m * 2 ^ e -> (0 <= m < 2 ^ p)%Z -> (0 <= p)%Z -> rnd p x == x.
Proof. intros E M P. rewrite (rnd_comp p _ _ E), E. now apply rnd_exact. Qed.
