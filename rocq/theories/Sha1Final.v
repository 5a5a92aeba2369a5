From Verif Require Import Prelude Bits CstrModel Sha1Spec Sha1Model Sha1Proofs Sha1Stream.
Open Scope Z_scope.

Lemma be_bytes_eq w : w32 w -> be_bytes w = be32 w.
Proof.
  intros H. unfold be_bytes, be32, w32, W32 in *. cbn [map]. assert (E : forall x, Z.land x 255 = x mod 256) by (intros x; change 255 with (Z.ones 8); now rewrite Z.land_ones by lia).
  rewrite !E, !Z.shiftr_div_pow2 by lia. change (2 ^ (3 * 8)) with 16777216. change (2 ^ (2 * 8)) with 65536. change (2 ^ (1 * 8)) with 256. change (2 ^ (0 * 8)) with 1.
  rewrite Z.div_1_r. f_equal. apply Z.mod_small. lia.
Qed.
Lemma be32_bytes w : w32 w -> Forall byte (be32 w).
Proof. intros H. unfold be32, w32, byte, W32 in *. repeat constructor; lia. Qed.
Lemma land504 x : Z.land x 504 = (x / 8) mod 64 * 8.
Proof. change 504 with (Z.ones 6 * 2 ^ 3). rewrite land_high by lia. reflexivity. Qed.
Lemma rep_count c m : represents c m -> (Z.land (count0 c) 504 =? 448) = ((length m mod 64 =? 56)%nat).
Proof.
  intros (q & mq & tl & _ & _ & _ & _ & _ & _ & C0 & _). rewrite land504, C0. unfold zlen, W32. set (n := length m).
  assert (E : (8 * Z.of_nat n) mod 4294967296 / 8 mod 64 = Z.of_nat (n mod 64)) by (rewrite Nat2Z.inj_mod; lia). rewrite E. lia.
Qed.
Lemma one_byte c m b : represents c m -> byte b -> exists c', sha1_update c [b; 0] 1 = Ok (c', [b; 0]) /\ represents c' (m ++ [b]).
Proof.
  intros R B. pose proof (Nat.mod_upper_bound (length m) 64 ltac:(lia)) as U.
  destruct (update_ok c m [b] [0] R ltac:(repeat constructor; apply B)) as (c' & E & R'); [unfold zlen, W32; cbn [length]; lia|unfold zlen, W32; cbn [length]; lia|].
  exists c'. split; [|exact R']. cbn [app] in E. change (zlen [b]) with 1 in E. rewrite E. do 2 f_equal.
  assert (D : data_after (length m mod 64) [b] = [b]); [|now rewrite D].
  unfold data_after. cbn [length]. destruct (Nat.ltb_spec (length m mod 64 + 1) 64); [reflexivity|]. cbv zeta. replace (length m mod 64)%nat with 63%nat by lia. reflexivity.
Qed.
Lemma pad_ok : forall k fuel c m, represents c m -> ((56 + 64 - length m mod 64) mod 64 = k)%nat -> (k <= fuel)%nat ->
  exists c', pad_loop fuel c = Ok c' /\ represents c' (m ++ repeat 0 k).
Proof.
  induction k as [|k IH]; intros fuel c m R K F.
  - exists c. split; [|cbn [repeat]; now rewrite app_nil_r]. destruct fuel; cbn [pad_loop]; rewrite (rep_count c m R); replace (length m mod 64 =? 56)%nat with true by lia; reflexivity.
  - destruct fuel as [|fuel]; [lia|]. cbn [pad_loop]. rewrite (rep_count c m R). replace (length m mod 64 =? 56)%nat with false by lia.
    destruct (one_byte c m 0 R ltac:(unfold byte; lia)) as (c1 & E1 & R1). rewrite E1. cbn [obind].
    destruct (IH fuel c1 (m ++ [0]) R1) as (c' & E & R'); [rewrite app_length; cbn [length]; lia|lia|].
    exists c'. split; [exact E|]. rewrite <- app_assoc in R'. exact R'.
Qed.

Lemma finalize_ok c m : represents c m -> 8 * zlen m < 2 ^ 64 ->
  sha1_finalize c = Ok (SHA1 m, mkctx (mkregs 0 0 0 0 0) 0 0 (repeat 0 64)).
Proof.
  intros R LIM. unfold sha1_finalize. destruct (one_byte c m 128 R ltac:(unfold byte; lia)) as (c1 & E1 & R1). rewrite E1. cbn [obind].
  set (k := ((119 - length m mod 64) mod 64)%nat).
  destruct (pad_ok k 64 c1 (m ++ [128]) R1) as (c2 & E2 & R2); [unfold k; rewrite app_length; cbn [length]; lia|unfold k; lia|]. rewrite E2. cbn [obind].
  assert (CNT : be_bytes (count1 c) ++ be_bytes (count0 c) = be32 (8 * zlen m / 2 ^ 32) ++ be32 ((8 * zlen m) mod 2 ^ 32)).
  { destruct R as (q & mq & tl & _ & _ & _ & _ & _ & _ & C0 & C1 & _). rewrite C0, C1, !be_bytes_eq by apply mod_w32. rewrite <- W32_eq. rewrite (Z.mod_small (8 * zlen m / W32)); [reflexivity|].
    split; [apply Z.div_pos; [unfold zlen; lia|reflexivity]|]. apply Z.div_lt_upper_bound; [reflexivity|]. rewrite W32_eq. lia. }
  rewrite CNT. clear CNT. set (fc := be32 _ ++ be32 _).
  assert (FB : Forall byte fc).
  { unfold fc. apply Forall_app. split; apply be32_bytes; [|rewrite <- W32_eq; apply mod_w32]. unfold w32. rewrite W32_eq.
    split; [apply Z.div_pos; [unfold zlen; lia|lia]|]. apply Z.div_lt_upper_bound; lia. }
  assert (FL : length fc = 8%nat) by reflexivity.
  destruct (update_ok c2 ((m ++ [128]) ++ repeat 0 k) fc [] R2 FB) as (c3 & E3 & R3).
  { unfold zlen. rewrite FL. pose proof (Nat.mod_upper_bound (length ((m ++ [128]) ++ repeat 0 k)) 64 ltac:(lia)). unfold W32. lia. }
  { unfold zlen, W32. lia. }
  rewrite app_nil_r in E3. assert (Z8 : zlen fc = 8) by (unfold zlen; lia). rewrite Z8 in E3. rewrite E3. cbn [obind]. f_equal. f_equal.
  assert (PAD : ((m ++ [128]) ++ repeat 0 k) ++ fc = m ++ [128] ++ repeat 0 k ++ fc) by (now rewrite <- !app_assoc).
  destruct R3 as (q & mq & tl & EM & LQ & LT & BM & G & A & _). destruct G as (Ga & Gb & Gc & Gd & Ge).
  assert (TL : tl = []).
  { assert (E : length (((m ++ [128]) ++ repeat 0 k) ++ fc) = (64 * q + length tl)%nat) by (rewrite EM, app_length; lia).
    rewrite !app_length, repeat_length, FL in E. cbn [length] in E. unfold k in E. destruct tl; [reflexivity|exfalso]. cbn [length] in *. lia. }
  subst tl. rewrite app_nil_r in EM.
  unfold SHA1. cbv zeta. assert (P : pad m = mq).
  { unfold pad. cbv zeta. fold k. change (Z.of_nat (length m)) with (zlen m).
    rewrite <- EM, PAD. reflexivity. }
  rewrite P. rewrite LQ. rewrite (Nat.mul_comm 64 q), Nat.div_mul by lia. rewrite <- A. unfold digest, abs. rewrite !be_bytes_eq by assumption. reflexivity.
Qed.
