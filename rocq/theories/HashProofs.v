From Verif Require Import HashModel.
From Coq Require Import Znumtheory.
Open Scope Z_scope.

(** Specification (isthe.com/chongo/tech/comp/fnv, FNV-1a): for each octet: hash := hash xor octet;
    hash := hash * FNV_prime, in w bit arithmetic. *)
Definition fnv1a (w prime seed : Z) (data : list Z) : Z :=
  fold_left (fun h b => (Z.lxor h b * prime) mod 2 ^ w) data seed.
Definition seed_of (dflt seed : Z) : Z := if seed =? 0 then dflt else seed.

Lemma hash_loop_fold w p : forall n rest h, (n <= length rest)%nat ->
  hash_loop w p n rest h = Ok (fnv1a w p h (firstn n rest)).
Proof.
  induction n as [|n IH]; intros rest h H; cbn [hash_loop firstn]; [reflexivity|].
  destruct rest as [|b r]; simpl in H; [lia|]. rewrite IH by lia. reflexivity.
Qed.
Lemma hash_loop_ub w p : forall n rest h, (length rest < n)%nat -> hash_loop w p n rest h = UB.
Proof.
  induction n as [|n IH]; intros rest h H; [lia|]. cbn [hash_loop].
  destruct rest as [|b r]; [reflexivity|]. simpl in H. apply IH; lia.
Qed.
Lemma hash_cloop_fold w p : forall s tl h, Forall (fun b => b <> 0) s ->
  hash_cloop w p (s ++ 0 :: tl) h = Ok (fnv1a w p h s).
Proof.
  induction s as [|b s IH]; intros tl h H; cbn [app hash_cloop].
  - reflexivity.
  - inversion H as [|? ? Hb Hs]; subst. destruct (Z.eqb_spec b 0); [contradiction|].
    rewrite IH by assumption. reflexivity.
Qed.

Lemma buff32 buf len seed : (len <= length buf)%nat ->
  zt_hash32_buff buf len seed = Ok (fnv1a 32 0x01000193 (seed_of 0x811c9dc5 seed) (firstn len buf)).
Proof. intros. unfold zt_hash32_buff. now rewrite hash_loop_fold. Qed.
Lemma buff64 buf len seed : (len <= length buf)%nat ->
  zt_hash64_buff buf len seed = Ok (fnv1a 64 0x100000001b3 (seed_of 0xcbf29ce484222325 seed) (firstn len buf)).
Proof. intros. unfold zt_hash64_buff. now rewrite hash_loop_fold. Qed.
Lemma cstr32 s tl seed : Forall (fun b => b <> 0) s ->
  zt_hash32_cstr (s ++ 0 :: tl) seed = zt_hash32_buff s (length s) seed.
Proof.
  intros H. unfold zt_hash32_cstr, zt_hash32_buff. rewrite hash_cloop_fold by exact H.
  rewrite hash_loop_fold by lia. now rewrite firstn_all.
Qed.
Lemma cstr64 s tl seed : Forall (fun b => b <> 0) s ->
  zt_hash64_cstr (s ++ 0 :: tl) seed = zt_hash64_buff s (length s) seed.
Proof.
  intros H. unfold zt_hash64_cstr, zt_hash64_buff. rewrite hash_cloop_fold by exact H.
  rewrite hash_loop_fold by lia. now rewrite firstn_all.
Qed.

Lemma fnv1a_app w p seed a b : fnv1a w p seed (a ++ b) = fnv1a w p (fnv1a w p seed a) b.
Proof. unfold fnv1a. apply fold_left_app. Qed.

Lemma incr32 a b seed h : zt_hash32_buff a (length a) seed = Ok h -> h <> 0 ->
  zt_hash32_buff (a ++ b) (length (a ++ b)) seed = zt_hash32_buff b (length b) h.
Proof.
  intros H Hh. rewrite buff32 in * by lia. injection H as <-. rewrite !firstn_all in *.
  rewrite buff32 by lia. rewrite firstn_all, fnv1a_app. unfold seed_of at 2.
  destruct (Z.eqb_spec (fnv1a 32 16777619 (seed_of 2166136261 seed) a) 0); [contradiction|reflexivity].
Qed.
Lemma incr64 a b seed h : zt_hash64_buff a (length a) seed = Ok h -> h <> 0 ->
  zt_hash64_buff (a ++ b) (length (a ++ b)) seed = zt_hash64_buff b (length b) h.
Proof.
  intros H Hh. rewrite buff64 in * by lia. injection H as <-. rewrite !firstn_all in *.
  rewrite buff64 by lia. rewrite firstn_all, fnv1a_app. unfold seed_of at 2.
  destruct (Z.eqb_spec (fnv1a 64 1099511628211 (seed_of 14695981039346656037 seed) a) 0); [contradiction|reflexivity].
Qed.

Lemma fnv1a_range w p : 0 < w -> forall data seed, 0 <= seed < 2 ^ w -> 0 <= fnv1a w p seed data < 2 ^ w.
Proof.
  intros Hw. induction data as [|b r IH]; intros seed H; cbn.
  - exact H.
  - apply IH. apply Z.mod_pos_bound. apply Z.pow_pos_nonneg; lia.
Qed.

(** The step function is injective in the state and in the octet. *)
Lemma mul_odd_inj w p x y : 0 <= w -> Z.gcd p (2 ^ w) = 1 ->
  0 <= x < 2 ^ w -> 0 <= y < 2 ^ w -> (x * p) mod 2 ^ w = (y * p) mod 2 ^ w -> x = y.
Proof.
  intros Hw G Hx Hy E.
  assert (D : (2 ^ w | p * (x - y))).
  { apply Z.mod_divide; [lia|]. replace (p * (x - y)) with (x * p - y * p) by ring.
    rewrite Zminus_mod, E, Z.sub_diag. apply Z.mod_0_l. lia. }
  apply Gauss in D.
  - destruct D as [k Hk]. assert (k = 0) by nia. subst k. lia.
  - apply rel_prime_sym. unfold rel_prime. rewrite <- G. apply Zgcd_is_gcd.
Qed.

Lemma lxor_range w x b : 0 <= w -> 0 <= x < 2 ^ w -> 0 <= b < 2 ^ w -> 0 <= Z.lxor x b < 2 ^ w.
Proof.
  intros Hw Hx Hb. split; [apply Z.lxor_nonneg; lia|].
  destruct (Z.eq_dec (Z.lxor x b) 0) as [->|N]; [lia|].
  assert (0 <= Z.lxor x b) by (apply Z.lxor_nonneg; lia).
  apply Z.log2_lt_pow2; [lia|]. pose proof (Z.log2_lxor x b ltac:(lia) ltac:(lia)).
  assert (W : 0 < w \/ w = 0) by lia. destruct W as [W|W]; [|subst w; change (2^0) with 1 in *; assert (x=0) by lia; assert (b=0) by lia; subst; simpl in N; congruence].
  assert (forall z, 0 <= z < 2 ^ w -> Z.log2 z < w).
  { intros z Hz. destruct (Z.eq_dec z 0) as [->|]; [rewrite Z.log2_nonpos by lia; lia|apply Z.log2_lt_pow2; lia]. }
  pose proof (H1 x Hx). pose proof (H1 b Hb). lia.
Qed.

Lemma lxor_inj_l x y b : Z.lxor x b = Z.lxor y b -> x = y.
Proof.
  intros E. assert (H : Z.lxor (Z.lxor x b) b = Z.lxor (Z.lxor y b) b) by now rewrite E.
  rewrite !Z.lxor_assoc, Z.lxor_nilpotent, !Z.lxor_0_r in H. exact H.
Qed.

Lemma step_inj w p x y b : 8 <= w -> Z.gcd p (2 ^ w) = 1 -> 0 <= x < 2 ^ w -> 0 <= y < 2 ^ w -> 0 <= b < 256 ->
  hash_step w p x b = hash_step w p y b -> x = y.
Proof.
  intros Hw G Hx Hy Hb E. unfold hash_step in E.
  assert (256 <= 2 ^ w) by (change 256 with (2 ^ 8); apply Z.pow_le_mono_r; lia).
  apply mul_odd_inj in E; try assumption; try lia; try (apply lxor_range; lia).
  now apply lxor_inj_l in E.
Qed.
Lemma step_inj_b w p x b c : 8 <= w -> Z.gcd p (2 ^ w) = 1 -> 0 <= x < 2 ^ w -> 0 <= b < 256 -> 0 <= c < 256 ->
  hash_step w p x b = hash_step w p x c -> b = c.
Proof.
  intros Hw G Hx Hb Hc E. unfold hash_step in E.
  assert (256 <= 2 ^ w) by (change 256 with (2 ^ 8); apply Z.pow_le_mono_r; lia).
  apply mul_odd_inj in E; try assumption; try lia; try (apply lxor_range; lia).
  rewrite (Z.lxor_comm x b), (Z.lxor_comm x c) in E. now apply lxor_inj_l in E.
Qed.
Lemma fnv1a_inj_seed w p : 8 <= w -> Z.gcd p (2 ^ w) = 1 -> forall data x y, bytes data ->
  0 <= x < 2 ^ w -> 0 <= y < 2 ^ w -> fnv1a w p x data = fnv1a w p y data -> x = y.
Proof.
  intros Hw G. induction data as [|b r IH]; intros x y Hd Hx Hy E; cbn in E; [exact E|].
  inversion Hd as [|? ? Hb Hr]; subst.
  assert (0 < 2 ^ w) by (apply Z.pow_pos_nonneg; lia).
  apply IH in E; [|assumption|apply Z.mod_pos_bound; lia|apply Z.mod_pos_bound; lia].
  eapply step_inj; [exact Hw|exact G|exact Hx|exact Hy|exact Hb|exact E].
Qed.
Lemma fnv1a_one_byte w p seed pre b c post : 8 <= w -> Z.gcd p (2 ^ w) = 1 -> 0 <= seed < 2 ^ w ->
  bytes (pre ++ b :: post) -> 0 <= c < 256 -> b <> c ->
  fnv1a w p seed (pre ++ b :: post) <> fnv1a w p seed (pre ++ c :: post).
Proof.
  intros Hw G Hs Hd Hc Hne E. apply Forall_app in Hd. destruct Hd as [Hpre Hbp].
  inversion Hbp as [|? ? Hb Hpost]; subst.
  rewrite !fnv1a_app in E. cbn in E. change (fold_left _ post ?x) with (fnv1a w p x post) in E.
  assert (Hr := fnv1a_range w p ltac:(lia) pre seed Hs).
  assert (0 < 2 ^ w) by (apply Z.pow_pos_nonneg; lia).
  apply fnv1a_inj_seed in E; try assumption; try (apply Z.mod_pos_bound; lia).
  apply Hne. eapply step_inj_b; [exact Hw|exact G|exact Hr|exact Hb|exact Hc|exact E].
Qed.

Lemma one_byte32 seed pre b c post h1 h2 : 0 <= seed < 2 ^ 32 ->
  bytes (pre ++ b :: post) -> 0 <= c < 256 -> b <> c ->
  zt_hash32_buff (pre ++ b :: post) (length (pre ++ b :: post)) seed = Ok h1 ->
  zt_hash32_buff (pre ++ c :: post) (length (pre ++ c :: post)) seed = Ok h2 -> h1 <> h2.
Proof.
  intros Hs Hd Hc Hne. rewrite !buff32 by lia. rewrite !firstn_all. intros E1 E2.
  injection E1 as <-. injection E2 as <-. apply fnv1a_one_byte; try assumption; try lia; try reflexivity.
  unfold seed_of. destruct (seed =? 0); [split; [lia|reflexivity]|exact Hs].
Qed.
Lemma one_byte64 seed pre b c post h1 h2 : 0 <= seed < 2 ^ 64 ->
  bytes (pre ++ b :: post) -> 0 <= c < 256 -> b <> c ->
  zt_hash64_buff (pre ++ b :: post) (length (pre ++ b :: post)) seed = Ok h1 ->
  zt_hash64_buff (pre ++ c :: post) (length (pre ++ c :: post)) seed = Ok h2 -> h1 <> h2.
Proof.
  intros Hs Hd Hc Hne. rewrite !buff64 by lia. rewrite !firstn_all. intros E1 E2.
  injection E1 as <-. injection E2 as <-. apply fnv1a_one_byte; try assumption; try lia; try reflexivity.
  unfold seed_of. destruct (seed =? 0); [split; [lia|reflexivity]|exact Hs].
Qed.

(** Folding macros. *)
Lemma mask_ones x : 0 <= x < 32 -> hash_mask x = Z.ones x.
Proof.
  intros H. unfold hash_mask. rewrite Z.shiftl_1_l, Z.ones_equiv.
  assert (0 < 2 ^ x) by (apply Z.pow_pos_nonneg; lia).
  assert (2 ^ x < 2 ^ 32) by (apply Z.pow_lt_mono_r; lia).
  rewrite (Z.mod_small (2 ^ x)) by lia. rewrite Z.mod_small by lia. lia.
Qed.

Lemma sub32_spec h x : 0 <= h < 2 ^ 32 -> 0 <= x < 32 ->
  0 <= hash_sub32_mask h x < 2 ^ x /\
  hash_sub32_mask h x = Z.lxor (h / 2 ^ x) h mod 2 ^ x \/
  0 <= hash_sub32_mask h x < 2 ^ x /\
  hash_sub32_mask h x = Z.lxor (h / 2 ^ x) (h mod 2 ^ x).
Proof.
  intros Hh Hx. unfold hash_sub32_mask.
  assert (0 < 2 ^ x) by (apply Z.pow_pos_nonneg; lia).
  destruct (Z.ltb_spec x 32); [|lia]. rewrite mask_ones by lia.
  destruct (Z.ltb_spec x 16).
  - left. rewrite Z.land_ones by lia. rewrite Z.shiftr_div_pow2 by lia.
    split; [apply Z.mod_pos_bound; lia|reflexivity].
  - right. rewrite Z.land_ones by lia. rewrite Z.shiftr_div_pow2 by lia. split; [|reflexivity].
    apply lxor_range; [lia| |apply Z.mod_pos_bound; lia].
    split; [apply Z.div_pos; lia|]. apply Z.div_lt_upper_bound; [lia|].
    rewrite <- Z.pow_add_r by lia. apply Z.lt_le_trans with (2 ^ 32); [lia|]. apply Z.pow_le_mono_r; lia.
Qed.

Lemma sub32_both h x : 0 <= h < 2 ^ 32 -> 0 <= x < 32 ->
  0 <= hash_sub32_mask h x < 2 ^ x /\
  hash_sub32_mask h x = Z.lxor (h / 2 ^ x) h mod 2 ^ x.
Proof.
  intros Hh Hx. destruct (sub32_spec h x Hh Hx) as [H|[H1 H2]]; [exact H|].
  split; [exact H1|].
  assert (0 < 2 ^ x) by (apply Z.pow_pos_nonneg; lia).
  rewrite <- (Z.mod_small (hash_sub32_mask h x) (2 ^ x)) by exact H1. rewrite H2.
  rewrite <- !Z.land_ones by lia. apply Z.bits_inj'. intros n Hn.
  rewrite !Z.land_spec, !Z.lxor_spec, Z.land_spec. destruct (Z.testbit (Z.ones x) n); 
    rewrite ?andb_true_r, ?andb_false_r; reflexivity.
Qed.

Lemma sub32_wide h x : 32 <= x -> hash_sub32_mask h x = h.
Proof. intros H. unfold hash_sub32_mask. destruct (Z.ltb_spec x 32); [lia|reflexivity]. Qed.

Lemma named_masks h :
  hash24_mask h = hash_sub32_mask h 24 /\ hash16_mask h = hash_sub32_mask h 16 /\
  hash8_mask h = hash_sub32_mask h 8 /\ hash4_mask h = hash_sub32_mask h 4.
Proof. repeat split. Qed.

Lemma named_masks_spec h : 0 <= h < 2 ^ 32 ->
  (0 <= hash24_mask h < 2 ^ 24 /\ hash24_mask h = Z.lxor (h / 2 ^ 24) h mod 2 ^ 24) /\
  (0 <= hash16_mask h < 2 ^ 16 /\ hash16_mask h = Z.lxor (h / 2 ^ 16) h mod 2 ^ 16) /\
  (0 <= hash8_mask h < 2 ^ 8 /\ hash8_mask h = Z.lxor (h / 2 ^ 8) h mod 2 ^ 8) /\
  (0 <= hash4_mask h < 2 ^ 4 /\ hash4_mask h = Z.lxor (h / 2 ^ 4) h mod 2 ^ 4).
Proof.
  intros H. destruct (named_masks h) as (A & B & C & D). rewrite A, B, C, D.
  repeat split; apply sub32_both; lia.
Qed.
