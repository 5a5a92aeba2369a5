(** zt_uuid4, zt_uuid5, zt_uuid_cmp *)
From Verif Require Import Prelude Bits CstrModel CstrProofs CstrNum Sha1Spec Sha1Model Sha1Proofs Sha1Stream Sha1Final RandModel RandProofs UuidModel UuidProofs.
Open Scope Z_scope.

(** [stamped ver raw u]: u is raw with the version nibble and the two variant bits set, nothing else changed *)
Definition stamped (ver : Z) (raw u : list Z) : Prop :=
  length u = length raw /\ (forall i, i <> 6%nat -> i <> 8%nat -> nth i u 0 = nth i raw 0) /\
  nth 6 u 0 / 16 = ver /\ nth 6 u 0 mod 16 = nth 6 raw 0 mod 16 /\ nth 8 u 0 / 64 = 2 /\ nth 8 u 0 mod 64 = nth 8 raw 0 mod 64.
Lemma stamp_ok ver raw : length raw = 16%nat -> bytes raw -> 0 <= ver < 16 -> stamped ver raw (stamp ver raw) /\ bytes (stamp ver raw) /\ length (stamp ver raw) = 16%nat.
Proof.
  intros L B V. do 16 (destruct raw as [|? raw]; [discriminate L|]). destruct raw; [|discriminate L]. unfold stamp. cbn [nth upd].
  assert (A6 : forall x, Z.lor (Z.land x 15) (Z.shiftl ver 4) = ver * 16 + x mod 16).
  { intros x. change 15 with (Z.ones 4). rewrite Z.land_ones, Z.shiftl_mul_pow2, Z.lor_comm, lor_low by (try lia; apply Z.mod_pos_bound; lia). reflexivity. }
  assert (A8 : forall x, Z.lor (Z.land x 63) 128 = 2 * 64 + x mod 64).
  { intros x. change 63 with (Z.ones 6). rewrite Z.land_ones, Z.lor_comm by lia. change 128 with (2 * 2 ^ 6). rewrite lor_low by (try lia; apply Z.mod_pos_bound; lia). reflexivity. }
  rewrite A6, A8. split; [|split].
  - unfold stamped. split; [reflexivity|]. split.
    + intros i I6 I8. do 9 (destruct i as [|i]; [reflexivity || congruence|]). reflexivity.
    + cbn [nth]. pose proof (Z.mod_pos_bound z5 16 ltac:(lia)). pose proof (Z.mod_pos_bound z7 64 ltac:(lia)). split; [|split; [|split]].
      * rewrite Z.div_add_l, Z.div_small by lia. lia.
      * rewrite Z.add_comm, Z.mod_add, Z.mod_mod by lia. reflexivity.
      * rewrite Z.div_add_l, Z.div_small by lia. lia.
      * rewrite Z.add_comm, Z.mod_add, Z.mod_mod by lia. reflexivity.
  - pose proof (Z.mod_pos_bound z5 16 ltac:(lia)). pose proof (Z.mod_pos_bound z7 64 ltac:(lia)).
    repeat match goal with H : bytes (_ :: _) |- _ => inversion H; clear H; subst | H : Forall _ (_ :: _) |- _ => inversion H; clear H; subst end. unfold isbyte in *. repeat constructor; lia.
  - reflexivity.
Qed.
Lemma le4_ok v : length (le4 v) = 4%nat /\ bytes (le4 v).
Proof. split; [reflexivity|]. unfold le4. repeat constructor; apply Z.mod_pos_bound; lia. Qed.

(** a history of zt_uuid4 calls: (thread, clock) per call *)
Fixpoint run4 (w : world) (calls : list (nat * Z)) : outcome (list (list Z) * world) :=
  match calls with
  | [] => Ok ([], w)
  | (t, now) :: r => ' (u, w) <- uuid4 w t now ;; ' (us, w) <- run4 w r ;; Ok (u :: us, w)
  end.
Definition start : world := mkworld (fun _ => None) false.
Fixpoint first_time (t : nat) (calls : list (nat * Z)) : option Z := match calls with [] => None | (u, n) :: r => if Nat.eqb u t then Some n else first_time t r end.
Definition calls_of (t : nat) (calls : list (nat * Z)) : nat := length (filter (fun c => Nat.eqb (fst c) t) calls).
(** the k-th group of four numbers of MT19937 with the given seed *)
(** the bytes of a number, least significant first *)
Definition low_first (v : Z) : list Z := map (fun j => Z.land (Z.shiftr v (8 * j)) 255) [0; 1; 2; 3].
Lemma low_first_le4 v : low_first v = le4 v.
Proof.
  unfold low_first, le4. cbn [map]. change 255 with (Z.ones 8). rewrite !Z.land_ones by lia. rewrite !Z.shiftr_div_pow2 by lia.
  change (2 ^ (8 * 0)) with 1. change (2 ^ (8 * 1)) with 256. change (2 ^ (8 * 2)) with 65536. change (2 ^ (8 * 3)) with 16777216. change (2 ^ 8) with 256.
  now rewrite Z.div_1_r.
Qed.
Definition raw4 (seed : Z) (k : nat) : list Z := flat_map (fun i => low_first (mt_temper (mt19937 seed (624 + 4 * k + i)%nat))) [0; 1; 2; 3]%nat.
Lemma raw4_ok seed k : length (raw4 seed k) = 16%nat /\ bytes (raw4 seed k).
Proof. split; [reflexivity|]. unfold raw4. cbn [flat_map]. rewrite !low_first_le4. unfold bytes. rewrite !Forall_app. repeat split; try apply le4_ok. constructor. Qed.

Lemma first_time_app t a b : first_time t (a ++ b) = match first_time t a with Some n => Some n | None => first_time t b end.
Proof. induction a as [|[u n] a IH]; [reflexivity|]. cbn [app first_time]. destruct (Nat.eqb u t); [reflexivity|exact IH]. Qed.
Lemma calls_of_app t a b : calls_of t (a ++ b) = (calls_of t a + calls_of t b)%nat.
Proof. unfold calls_of. now rewrite filter_app, app_length. Qed.
Lemma first_none t l : first_time t l = None -> calls_of t l = O.
Proof. induction l as [|[u n] l IH]; [reflexivity|]. unfold calls_of in *. cbn [first_time filter fst]. destruct (Nat.eqb u t); [discriminate|exact IH]. Qed.

Definition inv (w : world) (past : list (nat * Z)) : Prop :=
  (rand_initialized w = false -> past = []) /\
  forall t, match first_time t past with None => tls w t = None | Some seed => exists s, tls w t = Some s /\ ready (mt19937 seed) s (4 * calls_of t past) end.
Lemma inv_start : inv start [].
Proof. split; [reflexivity|]. intros t. reflexivity. Qed.

Lemma four_draws seed s now d : ready (mt19937 seed) s d ->
  exists s', ready (mt19937 seed) s' (d + 4) /\
  (' (v1, s) <- uint32 now s ;; ' (v2, s) <- uint32 now s ;; ' (v3, s) <- uint32 now s ;; ' (v4, s) <- uint32 now s ;; Ok (le4 v1 ++ le4 v2 ++ le4 v3 ++ le4 v4, s)) =
  Ok (le4 (temper (mt19937 seed (624 + d)%nat)) ++ le4 (temper (mt19937 seed (624 + S d)%nat)) ++ le4 (temper (mt19937 seed (624 + S (S d))%nat)) ++ le4 (temper (mt19937 seed (624 + S (S (S d)))%nat)), s').
Proof.
  intros R. destruct (mt19937_ok seed) as [_ REC].
  destruct (draw_ok _ REC now s d R) as (s1 & E1 & R1). destruct (draw_ok _ REC now s1 _ R1) as (s2 & E2 & R2). destruct (draw_ok _ REC now s2 _ R2) as (s3 & E3 & R3). destruct (draw_ok _ REC now s3 _ R3) as (s4 & E4 & R4).
  exists s4. split; [now replace (d + 4)%nat with (S (S (S (S d)))) by lia|]. rewrite E1. cbn [obind]. rewrite E2. cbn [obind]. rewrite E3. cbn [obind]. rewrite E4. reflexivity.
Qed.
Lemma raw4_eq seed k : raw4 seed k = le4 (temper (mt19937 seed (624 + 4 * k)%nat)) ++ le4 (temper (mt19937 seed (624 + S (4 * k))%nat)) ++ le4 (temper (mt19937 seed (624 + S (S (4 * k)))%nat)) ++ le4 (temper (mt19937 seed (624 + S (S (S (4 * k))))%nat)).
Proof.
  unfold raw4. cbn [flat_map]. rewrite !low_first_le4. rewrite app_nil_r. rewrite !temper_eq. 
  replace (624 + 4 * k + 0)%nat with (624 + 4 * k)%nat by lia. replace (624 + 4 * k + 1)%nat with (624 + S (4 * k))%nat by lia. replace (624 + 4 * k + 2)%nat with (624 + S (S (4 * k)))%nat by lia. replace (624 + 4 * k + 3)%nat with (624 + S (S (S (4 * k))))%nat by lia. reflexivity.
Qed.
Lemma uuid4_from seed s k w t now flag : ready (mt19937 seed) s (4 * k) ->
  exists s', ready (mt19937 seed) s' (4 * S k) /\
  (' (v1, s) <- uint32 now s ;; ' (v2, s) <- uint32 now s ;; ' (v3, s) <- uint32 now s ;; ' (v4, s) <- uint32 now s ;; Ok (stamp 4 (le4 v1 ++ le4 v2 ++ le4 v3 ++ le4 v4), set_tls w t s flag)) =
  Ok (stamp 4 (raw4 seed k), set_tls w t s' flag).
Proof.
  intros R. destruct (four_draws seed s now _ R) as (s' & R' & E). exists s'. split; [now replace (4 * S k)%nat with (4 * k + 4)%nat by lia|]. rewrite raw4_eq.
  destruct (uint32 now s) as [[v1 s1]| | |]; cbn [obind] in *; [|discriminate E|discriminate E|discriminate E]. destruct (uint32 now s1) as [[v2 s2]| | |]; cbn [obind] in *; [|discriminate E|discriminate E|discriminate E].
  destruct (uint32 now s2) as [[v3 s3]| | |]; cbn [obind] in *; [|discriminate E|discriminate E|discriminate E]. destruct (uint32 now s3) as [[v4 s4]| | |]; cbn [obind] in *; [|discriminate E|discriminate E|discriminate E].
  match type of E with Ok (?a, _) = Ok (?b, _) => assert (A : a = b /\ s4 = s') end.
  { revert E. match goal with |- Ok (?a, _) = Ok (?b, _) -> _ => generalize a b end. intros a b E. split; congruence. } destruct A as [A B]. rewrite A, B. reflexivity.
Qed.
Lemma uint32_unseeded s now s0 : initialized s <> INITIALIZED -> srandom s now = Ok s0 -> initialized s0 = INITIALIZED -> uint32 now s = uint32 now s0.
Proof. intros I E I0. unfold uint32. destruct (Z.eqb_spec (initialized s) INITIALIZED); [contradiction|]. rewrite E, I0, Z.eqb_refl. reflexivity. Qed.

Lemma uuid4_step w past t now : inv w past -> 0 <= now < 2 ^ 32 ->
  exists seed w', first_time t (past ++ [(t, now)]) = Some seed /\ uuid4 w t now = Ok (stamp 4 (raw4 seed (calls_of t past)), w') /\ inv w' (past ++ [(t, now)]).
Proof.
  intros [RI TL] N. pose proof (TL t) as Tt.
  assert (INV : forall seed s', first_time t (past ++ [(t, now)]) = Some seed -> ready (mt19937 seed) s' (4 * S (calls_of t past)) -> inv (set_tls w t s' true) (past ++ [(t, now)])).
  { intros seed s' F R. split; [discriminate|]. intros u. unfold set_tls. cbn [tls]. destruct (Nat.eqb_spec u t) as [->|NE].
    - rewrite F. exists s'. split; [reflexivity|]. rewrite calls_of_app. unfold calls_of at 2. cbn [filter fst]. rewrite Nat.eqb_refl. cbn [length]. now replace (calls_of t past + 1)%nat with (S (calls_of t past)) by lia.
    - rewrite first_time_app, calls_of_app. cbn [first_time]. unfold calls_of at 2. cbn [filter fst]. destruct (Nat.eqb_spec t u) as [->|_]; [congruence|]. cbn [length]. rewrite Nat.add_0_r. specialize (TL u). destruct (first_time u past); exact TL. }
  destruct (first_time t past) as [seed|] eqn:F.
  - destruct Tt as (s & E & R). assert (F' : first_time t (past ++ [(t, now)]) = Some seed) by (rewrite first_time_app, F; reflexivity).
    unfold uuid4, get_ctx. rewrite E. destruct (rand_initialized w) eqn:RIw.
    + cbn [obind]. destruct (uuid4_from seed s _ w t now true R) as (s' & R' & EQ). exists seed, (set_tls w t s' true). split; [exact F'|]. split; [exact EQ|]. now apply (INV seed).
    + rewrite (RI eq_refl) in F. discriminate.
  - assert (F' : first_time t (past ++ [(t, now)]) = Some now) by (rewrite first_time_app, F; cbn [first_time]; now rewrite Nat.eqb_refl).
    unfold uuid4, get_ctx. rewrite Tt. set (s := mkr (repeat 0 624) 0 0).
    destruct (mt19937_ok now) as [M _]. destruct (srandom_ok _ now s N M ltac:(apply repeat_length)) as (s0 & E0 & _ & R0).
    assert (I0 : initialized s0 = INITIALIZED) by (destruct R0 as (b & _ & _ & _ & X); exact X).
    rewrite (first_none t past F) in *. destruct (uuid4_from now s0 0 w t now true R0) as (s' & R' & EQ). exists now, (set_tls w t s' true). split; [exact F'|]. split; [|now apply (INV now)].
    destruct (rand_initialized w); [cbn [obind]; rewrite (uint32_unseeded s now s0); [exact EQ|discriminate|exact E0|exact I0]|]. rewrite E0. cbn [obind]. exact EQ.
Qed.
Lemma run4_ok : forall calls w past, inv w past -> Forall (fun c => 0 <= snd c < 2 ^ 32) calls ->
  exists us w', run4 w calls = Ok (us, w') /\ length us = length calls /\
  forall i t now, nth_error calls i = Some (t, now) -> exists seed, first_time t (past ++ calls) = Some seed /\ nth_error us i = Some (stamp 4 (raw4 seed (calls_of t (past ++ firstn i calls)))).
Proof.
  induction calls as [|[t now] calls IH]; intros w past I F.
  - exists [], w. split; [reflexivity|]. split; [reflexivity|]. intros [|i] t now H; discriminate.
  - inversion F as [|? ? N F']; subst. cbn [snd] in N. destruct (uuid4_step w past t now I N) as (seed & w1 & FT & E & I1). destruct (IH w1 _ I1 F') as (us & w' & R & L & H).
    exists (stamp 4 (raw4 seed (calls_of t past)) :: us), w'. split; [cbn [run4]; rewrite E; cbn [obind]; rewrite R; reflexivity|]. split; [cbn [length]; lia|].
    intros [|i] u n HN; cbn [nth_error] in HN.
    + assert (u = t /\ n = now) as [-> ->] by (split; congruence). exists seed. split; [|cbn [firstn nth_error]; now rewrite app_nil_r].
      change ((t, now) :: calls) with ([(t, now)] ++ calls). rewrite app_assoc, first_time_app, FT. reflexivity.
    + destruct (H i u n HN) as (sd & A & B). exists sd. rewrite <- app_assoc in A, B. split; [exact A|]. cbn [nth_error firstn]. exact B.
Qed.

(** zt_uuid5 *)
Lemma uuid5_ok junk value post n b : length junk = 64%nat -> bytes junk -> bytes value -> zlen value <= 2 ^ 32 - 64 -> ns_bytes n = Some b ->
  uuid5 junk (value ++ post) (zlen value) n = Ok (Some (stamp 5 (firstn 16 (SHA1 (b ++ value)))), data_after 16 value ++ post).
Proof.
  intros J1 J2 BV LV NB. unfold uuid5. rewrite NB.
  assert (BB : bytes b /\ length b = 16%nat). { destruct n; cbn [ns_bytes] in NB; try discriminate; injection NB as <-; (split; [repeat constructor; lia|reflexivity]). }
  destruct BB as [BB LB]. assert (ZB : zlen b = 16) by (unfold zlen; lia).
  destruct (update_ok _ [] b [] (init_rep junk J1 J2) BB) as (c1 & E1 & R1); [cbn [length]; change (0 mod 64)%nat with O; unfold W32; lia|unfold W32; lia|].
  rewrite !app_nil_r in E1. rewrite ZB in E1. change UUID_ALEN with 16. rewrite E1. cbn [obind app] in *.
  destruct (update_ok c1 b value post R1 BV) as (c2 & E2 & R2); [rewrite LB; change (16 mod 64)%nat with 16%nat; unfold W32; lia|unfold W32; lia|].
  rewrite E2. cbn [obind]. rewrite (finalize_ok c2 _ R2); [|rewrite zlen_app; lia]. cbn [obind]. rewrite LB. reflexivity.
Qed.

(** zt_uuid_cmp *)
Lemma be_from a : forall v, fold_left (fun v x => v * 256 + x) a v = v * 256 ^ zlen a + be a.
Proof.
  unfold be. induction a as [|x a IH]; intros v; [cbn [fold_left]; change (zlen []) with 0; lia|]. cbn [fold_left]. rewrite (IH (v * 256 + x)), (IH (0 * 256 + x)).
  unfold zlen. cbn [length]. rewrite Nat2Z.inj_succ, Z.pow_succ_r by lia. ring.
Qed.
Lemma be_cons x a : be (x :: a) = x * 256 ^ zlen a + be a.
Proof. unfold be at 1. cbn [fold_left]. rewrite be_from. reflexivity. Qed.
Lemma be_range a : bytes a -> 0 <= be a < 256 ^ zlen a.
Proof.
  induction 1 as [|x a X _ IH]; [cbn; lia|]. rewrite be_cons. unfold isbyte in X. unfold zlen in *. cbn [length]. rewrite Nat2Z.inj_succ, Z.pow_succ_r by lia. nia.
Qed.
Lemma memcmp_be : forall a b, bytes a -> bytes b -> length a = length b ->
  (memcmp a b = 0 <-> a = b) /\ (memcmp a b < 0 <-> be a < be b) /\ (0 < memcmp a b <-> be b < be a).
Proof.
  induction a as [|x a IH]; intros [|y b] Ha Hb L; try discriminate L.
  - cbn. split; [split; reflexivity|lia].
  - inversion Ha as [|? ? X Ha']; subst. inversion Hb as [|? ? Y Hb']; subst. cbn [length] in L. specialize (IH b Ha' Hb' ltac:(lia)). cbn [memcmp]. rewrite !be_cons.
    assert (ZL : zlen a = zlen b) by (unfold zlen; lia). rewrite ZL. pose proof (be_range a Ha') as Ra. pose proof (be_range b Hb') as Rb. rewrite ZL in Ra.
    set (P := 256 ^ zlen b) in *. assert (0 < P) by lia. unfold isbyte in *.
    destruct (Z.ltb_spec x y) as [LT|GE]; [|destruct (Z.ltb_spec y x) as [GT|LE]].
    + assert (x * P + be a < y * P + be b) by nia. split; [split; [lia|intros E; assert (x = y) by congruence; lia]|]. lia.
    + assert (y * P + be b < x * P + be a) by nia. split; [split; [lia|intros E; assert (x = y) by congruence; lia]|]. lia.
    + assert (x = y) by lia. subst y. destruct IH as (I1 & I2 & I3). split; [rewrite I1; split; [congruence|intros E; congruence]|]. lia.
Qed.

(** a SHA-1 digest is twenty bytes *)
Definition words5 (H : Z * Z * Z * Z * Z) : Prop := let '(a, b, c, d, e) := H in (0 <= a < 2 ^ 32) /\ (0 <= b < 2 ^ 32) /\ (0 <= c < 2 ^ 32) /\ (0 <= d < 2 ^ 32) /\ (0 <= e < 2 ^ 32).
Lemma compress_words H M : words5 (compress H M).
Proof.
  destruct H as [[[[h0 h1] h2] h3] h4]. unfold compress. destruct (fold_left _ _ _) as [[[[a b] c] d] e]. unfold words5. repeat split; apply Z.mod_pos_bound; reflexivity.
Qed.
Lemma absorb_words : forall n l H, words5 H -> words5 (absorb n l H).
Proof. induction n as [|n IH]; intros l H W; [exact W|]. rewrite absorb_S. apply IH, compress_words. Qed.
Lemma be32_bytes w : 0 <= w < 2 ^ 32 -> bytes (be32 w).
Proof. intros W. unfold be32, bytes. repeat constructor; unfold isbyte; try (apply Z.mod_pos_bound; lia); lia. Qed.
Lemma SHA1_bytes m : length (SHA1 m) = 20%nat /\ bytes (SHA1 m).
Proof.
  unfold SHA1. cbv zeta. assert (W : words5 (absorb (length (pad m) / 64) (pad m) H0)) by (apply absorb_words; unfold words5, H0; lia).
  destruct (absorb _ _ _) as [[[[a b] c] d] e]. destruct W as (A & B & C & D & E). cbn [digest]. split; [reflexivity|]. unfold bytes. rewrite !Forall_app. repeat split; apply be32_bytes; assumption.
Qed.
