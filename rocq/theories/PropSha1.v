(** C30, C31: zt_sha1.c.  The specification is Sha1Spec.v (FIPS 180-4 on byte strings): [SHA1 m].  [update_all c ds]: one update per element
    of ds; its second result is the callers' buffers as the updates leave them.  [junk] is the uninitialised buffer of the context. *)
From Verif Require Import Prelude CstrModel CstrProofs CstrNum Sha1Spec Sha1Model Sha1Proofs Sha1Stream Sha1Final.
Open Scope Z_scope.

Fixpoint update_all (c : ctx) (ds : list (list Z)) : outcome (ctx * list (list Z)) :=
  match ds with
  | [] => Ok (c, [])
  | d :: r => ' (c, d') <- sha1_update c d (zlen d) ;; ' (c, r') <- update_all c r ;; Ok (c, d' :: r')
  end.
Lemma update_all_ok : forall ds c m, represents c m -> Forall bytes ds -> Forall (fun d => zlen d <= 2 ^ 32 - 64) ds ->
  exists c' out, update_all c ds = Ok (c', out) /\ represents c' (m ++ concat ds).
Proof.
  induction ds as [|d ds IH]; intros c m R B L; cbn [update_all concat].
  - exists c, []. rewrite app_nil_r. auto.
  - inversion B as [|? ? B1 B2]; subst. inversion L as [|? ? L1 L2]; subst. pose proof (Nat.mod_upper_bound (length m) 64 ltac:(lia)) as U. rewrite <- W32_eq in L1.
    destruct (update_ok c m d [] R B1 ltac:(lia) ltac:(lia)) as (c1 & E1 & R1). rewrite !app_nil_r in E1. rewrite E1. cbn [obind].
    destruct (IH c1 (m ++ d) R1 B2 L2) as (c2 & out & E2 & R2). rewrite E2. cbn [obind]. rewrite app_assoc. do 2 eexists. split; [reflexivity|exact R2].
Qed.

(** C30 whatever the cutting into updates, the digest is the FIPS SHA-1 of the concatenation and the context is wiped.  Bounds: each update
    at most 2^32-64 bytes, the total less than 2^64 bits. *)
Theorem C30_digest_partial : forall junk ds, length junk = 64%nat -> bytes junk -> Forall bytes ds ->
  Forall (fun d => zlen d <= 2 ^ 32 - 64) ds -> 8 * zlen (concat ds) < 2 ^ 64 ->
  exists c out, update_all (sha1_init junk) ds = Ok (c, out) /\
    sha1_finalize c = Ok (SHA1 (concat ds), mkctx (mkregs 0 0 0 0 0) 0 0 (repeat 0 64)).
Proof.
  intros junk ds J1 J2 B L T. destruct (update_all_ok ds _ [] (init_rep junk J1 J2) B L) as (c & out & E & R). exists c, out. split; [exact E|]. exact (finalize_ok c (concat ds) R T).
Qed.
Print Assumptions C30_digest_partial.
(** the digest does not depend on the cutting nor on what was in the context before *)
Theorem C30_chunking_partial : forall junk junk' ds ds', length junk = 64%nat -> bytes junk -> length junk' = 64%nat -> bytes junk' ->
  Forall bytes ds -> Forall bytes ds' -> concat ds = concat ds' ->
  Forall (fun d => zlen d <= 2 ^ 32 - 64) ds -> Forall (fun d => zlen d <= 2 ^ 32 - 64) ds' -> 8 * zlen (concat ds) < 2 ^ 64 ->
  ' (c, _) <- update_all (sha1_init junk) ds ;; ' (d, _) <- sha1_finalize c ;; Ok d =
  ' (c, _) <- update_all (sha1_init junk') ds' ;; ' (d, _) <- sha1_finalize c ;; Ok d.
Proof.
  intros junk junk' ds ds' J1 J2 J3 J4 B B' E L L' T.
  destruct (C30_digest_partial junk ds J1 J2 B L T) as (c & o & E1 & E2). rewrite E in T.
  destruct (C30_digest_partial junk' ds' J3 J4 B' L' T) as (c' & o' & E3 & E4). rewrite E1, E3. cbn [obind]. rewrite E2, E4. cbn [obind]. now rewrite E.
Qed.
Print Assumptions C30_chunking_partial.
(** the one-shot function *)
Theorem C30_data : forall junk d, length junk = 64%nat -> bytes junk -> bytes d -> zlen d <= 2 ^ 32 - 2 ->
  exists d', sha1_data junk d (zlen d) = Ok (SHA1 d, d').
Proof.
  intros junk d J1 J2 B L. rewrite <- W32_eq in L.
  destruct (update_ok _ [] d [] (init_rep junk J1 J2) B) as (c & E & R); [cbn; unfold W32 in *; lia|exact L|]. rewrite !app_nil_r in E.
  exists (data_after (length (@nil Z) mod 64) d). unfold sha1_data. rewrite E. cbn [obind]. rewrite (finalize_ok c d R); [reflexivity|]. unfold W32 in L. lia.
Qed.
Print Assumptions C30_data.
Lemma update_wraps c m d : represents c m -> zlen d <= 2 ^ 32 - 2 -> 2 ^ 32 <= Z.of_nat (length m mod 64) + zlen d -> sha1_update c d (zlen d) = UB.
Proof.
  intros (q & mq & tl & EM & LQ & LT & BM & G & A & C0 & C1 & BL & BB & BT) L W. rewrite <- W32_eq in *.
  unfold sha1_update. replace (zlen d <=? 4294967295 - 1) with true by (unfold W32 in L; lia). cbn [guard obind].
  assert (ZD : 0 <= zlen d) by (unfold zlen; lia). rewrite (Z.mod_small (zlen d)) by lia. cbv zeta.
  assert (J : (length m mod 64)%nat = length tl). { rewrite EM, app_length, LQ. rewrite Nat.add_comm, Nat.mul_comm, Nat.mod_add by lia. now apply Nat.mod_small. }
  assert (ZM : zlen m = 64 * Z.of_nat q + zlen tl) by (unfold zlen; rewrite EM, app_length, LQ; lia).
  assert (EJ : Z.land (Z.shiftr (count0 c) 3) 63 = zlen tl).
  { rewrite land63, Z.shiftr_div_pow2, C0, ZM by lia. unfold zlen in *. unfold W32. clear - LT. lia. }
  rewrite EJ. assert (E : (zlen tl + zlen d) mod W32 = zlen tl + zlen d - W32).
  { symmetry. apply (Z.mod_unique_pos _ _ 1); [|lia]. rewrite J in W. unfold zlen, W32 in *. lia. }
  rewrite E. destruct (Z.gtb_spec (zlen tl + zlen d - W32) 63) as [K|K]; [exfalso; unfold zlen, W32 in *; lia|].
  assert (C : copy (buffer c) (zlen tl) d 0 (zlen d) = UB); [|now rewrite C].
  unfold copy. match goal with |- (if ?X then _ else _) = _ => replace X with false; [reflexivity|] end. symmetry. apply andb_false_intro2. apply Z.leb_gt. rewrite J in W. unfold zlen, W32 in *. lia.
Qed.
(** every update that exceeds 2^32 together with the bytes pending overruns the context: j + llen wraps *)
Theorem C30_large_update_refuted : forall junk m d, length junk = 64%nat -> bytes junk -> bytes m -> zlen m <= 2 ^ 32 - 64 ->
  zlen d <= 2 ^ 32 - 2 -> 2 ^ 32 <= Z.of_nat (length m mod 64) + zlen d -> update_all (sha1_init junk) [m; d] = UB.
Proof.
  intros junk m d J1 J2 B LM LD W. cbn [update_all]. rewrite <- W32_eq in LM. pose proof (Nat.mod_upper_bound (length m) 64 ltac:(lia)) as U.
  destruct (update_ok _ [] m [] (init_rep junk J1 J2) B) as (c & E & R); [cbn; unfold W32 in *; lia|lia|]. rewrite !app_nil_r in E. rewrite E. cbn [obind app] in *.
  now rewrite (update_wraps c m d R LD W).
Qed.
Print Assumptions C30_large_update_refuted.
Example C30_large_exists : exists (m d : list Z), bytes m /\ zlen m <= 2 ^ 32 - 64 /\ zlen d <= 2 ^ 32 - 2 /\ 2 ^ 32 <= Z.of_nat (length m mod 64) + zlen d.
Proof.
  assert (H : forall x, 2 ^ 32 = x -> exists (m d : list Z), bytes m /\ zlen m <= x - 64 /\ zlen d <= x - 2 /\ x <= Z.of_nat (length m mod 64) + zlen d).
  { intros x X. assert (X64 : 66 <= x) by lia. clear X. exists (repeat 0 2), (repeat 0 (Z.to_nat (x - 2))). split; [repeat constructor; lia|].
    change (zlen (repeat 0 2)) with 2. change (length (repeat 0%Z 2) mod 64)%nat with 2%nat. unfold zlen. rewrite repeat_length. lia. }
  exact (H _ eq_refl).
Qed.
(** hexadecimal text: 40 digits are written; the 41st byte is not touched, so the text is not terminated *)
Theorem C30_tostr : forall digest out, bytes digest -> length digest = 20%nat -> length out = 41%nat ->
  sha1_tostr digest out = Ok (hextext digest ++ skipn 40 out).
Proof.
  intros digest out B L LO. unfold sha1_tostr. assert (ZD : zlen digest = 20) by (unfold zlen; lia).
  pose proof (b2h_ok digest out 41 B ltac:(lia)) as H. cbv zeta in H. rewrite ZD in H. change (Z.min 20 ((41 + 1) / 2)) with 20 in H.
  rewrite H by (unfold zlen; lia). cbn [obind]. rewrite firstn_all2 by (rewrite L; reflexivity). reflexivity.
Qed.
Print Assumptions C30_tostr.
Theorem C30_text_roundtrip : forall digest out old, bytes digest -> length digest = 20%nat -> length out = 41%nat -> length old = 20%nat ->
  exists t, sha1_tostr digest out = Ok t /\ str_tosha1 t old = Ok digest.
Proof.
  intros digest out old B L LO LD. eexists. split; [now apply C30_tostr|]. unfold str_tosha1. assert (ZD : zlen digest = 20) by (unfold zlen; lia).
  pose proof (h2b_ok (hextext digest) (skipn 40 out) digest old 20 (unhex_hextext digest B) ltac:(unfold zlen; lia)) as H.
  replace (zlen (hextext digest)) with 40 in H by (unfold zlen; rewrite hextext_length; lia). rewrite H. cbn [obind]. rewrite skipn_all2 by lia. now rewrite app_nil_r.
Qed.
Print Assumptions C30_text_roundtrip.
Theorem C30_tostr_unterminated_refuted : exists digest out t, length out = 41%nat /\ sha1_tostr digest out = Ok t /\ ~ In 0 t.
Proof. exists (repeat 171 20), (repeat 7 41). eexists. split; [reflexivity|]. split; [vm_compute; reflexivity|]. cbn [In]. intuition discriminate. Qed.
Print Assumptions C30_tostr_unterminated_refuted.

(** FIPS 180 test vectors for the specification, and an instance of the theorem *)
Example C30_spec_abc : SHA1 [97; 98; 99] = [0xa9; 0x99; 0x3e; 0x36; 0x47; 0x06; 0x81; 0x6a; 0xba; 0x3e; 0x25; 0x71; 0x78; 0x50; 0xc2; 0x6c; 0x9c; 0xd0; 0xd8; 0x9d].
Proof. vm_compute. reflexivity. Qed.
Example C30_spec_empty : SHA1 [] = [0xda; 0x39; 0xa3; 0xee; 0x5e; 0x6b; 0x4b; 0x0d; 0x32; 0x55; 0xbf; 0xef; 0x95; 0x60; 0x18; 0x90; 0xaf; 0xd8; 0x07; 0x09].
Proof. vm_compute. reflexivity. Qed.
Example C30_ex : exists c out, update_all (sha1_init (repeat 9 64)) [[97]; []; [98; 99]] = Ok (c, out) /\ exists c', sha1_finalize c = Ok (SHA1 [97; 98; 99], c').
Proof. do 2 eexists. split; [vm_compute; reflexivity|]. eexists. vm_compute. reflexivity. Qed.

(** C31 The data passed to an update is unchanged as long as it holds no complete 64-byte block beyond the first block boundary. *)
Theorem C31_update_partial : forall junk ds d, length junk = 64%nat -> bytes junk -> Forall bytes ds -> bytes d ->
  Forall (fun d => zlen d <= 2 ^ 32 - 64) ds -> (length (concat ds) mod 64 + length d < 128)%nat ->
  exists c c' out, update_all (sha1_init junk) ds = Ok (c, out) /\ sha1_update c d (zlen d) = Ok (c', d).
Proof.
  intros junk ds d J1 J2 B BD L LD. destruct (update_all_ok ds _ [] (init_rep junk J1 J2) B L) as (c & out & E & R). cbn [app] in R.
  destruct (update_ok c _ d [] R BD) as (c' & E' & _); [unfold zlen, W32; lia|unfold zlen, W32; lia|]. rewrite !app_nil_r in E'. exists c, c', out. split; [exact E|]. rewrite E'. do 2 f_equal.
  unfold data_after. destruct (Nat.ltb_spec (length (concat ds) mod 64 + length d) 64); [reflexivity|]. cbv zeta.
  replace ((length (concat ds) mod 64 + length d) / 64 - 1)%nat with O by (clear - LD H; lia). cbn [Nat.mul firstn scrub skipn app]. apply firstn_skipn.
Qed.
Print Assumptions C31_update_partial.
(** the four bytes of a word, least significant first *)
Definition little_endian (w : Z) : list Z := map (fun i => w / 256 ^ i mod 256) [0; 1; 2; 3].
Lemma little_endian_eq w : little_endian w = word_le w.
Proof. unfold little_endian, word_le. cbn [map]. change (256 ^ 0) with 1. change (256 ^ 1) with 256. change (256 ^ 2) with 65536. change (256 ^ 3) with 16777216. now rewrite Z.div_1_r. Qed.
(** exactly what is left behind by the one-shot function: every complete block after the first is overwritten by the last 16 words of its
    message schedule, everything else is kept *)
Fixpoint overwritten (n : nat) (l : list Z) {struct n} : list Z :=
  match n with O => l | S n => concat (map little_endian (skipn 64 (schedule (be_words (firstn 64 l))))) ++ overwritten n (skipn 64 l) end.
Lemma overwritten_scrub : forall n l t, length l = (64 * n)%nat -> overwritten n (l ++ t) = scrub n l ++ t.
Proof.
  induction n as [|n IH]; intros l t L; [destruct l; [reflexivity|cbn in L; lia]|]. cbn [overwritten scrub].
  assert (L1 : length (firstn 64 l) = 64%nat) by (rewrite firstn_length; lia).
  replace (firstn 64 (l ++ t)) with (firstn 64 l) by (rewrite firstn_app; replace (64 - length l)%nat with O by lia; now rewrite firstn_O, app_nil_r).
  replace (skipn 64 (l ++ t)) with (skipn 64 l ++ t) by (rewrite skipn_app; replace (64 - length l)%nat with O by lia; reflexivity).
  rewrite IH by (rewrite skipn_length; lia). unfold stale. rewrite (map_ext _ _ little_endian_eq). now rewrite app_assoc.
Qed.
Theorem C31_data_effect : forall junk d, length junk = 64%nat -> bytes junk -> bytes d -> zlen d <= 2 ^ 32 - 2 ->
  sha1_data junk d (zlen d) = Ok (SHA1 d, firstn 64 d ++ overwritten (length d / 64 - 1) (skipn 64 d)).
Proof.
  intros junk d J1 J2 B L. rewrite <- W32_eq in L.
  destruct (update_ok _ [] d [] (init_rep junk J1 J2) B) as (c & E & R); [cbn; unfold W32 in *; lia|exact L|]. rewrite !app_nil_r in E.
  unfold sha1_data. rewrite E. cbn [obind app] in *. rewrite (finalize_ok c d R); [|unfold W32 in L; lia]. cbn [obind]. do 2 f_equal.
  unfold data_after. change (length (@nil Z) mod 64)%nat with O. cbn [Nat.add]. destruct (Nat.ltb_spec (length d) 64) as [S|S].
  - rewrite Nat.div_small by exact S. cbn [Nat.sub overwritten]. symmetry. apply firstn_skipn.
  - cbv zeta. change (64 - 0)%nat with 64%nat. set (n := (length d / 64 - 1)%nat).
    assert (N : (64 * n <= length (skipn 64 d))%nat). { rewrite skipn_length. unfold n. pose proof (Nat.div_mod (length d) 64 ltac:(lia)). lia. }
    f_equal. rewrite <- overwritten_scrub by (rewrite firstn_length; lia). now rewrite firstn_skipn.
Qed.
Print Assumptions C31_data_effect.
(** 128 equal bytes: the second half is destroyed *)
Theorem C31_data_refuted : exists d d' h, bytes d /\ length d = 128%nat /\ sha1_data (repeat 0 64) d 128 = Ok (h, d') /\ d' <> d.
Proof.
  exists (repeat 97 128). do 2 eexists. split; [repeat constructor; lia|]. split; [reflexivity|]. split; [vm_compute; reflexivity|]. vm_compute. discriminate.
Qed.
Print Assumptions C31_data_refuted.
Example C31_ex : sha1_data (repeat 0 64) (repeat 97 127) 127 = Ok (SHA1 (repeat 97 127), repeat 97 127).
Proof. vm_compute. reflexivity. Qed.
