(** C33: zt_uuid.c.  A UUID is its 16 bytes.  Specification: [text f u] (UuidProofs.v: hexadecimal digits with/without dashes, two 11-digit base 62
    numbers), [wellformed f s] (UuidParse.v), [stamped] and [raw4] (UuidGen.v).  Strings are [s ++ 0 :: post]: the contents, a NUL and what follows. *)
From Verif Require Import Prelude CstrSpec CstrModel CstrProofs CstrNum Sha1Spec Sha1Stream RandModel RandProofs UuidModel UuidProofs UuidParse UuidGen.
Open Scope Z_scope.

Definition uuid (u : list Z) : Prop := length u = 16%nat /\ bytes u.

(** the text produced, in every format, and its length *)
Theorem C33_tostr : forall f u, format f -> uuid u -> tostr u f = Ok (text_len f, Some (text f u ++ [0])) /\ zlen (text f u) = text_len f.
Proof.
  intros f u F [L B]. split; [|now apply text_length]. unfold tostr. pose proof (text_length f u L) as TL.
  assert (FS : flagToSize f = Ok (text_len f + 1)) by (destruct f; try reflexivity; now elim F). rewrite FS. cbn [obind].
  assert (0 <= text_len f) by (destruct f; cbn; lia).
  rewrite fill_ok; [|exact F|exact B|exact L|lia|unfold zlen; rewrite repeat_length; lia|intros [->| ->]; reflexivity]. cbn [obind]. replace (text_len f <? 0) with false by lia.
  rewrite skipn_all2; [reflexivity|]. rewrite repeat_length. unfold zlen in TL. lia.
Qed.
Print Assumptions C33_tostr.
(** reading the text back gives the same UUID, whatever was in the destination; the text is accepted by zt_uuid_isvalid *)
Theorem C33_roundtrip : forall f u u0 post, format f -> uuid u -> length u0 = 16%nat ->
  exists s, tostr u f = Ok (text_len f, Some (s ++ [0])) /\ fromstr (s ++ 0 :: post) u0 f = Ok (0, u) /\ isvalid (s ++ 0 :: post) f = 0.
Proof.
  intros f u u0 post F U L0. pose proof U as [L B]. exists (text f u). split; [apply C33_tostr; assumption|]. split; [now apply round|].
  destruct (text_wellformed f u F B L) as [W C]. now apply isvalid_ok.
Qed.
Print Assumptions C33_roundtrip.
(** different UUIDs have different texts *)
Theorem C33_injective : forall f u v, format f -> uuid u -> uuid v -> tostr u f = tostr v f -> u = v.
Proof.
  intros f u v F U V E. destruct (C33_roundtrip f u u [] F U (proj1 U)) as (s & E1 & R1 & _). destruct (C33_roundtrip f v u [] F V (proj1 U)) as (s' & E2 & R2 & _).
  rewrite E1, E2 in E. assert (A : s ++ [0] = s' ++ [0]) by congruence. rewrite A, R2 in R1. congruence.
Qed.
Print Assumptions C33_injective.
(** the standard layout, spelled out *)
Theorem C33_std_text : forall u, uuid u -> text std_fmt u = hextext (firstn 4 u) ++ [45] ++ hextext (firstn 2 (skipn 4 u)) ++ [45] ++ hextext (firstn 2 (skipn 6 u)) ++ [45] ++ hextext (firstn 2 (skipn 8 u)) ++ [45] ++ hextext (skipn 10 u).
Proof. intros u [L _]. do 16 (destruct u as [|? u]; [discriminate L|]). destruct u; [|discriminate L]. reflexivity. Qed.
Print Assumptions C33_std_text.
(** zt_uuid_isvalid accepts exactly the well-formed texts *)
Theorem C33_isvalid : forall f s post, cstr s -> (isvalid (s ++ 0 :: post) f = 0 <-> wellformed f s) /\ (isvalid (s ++ 0 :: post) f = 0 \/ isvalid (s ++ 0 :: post) f = -1).
Proof.
  intros f s post C. split; [now apply isvalid_ok|]. unfold isvalid. cbv zeta. destruct f; try (right; reflexivity); (destruct (negb _); [now right|]; destruct (chars_ok _ _ _); [now left|now right]).
Qed.
Print Assumptions C33_isvalid.
(** every valid hexadecimal text, upper or lower case, is read as the bytes its digits denote *)
Theorem C33_fromstr_hex : forall h post u0, length h = 32%nat -> Forall ishex h -> length u0 = 16%nat ->
  exists u, unhex h = Some u /\ uuid u /\ fromstr (std_text h ++ 0 :: post) u0 std_fmt = Ok (0, u) /\ fromstr (h ++ 0 :: post) u0 short_fmt = Ok (0, u).
Proof.
  intros h post u0 L F L0. destruct (from_std h post u0 L F L0) as (u & E & LU & BU & A). destruct (from_short h post u0 L F L0) as (v & E' & _ & _ & A'). exists u.
  assert (u = v) by congruence. subst v. split; [exact E|]. split; [split; assumption|]. split; assumption.
Qed.
Print Assumptions C33_fromstr_hex.
Lemma split8_be v : 0 <= v < 2 ^ 64 -> length (split8 v) = 8%nat /\ bytes (split8 v) /\ be (split8 v) = v.
Proof.
  intros H. split; [reflexivity|].
  assert (E : forall k, 0 <= k -> Z.land (Z.shiftr v k) 255 = v / 2 ^ k mod 256).
  { intros k K. change 255 with (Z.ones 8). rewrite Z.land_ones, Z.shiftr_div_pow2 by lia. reflexivity. }
  unfold split8. change (seq 0 8) with [0; 1; 2; 3; 4; 5; 6; 7]%nat. cbn [map Nat.sub]. rewrite !E by lia.
  split; [repeat (constructor; [unfold isbyte; pose proof (Z.mod_pos_bound (v / 1) 256 ltac:(lia)); apply Z.mod_pos_bound; lia|]); constructor|].
  unfold be. cbn [fold_left].
  change (2 ^ (Z.of_nat 7 * 8)) with 72057594037927936. change (2 ^ (Z.of_nat 6 * 8)) with 281474976710656. change (2 ^ (Z.of_nat 5 * 8)) with 1099511627776.
  change (2 ^ (Z.of_nat 4 * 8)) with 4294967296. change (2 ^ (Z.of_nat 3 * 8)) with 16777216. change (2 ^ (Z.of_nat 2 * 8)) with 65536. change (2 ^ (Z.of_nat 1 * 8)) with 256. change (2 ^ (Z.of_nat 0 * 8)) with 1.
  change (2 ^ 64) with 18446744073709551616 in H. Z.to_euclidean_division_equations. lia.
Qed.
(** a valid base 62 text is read as two numbers modulo 2^64 *)
Theorem C33_fromstr_62 : forall a b post u0, length a = 11%nat -> length b = 11%nat -> Forall isdig a -> Forall isdig b ->
  exists u, uuid u /\ be (firstn 8 u) = val62 a mod 2 ^ 64 /\ be (skipn 8 u) = val62 b mod 2 ^ 64 /\
  fromstr (a ++ b ++ 0 :: post) u0 base62_fmt = Ok (0, u) /\ fromstr (rev a ++ b ++ 0 :: post) u0 base62_hashable_fmt = Ok (0, u).
Proof.
  intros a b post u0 A B C D. exists (split8 (val62 a mod 2 ^ 64) ++ split8 (val62 b mod 2 ^ 64)).
  pose proof (Z.mod_pos_bound (val62 a) (2 ^ 64) ltac:(lia)) as Ra. pose proof (Z.mod_pos_bound (val62 b) (2 ^ 64) ltac:(lia)) as Rb.
  destruct (split8_be _ Ra) as (La & Ba & Va). destruct (split8_be _ Rb) as (Lb & Bb & Vb).
  split; [split; [rewrite app_length; lia|apply Forall_app; split; assumption]|].
  split; [rewrite firstn_app, La; rewrite firstn_all2 by lia; change (firstn (8 - 8) (split8 (val62 b mod 2 ^ 64))) with (@nil Z); rewrite app_nil_r; exact Va|].
  split; [rewrite skipn_app, La; rewrite skipn_all2 by lia; exact Vb|].
  split; [now apply from_62|now apply from_62h].
Qed.
Print Assumptions C33_fromstr_62.
(** so two valid texts may denote the same UUID *)
Theorem C33_base62_unique_refuted : exists s s' u, s <> s' /\ isvalid (s ++ [0]) base62_fmt = 0 /\ isvalid (s' ++ [0]) base62_fmt = 0 /\
  fromstr (s ++ [0]) (repeat 0 16) base62_fmt = Ok (0, u) /\ fromstr (s' ++ [0]) (repeat 0 16) base62_fmt = Ok (0, u).
Proof.
  exists (repr 11 5 ++ repr 11 7), (repr 11 (2 ^ 64 + 5) ++ repr 11 7). eexists. split; [vm_compute; discriminate|]. split; [vm_compute; reflexivity|]. split; [vm_compute; reflexivity|].
  split; [vm_compute; reflexivity|]. vm_compute. reflexivity.
Qed.
Print Assumptions C33_base62_unique_refuted.
(** zt_uuid_fromstr reports success on texts that are not valid: not hexadecimal (the destination is kept), or base 62 followed by more *)
Theorem C33_fromstr_rejects_refuted :
  (exists s u0, isvalid (s ++ [0]) std_fmt = -1 /\ fromstr (s ++ [0]) u0 std_fmt = Ok (0, u0)) /\
  (exists s u0, isvalid (s ++ [0]) short_fmt = -1 /\ fromstr (s ++ [0]) u0 short_fmt = Ok (0, u0)) /\
  (exists s u0 u, isvalid (s ++ [0]) base62_fmt = -1 /\ fromstr (s ++ [0]) u0 base62_fmt = Ok (0, u)).
Proof.
  split; [exists (repeat 122 8 ++ [45] ++ repeat 122 4 ++ [45] ++ repeat 122 4 ++ [45] ++ repeat 122 4 ++ [45] ++ repeat 122 12), (repeat 9 16); split; [vm_compute; reflexivity|vm_compute; reflexivity]|].
  split; [exists (repeat 122 32), (repeat 9 16); split; [vm_compute; reflexivity|vm_compute; reflexivity]|].
  exists (repeat 48 23), (repeat 9 16). eexists. split; [vm_compute; reflexivity|vm_compute; reflexivity].
Qed.
Print Assumptions C33_fromstr_rejects_refuted.
(** A text that has not the length of its format (36 and 32 characters) or of no known format is refused, and the destination is kept. *)
Theorem C33_fromstr_length : forall s post u0, cstr s ->
  (length s <> 36%nat -> fromstr (s ++ 0 :: post) u0 std_fmt = Ok (-1, u0)) /\ (length s <> 32%nat -> fromstr (s ++ 0 :: post) u0 short_fmt = Ok (-1, u0)) /\
  fromstr (s ++ 0 :: post) u0 other = Ok (-1, u0).
Proof.
  intros s post u0 C. unfold fromstr. rewrite cstring_app by exact C. unfold UUID_STR_LEN, UUID_SHORT_STR_LEN, zlen.
  split; [intros H; replace (Z.of_nat (length s) =? 36) with false by lia; reflexivity|].
  split; [intros H; replace (Z.of_nat (length s) =? 32) with false by lia; reflexivity|reflexivity].
Qed.
Print Assumptions C33_fromstr_length.
(** 36 characters with blanks: uninitialised memory is read; the hashable format reads past the end of a short string *)
Theorem C33_fromstr_memory_refuted : fromstr (repeat 32 36 ++ [0]) (repeat 0 16) std_fmt = UB /\ fromstr ([48; 48] ++ [0]) (repeat 0 16) base62_hashable_fmt = UB.
Proof. split; [vm_compute; reflexivity|vm_compute; reflexivity]. Qed.
Print Assumptions C33_fromstr_memory_refuted.
(** in general: 36 characters that are all blanks, tabs, newlines, ... *)
Theorem C33_fromstr_blank_refuted : forall s post u0, length s = 36%nat -> Forall (fun c => c = 32 \/ 9 <= c <= 13) s -> length u0 = 16%nat -> fromstr (s ++ 0 :: post) u0 std_fmt = UB.
Proof.
  intros s post u0 L F L0. assert (C : cstr s) by (eapply Forall_impl; [|exact F]; cbv beta; intros; lia).
  unfold fromstr. rewrite cstring_app by exact C. unfold UUID_STR_LEN, zlen. rewrite L. change (negb (Z.of_nat 36 =? 36)) with false. cbv iota.
  assert (K : skip_ws s = []).
  { clear L C. induction F as [|c s H F IH]; [reflexivity|]. cbn [skip_ws]. replace (isspace c) with true by (unfold isspace; lia). exact IH. }
  unfold scan, std_fields. rewrite K. cbn [word]. vm_compute. reflexivity.
Qed.
Print Assumptions C33_fromstr_blank_refuted.
(** the plain base 62 format is safe on every string *)
Lemma decode_cstr : forall n s post i tlen v, (0 <= i)%nat -> exists r, decode_loop n (s ++ 0 :: post) (Z.of_nat i) tlen v = Ok r /\ (r <> None -> (i <= length s)%nat -> (i + n <= length s)%nat) \/ (length s < i)%nat.
Proof.
  induction n as [|n IH]; intros s post i tlen v I; [destruct (Nat.leb_spec i (length s)); [exists (Some v); left; split; [reflexivity|intros; lia]|exists None; right; lia]|].
  destruct (Nat.leb_spec i (length s)) as [LE|GT]; [|exists None; right; lia]. 
  rewrite decode_loop_S. unfold mrd. rewrite zlen_app. unfold zlen. cbn [length]. replace ((0 <=? Z.of_nat i) && (Z.of_nat i <? Z.of_nat (length s) + Z.of_nat (S (length post)))) with true by lia. cbn [obind]. rewrite Nat2Z.id.
  destruct (Nat.eq_dec i (length s)) as [->|NE].
  - rewrite app_nth2, Nat.sub_diag by lia. cbn [nth]. change (digit62 0) with (@None Z). exists None. left. split; [reflexivity|intros X; now elim X].
  - destruct (digit62 (nth i (s ++ 0 :: post) 0)) as [d|]; [|exists None; left; split; [reflexivity|intros X; now elim X]].
    replace (Z.of_nat i + 1) with (Z.of_nat (S i)) by lia. destruct (IH s post (S i) tlen ((v + d * 62 ^ (tlen - Z.of_nat i - 1)) mod 2 ^ 64) ltac:(lia)) as (r & [[E H]|H]); [|lia].
    exists r. left. split; [exact E|]. intros X Y. specialize (H X). lia.
Qed.
Theorem C33_base62_safe : forall s post u0, exists r u, fromstr (s ++ 0 :: post) u0 base62_fmt = Ok (r, u).
Proof.
  intros s post u0. unfold fromstr. unfold decode62. change (if SEG >? SEG then SEG else SEG) with 11. change (if UUID_BASE62_STR_LEN >? SEG then SEG else UUID_BASE62_STR_LEN) with 11. change (Z.to_nat 11) with 11%nat.
  destruct (decode_cstr 11 s post 0 11 0 ltac:(lia)) as (r1 & [[E1 H1]|H1]); [|lia]. change (Z.of_nat 0) with 0 in E1. rewrite E1. cbn [obind]. destruct r1 as [v1|]; [|now repeat eexists].
  specialize (H1 ltac:(discriminate) ltac:(lia)). replace (zlen (s ++ 0 :: post) <? SEG) with false by (rewrite zlen_app; unfold zlen, SEG; cbn [length]; lia).
  rewrite skipn_app. replace (11 - length s)%nat with O by lia. change (skipn 0 (0 :: post)) with (0 :: post).
  destruct (decode_cstr 11 (skipn 11 s) post 0 11 0 ltac:(lia)) as (r2 & [[E2 H2]|H2]); [|lia]. change (Z.of_nat 0) with 0 in E2. rewrite E2. cbn [obind]. destruct r2 as [v2|]; now repeat eexists.
Qed.
Print Assumptions C33_base62_safe.
(** and whenever the string does not begin with 22 base 62 digits, the result is -1 and the UUID is unchanged *)
Lemma decode_none : forall n s post i tlen v, (i <= length s)%nat -> ~ ((i + n <= length s)%nat /\ Forall isdig (firstn n (skipn i s))) -> decode_loop n (s ++ 0 :: post) (Z.of_nat i) tlen v = Ok None.
Proof.
  induction n as [|n IH]; intros s post i tlen v LE N; [elim N; split; [lia|constructor]|].
  rewrite decode_loop_S. unfold mrd. rewrite zlen_app. unfold zlen. cbn [length]. replace ((0 <=? Z.of_nat i) && (Z.of_nat i <? Z.of_nat (length s) + Z.of_nat (S (length post)))) with true by lia. cbn [obind]. rewrite Nat2Z.id.
  destruct (Nat.eq_dec i (length s)) as [->|NE]; [rewrite app_nth2, Nat.sub_diag by lia; reflexivity|].
  rewrite app_nth1 by lia. destruct (digit62 (nth i s 0)) as [d|] eqn:D; [|reflexivity].
  replace (Z.of_nat i + 1) with (Z.of_nat (S i)) by lia. apply IH; [lia|]. intros [A B]. apply N. split; [lia|].
  assert (SK : skipn i s = nth i s 0 :: skipn (S i) s). { clear - LE NE. revert i LE NE. induction s as [|c s IHs]; intros [|i] LE NE; cbn [length] in *; try lia; [reflexivity|]. cbn [skipn nth]. apply IHs; lia. }
  rewrite SK. cbn [firstn]. constructor; [unfold isdig; congruence|exact B].
Qed.
Theorem C33_base62_rejects : forall s post u0, ~ ((22 <= length s)%nat /\ Forall isdig (firstn 22 s)) -> fromstr (s ++ 0 :: post) u0 base62_fmt = Ok (-1, u0).
Proof.
  intros s post u0 N. unfold fromstr. unfold decode62. change (if SEG >? SEG then SEG else SEG) with 11. change (if UUID_BASE62_STR_LEN >? SEG then SEG else UUID_BASE62_STR_LEN) with 11. change (Z.to_nat 11) with 11%nat.
  assert (DEC : forall s0, decode_loop 11 (s0 ++ 0 :: post) 0 11 0 = Ok None \/ ((11 <= length s0)%nat /\ Forall isdig (firstn 11 s0) /\ exists v, decode_loop 11 (s0 ++ 0 :: post) 0 11 0 = Ok (Some v))).
  { intros s0. destruct (decode_cstr 11 s0 post 0 11 0 ltac:(lia)) as (r1 & [[E1 H1]|H1]); [|lia]. pose proof (decode_none 11 s0 post 0 11 0 ltac:(lia)) as D. change (Z.of_nat 0) with 0 in *.
    destruct r1 as [v1|]; [|now left]. specialize (H1 ltac:(discriminate) ltac:(lia)). right. split; [lia|]. split; [|now exists v1].
    assert (dec : forall c, isdig c \/ ~ isdig c) by (intros c; unfold isdig; destruct (digit62 c); [left; discriminate|right; congruence]).
    assert (FD : forall l, Forall isdig l \/ ~ Forall isdig l). { clear - dec. induction l as [|c l [F|F]]; [left; constructor| |right; intros X; inversion X; tauto]. destruct (dec c); [left; now constructor|right; intros X; inversion X; tauto]. }
    destruct (FD (firstn 11 s0)) as [F|F]; [exact F|]. rewrite D in E1; [discriminate|]. intros [_ X]. exact (F X). }
  destruct (DEC s) as [E|(L1 & F1 & v1 & E)]; rewrite E; [reflexivity|]. cbn [obind].
  replace (zlen (s ++ 0 :: post) <? SEG) with false by (rewrite zlen_app; unfold zlen, SEG; cbn [length]; lia).
  rewrite skipn_app. replace (11 - length s)%nat with O by lia. change (skipn 0 (0 :: post)) with (0 :: post).
  destruct (DEC (skipn 11 s)) as [E2|(L2 & F2 & v2 & E2)]; rewrite E2; [reflexivity|]. exfalso. apply N. rewrite skipn_length in L2. split; [lia|].
  assert (SP : firstn 22 s = firstn 11 s ++ firstn 11 (skipn 11 s)).
  { rewrite <- (firstn_skipn 11 s) at 1. rewrite firstn_app, firstn_length, firstn_firstn. f_equal. f_equal. lia. }
  rewrite SP. apply Forall_app. now split.
Qed.
Print Assumptions C33_base62_rejects.
Example C33_base62_rejects_ex : fromstr (repeat 122 21 ++ [45; 0; 9]) (repeat 7 16) base62_fmt = Ok (-1, repeat 7 16).
Proof. apply (C33_base62_rejects (repeat 122 21 ++ [45]) [9]). intros [_ F]. rewrite Forall_forall in F. specialize (F 45). apply F; [cbn; tauto|reflexivity]. Qed.

(** zt_uuid_fillstr: a missing argument or a small buffer yields 0 and the size needed, and nothing is written *)
Theorem C33_fillstr_size : forall f u b size, format f -> u = None \/ b = None \/ size < text_len f + 1 -> fillstr u b size f = Ok (0, text_len f + 1, b).
Proof.
  intros f u b size F H. assert (FS : flagToSize f = Ok (text_len f + 1)) by (destruct f; try reflexivity; now elim F). unfold fillstr. rewrite FS. cbn [obind].
  destruct u as [u|]; [|reflexivity]. destruct b as [b|]; [|reflexivity]. destruct H as [H|[H|H]]; [discriminate|discriminate|]. replace (size <? text_len f + 1) with true by lia. reflexivity.
Qed.
Print Assumptions C33_fillstr_size.
(** otherwise the text and a NUL are written and nothing else *)
Theorem C33_fillstr_partial : forall f u b size, format f -> uuid u -> text_len f + 1 <= size <= zlen b -> (f = base62_fmt \/ f = base62_hashable_fmt -> size = 23) ->
  fillstr (Some u) (Some b) size f = Ok (text_len f, size, Some (text f u ++ 0 :: skipn (Z.to_nat (text_len f + 1)) b)).
Proof.
  intros f u b size F [L B] S S23. assert (FS : flagToSize f = Ok (text_len f + 1)) by (destruct f; try reflexivity; now elim F). unfold fillstr. rewrite FS. cbn [obind].
  replace (size <? text_len f + 1) with false by lia. rewrite fill_ok by (try assumption; lia). cbn [obind]. pose proof (text_length f u L) as TL. unfold zlen in TL. 
  replace (Z.to_nat (text_len f + 1)) with (Datatypes.S (length (text f u))) by lia. reflexivity.
Qed.
Print Assumptions C33_fillstr_partial.
(** but a buffer larger than the base 62 text aborts the program *)
Theorem C33_fillstr_refuted : forall f u b size, f = base62_fmt \/ f = base62_hashable_fmt -> 23 < size -> fillstr (Some u) (Some b) size f = Abort.
Proof.
  intros f u b size F S. assert (G : (size <=? UUID_BASE62_STR_LEN + 1) = false) by (unfold UUID_BASE62_STR_LEN; lia).
  destruct F as [->| ->]; unfold fillstr; cbn [flagToSize obind]; (replace (size <? UUID_BASE62_STR_LEN + 1) with false by (unfold UUID_BASE62_STR_LEN; lia)); unfold fillstr_; rewrite G; reflexivity.
Qed.
Print Assumptions C33_fillstr_refuted.

(** zt_uuid4: in every history of calls, the k-th call of a thread returns the k-th group of four numbers of MT19937 seeded with the time of that
    thread's first call, with version 4 and variant 10 *)
Theorem C33_uuid4 : forall calls, Forall (fun c => 0 <= snd c < 2 ^ 32) calls -> exists us w, run4 start calls = Ok (us, w) /\ length us = length calls /\
  forall i t now, nth_error calls i = Some (t, now) -> exists seed u, first_time t calls = Some seed /\ nth_error us i = Some u /\ uuid u /\ stamped 4 (raw4 seed (calls_of t (firstn i calls))) u.
Proof.
  intros calls F. destruct (run4_ok calls start [] inv_start F) as (us & w & E & L & H). exists us, w. split; [exact E|]. split; [exact L|]. intros i t now HN.
  destruct (H i t now HN) as (seed & A & B). cbn [app] in A, B. exists seed, (stamp 4 (raw4 seed (calls_of t (firstn i calls)))). split; [exact A|]. split; [exact B|].
  destruct (raw4_ok seed (calls_of t (firstn i calls))) as [RL RB]. destruct (stamp_ok 4 _ RL RB ltac:(lia)) as (S & SB & SL). split; [split; assumption|exact S].
Qed.
Print Assumptions C33_uuid4.
(** so two threads that make their first call in the same second get the same UUIDs, whatever happens in between *)
Theorem C33_uuid4_unique_refuted : forall t t' now calls, t <> t' -> 0 <= now < 2 ^ 32 -> Forall (fun c => 0 <= snd c < 2 ^ 32) calls -> first_time t' calls = None ->
  exists us w u, run4 start ((t, now) :: calls ++ [(t', now)]) = Ok (us, w) /\ nth_error us 0 = Some u /\ nth_error us (length us - 1) = Some u /\ (1 < length us)%nat.
Proof.
  intros t t' now calls NE N F FN. destruct (run4_ok ((t, now) :: calls ++ [(t', now)]) start [] inv_start) as (us & w & E & L & H).
  { constructor; [exact N|]. apply Forall_app. split; [exact F|]. constructor; [exact N|constructor]. }
  cbn [app] in H. destruct (H 0%nat t now eq_refl) as (s1 & A1 & B1). 
  assert (LL : length us = S (S (length calls))) by (rewrite L; cbn [length]; rewrite app_length; cbn [length]; lia).
  assert (NL : nth_error ((t, now) :: calls ++ [(t', now)]) (S (length calls)) = Some (t', now)) by (cbn [nth_error]; rewrite nth_error_app2, Nat.sub_diag by lia; reflexivity).
  destruct (H _ t' now NL) as (s2 & A2 & B2). cbn [first_time] in A1, A2. rewrite Nat.eqb_refl in A1. destruct (Nat.eqb_spec t t') as [|_]; [contradiction|]. rewrite first_time_app, FN in A2. cbn [first_time] in A2. rewrite Nat.eqb_refl in A2.
  assert (s1 = now) by congruence. assert (s2 = now) by congruence. subst s1 s2. exists us, w. eexists. split; [exact E|]. split; [exact B1|]. rewrite LL. split; [|lia]. replace (S (S (length calls)) - 1)%nat with (S (length calls)) by lia. rewrite B2. do 2 f_equal.
  cbn [firstn]. rewrite firstn_app, firstn_all, Nat.sub_diag. cbn [firstn]. rewrite app_nil_r. unfold calls_of. cbn [filter fst]. destruct (Nat.eqb_spec t t') as [|_]; [contradiction|]. fold (calls_of t' calls). rewrite (first_none _ _ FN). reflexivity.
Qed.
Print Assumptions C33_uuid4_unique_refuted.
(** zt_uuid5: the first 16 bytes of SHA-1 of the namespace's bytes and the value, with version 5 and variant 10; unknown namespaces are refused *)
Definition namespace (n : ns) : option (list Z) :=   (* RFC 4122, appendix C *)
  option_map (fun x => [0x6b; 0xa7; 0xb8; x; 0x9d; 0xad; 0x11; 0xd1; 0x80; 0xb4; 0x00; 0xc0; 0x4f; 0xd4; 0x30; 0xc8])
    (match n with DNS => Some 0x10 | URL => Some 0x11 | OID => Some 0x12 | X500 => Some 0x14 | unknown_ns => None end).
Theorem C33_uuid5 : forall junk value n b, length junk = 64%nat -> bytes junk -> bytes value -> zlen value <= 2 ^ 32 - 64 -> namespace n = Some b ->
  exists u v', uuid5 junk value (zlen value) n = Ok (Some u, v') /\ uuid u /\ stamped 5 (firstn 16 (SHA1 (b ++ value))) u /\ (zlen value < 112 -> v' = value).
Proof.
  intros junk value n b J1 J2 BV LV NB'. assert (NB : ns_bytes n = Some b) by (rewrite <- NB'; destruct n; reflexivity). clear NB'. pose proof (uuid5_ok junk value [] n b J1 J2 BV LV NB) as E. rewrite !app_nil_r in E. do 2 eexists. split; [exact E|].
  assert (RB : length (firstn 16 (SHA1 (b ++ value))) = 16%nat /\ bytes (firstn 16 (SHA1 (b ++ value)))).
  { destruct (SHA1_bytes (b ++ value)) as [SL SB]. split; [rewrite firstn_length, SL; reflexivity|apply bytes_firstn, SB]. }
  destruct RB as [RL RB]. destruct (stamp_ok 5 _ RL RB ltac:(lia)) as (S & SB & SL). split; [split; assumption|]. split; [exact S|].
  intros LT. unfold zlen in LT. unfold data_after. destruct (Nat.ltb_spec (16 + length value) 64) as [|G]; [reflexivity|]. cbv zeta. 
  assert (D : ((16 + length value) / 64 = 1)%nat) by (symmetry; apply Nat.div_unique with (r := (length value - 48)%nat); lia). rewrite D. change (64 - 16)%nat with 48%nat. change (64 * (1 - 1))%nat with 0%nat. exact (firstn_skipn 48 value).
Qed.
Print Assumptions C33_uuid5.
Theorem C33_uuid5_unknown : forall junk value vlen, uuid5 junk value vlen unknown_ns = Ok (None, value).
Proof. reflexivity. Qed.
Print Assumptions C33_uuid5_unknown.
(** a value of 112 bytes or more is modified *)
Theorem C33_uuid5_value_refuted : exists value v' u, bytes value /\ length value = 112%nat /\ uuid5 (repeat 0 64) value 112 DNS = Ok (Some u, v') /\ v' <> value.
Proof.
  exists (repeat 97 112). do 2 eexists. split; [repeat constructor; lia|]. split; [reflexivity|]. split; [vm_compute; reflexivity|]. vm_compute. discriminate.
Qed.
Print Assumptions C33_uuid5_value_refuted.
(** comparison: zero exactly for equal UUIDs, otherwise the order of the 128-bit numbers *)
Theorem C33_cmp : forall u v, uuid u -> uuid v -> (cmp u v = 0 <-> u = v) /\ (cmp u v < 0 <-> be u < be v) /\ (0 < cmp u v <-> be v < be u).
Proof.
  intros u v [L B] [L' B']. unfold cmp. rewrite !firstn_all2 by lia. apply memcmp_be; [exact B|exact B'|lia].
Qed.
Print Assumptions C33_cmp.
(** RFC 4122 appendix: uuid5 of www.example.com in the DNS namespace, all formats *)
Example C33_ex : let www := [119; 119; 119; 46; 101; 120; 97; 109; 112; 108; 101; 46; 99; 111; 109] in
  let u := [0x2e; 0xd6; 0x65; 0x7d; 0xe9; 0x27; 0x56; 0x8b; 0x95; 0xe1; 0x26; 0x65; 0xa8; 0xae; 0xa6; 0xa2] in
  uuid5 (repeat 0 64) www 15 DNS = Ok (Some u, www) /\ uuid u /\
  fromstr ([50;69;68;54;54;53;55;68;45;69;57;50;55;45;53;54;56;66;45;57;53;69;49;45;50;54;54;53;65;56;65;69;65;54;65;50] ++ [0]) (repeat 0 16) std_fmt = Ok (0, u).
Proof. split; [vm_compute; reflexivity|]. split; [split; [reflexivity|repeat constructor; lia]|]. vm_compute. reflexivity. Qed.
Example C33_ex4 : (' (us, _) <- run4 start [(1%nat, 1700000000); (2%nat, 1700000000); (1%nat, 1700000001)] ;; Ok (map (fun u => (nth 6 u 0 / 16, nth 8 u 0 / 64)) us)) = Ok [(4, 2); (4, 2); (4, 2)].
Proof. vm_compute. reflexivity. Qed.
