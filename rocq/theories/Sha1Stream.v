From Verif Require Import Prelude Bits CstrModel Sha1Spec Sha1Model Sha1Proofs.
Open Scope Z_scope.

(** what a hashed whole block of the caller's data is replaced by *)
Fixpoint scrub (n : nat) (l : list Z) {struct n} : list Z := match n with O => l | S n => stale (firstn 64 l) ++ scrub n (skipn 64 l) end.

Lemma word_le_bytes w : Forall byte (word_le w) /\ length (word_le w) = 4%nat.
Proof. split; [|reflexivity]. unfold word_le, byte. repeat constructor; try (apply Z.mod_pos_bound; lia); try (pose proof (Z.mod_pos_bound (w / 256) 256 ltac:(lia)); lia); lia. Qed.
Lemma words_bytes l : Forall byte (concat (map word_le l)) /\ length (concat (map word_le l)) = (4 * length l)%nat.
Proof.
  induction l as [|w l [A B]]; cbn [map concat length]; [split; [constructor|reflexivity]|]. destruct (word_le_bytes w) as [C D]. split; [now apply Forall_app|]. rewrite app_length, B, D. lia.
Qed.
Lemma stale_ok b : length b = 64%nat -> Forall byte b -> Forall byte (stale b) /\ length (stale b) = 64%nat.
Proof.
  intros L F. unfold stale. destruct (words_bytes (skipn 64 (schedule (be_words b)))) as [A B]. split; [exact A|]. rewrite B, skipn_length.
  destruct (W_ok b L F) as (E & _). rewrite E. reflexivity.
Qed.
Lemma firstn_len {A} (a b : list A) n : length a = n -> firstn n (a ++ b) = a.
Proof. intros <-. rewrite firstn_app, firstn_all, Nat.sub_diag, firstn_O. apply app_nil_r. Qed.
Lemma skipn_len {A} (a b : list A) n : length a = n -> skipn n (a ++ b) = b.
Proof. intros <-. rewrite skipn_app, skipn_all, Nat.sub_diag. reflexivity. Qed.
Lemma absorb_S n l H : absorb (S n) l H = absorb n (skipn 64 l) (compress H (be_words (firstn 64 l))).
Proof. reflexivity. Qed.
Lemma absorb_O l H : absorb 0 l H = H.
Proof. reflexivity. Qed.
Lemma absorb_app : forall k a b n H, length a = (64 * k)%nat -> absorb (k + n) (a ++ b) H = absorb n b (absorb k a H).
Proof.
  induction k as [|k IH]; intros a b n H L.
  - destruct a; [reflexivity|cbn in L; lia].
  - cbn [Nat.add]. rewrite !absorb_S. rewrite <- (firstn_skipn 64 a) at 1 2. assert (L1 : length (firstn 64 a) = 64%nat) by (rewrite firstn_length; lia).
    rewrite <- app_assoc. rewrite firstn_len, skipn_len by exact L1. apply IH. rewrite skipn_length. lia.
Qed.
Lemma Forall_fst {A} (P : A -> Prop) n l : Forall P l -> Forall P (firstn n l).
Proof. intros F. rewrite <- (firstn_skipn n l) in F. now apply Forall_app in F. Qed.
Lemma Forall_skp {A} (P : A -> Prop) n l : Forall P l -> Forall P (skipn n l).
Proof. intros F. rewrite <- (firstn_skipn n l) in F. now apply Forall_app in F. Qed.
Lemma scrub_len : forall n l, length l = (64 * n)%nat -> Forall byte l -> length (scrub n l) = length l.
Proof.
  induction n as [|n IH]; intros l L F; cbn [scrub]; [reflexivity|]. rewrite app_length. destruct (stale_ok (firstn 64 l)) as [_ ->]; [rewrite firstn_length; lia|now apply Forall_fst|].
  rewrite IH; [rewrite skipn_length; lia|rewrite skipn_length; lia|now apply Forall_skp].
Qed.

Lemma loop_ok : forall n fuel st pre l post r, length l = (64 * n)%nat -> Forall byte l -> regs_ok st -> (n <= fuel)%nat -> (r < 64)%nat -> (r <= length post)%nat ->
  zlen pre + zlen l + 63 < W32 ->
  exists st', update_loop fuel st (pre ++ l ++ post) (zlen pre) (zlen pre + zlen l + Z.of_nat r) = Ok (st', pre ++ scrub n l ++ post, zlen pre + zlen l) /\
    regs_ok st' /\ abs st' = absorb n l (abs st).
Proof.
  unfold zlen. induction n as [|n IH]; intros fuel st pre l post r L F G FU R RP NW.
  - destruct l; [|cbn in L; lia]. cbn [length] in *. exists st. split; [|split; [exact G|reflexivity]].
    assert (E : (Z.of_nat (length pre) + 63) mod W32 <? Z.of_nat (length pre) + Z.of_nat 0 + Z.of_nat r = false) by (rewrite Z.mod_small by lia; lia).
    cbn [scrub app]. destruct fuel; cbn [update_loop]; rewrite E; f_equal; f_equal; lia.
  - destruct fuel as [|fuel]; [lia|]. cbn [update_loop]. 
    replace ((Z.of_nat (length pre) + 63) mod W32 <? Z.of_nat (length pre) + Z.of_nat (length l) + Z.of_nat r) with true by (rewrite Z.mod_small by lia; lia).
    unfold zlen. rewrite !app_length. replace (Z.of_nat (length pre) + 64 <=? Z.of_nat (length pre + (length l + length post))) with true by lia.
    rewrite Nat2Z.id. rewrite skipn_len by reflexivity. set (b := firstn 64 l). set (l2 := skipn 64 l).
    assert (EL : l = b ++ l2) by (symmetry; apply firstn_skipn). assert (B1 : length b = 64%nat) by (unfold b; rewrite firstn_length; lia). assert (B2 : Forall byte b) by (now apply Forall_fst).
    assert (L2 : length l2 = (64 * n)%nat) by (unfold l2; rewrite skipn_length; lia).
    replace (firstn 64 (l ++ post)) with b by (rewrite EL, <- app_assoc; symmetry; now apply firstn_len).
    destruct (transform_block b B1 B2 st G) as (st1 & E1 & G1 & A1). rewrite E1. rewrite firstn_len by reflexivity.
    replace (skipn (length pre + 64) (pre ++ l ++ post)) with (l2 ++ post).
    2: { rewrite <- skipn_skipn, skipn_len by reflexivity. rewrite EL, <- app_assoc. symmetry. now apply skipn_len. }
    destruct (stale_ok b B1 B2) as [S1 S2].
    destruct (IH fuel st1 (pre ++ stale b) l2 post r L2 ltac:(now apply Forall_skp) G1 ltac:(lia) R RP) as (st' & E2 & G2 & A2).
    { rewrite app_length, S2. lia. }
    exists st'. split; [|split; [exact G2|]].
    + rewrite app_length, S2, L2 in E2. replace ((Z.of_nat (length pre) + 64) mod W32) with (Z.of_nat (length pre + 64)) by (rewrite Z.mod_small; lia).
      rewrite <- app_assoc in E2. replace (Z.of_nat (length pre) + Z.of_nat (length l) + Z.of_nat r) with (Z.of_nat (length pre + 64) + Z.of_nat (64 * n) + Z.of_nat r) by lia.
      rewrite E2. cbn [scrub]. fold b l2. rewrite <- !app_assoc. f_equal. f_equal. lia.
    + rewrite A2, A1, absorb_S. unfold b, l2. exact eq_refl.
Qed.

(** the context after the message m *)
Definition represents (c : ctx) (m : list Z) : Prop := exists q mq tl, m = mq ++ tl /\ length mq = (64 * q)%nat /\ (length tl < 64)%nat /\ Forall byte m /\
  regs_ok (state c) /\ abs (state c) = absorb q mq H0 /\
  count0 c = (8 * zlen m) mod W32 /\ count1 c = (8 * zlen m / W32) mod W32 /\
  length (buffer c) = 64%nat /\ Forall byte (buffer c) /\ firstn (length tl) (buffer c) = tl.

Lemma init_rep junk : length junk = 64%nat -> Forall byte junk -> represents (sha1_init junk) [].
Proof.
  intros L F. exists O, [], []. repeat split; cbn [sha1_init state count0 count1 buffer ra rb rc rd_ re length]; auto; try lia; unfold w32, W32; cbn; lia.
Qed.

Lemma land63 x : Z.land x 63 = x mod 64.
Proof. change 63 with (Z.ones 6). now rewrite Z.land_ones by lia. Qed.
Lemma count_ok L M : 0 <= L -> 0 <= M < W32 ->
  let c0 := (8 * L) mod W32 in let c1 := (8 * L / W32) mod W32 in
  let n0 := add32 c0 (Z.shiftl M 3 mod W32) in
  n0 = (8 * (L + M)) mod W32 /\
  add32 (if n0 <? Z.shiftl M 3 mod W32 then add32 c1 1 else c1) (Z.shiftr M 29) = (8 * (L + M) / W32) mod W32.
Proof.
  intros HL HM. cbv zeta. rewrite Z.shiftl_mul_pow2, Z.shiftr_div_pow2 by lia. change (2 ^ 3) with 8. change (2 ^ 29) with 536870912. unfold add32, W32 in *.
  set (x := 8 * L). set (y := M * 8).
  assert (EX : x = x / 4294967296 * 4294967296 + x mod 4294967296) by lia. assert (EY : y = y / 4294967296 * 4294967296 + y mod 4294967296) by lia.
  pose proof (Z.mod_pos_bound x 4294967296 ltac:(lia)) as BX. pose proof (Z.mod_pos_bound y 4294967296 ltac:(lia)) as BY.
  assert (EM : M / 536870912 = y / 4294967296) by (unfold y; lia).
  replace (8 * (L + M)) with (x + y) by (unfold x, y; lia). rewrite EM. clear EM.
  assert (E0 : (x mod 4294967296 + y mod 4294967296) mod 4294967296 = (x + y) mod 4294967296) by (symmetry; apply Z.add_mod; lia).
  split; [exact E0|]. set (a := x mod 4294967296) in *. set (b := y mod 4294967296) in *. set (p := x / 4294967296) in *. set (q := y / 4294967296) in *.
  rewrite EX, EY. replace (p * 4294967296 + a + (q * 4294967296 + b)) with ((a + b) + (p + q) * 4294967296) by ring. rewrite Z.div_add by lia.
  destruct (Z.ltb_spec ((a + b) mod 4294967296) b) as [C|C].
  - assert ((a + b) / 4294967296 = 1) by lia. rewrite H. rewrite !Zplus_mod_idemp_l. rewrite <- Z.add_assoc, Zplus_mod_idemp_l. f_equal. lia.
  - assert ((a + b) / 4294967296 = 0) by lia. rewrite H. rewrite Zplus_mod_idemp_l. f_equal.
Qed.

(** the caller's data after an update that started with j bytes pending *)
Definition data_after (j : nat) (d : list Z) : list Z :=
  if (j + length d <? 64)%nat then d
  else let n := ((j + length d) / 64 - 1)%nat in
    let d2 := skipn (64 - j) d in firstn (64 - j) d ++ scrub n (firstn (64 * n) d2) ++ skipn (64 * n) d2.

Lemma copy_ok a b c mid x y : length a = length mid -> copy (c ++ a ++ b) (zlen c) (x ++ mid ++ y) (zlen x) (zlen mid) = Ok (c ++ mid ++ b).
Proof.
  intros L. unfold copy, zlen. rewrite !app_length.
  match goal with |- (if ?X then _ else _) = _ => replace X with true by lia end.
  rewrite !Nat2Z.id. rewrite firstn_len by reflexivity. rewrite skipn_len by reflexivity. rewrite firstn_len by reflexivity.
  replace (Z.to_nat (Z.of_nat (length c) + Z.of_nat (length mid))) with (length c + length a)%nat by lia.
  rewrite <- skipn_skipn, skipn_len, skipn_len by reflexivity. reflexivity.
Qed.

Lemma update_ok c m d post : represents c m -> Forall byte d -> Z.of_nat (length m mod 64) + zlen d < W32 -> zlen d <= W32 - 2 ->
  exists c', sha1_update c (d ++ post) (zlen d) = Ok (c', data_after (length m mod 64) d ++ post) /\ represents c' (m ++ d).
Proof.
  intros (q & mq & tl & EM & LQ & LT & BM & G & A & C0 & C1 & BL & BB & BT) D NW LE.
  assert (J : (length m mod 64)%nat = length tl). { rewrite EM, app_length, LQ. rewrite Nat.add_comm, Nat.mul_comm, Nat.mod_add by lia. now apply Nat.mod_small. }
  rewrite J in *. clear J.
  assert (ZM : zlen m = 64 * Z.of_nat q + zlen tl) by (unfold zlen; rewrite EM, app_length, LQ; lia).
  assert (ZD : 0 <= zlen d) by (unfold zlen; lia).
  unfold sha1_update. replace (zlen d <=? 4294967295 - 1) with true by (unfold W32 in LE; lia). cbn [guard obind].
  rewrite (Z.mod_small (zlen d)) by lia. cbv zeta.
  destruct (count_ok (zlen m) (zlen d) ltac:(unfold zlen; lia) ltac:(lia)) as [K0 K1]. cbv zeta in K0, K1. rewrite <- C0, <- C1 in K1. rewrite <- C0 in K0. rewrite K1, K0. clear K0 K1.
  assert (EJ : Z.land (Z.shiftr (count0 c) 3) 63 = zlen tl).
  { rewrite land63, Z.shiftr_div_pow2, C0, ZM by lia. unfold zlen in *. unfold W32. clear - LT. lia. }
  rewrite EJ. rewrite (Z.mod_small (zlen tl + zlen d)) by (unfold zlen in *; lia).
  assert (BYTES : Forall byte (m ++ d)) by (apply Forall_app; split; assumption).
  assert (ZMD : zlen (m ++ d) = zlen m + zlen d) by (unfold zlen; rewrite app_length; lia).
  unfold data_after. destruct (Z.gtb_spec (zlen tl + zlen d) 63) as [GT|LE63].
  - (* at least one block *)
    assert (JD : (length tl + length d <? 64)%nat = false) by (unfold zlen in GT; lia). rewrite JD. cbv zeta.
    set (n := ((length tl + length d) / 64 - 1)%nat).
    assert (NN : exists r, (length tl + length d = 64 * (S n) + r)%nat /\ (r < 64)%nat).
    { exists ((length tl + length d) mod 64)%nat. pose proof (Nat.div_mod (length tl + length d) 64 ltac:(lia)). pose proof (Nat.mod_upper_bound (length tl + length d) 64 ltac:(lia)).
      assert (1 <= (length tl + length d) / 64)%nat by (apply Nat.div_le_lower_bound; lia). unfold n. lia. }
    destruct NN as (r & NR & R64).
    set (d1 := firstn (64 - length tl) d). set (d23 := skipn (64 - length tl) d). set (d2 := firstn (64 * n) d23). set (d3 := skipn (64 * n) d23).
    assert (ED : d = d1 ++ d23) by (symmetry; apply firstn_skipn). assert (ED2 : d23 = d2 ++ d3) by (symmetry; apply firstn_skipn).
    assert (L1 : length d1 = (64 - length tl)%nat) by (unfold d1; rewrite firstn_length; lia).
    assert (L23 : length d23 = (64 * n + r)%nat) by (unfold d23; rewrite skipn_length; lia).
    assert (L2 : length d2 = (64 * n)%nat) by (unfold d2; rewrite firstn_length; lia).
    assert (L3 : length d3 = r) by (unfold d3; rewrite skipn_length; lia).
    assert (F1 : Forall byte d1) by (now apply Forall_fst). assert (F23 : Forall byte d23) by (now apply Forall_skp).
    assert (F2 : Forall byte d2) by (now apply Forall_fst). assert (F3 : Forall byte d3) by (now apply Forall_skp).
    assert (FT : Forall byte tl) by (rewrite EM in BM; now apply Forall_app in BM).
    assert (CP1 : copy (buffer c) (zlen tl) (d ++ post) 0 (64 - zlen tl) = Ok (tl ++ d1)).
    { rewrite <- (firstn_skipn (length tl) (buffer c)), BT. set (b2 := skipn (length tl) (buffer c)). assert (LB : length b2 = length d1) by (unfold b2; rewrite skipn_length; lia).
      pose proof (copy_ok b2 [] tl d1 [] (d23 ++ post) LB) as K. rewrite !app_nil_r in K. cbn [app] in K. rewrite ED, <- app_assoc.
      replace (64 - zlen tl) with (zlen d1) by (unfold zlen in *; lia). exact K. }
    rewrite CP1. cbn [obind]. assert (LB : length (tl ++ d1) = 64%nat) by (rewrite app_length; lia). assert (FB : Forall byte (tl ++ d1)) by (now apply Forall_app).
    destruct (transform_block (tl ++ d1) LB FB (state c) G) as (st1 & E1 & G1 & A1). rewrite E1.
    destruct (stale_ok (tl ++ d1) LB FB) as [SB SL]. set (sb := stale (tl ++ d1)) in *.
    assert (NWL : zlen d1 + zlen d2 + 63 < W32).
    { unfold zlen in *. assert (Z.of_nat (length tl) + Z.of_nat (length d1) + Z.of_nat (length d2) <= W32 - 64); [|lia]. 
      assert (Z.of_nat (length tl) + Z.of_nat (length d1) + Z.of_nat (length d2) = 64 * Z.of_nat (S n)) by lia. rewrite ED, ED2, !app_length in NW. unfold W32 in *. lia. }
    assert (LEN : zlen d = zlen d1 + zlen d2 + Z.of_nat r) by (unfold zlen; rewrite ED, ED2, !app_length; lia).
    destruct (loop_ok n (length (d ++ post)) st1 d1 d2 (d3 ++ post) r L2 F2 G1) as (st2 & E2 & G2 & A2); [rewrite ED, ED2, !app_length; lia|exact R64|rewrite app_length; lia|exact NWL|].
    replace (update_loop (length (d ++ post)) st1 (d ++ post) (64 - zlen tl) (zlen d)) with (@Ok (regs * list Z * Z) (st2, d1 ++ scrub n d2 ++ d3 ++ post, zlen d1 + zlen d2)).
    2: { rewrite <- E2, <- LEN. f_equal; [rewrite ED, ED2, <- !app_assoc; reflexivity|unfold zlen; lia]. }
    cbn [obind]. assert (SC : length (scrub n d2) = length d2) by (now apply scrub_len).
    assert (CP2 : copy sb 0 (d1 ++ scrub n d2 ++ d3 ++ post) (zlen d1 + zlen d2) ((zlen d - (zlen d1 + zlen d2)) mod W32) = Ok (d3 ++ skipn r sb)).
    { replace ((zlen d - (zlen d1 + zlen d2)) mod W32) with (zlen d3) by (rewrite LEN; unfold zlen; rewrite Z.mod_small; unfold W32; lia).
      pose proof (copy_ok (firstn r sb) (skipn r sb) [] d3 (d1 ++ scrub n d2) post ltac:(rewrite firstn_length; lia)) as K. cbn [app] in K. rewrite firstn_skipn in K.
      rewrite <- !app_assoc in K. replace (zlen d1 + zlen d2) with (zlen (d1 ++ scrub n d2)) by (unfold zlen; rewrite app_length; lia). exact K. }
    rewrite CP2. cbn [obind]. eexists. split; [f_equal; f_equal; rewrite <- !app_assoc; reflexivity|].
    exists (q + (1 + n))%nat, (mq ++ (tl ++ d1) ++ d2), d3. cbn [state count0 count1 buffer].
    split; [rewrite EM, ED, ED2, <- !app_assoc; reflexivity|]. split; [rewrite !app_length; lia|]. split; [lia|]. split; [exact BYTES|]. split; [exact G2|].
    split. { rewrite absorb_app by exact LQ. rewrite absorb_app by (rewrite LB; reflexivity). rewrite A2, A1, A, absorb_S, absorb_O. now rewrite firstn_all2 by lia. }
    rewrite ZMD. split; [reflexivity|]. split; [reflexivity|]. split; [rewrite app_length, skipn_length; lia|]. split; [apply Forall_app; split; [exact F3|now apply Forall_skp]|].
    now apply firstn_len.
  - assert (JD : (length tl + length d <? 64)%nat = true) by (unfold zlen in LE63; lia). rewrite JD.
    assert (CP : copy (buffer c) (zlen tl) (d ++ post) 0 (zlen d) = Ok (tl ++ d ++ skipn (length tl + length d) (buffer c))).
    { rewrite <- (firstn_skipn (length tl) (buffer c)) at 1. rewrite BT. set (b2 := skipn (length tl) (buffer c)). 
      rewrite <- (firstn_skipn (length d) b2). 
      pose proof (copy_ok (firstn (length d) b2) (skipn (length d) b2) tl d [] post) as K. cbn [app] in K. change (zlen []) with 0 in K. rewrite K; [|unfold b2; rewrite firstn_length, skipn_length; unfold zlen in *; lia].
      unfold b2. rewrite skipn_skipn. reflexivity. }
    rewrite CP. cbn [obind]. eexists. split; [reflexivity|].
    exists q, mq, (tl ++ d). cbn [state count0 count1 buffer]. split; [rewrite EM, <- app_assoc; reflexivity|]. split; [exact LQ|]. split; [rewrite app_length; unfold zlen in *; lia|].
    split; [exact BYTES|]. split; [exact G|]. split; [exact A|]. rewrite ZMD. split; [reflexivity|]. split; [reflexivity|].
    split; [rewrite !app_length, skipn_length; unfold zlen in *; lia|]. split.
    + apply Forall_app; split; [rewrite EM in BM; now apply Forall_app in BM|]. apply Forall_app; split; [exact D|now apply Forall_skp].
    + rewrite app_assoc. now apply firstn_len.
Qed.
