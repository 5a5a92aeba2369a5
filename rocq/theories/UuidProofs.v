(** zt_uuid.c.  Specification: [digit62], [val62] (the number a base 62 text denotes), [be] (the number a list of bytes denotes, most significant
    first), [std_text] (8-4-4-4-12 hexadecimal digits separated by dashes). *)
From Verif Require Import Prelude Bits CstrModel CstrProofs CstrText CstrNum Sha1Model Sha1Spec Sha1Stream Sha1Final RandModel RandProofs UuidModel.
Open Scope Z_scope.

Definition digit62 (c : Z) : option Z :=
  if (48 <=? c) && (c <=? 57) then Some (c - 48) else if (97 <=? c) && (c <=? 122) then Some (c - 97 + 10) else if (65 <=? c) && (c <=? 90) then Some (c - 65 + 36) else None.
Definition dig (c : Z) : Z := match digit62 c with Some d => d | None => 0 end.
Definition isdig (c : Z) : Prop := digit62 c <> None.
Fixpoint val62 (s : list Z) : Z := match s with [] => 0 | c :: r => dig c * 62 ^ zlen r + val62 r end.
Definition be (b : list Z) : Z := fold_left (fun v x => v * 256 + x) b 0.
Definition std_text (h : list Z) : list Z := sub h 0 8 ++ [45] ++ sub h 8 4 ++ [45] ++ sub h 12 4 ++ [45] ++ sub h 16 4 ++ [45] ++ sub h 20 12.

(** base 62 *)
Lemma val62_app a b : val62 (a ++ b) = val62 a * 62 ^ zlen b + val62 b.
Proof.
  induction a as [|c a IH]; [cbn [app val62]; lia|]. cbn [app val62]. rewrite IH, zlen_app, Z.pow_add_r by (unfold zlen; lia). ring.
Qed.
Lemma dig_range c : 0 <= dig c < 62.
Proof. unfold dig, digit62. repeat match goal with |- context [if ?b then _ else _] => destruct b eqn:? end; lia. Qed.
Lemma val62_range s : 0 <= val62 s < 62 ^ zlen s.
Proof.
  induction s as [|c s IH]; [cbn; lia|]. cbn [val62]. pose proof (dig_range c). unfold zlen in *. cbn [length]. rewrite Nat2Z.inj_succ, Z.pow_succ_r by lia. nia.
Qed.
Definition alpha (d : Z) : Z := nth (Z.to_nat d) base62_alphabet 0.
Lemma alpha_dig d : 0 <= d < 62 -> digit62 (alpha d) = Some d.
Proof.
  intros H. assert (A : forall n, (n < 62)%nat -> digit62 (alpha (Z.of_nat n)) = Some (Z.of_nat n)).
  { intros n N. do 62 (destruct n as [|n]; [reflexivity|]). lia. }
  rewrite <- (Z2Nat.id d) by lia. apply A. lia.
Qed.
Fixpoint repr (n : nat) (v : Z) : list Z := match n with O => [] | S n => repr n (v / 62) ++ [alpha (v mod 62)] end.
Lemma repr_length n : forall v, length (repr n v) = n.
Proof. induction n as [|n IH]; intros v; [reflexivity|]. cbn [repr]. rewrite app_length, IH. cbn [length]. lia. Qed.
Lemma repr_val n : forall v, 0 <= v < 62 ^ Z.of_nat n -> val62 (repr n v) = v /\ Forall isdig (repr n v).
Proof.
  induction n as [|n IH]; intros v H; [cbn in *; split; [lia|constructor]|]. rewrite Nat2Z.inj_succ, Z.pow_succ_r in H by lia. cbn [repr].
  pose proof (Z.mod_pos_bound v 62 ltac:(lia)) as M. destruct (IH (v / 62)) as [V D]; [split; [apply Z.div_pos; lia|apply Z.div_lt_upper_bound; lia]|].
  pose proof (alpha_dig _ M) as A. split.
  - rewrite val62_app, V. cbn [val62]. unfold dig. rewrite A. change (zlen [alpha (v mod 62)]) with 1. change (zlen (@nil Z)) with 0. pose proof (Z.div_mod v 62 ltac:(lia)). lia.
  - apply Forall_app. split; [exact D|]. constructor; [|constructor]. unfold isdig. rewrite A. discriminate.
Qed.

Lemma skipn_upd_S {A} (l : list A) : forall i v, (i < length l)%nat -> skipn i (upd l i v) = v :: skipn (S i) l.
Proof. induction l as [|x l IH]; intros [|i] v H; cbn [length] in H; try lia; [reflexivity|]. cbn [upd skipn]. rewrite IH by lia. reflexivity. Qed.
Lemma zero_fill_ok i : forall out, (i <= length out)%nat -> zero_fill i out = Ok (repr i 0 ++ skipn i out).
Proof.
  induction i as [|i IH]; intros out H; [reflexivity|]. cbn [zero_fill]. rewrite mset_ok by (unfold zlen; lia). cbn [obind]. rewrite Nat2Z.id, IH by (rewrite upd_length; lia).
  rewrite skipn_upd_S by lia. cbn [repr]. rewrite <- app_assoc. reflexivity.
Qed.
Lemma encode_ok i : forall fuel v out, 0 <= v < 62 ^ Z.of_nat i -> (i <= fuel)%nat -> (i <= length out)%nat ->
  exists j out', encode_loop fuel v i out = Ok (j, out') /\ (j <= length out')%nat /\ zero_fill j out' = Ok (repr i v ++ skipn i out).
Proof.
  induction i as [|i IH]; intros fuel v out H F L.
  - change (62 ^ Z.of_nat 0) with 1 in H. replace v with 0 by lia. exists O, out. split; [destruct fuel; reflexivity|]. split; [lia|reflexivity].
  - destruct (Z.eq_dec v 0) as [->|NZ].
    + exists (S i), out. split; [destruct fuel; reflexivity|]. split; [exact L|]. apply zero_fill_ok, L.
    + destruct fuel as [|fuel]; [lia|]. cbn [encode_loop]. replace (v =? 0) with false by lia. rewrite mset_ok by (unfold zlen; lia). cbn [obind]. rewrite Nat2Z.id. fold (alpha (v mod 62)).
      rewrite Nat2Z.inj_succ, Z.pow_succ_r in H by lia.
      destruct (IH fuel (v / 62) (upd out i (alpha (v mod 62)))) as (j & out' & E & J & Zf); [split; [apply Z.div_pos; lia|apply Z.div_lt_upper_bound; lia]|lia|rewrite upd_length; lia|].
      exists j, out'. split; [exact E|]. split; [exact J|]. rewrite Zf, skipn_upd_S by lia. cbn [repr]. rewrite <- app_assoc. reflexivity.
Qed.
Lemma encode62_ok v out : 0 <= v < 2 ^ 64 -> (11 <= length out)%nat -> exists r, encode62 v out = Ok (r, repr 11 v ++ skipn 11 out) /\ 0 <= r.
Proof.
  intros V L. unfold encode62. destruct (encode_ok 11 64 v out) as (j & o & E & J & F); [change (62 ^ Z.of_nat 11) with (62 ^ 11); split; [lia|apply Z.lt_trans with (2 ^ 64); [lia|reflexivity]]|lia|lia|].
  rewrite E. cbn [obind]. rewrite F. cbn [obind]. exists (Z.of_nat j). split; [reflexivity|lia].
Qed.

Lemma decode_step c : (if (48 <=? c) && (c <=? 57) then Some (c - 48) else if (97 <=? c) && (c <=? 122) then Some (c - (97 - 10)) else if (65 <=? c) && (c <=? 90) then Some (c - (65 - 36)) else None) = digit62 c.
Proof. unfold digit62. repeat match goal with |- context [if ?b then _ else _] => destruct b eqn:? end; try reflexivity; f_equal; lia. Qed.
Lemma decode_loop_S n inp i tlen v : decode_loop (S n) inp i tlen v =
  obind (mrd inp i) (fun c => match digit62 c with None => Ok None | Some d => decode_loop n inp (i + 1) tlen ((v + d * 62 ^ (tlen - i - 1)) mod 2 ^ 64) end).
Proof. cbn [decode_loop]. destruct (mrd inp i) as [c| | |]; cbn [obind]; try reflexivity. rewrite decode_step. reflexivity. Qed.
Lemma mrd_app pre c r : mrd (pre ++ c :: r) (zlen pre) = Ok c.
Proof.
  unfold mrd. rewrite zlen_app. change (zlen (c :: r)) with (Z.of_nat (S (length r))). unfold zlen. replace ((0 <=? _) && _) with true by lia. rewrite Nat2Z.id, app_nth2 by lia. rewrite Nat.sub_diag. reflexivity.
Qed.
Lemma decode_loop_ok s : forall pre post v, Forall isdig s -> 0 <= v < 2 ^ 64 ->
  decode_loop (length s) (pre ++ s ++ post) (zlen pre) (zlen pre + zlen s) v = Ok (Some ((v + val62 s) mod 2 ^ 64)).
Proof.
  induction s as [|c s IH]; intros pre post v D V.
  - cbn [length decode_loop val62]. rewrite Z.add_0_r, Z.mod_small by lia. reflexivity.
  - inversion D as [|? ? D1 D2]; subst. cbn [length app]. rewrite decode_loop_S. rewrite (mrd_app pre c (s ++ post)). cbn [obind].
    destruct (digit62 c) as [d|] eqn:E; [|now elim D1].
    assert (L : zlen pre + zlen (c :: s) - zlen pre - 1 = zlen s) by (unfold zlen; cbn [length]; lia). rewrite L.
    specialize (IH (pre ++ [c]) post ((v + d * 62 ^ zlen s) mod 2 ^ 64) D2 (Z.mod_pos_bound _ (2 ^ 64) eq_refl)).
    rewrite <- app_assoc in IH. cbn [app] in IH. rewrite zlen_app in IH. change (zlen [c]) with 1 in IH.
    replace (zlen pre + 1 + zlen s) with (zlen pre + zlen (c :: s)) in IH by (unfold zlen; cbn [length]; lia). cbn [app]. rewrite IH. cbn [val62]. unfold dig. rewrite E.
    rewrite Z.add_mod_idemp_l by lia. do 3 f_equal. ring.
Qed.
Lemma decode62_ok s post n : Forall isdig s -> length s = 11%nat -> 11 <= n -> decode62 (s ++ post) n = Ok (Some (val62 s mod 2 ^ 64)).
Proof.
  intros D L N. unfold decode62. assert (T : (if n >? SEG then SEG else n) = 11) by (unfold SEG; destruct (Z.gtb_spec n 11); lia). rewrite T.
  pose proof (decode_loop_ok s [] post 0 D ltac:(lia)) as H. cbn [app] in H. change (zlen []) with 0 in H. rewrite !Z.add_0_l in H. unfold zlen in H. rewrite L in H. exact H.
Qed.

(** the two halves *)
Lemma be_cons8 a b c d e f g h : be [a; b; c; d; e; f; g; h] = ((((((a * 256 + b) * 256 + c) * 256 + d) * 256 + e) * 256 + f) * 256 + g) * 256 + h.
Proof. unfold be. cbn [fold_left]. ring. Qed.
Lemma eight (l : list Z) : length l = 8%nat -> exists a b c d e f g h, l = [a; b; c; d; e; f; g; h].
Proof. intros L. do 8 (destruct l as [|? l]; [discriminate|]). destruct l; [|discriminate]. repeat eexists. Qed.
Lemma lor_step q k k' b : k' = k + 8 -> 0 <= k -> 0 <= b < 256 -> Z.lor (q * 2 ^ k') (Z.shiftl b k) = (q * 256 + b) * 2 ^ k.
Proof.
  intros -> K B. rewrite Z.shiftl_mul_pow2 by exact K. assert (P : 0 < 2 ^ k) by (apply Z.pow_pos_nonneg; lia). rewrite lor_low; [rewrite Z.pow_add_r by lia; change (2 ^ 8) with 256; ring|lia|].
  rewrite Z.pow_add_r by lia. change (2 ^ 8) with 256. nia.
Qed.
Lemma join8_ok l : bytes l -> length l = 8%nat -> join8 l = be l /\ 0 <= be l < 2 ^ 64.
Proof.
  intros B L. destruct (eight l L) as (a & b & c & d & e & f & g & h & ->).
  repeat match goal with H : bytes (_ :: _) |- _ => inversion H; clear H; subst | H : Forall _ (_ :: _) |- _ => inversion H; clear H; subst end.
  unfold isbyte in *. rewrite be_cons8. split; [|lia].
  unfold join8. change (seq 0 8) with [0; 1; 2; 3; 4; 5; 6; 7]%nat. cbn [fold_left nth Nat.sub]. 
  change (Z.of_nat 7 * 8) with 56. change (Z.of_nat 6 * 8) with 48. change (Z.of_nat 5 * 8) with 40. change (Z.of_nat 4 * 8) with 32. change (Z.of_nat 3 * 8) with 24. change (Z.of_nat 2 * 8) with 16. change (Z.of_nat 1 * 8) with 8. change (Z.of_nat 0 * 8) with 0.
  rewrite Z.lor_0_l, (Z.shiftl_mul_pow2 a) by lia.
  rewrite (lor_step a 48 56 b), (lor_step _ 40 48 c), (lor_step _ 32 40 d), (lor_step _ 24 32 e), (lor_step _ 16 24 f), (lor_step _ 8 16 g), (lor_step _ 0 8 h) by lia. change (2 ^ 0) with 1. lia.
Qed.
Lemma land255 v k : 0 <= k -> Z.land (Z.shiftr v k) 255 = (v / 2 ^ k) mod 256.
Proof. intros K. rewrite Z.shiftr_div_pow2 by exact K. change 255 with (Z.ones 8). apply Z.land_ones. lia. Qed.
Lemma split8_ok l : bytes l -> length l = 8%nat -> split8 (be l) = l.
Proof.
  intros B L. destruct (eight l L) as (a & b & c & d & e & f & g & h & ->).
  repeat match goal with H : bytes (_ :: _) |- _ => inversion H; clear H; subst | H : Forall _ (_ :: _) |- _ => inversion H; clear H; subst end.
  unfold isbyte in *. rewrite be_cons8. unfold split8. change (seq 0 8) with [0; 1; 2; 3; 4; 5; 6; 7]%nat. cbn [map Nat.sub].
  change (Z.of_nat 7 * 8) with 56. change (Z.of_nat 6 * 8) with 48. change (Z.of_nat 5 * 8) with 40. change (Z.of_nat 4 * 8) with 32. change (Z.of_nat 3 * 8) with 24. change (Z.of_nat 2 * 8) with 16. change (Z.of_nat 1 * 8) with 8. change (Z.of_nat 0 * 8) with 0.
  rewrite !land255 by lia. change (2 ^ 56) with (256 * 256 * 256 * 256 * 256 * 256 * 256). change (2 ^ 48) with (256 * 256 * 256 * 256 * 256 * 256). change (2 ^ 40) with (256 * 256 * 256 * 256 * 256). change (2 ^ 32) with (256 * 256 * 256 * 256).
  change (2 ^ 24) with (256 * 256 * 256). change (2 ^ 16) with (256 * 256). change (2 ^ 8) with 256. change (2 ^ 0) with 1. rewrite Z.div_1_r. rewrite <- !Z.div_div by lia.
  assert (D : forall q r, 0 <= r < 256 -> (q * 256 + r) / 256 = q) by (intros q r R; rewrite Z.div_add_l, Z.div_small by lia; lia).
  assert (M : forall q r, 0 <= r < 256 -> (q * 256 + r) mod 256 = r) by (intros q r R; rewrite Z.add_comm, Z.mod_add, Z.mod_small by lia; reflexivity).
  rewrite !D by lia. rewrite !M by lia. rewrite Z.mod_small by lia. reflexivity.
Qed.

Lemma halves (u : list Z) : length u = 16%nat -> length (firstn 8 u) = 8%nat /\ length (skipn 8 u) = 8%nat.
Proof. intros L. rewrite firstn_length, skipn_length, L. lia. Qed.
Lemma bytes_firstn n u : bytes u -> bytes (firstn n u).
Proof. intros H. unfold bytes in *. rewrite <- (firstn_skipn n u) in H. apply Forall_app in H. apply H. Qed.
Lemma bytes_skipn n u : bytes u -> bytes (skipn n u).
Proof. intros H. unfold bytes in *. rewrite <- (firstn_skipn n u) in H. apply Forall_app in H. apply H. Qed.

(** the text of each format *)
Definition text (f : fmt) (u : list Z) : list Z :=
  match f with
  | std_fmt => std_text (hextext u) | short_fmt => hextext u
  | base62_fmt => repr 11 (be (firstn 8 u)) ++ repr 11 (be (skipn 8 u))
  | base62_hashable_fmt => rev (repr 11 (be (firstn 8 u))) ++ repr 11 (be (skipn 8 u))
  | other => []
  end.
Definition text_len (f : fmt) : Z := match f with std_fmt => 36 | short_fmt => 32 | base62_fmt | base62_hashable_fmt => 22 | other => 0 end.
Definition format (f : fmt) : Prop := f <> other.

Lemma sub_length (h : list Z) i n : (i + n <= length h)%nat -> length (sub h i n) = n.
Proof. intros H. unfold sub. rewrite firstn_length, skipn_length. lia. Qed.
Lemma std_length h : length h = 32%nat -> length (std_text h) = 36%nat.
Proof. intros L. unfold std_text. rewrite !app_length, !sub_length by lia. reflexivity. Qed.
Lemma text_length f u : length u = 16%nat -> zlen (text f u) = text_len f.
Proof.
  intros L. unfold zlen. destruct f; cbn [text text_len].
  - rewrite std_length; [reflexivity|]. rewrite hextext_length. lia.
  - rewrite hextext_length, L. reflexivity.
  - rewrite app_length, !repr_length. reflexivity.
  - rewrite app_length, rev_length, !repr_length. reflexivity.
  - reflexivity.
Qed.
Lemma sub_app (h : list Z) i n j m k : j = (i + n)%nat -> k = (n + m)%nat -> sub h i n ++ sub h j m = sub h i k.
Proof.
  intros -> ->.  unfold sub. rewrite <- skipn_skipn. set (k := skipn i h). rewrite <- (firstn_skipn n (firstn (n + m) k)). f_equal; [rewrite firstn_firstn; f_equal; lia|].
  rewrite firstn_skipn_comm. reflexivity.
Qed.
Lemma layout_short f h : f <> std_fmt -> length h = 32%nat -> layout f h = h.
Proof.
  intros F L. assert (E : layout f h = sub h 0 8 ++ sub h 8 4 ++ sub h 12 4 ++ sub h 16 4 ++ sub h 20 12) by (destruct f; try reflexivity; congruence). rewrite E. clear E.
  rewrite (sub_app h 16 4 20 12 16), (sub_app h 12 4 16 16 20), (sub_app h 8 4 12 20 24), (sub_app h 0 8 8 24 32) by reflexivity. unfold sub. cbn [skipn]. apply firstn_all2. lia.
Qed.
Lemma snprintf_ok dst size t : zlen t < size -> size <= zlen dst -> snprintf dst size t = Ok (t ++ 0 :: skipn (S (length t)) dst).
Proof.
  intros S D. unfold snprintf. assert (0 <= zlen t) by (unfold zlen; lia). replace (size <=? 0) with false by lia. cbv zeta. rewrite firstn_all2 by (unfold zlen in *; lia).
  replace (zlen (t ++ [0]) <=? zlen dst) with true by (rewrite zlen_app; change (zlen [0]) with 1; lia). rewrite app_length, <- app_assoc. cbn [length app]. now rewrite Nat.add_1_r.
Qed.
Lemma hex_ok u : bytes u -> length u = 16%nat -> zt_binary_to_hex u UUID_ALEN (Some (repeat 0 32)) UUID_SHORT_STR_LEN = Ok (32, Some (hextext u)).
Proof.
  intros B L. pose proof (b2h_ok u (repeat 0 32) 32 B ltac:(lia)) as H. cbv zeta in H. assert (E : zlen u = 16) by (unfold zlen; lia). rewrite E in H. change (Z.min 16 ((32 + 1) / 2)) with 16 in H.
  change (zlen (repeat 0 32)) with 32 in H. specialize (H ltac:(lia)). change UUID_ALEN with 16. change UUID_SHORT_STR_LEN with 32. rewrite H. change (skipn (Z.to_nat (2 * 16)) (repeat 0 32)) with (@nil Z). rewrite app_nil_r, firstn_all2 by (change (Z.to_nat 16) with 16%nat; lia). reflexivity.
Qed.
Lemma fill_ok u dst size f : format f -> bytes u -> length u = 16%nat -> text_len f < size -> size <= zlen dst ->
  (f = base62_fmt \/ f = base62_hashable_fmt -> size = 23) ->
  fillstr_ u dst size f = Ok (text_len f, text f u ++ 0 :: skipn (S (length (text f u))) dst).
Proof.
  intros F B L S D SZ. pose proof (text_length f u L) as TL. destruct (halves u L) as [L1 L2].
  pose proof (join8_ok _ (bytes_firstn 8 u B) L1) as [J1 R1]. pose proof (join8_ok _ (bytes_skipn 8 u B) L2) as [J2 R2].
  pose proof (repr_length 11 (be (firstn 8 u))) as RL1. pose proof (repr_length 11 (be (skipn 8 u))) as RL2.
  destruct f; [| | | |congruence]; cbn [text_len text] in *.
  - unfold fillstr_. rewrite hex_ok by assumption. cbn [obind]. cbv zeta. change (layout std_fmt (hextext u)) with (std_text (hextext u)). rewrite snprintf_ok by lia. cbn [obind]. rewrite TL. reflexivity.
  - unfold fillstr_. rewrite hex_ok by assumption. cbn [obind]. cbv zeta. rewrite layout_short by (try congruence; rewrite hextext_length; lia). rewrite snprintf_ok by lia. cbn [obind]. rewrite TL. reflexivity.
  - rewrite (SZ (or_introl eq_refl)) in *. unfold fillstr_. change (23 <=? UUID_BASE62_STR_LEN + 1) with true. cbn [guard obind]. cbv zeta. rewrite J1, J2.
    unfold zlen in D. destruct (encode62_ok (be (firstn 8 u)) dst R1 ltac:(lia)) as (r1 & E1 & P1). rewrite E1. cbn [obind].
    rewrite (skipn_len (repr 11 (be (firstn 8 u)))) by (now rewrite repr_length). rewrite (firstn_len (repr 11 (be (firstn 8 u)))) by (now rewrite repr_length).
    destruct (encode62_ok (be (skipn 8 u)) (skipn 11 dst) R2) as (r2 & E2 & P2); [rewrite skipn_length; lia|]. rewrite E2. cbn [obind]. replace ((0 <=? r1) && (0 <=? r2)) with true by lia.
    rewrite skipn_skipn, app_assoc. change (11 + 11)%nat with 22%nat. set (a := repr 11 _ ++ repr 11 _). assert (LA : length a = 22%nat) by (unfold a; rewrite app_length; lia).
    rewrite mset_ok by (unfold zlen; rewrite app_length, skipn_length; change UUID_BASE62_STR_LEN with 22; lia). cbn [obind]. change (Z.to_nat UUID_BASE62_STR_LEN) with 22%nat. rewrite LA.
    destruct (skipn 22 dst) as [|x t] eqn:E; [exfalso; apply (f_equal (@length Z)) in E; rewrite skipn_length in E; cbn [length] in E; lia|].
    rewrite <- LA at 1. rewrite upd_mid. do 4 f_equal. replace (skipn 23 dst) with (skipn 1 (skipn 22 dst)) by (rewrite skipn_skipn; reflexivity). rewrite E. reflexivity.
  - rewrite (SZ (or_intror eq_refl)) in *. unfold fillstr_. change (23 <=? UUID_BASE62_STR_LEN + 1) with true. cbn [guard obind]. cbv zeta. rewrite J1, J2.
    unfold zlen in D. destruct (encode62_ok (be (firstn 8 u)) (repeat 0 11) R1 ltac:(rewrite repeat_length; lia)) as (r1 & E1 & P1). rewrite E1. cbn [obind]. change (skipn 11 (repeat 0 11)) with (@nil Z). rewrite app_nil_r.
    replace (zlen dst <? SEG) with false by (unfold zlen, SEG; lia). cbn [obind].
    rewrite (skipn_len (rev (repr 11 (be (firstn 8 u))))) by (now rewrite rev_length, repr_length). rewrite (firstn_len (rev (repr 11 (be (firstn 8 u))))) by (now rewrite rev_length, repr_length).
    destruct (encode62_ok (be (skipn 8 u)) (skipn 11 dst) R2) as (r2 & E2 & P2); [rewrite skipn_length; lia|]. rewrite E2. cbn [obind]. replace ((0 <=? r1) && (0 <=? r2)) with true by lia.
    rewrite skipn_skipn, app_assoc. change (11 + 11)%nat with 22%nat. set (a := rev (repr 11 _) ++ repr 11 _). assert (LA : length a = 22%nat) by (unfold a; rewrite app_length, rev_length; lia).
    rewrite mset_ok by (unfold zlen; rewrite app_length, skipn_length; change UUID_BASE62_STR_LEN with 22; lia). cbn [obind]. change (Z.to_nat UUID_BASE62_STR_LEN) with 22%nat. rewrite LA.
    destruct (skipn 22 dst) as [|x t] eqn:E; [exfalso; apply (f_equal (@length Z)) in E; rewrite skipn_length in E; cbn [length] in E; lia|].
    rewrite <- LA at 1. rewrite upd_mid. do 4 f_equal. replace (skipn 23 dst) with (skipn 1 (skipn 22 dst)) by (rewrite skipn_skipn; reflexivity). rewrite E. reflexivity.
Qed.
