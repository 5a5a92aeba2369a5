(** zt_uuid.c: parsing and validation *)
From Verif Require Import Prelude Bits CstrModel CstrProofs CstrText CstrSpec CstrSearch CstrNum UuidModel UuidProofs.
From Verif Require Import Sha1Stream.
Open Scope Z_scope.

Definition nospace (w : list Z) : Prop := Forall (fun c => isspace c = false) w.
Lemma word_full w : forall t, nospace w -> word (length w) (w ++ t) = (w, t).
Proof. induction w as [|c w IH]; intros t H; [reflexivity|]. inversion H; subst. cbn [length word app]. rewrite H2, IH by assumption. reflexivity. Qed.
Lemma skip_ws_ns w t : nospace w -> w <> [] -> skip_ws (w ++ t) = w ++ t.
Proof. intros H N. destruct w as [|c w]; [congruence|]. inversion H; subst. cbn [app skip_ws]. now rewrite H2. Qed.
Lemma upd_split {A} (l : list A) i v : (i < length l)%nat -> upd l i v = firstn i l ++ v :: skipn (S i) l.
Proof. revert i. induction l as [|x l IH]; intros [|i] H; cbn [length] in H; try lia; [reflexivity|]. cbn [upd firstn skipn app]. now rewrite IH by lia. Qed.
Lemma poke_ok w : forall b off, (off + length w < length b)%nat -> poke b off w = firstn off b ++ map Some w ++ Some 0 :: skipn (S (off + length w)) b.
Proof.
  induction w as [|c w IH]; intros b off H; cbn [length] in H; cbn [poke map app].
  - rewrite Nat.add_0_r. apply upd_split. lia.
  - rewrite IH by (rewrite upd_length; lia). rewrite upd_split by lia. set (a := firstn off b). assert (LA : length a = off) by (unfold a; rewrite firstn_length; lia).
    replace (a ++ Some c :: skipn (S off) b) with ((a ++ [Some c]) ++ skipn (S off) b) by (rewrite <- app_assoc; reflexivity).
    assert (LC : length (a ++ [Some c]) = S off) by (rewrite app_length; cbn [length]; lia).
    rewrite firstn_len by exact LC. replace (S (S off + length w)) with (length (a ++ [Some c]) + S (length w))%nat by lia.
    rewrite skipn_app, skipn_all2 by lia. replace (length (a ++ [Some c]) + S (length w) - length (a ++ [Some c]))%nat with (S (length w)) by lia. rewrite skipn_skipn.
    rewrite <- app_assoc. cbn [app length]. repeat f_equal; lia.
Qed.
Lemma scan_one n off r w t b : length w = n -> w <> [] -> nospace w -> scan ((n, off) :: r) (w ++ t) b =
  match r with [] => poke b off w | _ => match t with 45 :: t => scan r t (poke b off w) | _ => poke b off w end end.
Proof. intros L N H. cbn [scan]. rewrite skip_ws_ns, <- L, word_full by assumption. destruct w; [congruence|]. reflexivity. Qed.

Lemma nospace_sub h i n : nospace h -> nospace (sub h i n).
Proof. intros H. unfold sub. apply Forall_firstn', Forall_skipn', H. Qed.
Lemma nonempty_len {A} (w : list A) n : length w = n -> (0 < n)%nat -> w <> [].
Proof. intros L N ->. cbn [length] in L. lia. Qed.
Lemma known_some l r : known (map Some l ++ r) = l ++ known r.
Proof. induction l as [|x l IH]; [reflexivity|]. cbn [map app known]. now rewrite IH. Qed.

Lemma scan_std h : length h = 32%nat -> nospace h -> known (scan std_fields (std_text h) (repeat None 33)) = h ++ [0].
Proof.
  intros L NS. unfold std_fields, std_text.
  set (a := sub h 0 8). set (b := sub h 8 4). set (c := sub h 12 4). set (d := sub h 16 4). set (e := sub h 20 12).
  assert (La : length a = 8%nat) by (apply sub_length; lia). assert (Lb : length b = 4%nat) by (apply sub_length; lia). assert (Lc : length c = 4%nat) by (apply sub_length; lia).
  assert (Ld : length d = 4%nat) by (apply sub_length; lia). assert (Le : length e = 12%nat) by (apply sub_length; lia).
  assert (EH : h = a ++ b ++ c ++ d ++ e). { unfold a, b, c, d, e. rewrite (sub_app h 16 4 20 12 16), (sub_app h 12 4 16 16 20), (sub_app h 8 4 12 20 24), (sub_app h 0 8 8 24 32) by reflexivity. unfold sub. cbn [skipn]. symmetry. apply firstn_all2. lia. }
  assert (Na : nospace a) by (apply nospace_sub, NS). assert (Nb : nospace b) by (apply nospace_sub, NS). assert (Nc : nospace c) by (apply nospace_sub, NS). assert (Nd : nospace d) by (apply nospace_sub, NS). assert (Ne : nospace e) by (apply nospace_sub, NS).
  clearbody a b c d e. cbn [app].
  rewrite (scan_one 8 0 _ a); [|exact La|now apply (nonempty_len a 8); [|lia]|exact Na].
  rewrite (scan_one 4 8 _ b); [|exact Lb|now apply (nonempty_len b 4); [|lia]|exact Nb].
  rewrite (scan_one 4 12 _ c); [|exact Lc|now apply (nonempty_len c 4); [|lia]|exact Nc].
  rewrite (scan_one 4 16 _ d); [|exact Ld|now apply (nonempty_len d 4); [|lia]|exact Nd].
  rewrite <- (app_nil_r e) at 1. rewrite (scan_one 12 20 _ e); [|exact Le|now apply (nonempty_len e 12); [|lia]|exact Ne].
  rewrite EH. clear NS EH L h Na Nb Nc Nd Ne.
  do 8 (destruct a as [|? a]; [discriminate La|]). destruct a; [|discriminate La].
  do 4 (destruct b as [|? b]; [discriminate Lb|]). destruct b; [|discriminate Lb].
  do 4 (destruct c as [|? c]; [discriminate Lc|]). destruct c; [|discriminate Lc].
  do 4 (destruct d as [|? d]; [discriminate Ld|]). destruct d; [|discriminate Ld].
  do 12 (destruct e as [|? e]; [discriminate Le|]). destruct e; [|discriminate Le]. reflexivity.
Qed.

(** hexadecimal digits of either case *)
Definition ishex (c : Z) : Prop := hexval c <> None.
Lemma hex_nospace c : ishex c -> isspace c = false /\ 0 < c < 256 /\ c <> 45.
Proof.
  unfold ishex, hexval, isspace. intros H. 
  destruct ((48 <=? c) && (c <=? 57)) eqn:E1; [lia|]. destruct ((65 <=? c) && (c <=? 70)) eqn:E2; [lia|]. destruct ((97 <=? c) && (c <=? 102)) eqn:E3; [lia|congruence].
Qed.
Lemma hexs_ok h : Forall ishex h -> nospace h /\ cstr h.
Proof. intros H. split; (eapply Forall_impl; [|exact H]); intros c C; destruct (hex_nospace c C) as (A & B & _); assumption. Qed.
Lemma unhex_hexs : forall n h, length h = (2 * n)%nat -> Forall ishex h -> exists u, unhex h = Some u /\ length u = n /\ bytes u.
Proof.
  induction n as [|n IH]; intros h L F.
  - destruct h; [|discriminate]. exists []. split; [reflexivity|]. split; [reflexivity|constructor].
  - destruct h as [|x [|y h]]; [discriminate|cbn [length] in L; lia|]. inversion F as [|? ? Fx F']; subst. inversion F' as [|? ? Fy F'']; subst.
    destruct (IH h) as (u & E & LU & BU); [cbn [length] in L; lia|exact F''|]. unfold ishex in *. destruct (hexval x) as [a|] eqn:Ex; [|congruence]. destruct (hexval y) as [b|] eqn:Ey; [|congruence].
    exists (16 * a + b :: u). rewrite unhex_step, Ex, Ey, E. split; [reflexivity|]. split; [cbn [length]; lia|]. constructor; [|exact BU].
    assert (R : forall c d, hexval c = Some d -> 0 <= d < 16). { intros c d. unfold hexval. repeat match goal with |- context [if ?b then _ else _] => destruct b eqn:? end; intros H; try discriminate H; injection H as <-; lia. }
    pose proof (R _ _ Ex). pose proof (R _ _ Ey). unfold isbyte. lia.
Qed.
Lemma cstr_std h : cstr h -> cstr (std_text h).
Proof.
  intros H. unfold std_text, cstr in *. assert (S : forall i n, Forall (fun c => 0 < c < 256) (sub h i n)) by (intros i n; unfold sub; apply Forall_firstn', Forall_skipn', H).
  rewrite !Forall_app. repeat split; try apply S; repeat constructor; lia.
Qed.

Lemma from_std h post u0 : length h = 32%nat -> Forall ishex h -> length u0 = 16%nat ->
  exists u, unhex h = Some u /\ length u = 16%nat /\ bytes u /\ fromstr (std_text h ++ 0 :: post) u0 std_fmt = Ok (0, u).
Proof.
  intros L F LU. destruct (unhex_hexs 16 h L F) as (u & E & L16 & B). exists u. split; [exact E|]. split; [exact L16|]. split; [exact B|].
  destruct (hexs_ok h F) as [NS C]. unfold fromstr. rewrite cstring_app by (apply cstr_std, C).
  replace (zlen (std_text h) =? UUID_STR_LEN) with true by (unfold zlen; rewrite std_length by exact L; reflexivity). cbn [negb]. rewrite scan_std by assumption.
  pose proof (h2b_ok h [0] u u0 16 E) as H. unfold zlen in H. rewrite L16, LU, L in H. specialize (H ltac:(lia)). change (Z.of_nat 32) with UUID_SHORT_STR_LEN in H.
  change UUID_ALEN with 16 in *. rewrite H. cbn [obind]. rewrite skipn_all2 by lia. now rewrite app_nil_r.
Qed.
Lemma from_short h post u0 : length h = 32%nat -> Forall ishex h -> length u0 = 16%nat ->
  exists u, unhex h = Some u /\ length u = 16%nat /\ bytes u /\ fromstr (h ++ 0 :: post) u0 short_fmt = Ok (0, u).
Proof.
  intros L F LU. destruct (unhex_hexs 16 h L F) as (u & E & L16 & B). exists u. split; [exact E|]. split; [exact L16|]. split; [exact B|].
  destruct (hexs_ok h F) as [NS C]. unfold fromstr. rewrite cstring_app by exact C.
  replace (zlen h =? UUID_SHORT_STR_LEN) with true by (unfold zlen; rewrite L; reflexivity). cbn [negb]. rewrite firstn_len by exact L.
  pose proof (h2b_ok h [] u u0 16 E) as H. unfold zlen in H. rewrite L16, LU, L, app_nil_r in H. specialize (H ltac:(lia)). change (Z.of_nat 32) with UUID_SHORT_STR_LEN in H.
  change UUID_ALEN with 16 in *. rewrite H. cbn [obind]. rewrite skipn_all2 by lia. now rewrite app_nil_r.
Qed.
Lemma from_62 a b post u0 : length a = 11%nat -> length b = 11%nat -> Forall isdig a -> Forall isdig b ->
  fromstr (a ++ b ++ post) u0 base62_fmt = Ok (0, split8 (val62 a mod 2 ^ 64) ++ split8 (val62 b mod 2 ^ 64)).
Proof.
  intros La Lb Da Db. unfold fromstr. rewrite decode62_ok by (try assumption; unfold SEG; lia). cbn [obind].
  replace (zlen (a ++ b ++ post) <? SEG) with false by (unfold zlen, SEG; rewrite app_length; lia). rewrite skipn_len by exact La. rewrite decode62_ok by (try assumption; unfold UUID_BASE62_STR_LEN; lia). reflexivity.
Qed.
Lemma from_62h a b post u0 : length a = 11%nat -> length b = 11%nat -> Forall isdig a -> Forall isdig b ->
  fromstr (rev a ++ b ++ post) u0 base62_hashable_fmt = Ok (0, split8 (val62 a mod 2 ^ 64) ++ split8 (val62 b mod 2 ^ 64)).
Proof.
  intros La Lb Da Db. unfold fromstr. assert (LR : length (rev a) = 11%nat) by (now rewrite rev_length).
  replace (zlen (rev a ++ b ++ post) <? SEG) with false by (unfold zlen, SEG; rewrite app_length; lia). rewrite firstn_len by exact LR. rewrite rev_involutive.
  pose proof (decode62_ok a [] SEG Da La ltac:(unfold SEG; lia)) as H. rewrite app_nil_r in H. rewrite H. cbn [obind].
  rewrite skipn_len by exact LR. rewrite decode62_ok by (try assumption; unfold UUID_BASE62_STR_LEN; lia). reflexivity.
Qed.

Lemma hextext_hex u : bytes u -> Forall ishex (hextext u).
Proof.
  induction 1 as [|b u B _ IH]; [constructor|]. unfold hextext in *. cbn [flat_map app]. unfold isbyte in B.
  assert (D : forall n, 0 <= n < 16 -> ishex (hexdigit n)).
  { intros n N. unfold ishex, hexval, hexdigit. destruct (n <? 10) eqn:E; repeat match goal with |- context [if ?b then _ else _] => destruct b eqn:? end; try discriminate; lia. }
  constructor; [apply D; lia|]. constructor; [apply D; lia|exact IH].
Qed.
Lemma round f u u0 post : format f -> bytes u -> length u = 16%nat -> length u0 = 16%nat -> fromstr (text f u ++ 0 :: post) u0 f = Ok (0, u).
Proof.
  intros F B L L0. destruct (halves u L) as [L1 L2].
  pose proof (join8_ok _ (bytes_firstn 8 u B) L1) as [_ R1]. pose proof (join8_ok _ (bytes_skipn 8 u B) L2) as [_ R2].
  assert (P : 2 ^ 64 < 62 ^ Z.of_nat 11) by reflexivity. 
  destruct (repr_val 11 (be (firstn 8 u))) as [V1 D1]; [lia|]. destruct (repr_val 11 (be (skipn 8 u))) as [V2 D2]; [lia|].
  pose proof (repr_length 11 (be (firstn 8 u))) as RL1. pose proof (repr_length 11 (be (skipn 8 u))) as RL2.
  assert (LH : length (hextext u) = 32%nat) by (rewrite hextext_length; lia).
  destruct f; [| | | |congruence]; cbn [text].
  - destruct (from_std (hextext u) post u0 LH (hextext_hex u B) L0) as (v & E & _ & _ & FS). rewrite unhex_hextext in E by exact B. injection E as <-. exact FS.
  - destruct (from_short (hextext u) post u0 LH (hextext_hex u B) L0) as (v & E & _ & _ & FS). rewrite unhex_hextext in E by exact B. injection E as <-. exact FS.
  - rewrite <- app_assoc. rewrite from_62 by assumption. rewrite V1, V2, !Z.mod_small by lia. rewrite !split8_ok by (try apply bytes_firstn; try apply bytes_skipn; assumption). now rewrite firstn_skipn.
  - rewrite <- app_assoc. rewrite from_62h by assumption. rewrite V1, V2, !Z.mod_small by lia. rewrite !split8_ok by (try apply bytes_firstn; try apply bytes_skipn; assumption). now rewrite firstn_skipn.
Qed.

(** validation *)
Definition wellformed (f : fmt) (s : list Z) : Prop :=
  match f with
  | std_fmt => exists h, length h = 32%nat /\ Forall ishex h /\ s = std_text h
  | short_fmt => length s = 32%nat /\ Forall ishex s
  | base62_fmt | base62_hashable_fmt => length s = 22%nat /\ Forall isdig s
  | other => False
  end.
Lemma valid_hex c : c <> 0 -> strchr_b VALID_CHARS c = true <-> ishex c.
Proof.
  intros N. unfold strchr_b. replace (c =? 0) with false by lia. cbn [orb]. unfold ishex, hexval. split.
  - intros H. apply inset_In in H. cbn [VALID_CHARS In] in H. repeat (destruct H as [<-|H]; [discriminate|]). contradiction.
  - intros H. apply inset_In. unfold VALID_CHARS. cbn [In]. destruct ((48 <=? c) && (c <=? 57)) eqn:E1; [lia|]. destruct ((65 <=? c) && (c <=? 70)) eqn:E2; [lia|]. destruct ((97 <=? c) && (c <=? 102)) eqn:E3; [lia|congruence].
Qed.
Lemma valid_62 c : c <> 0 -> strchr_b (removelast base62_alphabet) c = true <-> isdig c.
Proof.
  intros N. unfold strchr_b. replace (c =? 0) with false by lia. cbn [orb]. unfold isdig, digit62. change (removelast base62_alphabet) with (map (fun i => 48 + Z.of_nat i) (seq 0 10) ++ map (fun i => 97 + Z.of_nat i) (seq 0 26) ++ map (fun i => 65 + Z.of_nat i) (seq 0 26)).
  rewrite inset_In, !in_app_iff, !in_map_iff. split.
  - intros H. assert (C : 48 <= c <= 57 \/ 97 <= c <= 122 \/ 65 <= c <= 90). { destruct H as [(i & <- & I)|[(i & <- & I)|(i & <- & I)]]; apply in_seq in I; lia. }
    destruct ((48 <=? c) && (c <=? 57)) eqn:E1; [discriminate|]. destruct ((97 <=? c) && (c <=? 122)) eqn:E2; [discriminate|]. destruct ((65 <=? c) && (c <=? 90)) eqn:E3; [discriminate|lia].
  - intros H. destruct ((48 <=? c) && (c <=? 57)) eqn:E1; [left; exists (Z.to_nat (c - 48)); rewrite in_seq; lia|].
    destruct ((97 <=? c) && (c <=? 122)) eqn:E2; [right; left; exists (Z.to_nat (c - 97)); rewrite in_seq; lia|]. destruct ((65 <=? c) && (c <=? 90)) eqn:E3; [right; right; exists (Z.to_nat (c - 65)); rewrite in_seq; lia|congruence].
Qed.
Lemma chars_all f (P : Z -> Prop) : (forall i c, c <> 0 -> char_ok f i c = true <-> P c) -> forall s i, cstr s -> chars_ok f i s = true <-> Forall P s.
Proof.
  intros H. induction s as [|c s IH]; intros i C; cbn [chars_ok]; [split; [constructor|reflexivity]|]. inversion C; subst. rewrite andb_true_iff, H, IH by (lia || assumption). split; [intros [? ?]; now constructor|intros X; inversion X; now split].
Qed.
Lemma chars_std s : length s = 36%nat -> cstr s -> chars_ok std_fmt 0 s = true <-> exists h, length h = 32%nat /\ Forall ishex h /\ s = std_text h.
Proof.
  intros L C. split.
  - intros H. do 36 (destruct s as [|? s]; [discriminate L|]). destruct s; [|discriminate L]. 
    repeat match goal with H : cstr (_ :: _) |- _ => unfold cstr in H | H : Forall _ (_ :: _) |- _ => inversion H; clear H; subst | H : Forall _ [] |- _ => clear H end.
    cbn [chars_ok char_ok Nat.eqb orb] in H. repeat (apply andb_true_iff in H; destruct H as [? H]). 
    repeat match goal with A : 0 < ?c < 256, B : strchr_b VALID_CHARS ?c = true |- _ => apply (valid_hex c ltac:(lia)) in B end.
    repeat match goal with B : (?c =? 45) = true |- _ => apply Z.eqb_eq in B end. subst.
    match goal with |- exists h, _ /\ _ /\ [?a1; ?a2; ?a3; ?a4; ?a5; ?a6; ?a7; ?a8; _; ?b1; ?b2; ?b3; ?b4; _; ?c1; ?c2; ?c3; ?c4; _; ?d1; ?d2; ?d3; ?d4; _; ?e1; ?e2; ?e3; ?e4; ?e5; ?e6; ?e7; ?e8; ?e9; ?e10; ?e11; ?e12] = _ =>
      exists [a1; a2; a3; a4; a5; a6; a7; a8; b1; b2; b3; b4; c1; c2; c3; c4; d1; d2; d3; d4; e1; e2; e3; e4; e5; e6; e7; e8; e9; e10; e11; e12] end.
    split; [reflexivity|]. split; [repeat constructor; assumption|reflexivity].
  - intros (h & LH & F & E). rewrite E. clear s L C E. do 32 (destruct h as [|? h]; [discriminate LH|]). destruct h; [|discriminate LH].
    repeat match goal with H : Forall _ (_ :: _) |- _ => inversion H; clear H; subst end. 
    assert (V : forall c, ishex c -> strchr_b VALID_CHARS c = true) by (intros c X; apply valid_hex; [destruct (hex_nospace c X); lia|exact X]).
    unfold std_text, sub. cbn [skipn firstn app]. cbn [chars_ok char_ok Nat.eqb orb]. rewrite !V by assumption. reflexivity.
Qed.
Lemma isvalid_ok f s post : cstr s -> isvalid (s ++ 0 :: post) f = 0 <-> wellformed f s.
Proof.
  intros C. unfold isvalid. rewrite cstring_app by exact C. cbv zeta.
  assert (K : forall n (P : Prop), (length s = n -> (chars_ok f 0 s = true <-> P)) -> (P -> length s = n) -> (if negb (zlen s =? Z.of_nat n) then -1 else if chars_ok f 0 s then 0 else -1) = 0 <-> P).
  { intros n P H LP. unfold zlen. destruct (Z.eqb_spec (Z.of_nat (length s)) (Z.of_nat n)) as [E|E]; cbn [negb].
    - specialize (H ltac:(lia)). destruct (chars_ok f 0 s); split; intros X; try reflexivity; try discriminate; [apply H; reflexivity|]. apply H in X. discriminate.
    - split; [discriminate|]. intros X. apply LP in X. lia. }
  destruct f; cbn [wellformed].
  - apply (K 36%nat); [intros L; apply chars_std; assumption|]. intros (h & LH & _ & ->). apply std_length, LH.
  - apply (K 32%nat); [|intros X; apply X]. intros L. rewrite (chars_all short_fmt ishex) by (try exact C; intros i c N; cbn [char_ok]; apply valid_hex, N). tauto.
  - apply (K 22%nat); [|intros X; apply X]. intros L. rewrite (chars_all base62_fmt isdig) by (try exact C; intros i c N; cbn [char_ok]; apply valid_62, N). tauto.
  - apply (K 22%nat); [|intros X; apply X]. intros L. rewrite (chars_all base62_hashable_fmt isdig) by (try exact C; intros i c N; cbn [char_ok]; apply valid_62, N). tauto.
  - split; [discriminate|contradiction].
Qed.
Lemma text_wellformed f u : format f -> bytes u -> length u = 16%nat -> wellformed f (text f u) /\ cstr (text f u).
Proof.
  intros F B L. destruct (halves u L) as [L1 L2].
  pose proof (join8_ok _ (bytes_firstn 8 u B) L1) as [_ R1]. pose proof (join8_ok _ (bytes_skipn 8 u B) L2) as [_ R2].
  assert (P : 2 ^ 64 < 62 ^ Z.of_nat 11) by reflexivity. 
  destruct (repr_val 11 (be (firstn 8 u))) as [V1 D1]; [lia|]. destruct (repr_val 11 (be (skipn 8 u))) as [V2 D2]; [lia|].
  assert (LH : length (hextext u) = 32%nat) by (rewrite hextext_length; lia). pose proof (hextext_hex u B) as HH.
  assert (DC : forall s, Forall isdig s -> cstr s). { intros s H. eapply Forall_impl; [|exact H]. intros c X. unfold isdig, digit62 in X. cbv beta. destruct ((48 <=? c) && (c <=? 57)) eqn:E1; [lia|]. destruct ((97 <=? c) && (c <=? 122)) eqn:E2; [lia|]. destruct ((65 <=? c) && (c <=? 90)) eqn:E3; [lia|congruence]. }
  destruct f; [| | | |congruence]; cbn [text wellformed].
  - split; [exists (hextext u); auto|]. apply cstr_std. apply (hexs_ok _ HH).
  - split; [auto|]. apply (hexs_ok _ HH).
  - assert (D : Forall isdig (repr 11 (be (firstn 8 u)) ++ repr 11 (be (skipn 8 u)))) by (apply Forall_app; auto). split; [split; [rewrite app_length, !repr_length; reflexivity|exact D]|apply DC, D].
  - assert (D : Forall isdig (rev (repr 11 (be (firstn 8 u))) ++ repr 11 (be (skipn 8 u)))) by (apply Forall_app; split; [apply Forall_rev, D1|exact D2]). split; [split; [rewrite app_length, rev_length, !repr_length; reflexivity|exact D]|apply DC, D].
Qed.
