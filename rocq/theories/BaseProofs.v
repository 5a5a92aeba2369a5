From Verif Require Import BaseModel BaseSpec BaseBits.
Open Scope Z_scope.

Lemma take_in_ok n a r : length a = n -> take_in n (a ++ r) = Ok (a, r).
Proof.
  intros <-. unfold take_in. rewrite app_length. destruct (Nat.leb_spec (length a) (length a + length r)); [|lia].
  rewrite firstn_app, skipn_app, Nat.sub_diag, firstn_all, skipn_all. cbn. now rewrite app_nil_r.
Qed.

Lemma split_n {A} n (l : list A) : (n <= length l)%nat -> exists a r, l = a ++ r /\ length a = n.
Proof. intros H. exists (firstn n l), (skipn n l). rewrite firstn_skipn, firstn_length. split; [reflexivity|lia]. Qed.

Lemma digits_range_app k l1 l2 : digits k l1 = l2 -> Forall (fun v => 0 <= v < 2 ^ Z.of_nat k) l2.
Proof. intros <-. apply digits_range. Qed.

Lemma enc64_loop_ok d : In d shipped -> obits d = 6%nat -> forall lcnt inp rest, bytes (inp ++ rest) -> length inp = (3 * lcnt)%nat ->
  enc64_loop d lcnt (inp ++ rest) = Ok (map (symbol d) (digits 6 inp), rest) /\
  digits 6 (inp ++ rest) = digits 6 inp ++ digits 6 rest.
Proof.
  intros Hd Ho. induction lcnt as [|n IH]; intros inp rest Hb Hl.
  - destruct inp; [|simpl in Hl; lia]. cbn. auto.
  - do 3 (destruct inp as [|? inp]; [simpl in Hl; lia|]). rename z into b0, z0 into b1, z1 into b2.
    simpl in Hl. cbn [app] in Hb |- *.
    inversion Hb as [|? ? B0 Hb1]; subst. inversion Hb1 as [|? ? B1 Hb2]; subst. inversion Hb2 as [|? ? B2 Hb3]; subst.
    destruct (IH inp rest Hb3 ltac:(lia)) as [E1 E2].
    rewrite !digits64_group by assumption. rewrite E2. split; [|now rewrite app_assoc].
    cbn [enc64_loop]. change (b0 :: b1 :: b2 :: inp ++ rest) with ([b0; b1; b2] ++ inp ++ rest).
    rewrite take_in_ok by reflexivity. cbn [obind nth].
    rewrite alphas_symbols; [|exact Hd|].
    + cbn [obind]. rewrite E1. cbn [obind]. now rewrite map_app.
    + rewrite Ho. pose proof (digits_range 6 [b0; b1; b2]) as R. rewrite digits64_group in R by assumption.
      rewrite digits_nil, app_nil_r in R. exact R.
Qed.

Lemma enc32_loop_ok d : In d shipped -> obits d = 5%nat -> forall lcnt inp rest, bytes (inp ++ rest) -> length inp = (5 * lcnt)%nat ->
  enc32_loop d lcnt (inp ++ rest) = Ok (map (symbol d) (digits 5 inp), rest) /\
  digits 5 (inp ++ rest) = digits 5 inp ++ digits 5 rest.
Proof.
  intros Hd Ho. induction lcnt as [|n IH]; intros inp rest Hb Hl.
  - destruct inp; [|simpl in Hl; lia]. cbn. auto.
  - destruct inp as [|b0 inp]; [simpl in Hl; lia|]. destruct inp as [|b1 inp]; [simpl in Hl; lia|].
    destruct inp as [|b2 inp]; [simpl in Hl; lia|]. destruct inp as [|b3 inp]; [simpl in Hl; lia|].
    destruct inp as [|b4 inp]; [simpl in Hl; lia|].
    simpl in Hl. cbn [app] in Hb |- *.
    inversion Hb as [|? ? B0 Hb1]; subst. inversion Hb1 as [|? ? B1 Hb2]; subst. inversion Hb2 as [|? ? B2 Hb3]; subst.
    inversion Hb3 as [|? ? B3 Hb4]; subst. inversion Hb4 as [|? ? B4 Hb5]; subst.
    destruct (IH inp rest Hb5 ltac:(lia)) as [E1 E2].
    rewrite !digits32_group by assumption. rewrite E2. split; [|now rewrite app_assoc].
    cbn [enc32_loop]. change (b0 :: b1 :: b2 :: b3 :: b4 :: inp ++ rest) with ([b0; b1; b2; b3; b4] ++ inp ++ rest).
    rewrite take_in_ok by reflexivity. cbn [obind nth].
    rewrite alphas_symbols; [|exact Hd|].
    + cbn [obind]. rewrite E1. cbn [obind]. now rewrite map_app.
    + rewrite Ho. pose proof (digits_range 5 [b0; b1; b2; b3; b4]) as R. rewrite digits32_group in R by assumption.
      rewrite digits_nil, app_nil_r in R. exact R.
Qed.

Lemma encode16_ok d : In d shipped -> obits d = 4%nat -> forall inp, bytes inp ->
  encode16 d inp (length inp) = Ok (map (symbol d) (digits 4 inp)).
Proof.
  intros Hd Ho. induction inp as [|b inp IH]; intros Hb; cbn [encode16 length]; [reflexivity|].
  inversion Hb as [|? ? B Hb']; subst. change (b :: inp) with ([b] ++ inp) at 1.
  rewrite take_in_ok by reflexivity. cbn [obind nth].
  rewrite alphas_symbols; [|exact Hd|].
  - cbn [obind]. rewrite IH by exact Hb'. cbn [obind]. rewrite digits16_group by exact B. now rewrite map_app.
  - rewrite Ho. pose proof (digits_range 4 [b]) as R. rewrite digits16_group in R by assumption.
    rewrite digits_nil, app_nil_r in R. exact R.
Qed.

(** The three shapes of shipped definitions. *)
Lemma shipped_shape d : In d shipped -> padc d = 61 /\ valid_dictionary d = true /\
  ((base d = 64%nat /\ obits d = 6%nat /\ igroups d = 3%nat /\ ogroups d = 4%nat) \/
   (base d = 32%nat /\ obits d = 5%nat /\ igroups d = 5%nat /\ ogroups d = 8%nat /\ with_padding d = true) \/
   (base d = 16%nat /\ obits d = 4%nat /\ igroups d = 1%nat /\ ogroups d = 2%nat)).
Proof.
  intros H. unfold shipped in H. cbn [In] in H.
  repeat (destruct H as [<-|H]; [split; [reflexivity|]; split; [reflexivity|]; auto 10|]). contradiction.
Qed.

(** Split the input into whole groups and a tail. *)
Lemma split_groups g (inp : list Z) : (0 < g)%nat -> exists a r, inp = a ++ r /\
  length a = (g * (length inp / g))%nat /\ length r = (length inp mod g)%nat.
Proof.
  intros Hg. exists (firstn (g * (length inp / g)) inp), (skipn (g * (length inp / g)) inp).
  rewrite firstn_skipn, firstn_length, skipn_length.
  pose proof (Nat.div_mod (length inp) g ltac:(lia)). repeat split; lia.
Qed.

Lemma ndigits k l : (0 < k)%nat -> (length (digits k l) = (8 * length l + k - 1) / k)%nat.
Proof.
  intros Hk. destruct (digits_bits k l Hk) as (r & Hr & _ & E).
  apply Nat.div_unique with (r := (k - 1 - r)%nat); lia.
Qed.

Lemma len_symbols d l : length (map (symbol d) l) = length l.
Proof. apply map_length. Qed.

Ltac allpos H := rewrite ?len_symbols.

Lemma encode64_ok d inp : In d shipped -> base d = 64%nat -> bytes inp ->
  encode64 d inp (length inp / 3) (length inp mod 3) = Ok (rfc_encode d inp).
Proof.
  intros Hd Hb64 Hb. destruct (shipped_shape d Hd) as (Hpad & _ & [(_ & Ho & Hig & Hog)|[(X & _)|(X & _)]]); try congruence.
  destruct (split_groups 3 inp ltac:(lia)) as (a & r & E & La & Lr).
  assert (Hlen : length inp = (length a + length r)%nat) by (rewrite E, app_length; reflexivity).
  unfold encode64. replace (enc64_loop d (length inp / 3) inp) with (enc64_loop d (length inp / 3) (a ++ r)) by (rewrite <- E; reflexivity).
  destruct (enc64_loop_ok d Hd Ho (length inp / 3)%nat a r) as [E1 E2].
  { rewrite <- E. exact Hb. } { exact La. }
  rewrite E1. cbn [obind]. clear E1.
  assert (Hdig : digits 6 inp = digits 6 a ++ digits 6 r) by (rewrite E at 1; exact E2).
  unfold rfc_encode. rewrite Ho, Hdig, map_app, app_length, !map_length.
  assert (Da : length (digits 6 a) = (4 * (length inp / 3))%nat).
  { rewrite ndigits by lia. rewrite La. symmetry. apply Nat.div_unique with (r := 5%nat); lia. }
  rewrite Da, Hog. rewrite <- Lr.
  assert (Hbr : bytes r). { rewrite E in Hb. apply Forall_app in Hb. tauto. }
  assert (Hr3 : (length r < 3)%nat) by (rewrite Lr; apply Nat.mod_upper_bound; lia).
  unfold enc64_tail.
  destruct r as [|b0 [|b1 [|b2 r]]]; cbn [length] in *; try lia.
  - cbn [Nat.ltb Nat.leb]. cbn [obind digits_nil]. rewrite digits_nil. cbn [length map].
    rewrite Nat.add_0_r, (Nat.mul_comm 4), Nat.mod_mul by lia. cbn [Nat.sub]. rewrite Nat.mod_same by lia.
    cbn [repeat]. destruct (with_padding d); rewrite !app_nil_r; reflexivity.
  - apply Forall_cons_iff in Hbr. destruct Hbr as [B0 _].
    cbn [Nat.ltb Nat.leb obind take_in length firstn skipn nth].
    rewrite alphas_symbols; [|exact Hd|].
    2:{ rewrite Ho. pose proof (digits_range 6 [b0]) as R. rewrite digits64_1 in R by exact B0. exact R. }
    cbn [obind]. rewrite digits64_1 by exact B0. cbn [length Nat.sub].
    rewrite Hpad. 
    replace ((4 * (length inp / 3) + 2) mod 4)%nat with 2%nat by (rewrite Nat.add_comm, Nat.mul_comm, Nat.mod_add by lia; reflexivity).
    rewrite <- app_assoc. destruct (with_padding d); reflexivity.
  - apply Forall_cons_iff in Hbr. destruct Hbr as [B0 Hbr1]. apply Forall_cons_iff in Hbr1. destruct Hbr1 as [B1 _].
    cbn [Nat.ltb Nat.leb obind take_in length firstn skipn nth].
    pose proof (digits_range 6 [b0; b1]) as R. rewrite digits64_2 in R by assumption.
    apply Forall_cons_iff in R. destruct R as [R0 R']. apply Forall_cons_iff in R'. destruct R' as [R1 R''].
    rewrite alphas_symbols; [|exact Hd|rewrite Ho; constructor; [assumption|constructor; [assumption|constructor]]].
    cbn [obind]. rewrite alphas_symbols; [|exact Hd|rewrite Ho; exact R''].
    cbn [obind]. rewrite digits64_2 by assumption. cbn [length Nat.sub].
    rewrite Hpad.
    replace ((4 * (length inp / 3) + 3) mod 4)%nat with 3%nat by (rewrite Nat.add_comm, Nat.mul_comm, Nat.mod_add by lia; reflexivity).
    rewrite <- app_assoc. destruct (with_padding d); reflexivity.
Qed.

Lemma mod4k n c : (c < 4 -> (4 * n + c) mod 4 = c)%nat.
Proof. intros H. rewrite Nat.add_comm, Nat.mul_comm, Nat.mod_add by lia. now apply Nat.mod_small. Qed.
Lemma mod8k n c : (c < 8 -> (8 * n + c) mod 8 = c)%nat.
Proof. intros H. rewrite Nat.add_comm, Nat.mul_comm, Nat.mod_add by lia. now apply Nat.mod_small. Qed.

Lemma alphas_prefix d l1 l2 : In d shipped ->
  Forall (fun v => 0 <= v < 2 ^ Z.of_nat (obits d)) (l1 ++ l2) -> alphas d l1 = Ok (map (symbol d) l1).
Proof. intros Hd H. apply alphas_symbols; [exact Hd|]. apply Forall_app in H. tauto. Qed.
Lemma alphas_suffix d l1 l2 : In d shipped ->
  Forall (fun v => 0 <= v < 2 ^ Z.of_nat (obits d)) (l1 ++ l2) -> alphas d l2 = Ok (map (symbol d) l2).
Proof. intros Hd H. apply alphas_symbols; [exact Hd|]. apply Forall_app in H. tauto. Qed.

Lemma idx32_range b0 b1 b2 b3 b4 : 0 <= b0 < 256 -> 0 <= b1 < 256 -> 0 <= b2 < 256 -> 0 <= b3 < 256 -> 0 <= b4 < 256 ->
  Forall (fun v => 0 <= v < 2 ^ Z.of_nat 5) (idx32 b0 b1 b2 b3 b4).
Proof.
  intros. pose proof (digits_range 5 [b0; b1; b2; b3; b4]) as R. rewrite digits32_group in R by assumption.
  rewrite digits_nil, app_nil_r in R. exact R.
Qed.

(** All symbol lookups in the base-32 tail succeed. *)
Lemma idx32_alpha d b0 b1 b2 b3 b4 i v : In d shipped -> obits d = 5%nat ->
  0 <= b0 < 256 -> 0 <= b1 < 256 -> 0 <= b2 < 256 -> 0 <= b3 < 256 -> 0 <= b4 < 256 ->
  nth_error (idx32 b0 b1 b2 b3 b4) i = Some v -> alpha d v = Ok (symbol d v).
Proof.
  intros Hd Ho H0 H1 H2 H3 H4 E.
  pose proof (idx32_range b0 b1 b2 b3 b4 H0 H1 H2 H3 H4) as R. rewrite Forall_forall in R.
  apply (alpha_symbol d Hd). rewrite Ho. apply R. eapply nth_error_In; exact E.
Qed.

Lemma encode32_ok d inp : In d shipped -> base d = 32%nat -> bytes inp ->
  encode32 d inp (length inp / 5) (length inp mod 5) = Ok (rfc_encode d inp).
Proof.
  intros Hd Hb32 Hb. destruct (shipped_shape d Hd) as (Hpad & _ & [(X & _)|[(_ & Ho & Hig & Hog & Hwp)|(X & _)]]); try congruence.
  destruct (split_groups 5 inp ltac:(lia)) as (a & r & E & La & Lr).
  unfold encode32. replace (enc32_loop d (length inp / 5) inp) with (enc32_loop d (length inp / 5) (a ++ r)) by (rewrite <- E; reflexivity).
  destruct (enc32_loop_ok d Hd Ho (length inp / 5)%nat a r) as [E1 E2].
  { rewrite <- E. exact Hb. } { exact La. }
  rewrite E1. cbn [obind]. clear E1.
  assert (Hdig : digits 5 inp = digits 5 a ++ digits 5 r) by (rewrite E at 1; exact E2).
  unfold rfc_encode. rewrite Ho, Hdig, map_app, app_length, !map_length.
  assert (Da : length (digits 5 a) = (8 * (length inp / 5))%nat).
  { rewrite ndigits by lia. rewrite La. symmetry. apply Nat.div_unique with (r := 4%nat); lia. }
  rewrite Da, Hog. rewrite <- Lr. rewrite Hwp.
  assert (Hbr : bytes r). { rewrite E in Hb. apply Forall_app in Hb. tauto. }
  assert (Hr3 : (length r < 5)%nat) by (rewrite Lr; apply Nat.mod_upper_bound; lia).
  assert (Z0 : 0 <= 0 < 256) by lia.
  unfold enc32_tail. rewrite Hpad, Hwp.
  destruct r as [|b0 [|b1 [|b2 [|b3 [|b4 r]]]]]; cbn [length] in Hr3, Lr |- *; try lia.
  - cbn [Nat.ltb Nat.leb obind]. rewrite digits_nil. cbn [length map]. rewrite mod8k by lia. rewrite <- app_assoc. reflexivity.
  - apply Forall_cons_iff in Hbr. destruct Hbr as [B0 _].
    cbn [Nat.ltb Nat.leb obind cond_in take_in length firstn skipn nth alphas].
    rewrite !(idx32_alpha d b0 0 0 0 0 0) by (try assumption; reflexivity).
    rewrite !(idx32_alpha d b0 0 0 0 0 1) by (try assumption; reflexivity).
    cbn [obind]. rewrite digits32_1 by assumption. cbn [idx32 firstn length]. rewrite mod8k by lia.
    rewrite <- app_assoc. reflexivity.
  - apply Forall_cons_iff in Hbr. destruct Hbr as [B0 Hbr]. apply Forall_cons_iff in Hbr. destruct Hbr as [B1 Hbr].
    cbn [Nat.ltb Nat.leb obind cond_in take_in length firstn skipn nth alphas].
    rewrite !(idx32_alpha d b0 b1 0 0 0 0) by (try assumption; reflexivity).
    rewrite !(idx32_alpha d b0 b1 0 0 0 1) by (try assumption; reflexivity).
    rewrite !(idx32_alpha d b0 b1 0 0 0 2) by (try assumption; reflexivity).
    rewrite !(idx32_alpha d b0 b1 0 0 0 3) by (try assumption; reflexivity).
    cbn [obind]. rewrite digits32_2 by assumption. cbn [idx32 firstn length]. rewrite mod8k by lia.
    rewrite <- app_assoc. reflexivity.
  - apply Forall_cons_iff in Hbr. destruct Hbr as [B0 Hbr]. apply Forall_cons_iff in Hbr. destruct Hbr as [B1 Hbr].
    apply Forall_cons_iff in Hbr. destruct Hbr as [B2 Hbr].
    cbn [Nat.ltb Nat.leb obind cond_in take_in length firstn skipn nth alphas].
    rewrite !(idx32_alpha d b0 b1 b2 0 0 0) by (try assumption; reflexivity).
    rewrite !(idx32_alpha d b0 b1 b2 0 0 1) by (try assumption; reflexivity).
    rewrite !(idx32_alpha d b0 b1 b2 0 0 2) by (try assumption; reflexivity).
    rewrite !(idx32_alpha d b0 b1 b2 0 0 3) by (try assumption; reflexivity).
    rewrite !(idx32_alpha d b0 b1 b2 0 0 4) by (try assumption; reflexivity).
    cbn [obind]. rewrite digits32_3 by assumption. cbn [idx32 firstn length]. rewrite mod8k by lia.
    rewrite <- app_assoc. reflexivity.
  - apply Forall_cons_iff in Hbr. destruct Hbr as [B0 Hbr]. apply Forall_cons_iff in Hbr. destruct Hbr as [B1 Hbr].
    apply Forall_cons_iff in Hbr. destruct Hbr as [B2 Hbr]. apply Forall_cons_iff in Hbr. destruct Hbr as [B3 Hbr].
    cbn [Nat.ltb Nat.leb obind cond_in take_in length firstn skipn nth alphas].
    rewrite !(idx32_alpha d b0 b1 b2 b3 0 0) by (try assumption; reflexivity).
    rewrite !(idx32_alpha d b0 b1 b2 b3 0 1) by (try assumption; reflexivity).
    rewrite !(idx32_alpha d b0 b1 b2 b3 0 2) by (try assumption; reflexivity).
    rewrite !(idx32_alpha d b0 b1 b2 b3 0 3) by (try assumption; reflexivity).
    rewrite !(idx32_alpha d b0 b1 b2 b3 0 4) by (try assumption; reflexivity).
    rewrite !(idx32_alpha d b0 b1 b2 b3 0 5) by (try assumption; reflexivity).
    rewrite !(idx32_alpha d b0 b1 b2 b3 0 6) by (try assumption; reflexivity).
    cbn [obind]. rewrite digits32_4 by assumption. cbn [idx32 firstn length]. rewrite mod8k by lia.
    rewrite <- app_assoc. reflexivity.
Qed.

Lemma encode_core_ok d inp : In d shipped -> bytes inp -> encode_core d inp = Some (Ok (rfc_encode d inp)).
Proof.
  intros Hd Hb. unfold encode_core.
  destruct (shipped_shape d Hd) as (Hpad & _ & [(Hba & Ho & Hig & Hog)|[(Hba & Ho & Hig & Hog & Hwp)|(Hba & Ho & Hig & Hog)]]);
    rewrite Hba, Hig; f_equal.
  - now apply encode64_ok.
  - now apply encode32_ok.
  - rewrite Nat.div_1_r. rewrite encode16_ok by assumption. unfold rfc_encode. rewrite Ho, Hog.
    rewrite map_length. assert (D : length (digits 4 inp) = (2 * length inp)%nat).
    { rewrite ndigits by lia. symmetry. apply Nat.div_unique with (r := 3%nat); lia. }
    rewrite D. replace ((2 * length inp) mod 2)%nat with 0%nat by (rewrite Nat.mul_comm, Nat.mod_mul; lia).
    change ((2 - 0) mod 2)%nat with 0%nat. cbn [repeat]. destruct (with_padding d); now rewrite app_nil_r.
Qed.

Lemma rfc_length d inp : In d shipped -> length (rfc_encode d inp) = enc_size d (length inp).
Proof.
  intros Hd. unfold rfc_encode, enc_size. rewrite app_length, map_length.
  destruct (shipped_shape d Hd) as (_ & _ & [(Hba & Ho & Hig & Hog)|[(Hba & Ho & Hig & Hog & Hwp)|(Hba & Ho & Hig & Hog)]]);
    rewrite Ho, Hig, Hog; rewrite ndigits by lia; set (n := length inp).
  - assert (E : n = (3 * (n / 3) + n mod 3)%nat) by (apply Nat.div_mod; lia).
    assert (n mod 3 < 3)%nat by (apply Nat.mod_upper_bound; lia).
    set (q := (n / 3)%nat) in *. set (m := (n mod 3)%nat) in *. 
    assert (M : m = 0%nat \/ m = 1%nat \/ m = 2%nat) by lia.
    destruct M as [M|[M|M]]; rewrite M in *; 
      [replace ((8 * n + 6 - 1) / 6)%nat with (4 * q + 0)%nat by (apply Nat.div_unique with (r := 5%nat); lia)
      |replace ((8 * n + 6 - 1) / 6)%nat with (4 * q + 2)%nat by (apply Nat.div_unique with (r := 1%nat); lia)
      |replace ((8 * n + 6 - 1) / 6)%nat with (4 * q + 3)%nat by (apply Nat.div_unique with (r := 3%nat); lia)];
      rewrite mod4k by lia; destruct (with_padding d); rewrite ?repeat_length; cbn; lia.
  - rewrite Hwp. assert (E : n = (5 * (n / 5) + n mod 5)%nat) by (apply Nat.div_mod; lia).
    assert (n mod 5 < 5)%nat by (apply Nat.mod_upper_bound; lia).
    set (q := (n / 5)%nat) in *. set (m := (n mod 5)%nat) in *. 
    assert (M : m = 0%nat \/ m = 1%nat \/ m = 2%nat \/ m = 3%nat \/ m = 4%nat) by lia.
    destruct M as [M|[M|[M|[M|M]]]]; rewrite M in *; 
      [replace ((8 * n + 5 - 1) / 5)%nat with (8 * q + 0)%nat by (apply Nat.div_unique with (r := 4%nat); lia)
      |replace ((8 * n + 5 - 1) / 5)%nat with (8 * q + 2)%nat by (apply Nat.div_unique with (r := 2%nat); lia)
      |replace ((8 * n + 5 - 1) / 5)%nat with (8 * q + 4)%nat by (apply Nat.div_unique with (r := 0%nat); lia)
      |replace ((8 * n + 5 - 1) / 5)%nat with (8 * q + 5)%nat by (apply Nat.div_unique with (r := 3%nat); lia)
      |replace ((8 * n + 5 - 1) / 5)%nat with (8 * q + 7)%nat by (apply Nat.div_unique with (r := 1%nat); lia)];
      rewrite mod8k by lia; rewrite ?repeat_length; cbn; lia.
  - rewrite Nat.div_1_r, Nat.mod_1_r.
    replace ((8 * n + 4 - 1) / 4)%nat with (n * 2)%nat by (apply Nat.div_unique with (r := 3%nat); lia).
    replace ((n * 2) mod 2)%nat with 0%nat by (rewrite Nat.mod_mul; lia).
    change ((2 - 0) mod 2)%nat with 0%nat. cbn [repeat length].
    change ((8 * 0) / 4)%nat with 0%nat. cbn [Nat.ltb Nat.leb]. destruct (with_padding d); cbn [length]; lia.
Qed.
