(** Hexadecimal conversion and itoa. *)
From Verif Require Import Prelude CstrModel CstrSpec CstrProofs CstrSearch CstrText.
Open Scope Z_scope.

(** *** hex specification *)
Definition hexdigit (n : Z) : Z := if n <? 10 then 48 + n else 87 + n.
Definition hextext (data : list Z) : list Z := flat_map (fun b => [hexdigit (b / 16); hexdigit (b mod 16)]) data.
(** value of a hexadecimal digit of either case *)
Definition hexval (c : Z) : option Z :=
  if (48 <=? c) && (c <=? 57) then Some (c - 48)
  else if (65 <=? c) && (c <=? 70) then Some (c - 55)
  else if (97 <=? c) && (c <=? 102) then Some (c - 87) else None.
(** bytes denoted by an even number of digits *)
Fixpoint unhex (t : list Z) : option (list Z) :=
  match t with
  | [] => Some []
  | a :: b :: r => match hexval a, hexval b, unhex r with
                   | Some x, Some y, Some l => Some (16 * x + y :: l)
                   | _, _, _ => None
                   end
  | _ => None
  end.

Lemma unhex_step a b r : unhex (a :: b :: r) = match hexval a, hexval b, unhex r with
                   | Some x, Some y, Some l => Some (16 * x + y :: l)
                   | _, _, _ => None
                   end.
Proof. reflexivity. Qed.

Lemma nibble_digit n : 0 <= n < 16 -> nth (Z.to_nat n) HEX_DIGITS 0 = hexdigit n.
Proof.
  intros H. assert (In n (map Z.of_nat (seq 0 16))) as Hin.
  { apply in_map_iff. exists (Z.to_nat n). split; [lia|apply in_seq; lia]. }
  cbn in Hin. repeat (destruct Hin as [<-|Hin]; [reflexivity|]). destruct Hin.
Qed.
Lemma high_nibble b : 0 <= b < 256 -> Z.land (Z.shiftr b 4) 15 = b / 16.
Proof.
  intros H. change 15 with (Z.ones 4). rewrite Z.land_ones by lia. rewrite Z.shiftr_div_pow2 by lia.
  change (2 ^ 4) with 16. apply Z.mod_small. lia.
Qed.
Lemma low_nibble b : Z.land b 15 = b mod 16.
Proof. change 15 with (Z.ones 4). now rewrite Z.land_ones by lia. Qed.

Lemma hextext_app a b : hextext (a ++ b) = hextext a ++ hextext b.
Proof. unfold hextext. apply flat_map_app. Qed.
Lemma hextext_length a : length (hextext a) = (2 * length a)%nat.
Proof. induction a as [|x a IH]; [reflexivity|]. unfold hextext in *. cbn [flat_map app length]. lia. Qed.

Lemma upd_at2 {A} (a : list A) x y r u v : upd (upd (a ++ x :: y :: r) (length a) u) (length a + 1) v = a ++ u :: v :: r.
Proof.
  rewrite upd_mid. replace (a ++ u :: y :: r) with ((a ++ [u]) ++ y :: r) by (rewrite <- app_assoc; reflexivity).
  replace (length a + 1)%nat with (length (a ++ [u])) by (rewrite app_length; reflexivity).
  rewrite upd_mid, <- app_assoc. reflexivity.
Qed.

(** loop invariant: the first n bytes are done *)
Lemma b2h_loop_ok data dlen hlen : forall fuel n done rest,
  bytes data -> 0 <= n -> dlen <= zlen data -> (Z.to_nat (dlen - n) <= fuel)%nat ->
  let N := Z.max n (Z.min dlen ((hlen + 1) / 2)) in
  zlen done = 2 * n -> 2 * (N - n) <= zlen rest ->
  b2h_loop data n dlen hlen fuel (Some (done ++ rest)) =
    Ok (2 * N, Some (done ++ hextext (firstn (Z.to_nat (N - n)) (skipn (Z.to_nat n) data)) ++ skipn (Z.to_nat (2 * (N - n))) rest)).
Proof.
  induction fuel as [|f IH]; intros n done rest Hb Hn Hd Hf N Hdone Hrest; cbn [b2h_loop].
  - replace ((n <? dlen) && (n * 2 <? hlen)) with false by lia.
    assert (EN : N = n) by lia. rewrite EN. replace (Z.to_nat (n - n)) with O by lia.
    replace (Z.to_nat (2 * (n - n))) with O by lia. rewrite (Z.mul_comm n 2). reflexivity.
  - destruct ((n <? dlen) && (n * 2 <? hlen)) eqn:C.
    + replace (n <? zlen data) with true by lia. cbn [safe obind].
      assert (Hc : 0 <= nth (Z.to_nat n) data 0 < 256).
      { unfold bytes in Hb. rewrite Forall_forall in Hb. apply Hb, nth_In. unfold zlen in *. lia. }
      set (c := nth (Z.to_nat n) data 0) in *.
      rewrite high_nibble, low_nibble, !nibble_digit by (try assumption; lia).
      assert (HN1 : n + 1 <= N) by lia.
      destruct rest as [|x [|y rest]]; [unfold zlen in Hrest; cbn [length] in Hrest; lia|unfold zlen in Hrest; cbn [length] in Hrest; lia|].
      rewrite mset_ok by (rewrite zlen_app; unfold zlen in *; cbn [length] in *; lia). cbn [obind].
      rewrite mset_ok by (unfold zlen in *; rewrite upd_length, app_length; cbn [length] in *; lia). cbn [obind].
      replace (Z.to_nat (2 * n)) with (length done) by (unfold zlen in *; lia).
      replace (Z.to_nat (2 * n + 1)) with (length done + 1)%nat by (unfold zlen in *; lia).
      rewrite upd_at2.
      replace (done ++ hexdigit (c / 16) :: hexdigit (c mod 16) :: rest) with ((done ++ hextext [c]) ++ rest)
        by (rewrite <- app_assoc; reflexivity).
      assert (EN : N = Z.max (n + 1) (Z.min dlen ((hlen + 1) / 2))) by lia.
      rewrite IH; try assumption; try lia.
      * rewrite <- EN. rewrite <- app_assoc. do 2 f_equal. f_equal.
        rewrite (nth_skipn_cons data (Z.to_nat n) 0) by (unfold zlen in *; lia). fold c.
        replace (Z.to_nat (N - n)) with (S (Z.to_nat (N - (n + 1)))) by lia. cbn [firstn].
        replace (S (Z.to_nat n)) with (Z.to_nat (n + 1)) by lia.
        replace (Z.to_nat (2 * (N - n))) with (S (S (Z.to_nat (2 * (N - (n + 1)))))) by lia. reflexivity.
      * rewrite zlen_app. change (zlen (hextext [c])) with 2. lia.
      * rewrite <- EN. unfold zlen in *; cbn [length] in *; lia.
    + assert (EN : N = n) by lia. rewrite EN. replace (Z.to_nat (n - n)) with O by lia.
      replace (Z.to_nat (2 * (n - n))) with O by lia. rewrite (Z.mul_comm n 2). reflexivity.
Qed.
Lemma b2h_null data dlen hlen : forall fuel n, 0 <= n -> dlen <= zlen data -> (Z.to_nat (dlen - n) <= fuel)%nat ->
  b2h_loop data n dlen hlen fuel None = Ok (2 * Z.max n (Z.min dlen ((hlen + 1) / 2)), None).
Proof.
  induction fuel as [|f IH]; intros n Hn Hd Hf; cbn [b2h_loop].
  - replace ((n <? dlen) && (n * 2 <? hlen)) with false by lia. do 2 f_equal; lia.
  - destruct ((n <? dlen) && (n * 2 <? hlen)) eqn:C.
    + replace (n <? zlen data) with true by lia. cbn [safe obind]. rewrite IH by lia. do 2 f_equal; lia.
    + do 2 f_equal; lia.
Qed.

Lemma b2h_ok data hex hlen : bytes data -> 0 <= hlen -> 
  let N := Z.min (zlen data) ((hlen + 1) / 2) in 2 * N <= zlen hex ->
  zt_binary_to_hex data (zlen data) (Some hex) hlen =
    Ok (2 * N, Some (hextext (firstn (Z.to_nat N) data) ++ skipn (Z.to_nat (2 * N)) hex)).
Proof.
  intros Hb Hh N HN. unfold zt_binary_to_hex.
  pose proof (b2h_loop_ok data (zlen data) hlen (Z.to_nat (zlen data)) 0 [] hex Hb ltac:(lia) ltac:(lia) ltac:(lia)) as H.
  cbv zeta in H. pose proof (zlen_nonneg data). replace (Z.max 0 (Z.min (zlen data) ((hlen + 1) / 2))) with N in H by lia.
  cbn [app] in H. rewrite H by (try reflexivity; lia). cbn [Z.to_nat skipn]. rewrite Z.sub_0_r. reflexivity.
Qed.
Lemma b2h_size data hlen : 0 <= hlen ->
  zt_binary_to_hex data (zlen data) None hlen = Ok (2 * Z.min (zlen data) ((hlen + 1) / 2), None).
Proof.
  intros H. unfold zt_binary_to_hex. rewrite b2h_null by lia. pose proof (zlen_nonneg data). do 2 f_equal. lia.
Qed.

(** decoding *)
Lemma hex_to_char_val c : hex_to_char c = match hexval c with Some v => v | None => -1 end.
Proof. unfold hex_to_char, hexval. repeat match goal with |- context [if ?b then _ else _] => destruct b end; reflexivity. Qed.
Lemma hexval_range c v : hexval c = Some v -> 0 <= v < 16 /\ c <> 0.
Proof.
  unfold hexval. repeat match goal with |- context [if ?b then _ else _] => destruct b eqn:? end; intros H; try discriminate H; injection H as <-; lia.
Qed.
Lemma join_nibbles x y : 0 <= x < 16 -> 0 <= y < 16 -> Z.lor (Z.shiftl x 4) (Z.land y 15) = 16 * x + y.
Proof.
  intros Hx Hy. rewrite low_nibble, Z.mod_small by lia. rewrite Z.shiftl_mul_pow2 by lia. change (2 ^ 4) with 16.
  replace (x * 16) with (Z.shiftl x 4) by (rewrite Z.shiftl_mul_pow2 by lia; reflexivity).
  assert (Hl : Z.land (Z.shiftl x 4) y = 0).
  { apply Z.bits_inj'. intros k Hk. rewrite Z.land_spec, Z.bits_0.
    destruct (Z_lt_le_dec k 4).
    - rewrite Z.shiftl_spec_low by lia. reflexivity.
    - assert (Z.testbit y k = false). 
      { destruct (Z.eq_dec y 0) as [->|]; [apply Z.bits_0|]. apply Z.bits_above_log2; [lia|].
        assert (Z.log2 y < 4) by (apply Z.log2_lt_pow2; lia). lia. }
      rewrite H. apply andb_false_r. }
  rewrite <- (Z.lxor_lor _ _ Hl). rewrite <- (Z.add_nocarry_lxor _ _ Hl). rewrite Z.shiftl_mul_pow2 by lia. change (2^4) with 16. lia.
Qed.
Lemma unhex_hextext l : bytes l -> unhex (hextext l) = Some l.
Proof.
  induction 1 as [|b l Hb Hl IH]; [reflexivity|]. unfold hextext in *. cbn [flat_map app]. rewrite unhex_step.
  assert (Hd : forall n, 0 <= n < 16 -> hexval (hexdigit n) = Some n).
  { intros n Hn. unfold hexval, hexdigit. destruct (n <? 10) eqn:E;
    repeat match goal with |- context [if ?b then _ else _] => destruct b eqn:? end; f_equal; lia. }
  rewrite !Hd by lia. rewrite IH. do 2 f_equal. lia.
Qed.
Lemma mrd_ok m i : 0 <= i < zlen m -> mrd m i = Ok (nth (Z.to_nat i) m 0).
Proof. intros H. unfold mrd. replace ((0 <=? i) && (i <? zlen m)) with true by lia. reflexivity. Qed.

Lemma nth_two (a r : list Z) x y : nth (length a) (a ++ x :: y :: r) 0 = x /\ nth (length a + 1) (a ++ x :: y :: r) 0 = y.
Proof.
  split; rewrite app_nth2 by lia; [rewrite Nat.sub_diag; reflexivity|].
  replace (length a + 1 - length a)%nat with 1%nat by lia. reflexivity.
Qed.

Lemma pair_ind (P : list Z -> Prop) : P [] -> (forall x, P [x]) -> (forall x y l, P l -> P (x :: y :: l)) -> forall l, P l.
Proof.
  intros H0 H1 H2. assert (forall l, P l /\ forall x, P (x :: l)) by (induction l as [|a l [IH1 IH2]]; split; auto).
  intros l. apply H.
Qed.

(** [ok t]: conversion of the text t, all hex digits, done so far = pre; d = out ++ old *)
Lemma h2b_some t : forall pre post dlen fuel l out old,
  unhex t = Some l -> zlen pre = 2 * zlen out -> (length t <= fuel)%nat ->
  zlen out + zlen l <= dlen -> zlen l <= zlen old ->
  h2b_loop fuel (pre ++ t ++ post) (zlen pre) (zlen pre + zlen t) (Some (out ++ old)) (zlen out) dlen =
   Ok (zlen out + zlen l, Some (out ++ l ++ skipn (length l) old)).
Proof.
  induction t as [|x|x y t IH] using pair_ind; intros pre post dlen fuel l out old Hu Hpre Hf Hd Ho.
  - injection Hu as <-. change (zlen (@nil Z)) with 0 in *. destruct fuel; cbn [h2b_loop];
    replace (negb (zlen pre <? zlen pre + 0)) with true by lia; cbn [length skipn app]; do 3 f_equal; lia.
  - discriminate.
  - rewrite unhex_step in Hu. destruct (hexval x) as [vx|] eqn:Ex; [|discriminate]. destruct (hexval y) as [vy|] eqn:Ey; [|discriminate].
    destruct (unhex t) as [l'|] eqn:Et; [|discriminate].
    assert (El : l = 16 * vx + vy :: l') by congruence. subst l. clear Hu.
    destruct fuel as [|f]; [cbn [length] in Hf; lia|]. cbn [h2b_loop].
    assert (Hz : zlen (x :: y :: t) = zlen t + 2) by (unfold zlen; cbn [length]; lia).
    assert (Hzl : zlen (16 * vx + vy :: l') = zlen l' + 1) by (unfold zlen; cbn [length]; lia).
    pose proof (zlen_nonneg t). pose proof (zlen_nonneg pre). pose proof (zlen_nonneg post). pose proof (zlen_nonneg l').
    replace (negb (zlen pre <? zlen pre + zlen (x :: y :: t))) with false by lia.
    assert (Hzz : zlen (pre ++ (x :: y :: t) ++ post) = zlen pre + zlen t + 2 + zlen post) by (rewrite !zlen_app; lia).
    cbn [app]. cbn [app] in Hzz. destruct (nth_two pre (t ++ post) x y) as (N1 & N2).
    rewrite !mrd_ok by lia. cbn [obind].
    replace (Z.to_nat (zlen pre)) with (length pre) by (unfold zlen; lia).
    replace (Z.to_nat (zlen pre + 1)) with (length pre + 1)%nat by (unfold zlen; lia).
    rewrite N1, N2. destruct (hexval_range _ _ Ex) as (Rx & Nx). destruct (hexval_range _ _ Ey) as (Ry & Ny).
    replace ((x =? 0) || negb (zlen out <? dlen)) with false by lia.
    rewrite !hex_to_char_val, Ex, Ey. replace (vx =? -1) with false by lia. replace (vy =? -1) with false by lia.
    rewrite join_nibbles by assumption.
    destruct old as [|o old]; [unfold zlen in *; cbn [length] in *; lia|].
    rewrite mset_ok by (rewrite zlen_app; unfold zlen in *; cbn [length] in *; lia). cbn [obind].
    replace (Z.to_nat (zlen out)) with (length out) by (unfold zlen; lia). rewrite upd_mid.
    replace (pre ++ x :: y :: t ++ post) with ((pre ++ [x; y]) ++ t ++ post) by (rewrite <- app_assoc; reflexivity).
    replace (out ++ 16 * vx + vy :: old) with ((out ++ [16 * vx + vy]) ++ old) by (rewrite <- app_assoc; reflexivity).
    replace (zlen pre + zlen (x :: y :: t)) with (zlen (pre ++ [x; y]) + zlen t) by (rewrite zlen_app; change (zlen [x; y]) with 2; lia).
    replace (zlen pre + 2) with (zlen (pre ++ [x; y])) by (rewrite zlen_app; reflexivity).
    replace (zlen out + 1) with (zlen (out ++ [16 * vx + vy])) by (rewrite zlen_app; reflexivity).
    rewrite (IH (pre ++ [x; y]) post dlen f l' (out ++ [16 * vx + vy]) old); try reflexivity.
    + rewrite zlen_app, zlen1. rewrite <- app_assoc. do 2 f_equal. lia.
    + rewrite !zlen_app. change (zlen [x; y]) with 2. rewrite zlen1. lia.
    + cbn [length] in Hf; lia.
    + rewrite zlen_app, zlen1. lia.
    + unfold zlen in *; cbn [length] in *; lia.
Qed.
Lemma h2b_bad t : forall pre post dlen fuel out old,
  Nat.even (length t) = true -> unhex t = None -> ~ In 0 t -> zlen pre = 2 * zlen out -> (length t <= fuel)%nat ->
  zlen out + zlen t / 2 <= dlen -> zlen t / 2 <= zlen old ->
  exists d, h2b_loop fuel (pre ++ t ++ post) (zlen pre) (zlen pre + zlen t) (Some (out ++ old)) (zlen out) dlen = Ok (0, Some d).
Proof.
  induction t as [|x|x y t IH] using pair_ind; intros pre post dlen fuel out old He Hu Hz0 Hpre Hf Hd Ho; [discriminate|discriminate|].
  destruct fuel as [|f]; [cbn [length] in Hf; lia|]. cbn [h2b_loop].
  assert (Hz : zlen (x :: y :: t) = zlen t + 2) by (unfold zlen; cbn [length]; lia).
  pose proof (zlen_nonneg t). pose proof (zlen_nonneg pre). pose proof (zlen_nonneg post).
  replace (negb (zlen pre <? zlen pre + zlen (x :: y :: t))) with false by lia.
  assert (Hzz : zlen (pre ++ (x :: y :: t) ++ post) = zlen pre + zlen t + 2 + zlen post) by (rewrite !zlen_app; lia).
  cbn [app]. cbn [app] in Hzz. destruct (nth_two pre (t ++ post) x y) as (N1 & N2).
  rewrite !mrd_ok by lia. cbn [obind].
  replace (Z.to_nat (zlen pre)) with (length pre) by (unfold zlen; lia).
  replace (Z.to_nat (zlen pre + 1)) with (length pre + 1)%nat by (unfold zlen; lia).
  rewrite N1, N2. cbn [In] in Hz0.
  replace ((x =? 0) || negb (zlen out <? dlen)) with false by lia.
  rewrite !hex_to_char_val. rewrite unhex_step in Hu.
  destruct (hexval x) as [vx|] eqn:Ex; [|eexists; reflexivity].
  destruct (hexval_range _ _ Ex) as (Rx & Nx). replace (vx =? -1) with false by lia.
  destruct (hexval y) as [vy|] eqn:Ey; [|eexists; reflexivity].
  destruct (hexval_range _ _ Ey) as (Ry & Ny). replace (vy =? -1) with false by lia.
  destruct (unhex t) as [l'|] eqn:Et; [discriminate|].
  rewrite join_nibbles by assumption.
  destruct old as [|o old]; [unfold zlen in Ho; cbn [length] in Ho; lia|].
  rewrite mset_ok by (rewrite zlen_app; unfold zlen in *; cbn [length] in *; lia). cbn [obind].
  replace (Z.to_nat (zlen out)) with (length out) by (unfold zlen; lia). rewrite upd_mid.
  replace (pre ++ x :: y :: t ++ post) with ((pre ++ [x; y]) ++ t ++ post) by (rewrite <- app_assoc; reflexivity).
  replace (out ++ 16 * vx + vy :: old) with ((out ++ [16 * vx + vy]) ++ old) by (rewrite <- app_assoc; reflexivity).
  replace (zlen pre + zlen (x :: y :: t)) with (zlen (pre ++ [x; y]) + zlen t) by (rewrite zlen_app; change (zlen [x; y]) with 2; lia).
  replace (zlen pre + 2) with (zlen (pre ++ [x; y])) by (rewrite zlen_app; reflexivity).
  replace (zlen out + 1) with (zlen (out ++ [16 * vx + vy])) by (rewrite zlen_app; reflexivity).
  apply (IH (pre ++ [x; y]) post dlen f (out ++ [16 * vx + vy]) old); auto.
  - rewrite !zlen_app. change (zlen [x; y]) with 2. rewrite zlen1. lia.
  - cbn [length] in Hf; lia.
  - rewrite zlen_app, zlen1. lia.
  - unfold zlen in *; cbn [length] in *; lia.
Qed.

Lemma h2b_ok t post l data dlen : unhex t = Some l -> zlen l <= dlen <= zlen data ->
  zt_hex_to_binary (t ++ post) (zlen t) (Some data) dlen = Ok (zlen l, Some (l ++ skipn (length l) data)).
Proof.
  intros Hu Hd. unfold zt_hex_to_binary.
  pose proof (h2b_some t [] post dlen (length (t ++ post)) l [] data Hu eq_refl) as H. cbn [app] in H.
  change (zlen (@nil Z)) with 0 in H. rewrite !Z.add_0_l in H. apply H; try lia. rewrite app_length. lia.
Qed.
Lemma h2b_reject t post data dlen : Nat.even (length t) = true -> unhex t = None -> ~ In 0 t -> zlen t / 2 <= dlen <= zlen data ->
  exists d, zt_hex_to_binary (t ++ post) (zlen t) (Some data) dlen = Ok (0, Some d).
Proof.
  intros He Hu H0 Hd. unfold zt_hex_to_binary.
  pose proof (h2b_bad t [] post dlen (length (t ++ post)) [] data He Hu H0 eq_refl) as H. cbn [app] in H.
  change (zlen (@nil Z)) with 0 in H. rewrite !Z.add_0_l in H. apply H; try lia. rewrite app_length. lia.
Qed.

(** *** decimal *)
Lemma digits_fuel f : forall f' n, 0 <= n -> n < 10 ^ Z.of_nat f -> n < 10 ^ Z.of_nat f' -> (0 < f)%nat -> (0 < f')%nat ->
  digits f n = digits f' n.
Proof.
  induction f as [|f IH]; intros [|f'] n Hn H1 H2 P1 P2; try lia. cbn [digits].
  destruct (n <? 10) eqn:E; [reflexivity|]. rewrite Nat2Z.inj_succ, Z.pow_succ_r in H1, H2 by lia.
  destruct f as [|f]; [cbn in H1; lia|]. destruct f' as [|f']; [cbn in H2; lia|].
  rewrite (IH (S f') (n / 10)); try lia. reflexivity.
Qed.
Lemma log2_fuel n : 0 <= n -> n < 10 ^ Z.of_nat (S (Z.to_nat (Z.log2 n))).
Proof.
  intros H. rewrite Nat2Z.inj_succ, Z2Nat.id by apply Z.log2_nonneg.
  apply Z.lt_le_trans with (2 ^ Z.succ (Z.log2 n)).
  - destruct (Z.eq_dec n 0) as [->|]; [reflexivity|]. apply Z.log2_spec. lia.
  - apply Z.pow_le_mono_l. lia.
Qed.
Definition absdigits (n : Z) : list Z := digits (S (Z.to_nat (Z.log2 n))) n.
Lemma absdigits_fuel f n : 0 <= n -> n < 10 ^ Z.of_nat f -> (0 < f)%nat -> digits f n = absdigits n.
Proof. intros. apply digits_fuel; try assumption; try lia. apply log2_fuel. assumption. Qed.
Lemma absdigits_step n : 0 <= n -> absdigits n = if n <? 10 then [48 + n] else absdigits (n / 10) ++ [48 + n mod 10].
Proof.
  intros H. unfold absdigits at 1. cbn [digits]. destruct (n <? 10) eqn:E; [reflexivity|].
  f_equal. assert (1 <= Z.log2 n) by (apply Z.log2_le_pow2; lia).
  destruct (Z.to_nat (Z.log2 n)) as [|f] eqn:Ef; [lia|].
  apply absdigits_fuel; try lia.
  apply Z.lt_le_trans with (10 ^ Z.log2 n).
  - pose proof (log2_fuel n H) as HL. rewrite Nat2Z.inj_succ, Z2Nat.id, Z.pow_succ_r in HL by lia. lia.
  - apply Z.pow_le_mono_r; lia.
Qed.
Lemma absdigits_len k : forall n, (0 < k)%nat -> 10 ^ Z.of_nat k <= n < 10 ^ Z.of_nat (S k) -> zlen (absdigits n) = Z.of_nat (S k).
Proof.
  induction k as [|k IH]; intros n Hk H; [lia|].
  assert (E1 : 10 ^ Z.of_nat (S k) = 10 * 10 ^ Z.of_nat k) by (rewrite Nat2Z.inj_succ, Z.pow_succ_r by lia; reflexivity).
  assert (E2 : 10 ^ Z.of_nat (S (S k)) = 10 * 10 ^ Z.of_nat (S k)) by (rewrite (Nat2Z.inj_succ (S k)), Z.pow_succ_r by lia; reflexivity).
  assert (0 < 10 ^ Z.of_nat k) by (apply Z.pow_pos_nonneg; lia).
  rewrite absdigits_step by lia. replace (n <? 10) with false by lia. rewrite zlen_app, zlen1.
  destruct k as [|k].
  - rewrite absdigits_step by lia. change (10 ^ Z.of_nat 1) with 10 in H. change (10 ^ Z.of_nat 2) with 100 in H. clear E1 E2. replace (n / 10 <? 10) with true by lia. reflexivity.
  - rewrite IH; [lia|lia|]. lia.
Qed.
Lemma absdigits_small n : 0 <= n < 10 -> zlen (absdigits n) = 1.
Proof. intros H. rewrite absdigits_step by lia. replace (n <? 10) with true by lia. reflexivity. Qed.

Lemma decimal_abs n : decimal n = if n <? 0 then 45 :: absdigits (- n) else absdigits n.
Proof. reflexivity. Qed.

(** the specification's numerals are faithful *)
Lemma fold_absdigits n : 0 <= n -> fold_left (fun a d => 10 * a + (d - 48)) (absdigits n) 0 = n.
Proof.
  revert n. apply (Zlt_0_ind (fun n => fold_left (fun a d => 10 * a + (d - 48)) (absdigits n) 0 = n)).
  intros n IH Hn. rewrite absdigits_step by lia. destruct (n <? 10) eqn:E; [cbn [fold_left]; lia|].
  rewrite fold_left_app. cbn [fold_left]. rewrite IH by lia. lia.
Qed.
Lemma absdigits_head n : 0 <= n -> exists d r, absdigits n = d :: r /\ 48 <= d <= 57.
Proof.
  revert n. apply (Zlt_0_ind (fun n => exists d r, absdigits n = d :: r /\ 48 <= d <= 57)).
  intros n IH Hn. rewrite absdigits_step by lia. destruct (n <? 10) eqn:E; [do 2 eexists; split; [reflexivity|lia]|].
  destruct (IH (n / 10)) as (d & r & -> & Hd); [lia|]. do 2 eexists. split; [reflexivity|assumption].
Qed.
Lemma undecimal_decimal n : undecimal (decimal n) = n.
Proof.
  rewrite decimal_abs. destruct (n <? 0) eqn:E.
  - cbn [undecimal]. rewrite fold_absdigits by lia. lia.
  - destruct (absdigits_head n) as (d & r & Ed & Hd); [lia|]. pose proof (fold_absdigits n ltac:(lia)) as HF.
    rewrite Ed in *. unfold undecimal. assert (d <> 45) by lia.
    destruct (Z.eq_dec d 45); [lia|]. destruct d as [|p|p]; try lia.
    do 6 (destruct p as [p|p|]; try exact HF; try lia).
Qed.
