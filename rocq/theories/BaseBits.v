From Verif Require Import BaseModel BaseSpec.
Open Scope Z_scope.

(** ** Finite sweeps *)
Definition zr (n : nat) : list Z := map Z.of_nat (seq 0 n).
Lemma zr_in n x : 0 <= x < Z.of_nat n -> In x (zr n).
Proof.
  intros H. unfold zr. apply in_map_iff. exists (Z.to_nat x). split; [lia|]. apply in_seq. lia.
Qed.
Lemma sweep1 n (f : Z -> bool) : forallb f (zr n) = true -> forall a, 0 <= a < Z.of_nat n -> f a = true.
Proof. intros H a Ha. rewrite forallb_forall in H. apply H. now apply zr_in. Qed.
Lemma sweep2 n m (f : Z -> Z -> bool) : forallb (fun a => forallb (f a) (zr m)) (zr n) = true ->
  forall a b, 0 <= a < Z.of_nat n -> 0 <= b < Z.of_nat m -> f a b = true.
Proof. intros H a b Ha Hb. apply (sweep1 m (f a)); [|exact Hb]. apply (sweep1 n (fun a => forallb (f a) (zr m))); assumption. Qed.
Lemma sweep3 n (f : Z -> Z -> Z -> bool) : forallb (fun a => forallb (fun b => forallb (f a b) (zr n)) (zr n)) (zr n) = true ->
  forall a b c, 0 <= a < Z.of_nat n -> 0 <= b < Z.of_nat n -> 0 <= c < Z.of_nat n -> f a b c = true.
Proof.
  intros H a b c Ha Hb Hc. apply (sweep1 n (f a b)); [|exact Hc].
  apply (sweep2 n n (fun a b => forallb (f a b) (zr n))); assumption.
Qed.

(** ** Chunks and bits *)
Lemma chunks_f_fuel {A} k : (0 < k)%nat -> forall f1 f2 (l : list A), (length l <= f1)%nat -> (length l <= f2)%nat ->
  chunks_f f1 k l = chunks_f f2 k l.
Proof.
  intros Hk. induction f1 as [|f1 IH]; intros f2 l H1 H2.
  - destruct l; [|simpl in H1; lia]. destruct f2; reflexivity.
  - destruct f2 as [|f2]; [destruct l; [reflexivity|simpl in H2; lia]|].
    cbn [chunks_f]. destruct l as [|x l]; [reflexivity|]. f_equal.
    apply IH; rewrite skipn_length; cbn [length] in *; lia.
Qed.
Lemma chunks_cons {A} k (c l : list A) : (0 < k)%nat -> length c = k -> chunks k (c ++ l) = c :: chunks k l.
Proof.
  intros Hk Hc. unfold chunks. destruct c as [|x c]; [simpl in Hc; lia|].
  cbn [app length chunks_f]. 
  change (x :: c ++ l) with ((x :: c) ++ l).
  rewrite firstn_app, skipn_app, Hc, Nat.sub_diag. cbn [firstn skipn]. rewrite app_nil_r.
  rewrite <- Hc at 1. rewrite firstn_all. f_equal. rewrite <- Hc at 2. rewrite skipn_all. cbn [app].
  apply chunks_f_fuel; rewrite ?app_length; simpl in *; lia.
Qed.
Lemma chunks_nil {A} k : @chunks A k [] = [].
Proof. reflexivity. Qed.
Lemma chunks_short {A} k (l : list A) : l <> [] -> (length l <= k)%nat -> chunks k l = [l].
Proof.
  intros Hl Hk. unfold chunks. destruct l as [|x l]; [congruence|]. cbn [length chunks_f].
  rewrite firstn_all2 by exact Hk. rewrite skipn_all2 by exact Hk. destruct (length l); reflexivity.
Qed.

Lemma tobits_length k x : length (tobits k x) = k.
Proof. induction k; simpl; auto. Qed.
Lemma flat_tobits_length k l : length (flat_map (tobits k) l) = (k * length l)%nat.
Proof. induction l as [|x l IH]; simpl; [lia|]. rewrite app_length, tobits_length, IH. lia. Qed.

Lemma val_app_acc l a : fold_left (fun a b => 2 * a + Z.b2z b) l a = a * 2 ^ Z.of_nat (length l) + val l.
Proof.
  unfold val. revert a. induction l as [|b l IH]; intros a.
  - cbn. lia.
  - cbn [fold_left length]. rewrite IH, (IH (2 * 0 + Z.b2z b)). rewrite Nat2Z.inj_succ, Z.pow_succ_r by lia. ring.
Qed.
Lemma val_cons b l : val (b :: l) = Z.b2z b * 2 ^ Z.of_nat (length l) + val l.
Proof. unfold val at 1. cbn [fold_left]. rewrite val_app_acc. ring. Qed.
Lemma val_range l : 0 <= val l < 2 ^ Z.of_nat (length l).
Proof.
  induction l as [|b l IH]; [cbn; lia|]. rewrite val_cons. cbn [length].
  rewrite Nat2Z.inj_succ, Z.pow_succ_r by lia. destruct b; cbn [Z.b2z]; lia.
Qed.
Lemma tobits_val l k : length l = k -> tobits k (val l) = l.
Proof.
  revert k. induction l as [|b l IH]; intros k H; simpl in H; subst k; [reflexivity|].
  cbn [tobits]. f_equal.
  - rewrite val_cons. pose proof (val_range l).
    rewrite Z.testbit_spec' with (a := Z.b2z b * 2 ^ Z.of_nat (length l) + val l) in *|| idtac.
    apply Z.b2z_inj. rewrite Z.testbit_spec' by lia.
    rewrite Z.div_add_l by lia. rewrite Z.div_small by lia. rewrite Z.add_0_r.
    apply Z.mod_small. destruct b; cbn; lia.
  - transitivity (tobits (length l) (val l)); [|now apply IH].
    assert (G : forall n, (n <= length l)%nat -> tobits n (val (b :: l)) = tobits n (val l)).
    { induction n as [|n IHn]; intros Hn; [reflexivity|]. cbn [tobits]. rewrite IHn by lia. f_equal.
      rewrite val_cons. rewrite Z.add_comm.
      rewrite <- (Z.mod_pow2_bits_low (val l + Z.b2z b * 2 ^ Z.of_nat (length l)) (Z.of_nat (length l))) by lia.
      rewrite Z.mod_add by (apply Z.pow_nonzero; lia).
      rewrite Z.mod_pow2_bits_low by lia. reflexivity. }
    apply G. lia.
Qed.
Lemma val_tobits k x : val (tobits k x) = x mod 2 ^ Z.of_nat k.
Proof.
  induction k as [|k IH]; [cbn; symmetry; apply Z.mod_1_r|].
  cbn [tobits]. rewrite val_cons, tobits_length, IH.
  rewrite Nat2Z.inj_succ, Z.pow_succ_r by lia.
  rewrite (Z.mul_comm 2). rewrite Z.rem_mul_r by (try apply Z.pow_nonzero; lia).
  rewrite Z.testbit_spec' by lia. ring.
Qed.

(** ** Algebra of the specification *)
Lemma digits_nil k : digits k [] = [].
Proof. reflexivity. Qed.

Lemma chunks_flat {A} k (l : list A) : (0 < k)%nat -> concat (chunks k l) = l.
Proof.
  intros Hk. unfold chunks. remember (length l) as n eqn:Hn. assert (H : (length l <= n)%nat) by lia. clear Hn.
  revert l H. induction n as [|n IH]; intros l H.
  - destruct l; [reflexivity|simpl in H; lia].
  - cbn [chunks_f]. destruct l as [|x l]; [reflexivity|]. cbn [concat].
    rewrite IH by (rewrite skipn_length; cbn [length] in *; lia). apply firstn_skipn.
Qed.

(** The bits of the digits are the bits of the bytes plus fewer than k zero bits. *)
Lemma digits_bits k l : (0 < k)%nat ->
  exists r, (r < k)%nat /\ flat_map (tobits k) (digits k l) = bits_of_bytes l ++ repeat false r /\
            (length (digits k l) * k = 8 * length l + r)%nat.
Proof.
  intros Hk. unfold digits. 
  assert (G : forall n (bs : list bool), (length bs <= n)%nat ->
    exists r, (r < k)%nat /\
      flat_map (tobits k) (map (fun c => val (c ++ repeat false (k - length c))) (chunks k bs)) = bs ++ repeat false r
      /\ (length (chunks k bs) * k = length bs + r)%nat).
  { induction n as [|n IH]; intros bs Hn.
    - destruct bs; [|simpl in Hn; lia]. exists O. cbn. auto.
    - destruct (le_lt_dec k (length bs)) as [L|L].
      + rewrite <- (firstn_skipn k bs). set (c := firstn k bs). set (s := skipn k bs).
        assert (Hc : length c = k) by (unfold c; rewrite firstn_length; lia).
        assert (Hs : length s = (length bs - k)%nat) by (unfold s; apply skipn_length).
        rewrite chunks_cons by assumption. destruct (IH s ltac:(lia)) as (r & Hr & E & EL).
        exists r. split; [exact Hr|]. cbn [map flat_map length]. rewrite E. split.
        * rewrite Hc, Nat.sub_diag. cbn [repeat]. rewrite app_nil_r. rewrite tobits_val by exact Hc.
          now rewrite app_assoc.
        * rewrite app_length. lia.
      + destruct bs as [|b bs']; [exists O; cbn; auto|]. set (bs := b :: bs') in *.
        rewrite chunks_short by (unfold bs; simpl; try congruence; simpl in *; lia).
        exists (k - length bs)%nat. cbn [map flat_map length]. rewrite app_nil_r.
        split; [unfold bs in *; simpl in *; lia|]. split; [|unfold bs in *; simpl in *; lia].
        apply tobits_val. rewrite app_length, repeat_length. lia. }
  destruct (G (length (bits_of_bytes l)) (bits_of_bytes l) (Nat.le_refl _)) as (r & Hr & E & EL).
  exists r. rewrite map_length, EL. split; [exact Hr|]. split; [exact E|].
  unfold bits_of_bytes. rewrite flat_tobits_length. lia.
Qed.

Lemma bytes_of_bits_cons c l : length c = 8%nat -> bytes_of_bits (c ++ l) = val c :: bytes_of_bits l.
Proof.
  intros Hc. unfold bytes_of_bits. rewrite app_length, Hc.
  replace ((8 + length l) / 8)%nat with (1 + length l / 8)%nat by (symmetry; replace (8 + length l)%nat with (length l + 1 * 8)%nat by lia; rewrite Nat.div_add; lia).
  replace (8 * (1 + length l / 8))%nat with (length c + 8 * (length l / 8))%nat by lia.
  rewrite firstn_app_2. rewrite chunks_cons by (try exact Hc; lia). reflexivity.
Qed.
Lemma bytes_of_bits_short l : (length l < 8)%nat -> bytes_of_bits l = [].
Proof. intros H. unfold bytes_of_bits. rewrite Nat.div_small by exact H. reflexivity. Qed.
Lemma bytes_of_bits_bytes l t : bytes l -> (length t < 8)%nat -> bytes_of_bits (bits_of_bytes l ++ t) = l.
Proof.
  intros H Ht. induction l as [|b l IH].
  - apply bytes_of_bits_short. exact Ht.
  - inversion H as [|? ? Hb Hl]; subst. unfold bits_of_bytes. cbn [flat_map]. rewrite <- app_assoc.
    rewrite bytes_of_bits_cons by apply tobits_length. f_equal.
    + rewrite val_tobits. apply Z.mod_small. exact Hb.
    + now apply IH.
Qed.

Lemma undigits_digits k l : (0 < k <= 8)%nat -> bytes l -> undigits k (digits k l) = l.
Proof.
  intros Hk Hl. destruct (digits_bits k l ltac:(lia)) as (r & Hr & E & _).
  unfold undigits. rewrite E. apply bytes_of_bits_bytes; [exact Hl|]. rewrite repeat_length. lia.
Qed.

Lemma digits_range k l : Forall (fun v => 0 <= v < 2 ^ Z.of_nat k) (digits k l).
Proof.
  unfold digits, chunks. generalize (length (bits_of_bytes l)) as n. generalize (bits_of_bytes l) as bs.
  intros bs n. revert bs. induction n as [|n IH]; intros bs; cbn [chunks_f]; [constructor|].
  destruct bs as [|b bs]; [constructor|]. cbn [map]. constructor; [|apply IH].
  set (c := firstn k (b :: bs)). pose proof (val_range (c ++ repeat false (k - length c))) as H.
  rewrite app_length, repeat_length in H.
  assert (length c <= k)%nat by (unfold c; rewrite firstn_length; lia).
  replace (length c + (k - length c))%nat with k in H by lia. exact H.
Qed.

(** ** Encoding *)
Lemma alpha_symbol : forall d, In d shipped -> forall v, 0 <= v < 2 ^ Z.of_nat (obits d) ->
  alpha d v = Ok (symbol d v) /\ 0 <= symbol d v < 256 /\ dict d (symbol d v) = Ok v /\
  index_of (alphabet d) (symbol d v) 0 = Some v.
Proof.
  assert (G : forallb (fun d => forallb (fun v =>
     match alpha d v, dict d (symbol d v), index_of (alphabet d) (symbol d v) 0 with
     | Ok a, Ok v', Some i => (a =? symbol d v) && (v' =? v) && (0 <=? symbol d v) && (symbol d v <? 256) && (i =? v)
     | _, _, _ => false end) (zr (2 ^ obits d))) shipped = true) by (vm_compute; reflexivity).
  rewrite forallb_forall in G.
  intros d Hd v Hv. specialize (G d Hd). 
  assert (Hv' : 0 <= v < Z.of_nat (2 ^ obits d)) by (rewrite Nat2Z.inj_pow; exact Hv).
  pose proof (sweep1 _ _ G v Hv') as K. cbv beta in K.
  destruct (alpha d v) as [a| | |]; try discriminate K.
  destruct (dict d (symbol d v)) as [v'| | |]; try discriminate K.
  destruct (index_of (alphabet d) (symbol d v) 0) as [i|]; try discriminate K.
  rewrite !andb_true_iff, !Z.eqb_eq, Z.leb_le, Z.ltb_lt in K. destruct K as ((((-> & ->) & A) & B) & ->). auto.
Qed.

Lemma alphas_symbols d ds : In d shipped -> Forall (fun v => 0 <= v < 2 ^ Z.of_nat (obits d)) ds ->
  alphas d ds = Ok (map (symbol d) ds).
Proof.
  intros Hd H. induction H as [|v ds Hv Hds IH]; cbn [alphas map]; [reflexivity|].
  destruct (alpha_symbol d Hd v Hv) as [-> _]. cbn [obind]. rewrite IH. reflexivity.
Qed.


Lemma sweep_eq1 n (f g : Z -> Z) : forallb (fun a => f a =? g a) (zr n) = true ->
  forall a, 0 <= a < Z.of_nat n -> f a = g a.
Proof. intros H a Ha. apply Z.eqb_eq. exact (sweep1 n (fun a => f a =? g a) H a Ha). Qed.
Lemma sweep_eq2 n (f g : Z -> Z -> Z) : forallb (fun a => forallb (fun b => f a b =? g a b) (zr n)) (zr n) = true ->
  forall a b, 0 <= a < Z.of_nat n -> 0 <= b < Z.of_nat n -> f a b = g a b.
Proof. intros H a b Ha Hb. apply Z.eqb_eq. exact (sweep2 n n (fun a b => f a b =? g a b) H a b Ha Hb). Qed.
Lemma sweep_eq3 n (f g : Z -> Z -> Z -> Z) :
  forallb (fun a => forallb (fun b => forallb (fun c => f a b c =? g a b c) (zr n)) (zr n)) (zr n) = true ->
  forall a b c, 0 <= a < Z.of_nat n -> 0 <= b < Z.of_nat n -> 0 <= c < Z.of_nat n -> f a b c = g a b c.
Proof. intros H a b c Ha Hb Hc. apply Z.eqb_eq. exact (sweep3 n (fun a b c => f a b c =? g a b c) H a b c Ha Hb Hc). Qed.

Ltac sw1 n a Ha := revert a Ha; apply (sweep_eq1 n); vm_compute; reflexivity.
Ltac sw2 n a Ha b Hb := revert a b Ha Hb; apply (sweep_eq2 n); vm_compute; reflexivity.
Ltac sw3 n a Ha b Hb c Hc := revert a b c Ha Hb Hc; apply (sweep_eq3 n); vm_compute; reflexivity.

Ltac chunk6 := match goal with |- context[chunks 6 (?a :: ?b :: ?c :: ?e :: ?f :: ?g :: ?x)] =>
  change (chunks 6 (a :: b :: c :: e :: f :: g :: x)) with (chunks 6 ([a; b; c; e; f; g] ++ x));
  rewrite (chunks_cons 6 [a; b; c; e; f; g] x) by (cbn; lia) end.
Ltac chunk5 := match goal with |- context[chunks 5 (?a :: ?b :: ?c :: ?e :: ?f :: ?x)] =>
  change (chunks 5 (a :: b :: c :: e :: f :: x)) with (chunks 5 ([a; b; c; e; f] ++ x));
  rewrite (chunks_cons 5 [a; b; c; e; f] x) by (cbn; lia) end.
Ltac chunk4 := match goal with |- context[chunks 4 (?a :: ?b :: ?c :: ?e :: ?x)] =>
  change (chunks 4 (a :: b :: c :: e :: x)) with (chunks 4 ([a; b; c; e] ++ x));
  rewrite (chunks_cons 4 [a; b; c; e] x) by (cbn; lia) end.

Lemma cons_eq {A} (x y : A) l m : x = y -> l = m -> x :: l = y :: m.
Proof. intros -> ->. reflexivity. Qed.

Lemma digits64_group b0 b1 b2 rest : 0 <= b0 < 256 -> 0 <= b1 < 256 -> 0 <= b2 < 256 ->
  digits 6 (b0 :: b1 :: b2 :: rest) = idx64 b0 b1 b2 ++ digits 6 rest.
Proof.
  intros H0 H1 H2. unfold digits, bits_of_bytes. cbn [flat_map tobits app].
  set (bs := flat_map (tobits 8) rest). do 4 chunk6.
  cbn [map app length repeat Nat.sub]. unfold idx64. cbn [app].
  repeat apply cons_eq; [sw1 256%nat b0 H0 | sw2 256%nat b0 H0 b1 H1 | sw2 256%nat b1 H1 b2 H2 | sw1 256%nat b2 H2 | reflexivity].
Qed.
Lemma digits64_1 b0 : 0 <= b0 < 256 ->
  digits 6 [b0] = [ b0 .>> 2; ((b0 .& 0x03) .<< 4) .| ((0 .& 0xF0) .>> 4) ].
Proof.
  intros H0. unfold digits, bits_of_bytes. cbn [flat_map tobits app]. chunk6.
  rewrite chunks_short by (cbn; try congruence; lia). cbn [map app length repeat Nat.sub].
  repeat apply cons_eq; [sw1 256%nat b0 H0 | sw1 256%nat b0 H0 | reflexivity].
Qed.
Lemma digits64_2 b0 b1 : 0 <= b0 < 256 -> 0 <= b1 < 256 ->
  digits 6 [b0; b1] = [ b0 .>> 2; ((b0 .& 0x03) .<< 4) .| ((b1 .& 0xF0) .>> 4); ((b1 .& 0x0F) .<< 2) .| ((0 .& 0xC0) .>> 6) ].
Proof.
  intros H0 H1. unfold digits, bits_of_bytes. cbn [flat_map tobits app]. do 2 chunk6.
  rewrite chunks_short by (cbn; try congruence; lia). cbn [map app length repeat Nat.sub].
  repeat apply cons_eq; [sw1 256%nat b0 H0 | sw2 256%nat b0 H0 b1 H1 | sw1 256%nat b1 H1 | reflexivity].
Qed.

Lemma digits32_group b0 b1 b2 b3 b4 rest : 0 <= b0 < 256 -> 0 <= b1 < 256 -> 0 <= b2 < 256 -> 0 <= b3 < 256 -> 0 <= b4 < 256 ->
  digits 5 (b0 :: b1 :: b2 :: b3 :: b4 :: rest) = idx32 b0 b1 b2 b3 b4 ++ digits 5 rest.
Proof.
  intros H0 H1 H2 H3 H4. unfold digits, bits_of_bytes. cbn [flat_map tobits app].
  set (bs := flat_map (tobits 8) rest). do 8 chunk5.
  cbn [map app length repeat Nat.sub]. unfold idx32. cbn [app].
  repeat apply cons_eq; [sw1 256%nat b0 H0 | sw2 256%nat b0 H0 b1 H1 | sw1 256%nat b1 H1 | sw2 256%nat b1 H1 b2 H2
    | sw2 256%nat b2 H2 b3 H3 | sw1 256%nat b3 H3 | sw2 256%nat b3 H3 b4 H4 | sw1 256%nat b4 H4 | reflexivity].
Qed.
Lemma digits32_1 b0 : 0 <= b0 < 256 -> digits 5 [b0] = firstn 2 (idx32 b0 0 0 0 0).
Proof.
  intros H0. unfold digits, bits_of_bytes. cbn [flat_map tobits app]. chunk5.
  rewrite chunks_short by (cbn; try congruence; lia). cbn [map app length repeat Nat.sub firstn idx32].
  repeat apply cons_eq; [sw1 256%nat b0 H0 | sw1 256%nat b0 H0 | reflexivity].
Qed.
Lemma digits32_2 b0 b1 : 0 <= b0 < 256 -> 0 <= b1 < 256 -> digits 5 [b0; b1] = firstn 4 (idx32 b0 b1 0 0 0).
Proof.
  intros H0 H1. unfold digits, bits_of_bytes. cbn [flat_map tobits app]. do 3 chunk5.
  rewrite chunks_short by (cbn; try congruence; lia). cbn [map app length repeat Nat.sub firstn idx32].
  repeat apply cons_eq; [sw1 256%nat b0 H0 | sw2 256%nat b0 H0 b1 H1 | sw1 256%nat b1 H1 | sw1 256%nat b1 H1 | reflexivity].
Qed.
Lemma digits32_3 b0 b1 b2 : 0 <= b0 < 256 -> 0 <= b1 < 256 -> 0 <= b2 < 256 -> digits 5 [b0; b1; b2] = firstn 5 (idx32 b0 b1 b2 0 0).
Proof.
  intros H0 H1 H2. unfold digits, bits_of_bytes. cbn [flat_map tobits app]. do 4 chunk5.
  rewrite chunks_short by (cbn; try congruence; lia). cbn [map app length repeat Nat.sub firstn idx32].
  repeat apply cons_eq; [sw1 256%nat b0 H0 | sw2 256%nat b0 H0 b1 H1 | sw1 256%nat b1 H1 | sw2 256%nat b1 H1 b2 H2 | sw1 256%nat b2 H2 | reflexivity].
Qed.
Lemma digits32_4 b0 b1 b2 b3 : 0 <= b0 < 256 -> 0 <= b1 < 256 -> 0 <= b2 < 256 -> 0 <= b3 < 256 ->
  digits 5 [b0; b1; b2; b3] = firstn 7 (idx32 b0 b1 b2 b3 0).
Proof.
  intros H0 H1 H2 H3. unfold digits, bits_of_bytes. cbn [flat_map tobits app]. do 6 chunk5.
  rewrite chunks_short by (cbn; try congruence; lia). cbn [map app length repeat Nat.sub firstn idx32].
  repeat apply cons_eq; [sw1 256%nat b0 H0 | sw2 256%nat b0 H0 b1 H1 | sw1 256%nat b1 H1 | sw2 256%nat b1 H1 b2 H2
   | sw2 256%nat b2 H2 b3 H3 | sw1 256%nat b3 H3 | sw1 256%nat b3 H3 | reflexivity].
Qed.
Lemma digits16_group b0 rest : 0 <= b0 < 256 -> digits 4 (b0 :: rest) = [b0 .>> 4; b0 .& 0x0F] ++ digits 4 rest.
Proof.
  intros H0. unfold digits, bits_of_bytes. cbn [flat_map tobits app].
  set (bs := flat_map (tobits 8) rest). do 2 chunk4.
  cbn [map app length repeat Nat.sub].
  repeat apply cons_eq; [sw1 256%nat b0 H0 | sw1 256%nat b0 H0 | reflexivity].
Qed.

