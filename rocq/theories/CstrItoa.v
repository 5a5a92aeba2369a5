(** zt_cstr_itoa and zt_cstr_int_display_len. *)
From Verif Require Import Prelude CstrModel CstrSpec CstrProofs CstrSearch CstrText CstrNum.
Open Scope Z_scope.

Lemma quot_abs v d : 0 < d -> Z.abs (Z.quot v d) = Z.abs v / d.
Proof. intros H. rewrite <- Z.quot_abs by lia. rewrite Z.quot_div_nonneg by lia. now rewrite (Z.abs_eq d) by lia. Qed.
Lemma rem_abs v d : 0 < d -> Z.abs (Z.rem v d) = Z.abs v mod d.
Proof. intros H. rewrite <- Z.rem_abs by lia. rewrite Z.rem_mod_nonneg by lia. now rewrite (Z.abs_eq d) by lia. Qed.

Lemma absdigits_1000 a : 1000 <= a -> zlen (absdigits a) = 3 + zlen (absdigits (a / 1000)).
Proof.
  intros H. rewrite (absdigits_step a) by lia. replace (a <? 10) with false by lia. rewrite zlen_app, zlen1.
  rewrite (absdigits_step (a / 10)) by lia. replace (a / 10 <? 10) with false by lia. rewrite zlen_app, zlen1.
  rewrite (absdigits_step (a / 10 / 10)) by lia. replace (a / 10 / 10 <? 10) with false by lia. rewrite zlen_app, zlen1.
  replace (a / 10 / 10 / 10) with (a / 1000) by lia. lia.
Qed.
Lemma idl_loop_ok : forall fuel v res, Z.abs v < 1000 ^ Z.of_nat (S fuel) ->
  exists v' r, idl_loop fuel v res = Ok (v', res + r) /\ Z.abs v' < 1000 /\
    zlen (absdigits (Z.abs v)) = r + zlen (absdigits (Z.abs v')).
Proof.
  induction fuel as [|f IH]; intros v res H; cbn [idl_loop].
  - change (1000 ^ Z.of_nat 1) with 1000 in H. replace ((1000 <=? v) || (v <=? -1000)) with false by lia.
    exists v, 0. rewrite Z.add_0_r. repeat split; lia.
  - destruct ((1000 <=? v) || (v <=? -1000)) eqn:C.
    + pose proof (quot_abs v 1000 ltac:(lia)) as HQ.
      destruct (IH (Z.quot v 1000) (res + 3)) as (v' & r & E & B & L).
      { rewrite HQ. rewrite Nat2Z.inj_succ, Z.pow_succ_r in H by lia. apply Z.div_lt_upper_bound; lia. }
      exists v', (r + 3). rewrite E. split; [do 2 f_equal; lia|]. split; [assumption|].
      rewrite absdigits_1000 by lia. rewrite <- HQ, L. lia.
    + exists v, 0. rewrite Z.add_0_r. repeat split; lia.
Qed.
Lemma absdigits_small3 a : 0 <= a < 1000 -> zlen (absdigits a) = if 100 <=? a then 3 else if 10 <=? a then 2 else 1.
Proof.
  intros H. rewrite absdigits_step by lia. destruct (a <? 10) eqn:E.
  - replace (100 <=? a) with false by lia. replace (10 <=? a) with false by lia. reflexivity.
  - rewrite zlen_app, zlen1. rewrite absdigits_step by lia. destruct (a / 10 <? 10) eqn:E2.
    + replace (100 <=? a) with false by lia. replace (10 <=? a) with true by lia. reflexivity.
    + replace (100 <=? a) with true by lia. rewrite zlen_app, zlen1, absdigits_step by lia. replace (a / 10 / 10 <? 10) with true by lia. reflexivity.
Qed.
Lemma decimal_length v : zlen (decimal v) = zlen (absdigits (Z.abs v)) + if 0 <=? v then 0 else 1.
Proof.
  rewrite decimal_abs. destruct (v <? 0) eqn:E.
  - replace (0 <=? v) with false by lia. rewrite Z.abs_neq by lia. unfold zlen. cbn [length]. lia.
  - replace (0 <=? v) with true by lia. rewrite Z.abs_eq by lia. lia.
Qed.
Lemma int_display_len_ok v : - 2 ^ 31 <= v < 2 ^ 31 -> zt_cstr_int_display_len v = Ok (zlen (decimal v)).
Proof.
  intros H. unfold zt_cstr_int_display_len.
  destruct (idl_loop_ok 4 v (if 0 <=? v then 1 else 2)) as (v' & r & E & B & L); [cbn; lia|].
  rewrite E. cbn [obind]. rewrite decimal_length, L. rewrite absdigits_small3 by lia.
  destruct (0 <=? v); destruct ((100 <=? v') || (v' <=? -100)) eqn:C1.
  1,3: replace (100 <=? Z.abs v') with true by lia; f_equal; lia.
  all: replace (100 <=? Z.abs v') with false by lia;
    destruct ((10 <=? v') || (v' <=? -10)) eqn:C2;
    [replace (10 <=? Z.abs v') with true by lia|replace (10 <=? Z.abs v') with false by lia]; f_equal; lia.
Qed.

Lemma itoa_char v : nth (Z.to_nat (9 + Z.rem v 10)) itoa_integers 0 = 48 + Z.abs v mod 10.
Proof.
  rewrite <- rem_abs by lia. pose proof (Z.rem_bound_abs v 10 ltac:(lia)) as HB. set (r := Z.rem v 10) in *.
  assert (In r (map (fun n => Z.of_nat n - 9) (seq 0 19))) as Hin.
  { apply in_map_iff. exists (Z.to_nat (r + 9)). split; [lia|apply in_seq; lia]. }
  clearbody r. cbn in Hin. repeat (destruct Hin as [<-|Hin]; [reflexivity|]). destruct Hin.
Qed.

(** write [d] so that its last character lands on position loc *)
Lemma itoa_loop_ok : forall fuel v a b post, Z.abs v < 10 ^ Z.of_nat (S fuel) -> zlen b = zlen (absdigits (Z.abs v)) ->
  itoa_loop fuel (a ++ b ++ post) (zlen a + zlen b - 1) v = Ok (a ++ absdigits (Z.abs v) ++ post).
Proof.
  induction fuel as [|f IH]; intros v a b post Hv Hb; cbn [itoa_loop];
  rewrite itoa_char; pose proof (zlen_nonneg a); pose proof (zlen_nonneg post);
  destruct (absdigits_head (Z.abs v)) as (d0 & r0 & Ed & _); try lia;
  assert (0 < zlen b) by (rewrite Hb, Ed; unfold zlen; cbn [length]; lia);
  (rewrite mset_ok by (rewrite !zlen_app; lia)); cbn [obind];
  (destruct (snoc_cases b) as [->|(b' & x & Eb)]; [unfold zlen in *; cbn [length] in *; lia|]);
  assert (Hzb : zlen b = zlen b' + 1) by (rewrite Eb, zlen_app; reflexivity);
  (replace (upd (a ++ b ++ post) (Z.to_nat (zlen a + zlen b - 1)) (48 + Z.abs v mod 10)) with (a ++ b' ++ (48 + Z.abs v mod 10) :: post)
   by (replace (Z.to_nat (zlen a + zlen b - 1)) with (length (a ++ b')) by (rewrite app_length; unfold zlen in *; lia);
       rewrite Eb; replace (a ++ (b' ++ [x]) ++ post) with ((a ++ b') ++ x :: post) by (rewrite <- !app_assoc; reflexivity);
       rewrite upd_mid, <- app_assoc; reflexivity));
  pose proof (quot_abs v 10 ltac:(lia)) as HQ; rewrite (absdigits_step (Z.abs v)) in * by lia.
  - change (10 ^ Z.of_nat 1) with 10 in Hv. replace (Z.abs v <? 10) with true in * by lia.
    replace (Z.quot v 10 =? 0) with true by lia.
    rewrite zlen1 in Hb. assert (b' = []) by (destruct b'; [reflexivity|unfold zlen in *; cbn [length] in *; lia]). subst b'.
    cbn [app]. rewrite Z.mod_small by lia. reflexivity.
  - destruct (Z.abs v <? 10) eqn:E10.
    + replace (Z.quot v 10 =? 0) with true by lia.
      rewrite zlen1 in Hb. assert (b' = []) by (destruct b'; [reflexivity|unfold zlen in *; cbn [length] in *; lia]). subst b'.
      cbn [app]. rewrite Z.mod_small by lia. reflexivity.
    + replace (Z.quot v 10 =? 0) with false by lia.
      rewrite zlen_app, zlen1 in Hb.
      replace (zlen a + zlen b - 1 - 1) with (zlen a + zlen b' - 1) by lia.
      rewrite IH.
      * rewrite HQ. rewrite <- app_assoc. reflexivity.
      * rewrite HQ. rewrite (Nat2Z.inj_succ (S f)), Z.pow_succ_r in Hv by lia. apply Z.div_lt_upper_bound; lia.
      * rewrite HQ. lia.
Qed.

Lemma list_split3 {A} (m : list A) o n : 0 <= o -> 0 <= n -> o + n < zlen m ->
  exists a b x post, m = a ++ b ++ x :: post /\ zlen a = o /\ zlen b = n.
Proof.
  intros Ho Hn H. unfold zlen in *.
  destruct (skipn (Z.to_nat n) (skipn (Z.to_nat o) m)) as [|x post] eqn:E.
  - apply (f_equal (@length A)) in E. rewrite !skipn_length in E. cbn [length] in E. lia.
  - exists (firstn (Z.to_nat o) m), (firstn (Z.to_nat n) (skipn (Z.to_nat o) m)), x, post.
    rewrite <- E, !firstn_skipn. repeat split; rewrite firstn_length, ?skipn_length; lia.
Qed.

(** frame form: everything before the offset and behind the terminator is untouched *)
Lemma itoa_ok a b x post v bufsiz : - 2 ^ 31 <= v < 2 ^ 31 -> zlen b = zlen (decimal v) ->
  zlen a + zlen b <= bufsiz ->
  zt_cstr_itoa (Some (a ++ b ++ x :: post)) v (zlen a) bufsiz =
    Ok (zlen a + zlen (decimal v), Some (a ++ decimal v ++ 0 :: post)).
Proof.
  intros Hv Hb Hbuf. unfold zt_cstr_itoa. rewrite int_display_len_ok by assumption. cbn [obind].
  pose proof (decimal_length v) as HD. pose proof (zlen_nonneg a). pose proof (zlen_nonneg post). pose proof (zlen_nonneg b).
  replace (bufsiz <? zlen a + zlen (decimal v)) with false by lia.
  assert (Hz : zlen (a ++ b ++ x :: post) = zlen a + zlen b + 1 + zlen post) by (rewrite !zlen_app; unfold zlen; cbn [length]; lia).
  destruct (absdigits_head (Z.abs v)) as (d0 & r0 & Ed & _); [lia|].
  assert (1 <= zlen (absdigits (Z.abs v))) by (rewrite Ed; unfold zlen; cbn [length]; lia).
  rewrite decimal_abs in *. destruct (v <? 0) eqn:En.
  - rewrite mset_ok by lia. cbn [obind].
    destruct b as [|b0 b]; [unfold zlen in Hb; cbn [length] in Hb; lia|]. cbn [app].
    replace (Z.to_nat (zlen a)) with (length a) by (unfold zlen; lia). rewrite upd_mid.
    assert (Hzb : zlen (b0 :: b) = zlen b + 1) by (unfold zlen; cbn [length]; lia).
    assert (Hzd : zlen (45 :: absdigits (- v)) = zlen (absdigits (- v)) + 1) by (unfold zlen; cbn [length]; lia).
    rewrite mset_ok by (rewrite zlen_app; unfold zlen in *; cbn [length] in *; rewrite app_length; cbn [length] in *; lia). cbn [obind].
    replace (Z.to_nat (zlen a + zlen (45 :: absdigits (- v)))) with (length ((a ++ [45]) ++ b)) by (rewrite !app_length; unfold zlen in *; cbn [length] in *; lia).
    replace (a ++ 45 :: b ++ x :: post) with (((a ++ [45]) ++ b) ++ x :: post) by (rewrite <- !app_assoc; reflexivity).
    rewrite upd_mid. rewrite <- (app_assoc (a ++ [45])).
    replace (zlen a + zlen (45 :: absdigits (- v)) - 1) with (zlen (a ++ [45]) + zlen b - 1) by (rewrite zlen_app, zlen1; lia).
    rewrite itoa_loop_ok.
    + cbn [obind]. rewrite <- app_assoc. cbn [app]. rewrite Z.abs_neq by lia. reflexivity.
    + change (10 ^ Z.of_nat 11) with 100000000000. lia.
    + rewrite Z.abs_neq in * by lia. lia.
  - cbn [obind]. rewrite mset_ok by lia. cbn [obind].
    replace (Z.to_nat (zlen a + zlen (absdigits v))) with (length (a ++ b)) by (rewrite !app_length; unfold zlen in *; cbn [length] in *; lia).
    rewrite app_assoc. rewrite upd_mid. rewrite <- app_assoc. rewrite <- Hb.
    rewrite itoa_loop_ok.
    + cbn [obind]. rewrite Z.abs_eq by lia. reflexivity.
    + change (10 ^ Z.of_nat 11) with 100000000000. lia.
    + rewrite Z.abs_eq by lia. assumption.
Qed.
Lemma itoa_small m v offset bufsiz : - 2 ^ 31 <= v < 2 ^ 31 -> bufsiz < offset + zlen (decimal v) ->
  zt_cstr_itoa (Some m) v offset bufsiz = Ok (-1, Some m).
Proof.
  intros Hv H. unfold zt_cstr_itoa. rewrite int_display_len_ok by assumption. cbn [obind].
  replace (bufsiz <? offset + zlen (decimal v)) with true by lia. reflexivity.
Qed.
