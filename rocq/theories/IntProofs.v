(** Specification and proofs for zt_int.h. *)
From Verif Require Import IntModel.
Open Scope Z_scope.

(** Specification: the value is a value of the type. *)
Definition s_in (t : sty) (v : Z) : Prop := smin t <= v <= smax t.
Definition u_in (t : uty) (v : Z) : Prop := 0 <= v <= umax t.
(** The operation returns the exact value when representable and aborts otherwise. *)
Definition exact_or_abort (inr : Z -> Prop) (v : Z) (o : outcome Z) : Prop :=
  (inr v /\ o = Ok v) \/ (~ inr v /\ o = Abort).

Lemma smin_val t : smin t = match t with SChar => -128 | SShort => -32768 | SInt => -2147483648 | SLong => -9223372036854775808 end.
Proof. destruct t; reflexivity. Qed.
Lemma smax_val t : smax t = match t with SChar => 127 | SShort => 32767 | SInt => 2147483647 | SLong => 9223372036854775807 end.
Proof. destruct t; reflexivity. Qed.
Lemma umax_val t : umax t = match t with UChar => 255 | UShort => 65535 | UInt => 4294967295 | ULong => 18446744073709551615 end.
Proof. destruct t; reflexivity. Qed.

Lemma sck_ok t v : s_in (sprom t) v -> sck t v = Ok v.
Proof.
  unfold s_in, sck. intros H.
  destruct ((smin (sprom t) <=? v) && (v <=? smax (sprom t))) eqn:E; [reflexivity|].
  apply andb_false_iff in E. destruct E as [E|E]; apply Z.leb_gt in E; lia.
Qed.

Lemma scast_id t v : s_in t v -> scast t v = v.
Proof.
  unfold s_in, scast. rewrite smin_val, smax_val. intros H.
  destruct t; cbn [sbits] in *; rewrite Z.mod_small; lia.
Qed.
Lemma ucast_id t v : u_in t v -> ucast t v = v.
Proof.
  unfold u_in, ucast. rewrite umax_val. intros H. apply Z.mod_small. destruct t; cbn [ubits] in *; lia.
Qed.
Lemma uck_ok t v : u_in t v -> uck t v = Ok v.
Proof.
  intros H. destruct t; unfold uck.
  - apply sck_ok. unfold u_in, s_in in *. rewrite umax_val in H. rewrite smin_val, smax_val. cbn. lia.
  - apply sck_ok. unfold u_in, s_in in *. rewrite umax_val in H. rewrite smin_val, smax_val. cbn. lia.
  - f_equal. apply (ucast_id UInt v H).
  - f_equal. apply (ucast_id ULong v H).
Qed.
Lemma s_in_prom t v : s_in t v -> s_in (sprom t) v.
Proof. unfold s_in. rewrite !smin_val, !smax_val. destruct t; cbn [sprom]; lia. Qed.

Lemma same_sign_spec u v : same_sign u v = Bool.eqb (u <? 0) (v <? 0).
Proof.
  unfold same_sign.
  destruct (Z.ltb_spec (Z.lxor u v) 0) as [H|H].
  - apply Z.lxor_nonneg in H || (pose proof (Z.lxor_nonneg u v)).
    destruct (Z.ltb_spec u 0), (Z.ltb_spec v 0); simpl; try reflexivity; exfalso; 
    pose proof (Z.lxor_nonneg u v); lia.
  - pose proof (Z.lxor_nonneg u v).
    destruct (Z.ltb_spec u 0), (Z.ltb_spec v 0); simpl; try reflexivity; exfalso; lia.
Qed.

Lemma uint_add_correct t a b : u_in t a -> u_in t b -> exact_or_abort (u_in t) (a + b) (uint_add t a b).
Proof.
  intros Ha Hb. unfold uint_add. rewrite (uck_ok t (umax t - a)) by (unfold u_in in *; lia).
  cbn [obind]. destruct (Z.leb_spec b (umax t - a)) as [H|H]; cbn [guard obind].
  - left. assert (u_in t (a + b)) by (unfold u_in in *; lia).
    rewrite uck_ok by assumption. cbn [obind]. rewrite ucast_id by assumption. auto.
  - right. split; [unfold u_in; lia | reflexivity].
Qed.

Lemma sint_finish t v (inr : s_in t v) : (s <- sck t v ;; Ok (scast t s)) = Ok v.
Proof. rewrite sck_ok by (apply s_in_prom; exact inr). cbn [obind]. now rewrite scast_id. Qed.

Lemma sint_add_correct t a b : s_in t a -> s_in t b -> exact_or_abort (s_in t) (a + b) (sint_add t a b).
Proof.
  intros Ha Hb. unfold sint_add. rewrite same_sign_spec. pose proof (smin_val t) as Hm. pose proof (smax_val t) as HM.
  assert (Hmin : smin t <= 0 <= smax t) by (rewrite Hm, HM; destruct t; lia).
  assert (Hz : smin t + smax t = -1) by (rewrite Hm, HM; destruct t; lia).
  destruct (Z.ltb_spec a 0) as [A|A], (Z.ltb_spec b 0) as [B|B]; cbn [Bool.eqb].
  - rewrite sck_ok by (apply s_in_prom; unfold s_in in *; lia). cbn [obind].
    destruct (Z.leb_spec (smin t - b) a) as [H|H]; cbn [guard obind].
    + left. assert (s_in t (a + b)) by (unfold s_in in *; lia). split; [assumption|]. now apply sint_finish.
    + right. split; [unfold s_in; lia|reflexivity].
  - cbn [obind]. left. assert (s_in t (a + b)) by (unfold s_in in *; lia). split; [assumption|]. now apply sint_finish.
  - cbn [obind]. left. assert (s_in t (a + b)) by (unfold s_in in *; lia). split; [assumption|]. now apply sint_finish.
  - rewrite sck_ok by (apply s_in_prom; unfold s_in in *; lia). cbn [obind].
    destruct (Z.leb_spec b (smax t - a)) as [H|H]; cbn [guard obind].
    + left. assert (s_in t (a + b)) by (unfold s_in in *; lia). split; [assumption|]. now apply sint_finish.
    + right. split; [unfold s_in; lia|reflexivity].
Qed.

Lemma sint_sub_correct t a b : s_in t a -> s_in t b -> exact_or_abort (s_in t) (a - b) (sint_sub t a b).
Proof.
  intros Ha Hb. unfold sint_sub. rewrite same_sign_spec. pose proof (smin_val t) as Hm. pose proof (smax_val t) as HM.
  assert (Hmin : smin t <= 0 <= smax t) by (rewrite Hm, HM; destruct t; lia).
  assert (Hz : smin t + smax t = -1) by (rewrite Hm, HM; destruct t; lia).
  destruct (Z.ltb_spec a 0) as [A|A], (Z.ltb_spec b 0) as [B|B]; cbn [Bool.eqb negb].
  - cbn [obind]. left. assert (s_in t (a - b)) by (unfold s_in in *; lia). split; [assumption|]. now apply sint_finish.
  - destruct (Z.leb_spec 0 a) as [A'|A']; [lia|].
    rewrite sck_ok by (apply s_in_prom; unfold s_in in *; lia). cbn [obind].
    destruct (Z.leb_spec (smin t + b) a) as [H|H]; cbn [guard obind].
    + left. assert (s_in t (a - b)) by (unfold s_in in *; lia). split; [assumption|]. now apply sint_finish.
    + right. split; [unfold s_in; lia|reflexivity].
  - destruct (Z.leb_spec 0 a) as [A'|A']; [|lia].
    rewrite sck_ok by (apply s_in_prom; unfold s_in in *; lia). cbn [obind].
    destruct (Z.leb_spec a (smax t + b)) as [H|H]; cbn [guard obind].
    + left. assert (s_in t (a - b)) by (unfold s_in in *; lia). split; [assumption|]. now apply sint_finish.
    + right. split; [unfold s_in; lia|reflexivity].
  - cbn [obind]. left. assert (s_in t (a - b)) by (unfold s_in in *; lia). split; [assumption|]. now apply sint_finish.
Qed.

Lemma uint_sub_cases t a b : u_in t a -> u_in t b ->
  uint_sub t a b = if b <? a then Ok (a - b) else Abort.
Proof.
  intros Ha Hb. unfold uint_sub. destruct (Z.ltb_spec b a) as [H|H]; cbn [guard obind]; [|reflexivity].
  assert (u_in t (a - b)) by (unfold u_in in *; lia).
  rewrite uck_ok by assumption. cbn [obind]. now rewrite ucast_id.
Qed.

Lemma uint_sub_correct t a b : u_in t a -> u_in t b -> a <> b ->
  exact_or_abort (u_in t) (a - b) (uint_sub t a b).
Proof.
  intros Ha Hb Hne. rewrite uint_sub_cases by assumption.
  destruct (Z.ltb_spec b a); [left|right]; (split; [unfold u_in in *; lia|reflexivity]).
Qed.

Lemma uint_sub_sound t a b r : u_in t a -> u_in t b -> uint_sub t a b = Ok r -> r = a - b /\ u_in t (a - b).
Proof.
  intros Ha Hb. rewrite uint_sub_cases by assumption.
  destruct (Z.ltb_spec b a); intros E; [|discriminate]. injection E as <-. unfold u_in in *; lia.
Qed.

Lemma uint_mul_correct t a b : t <> ULong -> u_in t a -> u_in t b ->
  exact_or_abort (u_in t) (a * b) (uint_mul t a b).
Proof.
  intros Ht Ha Hb. unfold uint_mul.
  assert (Hp : 0 <= a * b < 2 ^ ucvbits t).
  { unfold u_in in *. rewrite umax_val in *. destruct t; cbn [ucvbits]; try congruence; nia. }
  rewrite (Z.mod_small (a * b)) by exact Hp.
  rewrite Z.shiftr_div_pow2 by (destruct t; cbn; lia).
  assert (Hu : umax t = 2 ^ ubits t - 1) by reflexivity.
  assert (Hpos : 0 < 2 ^ ubits t) by (destruct t; cbn; lia).
  destruct (Z.leb_spec (a * b / 2 ^ ubits t) 0) as [H|H]; cbn [guard obind].
  - left. assert (Hlt : a * b < 2 ^ ubits t).
    { apply Z.nle_gt. intros Hge. assert (1 <= a * b / 2 ^ ubits t); [|lia].
      apply Z.div_le_lower_bound; lia. }
    assert (u_in t (a * b)) by (unfold u_in; lia). split; [assumption|]. now rewrite ucast_id.
  - right. split; [|reflexivity]. unfold u_in. intros Hin.
    rewrite Z.div_small in H by lia. lia.
Qed.

Lemma sint_mul_correct t a b : t <> SLong -> s_in t a -> s_in t b ->
  exact_or_abort (s_in t) (a * b) (sint_mul t a b).
Proof.
  intros Ht Ha Hb. unfold sint_mul.
  assert (H0 : s_in t 0) by (unfold s_in; rewrite smin_val, smax_val; destruct t; lia).
  destruct (Z.eqb_spec b 0) as [->|B]; cbn [orb].
  { left. rewrite Z.mul_0_r. auto. }
  destruct (Z.eqb_spec a 0) as [->|A]; cbn [orb].
  { left. rewrite Z.mul_0_l. auto. }
  destruct (Z.eqb_spec b 1) as [->|B1]; cbn [orb].
  { left. rewrite Z.mul_1_r, Z.mul_1_l. split; [assumption|]. now apply sint_finish. }
  destruct (Z.eqb_spec a 1) as [->|A1]; cbn [orb].
  { left. rewrite Z.mul_1_r, Z.mul_1_l. split; [assumption|]. now apply sint_finish. }
  assert (Hcv : s_in (sprom (scv t)) (a * b)).
  { unfold s_in in *. rewrite smin_val, smax_val in *. destruct t; cbn [scv sprom]; try congruence; nia. }
  rewrite sck_ok by exact Hcv. cbn [obind].
  destruct (Z.leb_spec (smin t) (a * b)) as [L|L], (Z.leb_spec (a * b) (smax t)) as [R|R]; cbn [andb guard obind].
  - left. assert (s_in t (a * b)) by (unfold s_in; lia). split; [assumption|]. now apply sint_finish.
  - right. split; [unfold s_in; lia|reflexivity].
  - right. split; [unfold s_in; lia|reflexivity].
  - right. split; [unfold s_in; lia|reflexivity].
Qed.

Lemma uint_div_correct t a b : u_in t a -> u_in t b ->
  (b = 0 /\ uint_div t a b = Abort) \/ (b <> 0 /\ uint_div t a b = Ok (a / b)).
Proof.
  intros Ha Hb. unfold uint_div. destruct (Z.eqb_spec b 0) as [->|B]; cbn [negb guard obind]; [auto|].
  right. split; [assumption|]. rewrite ucast_id; [reflexivity|]. unfold u_in in *.
  split; [apply Z.div_pos; lia|]. apply Z.le_trans with a; [|lia]. apply Z.div_le_upper_bound; nia.
Qed.

Lemma quot_bounds_opp a b : (a < 0 /\ 0 < b) -> a <= Z.quot a b <= 0.
Proof.
  intros [A B]. rewrite <- (Z.opp_involutive a) at 2 3. rewrite Z.quot_opp_l by lia.
  rewrite Z.quot_div_nonneg by lia.
  assert (0 <= (- a) / b) by (apply Z.div_pos; lia).
  assert ((- a) / b <= - a) by (apply Z.div_le_upper_bound; nia). lia.
Qed.
Lemma quot_bounds_opp' a b : (0 <= a /\ b < 0) -> - a <= Z.quot a b <= 0.
Proof.
  intros [A B]. rewrite <- (Z.opp_involutive b). rewrite Z.quot_opp_r by lia.
  rewrite Z.quot_div_nonneg by lia.
  assert (0 <= a / (- b)) by (apply Z.div_pos; lia).
  assert (a / (- b) <= a) by (apply Z.div_le_upper_bound; nia). lia.
Qed.

(** Complete behaviour of signed division. *)
Lemma sint_div_cases t a b : t <> SLong -> s_in t a -> s_in t b ->
  sint_div t a b =
  if b =? 0 then Abort
  else if (a <? 0) && (b <? 0) then
    (if (negb (a =? smin t)) && (b =? -1) then Ok (- a) else Abort)
  else Ok (Z.quot a b).
Proof.
  intros Ht Ha Hb. unfold sint_div, cdiv. rewrite same_sign_spec.
  assert (Hz : smin t + smax t = -1) by (rewrite smin_val, smax_val; destruct t; lia).
  destruct (Z.eqb_spec b 0) as [->|B]; cbn [negb guard obind]; [reflexivity|].
  destruct (Z.ltb_spec a 0) as [A|A], (Z.ltb_spec b 0) as [B'|B']; cbn [andb Bool.eqb].
  - destruct (negb (a =? smin t) && (b =? -1)) eqn:E; cbn [guard obind]; [|reflexivity].
    apply andb_true_iff in E. destruct E as [E1 E2].
    apply negb_true_iff, Z.eqb_neq in E1. apply Z.eqb_eq in E2. subst b.
    assert (Hq : Z.quot a (-1) = - a).
    { pose proof (Z.quot_opp_r a 1 ltac:(lia)) as Hq. rewrite Z.quot_1_r in Hq. exact Hq. }
    rewrite Hq. apply sint_finish. unfold s_in in *. lia.
  - cbn [obind]. pose proof (quot_bounds_opp a b ltac:(lia)) as Hq.
    assert (Hin : s_in t (Z.quot a b)).
    { unfold s_in in *. assert (0 <= smax t) by (rewrite smax_val; destruct t; lia). lia. }
    rewrite sck_ok. 2:{ unfold s_in in *; rewrite !smin_val, !smax_val in *; destruct t; cbn [scv sprom] in *; try congruence; lia. }
    cbn [obind]. destruct (Z.leb_spec (smin t) (Z.quot a b)) as [L|L]; cbn [guard obind].
    + now rewrite scast_id.
    + unfold s_in in Hin; lia.
  - cbn [obind]. pose proof (quot_bounds_opp' a b ltac:(lia)) as Hq.
    assert (Hin : s_in t (Z.quot a b)).
    { unfold s_in in *. assert (0 <= smax t) by (rewrite smax_val; destruct t; lia). lia. }
    rewrite sck_ok. 2:{ unfold s_in in *; rewrite !smin_val, !smax_val in *; destruct t; cbn [scv sprom] in *; try congruence; lia. }
    cbn [obind]. destruct (Z.leb_spec (smin t) (Z.quot a b)) as [L|L]; cbn [guard obind].
    + now rewrite scast_id.
    + unfold s_in in Hin; lia.
  - cbn [obind]. apply sint_finish. rewrite Z.quot_div_nonneg by lia. unfold s_in in *.
    assert (0 <= a / b) by (apply Z.div_pos; lia).
    assert (a / b <= a) by (apply Z.div_le_upper_bound; nia).
    assert (smin t <= 0) by (rewrite smin_val; destruct t; lia). lia.
Qed.

Lemma sint_div_correct t a b : t <> SLong -> s_in t a -> s_in t b ->
  ~ (a < 0 /\ b < 0 /\ b <> -1) ->
  (b = 0 /\ sint_div t a b = Abort) \/
  (b <> 0 /\ exact_or_abort (s_in t) (Z.quot a b) (sint_div t a b)).
Proof.
  intros Ht Ha Hb Hn. rewrite sint_div_cases by assumption.
  assert (Hz : smin t + smax t = -1) by (rewrite smin_val, smax_val; destruct t; lia).
  assert (H0 : smin t < 0 <= smax t) by (rewrite smin_val, smax_val; destruct t; lia).
  destruct (Z.eqb_spec b 0) as [->|B]; [auto|]. right. split; [assumption|].
  destruct (Z.ltb_spec a 0) as [A|A], (Z.ltb_spec b 0) as [B'|B']; cbn [andb].
  - assert (b = -1) by lia. subst b. rewrite Z.eqb_refl, andb_true_r.
    assert (Hq : Z.quot a (-1) = - a).
    { pose proof (Z.quot_opp_r a 1 ltac:(lia)) as Hq. rewrite Z.quot_1_r in Hq. exact Hq. }
    rewrite Hq. destruct (Z.eqb_spec a (smin t)) as [E|E]; cbn [negb].
    + right. unfold s_in in *. split; [lia|reflexivity].
    + left. unfold s_in in *. split; [lia|reflexivity].
  - pose proof (quot_bounds_opp a b ltac:(lia)). left. unfold s_in in *. split; [lia|reflexivity].
  - pose proof (quot_bounds_opp' a b ltac:(lia)). left. unfold s_in in *. split; [lia|reflexivity].
  - left. rewrite Z.quot_div_nonneg by lia. unfold s_in in *.
    assert (0 <= a / b) by (apply Z.div_pos; lia).
    assert (a / b <= a) by (apply Z.div_le_upper_bound; nia). split; [lia|reflexivity].
Qed.

Lemma sint_div_sound t a b r : t <> SLong -> s_in t a -> s_in t b ->
  sint_div t a b = Ok r -> b <> 0 /\ r = Z.quot a b /\ s_in t r.
Proof.
  intros Ht Ha Hb H.
  assert (b <> 0).
  { intros ->. rewrite sint_div_cases in H by assumption. discriminate. }
  destruct (Z_lt_dec a 0) as [A|A], (Z_lt_dec b 0) as [B|B], (Z.eq_dec b (-1)) as [C|C];
    try (destruct (sint_div_correct t a b Ht Ha Hb ltac:(lia)) as [[? ?]|[? [[? E]|[? E]]]];
         [congruence | rewrite E in H; injection H as <-; auto | congruence]).
  exfalso. rewrite sint_div_cases in H by assumption.
  destruct (Z.eqb_spec b 0); [congruence|].
  destruct (Z.ltb_spec a 0); [|lia]. destruct (Z.ltb_spec b 0); [|lia]. cbn [andb] in H.
  destruct (Z.eqb_spec b (-1)); [congruence|]. rewrite andb_false_r in H. discriminate.
Qed.
