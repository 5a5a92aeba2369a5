(** C04: checked integer arithmetic (zt_int.h).  Statements only; proofs in IntProofs.v. *)
From Verif Require Import IntModel IntProofs.
Open Scope Z_scope.

(** Addition: exact when representable, abort otherwise; never UB, never a wrapped value. *)
Theorem C04_unsigned_add : forall t a b, u_in t a -> u_in t b ->
  (0 <= a + b <= umax t /\ uint_add t a b = Ok (a + b)) \/
  (~ (0 <= a + b <= umax t) /\ uint_add t a b = Abort).
Proof. exact uint_add_correct. Qed.
Print Assumptions C04_unsigned_add.

Theorem C04_signed_add : forall t a b, s_in t a -> s_in t b ->
  (smin t <= a + b <= smax t /\ sint_add t a b = Ok (a + b)) \/
  (~ (smin t <= a + b <= smax t) /\ sint_add t a b = Abort).
Proof. exact sint_add_correct. Qed.
Print Assumptions C04_signed_add.

Theorem C04_signed_sub : forall t a b, s_in t a -> s_in t b ->
  (smin t <= a - b <= smax t /\ sint_sub t a b = Ok (a - b)) \/
  (~ (smin t <= a - b <= smax t) /\ sint_sub t a b = Abort).
Proof. exact sint_sub_correct. Qed.
Print Assumptions C04_signed_sub.

Theorem C04_unsigned_mul : forall t a b, t <> ULong -> u_in t a -> u_in t b ->
  (0 <= a * b <= umax t /\ uint_mul t a b = Ok (a * b)) \/
  (~ (0 <= a * b <= umax t) /\ uint_mul t a b = Abort).
Proof. exact uint_mul_correct. Qed.
Print Assumptions C04_unsigned_mul.

Theorem C04_signed_mul : forall t a b, t <> SLong -> s_in t a -> s_in t b ->
  (smin t <= a * b <= smax t /\ sint_mul t a b = Ok (a * b)) \/
  (~ (smin t <= a * b <= smax t) /\ sint_mul t a b = Abort).
Proof. exact sint_mul_correct. Qed.
Print Assumptions C04_signed_mul.

Theorem C04_unsigned_div : forall t a b, u_in t a -> u_in t b ->
  (b = 0 /\ uint_div t a b = Abort) \/ (b <> 0 /\ uint_div t a b = Ok (a / b)).
Proof. exact uint_div_correct. Qed.
Print Assumptions C04_unsigned_div.

(** Subtraction on unsigned types: correct except that x - x aborts. *)
Theorem C04_unsigned_sub_partial : forall t a b, u_in t a -> u_in t b -> a <> b ->
  (0 <= a - b <= umax t /\ uint_sub t a b = Ok (a - b)) \/
  (~ (0 <= a - b <= umax t) /\ uint_sub t a b = Abort).
Proof. exact uint_sub_correct. Qed.
Print Assumptions C04_unsigned_sub_partial.

Theorem C04_unsigned_sub_sound : forall t a b r, u_in t a -> u_in t b ->
  uint_sub t a b = Ok r -> r = a - b /\ 0 <= a - b <= umax t.
Proof. exact uint_sub_sound. Qed.
Print Assumptions C04_unsigned_sub_sound.

(** The representable result 0 of x - x is refused: zt_uint_sub(7,7) aborts. *)
Theorem C04_unsigned_sub_refuted : exists t a b,
  u_in t a /\ u_in t b /\ u_in t (a - b) /\ uint_sub t a b = Abort.
Proof. exists UInt, 7, 7. repeat split; vm_compute; congruence. Qed.
Print Assumptions C04_unsigned_sub_refuted.
(** Exactly: the difference when it is positive, abort otherwise. *)
Theorem C04_unsigned_sub_exact : forall t a b, u_in t a -> u_in t b -> (b < a /\ uint_sub t a b = Ok (a - b)) \/ (a <= b /\ uint_sub t a b = Abort).
Proof.
  intros t a b A B. destruct (Z.eq_dec a b) as [<-|N]; [right; split; [lia|]; unfold uint_sub; now rewrite Z.ltb_irrefl|].
  destruct (uint_sub_correct t a b A B N) as [[R E]|[R E]]; [left|right]; (split; [|exact E]); unfold u_in in *; lia.
Qed.
Print Assumptions C04_unsigned_sub_exact.

(** Signed division: truncating quotient, abort on 0 and on MIN / -1, except that any other division of two
    negative numbers aborts. *)
Theorem C04_signed_div_partial : forall t a b, t <> SLong -> s_in t a -> s_in t b ->
  ~ (a < 0 /\ b < 0 /\ b <> -1) ->
  (b = 0 /\ sint_div t a b = Abort) \/
  (b <> 0 /\ ((smin t <= Z.quot a b <= smax t /\ sint_div t a b = Ok (Z.quot a b)) \/
              (~ (smin t <= Z.quot a b <= smax t) /\ sint_div t a b = Abort))).
Proof. exact sint_div_correct. Qed.
Print Assumptions C04_signed_div_partial.

Theorem C04_signed_div_sound : forall t a b r, t <> SLong -> s_in t a -> s_in t b ->
  sint_div t a b = Ok r -> b <> 0 /\ r = Z.quot a b /\ smin t <= r <= smax t.
Proof. exact sint_div_sound. Qed.
Print Assumptions C04_signed_div_sound.

(** zt_int_div(-4,-2) aborts although 2 is representable. *)
Theorem C04_signed_div_refuted : exists t a b,
  s_in t a /\ s_in t b /\ b <> 0 /\ s_in t (Z.quot a b) /\ sint_div t a b = Abort.
Proof. exists SInt, (-4), (-2). repeat split; vm_compute; congruence. Qed.
Print Assumptions C04_signed_div_refuted.
(** Exactly: of the divisions of two negative numbers only those by -1 of a number other than the smallest are carried out. *)
Theorem C04_signed_div_negative : forall t a b, t <> SLong -> s_in t a -> s_in t b -> a < 0 -> b < 0 ->
  (b = -1 /\ a <> smin t /\ sint_div t a b = Ok (- a)) \/ ((b <> -1 \/ a = smin t) /\ sint_div t a b = Abort).
Proof.
  intros t a b N A B LA LB. destruct (Z.eq_dec b (-1)) as [->|NB].
  - destruct (Z.eq_dec a (smin t)) as [->|NM]; [right; split; [tauto|]|left; split; [reflexivity|]; split; [exact NM|]].
    + unfold sint_div. cbn [Z.eqb negb guard obind]. rewrite (proj2 (Z.ltb_lt _ _) LA). cbn [Z.ltb Z.compare andb]. rewrite Z.eqb_refl. reflexivity.
    + assert (Q : Z.quot a (-1) = - a) by (change (-1) with (Z.opp 1); rewrite Z.quot_opp_r, Z.quot_1_r by lia; reflexivity). destruct (sint_div_correct t a (-1) N A B) as [[X _]|[_ [[R E]|[R E]]]]; [lia|discriminate| |] ; rewrite Q in *; [exact E|]. exfalso. apply R. unfold s_in in *. rewrite smin_val, smax_val in *. destruct t; cbn [sbits] in *; lia.
  - right. split; [tauto|]. unfold sint_div. rewrite (proj2 (Z.eqb_neq b 0)) by lia. cbn [negb guard obind]. rewrite (proj2 (Z.ltb_lt _ _) LA), (proj2 (Z.ltb_lt _ _) LB). cbn [andb]. rewrite (proj2 (Z.eqb_neq _ _) NB), andb_false_r. reflexivity.
Qed.
Print Assumptions C04_signed_div_negative.

(** The hypotheses are met and both branches occur. *)
Example C04_ex1 : u_in UInt 4294967295 /\ uint_add UInt 4294967295 1 = Abort /\ uint_add UInt 4294967294 1 = Ok 4294967295.
Proof. repeat split; vm_compute; congruence. Qed.
Example C04_ex2 : s_in SChar (-128) /\ s_in SChar (-1) /\ sint_div SChar (-128) (-1) = Abort /\ sint_mul SChar (-64) 2 = Ok (-128)
  /\ sint_sub SLong (-9223372036854775808) 1 = Abort.
Proof. repeat split; vm_compute; congruence. Qed.
(** the ranges are those of C on x86-64 Linux *)
Example C04_ranges : map umax [UChar; UShort; UInt; ULong] = [255; 65535; 4294967295; 18446744073709551615] /\
  map smin [SChar; SShort; SInt; SLong] = [-128; -32768; -2147483648; -9223372036854775808] /\ map smax [SChar; SShort; SInt; SLong] = [127; 32767; 2147483647; 9223372036854775807].
Proof. repeat split. Qed.
