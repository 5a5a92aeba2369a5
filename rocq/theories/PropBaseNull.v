(** C02, C03: the library allocation mode asked for with a size that is not 0 (a NULL buffer pointer and a non-zero count), and odd numbers of hexadecimal digits, for every argument. *)
From Verif Require Import BaseModel BaseSpec BaseBits BaseProofs BaseDecode.
Open Scope Z_scope.
(** the encoder reports success, or that the size is too small, and produces nothing *)
Theorem C02_encode_null_exact : forall d l n, In d shipped -> bytes l -> l <> [] -> n <> O ->
  zt_base_encode d l OutPtrNull n = Ok (if (n <? length (rfc_encode d l))%nat then -2 else 0, length (rfc_encode d l), None).
Proof.
  intros d l n D B N NZ. pose proof (encode_spec d l OutNull n D B N I) as E. cbv zeta in E. rewrite <- E. unfold zt_base_encode. apply Nat.eqb_neq in NZ. rewrite NZ. reflexivity.
Qed.
(** the decoder writes through the NULL pointer whenever the text says anything *)
Theorem C03_decode_null_exact : forall d txt n, In d shipped -> bytes txt -> Forall (acceptable d) txt -> n <> O ->
  rejected d (length (digit_vals d txt) mod ogroups d) = false -> undigits (obits d) (digit_vals d txt) <> [] -> zt_base_decode d txt OutPtrNull n = UB.
Proof.
  intros d txt n D B A NZ R U. unfold zt_base_decode. destruct (shipped_shape d D) as (_ & -> & _). cbn [negb]. destruct txt as [|c txt]; [exfalso; apply U; vm_compute; destruct (obits d); reflexivity|]. cbn [length Nat.eqb]. apply Nat.eqb_neq in NZ. rewrite NZ. rewrite base_ok by exact D.
  pose proof (decode_valid d (c :: txt) D B A) as V. cbv zeta in V. rewrite R in V. rewrite V. cbn [obind]. unfold store. destruct (undigits (obits d) (digit_vals d (c :: txt))); [congruence|reflexivity].
Qed.
(** an odd number of hexadecimal digits: success, and the last digit is dropped *)
Theorem C03_base16_odd_exact : forall txt m n, bytes txt -> Forall (acceptable base16_rfc) txt -> Nat.odd (length (digit_vals base16_rfc txt)) = true ->
  (n <= length m)%nat -> (dec_size base16_rfc txt <= n)%nat ->
  exists m', zt_base_decode base16_rfc txt (OutBuf m) n = Ok (0, (length (digit_vals base16_rfc txt) / 2)%nat, Some m').
Proof.
  intros txt m n B A O L S. assert (D : In base16_rfc shipped) by (cbn; auto 10). assert (NE : txt <> []) by (intros ->; discriminate). destruct (decode_accepts base16_rfc txt m n D B NE L S A eq_refl) as (m' & E & _).
  exists m'. rewrite E. rewrite undigits_length. change (obits base16_rfc) with 4%nat. generalize (length (digit_vals base16_rfc txt)). intros k. replace (4 * k / 8)%nat with (k / 2)%nat; [reflexivity|].
    replace (4 * k)%nat with (k * 4)%nat by lia. change 8%nat with (2 * 4)%nat. symmetry. apply Nat.div_mul_cancel_r; lia.
Qed.
Example C03_null_ex : Forall (acceptable base64_rfc) [65; 65; 65; 65] /\ undigits (obits base64_rfc) (digit_vals base64_rfc [65; 65; 65; 65]) = [0; 0; 0] /\ Nat.odd (length (digit_vals base16_rfc [65; 66; 67])) = true /\
  zt_base_decode base16_rfc [65; 66; 67] (OutBuf [9; 9; 9]) 3 = Ok (0, 1%nat, Some [171; 9; 9]).
Proof. split; [repeat constructor; cbn; auto 80|]. vm_compute. auto. Qed.
Print Assumptions C02_encode_null_exact. Print Assumptions C03_decode_null_exact. Print Assumptions C03_base16_odd_exact.
