(** C01-C03: base-N encoding (zt_base.c).  Specification: BaseSpec.v. *)
From Verif Require Import BaseModel BaseSpec BaseDecode.
Open Scope Z_scope.

(** C01. Whatever (legal) output arguments are used, text produced by the encoder decodes to the input. *)
Theorem C01_roundtrip : forall d l eo en txtlen em do_ dn rc n' m, In d shipped -> bytes l -> l <> [] ->
  out_ok eo en -> out_ok do_ dn ->
  zt_base_encode d l eo en = Ok (0, txtlen, Some em) ->
  zt_base_decode d (firstn txtlen em) do_ dn = Ok (rc, n', Some m) ->
  rc = 0 /\ n' = length l /\ firstn n' m = l.
Proof. exact roundtrip. Qed.
Print Assumptions C01_roundtrip.

(** With library-allocated buffers both calls always succeed. *)
Theorem C01_roundtrip_allocating : forall d l, In d shipped -> bytes l -> l <> [] ->
  exists txt rest, zt_base_encode d l OutPtrNull 0 = Ok (0, length txt, Some txt) /\
    zt_base_decode d txt OutPtrNull 0 = Ok (0, length l, Some (l ++ rest)).
Proof. exact roundtrip_alloc. Qed.
Print Assumptions C01_roundtrip_allocating.

Example C01_ex : In base32_hex shipped /\ bytes [0; 255; 17; 3; 200; 77; 9] /\
  zt_base_encode base32_hex [0; 255; 17; 3; 200; 77; 9] OutPtrNull 0 =
    Ok (0, 16%nat, Some [48; 51; 86; 72; 50; 48; 85; 56; 57; 75; 52; 71; 61; 61; 61; 61]) /\
  zt_base_decode base32_hex [48; 51; 86; 72; 50; 48; 85; 56; 57; 75; 52; 71; 61; 61; 61; 61] (OutBuf (repeat 5 20)) 20
    = Ok (0, 7%nat, Some ([0; 255; 17; 3; 200; 77; 9] ++ repeat 5 13)).
Proof. split; [cbn; auto 10|]. split; [repeat constructor; lia|]. vm_compute. auto. Qed.

(** C02. Complete behaviour of the encoder on a non-empty input: the text is the RFC 4648 one, it is announced
    exactly, nothing is written when the buffer is too small (-2), and the bytes behind the text are untouched. *)
Theorem C02_encode_is_rfc4648 : forall d l o n, In d shipped -> bytes l -> l <> [] -> out_ok o n ->
  zt_base_encode d l o n =
  let txt := rfc_encode d l in
  match o with
  | OutNull => Ok (if (n <? length txt)%nat then -2 else 0, length txt, None)
  | OutPtrNull => Ok (0, length txt, Some txt)
  | OutBuf m => if (n <? length txt)%nat then Ok (-2, length txt, None)
                else Ok (0, length txt, Some (txt ++ skipn (length txt) m))
  end.
Proof. exact encode_spec. Qed.
Print Assumptions C02_encode_is_rfc4648.

(** RFC 4648 section 10 test vectors for "fooba" (tests of the specification). *)
Example C02_ex :
  rfc_encode base64_rfc [102;111;111;98;97] = [90;109;57;118;89;109;69;61] /\
  rfc_encode base32_rfc [102;111;111;98;97] = [77;90;88;87;54;89;84;66] /\
  rfc_encode base16_rfc [102;111;111;98;97] = [54;54;54;70;54;70;54;50;54;49] /\
  zt_base_encode base64_rfc_nopad [102;111;111;98] (OutBuf (repeat 0 8)) 8 = Ok (0, 6%nat, Some [90;109;57;118;89;103;0;0]).
Proof. vm_compute. auto. Qed.

(** C03. No text, however malformed, makes the decoder touch memory outside its buffer (UB is unreachable)... *)
Theorem C03_decode_safe : forall d txt o n, In d shipped -> bytes txt -> out_ok o n ->
  exists rc n' m, zt_base_decode d txt o n = Ok (rc, n', m).
Proof. exact decode_safe. Qed.
Print Assumptions C03_decode_safe.

(** ... nor beyond the size it reports for that text. *)
Theorem C03_decode_frame : forall d txt m n rc n' m', In d shipped -> bytes txt -> (n <= length m)%nat ->
  zt_base_decode d txt (OutBuf m) n = Ok (rc, n', Some m') ->
  length m' = length m /\ skipn (dec_size d txt) m' = skipn (dec_size d txt) m.
Proof. exact decode_frame. Qed.
Print Assumptions C03_decode_frame.
Theorem C03_decode_size_query : forall d txt n, In d shipped -> txt <> [] ->
  zt_base_decode d txt OutNull n = Ok (0, dec_size d txt, None).
Proof. exact decode_size_query. Qed.
Print Assumptions C03_decode_size_query.

(** A character outside the alphabet and the ignored set makes the call fail. *)
Theorem C03_decode_rejects : forall d txt c o n, In d shipped -> bytes txt ->
  In c txt -> ~ (In c (alphabet d) \/ In c [9; 10; 13; 32; 61]) -> out_ok o n ->
  o <> OutNull -> forall rc n' m, zt_base_decode d txt o n = Ok (rc, n', m) -> rc = -1 \/ rc = -2.
Proof. exact decode_rejects. Qed.
Print Assumptions C03_decode_rejects.

(** On every other text whose digit count is possible the result is the octet string of the digits' bits. *)
Theorem C03_decode_accepts : forall d txt m n, In d shipped -> bytes txt -> txt <> [] ->
  (n <= length m)%nat -> (dec_size d txt <= n)%nat ->
  Forall (acceptable d) txt -> rejected d (length (digit_vals d txt) mod ogroups d) = false ->
  exists m', zt_base_decode d txt (OutBuf m) n = Ok (0, length (undigits (obits d) (digit_vals d txt)), Some m') /\
    m' = undigits (obits d) (digit_vals d txt) ++ skipn (length (undigits (obits d) (digit_vals d txt))) m.
Proof. exact decode_accepts. Qed.
Print Assumptions C03_decode_accepts.
Theorem C03_decode_bad_count : forall d txt m n, In d shipped -> bytes txt -> txt <> [] ->
  (n <= length m)%nat -> (dec_size d txt <= n)%nat ->
  Forall (acceptable d) txt -> rejected d (length (digit_vals d txt) mod ogroups d) = true ->
  exists n' m', zt_base_decode d txt (OutBuf m) n = Ok (-1, n', m').
Proof. exact decode_badcount. Qed.
Print Assumptions C03_decode_bad_count.

(** Findings.  An odd number of hex digits is silently accepted: "ABC" decodes to one byte with result 0. *)
Theorem C03_base16_odd_digits_refuted : exists txt, length (digit_vals base16_rfc txt) = 3%nat /\
  exists m, zt_base_decode base16_rfc txt OutPtrNull 0 = Ok (0, 1%nat, Some m).
Proof. exists [65; 66; 67]. split; [reflexivity|]. eexists. vm_compute. reflexivity. Qed.
Print Assumptions C03_base16_odd_digits_refuted.
(** *out == NULL with a non-zero *out_bytes: the decoder writes through the NULL pointer... *)
Theorem C03_decode_null_out_refuted : exists txt n, n <> O /\ zt_base_decode base64_rfc txt OutPtrNull n = UB.
Proof. exists [65; 65; 65; 65], 8%nat. split; [discriminate|vm_compute; reflexivity]. Qed.
Print Assumptions C03_decode_null_out_refuted.
(** ... and the encoder reports success without producing anything. *)
Theorem C02_encode_null_out_refuted : exists l n, l <> [] /\
  zt_base_encode base64_rfc l OutPtrNull n = Ok (0, 4%nat, None).
Proof. exists [1], 8%nat. split; [discriminate|vm_compute; reflexivity]. Qed.
Print Assumptions C02_encode_null_out_refuted.

(** A definition whose groups do not fit (8 * igroups <> ogroups * obits), or with more than 8 bytes to a group, is refused by both functions, whatever the other arguments;
    nothing is written, not even *out_bytes. *)
Theorem C02_bad_definition : forall d inp out n, (8 * igroups d <> ogroups d * obits d \/ 8 < igroups d)%nat ->
  zt_base_encode d inp out n = Ok (-1, n, None) /\ zt_base_decode d inp out n = Ok (-1, n, None).
Proof.
  intros d inp out n H. unfold zt_base_encode, zt_base_decode.
  assert (X : valid_dictionary d = false).
  { unfold valid_dictionary. apply andb_false_iff. rewrite Nat.eqb_neq, Nat.leb_gt. lia. }
  rewrite X. auto.
Qed.
Print Assumptions C02_bad_definition.

(** A definition whose groups fit but whose base is none of 64, 32 and 16 is refused as well, once the output has been found big enough: the buffer keeps its contents. *)
Theorem C02_bad_base : forall d inp m n, (8 * igroups d = ogroups d * obits d)%nat -> (igroups d <= 8)%nat -> ~ In (base d) [64; 32; 16]%nat -> inp <> [] ->
  (forall s, zt_base_encode d inp OutNull 0 = Ok (s) -> (snd (fst s) <= n)%nat) -> (forall s, zt_base_decode d inp OutNull 0 = Ok s -> (snd (fst s) <= n)%nat) ->
  (exists k, zt_base_encode d inp (OutBuf m) n = Ok (-1, k, None)) /\ zt_base_decode d inp (OutBuf m) n = Ok (-1, n, Some m).
Proof.
  intros d inp m n H1 H2 H3 Hi HE HD. unfold zt_base_encode, zt_base_decode in *.
  assert (X : valid_dictionary d = true).
  { unfold valid_dictionary. apply andb_true_iff. rewrite Nat.eqb_eq, Nat.leb_le. lia. }
  rewrite X in *. cbn [negb] in *. destruct inp as [|c r]; [congruence|]. cbn [length Nat.eqb] in *. cbv zeta in *.
  assert (B : (base d =? 64)%nat = false /\ (base d =? 32)%nat = false /\ (base d =? 16)%nat = false).
  { rewrite !Nat.eqb_neq. cbn [In] in H3. intuition. }
  destruct B as (B1 & B2 & B3).
  specialize (HD _ eq_refl). cbn [fst snd] in HD. split.
  - assert (HE' : (enc_size d (S (length r)) <= n)%nat).
    { destruct (Nat.ltb_spec 0 (enc_size d (S (length r)))); [exact (HE _ eq_refl)|lia]. }
    destruct (Nat.ltb_spec n (enc_size d (S (length r)))); [lia|].
    assert (E : encode_core d (c :: r) = None).
    { unfold encode_core. cbn [length]. cbv zeta. destruct (Nat.eqb_spec (base d) 64), (Nat.eqb_spec (base d) 32), (Nat.eqb_spec (base d) 16); try congruence.
      clear - n0 n1 n2. generalize dependent (base d). intros b n0 n1 n2. do 65 (destruct b as [|b]; [reflexivity || congruence|]). reflexivity. }
    rewrite E. eauto.
  - destruct (Nat.ltb_spec n (dec_size d (c :: r))); [lia|]. rewrite B1, B2, B3. reflexivity.
Qed.
Print Assumptions C02_bad_base.

Example C03_ex : Forall (acceptable base64_rfc) [65; 32; 66] /\ rejected base64_rfc (2 mod 4) = false /\
  zt_base_decode base64_rfc [65; 32; 66] (OutBuf [9;9;9;9]) 4 = Ok (0, 1%nat, Some [0;9;9;9]) /\
  zt_base_decode base64_rfc [65; 33; 66] (OutBuf [9;9;9;9]) 4 = Ok (-1, 4%nat, Some [9;9;9;9]).
Proof.
  split; [|vm_compute; auto]. constructor; [left; cbn; auto 80|constructor; [right; cbn; auto|constructor; [left; cbn; auto 80|constructor]]].
Qed.

Example C02_bad_ex : let d := Build_base_def [65; 66] [] 8 3 4 6 61 true in let b := Build_base_def [65; 66] [] 64 3 5 6 61 true in
  zt_base_encode d [1; 2] (OutBuf [7; 7; 7; 7]) 4 = Ok (-1, 4%nat, None) /\ zt_base_decode d [1; 2] (OutBuf [7; 7; 7; 7]) 4 = Ok (-1, 4%nat, Some [7; 7; 7; 7]) /\
  zt_base_encode d [1; 2] OutNull 0 = Ok (-2, 4%nat, None) /\ zt_base_encode b [1; 2] (OutBuf [7; 7; 7; 7]) 4 = Ok (-1, 4%nat, None).
Proof. repeat split. Qed.
