(** C07-C14: the string functions of zt_cstr.c.  Specification vocabulary: CstrSpec.v (slices, positions,
    occurrences, lexicographic order, fields, decimal numerals) and [hextext], [unhex] in CstrNum.v;
    [cstring m] is the C string seen in the memory block m. *)
From Verif Require Import Prelude CstrModel CstrSpec CstrProofs CstrSearch CstrText CstrTok CstrNum CstrItoa.
Open Scope Z_scope.

(** ** C07 hexadecimal *)
(** The text of [data] is written (two lower-case digits per byte), the rest of the buffer is kept. *)
Theorem C07_binary_to_hex : forall data hex hlen, bytes data -> 0 <= hlen ->
  let n := Z.min (zlen data) ((hlen + 1) / 2) in 2 * n <= zlen hex ->
  zt_binary_to_hex data (zlen data) (Some hex) hlen =
    Ok (2 * n, Some (hextext (firstn (Z.to_nat n) data) ++ skipn (Z.to_nat (2 * n)) hex)).
Proof. exact b2h_ok. Qed.
Print Assumptions C07_binary_to_hex.
Theorem C07_binary_to_hex_size : forall data hlen, 0 <= hlen ->
  zt_binary_to_hex data (zlen data) None hlen = Ok (2 * Z.min (zlen data) ((hlen + 1) / 2), None).
Proof. exact b2h_size. Qed.
Print Assumptions C07_binary_to_hex_size.
(** Any text of hex digit pairs (either case) is converted to the bytes it denotes; only those bytes are written. *)
Theorem C07_hex_to_binary : forall t post l data dlen, unhex t = Some l -> zlen l <= dlen <= zlen data ->
  zt_hex_to_binary (t ++ post) (zlen t) (Some data) dlen = Ok (zlen l, Some (l ++ skipn (length l) data)).
Proof. exact h2b_ok. Qed.
Print Assumptions C07_hex_to_binary.
Theorem C07_roundtrip : forall l, bytes l -> unhex (hextext l) = Some l.
Proof. exact unhex_hextext. Qed.
Print Assumptions C07_roundtrip.
(** The two functions composed. *)
Theorem C07_hex_roundtrip : forall data hex out, bytes data -> zlen hex = 2 * zlen data -> zlen data <= zlen out ->
  exists h, zt_binary_to_hex data (zlen data) (Some hex) (zlen hex) = Ok (zlen hex, Some h) /\
  zt_hex_to_binary h (zlen hex) (Some out) (zlen out) = Ok (zlen data, Some (data ++ skipn (length data) out)).
Proof.
  intros data hex out Hb Hh Ho. pose proof (zlen_nonneg data).
  exists (hextext data). split.
  - rewrite b2h_ok by (try assumption; lia). rewrite Z.min_l by lia. rewrite skipn_all2 by (unfold zlen in *; lia).
    rewrite app_nil_r. rewrite firstn_all2 by (unfold zlen; lia). now rewrite Hh.
  - pose proof (h2b_ok (hextext data) [] data out (zlen out) (unhex_hextext data Hb)) as H2. rewrite app_nil_r in H2.
    replace (zlen hex) with (zlen (hextext data)) by (unfold zlen in *; rewrite hextext_length; lia). apply H2. lia.
Qed.
Print Assumptions C07_hex_roundtrip.
Theorem C07_hex_to_binary_rejects : forall t post data dlen,
  Nat.even (length t) = true -> unhex t = None -> ~ In 0 t -> zlen t / 2 <= dlen <= zlen data ->
  exists d, zt_hex_to_binary (t ++ post) (zlen t) (Some data) dlen = Ok (0, Some d).
Proof. exact h2b_reject. Qed.
Print Assumptions C07_hex_to_binary_rejects.
(** An odd output size makes the encoder write one byte past the buffer, an odd input size makes the decoder read past it. *)
Theorem C07_odd_size_refuted :
  (exists data hex, zt_binary_to_hex data (zlen data) (Some hex) (zlen hex) = UB) /\
  (exists hex data, zt_hex_to_binary hex (zlen hex) (Some data) (zlen data) = UB).
Proof. split; [exists [1], [0]|exists [49], [0]]; vm_compute; reflexivity. Qed.
Print Assumptions C07_odd_size_refuted.
Example C07_ex : zt_binary_to_hex [1; 171] 2 (Some [0;0;0;0;9]) 4 = Ok (4, Some [48;49;97;98;9]) /\
  unhex [48;49;97;66] = Some [1;171] /\ unhex [48;49;97;71] = None /\
  zt_hex_to_binary ([48;49;97;66] ++ [0]) 4 (Some [7;7;7]) 3 = Ok (2, Some [1;171;7]).
Proof. vm_compute. auto. Qed.

(** ** C08 itoa *)
Theorem C08_int_display_len : forall v, - 2 ^ 31 <= v < 2 ^ 31 -> zt_cstr_int_display_len v = Ok (zlen (decimal v)).
Proof. exact int_display_len_ok. Qed.
Print Assumptions C08_int_display_len.
(** [decimal] really is the decimal numeral. *)
Theorem C08_decimal_faithful : forall n, undecimal (decimal n) = n.
Proof. exact undecimal_decimal. Qed.
Print Assumptions C08_decimal_faithful.
(** When there is room for the numeral and its NUL in the memory [a ++ b ++ x :: post], exactly those bytes change. *)
Theorem C08_itoa_partial : forall a b x post v bufsiz, - 2 ^ 31 <= v < 2 ^ 31 -> zlen b = zlen (decimal v) ->
  zlen a + zlen b <= bufsiz ->
  zt_cstr_itoa (Some (a ++ b ++ x :: post)) v (zlen a) bufsiz =
    Ok (zlen a + zlen (decimal v), Some (a ++ decimal v ++ 0 :: post)).
Proof. exact itoa_ok. Qed.
Print Assumptions C08_itoa_partial.
Theorem C08_itoa_too_small : forall m v offset bufsiz, - 2 ^ 31 <= v < 2 ^ 31 -> bufsiz < offset + zlen (decimal v) ->
  zt_cstr_itoa (Some m) v offset bufsiz = Ok (-1, Some m).
Proof. exact itoa_small. Qed.
Print Assumptions C08_itoa_too_small.
(** The bound is off by one: a buffer exactly as long as the numeral is accepted and overrun by the NUL. *)
Theorem C08_itoa_bound_refuted : exists m v, - 2 ^ 31 <= v < 2 ^ 31 /\ zt_cstr_itoa (Some m) v 0 (zlen m) = UB.
Proof. exists [0;0], 42. split; [lia|vm_compute; reflexivity]. Qed.
Print Assumptions C08_itoa_bound_refuted.
Example C08_ex : zt_cstr_itoa (Some [1;1;1;1;1;1;1;1]) (-1234) 1 8 = Ok (6, Some [1;45;49;50;51;52;0;1]) /\
  decimal (-1234) = [45;49;50;51;52] /\ zt_cstr_int_display_len (- 2 ^ 31) = Ok 11.
Proof. vm_compute. auto. Qed.

(** ** C09 substring search *)
Theorem C09_find : forall s i j pat, in_range s i j -> cstr pat -> pat <> [] ->
  exists r, zt_cstr_find s i j pat = Ok r /\
    ((occurs s pat i j r /\ forall k, k < r -> ~ occurs s pat i j k) \/
     (r = -1 /\ forall k, ~ occurs s pat i j k)).
Proof. exact find_ok. Qed.
Print Assumptions C09_find.
Theorem C09_rfind : forall s i j pat, in_range s i j -> cstr pat -> pat <> [] ->
  exists r, zt_cstr_rfind s i j pat = Ok r /\
    ((occurs s pat i j r /\ forall k, r < k -> ~ occurs s pat i j k) \/
     (r = -1 /\ forall k, ~ occurs s pat i j k)).
Proof. exact rfind_ok. Qed.
Print Assumptions C09_rfind.
Theorem C09_empty_pattern : forall s i j, in_range s i j ->
  zt_cstr_find s i j [] = Ok (-1) /\ zt_cstr_rfind s i j [] = Ok (-1).
Proof.
  intros s i j H. destruct (piece_read _ _ _ H) as (a & b & E & _). unfold zt_cstr_find, zt_cstr_rfind. rewrite E. auto.
Qed.
Print Assumptions C09_empty_pattern.
Example C09_ex : in_range [97;98;97;98;97] (-5) 9 /\ zt_cstr_find [97;98;97;98;97] 1 (-1) [97;98] = Ok 2 /\
  zt_cstr_rfind [97;98;97;98;97] 0 (-1) [97;98;97] = Ok 2 /\ zt_cstr_find [97;97;98] 0 1 [98] = Ok (-1).
Proof. split; [right; cbn; lia|vm_compute; auto]. Qed.

(** ** C10 character searches *)
Theorem C10_any : forall s i j set, cstr s -> in_range s i j ->
  exists r, zt_cstr_any s i j set = Ok r /\ first_pos (fun c => In c set) s i j r.
Proof. exact any_ok. Qed.
Print Assumptions C10_any.
Theorem C10_upto_partial : forall s i j set, cstr s -> s <> [] -> in_range s i j ->
  exists r, zt_cstr_upto s i j set = Ok r /\ first_pos (fun c => In c set) s i j r.
Proof. exact upto_ok. Qed.
Print Assumptions C10_upto_partial.
Theorem C10_rupto_partial : forall s i j set, cstr s -> s <> [] -> in_range s i j ->
  exists r, zt_cstr_rupto s i j set = Ok r /\ last_pos (fun c => In c set) s i j r.
Proof. exact rupto_ok. Qed.
Print Assumptions C10_rupto_partial.
(** On the empty string upto/rupto report a hit at position 0. *)
Theorem C10_upto_empty_refuted : exists set, zt_cstr_upto [] 0 (-1) set = Ok 0 /\ zt_cstr_rupto [] 0 (-1) set = Ok 0.
Proof. exists [97]. vm_compute. auto. Qed.
Print Assumptions C10_upto_empty_refuted.
(** rany finds the right character but reports it relative to the start of the slice. *)
Theorem C10_rany_partial : forall s i j set, cstr s -> in_range s i j ->
  exists r, zt_cstr_rany s i j set = Ok r /\
    ((r = -1 /\ last_pos (fun c => In c set) s i j (-1)) \/
     (0 <= r /\ last_pos (fun c => In c set) s i j (low (zlen s) i j + r))).
Proof. exact rany_ok. Qed.
Print Assumptions C10_rany_partial.
Theorem C10_rany_position_refuted : exists s i j set r, in_range s i j /\ zt_cstr_rany s i j set = Ok r /\
  ~ last_pos (fun c => In c set) s i j r.
Proof.
  exists [97;98;99], 1, 2, [99], 1. split; [right; cbn; lia|]. split; [reflexivity|].
  intros [(_ & (c & E & H) & _)|(E & _)]; [|lia]. cbn in E. injection E as <-. cbn in H. lia.
Qed.
Print Assumptions C10_rany_position_refuted.
(** chr/rchr give the right position when there is one, and 0 when there is none ... *)
Theorem C10_chr_partial : forall s i j c, cstr s -> s <> [] -> in_range s i j ->
  exists r, zt_cstr_chr s i j c = Ok (if r =? -1 then 0 else r) /\ first_pos (char_is c) s i j r.
Proof. exact chr_ok. Qed.
Print Assumptions C10_chr_partial.
Theorem C10_rchr_partial : forall s i j c, cstr s -> s <> [] -> in_range s i j ->
  exists r, zt_cstr_rchr s i j c = Ok (if r =? -1 then 0 else r) /\ last_pos (char_is c) s i j r.
Proof. exact rchr_ok. Qed.
Print Assumptions C10_rchr_partial.
(** ... so "not found" and "found at 0" cannot be told apart. *)
Theorem C10_chr_not_found_refuted : exists s c c', In c s /\ ~ In c' s /\
  zt_cstr_chr s 0 (-1) c = zt_cstr_chr s 0 (-1) c' /\ zt_cstr_rchr s 0 (-1) c = zt_cstr_rchr s 0 (-1) c'.
Proof. exists [97;98], 97, 122. cbn. repeat split; auto. intros [|[|[]]]; lia. Qed.
Print Assumptions C10_chr_not_found_refuted.
(** A character above 127 is found when given as a negative char, never when given as the byte it is. *)
Theorem C10_chr_high_refuted : forall s i j c, cstr s -> s <> [] -> in_range s i j -> 128 <= c -> zt_cstr_chr s i j c = Ok 0 /\ zt_cstr_rchr s i j c = Ok 0.
Proof.
  intros s i j c C N R H. destruct (chr_ok s i j c C N R) as (r & E & F). destruct (rchr_ok s i j c C N R) as (r' & E' & F').
  assert (X : r = -1) by (destruct F as [(_ & (x & _ & K & _) & _)|(K & _)]; [lia|exact K]).
  assert (X' : r' = -1) by (destruct F' as [(_ & (x & _ & K & _) & _)|(K & _)]; [lia|exact K]). subst. auto.
Qed.
Print Assumptions C10_chr_high_refuted.
(** spans: the length of the longest suffix inside / the position of the last character of the set *)
Theorem C10_rspn_partial : forall a c b set, a <> [] -> ~ In c set -> Forall (fun x => In x set) b ->
  zt_cstr_rspn (a ++ c :: b) set = zlen b.
Proof. exact rspn_ok. Qed.
Print Assumptions C10_rspn_partial.
Theorem C10_rspn_all : forall s set, Forall (fun x => In x set) s -> zt_cstr_rspn s set = zlen s.
Proof. exact rspn_all. Qed.
Print Assumptions C10_rspn_all.
(** the first character is never looked at *)
Theorem C10_rspn_first_refuted : exists c b set, ~ In c set /\ Forall (fun x => In x set) b /\ zt_cstr_rspn (c :: b) set <> zlen b.
Proof. exists 97, [32;32], [32]. split; [cbn; lia|]. split; [repeat constructor|vm_compute; discriminate]. Qed.
Print Assumptions C10_rspn_first_refuted.
Theorem C10_rcspn_partial : forall a c b set, a <> [] -> In c set -> Forall (fun x => ~ In x set) b ->
  zt_cstr_rcspn (a ++ c :: b) set = zlen a.
Proof. exact rcspn_ok. Qed.
Print Assumptions C10_rcspn_partial.
Theorem C10_rcspn_none : forall s set, Forall (fun x => ~ In x set) s -> zt_cstr_rcspn s set = zlen s.
Proof. exact rcspn_none. Qed.
Print Assumptions C10_rcspn_none.
Theorem C10_rcspn_first_refuted : exists c b set, In c set /\ Forall (fun x => ~ In x set) b /\ zt_cstr_rcspn (c :: b) set = zlen (c :: b).
Proof. exists 32, [97;98], [32]. split; [cbn; lia|]. split; [repeat constructor; cbn; lia|reflexivity]. Qed.
Print Assumptions C10_rcspn_first_refuted.
Example C10_ex : zt_cstr_any [97;98;99;98] (-3) (-1) [99;98] = Ok 1 /\ zt_cstr_upto [97;98;99;98] 2 3 [98] = Ok 3 /\
  zt_cstr_rupto [97;98;99;98] 0 2 [97;98] = Ok 1 /\ zt_cstr_rspn [97;98;32;32] [32] = 2 /\ cstr [97;98;99;98].
Proof. repeat split; try reflexivity. repeat constructor. Qed.

(** ** C11 slices *)
Theorem C11_sub : forall s i j, cstr s -> in_range s i j ->
  exists m, zt_cstr_sub s i j = Ok m /\ cstring m = slice s i j.
Proof. exact sub_ok. Qed.
Print Assumptions C11_sub.
Theorem C11_reverse : forall s i j, cstr s -> in_range s i j ->
  exists m, zt_cstr_reverse s i j = Ok m /\ cstring m = rev (slice s i j).
Proof. exact reverse_ok. Qed.
Print Assumptions C11_reverse.
(** dup: n copies, as long as the size fits size_t *)
Theorem C11_dup_partial : forall s i j n, cstr s -> in_range s i j -> 0 <= n -> n * Z.max 1 (zlen (slice s i j)) + 1 < 2 ^ 64 ->
  exists m, zt_cstr_dup (Some s) i j n = Ok (Some m) /\ cstring m = concat (repeat (slice s i j) (Z.to_nat n)).
Proof. exact dup_ok. Qed.
Print Assumptions C11_dup_partial.
(** otherwise the size computation wraps and the heap block is overrun *)
Theorem C11_dup_overflow_refuted : exists s n, cstr s /\ 0 <= n < 2 ^ 63 /\ zt_cstr_dup (Some s) 0 (-1) n = UB.
Proof.
  exists [97;98;99;100], (2 ^ 62). split; [repeat constructor|]. split; [lia|].
  unfold zt_cstr_dup. change (0 <=? 2 ^ 62) with true. cbn [guard obind].
  change (CONVERT [97;98;99;100] 0 (-1)) with (@Ok (Z * Z) (0, 3)). cbn [obind].
  change (IDXLEN 0 3) with (@Ok Z 4). cbn [obind]. change ((2 ^ 62 * 4 + 1) mod 2 ^ 64) with 1. change (0 <? 4) with true. cbv iota.
  destruct (Z.to_nat (2 ^ 62)) as [|k] eqn:E; [lia|]. reflexivity.
Qed.
Print Assumptions C11_dup_overflow_refuted.
Theorem C11_map_partial : forall s i j from to, cstr s -> in_range s i j -> cstr from -> cstr to -> length from = length to ->
  Forall (fun c => c < 226 \/ In c from) (slice s i j) ->
  exists m, zt_cstr_map (Some s) i j (Some from) (Some to) = Ok (Some m) /\ cstring m = map (translate from to) (slice s i j).
Proof. exact map_ok. Qed.
Print Assumptions C11_map_partial.
(** characters 226..255 are translated to NUL although they are not in [from] *)
Theorem C11_map_high_refuted : exists s m, cstr s /\
  zt_cstr_map (Some s) 0 (-1) (Some [97]) (Some [98]) = Ok (Some m) /\ cstring m <> map (translate [97] [98]) (slice s 0 (-1)).
Proof. exists [99;230;97]. eexists. split; [repeat constructor|]. split; [vm_compute; reflexivity|]. vm_compute. discriminate. Qed.
Print Assumptions C11_map_high_refuted.
Theorem C11_cat_partial : forall s1 i1 j1 s2 i2 j2, cstr s1 -> cstr s2 -> s1 <> [] -> in_range s1 i1 j1 -> in_range s2 i2 j2 ->
  exists m, zt_cstr_cat s1 i1 j1 s2 i2 j2 = Ok m /\ cstring m = slice s1 i1 j1 ++ slice s2 i2 j2.
Proof. exact cat_ok. Qed.
Print Assumptions C11_cat_partial.
Theorem C11_cat_empty_first_refuted : exists s m, cstr s /\ s <> [] /\
  zt_cstr_cat [] 0 (-1) s 0 (-1) = Ok m /\ cstring m = [].
Proof. exists [97;98]. eexists. split; [repeat constructor|]. split; [discriminate|]. split; [vm_compute; reflexivity|reflexivity]. Qed.
Print Assumptions C11_cat_empty_first_refuted.
(** catv concatenates the slices of all its arguments when none of them is the empty string
    (in general: of the arguments before the first empty one). *)
Theorem C11_catv_partial : forall args, Forall arg_ok args ->
  exists m, zt_cstr_catv args = Ok m /\ cstring m = concat (map aslice (upto_empty args)).
Proof. exact catv_ok_all. Qed.
Print Assumptions C11_catv_partial.
Theorem C11_catv_nonempty : forall args, Forall arg_ok args -> Forall (fun a => fst (fst a) <> []) args ->
  exists m, zt_cstr_catv args = Ok m /\ cstring m = concat (map aslice args).
Proof. exact catv_ok. Qed.
Print Assumptions C11_catv_nonempty.
Theorem C11_pos : forall s i, s <> [] -> - zlen s <= i -> zt_cstr_pos s i = Ok (index (zlen s) i).
Proof. exact pos_ok. Qed.
Print Assumptions C11_pos.
Theorem C11_pos_aborts : forall s i, s = [] \/ i < - zlen s -> zt_cstr_pos s i = Abort.
Proof.
  intros s i H. unfold zt_cstr_pos, IDX, BASE. assert (zlen s = 0 \/ i < - zlen s) as D by (destruct H as [->|]; [now left|now right]).
  pose proof (zlen_nonneg s). destruct (i <? 0) eqn:E1; repeat match goal with |- context [if ?b then _ else _] => destruct b eqn:? end;
  match goal with |- context [guard ?b] => replace b with false by lia end; reflexivity.
Qed.
Print Assumptions C11_pos_aborts.
Theorem C11_len_partial : forall s i j, s <> [] -> in_range s i j -> zt_cstr_len s i j = Ok (zlen (slice s i j)).
Proof. exact len_ok. Qed.
Print Assumptions C11_len_partial.
Theorem C11_len_empty_refuted : zt_cstr_len [] 0 (-1) = Ok 1 /\ zlen (slice [] 0 (-1)) = 0.
Proof. vm_compute. auto. Qed.
Print Assumptions C11_len_empty_refuted.
(** copy: at most len bytes of the slice, everything behind them untouched, no terminator added *)
Theorem C11_copy_partial : forall s i j to len, s <> [] -> in_range s i j -> 0 <= len <= zlen to ->
  zt_cstr_copy s i j to len = Ok (Z.min (zlen (slice s i j)) len,
     firstn (Z.to_nat len) (slice s i j) ++ skipn (Z.to_nat (Z.min (zlen (slice s i j)) len)) to).
Proof. intros s i j to len Hs H Hl. rewrite copy_ok, piece_ne by assumption. reflexivity. Qed.
Print Assumptions C11_copy_partial.
(** indices that do not designate a character are caught by the assertion *)
Theorem C11_out_of_range_aborts : forall s i j, s <> [] -> (i < - zlen s \/ j < - zlen s) ->
  zt_cstr_sub s i j = Abort /\ zt_cstr_reverse s i j = Abort /\ zt_cstr_len s i j = Abort.
Proof.
  intros s i j Hs H. unfold zt_cstr_sub, zt_cstr_reverse, zt_cstr_len. rewrite (CONVERT_bad s i j Hs H). auto.
Qed.
Print Assumptions C11_out_of_range_aborts.
Example C11_ex : cstr [97;98;99;100] /\ in_range [97;98;99;100] (-2) 1 /\ slice [97;98;99;100] (-2) 1 = [98;99] /\
  zt_cstr_sub [97;98;99;100] (-2) 1 = Ok [98;99;0] /\ zt_cstr_reverse [97;98;99;100] 1 9 = Ok [100;99;98;0] /\
  zt_cstr_dup (Some [97;98]) 0 (-1) 3 = Ok (Some [97;98;97;98;97;98;0]) /\
  zt_cstr_map (Some [97;98;97]) 0 (-1) (Some [97;99]) (Some [120;121]) = Ok (Some [120;98;120;0]) /\
  zt_cstr_catv [([97;98],0,-1); ([99;100],1,1)] = Ok [97;98;100;0].
Proof. split; [repeat constructor|]. split; [right; cbn; lia|vm_compute; auto 10]. Qed.

(** ** C12 comparison *)
Theorem C12_cmp_partial : forall s1 i1 j1 s2 i2 j2, s1 <> [] -> s2 <> [] -> in_range s1 i1 j1 -> in_range s2 i2 j2 ->
  let a := slice s1 i1 j1 in let b := slice s2 i2 j2 in
  exists r, zt_cstr_cmp s1 i1 j1 s2 i2 j2 = Ok r /\
    (zlen a <> zlen b -> has_sign r (lex a b)) /\
    (zlen a = zlen b -> has_sign r (lex (removelast a) (removelast b))).
Proof. exact cmp_raw. Qed.
Print Assumptions C12_cmp_partial.
(** [lex] is the order meant: Eq exactly on equal strings *)
Theorem C12_lex_eq : forall a b, lex a b = Eq <-> a = b.
Proof. exact lex_eq. Qed.
Print Assumptions C12_lex_eq.
(** slices of equal length are compared without their last character *)
Theorem C12_cmp_equal_refuted : exists s1 s2, cstr s1 /\ cstr s2 /\ slice s1 0 (-1) <> slice s2 0 (-1) /\
  zt_cstr_cmp s1 0 (-1) s2 0 (-1) = Ok 0.
Proof. exists [97;98], [97;99]. repeat split; try (repeat constructor; fail). vm_compute. discriminate. Qed.
Print Assumptions C12_cmp_equal_refuted.
Example C12_ex : zt_cstr_cmp [97;98;99] 0 (-1) [97;98] 0 (-1) = Ok 1 /\ zt_cstr_cmp [97;98] 0 1 [98;98;98] 0 2 = Ok (-1).
Proof. vm_compute. auto. Qed.

(** ** C13 strip, chomp, paths.  The in-place functions receive the memory block [text ++ 0 :: rest]. *)
Theorem C13_chomp_newline : forall s rest, cstr s -> zt_cstr_chomp ((s ++ [10]) ++ 0 :: rest) = Ok (s ++ 0 :: 0 :: rest).
Proof. exact chomp_nl. Qed.
Print Assumptions C13_chomp_newline.
Theorem C13_chomp_other : forall s c rest, cstr (s ++ [c]) -> c <> 10 ->
  zt_cstr_chomp ((s ++ [c]) ++ 0 :: rest) = Ok ((s ++ [c]) ++ 0 :: rest).
Proof. exact chomp_other. Qed.
Print Assumptions C13_chomp_other.
Theorem C13_chomp_empty_refuted : forall rest, zt_cstr_chomp (0 :: rest) = UB.
Proof. reflexivity. Qed.
Print Assumptions C13_chomp_empty_refuted.
(** leading blanks l, body b, trailing blanks r, no newline *)
Theorem C13_strip_partial : forall l b r rest, cstr (l ++ b ++ r) -> Forall blank l -> Forall blank r -> ~ In 10 b ->
  (b = [] -> r = []) ->
  match b with [] => True | c :: _ => ~ blank c end ->
  match rev b with [] => True | c :: _ => ~ blank c end ->
  (r = [] \/ (2 <= length b)%nat) ->
  exists m, zt_cstr_strip ((l ++ b ++ r) ++ 0 :: rest) = Ok m /\ cstring m = b /\
            length m = length ((l ++ b ++ r) ++ 0 :: rest).
Proof. exact strip_ok. Qed.
Print Assumptions C13_strip_partial.
(** a newline among the trailing characters is kept (one of them) *)
Theorem C13_strip_newline_partial : forall l b x r rest, cstr (l ++ (b ++ [x]) ++ r) -> Forall blank l ->
  Forall (fun c => blank c \/ c = 10) r -> In 10 r ->
  b <> [] -> ~ blank (hd 0 (b ++ [x])) -> ~ (blank x \/ x = 10) ->
  exists m, zt_cstr_strip ((l ++ (b ++ [x]) ++ r) ++ 0 :: rest) = Ok m /\ cstring m = b ++ [x; 10].
Proof. exact strip_newline. Qed.
Print Assumptions C13_strip_newline_partial.
(** a one-character body keeps its trailing blanks; an inner newline makes strip write past the block *)
Theorem C13_strip_single_refuted : zt_cstr_strip [97;32;32;0] = Ok [97;32;32;0].
Proof. vm_compute. reflexivity. Qed.
Print Assumptions C13_strip_single_refuted.
Theorem C13_strip_overflow_refuted : zt_cstr_strip ([97;10;98] ++ [0]) = UB.
Proof. vm_compute. reflexivity. Qed.
Print Assumptions C13_strip_overflow_refuted.
Theorem C13_basename_partial : forall d b npath len, cstr d -> cstr b -> ~ In 47 b -> b <> [] -> zlen b < len <= zlen npath ->
  (exists m, zt_cstr_basename npath len (d ++ 47 :: b) None = Ok m /\ cstring m = b) /\
  (exists m, zt_cstr_basename npath len b None = Ok m /\ cstring m = b).
Proof. exact basename_ok. Qed.
Print Assumptions C13_basename_partial.
Theorem C13_basename_suffix_partial : forall d st e npath len, cstr d -> cstr st -> cstr e -> ~ In 47 (st ++ 46 :: e) -> st <> [] ->
  zlen st < len <= zlen npath ->
  exists m, zt_cstr_basename npath len (d ++ 47 :: st ++ 46 :: e) (Some (46 :: e)) = Ok m /\ cstring m = st.
Proof. exact basename_suffix_ok. Qed.
Print Assumptions C13_basename_suffix_partial.
(** "a/b/" has basename "/" ; suffix "oo" of "x/foo" leaves "fo"; suffix ".c" cuts "a.c.d" in the middle *)
Theorem C13_basename_refuted :
  (exists m, zt_cstr_basename (repeat 9 8) 8 [97;47;98;47] None = Ok m /\ cstring m = [47]) /\
  (exists m, zt_cstr_basename (repeat 9 8) 8 [120;47;102;111;111] (Some [111;111]) = Ok m /\ cstring m = [102;111]) /\
  (exists m, zt_cstr_basename (repeat 9 8) 8 [97;46;99;46;100] (Some [46;99]) = Ok m /\ cstring m = [97]).
Proof. repeat split; eexists; (split; [vm_compute; reflexivity|reflexivity]). Qed.
Print Assumptions C13_basename_refuted.
Theorem C13_dirname_partial : forall d b npath len, cstr d -> cstr b -> ~ In 47 b -> b <> [] -> d <> [] -> zlen d < len <= zlen npath ->
  (exists m, zt_cstr_dirname npath len (d ++ 47 :: b) = Ok m /\ cstring m = d) /\
  (exists m, zt_cstr_dirname npath len (d ++ 47 :: b ++ [47]) = Ok m /\ cstring m = d).
Proof. exact dirname_ok. Qed.
Print Assumptions C13_dirname_partial.
Theorem C13_dirname_no_separator : forall b npath len, cstr b -> ~ In 47 b -> b <> [] -> 1 < len <= zlen npath ->
  (exists m, zt_cstr_dirname npath len b = Ok m /\ cstring m = [46]) /\
  (exists m, zt_cstr_dirname npath len (b ++ [47]) = Ok m /\ cstring m = [46]).
Proof. exact dirname_none. Qed.
Print Assumptions C13_dirname_no_separator.
(** dirname("/") aborts, dirname("") is undefined, dirname("/a") is "/a" *)
Theorem C13_dirname_root_refuted :
  zt_cstr_dirname (repeat 9 8) 8 [47] = Abort /\ zt_cstr_dirname (repeat 9 8) 8 [] = UB /\
  exists m, zt_cstr_dirname (repeat 9 8) 8 [47;97] = Ok m /\ cstring m = [47;97].
Proof. split; [reflexivity|]. split; [reflexivity|]. eexists. split; [vm_compute; reflexivity|reflexivity]. Qed.
Print Assumptions C13_dirname_root_refuted.
Theorem C13_path_append_partial : forall p n m q, cstr p -> cstr q -> p <> [] -> last p 0 <> 47 -> q <> [] -> hd 0 q <> 47 ->
  exists r, zt_cstr_path_append (p ++ repeat 47 n) (repeat 47 m ++ q) = Ok r /\ cstring r = p ++ 47 :: q.
Proof. exact path_append_ok. Qed.
Print Assumptions C13_path_append_partial.
(** "/" + "x" gives two separators, "" + "x" gives "", "a" + "///" gives "a//" *)
Theorem C13_path_append_refuted :
  (exists r, zt_cstr_path_append [47] [120] = Ok r /\ cstring r = [47;47;120]) /\
  (exists r, zt_cstr_path_append [] [120] = Ok r /\ cstring r = []) /\
  (exists r, zt_cstr_path_append [97] [47;47;47] = Ok r /\ cstring r = [97;47;47]).
Proof. repeat split; eexists; (split; [vm_compute; reflexivity|reflexivity]). Qed.
Print Assumptions C13_path_append_refuted.
Theorem C13_abspath : forall p, zt_cstr_abspath p = true <-> (exists r, p = 47 :: r) \/ (exists r, p = 46 :: 47 :: r).
Proof. exact abspath_ok. Qed.
Print Assumptions C13_abspath.
Example C13_ex : (exists m, zt_cstr_strip ([32;9;97;32;98;32] ++ [0]) = Ok m /\ cstring m = [97;32;98]) /\
  (exists m, zt_cstr_basename (repeat 9 8) 8 [47;97;47;98;99] None = Ok m /\ cstring m = [98;99]) /\
  (exists m, zt_cstr_dirname (repeat 9 8) 8 [47;97;47;98;99] = Ok m /\ cstring m = [47;97]) /\
  (exists m, zt_cstr_path_append [97;47] [47;98] = Ok m /\ cstring m = [97;47;98]).
Proof. repeat split; eexists; (split; [vm_compute; reflexivity|reflexivity]). Qed.

(** ** C14 tokenising *)
Theorem C14_split : forall s delim, zt_cstr_split s delim = Ok (filter nonempty (fields delim s)).
Proof. exact split_ok. Qed.
Print Assumptions C14_split.
(** what that means: tokens are non-empty, contain no delimiter, and together are exactly the non-delimiters in order *)
Theorem C14_split_nothing_lost : forall s delim, exists ts, zt_cstr_split s delim = Ok ts /\
  Forall (fun t => t <> [] /\ Forall (fun c => ~ In c delim) t) ts /\
  concat ts = filter (fun c => negb (existsb (Z.eqb c) delim)) s.
Proof. exact split_facts. Qed.
Print Assumptions C14_split_nothing_lost.
(** cut: for every delimiter that is not the last character, the text behind it (from it, with keep) *)
Theorem C14_cut : forall s d k, d <> 0 -> zt_cstr_cut s d k = Ok (cuts d k s).
Proof. exact cut_ok. Qed.
Print Assumptions C14_cut.
Theorem C14_cut_nul_refuted : forall s k, zt_cstr_cut s 0 k = UB.
Proof. reflexivity. Qed.
Print Assumptions C14_cut_nul_refuted.
(** tok: the text without one trailing delimiter, then its prefixes ending before each delimiter (not at 0), longest first *)
Theorem C14_tok : forall s c d, 0 < d < 128 -> 0 < c < 256 ->
  zt_cstr_tok (s ++ [c]) d = Ok (prefixes d (if c =? d then s else s ++ [c])).
Proof. exact tok_ok. Qed.
Print Assumptions C14_tok.
Theorem C14_tok_empty_refuted : forall d, zt_cstr_tok [] d = UB.
Proof. reflexivity. Qed.
Print Assumptions C14_tok_empty_refuted.
Example C14_ex : zt_cstr_split [44;97;98;44;44;99] [44;59] = Ok [[97;98];[99]] /\
  zt_cstr_cut [97;46;98;46;99] 46 false = Ok [[98;46;99];[99]] /\
  zt_cstr_tok [47;97;47;98;47] 47 = Ok [[47;97;47;98];[47;97]].
Proof. vm_compute. auto. Qed.
