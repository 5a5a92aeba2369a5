(** C29: zt_ipv4_tbl.c.  [in_net ip b x]: address x has the same first b bits as ip.  [within ip b hip hb]: every address of ip/b lies in
    hip/hb.  [add_all]: add the networks one after the other; [node_of nets n hip hb]: n is the node returned for the nid(n)-th of them. *)
From Verif Require Import Prelude Ipv4Model Ipv4Proofs.
Open Scope Z_scope.

(** Whatever networks were added in whatever order to a table of any size: adding succeeds, and a search for any address or network
    finds an added network that contains it, or nothing when no added network contains it -- except that when all 32 prefix lengths
    are present an unsuccessful search runs off the end of the table (the refutation below). *)
Theorem C29_search_partial : forall size nets, 0 <= size -> Forall (fun x => valid_net (fst x) (snd x)) nets ->
  exists t, add_all (tbl_init size) 0 nets = Ok t /\
  forall ip b, valid_net ip b ->
  (exists n hip hb, search_net t ip b = Ok (Some n) /\ node_of nets n hip hb /\ within ip b hip hb) \/
  ((forall hip hb, In (hip, hb) nets -> ~ within ip b hip hb) /\
   (search_net t ip b = Ok None \/ (search_net t ip b = UB /\ has_all_lengths nets))).
Proof.
  intros size nets S F. destruct (table_all nets (tbl_init size) [] (init_table size S) F) as (t & E & T).
  exists t. split; [exact E|]. intros ip b V. exact (search_ok t nets ip b T F V).
Qed.
Print Assumptions C29_search_partial.
(** the usual case: some prefix length is absent.  Then search is exact: found iff contained in an added network. *)
Theorem C29_search_iff_partial : forall size nets, 0 <= size -> Forall (fun x => valid_net (fst x) (snd x)) nets -> ~ has_all_lengths nets ->
  exists t, add_all (tbl_init size) 0 nets = Ok t /\
  forall ip b, valid_net ip b -> exists r, search_net t ip b = Ok r /\
    match r with
    | Some n => exists hip hb, node_of nets n hip hb /\ within ip b hip hb
    | None => forall hip hb, In (hip, hb) nets -> ~ within ip b hip hb
    end.
Proof.
  intros size nets S F NA. destruct (C29_search_partial size nets S F) as (t & E & T). exists t. split; [exact E|]. intros ip b V.
  destruct (T ip b V) as [(n & hip & hb & H & N)|(M & [H|[_ H]])]; [|exists None; auto|contradiction].
  exists (Some n). split; [exact H|]. exists hip, hb. exact N.
Qed.
Print Assumptions C29_search_iff_partial.
(** single addresses: ip/32 is within hip/hb exactly when ip lies in that network *)
Theorem C29_within_address : forall ip hip hb, 0 <= ip < 2 ^ 32 -> (within ip 32 hip hb <-> in_net hip hb ip).
Proof.
  intros ip hip hb I. unfold within, in_net. change (2 ^ (32 - 32)) with 1. split.
  - intros H. apply H. split; [exact I|reflexivity].
  - intros H x [X1 X2]. rewrite !Z.div_1_r in X2. now subst x.
Qed.
Print Assumptions C29_within_address.
(** the pairwise comparison function is containment *)
Theorem C29_addr_cmp : forall ip b a hip hb h, valid_net ip b -> valid_net hip hb -> make_addr ip b = Ok a -> make_addr hip hb = Ok h ->
  (addr_cmp h a = true <-> within ip b hip hb).
Proof. exact addr_cmp_within. Qed.
Print Assumptions C29_addr_cmp.
(** network and broadcast address *)
Theorem C29_make_addr : forall ip b, valid_net ip b -> exists a, make_addr ip b = Ok a /\ bitlen a = b /\
  forall x, in_net ip b x <-> a_addr a <= x <= a_bcast a.
Proof.
  intros ip b V. rewrite (make_addr_ok ip b V). eexists. split; [reflexivity|]. split; [reflexivity|]. cbn [a_addr a_bcast]. intros x. unfold in_net. destruct V as [I B].
  set (w := 2 ^ (32 - b)). assert (W : 0 < w) by (apply Z.pow_pos_nonneg; lia).
  assert (QW : 2 ^ 32 = 2 ^ b * w) by (unfold w; rewrite <- Z.pow_add_r by lia; f_equal; lia).
  assert (0 <= ip / w) by (apply Z.div_pos; lia). assert (ip / w < 2 ^ b) by (apply Z.div_lt_upper_bound; lia).
  split.
  - intros [X1 X2]. pose proof (Z.div_mod x w ltac:(lia)). pose proof (Z.mod_pos_bound x w W). nia.
  - intros X. split; [nia|]. symmetry. apply (Z.div_unique_pos x w (ip / w) (x - ip / w * w)); lia.
Qed.
Print Assumptions C29_make_addr.
(** "text/digits" is parsed as the address text (at most 15 characters) and the number, at most 32 *)
Theorem C29_str2net_partial : forall inet s ds t, plain s -> (length s <= 15)%nat -> Forall isdigit ds -> ds <> [] -> dec_value ds 0 < 2147483648 ->
  str2net inet (s ++ 47 :: ds ++ 0 :: t) = Ok (Some (inet (s ++ repeat 0 (16 - length s)), Z.min (dec_value ds 0) 32)).
Proof. exact str2net_ok. Qed.
Print Assumptions C29_str2net_partial.

(** an address without a slash is a /32; the code copies 16 bytes from it, so they must be there, whatever follows the NUL *)
Theorem C29_str2net_address_partial : forall inet s t, plain s -> (length s <= 15)%nat -> (15 <= length s + length t)%nat ->
  str2net inet (s ++ 0 :: t) = Ok (Some (inet (s ++ 0 :: firstn (15 - length s) t), 32)).
Proof.
  intros inet s t P L R. unfold str2net.
  assert (SL : forall s i, plain s -> slash (s ++ 0 :: t) i = Ok None).
  { clear. induction s as [|c s IH]; intros i P; cbn [app slash]; [reflexivity|]. inversion P as [|? ? [P1 P2] P3]; subst.
    destruct (Z.eqb_spec c 47); [contradiction|]. destruct (Z.eqb_spec c 0); [contradiction|]. now apply IH. }
  rewrite SL by exact P. cbn [obind]. unfold copy_save, MAXLINE. destruct (Nat.ltb_spec (length (s ++ 0 :: t)) 16) as [X|_].
  { rewrite app_length in X. cbn [length] in X. lia. }
  cbn [obind]. replace (16 - 16)%nat with 0%nat by lia. cbn [repeat]. rewrite app_nil_r.
  assert (E : firstn 16 (s ++ 0 :: t) = s ++ 0 :: firstn (15 - length s) t).
  { rewrite firstn_app. rewrite firstn_all2 by lia. f_equal. replace (16 - length s)%nat with (S (15 - length s)) by lia. reflexivity. }
  rewrite E. assert (X : existsb (Z.eqb 0) (s ++ 0 :: firstn (15 - length s) t) = true).
  { apply existsb_exists. exists 0. split; [|reflexivity]. apply in_or_app. right. now left. }
  now rewrite X.
Qed.
Print Assumptions C29_str2net_address_partial.
(** more than 15 characters before the slash: refused *)
Theorem C29_str2net_long : forall inet s ds t, plain s -> (15 < length s)%nat -> Forall isdigit ds -> ds <> [] -> dec_value ds 0 < 2147483648 ->
  str2net inet (s ++ 47 :: ds ++ 0 :: t) = Ok None.
Proof.
  intros inet s ds t P L F N V. unfold str2net. rewrite slash_at by exact P. cbn [obind plus].
  replace (skipn (S (length s)) (s ++ 47 :: ds ++ 0 :: t)) with (ds ++ 0 :: t).
  2:{ change (s ++ 47 :: ds ++ 0 :: t) with (s ++ [47] ++ ds ++ 0 :: t). rewrite app_assoc. rewrite skipn_app, app_length. cbn [length].
      rewrite skipn_all2 by (rewrite app_length; cbn; lia). replace (S (length s) - (length s + 1))%nat with 0%nat by lia. reflexivity. }
  assert (A : atoi (ds ++ 0 :: t) = Ok (dec_value ds 0)).
  { destruct ds as [|c ds]; [congruence|]. inversion F as [|? ? F1 F2]; subst. unfold isdigit in F1. cbn [app atoi]. unfold isspace.
    replace ((c =? 32) || (9 <=? c) && (c <=? 13)) with false by lia. replace (c =? 45) with false by lia. replace (c =? 43) with false by lia.
    change (c :: ds ++ 0 :: t) with ((c :: ds) ++ 0 :: t). rewrite digits_ok by (auto; lia). cbn [obind]. replace (_ =? 2147483648) with false by lia. reflexivity. }
  rewrite A. cbn [obind]. unfold MAXLINE. destruct (Nat.ltb_spec (16 - 1) (length s)); [reflexivity|lia].
Qed.
Print Assumptions C29_str2net_long.

(** Violations. *)
Definition every_length : list (Z * Z) := map (fun b => (0, Z.of_nat b)) (seq 1 32).
(** all 32 prefix lengths present: searching for an address in none of them reads in[32] *)
Theorem C29_search_overrun_refuted : exists t, add_all (tbl_init 1) 0 every_length = Ok t /\ search_net t (2 ^ 31) 32 = UB.
Proof. eexists. split; [vm_compute; reflexivity|]. vm_compute. reflexivity. Qed.
Print Assumptions C29_search_overrun_refuted.
(** a negative prefix length ("1.2.3.4/-1") indexes netmask_tbl before its start *)
Theorem C29_negative_bitlen_refuted : forall inet, exists s b, str2net inet s = Ok (Some (inet ([49; 46; 50; 46; 51; 46; 52] ++ repeat 0 9), b)) /\ forall ip, make_addr ip b = UB.
Proof. intros inet. exists [49; 46; 50; 46; 51; 46; 52; 47; 45; 49; 0], (-1). split; reflexivity. Qed.
Print Assumptions C29_negative_bitlen_refuted.
(** "1.2.3.4/x": the garbage after the slash is taken as /0, the network that contains everything *)
Theorem C29_garbage_is_any_refuted : forall inet, exists s ip, str2net inet s = Ok (Some (ip, 0)) /\ forall j b, valid_net ip 0 -> valid_net j b -> within j b ip 0.
Proof.
  intros inet. exists [49; 46; 50; 46; 51; 46; 52; 47; 120; 0]. eexists. split; [reflexivity|]. intros j b V0 V. now apply within_zero.
Qed.
Print Assumptions C29_garbage_is_any_refuted.
(** an address without a slash shorter than 15 characters: 16 bytes are read from it *)
Theorem C29_short_address_overread_refuted : forall inet, exists s, str2net inet (s ++ [0]) = UB /\ plain s.
Proof. intros inet. exists [49; 46; 50; 46; 51; 46; 52]. split; [reflexivity|]. repeat constructor; discriminate. Qed.
Print Assumptions C29_short_address_overread_refuted.

Example C29_ex : let nets := [(3232235776, 24); (167772160, 8); (3232235776, 16)] in
  Forall (fun x => valid_net (fst x) (snd x)) nets /\ ~ has_all_lengths nets /\
  exists t, add_all (tbl_init 128) 0 nets = Ok t /\
    (exists n, search_net t 3232235781 32 = Ok (Some n) /\ nid n = 0%nat) /\ (exists n, search_net t 3232236037 32 = Ok (Some n) /\ nid n = 2%nat) /\ search_net t 16843009 32 = Ok None.
Proof.
  cbv zeta. split; [|split].
  - repeat constructor; cbn; lia.
  - intros H. destruct (H 32 ltac:(lia)) as (ip & [E|[E|[E|[]]]]); discriminate.
  - eexists. split; [vm_compute; reflexivity|]. split; [eexists; split; [vm_compute; reflexivity|reflexivity]|]. split; [eexists; split; [vm_compute; reflexivity|reflexivity]|vm_compute; reflexivity].
Qed.
