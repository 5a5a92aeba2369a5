(** C10, C11: what the string functions do outside the cases their contract covers, for every argument. *)
From Verif Require Import Prelude CstrModel CstrSpec CstrProofs CstrSearch CstrText.
Local Open Scope Z_scope.

(** *** C10: the empty string *)
(** searching the empty string for any set of characters: upto and rupto report a hit at 0, any and rany report that there is none *)
Theorem C10_empty_sets : forall i j set, zt_cstr_upto [] i j set = Ok 0 /\ zt_cstr_rupto [] i j set = Ok 0 /\ zt_cstr_any [] i j set = Ok (-1) /\ zt_cstr_rany [] i j set = Ok (-1).
Proof. intros i j set. repeat split; reflexivity. Qed.
(** and for any character: 0, found (the terminator) or not *)
Theorem C10_empty_chr : forall i j c, zt_cstr_chr [] i j c = Ok 0 /\ zt_cstr_rchr [] i j c = Ok 0.
Proof. intros i j c. unfold zt_cstr_chr, zt_cstr_rchr. rewrite !CONVERT_e. cbn [obind]. cbn [fuel_of Z.to_nat Z.sub Z.add]. split; vm_compute scan_up; vm_compute scan_down; cbn; destruct (match c with 0 => true | _ => false end); reflexivity. Qed.
(** *** C10: the first character is never looked at, whatever it is *)
Theorem C10_rspn_first : forall c b set, Forall (fun x => In x set) b -> zt_cstr_rspn (c :: b) set = zlen (c :: b).
Proof. exact rspn_single. Qed.
Theorem C10_rcspn_first : forall c b set, Forall (fun x => ~ In x set) b -> zt_cstr_rcspn (c :: b) set = zlen (c :: b).
Proof.
  intros c b A H. unfold zt_cstr_rcspn. replace (length (c :: b) - 1)%nat with (length b) by (cbn [length]; lia). assert (G : forall n, (n <= length b)%nat -> rcspn_loop n (c :: b) A = zlen (c :: b)); [|now apply G].
  induction n as [|n IH]; intros L; [reflexivity|]. cbn [rcspn_loop]. destruct (strcspn (skipn (S n) (c :: b)) A =? 0) eqn:E; [|apply IH; lia]. exfalso. apply Z.eqb_eq in E. apply strcspn_0 in E. cbn [skipn] in E.
  destruct (skipn n b) as [|x r] eqn:K; [apply (f_equal (@length Z)) in K; rewrite skipn_length in K; cbn [length] in K; lia|]. rewrite Forall_forall in H. apply (H x); [|exact E]. rewrite <- (firstn_skipn n b), K. apply in_or_app. right. now left.
Qed.
(** *** C11 *)
(** cat for every pair of strings: nothing at all is seen when the first is empty *)
Theorem C11_cat_exact : forall s1 i1 j1 s2 i2 j2, cstr s1 -> cstr s2 -> in_range s1 i1 j1 -> in_range s2 i2 j2 ->
  exists m, zt_cstr_cat s1 i1 j1 s2 i2 j2 = Ok m /\ cstring m = match s1 with [] => [] | _ => slice s1 i1 j1 ++ slice s2 i2 j2 end.
Proof.
  intros s1 i1 j1 s2 i2 j2 C1 C2 R1 R2. destruct s1 as [|c s1]; [|apply cat_ok; auto; discriminate]. rewrite cat_raw by assumption. eexists. split; [reflexivity|]. reflexivity.
Qed.
(** len counts one character in the empty string *)
Theorem C11_len_exact : forall s i j, in_range s i j -> zt_cstr_len s i j = Ok (match s with [] => 1 | _ => zlen (slice s i j) end).
Proof. intros s i j R. destruct s as [|c s]; [reflexivity|]. apply len_ok; [discriminate|exact R]. Qed.
(** copy: of the empty string the terminator is copied, if there is room *)
Theorem C11_copy_empty : forall i j to len, 0 <= len <= zlen to -> zt_cstr_copy [] i j to len = Ok (Z.min 1 len, firstn (Z.to_nat len) [0] ++ skipn (Z.to_nat (Z.min 1 len)) to).
Proof. intros i j to len L. rewrite copy_ok by (auto; now left). reflexivity. Qed.

(** map for every string and all tables of the same length: the result ends before the first character above 225 that is not translated *)
Fixpoint seen (from s : list Z) : list Z :=
  match s with [] => [] | c :: r => if (225 <? c) && negb (existsb (Z.eqb c) from) then [] else c :: seen from r end.
Theorem C11_map_exact : forall s i j from to, cstr s -> in_range s i j -> cstr from -> cstr to -> length from = length to ->
  exists m, zt_cstr_map (Some s) i j (Some from) (Some to) = Ok (Some m) /\ cstring m = map (translate from to) (seen from (slice s i j)).
Proof.
  intros s i j from to Hc H Hf Ht Hl. unfold zt_cstr_map.
  destruct (map_fill_ok from to map0 map0_length Hl Hf) as (tb & E & L & TB). rewrite E. cbn [obind].
  destruct (piece_read _ _ _ H) as (a & b & E1 & Ha & Hb1 & L1 & R1). rewrite E1. cbn [obind].
  rewrite IDXLEN_ok by lia. cbn [obind].
  rewrite map_copy_ok; unfold fuel_of; try lia; [|unfold zlen at 1; cbn [length]; lia]. rewrite R1. cbn [obind app].
  rewrite bput_ok by (rewrite zlen_map; lia). cbn [obind].
  eexists; split; [reflexivity|].
  apply in_range_cases in H as [->|(Hs & Hi & Hj)].
  - rewrite slice_nil. cbn [piece map app]. rewrite TB by lia.
    replace (existsb (Z.eqb 0) from) with false.
    + rewrite map0_nth by lia. reflexivity.
    + symmetry. apply not_true_iff_false. rewrite existsb_exists. intros (x & Hx & Hx0).
      unfold cstr in Hf. rewrite Forall_forall in Hf. specialize (Hf x Hx). lia.
  - rewrite piece_ne by assumption. pose proof (cstr_slice s i j Hc) as HC. revert HC. generalize (slice s i j). intros sl HC.
    induction HC as [|c sl C0 HC IH]; [reflexivity|]. cbn [map app cstring seen]. rewrite TB by lia. rewrite map0_nth by lia. destruct (existsb (Z.eqb c) from) eqn:Ex.
    + rewrite andb_false_r. cbn [map]. pose proof (translate_in from to c Hl Ex) as I2. unfold cstr in Ht. rewrite Forall_forall in Ht. specialize (Ht _ I2). replace (translate from to c =? 0) with false by lia. now rewrite IH.
    + rewrite andb_true_r. destruct (225 <? c) eqn:X.
      * replace (c <? 226) with false by lia. reflexivity.
      * replace (c <? 226) with true by lia. replace (c =? 0) with false by lia. cbn [map]. rewrite translate_notin by assumption. now rewrite IH.
Qed.
(** tables of different lengths: the assertion fails *)
Theorem C11_map_lengths : forall s i j from to, length from <> length to -> zt_cstr_map s i j (Some from) (Some to) = Abort.
Proof.
  intros s i j from to H. unfold zt_cstr_map. assert (G : forall m, map_fill m from to = Abort); [|now rewrite G].
  revert to H. induction from as [|f from IH]; intros [|t to] H m; cbn [map_fill]; [now cbn in H|reflexivity|reflexivity|]. apply IH. cbn [length] in H. congruence.
Qed.
(** dup: whenever the size does not fit size_t, the block is overrun *)
Lemma copy_up_exact s j cap : forall fuel i acc, 0 <= i <= j + 1 -> j <= zlen s -> (Z.to_nat (j - i + 1) <= fuel)%nat ->
  zlen acc <= cap -> (zlen acc + (j - i + 1) <= cap -> exists acc', copy_up fuel s i j cap acc = Ok acc' /\ zlen acc' = zlen acc + (j - i + 1)) /\ (cap < zlen acc + (j - i + 1) -> copy_up fuel s i j cap acc = UB).
Proof.
  induction fuel as [|f IH]; intros i acc Hi Hj Hf HC; cbn [copy_up].
  - destruct (i <=? j) eqn:E; [lia|]. split; intros; [exists acc; split; [reflexivity|lia]|lia].
  - destruct (i <=? j) eqn:E; [|split; intros; [exists acc; split; [reflexivity|lia]|lia]]. rewrite rd_ok by lia. cbn [obind]. unfold bput. destruct (zlen acc <? cap) eqn:B; cbn [obind]; [|split; intros; [lia|reflexivity]].
    assert (ZA : zlen (acc ++ [nth (Z.to_nat i) (s ++ [0]) 0]) = zlen acc + 1) by (rewrite zlen_app; reflexivity).
    destruct (IH (i + 1) (acc ++ [nth (Z.to_nat i) (s ++ [0]) 0])) as [I1 I2]; try lia. rewrite ZA in *. split; intros K; [destruct I1 as (acc' & -> & Z'); [lia|]; exists acc'; split; [reflexivity|lia]|apply I2; lia].
Qed.
Lemma dup_loop_ub s i j cap : 0 <= i <= j -> j <= zlen s -> forall n acc, zlen acc <= cap -> cap < zlen acc + Z.of_nat n * (j - i + 1) -> dup_loop n s i j cap acc = UB.
Proof.
  intros Hi Hj. induction n as [|n IH]; intros acc HC HN; [lia|]. cbn [dup_loop]. destruct (copy_up_exact s j cap (fuel_of i j) i acc) as [I1 I2]; try (unfold fuel_of; lia).
  destruct (Z.le_gt_cases (zlen acc + (j - i + 1)) cap) as [K|K]; [|rewrite I2 by lia; reflexivity]. destruct (I1 K) as (acc' & -> & ZA). cbn [obind]. apply IH; lia.
Qed.
Theorem C11_dup_overflow : forall s i j n, in_range s i j -> 0 <= n < 2 ^ 64 -> 2 ^ 64 <= n * Z.max 1 (zlen (slice s i j)) + 1 -> zt_cstr_dup (Some s) i j n = UB.
Proof.
  intros s i j n R N H. unfold zt_cstr_dup. replace (0 <=? n) with true by lia. cbn [guard obind]. destruct (piece_read _ _ _ R) as (a & b & E & Ha & Hb & L & _). rewrite E. cbn [obind]. rewrite IDXLEN_ok by lia. cbn [obind]. cbv zeta. replace (0 <? b - a + 1) with true by lia.
  assert (LE : Z.max 1 (zlen (slice s i j)) = b - a + 1).
  { rewrite <- L. destruct s as [|c s]; [rewrite slice_nil; reflexivity|]. rewrite piece_ne in * by discriminate. lia. }
  rewrite LE in H. assert (D : (n * (b - a + 1) + 1) mod 2 ^ 64 <= n * (b - a + 1) + 1 - 2 ^ 64).
  { rewrite Z.mod_eq by lia. assert (1 <= (n * (b - a + 1) + 1) / 2 ^ 64) by (apply Z.div_le_lower_bound; lia). nia. }
  pose proof (Z.mod_pos_bound (n * (b - a + 1) + 1) (2 ^ 64)) as MB. rewrite dup_loop_ub; [reflexivity|lia|lia|unfold zlen at 1; cbn [length]; lia|]. unfold zlen at 1. cbn [length]. rewrite Z2Nat.id by lia. lia.
Qed.
(** Non-vacuity *)
Example C11_exact_ex : in_range [97; 98; 99; 100] 0 (-1) /\ 2 ^ 64 <= 2 ^ 62 * Z.max 1 (zlen (slice [97; 98; 99; 100] 0 (-1))) + 1 /\ seen [97; 230] [97; 230; 98; 231; 98] = [97; 230; 98] /\
  (match zt_cstr_map (Some [97; 230; 98; 231; 98]) 0 (-1) (Some [97; 230]) (Some [65; 66]) with Ok (Some m) => cstring m = [65; 66; 98] | _ => False end).
Proof. split; [right; vm_compute; split; discriminate|]. split; [vm_compute; discriminate|]. split; vm_compute; reflexivity. Qed.
Example C10_first_ex : zt_cstr_rspn [120; 32; 32] [32] = 3 /\ zt_cstr_rcspn [32; 120; 120] [32] = 3.
Proof. vm_compute. auto. Qed.
Print Assumptions C10_empty_sets. Print Assumptions C10_empty_chr. Print Assumptions C10_rspn_first. Print Assumptions C10_rcspn_first. Print Assumptions C11_cat_exact. Print Assumptions C11_len_exact. Print Assumptions C11_copy_empty. Print Assumptions C11_map_exact. Print Assumptions C11_map_lengths. Print Assumptions C11_dup_overflow.
