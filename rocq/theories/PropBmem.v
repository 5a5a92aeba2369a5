(** C68: the memory of buffers, pointers into them, and buffers given to themselves. *)
From Coq Require Import Permutation.
From Verif Require Import Prelude Perm HeapModel Blocks BufModel BufProofs BmemModel BmemSpec BmemProofs BmemSim BmemStep.
Local Open Scope Z_scope.

(** C16: once something was drained, an addition works exactly if it fits the block; otherwise it is undefined. *)
Theorem C16_add_after_drain_exact : forall b s d, contains b s -> 0 < off b ->
  (off b + Z.of_nat (length s + length d) <= cap b -> exists b', buf_add b d = Ok b' /\ contains b' (s ++ d) /\ off b' = off b /\ cap b' = cap b) /\ (cap b < off b + Z.of_nat (length s + length d) -> buf_add b d = UB).
Proof.
  intros b s d H O. split; intros F.
  - destruct (BufProofs.add_ok b s d H) as (b' & A1 & A2 & A3 & A4 & A5); [left; lia|]. exists b'. repeat split; auto; try apply A2. apply A5. lia.
  - set (v := mkvb s (off b) (cap b) (max b) 0 0). assert (Rp : rep b v) by (split; [exact H|auto]). pose proof (rep_unused _ _ Rp) as U. unfold buf_add. cbv zeta. rewrite U. destruct (Z.of_nat (length d) >? vmax v - size v) eqn:G.
    + pose proof (expand_x b v (Z.of_nat (length d)) Rp ltac:(lia) ltac:(lia)) as X. unfold vgrow in X. rewrite G in X. cbn [vdr v] in X. replace (off b =? 0) with false in X by lia. cbn [safe obind] in X. rewrite X. reflexivity.
    + cbn [obind]. pose proof (put_x b v d Rp) as X. unfold vput in X. replace (vdr v + size v + Z.of_nat (length d) <=? vcap v) with false in X by (unfold v, size; cbn [vdr vs vcap]; lia). cbn [safe obind] in X. exact X.
Qed.

Section P.
(** where malloc and realloc place a block: not at NULL and not where one is *)
Variable pick : nat -> list nat -> nat.
Hypothesis ok : good pick.
Notation brun := (brun pick).

Definition vblocks (o : option vb) : nat := match o with Some v => if Nat.eqb (vgen v) 0 then 1 else 2 | None => 0 end.
Lemma all_len G V : Forall2 brep G V -> length (all G) = list_sum (map vblocks V).
Proof.
  induction 1 as [|g o G V Rg F IH]; [reflexivity|]. unfold all in *. cbn [flat_map map]. change (list_sum (?a :: ?l)) with (a + list_sum l)%nat. rewrite app_length, IH. f_equal. destruct g as [[[a p] b]|], o as [v|]; cbn [brep] in Rg; try contradiction; [|reflexivity]. destruct Rg as (Pl & _ & Bn). cbn [acell bcells vblocks length]. unfold placed in Pl. destruct p as [d|]; cbn [kcells length]; destruct (Nat.eqb_spec (vgen v) 0) as [Z|Z]; try reflexivity; exfalso; [apply Bn in Z; apply Pl in Z; discriminate|apply Z; apply Bn; now apply Pl].
Qed.
(** Any program on any number of buffers that is fine when buffers are byte strings - additions of bytes of its own, of bytes at pointers it got from any buffer, of whole buffers, also of a buffer to itself; draining, removing, reserving, looking through pointers - runs the same in memory wherever malloc places blocks; a pointer shows the bytes that were there when it was given out, until its buffer grows or is emptied; and what stays allocated is one block per open buffer and another if it ever grew. *)
Theorem C68_history os rs v : vrun vw0 os = Ok (rs, v) ->
  exists w, brun bw0 os = Ok (rs, w) /\ length (blocks (bm w)) = list_sum (map vblocks (vbufs v)).
Proof.
  intros E. destruct (run_ok pick ok os bw0 vw0 [] rs v inv0 E) as (w & G & Ew & V). exists w. split; [exact Ew|]. rewrite (owns_size _ _ (i_own _ _ _ V)). exact (all_len _ _ (i_rep _ _ _ V)).
Qed.
Theorem C68_all_freed os rs v : vrun vw0 os = Ok (rs, v) -> Forall (fun o => o = None) (vbufs v) -> exists w, brun bw0 os = Ok (rs, w) /\ blocks (bm w) = [].
Proof.
  intros E F. destruct (C68_history os rs v E) as (w & Ew & L). exists w. split; [exact Ew|]. apply length_zero_iff_nil. rewrite L. clear - F. induction F as [|o l -> F IH]; [reflexivity|exact IH].
Qed.
Lemma brun_app : forall a b w, brun w (a ++ b) = ' (l, w) <- brun w a ;; ' (l', w) <- brun w b ;; Ok (l ++ l', w).
Proof.
  induction a as [|o a IH]; intros b w; cbn [app BmemSpec.brun obind]; [destruct (brun w b) as [[l w']| | |]; reflexivity|]. destruct (bstep pick w o) as [[r w']| | |]; cbn [obind]; try reflexivity. rewrite IH. destruct (brun w' a) as [[l w2]| | |]; cbn [obind]; try reflexivity. destruct (brun w2 b) as [[l' w3]| | |]; reflexivity.
Qed.
Lemma vrun_app : forall a b w, vrun w (a ++ b) = ' (l, w) <- vrun w a ;; ' (l', w) <- vrun w b ;; Ok (l ++ l', w).
Proof.
  induction a as [|o a IH]; intros b w; cbn [app vrun obind]; [destruct (vrun w b) as [[l w']| | |]; reflexivity|]. destruct (vstep w o) as [[r w']| | |]; cbn [obind]; try reflexivity. rewrite IH. destruct (vrun w' a) as [[l w2]| | |]; cbn [obind]; try reflexivity. destruct (vrun w2 b) as [[l' w3]| | |]; reflexivity.
Qed.
Lemma facts os rs v i vv : vrun vw0 os = Ok (rs, v) -> nth_error (vbufs v) i = Some (Some vv) -> exists w G, brun bw0 os = Ok (rs, w) /\ inv w v G /\ live (vbufs v) i = Ok vv /\ 0 <= vdr vv /\ vdr vv + size vv <= vcap vv /\ vcap vv <= vmax vv /\ (vdr vv = 0 -> vmax vv = vcap vv).
Proof.
  intros E El. destruct (run_ok pick ok os bw0 vw0 [] rs v inv0 E) as (w & G & Ew & V). exists w, G. apply some_live in El. split; [exact Ew|]. split; [exact V|]. split; [exact El|]. destruct (get_buf _ _ _ _ _ V El) as (a & p & b & R & _ & _ & _ & Rp & _). destruct (rep_pos _ _ Rp) as (L1 & L2 & L3). rewrite (rep_len _ _ Rp) in *. destruct Rp as ((_ & _ & _ & _ & M1 & M2 & _) & O1 & C1 & X1). rewrite O1, C1, X1 in *. repeat split; try lia.
Qed.
(** Adding bytes of its own to a buffer from which something was drained: it works exactly if the bytes fit behind the contents in the block; if they do not, the program overruns the block or reallocates a pointer into the middle of it. *)
Theorem C68_add_after_drain os rs v i vv d : vrun vw0 os = Ok (rs, v) -> nth_error (vbufs v) i = Some (Some vv) -> 0 < vdr vv ->
  (vdr vv + size vv + Z.of_nat (length d) <= vcap vv -> exists w, brun bw0 (os ++ [BAdd i (IOwn d)]) = Ok (rs ++ [RNum 0], w)) /\
  (vcap vv < vdr vv + size vv + Z.of_nat (length d) -> brun bw0 (os ++ [BAdd i (IOwn d)]) = UB).
Proof.
  intros E El O. destruct (facts _ _ _ _ _ E El) as (w & G & Ew & V & Ll & D0 & C & M & _). split; intros F.
  - assert (X : exists v', vrun vw0 (os ++ [BAdd i (IOwn d)]) = Ok (rs ++ [RNum 0], v')).
    { rewrite vrun_app, E. cbn [obind vrun vstep]. unfold vadd. rewrite Ll. cbn [obind inlen vbytes]. rewrite grow_same by lia. cbn [obind]. unfold vput. replace (vdr vv + size vv + Z.of_nat (length d) <=? vcap vv) with true by lia. cbn [safe obind]. eauto. }
    destruct X as (v' & X). destruct (C68_history _ _ _ X) as (w' & Ew' & _). eauto.
  - rewrite brun_app, Ew. cbn [obind BmemSpec.brun bstep]. destruct (get_buf _ _ _ _ _ V Ll) as (a & p & b & R & Eg & La & Pl & Rp & Bn & H & P). rewrite La. cbn [obind source]. rewrite add_split. cbn [srclen]. destruct (vgrow vv (Z.of_nat (length d))) as [v1| | |] eqn:Eg1.
    + assert (N0 : 0 <= Z.of_nat (length d)) by lia. destruct (grow_ok pick ok _ _ _ _ _ _ _ V Ll N0 Eg1) as (a2 & p0 & b0 & m1 & p1 & b1 & G1 & La2 & Em & V1 & _ & Eg2 & _). assert (a2 = a) by congruence. subst a2. rewrite Em. cbn [obind]. assert (v1 = vv). { unfold vgrow in Eg1. replace (vdr vv =? 0) with false in Eg1 by lia. cbn [safe obind] in Eg1. destruct (_ >? _); congruence. } subst v1.
      change m1 with (bm (mkbw m1 (bbufs w) (bhand w))). rewrite (put_ub _ _ _ i a p1 b1 vv (Own d) d V1 Eg2 (vset_live _ _ _ _ Ll) eq_refl); [reflexivity|]. unfold vput. replace (_ <=? _) with false by lia. reflexivity.
    + exfalso. unfold vgrow in Eg1. destruct (_ >? _); [|discriminate]. replace (vdr vv =? 0) with false in Eg1 by lia. discriminate.
    + assert (N0 : 0 <= Z.of_nat (length d)) by lia. destruct (grow_ub pick _ _ _ _ _ _ V Ll N0 Eg1) as (a2 & La2 & U). assert (a2 = a) by congruence. subst a2. rewrite U. reflexivity.
    + exfalso. unfold vgrow in Eg1. destruct (_ >? _); [|discriminate]. replace (vdr vv =? 0) with false in Eg1 by lia. discriminate.
Qed.
(** Reserving does not help: it reports success without making room. *)
Theorem C68_reserve_refuted os rs v i vv d : vrun vw0 os = Ok (rs, v) -> nth_error (vbufs v) i = Some (Some vv) -> 0 < vdr vv -> vcap vv < vdr vv + size vv + Z.of_nat (length d) -> size vv + Z.of_nat (length d) <= vmax vv ->
  (exists w, brun bw0 (os ++ [BReserve i (Z.of_nat (length d))]) = Ok (rs ++ [RNum 0], w)) /\ brun bw0 (os ++ [BReserve i (Z.of_nat (length d)); BAdd i (IOwn d)]) = UB.
Proof.
  intros E El O F M. destruct (facts _ _ _ _ _ E El) as (w & G & Ew & V & Ll & _). assert (X : vrun vw0 (os ++ [BReserve i (Z.of_nat (length d))]) = Ok (rs ++ [RNum 0], v)). { rewrite vrun_app, E. cbn [obind vrun vstep]. replace (0 <=? Z.of_nat (length d)) with true by lia. cbn [guard obind]. rewrite Ll. cbn [obind]. rewrite grow_same by lia. cbn [obind]. now rewrite (vset_same _ _ _ Ll). }
  split; [destruct (C68_history _ _ _ X) as (w' & Ew' & _); eauto|]. replace (os ++ [BReserve i (Z.of_nat (length d)); BAdd i (IOwn d)]) with ((os ++ [BReserve i (Z.of_nat (length d))]) ++ [BAdd i (IOwn d)]) by now rewrite <- app_assoc. now apply (C68_add_after_drain _ _ _ i vv d X El O).
Qed.
(** A buffer added to itself: its contents are lost if they fit twice; if the buffer has to grow for it, freed memory is read. *)
Theorem C68_self_refuted os rs v i vv : vrun vw0 os = Ok (rs, v) -> nth_error (vbufs v) i = Some (Some vv) -> vs vv <> [] ->
  (vdr vv + 2 * size vv <= vcap vv -> exists w, brun bw0 (os ++ [BAddBuf i i; BLen i]) = Ok (rs ++ [RNum 0; RNum 0], w)) /\
  (vdr vv = 0 -> vcap vv < 2 * size vv -> size vv + Z.max 1024 (size vv) < 2147483648 -> brun bw0 (os ++ [BAddBuf i i]) = UB).
Proof.
  intros E El Ne. destruct (facts _ _ _ _ _ E El) as (w & G & Ew & V & Ll & D0 & C & M & M2). split.
  - intros F. assert (X : exists v', vrun vw0 (os ++ [BAddBuf i i; BLen i]) = Ok (rs ++ [RNum 0; RNum 0], v')).
    { rewrite vrun_app, E. cbn [obind vrun vstep]. rewrite Ll. cbn [obind]. rewrite grow_same by lia. cbn [obind]. rewrite !Nat.eqb_refl. cbn [negb orb safe obind]. unfold vput. replace (_ <=? _) with true by (unfold size in *; lia). cbn [safe obind]. rewrite (vset_live _ _ _ _ Ll). cbn [obind]. rewrite vset_twice, (vset_live _ _ _ _ Ll). cbn [obind]. unfold vdrain. unfold size. cbn [vs]. rewrite app_length. assert (0 < length (vs vv))%nat by (destruct (vs vv); [congruence|cbn [length]; lia]). replace (Z.of_nat (length (vs vv) + length (vs vv)) =? 0) with false by lia. rewrite Z.ltb_irrefl. cbn [snd vs length]. eauto. }
    destruct X as (v' & X). destruct (C68_history _ _ _ X) as (w' & Ew' & _). eauto.
  - intros Dz F B. rewrite brun_app, Ew. cbn [obind BmemSpec.brun bstep]. destruct (get_buf _ _ _ _ _ V Ll) as (a & p & b & R & Eg & La & Pl & Rp & Bn & H & P). rewrite La. cbn [obind]. unfold m_add_buf. rewrite (buf_rd _ _ _ _ _ H). cbn [obind]. rewrite add_split. cbn [srclen]. rewrite (rep_len _ _ Rp).
    assert (N0 : 0 <= size vv) by (unfold size; lia). assert (Gr : exists v1, vgrow vv (size vv) = Ok v1 /\ vgen v1 = S (vgen vv)). { unfold vgrow. specialize (M2 Dz). replace (size vv >? vmax vv - size vv) with true by lia. rewrite Dz. cbn [Z.eqb safe obind]. replace (size vv + Z.max 1024 (size vv) <? 2147483648) with true by lia. cbn [guard obind]. eexists. split; reflexivity. } destruct Gr as (v1 & Gr & Gn).
    destruct (grow_ok pick ok _ _ _ _ _ _ _ V Ll N0 Gr) as (a2 & p0 & b0 & m1 & p1 & b1 & G1 & La2 & Em & V1 & Eg0 & Eg1 & _ & _ & _ & Gone). assert (a2 = a /\ p0 = p /\ b0 = b) as (-> & -> & ->) by (repeat split; congruence). rewrite Em. cbn [obind]. destruct (get_buf _ _ _ _ _ V1 (vset_live _ _ _ _ Ll)) as (a3 & p3 & b3 & R3 & Eg3 & La3 & _ & _ & _ & H3 & _). cbn [bm bbufs] in *. assert (a3 = a) by congruence. subst a3. unfold m_put. rewrite (buf_rd _ _ _ _ _ H3). cbn [obind memcpy].
    destruct p as [d|]; [|exfalso; destruct Pl as [Pl _]; pose proof (rep_null _ _ Rp (Pl eq_refl)) as NL; rewrite (rep_len _ _ Rp) in NL; unfold size in NL; destruct (vs vv); [congruence|cbn [length] in NL; lia]]. cbn [pof]. unfold rd_at. replace (size vv =? 0) with false by (unfold size; destruct (vs vv); [congruence|cbn [length]; lia]). unfold rd_blk. destruct (owns_gone m1 (all G1) d (i_own _ _ _ V1)) as [_ Gg]; [apply Gone; [lia|reflexivity]|]. rewrite Gg. reflexivity.
Qed.
(** A pointer is dead as soon as its buffer grows. *)
Theorem C68_dangling_refuted os rs v i vv b n k : vrun vw0 os = Ok (rs, v) -> nth_error (vbufs v) i = Some (Some vv) -> vs vv = b -> b <> [] -> vdr vv = 0 -> vcap vv - size vv < n -> size vv + Z.max 1024 n < 2147483648 -> 0 < k <= size vv ->
  (exists w, brun bw0 (os ++ [BGet i; BLook (length (vhand v)) k]) = Ok (rs ++ [RPtr true; RBytes (firstn (Z.to_nat k) b)], w)) /\ (exists w, brun bw0 (os ++ [BGet i; BReserve i n]) = Ok (rs ++ [RPtr true; RNum 0], w)) /\ brun bw0 (os ++ [BGet i; BReserve i n; BLook (length (vhand v)) k]) = UB.
Proof.
  intros E El Eb Nb Dz F B K. destruct (facts _ _ _ _ _ E El) as (w & G & Ew & V & Ll & D0 & C & M & M2). specialize (M2 Dz). assert (N0 : 0 <= n) by (unfold size in *; lia).
  assert (Eg : vstep v (BGet i) = Ok (RPtr true, mkvw (vbufs v) (vhand v ++ [Some (i, vgen vv, vera vv, b)]))) by (cbn [vstep]; rewrite Ll; cbn [obind]; rewrite Eb; destruct b; [congruence|reflexivity]).
  assert (Gr : exists v1, vgrow vv n = Ok v1 /\ vgen v1 = S (vgen vv)). { unfold vgrow. replace (n >? vmax vv - size vv) with true by lia. rewrite Dz. cbn [Z.eqb safe obind]. replace (size vv + Z.max 1024 n <? 2147483648) with true by lia. cbn [guard obind]. eexists. split; reflexivity. } destruct Gr as (v1 & Gr & Gn).
  split; [|split].
  - assert (X : exists v', vrun vw0 (os ++ [BGet i; BLook (length (vhand v)) k]) = Ok (rs ++ [RPtr true; RBytes (firstn (Z.to_nat k) b)], v')). { rewrite vrun_app, E. cbn [obind vrun]. rewrite Eg. cbn [obind vstep]. unfold vlook. replace (0 <=? k) with true by lia. cbn [guard obind vhand vbufs]. rewrite nth_error_app2, Nat.sub_diag by lia. cbn [nth_error]. replace (k =? 0) with false by lia. rewrite Ll. cbn [obind]. rewrite !Nat.eqb_refl. unfold size in K. rewrite Eb in K. replace (k <=? Z.of_nat (length b)) with true by lia. cbn [andb guard obind]. eauto. } destruct X as (v' & X). destruct (C68_history _ _ _ X) as (w' & Ew' & _). eauto.
  - assert (X : exists v', vrun vw0 (os ++ [BGet i; BReserve i n]) = Ok (rs ++ [RPtr true; RNum 0], v')). { rewrite vrun_app, E. cbn [obind vrun]. rewrite Eg. cbn [obind vstep vbufs]. replace (0 <=? n) with true by lia. cbn [guard obind]. rewrite Ll. cbn [obind]. rewrite Gr. cbn [obind]. eauto. } destruct X as (v' & X). destruct (C68_history _ _ _ X) as (w' & Ew' & _). eauto.
  - rewrite brun_app, Ew. cbn [obind BmemSpec.brun bstep]. destruct (get_buf _ _ _ _ _ V Ll) as (a & p & bb & R & Egi & La & Pl & Rp & Bn & H & P). rewrite La. cbn [obind]. unfold m_get. rewrite (buf_rd _ _ _ _ _ H). cbn [obind]. rewrite (rep_len _ _ Rp). replace (size vv =? 0) with false by lia. cbn [bbufs bm bhand]. rewrite La. cbn [obind].
    destruct (grow_ok pick ok _ _ _ _ _ _ _ V Ll N0 Gr) as (a2 & p0 & b0 & m1 & p1 & b1 & G1 & La2 & Em & V1 & Eg0 & Eg1 & _ & _ & _ & Gone). assert (a2 = a /\ p0 = p /\ b0 = bb) as (-> & -> & ->) by (repeat split; congruence). rewrite Em. cbn [obind bhand bm]. assert (Lh : length (bhand w) = length (vhand v)) by exact (F2_len _ _ _ (i_hand _ _ _ V)). rewrite nth_error_app2, Lh, Nat.sub_diag by lia. cbn [nth_error].
    destruct p as [d|]; [|exfalso; destruct Pl as [Pl _]; pose proof (rep_null _ _ Rp (Pl eq_refl)) as NL; rewrite (rep_len _ _ Rp) in NL; lia]. cbn [pof]. unfold rd_at. replace (k =? 0) with false by lia. unfold rd_blk. cbn [bm] in *. destruct (owns_gone m1 (all G1) d (i_own _ _ _ V1)) as [_ Gg]; [apply Gone; [lia|reflexivity]|]. rewrite Gg. reflexivity.
Qed.
End P.

(** two buffers; a pointer into the first is used to fill the second, and the first goes to the second *)
Definition demo : list bop := [BNew; BNew; BAdd 0 (IOwn [1; 2; 3; 4; 5]); BGet 0; BDrain 0 2; BAdd 1 (IPtr 0 4); BAdd 0 (IPtr 0 3); BGet 0; BLook 1 6; BLook 0 5; BIov 1 [IOwn [9]; IPtr 1 2; IOwn []]; BRemove 1 5; BAddBuf 1 0; BLen 0; BRemove 1 100; BReserve 0 10; BFree 0; BFree 1].
Example C68_history_case : match vrun vw0 demo with Ok (rs, v) => nth_error rs 8 = Some (RBytes [3; 4; 5; 1; 2; 3]) /\ nth_error rs 9 = Some (RBytes [1; 2; 3; 4; 5]) /\ nth_error rs 11 = Some (RTook [1; 2; 3; 4; 9] 5) /\ nth_error rs 14 = Some (RTook [3; 4; 3; 4; 5; 1; 2; 3] 8) /\ Forall (fun o => o = None) (vbufs v) | _ => False end.
Proof. vm_compute. repeat split; repeat constructor. Qed.
Example C68_history_memory : match brun next bw0 demo with Ok (rs, w) => blocks (bm w) = [] /\ nth_error rs 14 = Some (RTook [3; 4; 3; 4; 5; 1; 2; 3] 8) | _ => False end.
Proof. vm_compute. split; reflexivity. Qed.
(** 1020 bytes, 10 drained, 20 more: they fit the size the buffer believes to have, not the block *)
Definition full : list bop := [BNew; BAdd 0 (IOwn (repeat 7 1020)); BDrain 0 10].
Example C68_reserve_case : match vrun vw0 full with Ok (_, v) => match nth_error (vbufs v) 0 with Some (Some vv) => (0 <? vdr vv) && (vcap vv <? vdr vv + size vv + 14) && (size vv + 14 <=? vmax vv) = true | _ => False end | _ => False end.
Proof. vm_compute. reflexivity. Qed.
Example C68_reserve_memory : brun next bw0 (full ++ [BReserve 0 14; BAdd 0 (IOwn (repeat 8 14))]) = UB /\ match brun next bw0 (full ++ [BAdd 0 (IOwn (repeat 8 4))]) with Ok _ => True | _ => False end.
Proof. vm_compute. split; [reflexivity|exact Logic.I]. Qed.
Example C68_self_case : match brun next bw0 [BNew; BAdd 0 (IOwn [1; 2]); BAddBuf 0 0; BLen 0] with Ok (rs, _) => rs = [RDone; RNum 0; RNum 0; RNum 0] | _ => False end /\ brun next bw0 [BNew; BAdd 0 (IOwn (repeat 1 600)); BAddBuf 0 0] = UB.
Proof. vm_compute. split; reflexivity. Qed.
Example C68_dangling_case : brun next bw0 [BNew; BAdd 0 (IOwn [1; 2]); BGet 0; BReserve 0 2000; BLook 0 1] = UB.
Proof. vm_compute. reflexivity. Qed.
(** after the buffer was emptied the pointer shows what was added since *)
Example C68_emptied_case : match brun next bw0 [BNew; BAdd 0 (IOwn [1; 2]); BGet 0; BDrain 0 2; BAdd 0 (IOwn [8; 9]); BLook 0 2] with Ok (rs, _) => nth_error rs 5 = Some (RBytes [8; 9]) | _ => False end.
Proof. vm_compute. reflexivity. Qed.

Print Assumptions C16_add_after_drain_exact.
Print Assumptions C68_history.
Print Assumptions C68_all_freed.
Print Assumptions C68_add_after_drain.
Print Assumptions C68_reserve_refuted.
Print Assumptions C68_self_refuted.
Print Assumptions C68_dangling_refuted.
