(** Every step of a program on buffers. *)
From Coq Require Import Permutation.
From Verif Require Import Prelude Perm HeapModel Blocks BufModel BufProofs BmemModel BmemSpec BmemProofs BmemSim.
Local Open Scope Z_scope.

Lemma vset_twice v i x y : vset (vset v i x) i y = vset v i y.
Proof. unfold vset. cbn [vbufs vhand]. now rewrite upd_upd. Qed.
Lemma vset_same v i x : live (vbufs v) i = Ok x -> vset v i x = v.
Proof. intros E. apply live_some in E. unfold vset. rewrite (upd_same _ _ _ E). now destruct v. Qed.
Lemma vset_live v i x y : live (vbufs v) i = Ok x -> live (vbufs (vset v i y)) i = Ok y.
Proof. intros E. apply live_some in E. apply some_live. cbn [vset vbufs]. exact (upd_at _ _ _ _ E). Qed.
Lemma vset_live_other v i j y : j <> i -> live (vbufs (vset v i y)) j = live (vbufs v) j.
Proof. intros N. unfold live. cbn [vset vbufs]. now rewrite upd_other. Qed.
Lemma world_eta w : mkbw (bm w) (bbufs w) (bhand w) = w.
Proof. now destruct w. Qed.
Lemma rep_pos b v : rep b v -> 0 <= len b /\ 0 <= off b /\ off b + len b <= cap b.
Proof. intros H. pose proof (rep_len _ _ H) as L. destruct H as (H & _). pose proof (contains_room _ _ H). destruct H as (_ & _ & O & _). unfold size in L. lia. Qed.
Lemma rep_null b v : rep b v -> blk b = None -> len b <= 0.
Proof. intros H E. destruct (rep_pos _ _ H) as (A & B & C). unfold cap in C. rewrite E in C. lia. Qed.

Lemma sources_same w w' l : bhand w' = bhand w -> sources w' l = sources w l.
Proof. intros E. induction l as [|s l IH]; [reflexivity|]. cbn [sources]. rewrite IH. destruct s as [b|h n]; cbn [source]; [reflexivity|now rewrite E]. Qed.
Lemma source_same w w' s : bhand w' = bhand w -> source w' s = source w s.
Proof. intros E. destruct s as [b|h n]; cbn [source]; [reflexivity|now rewrite E]. Qed.

Section S.
Variable pick : nat -> list nat -> nat.
Hypothesis ok : good pick.

(** zt_buf_reserve, and the first part of zt_buf_add *)
Lemma grow_ok w v G i vv n v1 : inv w v G -> live (vbufs v) i = Ok vv -> 0 <= n -> vgrow vv n = Ok v1 ->
  exists a p b m1 p1 b1 G1, live (bbufs w) i = Ok a /\ m_reserve pick (bm w) a n = Ok m1 /\ inv (mkbw m1 (bbufs w) (bhand w)) (vset v i v1) G1 /\ nth_error G i = Some (Some (a, p, b)) /\ nth_error G1 i = Some (Some (a, p1, b1)) /\
    (forall j, j <> i -> nth_error G1 j = nth_error G j) /\ (vgen v1 = vgen vv -> p1 = p /\ b1 = b) /\ vs v1 = vs vv /\ (vgen v1 <> vgen vv -> forall q, p = Some q -> ~ In q (map fst (all G1))).
Proof.
  intros V El N E. destruct (get_buf _ _ _ _ _ V El) as (a & p & b & R & Eg & La & Pl & Rp & Bn & H & P). assert (MR : m_reserve pick (bm w) a n = if n >? vmax vv - size vv then m_expand pick (bm w) a n else Ok (bm w)) by (unfold m_reserve; rewrite (unused_m _ _ _ _ _ H); cbn [obind]; now rewrite (rep_unused _ _ Rp)). destruct (n >? vmax vv - size vv) eqn:U.
  - pose proof (expand_x b vv n Rp ltac:(lia) N) as X. rewrite E in X. destruct X as (b1 & X1 & X2 & X3 & X4). destruct (expand_m pick ok _ _ _ _ _ _ _ H Pl X1) as (d & m1 & Em & H1 & Pl1 & Nq).
    assert (Gn : vgen v1 = S (vgen vv)) by (unfold vgrow in E; rewrite U in E; apply obind_ok in E; destruct E as (u1 & _ & E); apply obind_ok in E; destruct E as (u2 & _ & E); match type of E with Ok ?z = _ => assert (v1 = z) by congruence end; subst v1; reflexivity). assert (Ge : vera v1 = vera vv) by (unfold vgrow in E; rewrite U in E; apply obind_ok in E; destruct E as (u1 & _ & E); apply obind_ok in E; destruct E as (u2 & _ & E); match type of E with Ok ?z = _ => assert (v1 = z) by congruence end; subst v1; reflexivity).
    exists a, p, b, m1, (Some d), b1, (upd G i (Some (a, Some d, b1))). split; [exact La|]. split; [now rewrite MR|]. split.
    + apply (inv_buf w v G i a p b vv m1 (Some d) b1 v1 R V Eg El P H1 Pl1 X2); try lia. split; [intros Z; apply Pl1 in Z; discriminate|lia].
    + split; [exact Eg|]. split; [exact (upd_at _ _ _ _ Eg)|]. split; [intros j Nj; now apply upd_other|]. split; [lia|]. split; [exact X4|]. intros _ q -> Iq. apply (Permutation_in _ (Permutation_map fst (P _))) in Iq. specialize (Nq q eq_refl). pose proof (owns_nodup _ _ H) as ND. cbn [acell bcells kcells map fst app] in Iq, ND. apply NoDup_cons_iff in ND. destruct ND as [N1 N2]. apply NoDup_cons_iff in N2. destruct N2 as [N2 _]. destruct Iq as [Iq|[Iq|Iq]]; [apply N1; left; auto|congruence|contradiction].
  - assert (v1 = vv) by (unfold vgrow in E; rewrite U in E; congruence). subst v1. exists a, p, b, (bm w), p, b, G. rewrite (vset_same _ _ _ El), world_eta. split; [exact La|]. split; [exact MR|]. split; [exact V|]. split; [exact Eg|]. split; [exact Eg|]. split; [auto|]. split; [auto|]. split; [auto|]. intros X. congruence.
Qed.
Lemma grow_ub w v G i vv n : inv w v G -> live (vbufs v) i = Ok vv -> 0 <= n -> vgrow vv n = UB -> exists a, live (bbufs w) i = Ok a /\ m_reserve pick (bm w) a n = UB.
Proof.
  intros V El N E. destruct (get_buf _ _ _ _ _ V El) as (a & p & b & R & Eg & La & Pl & Rp & Bn & H & P). exists a. split; [exact La|]. unfold m_reserve. rewrite (unused_m _ _ _ _ _ H). cbn [obind]. rewrite (rep_unused _ _ Rp). destruct (n >? vmax vv - size vv) eqn:U; [|unfold vgrow in E; rewrite U in E; discriminate]. pose proof (expand_x b vv n Rp ltac:(lia) N) as X. rewrite E in X. exact (expand_m_ub pick _ _ _ _ _ _ H Pl X).
Qed.
(** the second part of zt_buf_add *)
Definition readable (m : bmem) (p : bptr) (s : bsrc) (d : list Z) : Prop := match s with Own b => b = d | At q n => rd_at m q n = Ok d /\ n = Z.of_nat (length d) /\ (n = 0 \/ apart p q n = true) end.
Lemma readable_len m p s d : readable m p s d -> srclen s = Z.of_nat (length d).
Proof. destruct s; cbn [readable srclen]; [now intros ->|]. now intros (_ & E & _). Qed.
Lemma readable_cpy m p s d : readable m p s d -> memcpy m p s = wr_at m p d.
Proof. destruct s as [b|q n]; cbn [readable memcpy]; [now intros ->|]. intros (E & _ & A). rewrite E. cbn [obind]. assert (X : (n =? 0) || apart p q n = true) by (destruct A as [-> |A]; [reflexivity|rewrite A; apply Bool.orb_true_r]). now rewrite X. Qed.
Definition m_put (m : bmem) (a : nat) (s : bsrc) : outcome bmem := ' (n, x, b, t) <- rd_buf m a ;; m <- memcpy m (plus b n) s ;; Ok (hput m a (BBuf ((n + srclen s) mod B64) x b t)).
Lemma put_ok w v G i a p b vv s d v1 : inv w v G -> nth_error G i = Some (Some (a, p, b)) -> live (vbufs v) i = Ok vv -> readable (bm w) (plus (pof p (off b)) (len b)) s d -> vput vv d = Ok v1 ->
  exists m1 b1, m_put (bm w) a s = Ok m1 /\ inv (mkbw m1 (bbufs w) (bhand w)) (vset v i v1) (upd G i (Some (a, p, b1))).
Proof.
  intros V Eg El Rd E. destruct (get_buf _ _ _ _ _ V El) as (a0 & p0 & b0 & R & Eg0 & La & Pl & Rp & Bn & H & P). assert (a0 = a /\ p0 = p /\ b0 = b) as (-> & -> & ->) by (repeat split; congruence). destruct (rep_pos _ _ Rp) as (L1 & L2 & L3). pose proof (put_x b vv d Rp) as X. rewrite E in X. destruct X as (b1 & X1 & X2 & X3 & X4 & X5). destruct (put_m _ _ _ _ _ _ _ H Pl ltac:(lia) X1) as (m1 & W1 & H1 & Pl1 & Rd1).
  unfold m_put. rewrite (buf_rd _ _ _ _ _ H). cbn [obind]. rewrite (readable_cpy _ _ _ _ Rd), W1. cbn [obind]. rewrite (readable_len _ _ _ _ Rd).
  assert (Eb : b1 = mkbuf (len b1) (max b) (blk b1) (off b) /\ len b1 = (len b + Z.of_nat (length d)) mod W64 /\ (blk b1 = None <-> blk b = None)). { unfold buf_put in X1. apply obind_ok in X1. destruct X1 as (l & _ & X1). match type of X1 with Ok ?z = _ => assert (b1 = z) by congruence end. subst b1. cbn [len max blk off]. split; [reflexivity|]. split; [reflexivity|]. destruct (blk b); [split; discriminate|reflexivity]. }
  destruct Eb as (Eb & El1 & Ebk). eexists _, b1. split; [reflexivity|].
  assert (Ev : vgen v1 = vgen vv /\ vera v1 = vera vv) by (unfold vput in E; apply obind_ok in E; destruct E as (u & _ & E); match type of E with Ok ?z = _ => assert (v1 = z) by congruence end; subst v1; auto). destruct Ev as [Ev1 Ev2].
  apply (inv_buf w v G i a p b vv _ p b1 v1 R V Eg El P); try lia; try assumption.
  - change B64 with W64. rewrite <- El1. replace (max b) with (max b1) by (rewrite Eb; reflexivity). rewrite <- X3. exact H1.
  - rewrite Ebk, Ev1. exact Bn.
  - intros _ _. split; [reflexivity|]. intros o bs. apply (shows_put b d b1 o bs X1 L1 L2); [exists (vs vv); apply Rp|]. rewrite (rep_len _ _ X2), (rep_len _ _ Rp). unfold size. rewrite X5, app_length. lia.
Qed.
Lemma put_ub w v G i a p b vv s d : inv w v G -> nth_error G i = Some (Some (a, p, b)) -> live (vbufs v) i = Ok vv -> readable (bm w) (plus (pof p (off b)) (len b)) s d -> vput vv d = UB -> m_put (bm w) a s = UB.
Proof.
  intros V Eg El Rd E. destruct (get_buf _ _ _ _ _ V El) as (a0 & p0 & b0 & R & Eg0 & La & Pl & Rp & Bn & H & P). assert (a0 = a /\ p0 = p /\ b0 = b) as (-> & -> & ->) by (repeat split; congruence). pose proof (put_x b vv d Rp) as X. rewrite E in X. unfold m_put. rewrite (buf_rd _ _ _ _ _ H). cbn [obind]. rewrite (readable_cpy _ _ _ _ Rd). now rewrite (put_m_ub _ _ _ _ _ _ H Pl X).
Qed.
Lemma add_split m a s : m_add pick m a s = (m <- m_reserve pick m a (srclen s) ;; m_put m a s).
Proof. unfold m_add, m_reserve, m_put. destruct (m_unused m a); reflexivity. Qed.
(** what a pointer shows *)
Lemma look_ok w v G h n d : inv w v G -> vlook v h n = Ok d -> exists q, nth_error (bhand w) h = Some q /\ rd_at (bm w) q n = Ok d /\ n = Z.of_nat (length d) /\
  (n = 0 \/ exists j a c b o bs vv, q = Some (c, o) /\ nth_error G j = Some (Some (a, Some c, b)) /\ live (vbufs v) j = Ok vv /\ shows b o bs /\ n <= Z.of_nat (length bs)).
Proof.
  intros V E. unfold vlook in E. apply obind_ok in E. destruct E as (u & Eu & E). apply guard_ok in Eu. destruct (nth_error (vhand v) h) as [o|] eqn:Eh; [|discriminate]. destruct (F2_nth_r _ _ _ _ _ (i_hand _ _ _ V) Eh) as (q & Eq & Hq). exists q. split; [exact Eq|]. destruct (Z.eqb_spec n 0) as [->|N0]; [assert (d = []) by congruence; subst; repeat split; auto|]. destruct o as [[[[j g] e] bs]|]; [|discriminate]. apply obind_ok in E. destruct E as (vv & Ev & E). apply obind_ok in E. destruct E as (u2 & Eg & E). apply guard_ok in Eg. apply Bool.andb_true_iff in Eg. destruct Eg as [Eg Ln]. apply Bool.andb_true_iff in Eg. destruct Eg as [Eg Ee]. apply Nat.eqb_eq in Eg, Ee. assert (d = firstn (Z.to_nat n) bs) by congruence. subst d. cbn [hrep] in Hq. destruct Hq as [_ Hq]. destruct (Hq vv (live_some _ _ _ Ev)) as (_ & _ & Hq3). destruct (Hq3 Eg Ee) as (a & c & b & o & E1 & E2 & E3). pose proof E3 as (Le & pre & rest & Eb & P). subst q. split; [|split].
  - apply (rd_at_ok (bm w) (all G) c (block b) o n bs (i_own _ _ _ V)); try lia; [exact (own_in _ _ _ _ _ _ _ V E1)|exists pre, rest; auto].
  - rewrite firstn_length. lia.
  - right. exists j, a, c, b, o, bs, vv. split; [reflexivity|]. split; [exact E1|]. split; [exact Ev|]. split; [exact E3|lia].
Qed.
Lemma source_read w v G i a p b vv s d : inv w v G -> nth_error G i = Some (Some (a, p, b)) -> live (vbufs v) i = Ok vv -> vbytes v s = Ok d -> exists x, source w s = Ok x /\ srclen x = inlen s /\ readable (bm w) (plus (pof p (off b)) (len b)) x d.
Proof.
  intros V Eg El E. destruct s as [l|h n]; cbn [vbytes source inlen] in *; [exists (Own l); split; [reflexivity|]; split; [reflexivity|cbn [readable]; congruence]|]. destruct (look_ok _ _ _ _ _ _ V E) as (q & Eq & Rq & Ln & A). rewrite Eq. exists (At q n). split; [reflexivity|]. split; [reflexivity|]. cbn [readable]. split; [exact Rq|]. split; [exact Ln|]. destruct A as [A|(j & a1 & c & b1 & o & bs & v1 & -> & E1 & E2 & (Le & _) & Lb)]; [now left|]. right. destruct p as [d0|]; [|reflexivity]. cbn [pof plus apart]. destruct (Nat.eq_dec i j) as [<-|N].
  - assert (b1 = b) by congruence. subst b1. replace (o + n <=? off b + len b) with true by lia. rewrite !Bool.orb_true_r. reflexivity.
  - pose proof (own_apart _ _ _ _ _ _ _ _ _ _ _ V Eg E1 N) as D. apply Nat.eqb_neq in D. rewrite D. reflexivity.
Qed.
Lemma inlen_pos v s d : vbytes v s = Ok d -> 0 <= inlen s.
Proof. destruct s as [l|h n]; cbn [vbytes inlen]; [lia|]. unfold vlook. intros E. apply obind_ok in E. destruct E as (u & Eu & _). apply guard_ok in Eu. lia. Qed.
Lemma add_ok w v G i s v' : inv w v G -> vadd v i s = Ok v' -> exists a x m' G', live (bbufs w) i = Ok a /\ source w s = Ok x /\ srclen x = inlen s /\ m_add pick (bm w) a x = Ok m' /\ inv (mkbw m' (bbufs w) (bhand w)) v' G'.
Proof.
  intros V E. unfold vadd in E. apply obind_ok in E. destruct E as (vv & El & E). apply obind_ok in E. destruct E as (v1 & Eg & E). cbv zeta in E. apply obind_ok in E. destruct E as (d & Ed & E). apply obind_ok in E. destruct E as (v2 & Ep & E). rewrite vset_twice in E. assert (v' = vset v i v2) by congruence. subst v'. destruct (grow_ok _ _ _ _ _ _ _ V El (inlen_pos _ _ _ Ed) Eg) as (a & p & b & m1 & p1 & b1 & G1 & La & Em & V1 & _ & Eg1 & _ & _ & _ & _).
  destruct (source_read _ _ _ i a p1 b1 v1 s d V1 Eg1) as (x & Sx & Sl & Sr); [exact (vset_live _ _ _ _ El)|exact Ed|]. destruct (put_ok _ _ _ i a p1 b1 v1 x d v2 V1 Eg1) as (m2 & b2 & E2 & V2); [exact (vset_live _ _ _ _ El)|exact Sr|exact Ep|]. exists a, x, m2. eexists. split; [exact La|]. split; [exact Sx|]. split; [exact Sl|]. split; [rewrite add_split, Sl, Em; exact E2|]. rewrite vset_twice in V2. exact V2.
Qed.
Lemma adds_ok : forall l w v G i v' vv, inv w v G -> live (vbufs v) i = Ok vv -> vadds v i l = Ok v' -> exists a xs m' G', live (bbufs w) i = Ok a /\ sources w l = Ok xs /\ map srclen xs = map inlen l /\ m_iov_loop pick (bm w) a xs = Ok m' /\ inv (mkbw m' (bbufs w) (bhand w)) v' G'.
Proof.
  induction l as [|s l IH]; intros w v G i v' vv V El E; cbn [vadds] in E.
  - assert (v' = v) by congruence. subst. destruct (get_buf _ _ _ _ _ V El) as (a & p & b & R & Eg & La & _). exists a, [], (bm w), G. rewrite world_eta. auto 10.
  - apply obind_ok in E. destruct E as (v1 & E1 & E). destruct (add_ok _ _ _ _ _ _ V E1) as (a & x & m1 & G1 & La & Sx & Sl & Em & V1). assert (El1 : exists v2, live (vbufs v1) i = Ok v2). { unfold vadd in E1. rewrite El in E1. cbn [obind] in E1. apply obind_ok in E1. destruct E1 as (v3 & _ & E1). cbv zeta in E1. apply obind_ok in E1. destruct E1 as (d & _ & E1). apply obind_ok in E1. destruct E1 as (v4 & _ & E1). rewrite vset_twice in E1. assert (v1 = vset v i v4) by congruence. subst v1. exists v4. exact (vset_live _ _ _ _ El). } destruct El1 as (v2 & El1). destruct (IH _ _ _ _ _ _ V1 El1 E) as (a2 & xs & m2 & G2 & La2 & Sx2 & Sl2 & Em2 & V2). cbn [bbufs bhand bm] in *. assert (a2 = a) by congruence. subst a2. exists a, (x :: xs), m2, G2. split; [exact La|]. split; [cbn [sources]; rewrite Sx; cbn [obind]; rewrite (sources_same (mkbw m1 (bbufs w) (bhand w)) w l) by reflexivity; now rewrite Sx2|]. split; [cbn [map]; congruence|]. split; [cbn [m_iov_loop]; rewrite Em; cbn [obind]; exact Em2|exact V2].
Qed.
Lemma drain_step w v G i vv n : inv w v G -> live (vbufs v) i = Ok vv -> 0 <= n -> exists a m' G', live (bbufs w) i = Ok a /\ m_drain (bm w) a n = Ok (fst (vdrain vv n), m') /\ inv (mkbw m' (bbufs w) (bhand w)) (vset v i (snd (vdrain vv n))) G'.
Proof.
  intros V El N. destruct (get_buf _ _ _ _ _ V El) as (a & p & b & R & Eg & La & Pl & Rp & Bn & H & P). destruct (drain_x b vv n Rp N) as (b' & D1 & D2 & D3). destruct (drain_m _ _ _ _ _ _ _ _ H Pl (rep_null _ _ Rp) D1 N) as (m' & E1 & H1). exists a, m', (upd G i (Some (a, p, b'))). split; [exact La|]. split; [exact E1|]. destruct (rep_pos _ _ Rp) as (Q1 & Q2 & Q3).
  assert (Gn : vgen (snd (vdrain vv n)) = vgen vv /\ (vera vv <= vera (snd (vdrain vv n)))%nat) by (unfold vdrain; destruct (n =? 0); [cbn [snd]; lia|]; destruct (n <? size vv); cbn [snd vgen vera]; lia). destruct Gn as [Gn Ge].
  apply (inv_buf w v G i a p b vv m' p b' _ R V Eg El P H1); try lia; try assumption.
  - unfold placed in *. now rewrite D3.
  - rewrite D3, Gn. exact Bn.
  - intros _ Ge2. split; [reflexivity|]. intros o bs (Le & pre & rest & Eb & Po). split; [|exists pre, rest; unfold block in *; rewrite D3; auto]. enough (off b' + len b' = off b + len b) by lia. unfold buf_drain in D1. destruct (n =? 0) eqn:N0; [assert (b' = b) by congruence; now subst|]. destruct (n <? len b) eqn:G0.
    + cbv zeta in D1. assert (b' = mkbuf (len b - n) ((max b - (- off b) mod W64) mod W64) (blk b) (off b + n)) by congruence. subst b'. cbn [off len]. lia.
    + exfalso. unfold vdrain in Ge2. rewrite N0 in Ge2. rewrite (rep_len _ _ Rp) in G0. rewrite G0 in Ge2. cbn [snd vera] in Ge2. lia.
Qed.
Lemma read_self w v G j a p b vv : inv w v G -> nth_error G j = Some (Some (a, p, b)) -> live (vbufs v) j = Ok vv -> rd_at (bm w) (pof p (off b)) (len b) = Ok (vs vv).
Proof.
  intros V Eg El. destruct (get_buf _ _ _ _ _ V El) as (a0 & p0 & b0 & R & Eg0 & La & Pl & Rp & Bn & H & P). assert (a0 = a /\ p0 = p /\ b0 = b) as (-> & -> & ->) by (repeat split; congruence). destruct (rep_pos _ _ Rp) as (L1 & L2 & L3). pose proof (rep_len _ _ Rp) as L. destruct Rp as (((pre & rest & Eb & Po) & _) & _). destruct p as [d|].
  - cbn [pof]. replace (vs vv) with (firstn (Z.to_nat (len b)) (vs vv)) by (rewrite L; unfold size; rewrite Nat2Z.id; apply firstn_all). apply (rd_at_ok (bm w) (all G) d (block b) (off b) (len b) (vs vv) (i_own _ _ _ V)); try lia; [exact (own_in _ _ _ _ _ _ _ V Eg)|exists pre, rest; auto|unfold size in L; lia].
  - destruct Pl as [Pl _]. specialize (Pl eq_refl). unfold block in Eb. rewrite Pl in Eb. symmetry in Eb. apply app_eq_nil in Eb. destruct Eb as [_ Eb]. apply app_eq_nil in Eb. destruct Eb as [Eb _]. apply map_eq_nil in Eb. unfold size in L. rewrite Eb in *. cbn [length] in L. rewrite L. reflexivity.
Qed.
Lemma iov_len_ok : forall xs l n, map srclen xs = map inlen l -> Forall (fun s => 0 <= inlen s) l -> 0 <= n -> n + total l < 2147483648 -> m_iov_len xs n = n + total l.
Proof.
  induction xs as [|x xs IH]; intros [|s l] n E F N T; try discriminate; cbn [m_iov_len total fold_right map] in *; [lia|]. assert (Ex : srclen x = inlen s) by congruence. inversion F as [|? ? F1 F2]; subst. fold (total l) in *. assert (0 <= total l) by (clear - F2; induction F2; cbn [total fold_right]; [lia|fold (total l); lia]). rewrite Ex. rewrite Z.mod_small by (unfold B64; lia). rewrite (IH l) by (try congruence; try assumption; lia). lia.
Qed.
Lemma step_ok w v G o r v' : inv w v G -> vstep v o = Ok (r, v') -> exists w' G', bstep pick w o = Ok (r, w') /\ inv w' v' G'.
Proof.
  intros V E. destruct o as [|i s|i l|i j|i n|i n|i n|i|h n|i|i]; cbn [vstep bstep] in *.
  - (* new *) match type of E with Ok (?u, ?z) = _ => assert (r = u /\ v' = z) as [-> ->] by (split; congruence) end. destruct V as [V1 V2 V3 V4]. unfold m_new. destruct (owns_new pick (bm w) (BBuf 0 0 None None) _ ok V1) as (a & m' & E1 & H1). rewrite E1. eexists _, (G ++ [Some (a, None, buf_new)]). split; [reflexivity|]. constructor; cbn [bm bbufs bhand vbufs vhand].
    + apply (owns_perm _ _ _ H1). unfold all. rewrite flat_map_app. cbn [flat_map acell]. change (bcells a None buf_new) with [(a, BBuf 0 0 None None)]. perm.
    + rewrite map_app, V2. reflexivity.
    + apply F2_snoc; [exact V3|]. cbn [brep]. split; [split; reflexivity|]. split; [exact rep_new|]. split; reflexivity.
    + revert V4. apply F2_weak. intros q [[[[j g] e] bs]|]; cbn [hrep]; [|auto]. intros [Lj F]. split; [rewrite app_length; lia|]. rewrite nth_error_app1 by exact Lj. intros u Eu. destruct (F u Eu) as (F1 & F2 & F3). split; [exact F1|]. split; [exact F2|]. intros X1 X2. destruct (F3 X1 X2) as (a0 & d & b & o & Y1 & Y2 & Y3). exists a0, d, b, o. split; [|auto]. rewrite nth_error_app1; [exact Y1|]. rewrite (F2_len _ _ _ V3). exact Lj.
  - (* add *) apply obind_ok in E. destruct E as (v1 & E1 & E). assert (r = RNum 0 /\ v' = v1) as [-> ->] by (split; congruence). destruct (add_ok _ _ _ _ _ _ V E1) as (a & x & m' & G' & La & Sx & _ & Em & V1). rewrite La. cbn [obind]. rewrite Sx. cbn [obind]. rewrite Em. cbn [obind]. eauto.
  - (* iov *) apply obind_ok in E. destruct E as (u & Eu & E). apply guard_ok in Eu. apply Bool.andb_true_iff in Eu. destruct Eu as [Ef Et]. apply obind_ok in E. destruct E as (vv & El & E). apply obind_ok in E. destruct E as (v1 & Eg & E). apply obind_ok in E. destruct E as (v2 & Ea & E). assert (r = RNum 0 /\ v' = v2) as [-> ->] by (split; congruence).
    assert (F : Forall (fun s => 0 <= inlen s) l) by (rewrite forallb_forall in Ef; rewrite Forall_forall; intros s Is; specialize (Ef s Is); lia). assert (T : 0 <= total l) by (clear - F; induction F; cbn [total fold_right]; [lia|fold (total l); lia]).
    destruct (grow_ok _ _ _ _ _ _ _ V El T Eg) as (a & p & b & m1 & p1 & b1 & G1 & La & Em & V1 & _). destruct (adds_ok _ _ _ _ _ _ v1 V1 (vset_live _ _ _ _ El) Ea) as (a2 & xs & m2 & G2 & La2 & Sx & Sl & Em2 & V2). cbn [bm bbufs bhand] in *. assert (a2 = a) by congruence. subst a2. rewrite La. cbn [obind]. rewrite <- (sources_same w (mkbw m1 (bbufs w) (bhand w)) l) by reflexivity. rewrite Sx. cbn [obind]. unfold m_iov_add. rewrite (iov_len_ok xs l 0 Sl F) by lia. rewrite Z.add_0_l. rewrite Em. cbn [obind]. rewrite Em2. cbn [obind]. eauto.
  - (* add_buf *) apply obind_ok in E. destruct E as (vi & Ei & E). apply obind_ok in E. destruct E as (vj & Ej & E). apply obind_ok in E. destruct E as (v1 & Eg & E). apply obind_ok in E. destruct E as (u & Eu & E). apply safe_ok in Eu. apply obind_ok in E. destruct E as (v2 & Ep & E). cbv zeta in E. apply obind_ok in E. destruct E as (vj2 & Ej2 & E). match type of E with Ok (?u0, ?z) = _ => assert (r = u0 /\ v' = z) as [-> ->] by (split; congruence) end.
    destruct (get_buf _ _ _ _ _ V Ej) as (aj & pj & bj & Rj & Egj & Lj & Plj & Rpj & Bnj & Hj & Pj). assert (Sz : 0 <= size vj) by (unfold size; lia). destruct (grow_ok _ _ _ _ _ _ _ V Ei Sz Eg) as (a & p & b & m1 & p1 & b1 & G1 & La & Em & V1 & Egi & Eg1 & Oth & Same & _ & _). rewrite La, Lj. cbn [obind]. unfold m_add_buf. rewrite (buf_rd _ _ _ _ _ Hj). cbn [obind]. rewrite add_split. cbn [srclen]. rewrite (rep_len _ _ Rpj), Em. cbn [obind].
    assert (Rd : readable m1 (plus (pof p1 (off b1)) (len b1)) (At (pof pj (off bj)) (size vj)) (vs vj)).
    { cbn [readable]. destruct (Nat.eq_dec i j) as [<-|N].
      - rewrite Nat.eqb_refl in Eu. cbn [negb orb] in Eu. apply Nat.eqb_eq in Eu. destruct (Same Eu) as [-> ->]. assert (aj = a /\ pj = p /\ bj = b) as (-> & -> & ->) by (repeat split; congruence). assert (vj = vi) by congruence. subst vj. assert (Rp1 : rep b v1). { destruct (get_buf _ _ _ _ _ V1 (vset_live _ _ _ _ Ei)) as (a9 & p9 & b9 & R9 & Eg9 & _ & _ & Rp9 & _). assert (b9 = b) by congruence. now subst. } pose proof (read_self _ _ _ i a p b v1 V1 Eg1 (vset_live _ _ _ _ Ei)) as Rs. cbn [bm] in Rs. assert (Vs : vs v1 = vs vi) by (unfold vgrow in Eg; destruct (_ >? _); [apply obind_ok in Eg; destruct Eg as (? & _ & Eg); apply obind_ok in Eg; destruct Eg as (? & _ & Eg)|]; match type of Eg with Ok ?z = _ => assert (v1 = z) by congruence end; subst v1; reflexivity). rewrite Vs in Rs. rewrite (rep_len _ _ Rpj) in Rs. split; [exact Rs|]. split; [reflexivity|]. right. destruct p; [|reflexivity]. cbn [pof plus apart]. rewrite (rep_len _ _ Rpj). replace (off b + size vi <=? off b + size vi) with true by lia. rewrite Bool.orb_true_r. reflexivity.
      - assert (Eg2 : nth_error G1 j = Some (Some (aj, pj, bj))) by (rewrite Oth by congruence; exact Egj). pose proof (read_self _ _ _ j aj pj bj vj V1 Eg2) as Rs. cbn [bm] in Rs. rewrite (rep_len _ _ Rpj) in Rs. split; [apply Rs; rewrite vset_live_other by congruence; exact Ej|]. split; [reflexivity|]. right. destruct p1 as [d1|]; [|reflexivity]. destruct pj as [dj|]; [|reflexivity]. cbn [pof plus apart]. pose proof (own_apart _ _ _ _ _ _ _ _ _ _ _ V1 Eg1 Eg2 N) as D. apply Nat.eqb_neq in D. rewrite D. reflexivity. }
    destruct (put_ok _ _ _ i a p1 b1 v1 _ (vs vj) v2 V1 Eg1 (vset_live _ _ _ _ Ei) Rd Ep) as (m2 & b2 & E2 & V2). cbn [bm bbufs bhand] in E2, V2. rewrite E2. cbn [obind]. rewrite vset_twice in V2.
    destruct (get_buf _ _ _ _ _ V2 Ej2) as (aj2 & pj2 & bj2 & Rj2 & _ & Lj2 & _ & Rpj2 & _ & Hj2 & _). cbn [bm bbufs bhand] in Lj2, Hj2. assert (aj2 = aj) by congruence. subst aj2. rewrite (buf_rd _ _ _ _ _ Hj2). cbn [obind]. rewrite (rep_len _ _ Rpj2). destruct (drain_step _ _ _ j vj2 (size vj2) V2 Ej2) as (a3 & m3 & G3 & La3 & E3 & V3); [unfold size; lia|]. cbn [bm bbufs bhand] in La3, E3, V3. assert (a3 = aj) by congruence. subst a3. rewrite E3. cbn [obind]. eauto.
  - (* drain *) apply obind_ok in E. destruct E as (u & Eu & E). apply guard_ok in Eu. apply obind_ok in E. destruct E as (vv & El & E). destruct (drain_step _ _ _ i vv n V El ltac:(lia)) as (a & m' & G' & La & E1 & V1). rewrite La. cbn [obind]. rewrite E1. cbn [obind]. destruct (vdrain vv n) as [z v1]. cbn [fst snd] in *. assert (r = RNum z /\ v' = vset v i v1) as [-> ->] by (split; congruence). eauto.
  - (* remove *) apply obind_ok in E. destruct E as (u & Eu & E). apply guard_ok in Eu. apply obind_ok in E. destruct E as (vv & El & E). match type of E with Ok (?u0, ?z) = _ => assert (r = u0 /\ v' = z) as [-> ->] by (split; congruence) end. assert (Sz : 0 <= size vv) by (unfold size; lia). destruct (drain_step _ _ _ i vv (Z.min n (size vv)) V El ltac:(lia)) as (a & m' & G' & La & E1 & V1). destruct (get_buf _ _ _ _ _ V El) as (a0 & p & b & R & Eg & La0 & Pl & Rp & Bn & H & P). assert (a0 = a) by congruence. subst a0. rewrite La. cbn [obind]. unfold m_remove. rewrite (buf_rd _ _ _ _ _ H). cbn [obind]. rewrite (rep_len _ _ Rp).
    replace (if n >? size vv then size vv else n) with (Z.min n (size vv)) by (destruct (n >? size vv) eqn:X; lia).
    assert (Rd : rd_at (bm w) (pof p (off b)) (Z.min n (size vv)) = Ok (firstn (Z.to_nat n) (vs vv))).
    { destruct (rep_pos _ _ Rp) as (L1 & L2 & L3). destruct p as [d|].
      - replace (firstn (Z.to_nat n) (vs vv)) with (firstn (Z.to_nat (Z.min n (size vv))) (vs vv)) by (destruct (Z.le_gt_cases n (size vv)); [f_equal; lia|rewrite !firstn_all2 by (unfold size in *; lia); reflexivity]). cbn [pof]. pose proof Rp as (((pre & rest & Eb & Po) & _) & _). apply (rd_at_ok (bm w) (all G) d (block b) (off b) _ (vs vv) (i_own _ _ _ V)); try lia; [exact (own_in _ _ _ _ _ _ _ V Eg)|exists pre, rest; auto|unfold size in *; lia].
      - destruct Pl as [Pl _]. pose proof (rep_null _ _ Rp (Pl eq_refl)) as NL. rewrite (rep_len _ _ Rp) in NL. assert (Z0 : size vv = 0) by lia. rewrite Z0. replace (Z.min n 0) with 0 by lia. unfold size in Z0. destruct (vs vv); [|cbn [length] in Z0; lia]. rewrite firstn_nil. reflexivity. }
    rewrite Rd. cbn [obind]. rewrite E1. cbn [obind]. eauto.
  - (* reserve *) apply obind_ok in E. destruct E as (u & Eu & E). apply guard_ok in Eu. apply obind_ok in E. destruct E as (vv & El & E). apply obind_ok in E. destruct E as (v1 & Eg & E). match type of E with Ok (?u0, ?z) = _ => assert (r = u0 /\ v' = z) as [-> ->] by (split; congruence) end. assert (N0 : 0 <= n) by lia. destruct (grow_ok _ _ _ _ _ _ _ V El N0 Eg) as (a & p & b & m1 & p1 & b1 & G1 & La & Em & V1 & _). rewrite La. cbn [obind]. rewrite Em. cbn [obind]. eauto.
  - (* get *) apply obind_ok in E. destruct E as (vv & El & E). destruct (get_buf _ _ _ _ _ V El) as (a & p & b & R & Eg & La & Pl & Rp & Bn & H & P). rewrite La. cbn [obind]. unfold m_get. rewrite (buf_rd _ _ _ _ _ H). cbn [obind]. rewrite (rep_len _ _ Rp). unfold size in *. destruct (vs vv) as [|x l] eqn:Ev.
    + match type of E with Ok (?u0, ?z) = _ => assert (r = u0 /\ v' = z) as [-> ->] by (split; congruence) end. cbn [length Z.of_nat Z.eqb]. eexists _, G. split; [reflexivity|]. destruct V as [V1 V2 V3 V4]. constructor; cbn [bm bbufs bhand vbufs vhand]; auto. apply F2_snoc; [exact V4|]. reflexivity.
    + match type of E with Ok (?u0, ?z) = _ => assert (r = u0 /\ v' = z) as [-> ->] by (split; congruence) end. replace (Z.of_nat (length (x :: l)) =? 0) with false by (cbn [length]; lia). destruct p as [d|]; [|exfalso; destruct Pl as [Pl _]; pose proof (rep_null _ _ Rp (Pl eq_refl)) as NL; rewrite (rep_len _ _ Rp) in NL; unfold size in NL; rewrite Ev in NL; cbn [length] in NL; lia]. cbn [pof]. eexists _, G. split; [reflexivity|]. apply live_some in El. destruct V as [V1 V2 V3 V4]. constructor; cbn [bm bbufs bhand vbufs vhand]; auto. apply F2_snoc; [exact V4|]. cbn [hrep]. split; [apply nth_error_Some; congruence|]. intros u Eu. assert (u = vv) by congruence. subst u. split; [lia|]. split; [lia|]. intros _ _. exists a, d, b, (off b). split; [exact Eg|]. split; [reflexivity|]. pose proof (rep_len _ _ Rp) as L. unfold size in L. destruct Rp as (((pre & rest & Eb & Po) & _) & _). rewrite Ev in *. split; [lia|]. exists pre, rest. auto.
  - (* look *) apply obind_ok in E. destruct E as (d & Ed & E). assert (r = RBytes d /\ v' = v) as [-> ->] by (split; congruence). destruct (look_ok _ _ _ _ _ _ V Ed) as (q & Eq & Rq & _). rewrite Eq, Rq. cbn [obind]. eauto.
  - (* length *) apply obind_ok in E. destruct E as (vv & El & E). assert (r = RNum (size vv) /\ v' = v) as [-> ->] by (split; congruence). destruct (get_buf _ _ _ _ _ V El) as (a & p & b & R & Eg & La & Pl & Rp & Bn & H & P). rewrite La. cbn [obind]. unfold m_length. rewrite (buf_rd _ _ _ _ _ H). cbn [obind]. rewrite (rep_len _ _ Rp). eauto.
  - (* free *) apply obind_ok in E. destruct E as (vv & El & E). match type of E with Ok (?u0, ?z) = _ => assert (r = u0 /\ v' = z) as [-> ->] by (split; congruence) end. destruct (get_buf _ _ _ _ _ V El) as (a & p & b & R & Eg & La & Pl & Rp & Bn & H & P). rewrite La. cbn [obind]. destruct (free_m _ _ _ _ _ H) as (m' & E1 & H1). rewrite E1. cbn [obind]. eexists _, (upd G i None). split; [reflexivity|]. destruct V as [V1 V2 V3 V4]. constructor; cbn [bm bbufs bhand vbufs vhand].
    + apply (owns_perm _ _ _ H1). rewrite (P None). reflexivity.
    + rewrite map_upd, V2. reflexivity.
    + apply F2_upd; [exact V3|exact Logic.I].
    + revert V4. apply F2_weak. intros q [[[[j g] e] bs]|]; cbn [hrep]; [|auto]. intros [Lj F]. split; [now rewrite upd_length|]. intros u Eu. destruct (Nat.eq_dec j i) as [->|N]; [rewrite (upd_at _ _ _ _ (live_some _ _ _ El)) in Eu; discriminate|]. rewrite upd_other in Eu by exact N. destruct (F u Eu) as (F1 & F2 & F3). split; [exact F1|]. split; [exact F2|]. rewrite upd_other by exact N. exact F3.
Qed.
Lemma run_ok : forall os w v G rs v', inv w v G -> vrun v os = Ok (rs, v') -> exists w' G', brun pick w os = Ok (rs, w') /\ inv w' v' G'.
Proof.
  induction os as [|o os IH]; intros w v G rs v' V E; cbn [vrun brun] in *; [assert (rs = [] /\ v' = v) as [-> ->] by (split; congruence); eauto|]. apply obind_ok in E. destruct E as ([r v1] & E1 & E). apply obind_ok in E. destruct E as ([l v2] & E2 & E). assert (rs = r :: l /\ v' = v2) as [-> ->] by (split; congruence). destruct (step_ok _ _ _ _ _ _ V E1) as (w1 & G1 & S1 & V1). rewrite S1. cbn [obind]. destruct (IH _ _ _ _ _ V1 E2) as (w2 & G2 & S2 & V2). rewrite S2. cbn [obind]. eauto.
Qed.
Lemma inv0 : inv bw0 vw0 [].
Proof. constructor; try reflexivity; try constructor; [reflexivity|]. split; [constructor|intros []]. Qed.
End S.
