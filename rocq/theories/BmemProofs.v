(** Buffers in memory are buffers (BufModel), and these are byte strings, also where they fail. *)
From Coq Require Import Permutation.
From Verif Require Import Prelude Perm HeapModel Blocks BufModel BufProofs BmemModel BmemSpec.
Local Open Scope Z_scope.

(** values *)
Definition rep (b : buf) (v : vb) : Prop := contains b (vs v) /\ off b = vdr v /\ cap b = vcap v /\ max b = vmax v.
Lemma rep_len b v : rep b v -> len b = size v.
Proof. intros ((_ & L & _) & _). exact L. Qed.
Lemma rep_unused b v : rep b v -> buf_unused b = vmax v - size v.
Proof. intros H. pose proof (rep_len _ _ H). destruct H as (H & _ & _ & M). destruct (unused_ok _ _ H) as (U & _). lia. Qed.
Lemma rep_new : rep buf_new vnew.
Proof. split; [exact new_ok|]. repeat split. Qed.
Lemma expand_x b v n : rep b v -> n > vmax v - size v -> 0 <= n ->
  match vgrow v n with Ok v' => exists b', buf_expand b n = Ok b' /\ rep b' v' /\ off b' = 0 /\ vs v' = vs v | UB => buf_expand b n = UB | _ => True end.
Proof.
  intros H U N. pose proof (rep_len _ _ H) as L. pose proof (rep_unused _ _ H) as E. unfold vgrow. replace (n >? vmax v - size v) with true by lia. destruct H as (H & O1 & C1 & M1). destruct (Z.eqb_spec (vdr v) 0) as [Z0|Z0]; cbn [safe obind].
  - destruct (size v + Z.max 1024 n <? 2147483648) eqn:G; cbn [guard obind]; [|exact Logic.I]. assert (CG : can_grow b (vs v) n) by (right; unfold size in *; change (2 ^ 31) with 2147483648; lia). destruct (reserve_ok b (vs v) n H N CG) as (b' & R1 & R2 & R3 & R4 & R5 & R6). unfold buf_reserve in R1. replace (n >? buf_unused b) with true in R1 by lia. exists b'. split; [exact R1|].
    unfold buf_expand in R1. cbv zeta in R1. destruct (realloc _ _) as [l0| | |] eqn:RA; try discriminate. cbn [obind] in R1. assert (X : b' = mkbuf (len b) ((len b + (if n <? 1024 then 1024 else n)) mod W64) (Some l0) 0) by congruence.
    assert (M : max b' = size v + Z.max 1024 n) by (rewrite X; cbn [max]; rewrite Z.mod_small by (unfold W64, size in *; destruct (n <? 1024) eqn:Y; lia); unfold size in *; destruct (n <? 1024) eqn:Y; lia). assert (O' : off b' = 0) by (rewrite X; reflexivity).
    split; [|split; [exact O'|reflexivity]]. split; [exact R2|]. cbn [vdr vcap vmax]. split; [exact O'|]. split; [|exact M]. destruct R2 as (_ & _ & _ & _ & _ & M2 & _). rewrite <- M2 by exact O'. exact M.
  - unfold buf_expand. cbv zeta. unfold realloc. destruct (blk b) eqn:Eb; [|destruct H as (_ & _ & _ & X & _); specialize (X Eb); lia]. replace (off b =? 0) with false by lia. reflexivity.
Qed.
Lemma grow_same v n : ~ n > vmax v - size v -> vgrow v n = Ok v.
Proof. intros U. unfold vgrow. now replace (n >? vmax v - size v) with false by lia. Qed.
(** the part of zt_buf_add after the buffer has grown *)
Definition buf_put (b : buf) (d : list Z) : outcome buf :=
  l <- wrn (block b) (Z.to_nat (off b + len b)) d ;; Ok (mkbuf ((len b + Z.of_nat (length d)) mod W64) (max b) (match blk b with Some _ => Some l | None => None end) (off b)).
Lemma wrn_over : forall d l i, d <> [] -> (length l < i + length d)%nat -> wrn l i d = UB.
Proof.
  induction d as [|x d IH]; intros l i N H; [congruence|]. cbn [wrn]. cbn [length] in H. destruct (Nat.ltb_spec i (length l)); [|reflexivity]. destruct d as [|y d]; [cbn [length] in H; lia|]. apply IH; [discriminate|]. rewrite upd_length. cbn [length] in *. lia.
Qed.
Lemma put_x b v d : rep b v -> match vput v d with Ok v' => exists b', buf_put b d = Ok b' /\ rep b' v' /\ off b' = off b /\ cap b' = cap b /\ vs v' = vs v ++ d | UB => buf_put b d = UB | _ => True end.
Proof.
  intros H. pose proof (rep_len _ _ H) as L. pose proof (rep_unused _ _ H) as E. destruct H as (H & O1 & C1 & M1). destruct (unused_ok _ _ H) as (U1 & U2 & _). pose proof H as ((pre & rest & Eb & P) & _ & O & _). unfold vput. destruct (_ <=? _) eqn:F; cbn [safe obind].
  - assert (Q : off b + Z.of_nat (length (vs v)) + Z.of_nat (length d) <= cap b) by (unfold size in *; lia). destruct (add_ok b (vs v) d H) as (b' & A1 & A2 & A3 & A4 & A5); [left; exact Q|]. unfold buf_add in A1. cbv zeta in A1. replace (Z.of_nat (length d) >? buf_unused b) with false in A1 by lia. cbn [obind] in A1. exists b'. split; [exact A1|].
    assert (Cb : cap b' = cap b). { destruct (Z.eq_dec (off b) 0) as [Z0|Z0]; [|now apply A5]. destruct A2 as (_ & _ & _ & _ & _ & M & _). rewrite <- M by congruence. destruct (wrn _ _ _) as [l0| | |] eqn:Wn; try discriminate. cbn [obind] in A1. match type of A1 with Ok ?z = _ => assert (X : b' = z) by congruence end. rewrite X. cbn [max]. destruct H as (_ & _ & _ & _ & _ & M0 & _). now apply M0. }
    split; [|split; [exact A3|split; [exact Cb|reflexivity]]]. split; [exact A2|]. cbn [vdr vcap vmax vs]. split; [congruence|]. split; [congruence|]. destruct (wrn _ _ _) as [l0| | |] eqn:Wn; try discriminate. cbn [obind] in A1. match type of A1 with Ok ?z = _ => assert (X : b' = z) by congruence end. rewrite X. exact M1.
  - unfold buf_put. rewrite wrn_over; [reflexivity| |].
    + intros ->. cbn [length] in F. pose proof (contains_room _ _ H). unfold size in *. lia.
    + rewrite cap_block in C1. unfold size in *. lia.
Qed.
Lemma drain_x b v n : rep b v -> 0 <= n -> exists b', buf_drain b n = (fst (vdrain v n), b') /\ rep b' (snd (vdrain v n)) /\ blk b' = blk b.
Proof.
  intros H N. pose proof (rep_len _ _ H) as L. destruct H as (H & O1 & C1 & M1). destruct (drain_ok b (vs v) n H N) as (b' & D1 & D2 & D3 & D4). exists b'. assert (Cb : cap b' = cap b) by (unfold cap; now rewrite D3). unfold vdrain. destruct (Z.eqb_spec n 0) as [->|N0].
  - assert (b' = b) by (unfold buf_drain in D1; cbn [Z.eqb] in D1; congruence). subst b'. cbn [fst snd]. split; [exact D1|]. split; [split; [exact H|auto]|reflexivity].
  - rewrite D1. destruct (n <? size v) eqn:G; unfold size in *; rewrite G in D4; cbn [fst snd].
    + split; [f_equal; lia|]. split; [|exact D3]. split; [exact D2|]. cbn [vdr vcap vmax]. split; [congruence|]. split; [congruence|]. unfold buf_drain in D1. replace (n =? 0) with false in D1 by lia. replace (n <? len b) with true in D1 by lia. match type of D1 with (_, ?z) = _ => assert (X : b' = z) by congruence end. rewrite X. cbn [max].
      pose proof (contains_room _ _ H) as R. destruct H as (_ & _ & O & _ & M & _ & C). assert (0 <= cap b) by (rewrite cap_block; lia). assert (cap b * (1 + off b) <= 2 ^ 31 * 2 ^ 31) by nia. rewrite Zminus_mod_idemp_r. rewrite Z.mod_small by (unfold W64; lia). lia.
    + split; [f_equal; lia|]. split; [|exact D3]. rewrite skipn_all2 in D2 by lia. split; [exact D2|]. cbn [vdr vcap vmax]. split; [congruence|]. split; [congruence|]. unfold buf_drain in D1. replace (n =? 0) with false in D1 by lia. replace (n <? len b) with false in D1 by lia. match type of D1 with (_, ?z) = _ => assert (X : b' = z) by congruence end. rewrite X. exact M1.
Qed.

(** memory *)
Definition pof (p : option nat) (o : Z) : bptr := match p with Some d => Some (d, o) | None => None end.
Definition kcells (p : option nat) (b : buf) : list (nat * bcell) := match p with Some d => [(d, BBlk (block b))] | None => [] end.
Definition bcells (a : nat) (p : option nat) (b : buf) : list (nat * bcell) := (a, BBuf (len b) (max b) (pof p (off b)) (pof p 0)) :: kcells p b.
Definition placed (p : option nat) (b : buf) : Prop := p = None <-> blk b = None.
Lemma buf_rd m a p b R : owns m (bcells a p b ++ R) -> rd_buf m a = Ok (len b, max b, pof p (off b), pof p 0).
Proof. intros H. unfold rd_buf. rewrite (owns_in _ _ a _ H (or_introl eq_refl)). reflexivity. Qed.
Lemma blk_rd m d L l : owns m L -> In (d, BBlk l) L -> rd_blk m d = Ok l.
Proof. intros H I. unfold rd_blk. rewrite (owns_in _ _ d _ H I). reflexivity. Qed.
Lemma unused_m m a p b R : owns m (bcells a p b ++ R) -> m_unused m a = Ok (buf_unused b).
Proof. intros H. unfold m_unused. rewrite (buf_rd _ _ _ _ _ H). reflexivity. Qed.
Lemma buf_wr m a p b b' R : owns m (bcells a p b ++ R) -> block b' = block b -> owns (hput m a (BBuf (len b') (max b') (pof p (off b')) (pof p 0))) (bcells a p b' ++ R).
Proof. intros H E. unfold bcells in *. assert (K : kcells p b' = kcells p b) by (unfold kcells; now rewrite E). rewrite K. cbn [app] in *. apply (owns_put _ _ (BBuf (len b) (max b) (pof p (off b)) (pof p 0))). exact H. Qed.
Lemma drain_m m a p b R n r b' : owns m (bcells a p b ++ R) -> placed p b -> (blk b = None -> len b <= 0) -> buf_drain b n = (r, b') -> 0 <= n -> exists m', m_drain m a n = Ok (r, m') /\ owns m' (bcells a p b' ++ R).
Proof.
  intros H Pl NL E N. unfold m_drain. unfold buf_drain in E. destruct (n =? 0) eqn:N0; [assert (r = 0 /\ b' = b) as [-> ->] by (split; congruence); eauto|]. rewrite (buf_rd _ _ _ _ _ H). cbn [obind]. destruct (n <? len b) eqn:G.
  - assert (X : minus (pof p 0) (pof p (off b)) = Ok ((- off b) mod W64)). { destruct p as [d|]; cbn [pof minus]; [rewrite Nat.eqb_refl; reflexivity|]. exfalso. destruct Pl as [Pl _]. specialize (NL (Pl eq_refl)). lia. } rewrite X. cbn [obind].
    cbv zeta in E. cbn [len] in E. assert (b' = mkbuf (len b - n) ((max b - ((- off b) mod W64)) mod W64) (blk b) (off b + n)) by congruence. assert (r = len b - n) by congruence. subst r b'. eexists. split; [reflexivity|]. match goal with |- owns _ (bcells a p ?z ++ R) => replace (plus (pof p (off b)) n) with (pof p (off z)) by (destruct p; reflexivity); apply (buf_wr m a p b z R H); reflexivity end.
  - assert (r = 0 /\ b' = mkbuf 0 (max b) (blk b) (off b)) as [-> ->] by (split; congruence). eexists. split; [reflexivity|]. exact (buf_wr m a p b (mkbuf 0 (max b) (blk b) (off b)) R H eq_refl).
Qed.
Lemma free_m m a p b R : owns m (bcells a p b ++ R) -> exists m', m_free m a = Ok m' /\ owns m' R.
Proof.
  intros H. unfold m_free. rewrite (buf_rd _ _ _ _ _ H). cbn [obind]. unfold bcells in H. destruct p as [d|]; cbn [pof kcells app] in *.
  - change (0 =? 0) with true. cbv iota. destruct (owns_free m d (BBlk (block b)) ((a, BBuf (len b) (max b) (Some (d, off b)) (Some (d, 0))) :: R)) as (m1 & E1 & H1); [apply (owns_perm _ _ _ H); perm|]. rewrite E1. cbn [obind]. exact (owns_free _ _ _ _ H1).
  - cbn [obind]. exact (owns_free _ _ _ _ H).
Qed.
(** reading at a pointer into a block *)
Lemma rd_at_ok m L d l o n b : owns m L -> In (d, BBlk l) L -> 0 <= o -> 0 <= n -> (exists pre rest, l = pre ++ map Some b ++ rest /\ Z.of_nat (length pre) = o) -> n <= Z.of_nat (length b) -> rd_at m (Some (d, o)) n = Ok (firstn (Z.to_nat n) b).
Proof.
  intros H I O N (pre & rest & E & P) Ln. unfold rd_at. destruct (Z.eqb_spec n 0) as [->|_]; [reflexivity|]. rewrite (blk_rd _ _ _ _ H I). cbn [obind]. replace (0 <=? o) with true by lia. cbn [safe obind]. subst l. replace (Z.to_nat o) with (length pre) by lia. apply rdn_ok. lia.
Qed.
(** writing after the contents *)
Lemma put_m m a p b R d b' : owns m (bcells a p b ++ R) -> placed p b -> 0 <= off b + len b -> buf_put b d = Ok b' ->
  exists m1, wr_at m (plus (pof p (off b)) (len b)) d = Ok m1 /\ owns (hput m1 a (BBuf (len b') (max b') (pof p (off b')) (pof p 0))) (bcells a p b' ++ R) /\ placed p b' /\ rd_buf m1 a = rd_buf m a.
Proof.
  intros H Pl O E. unfold buf_put in E. apply obind_ok in E. destruct E as (l & El & E). match type of E with Ok ?z = _ => assert (b' = z) by congruence end. subst b'. destruct d as [|x d].
  - cbn [wrn] in El. assert (l = block b) by congruence. subst l. exists m. split; [reflexivity|]. split; [|split; [|reflexivity]].
    + apply (buf_wr m a p b _ R H). unfold block. cbn [blk]. destruct (blk b); reflexivity.
    + unfold placed in *. cbn [blk]. destruct (blk b); [split; intros X; [apply Pl in X; discriminate|discriminate]|exact Pl].
  - unfold wr_at. destruct p as [q|].
    + cbn [pof plus]. rewrite (blk_rd m q (bcells a (Some q) b ++ R) (block b) H) by (right; now left). cbn [obind]. replace (0 <=? off b + len b) with true by lia. cbn [safe obind]. rewrite El. cbn [obind]. exists (hput m q (BBlk l)). split; [reflexivity|].
      assert (Nb : blk b <> None) by (intros X; apply Pl in X; discriminate). assert (H1 : owns (hput m q (BBlk l)) ((q, BBlk l) :: (a, BBuf (len b) (max b) (Some (q, off b)) (Some (q, 0))) :: R)) by (apply (owns_put _ _ (BBlk (block b))); apply (owns_perm _ _ _ H); unfold bcells; cbn [kcells pof]; perm).
      split; [|split].
      * unfold bcells. cbn [kcells pof len max off]. apply (owns_perm _ ((a, BBuf ((len b + Z.of_nat (length (x :: d))) mod W64) (max b) (Some (q, off b)) (Some (q, 0))) :: (q, BBlk l) :: R)).
        -- apply (owns_put _ _ (BBuf (len b) (max b) (Some (q, off b)) (Some (q, 0)))). apply (owns_perm _ _ _ H1). perm.
        -- unfold block. cbn [blk]. destruct (blk b); [reflexivity|congruence].
      * unfold placed in *. cbn [blk]. destruct (blk b); [split; discriminate|congruence].
      * rewrite (buf_rd _ _ _ _ _ H). unfold rd_buf. rewrite (owns_in _ _ a _ H1 (or_intror (or_introl eq_refl))). reflexivity.
    + exfalso. destruct Pl as [Pl _]. specialize (Pl eq_refl). unfold block in El. rewrite Pl in El. cbn [wrn length] in El. destruct (Nat.ltb _ _) eqn:X; [apply Nat.ltb_lt in X; lia|discriminate].
Qed.
Lemma put_m_ub m a p b R d : owns m (bcells a p b ++ R) -> placed p b -> buf_put b d = UB -> wr_at m (plus (pof p (off b)) (len b)) d = UB.
Proof.
  intros H Pl E. unfold buf_put in E. destruct d as [|x d]; [discriminate|]. unfold wr_at. destruct p as [q|]; [|reflexivity]. cbn [pof plus]. rewrite (blk_rd m q (bcells a (Some q) b ++ R) (block b) H) by (right; now left). cbn [obind]. unfold safe. destruct (0 <=? _); cbn [obind]; [|reflexivity]. destruct (wrn _ _ _); cbn [obind] in *; congruence.
Qed.

Section K.
Variable pick : nat -> list nat -> nat.
Hypothesis ok : good pick.
Lemma expand_m m a p b R n b' : owns m (bcells a p b ++ R) -> placed p b -> buf_expand b n = Ok b' ->
  exists d m', m_expand pick m a n = Ok m' /\ owns m' (bcells a (Some d) b' ++ R) /\ placed (Some d) b' /\ (forall q, p = Some q -> q <> d).
Proof.
  intros H Pl E. unfold m_expand. rewrite (buf_rd _ _ _ _ _ H). cbn [obind]. unfold buf_expand in E. cbv zeta in E. apply obind_ok in E. destruct E as (l & El & E). assert (b' = mkbuf (len b) ((len b + (if n <? 1024 then 1024 else n)) mod W64) (Some l) 0) by congruence. subst b'. change B64 with W64. set (sz := (len b + (if n <? 1024 then 1024 else n)) mod W64) in *. unfold realloc in El. unfold m_realloc. destruct p as [q|]; cbn [pof].
  - destruct (blk b) as [l0|] eqn:Eb; [|destruct Pl as [_ Pl]; specialize (Pl Eb); discriminate]. destruct (off b =? 0) eqn:Zo; [|discriminate]. assert (Bl : block b = l0) by (unfold block; now rewrite Eb). rewrite (blk_rd m q (bcells a (Some q) b ++ R) l0 H) by (right; left; now rewrite Bl). cbn [obind]. assert (l = firstn (Z.to_nat sz) l0 ++ repeat None (Z.to_nat sz - length l0)) by congruence. subst l.
    match goal with |- context [hnew pick m ?c] => destruct (owns_new pick m c _ ok H) as (nd & m1 & E1 & H1) end. rewrite E1.
    pose proof (owns_nodup _ _ H1) as ND. cbn [map fst app bcells kcells] in ND. assert (Nq : q <> nd) by (apply NoDup_cons_iff in ND; destruct ND as [ND _]; intros ->; apply ND; right; now left).
    destruct (owns_free m1 q (BBlk (block b)) ((a, BBuf (len b) (max b) (Some (q, off b)) (Some (q, 0))) :: (nd, BBlk (firstn (Z.to_nat sz) l0 ++ repeat None (Z.to_nat sz - length l0))) :: R)) as (m2 & E2 & H2); [apply (owns_perm _ _ _ H1); unfold bcells; cbn [kcells pof]; perm|]. rewrite E2. cbn [obind]. exists nd. eexists. split; [reflexivity|]. split; [|split; [split; discriminate|intros q0 X; congruence]].
    unfold bcells. cbn [kcells pof len max off app]. apply (owns_put _ _ (BBuf (len b) (max b) (Some (q, off b)) (Some (q, 0)))). exact H2.
  - destruct Pl as [Pl _]. rewrite (Pl eq_refl) in El. assert (l = repeat None (Z.to_nat sz)) by congruence. subst l. match goal with |- context [hnew pick m ?c] => destruct (owns_new pick m c _ ok H) as (nd & m1 & E1 & H1) end. rewrite E1. cbn [obind]. exists nd. eexists. split; [reflexivity|]. split; [|split; [split; discriminate|discriminate]].
    unfold bcells. cbn [kcells pof len max off app]. apply (owns_put _ _ (BBuf (len b) (max b) None None)). apply (owns_perm _ _ _ H1). unfold bcells. cbn [kcells pof]. unfold block. cbn [blk]. perm.
Qed.
Lemma expand_m_ub m a p b R n : owns m (bcells a p b ++ R) -> placed p b -> buf_expand b n = UB -> m_expand pick m a n = UB.
Proof.
  intros H Pl E. unfold m_expand. rewrite (buf_rd _ _ _ _ _ H). cbn [obind]. unfold buf_expand in E. cbv zeta in E. unfold realloc in E. unfold m_realloc. destruct p as [q|]; cbn [pof].
  - destruct (blk b) as [l0|] eqn:Eb; [|destruct Pl as [_ Pl]; specialize (Pl Eb); discriminate]. destruct (off b =? 0) eqn:Zo; [discriminate|reflexivity].
  - destruct Pl as [Pl _]. rewrite (Pl eq_refl) in E. discriminate.
Qed.
End K.
