(** One step, and whole programs, in the shared pools: ImemSim's invariant is kept. *)
From Verif Require Import Prelude MemModel MemProofs RegModel RegSpec PropReg TmemModel TmemProofs ImemModel ImemSpec ImemProofs ImemSim.
From Verif Require Ipv4Model.
Import Ipv4Model (tbl, rows, tin, tsz, tany, mktbl, nid, naddr, mknode, bitlen, a_addr, netmask, make_addr, tbl_init, add_node, addr_cmp, add_net, search_net).
From Coq Require Import Permutation Sorted.
Open Scope Z_scope.

Lemma F2_app {A B} (R : A -> B -> Prop) l m l' m' : Forall2 R l m -> Forall2 R l' m' -> Forall2 R (l ++ l') (m ++ m').
Proof. induction 1; cbn [app]; auto. Qed.
Lemma groups_in sh np tabs vs a : Forall2 (pair_ok sh np) tabs vs -> In a (flat_map group_of tabs) -> In a (map (fun x : shp => fst (fst x)) sh).
Proof.
  intros F I. apply in_flat_map in I. destruct I as (o & Io & I). apply In_nth_error in Io. destruct Io as (i & Io). destruct (F2_nth_l _ _ _ _ _ F Io) as (y & _ & K). destruct o as [it|]; [|destruct I]. destruct y as [t|]; [|contradiction]. destruct K as [_ _ _ _ (a1 & a2 & a3 & E & I1 & I2 & I3)]. cbn [group_of] in I. rewrite E in I. cbn in I.
  destruct I as [<-|[<-|[<-|[]]]]; [change a1 with (fst (fst (a1, Some hash_pool, 8 * tsz t)))|change a2 with (fst (fst (a2, Some node_pool, 16)))|change a3 with (fst (fst (a3, Some addr_pool, 16)))]; now apply in_map with (f := fun x : shp => fst (fst x)).
Qed.
Lemma none_rows : flat_map one (repeat (@None handle) 32) = [].
Proof. reflexivity. Qed.

(** what else a step does: row pools come only from new tables; without elements in use, every pool belongs to a table *)
Definition grew (w w' : iworld) (o : iop) : Prop := incl (hsizes (shape (iw_reg w'))) (map (Z.mul 8) (slots_of o) ++ hsizes (shape (iw_reg w))).
Definition owned (w : iworld) : Prop := forall a k s, In (a, k, s) (shape (iw_reg w)) -> In a (flat_map group_of (iw_tabs w)).
Lemma grew_same w w' o : shape (iw_reg w') = shape (iw_reg w) -> grew w w' o.
Proof. intros E. unfold grew. rewrite E. apply incl_appr, incl_refl. Qed.

Section S.
Variable pick : nat -> list nat -> nat.
Hypothesis fresh : forall k l, ~ In (pick k l) l.
Variable sys : Z.
Hypothesis Hsys : 4096 <= sys < 2 ^ 63.

Lemma step_new w v last size : inv w v last -> 0 <= size < 2 ^ 32 -> (if size =? 0 then 128 else size) <= last -> exists w', istep pick sys w (INew size) = Ok (None, w') /\ inv w' (mkvw (vt v ++ [Some (tbl_init size)]) (vids v) (n_rows v) (n_nodes v) (n_addrs v)) (if size =? 0 then 128 else size) /\ grew w w' (INew size) /\ (owned w -> owned w').
Proof.
  intros [(H & Gr & Gn & Ga & St & Ph & Pn & Pa & L1 & L2 & L3) Sz So Ft Ng Ei] Hs Le. cbn [istep]. cbv zeta. set (k := length (iw_tabs w)). set (l := map addr (plist (iw_reg w))). set (a1 := pick k l). set (a2 := pick k (a1 :: l)). set (a3 := pick k (a2 :: a1 :: l)).
  destruct (iinit_ok sys (iw_reg w) H last a1 a2 a3 size Hsys Hs St Sz So Le (fresh _ _) (fresh _ _) (fresh _ _)) as (r' & H' & E & St' & Sz' & So' & Hh & Sh). rewrite E. cbn [obind]. eexists. split; [reflexivity|].
  split; [|split; [unfold grew; cbn [iw_reg]; rewrite Sh; unfold hsizes; rewrite filter_app, map_app; cbn [filter]; rewrite is_self, !is_other by discriminate; cbn [map snd slots_of]; intros z Jz; apply in_app_or in Jz; apply in_or_app; tauto
    |unfold owned; cbn [iw_reg iw_tabs]; intros Ow a kk s J; rewrite Sh in J; rewrite flat_map_app; apply in_or_app; apply in_app_or in J; destruct J as [J|J]; [left; now apply (Ow a kk s)|right; cbn [flat_map group_of it_group one app]; cbn [In] in *; intuition congruence]]].
  constructor; cbn [iw_reg iw_places iw_tabs vt vids n_rows n_nodes n_addrs]; try assumption.
  - exists H', Gr, Gn, Ga. rewrite !Hh. split; [exact St'|]. rewrite flat_map_app. cbn [flat_map rows_of it_rows]. rewrite none_rows; cbn [app]; rewrite !app_nil_r. auto 10.
  - apply F2_app.
    + apply (F2_impl (pair_ok (shape (iw_reg w)) (length (iw_places w)))); [|exact Ft]. intros x y. apply pair_mono; [|lia]. intros a n s J. rewrite Sh. apply in_or_app. now left.
    + constructor; [|constructor]. cbn [pair_ok]. constructor; cbn [it_tbl it_rows it_group].
      * reflexivity.
      * reflexivity.
      * cbn [rows tbl_init]. generalize 32%nat. induction n; cbn [repeat]; constructor; [split; reflexivity|exact IHn].
      * intros n [N|(q & row & j & c & N & _)]; [discriminate|]. cbn [rows tbl_init] in N. apply nth_error_In in N. apply repeat_spec in N. discriminate.
      * exists a1, a2, a3. cbn [tsz tbl_init]. rewrite Sh. split; [reflexivity|]. split; [|split]; apply in_or_app; right; [now left|right; now left|right; right; now left].
  - rewrite flat_map_app. cbn [flat_map group_of it_group one app].
    assert (Old : forall a, In a (flat_map group_of (iw_tabs w)) -> In a l) by (intros a J; unfold l; rewrite <- shape_addr; now apply (groups_in _ _ _ _ _ Ft)).
    pose proof (fresh k l) as F1. pose proof (fresh k (a1 :: l)) as F2. pose proof (fresh k (a2 :: a1 :: l)) as F3. fold a1 in F1. fold a2 in F2. fold a3 in F3. cbn [In] in F2, F3.
    apply NoDup_Add with (a := a1) (l := flat_map group_of (iw_tabs w) ++ [a2; a3]); [apply Add_app|]. split; [|intros J; apply in_app_or in J; cbn [In] in J; destruct J as [J|J]; [now apply F1, Old|intuition congruence]].
    apply NoDup_Add with (a := a2) (l := flat_map group_of (iw_tabs w) ++ [a3]); [apply Add_app|]. split; [|intros J; apply in_app_or in J; cbn [In] in J; destruct J as [J|J]; [apply F2; right; now apply Old|intuition congruence]].
    apply NoDup_Add with (a := a3) (l := flat_map group_of (iw_tabs w) ++ []); [apply Add_app|]. split; [now rewrite app_nil_r|intros J; rewrite app_nil_r in J; apply F3; right; right; now apply Old].
Qed.

Lemma step_add w v last i net x v' : inv w v last -> vstep v (IAdd i net) = Ok (x, v') -> exists w', istep pick sys w (IAdd i net) = Ok (x, w') /\ inv w' v' last /\ grew w w' (IAdd i net).
Proof.
  intros V Hv. cbn [vstep] in Hv. apply obind_ok in Hv. destruct Hv as (t & Lt & Hv). destruct (tab_of _ _ _ _ _ V Lt) as (it & Lit & Nit & K). apply live_some in Lt. destruct V as [(H & Gr & Gn & Ga & St & Ph & Pn & Pa & L1 & L2 & L3) Sz So Ft Ng Ei]. cbn [istep]. cbv zeta. rewrite Lit. cbn [obind]. unfold iadd. rewrite (t_tbl _ _ _ _ K).
  destruct (tany t) as [n|] eqn:Et.
  - assert (x = Some (naddr n) /\ v' = v) as (-> & ->) by (split; congruence). rewrite (touch_ok (iw_reg w) H (iw_places w) Gn Ga (nid n) St Pn Pa) by (apply (t_nodes _ _ _ _ K); left; exact Et). cbn [obind]. eexists. split; [reflexivity|]. rewrite (upd_self _ _ _ Nit). split; [|now apply grew_same]. constructor; cbn [iw_reg iw_places iw_tabs]; try assumption. exists H, Gr, Gn, Ga. auto 10.
  - destruct (t_group _ _ _ _ K) as (a1 & a2 & a3 & Eg & I1 & I2 & I3). pose proof (inode_ok (iw_reg w) H last a2 16 a3 16 net St Sz I2 I3) as N. destruct net as [[ip b]|].
    + apply obind_ok in Hv. destruct Hv as ([n t'] & Ha & Hv). unfold add_net in Ha. rewrite Et in Ha. apply obind_ok in Ha. destruct Ha as (ad & Em & Ha). apply obind_ok in Ha. destruct Ha as (t2 & Ead & Ha). assert (n = mknode (vids v) ad /\ t2 = t') as (-> & ->) by (split; congruence). cbn [naddr] in Hv.
      destruct (N ad Em) as (r1 & hn & ha & H1 & E1 & St1 & Sh1 & Q1 & Q2 & Q3). rewrite E1. cbn [obind]. destruct (fm_upd rows_of (iw_tabs w) i (Some it) Nit) as (R & P1 & P2). cbn [rows_of] in P1.
      destruct (iadd_node_ok r1 H1 last (iw_places w) Gr Gn Ga R it t (length (iw_places w)) hn ha ad t') as (r2 & it' & H2 & E2 & St2 & Sh2 & T1 & T2 & T3 & T4 & T5 & T6).
      { exact St1. } { now rewrite Sh1. } { now rewrite Sh1. } { rewrite Sh1, Q1, Ph, P1. now rewrite <- app_assoc. }
      { rewrite Sh1, Q2, Pn, map_app. cbn [map fst]. rewrite <- app_assoc. cbn [app]. apply Permutation_middle. } { rewrite Sh1, Q3, Pa, map_app. cbn [map snd]. rewrite <- app_assoc. cbn [app]. apply Permutation_middle. }
      { rewrite Sh1. exact K. } { reflexivity. } { rewrite <- Ei. exact Ead. }
      rewrite E2. cbn [obind]. cbn [Z.eqb]. assert (x = Some ad) by congruence. subst x. match type of Hv with Ok (_, ?y) = _ => assert (v' = y) by congruence; subst v' end. eexists. split; [reflexivity|]. split; [|apply grew_same; cbn [iw_reg]; congruence]. rewrite Sh1 in *.
      assert (Eb : bitlen ad = b). { unfold make_addr in Em. apply obind_ok in Em. destruct Em as (m & _ & Em). cbv zeta in Em. match type of Em with Ok ?y = _ => assert (ad = y) by congruence; subst ad end. reflexivity. } rewrite Eb in T4.
      specialize (P2 (Some it')). cbn [rows_of] in P2.
      assert (Lr : length (flat_map rows_of (upd (iw_tabs w) i (Some it')) ++ Gr) = (n_rows v + no_row t b)%nat). { rewrite <- L1, !app_length. assert (X1 : length (flat_map rows_of (upd (iw_tabs w) i (Some it'))) = (length (flat_map one (it_rows it')) + length R)%nat) by (rewrite <- app_length; apply (Permutation_length P2)). assert (X2 : length (flat_map rows_of (iw_tabs w)) = (length (flat_map one (it_rows it)) + length R)%nat) by (rewrite <- app_length; apply (Permutation_length P1)). rewrite X1, X2, T4. lia. }
      constructor; cbn [iw_reg iw_places iw_tabs vt vids n_rows n_nodes n_addrs]; rewrite ?Sh2; try assumption.
      * exists H2, Gr, Gn, Ga. split; [exact St2|]. rewrite T2, T3. split; [rewrite T1, P2; now rewrite <- app_assoc|]. split; [rewrite Q2, Pn, map_app; cbn [map fst]; rewrite <- app_assoc; cbn [app]; apply Permutation_middle|]. split; [rewrite Q3, Pa, map_app; cbn [map snd]; rewrite <- app_assoc; cbn [app]; apply Permutation_middle|]. split; [exact Lr|]. rewrite !map_app, !app_length in *. cbn [map length]. lia.
      * rewrite app_length. cbn [length]. apply F2_upd; [|cbn [pair_ok]; now rewrite Nat.add_1_r]. apply (F2_impl (pair_ok (shape (iw_reg w)) (length (iw_places w)))); [|exact Ft]. intros p q. apply pair_mono; [auto|lia].
      * destruct (fm_upd group_of (iw_tabs w) i (Some it) Nit) as (R' & P1' & P2'). apply (Permutation_NoDup (l := flat_map group_of (iw_tabs w))); [|exact Ng]. rewrite P1', (P2' (Some it')). cbn [group_of]. now rewrite T5.
      * rewrite app_length. cbn [length]. lia.
    + destruct N as (r1 & hn & H1 & E1 & St1 & Sh1 & Q1 & Q2 & Q3). rewrite E1. cbn [obind]. assert (x = None) by congruence. subst x. match type of Hv with Ok (_, ?y) = _ => assert (v' = y) by congruence; subst v' end. eexists. split; [reflexivity|]. split; [|now apply grew_same]. rewrite (upd_self _ _ _ Nit).
      constructor; cbn [iw_reg iw_places iw_tabs vt vids n_rows n_nodes n_addrs]; rewrite ?Sh1; try assumption. exists H1, Gr, (hn :: Gn), Ga. rewrite Q1, Q3. split; [exact St1|]. split; [exact Ph|]. split; [rewrite Q2, Pn; apply Permutation_middle|]. split; [exact Pa|]. split; [exact L1|]. split; [rewrite app_length in L2 |- *; cbn [length]; lia|exact L3].
Qed.

Lemma step_search w v last i net x v' : inv w v last -> vstep v (ISearch i net) = Ok (x, v') -> exists w', istep pick sys w (ISearch i net) = Ok (x, w') /\ inv w' v' last /\ grew w w' (ISearch i net).
Proof.
  intros V Hv. cbn [vstep] in Hv. apply obind_ok in Hv. destruct Hv as (t & Lt & Hv). destruct (tab_of _ _ _ _ _ V Lt) as (it & Lit & Nit & K). destruct V as [(H & Gr & Gn & Ga & St & Ph & Pn & Pa & L1 & L2 & L3) Sz So Ft Ng Ei]. cbn [istep]. cbv zeta. rewrite Lit. cbn [obind]. unfold isearch.
  destruct (t_group _ _ _ _ K) as (a1 & a2 & a3 & Eg & I1 & I2 & I3). pose proof (inode_ok (iw_reg w) H last a2 16 a3 16 net St Sz I2 I3) as N. destruct names as (D1 & D2 & D3). destruct net as [[ip b]|].
  - apply obind_ok in Hv. destruct Hv as (y & Hs & Hv). unfold search_net in Hs. apply obind_ok in Hs. destruct Hs as (ad & Em & Hs). destruct (N ad Em) as (r1 & hn & ha & H1 & E1 & St1 & Sh1 & Q1 & Q2 & Q3). rewrite E1. cbn [obind].
    assert (An : alive r1 hn = true) by (apply (alive_handle r1 H1 node_pool); [exact St1|]; rewrite Sh1; apply (Permutation_in _ (Permutation_sym Q2)); now left). assert (Aa : alive r1 ha = true) by (apply (alive_handle r1 H1 addr_pool); [exact St1|]; rewrite Sh1; apply (Permutation_in _ (Permutation_sym Q3)); now left). rewrite An, Aa. cbn [andb safe obind].
    assert (Pn1 : Permutation (handles (shape r1) H1 node_pool) (map fst (iw_places w) ++ hn :: Gn)) by (rewrite Sh1, Q2, Pn; apply Permutation_middle). assert (Pa1 : Permutation (handles (shape r1) H1 addr_pool) (map snd (iw_places w) ++ ha :: Ga)) by (rewrite Sh1, Q3, Pa; apply Permutation_middle).
    destruct (isearch_ok r1 H1 (iw_places w) (hn :: Gn) (ha :: Ga) (shape (iw_reg w)) it t ad St1 Pn1 Pa1 K) with (x := y) as (E2 & Hid); [|exact Hs|].
    { intros h Ih. apply (alive_handle r1 H1 hash_pool); [exact St1|]. rewrite Sh1, Q1. apply (Permutation_in _ (Permutation_sym Ph)). apply in_or_app. left. apply in_flat_map. exists (Some it). split; [now apply nth_error_In in Nit|exact Ih]. }
    rewrite E2. cbn [obind]. destruct hn as [an xn]. cbn [fst snd].
    destruct (give r1 H1 node_pool an xn (handles (shape (iw_reg w)) H node_pool) St1) as (r2 & H2 & E3 & St2 & Sh2 & T1 & T2); [now rewrite Sh1|]. rewrite E3. cbn [obind]. rewrite Sh1 in *.
    assert (Pn2 : Permutation (handles (shape (iw_reg w)) H2 node_pool) (map fst (iw_places w) ++ Gn)) by (rewrite T1; exact Pn). assert (Pa2 : Permutation (handles (shape (iw_reg w)) H2 addr_pool) (map snd (iw_places w) ++ ha :: Ga)) by (rewrite (T2 addr_pool) by congruence; exact Pa1).
    match type of Hv with Ok (?u, ?q) = _ => assert (x = u) by congruence; assert (v' = q) by congruence; subst x v' end.
    assert (V' : inv (mkiw r2 (iw_places w) (iw_tabs w)) (mkvw (vt v) (vids v) (n_rows v) (n_nodes v) (S (n_addrs v))) last).
    { constructor; cbn [iw_reg iw_places iw_tabs vt vids n_rows n_nodes n_addrs]; rewrite ?Sh2; try assumption. exists H2, Gr, Gn, (ha :: Ga). split; [exact St2|]. split; [rewrite (T2 hash_pool), Q1 by congruence; exact Ph|]. split; [exact Pn2|]. split; [exact Pa2|]. split; [exact L1|]. split; [exact L2|]. rewrite app_length in L3 |- *; cbn [length]; lia. }
    destruct y as [n|]; [|eexists; split; [reflexivity|split; [exact V'|apply grew_same; cbn [iw_reg]; congruence]]]. rewrite (touch_ok r2 H2 (iw_places w) Gn (ha :: Ga)); [|exact St2|now rewrite Sh2|now rewrite Sh2|now apply Hid]. cbn [obind option_map]. eexists. split; [reflexivity|split; [exact V'|apply grew_same; cbn [iw_reg]; congruence]].
  - destruct N as (r1 & hn & H1 & E1 & St1 & Sh1 & Q1 & Q2 & Q3). rewrite E1. cbn [obind]. assert (x = None) by congruence. subst x. match type of Hv with Ok (_, ?y) = _ => assert (v' = y) by congruence; subst v' end. eexists. split; [reflexivity|]. split; [|now apply grew_same].
    constructor; cbn [iw_reg iw_places iw_tabs vt vids n_rows n_nodes n_addrs]; rewrite ?Sh1; try assumption. exists H1, Gr, (hn :: Gn), Ga. rewrite Q1, Q3. split; [exact St1|]. split; [exact Ph|]. split; [rewrite Q2, Pn; apply Permutation_middle|]. split; [exact Pa|]. split; [exact L1|]. split; [rewrite app_length in L2 |- *; cbn [length]; lia|exact L3].
Qed.

Lemma others sh sh' np : forall tabs vs i it t, Forall2 (pair_ok sh np) tabs vs -> nth_error tabs i = Some (Some it) -> NoDup (flat_map group_of tabs) -> (forall a n s, ~ In a (group_of (Some it)) -> In (a, n, s) sh -> In (a, n, s) sh') -> t = @None itable -> Forall2 (pair_ok sh' np) (upd tabs i None) (upd vs i None).
Proof.
  intros tabs vs i it t F N ND Keep _. revert i N ND. induction F as [|o o' tabs vs K F IH]; intros i N ND; [destruct i; discriminate|]. cbn [flat_map] in ND. destruct i as [|i]; cbn [nth_error upd] in *.
  - assert (o = Some it) by congruence. subst o. constructor; [exact Logic.I|]. clear IH K. revert F ND. revert tabs vs. induction 1 as [|p p' tabs vs K F IH]; intros ND; [constructor|]. cbn [flat_map] in ND. constructor.
    + destruct p as [it'|], p' as [t'|]; try contradiction; [|exact Logic.I]. cbn [pair_ok] in *. destruct K as [K1 K2 K3 K4 (a1 & a2 & a3 & K5 & K6 & K7 & K8)]. constructor; try assumption. exists a1, a2, a3. split; [exact K5|].
      assert (X : forall a, In a (group_of (Some it')) -> ~ In a (group_of (Some it))). { intros a J J'. apply in_split in J'. destruct J' as (u1 & u2 & E). rewrite E in ND. rewrite <- app_assoc in ND. cbn [app] in ND. apply NoDup_remove_2 in ND. apply ND. apply in_or_app. right. apply in_or_app. right. apply in_or_app. now left. }
      cbn [group_of] in X. rewrite K5 in X. cbn in X. split; [|split]; (apply Keep; [apply X; tauto|assumption]).
    + apply IH. assert (Pm : Permutation (group_of (Some it) ++ group_of p ++ flat_map group_of tabs) (group_of p ++ group_of (Some it) ++ flat_map group_of tabs)) by apply Permutation_app_swap_app. apply (Permutation_NoDup Pm) in ND. clear - ND. induction (group_of p) as [|z l IHl]; [exact ND|]. cbn [app] in ND. inversion ND; subst. auto.
  - constructor; [|apply IH; [exact N|]].
    + destruct o as [it'|], o' as [t'|]; try contradiction; [|exact Logic.I]. cbn [pair_ok] in *. destruct K as [K1 K2 K3 K4 (a1 & a2 & a3 & K5 & K6 & K7 & K8)]. constructor; try assumption. exists a1, a2, a3. split; [exact K5|].
      assert (X : forall a, In a (group_of (Some it')) -> ~ In a (group_of (Some it))). { intros a J J'. apply in_split in J. destruct J as (u1 & u2 & E). rewrite E in ND. rewrite <- app_assoc in ND. cbn [app] in ND. apply NoDup_remove_2 in ND. apply ND. apply in_or_app. right. apply in_or_app. right. apply in_flat_map. exists (Some it). split; [now apply nth_error_In in N|exact J']. }
      cbn [group_of] in X. rewrite K5 in X. cbn in X. split; [|split]; (apply Keep; [apply X; tauto|assumption]).
    + clear - ND. induction (group_of o) as [|z l IHl]; [exact ND|]. cbn [app] in ND. inversion ND; subst. auto.
Qed.
Lemma step_free w v last i x v' : inv w v last -> vstep v (IFree i) = Ok (x, v') -> exists w', istep pick sys w (IFree i) = Ok (x, w') /\ inv w' v' last /\ grew w w' (IFree i) /\ (owned w -> n_rows v = 0%nat -> n_nodes v = 0%nat -> n_addrs v = 0%nat -> owned w').
Proof.
  intros V Hv. cbn [vstep] in Hv. apply obind_ok in Hv. destruct Hv as (t & Lt & Hv). destruct (tab_of _ _ _ _ _ V Lt) as (it & Lit & Nit & K). apply live_some in Lt. destruct V as [(H & Gr & Gn & Ga & St & Ph & Pn & Pa & L1 & L2 & L3) Sz So Ft Ng Ei]. cbn [istep]. cbv zeta. rewrite Lit. cbn [obind].
  destruct (t_group _ _ _ _ K) as (a1 & a2 & a3 & Eg & I1 & I2 & I3). destruct (fm_upd group_of (iw_tabs w) i (Some it) Nit) as (R' & P1' & P2').
  assert (D : a1 <> a2 /\ a1 <> a3 /\ a2 <> a3). { apply (Permutation_NoDup P1') in Ng. cbn [group_of] in Ng. rewrite Eg in Ng. cbn [flat_map one app] in Ng. inversion Ng as [|? ? M1 Ng2]; subst. inversion Ng2 as [|? ? M2 _]; subst. cbn [In] in M1, M2. repeat split; intros ->; tauto. } destruct D as (D1 & D2 & D3).
  destruct (idestroy_ok (iw_reg w) H last it a1 a2 a3 (8 * tsz t) St Sz So Eg D1 D2 D3 I1 I2 I3) as (r' & E & St' & Sz' & So' & Hh & Keep & Inc & Gone). rewrite E. cbn [obind]. match type of Hv with Ok (?u, ?q) = _ => assert (x = u) by congruence; assert (v' = q) by congruence; subst x v' end. eexists. split; [reflexivity|].
  destruct (fm_upd rows_of (iw_tabs w) i (Some it) Nit) as (R & P1 & P2). specialize (P2 None). cbn [rows_of app] in P1, P2.
  assert (Pp : Permutation (flat_map rows_of (iw_tabs w) ++ Gr) (flat_map rows_of (upd (iw_tabs w) i None) ++ flat_map one (it_rows it) ++ Gr)) by (rewrite P1, P2, <- app_assoc; apply Permutation_app_swap_app).
  split; [|split; [unfold grew, hsizes; cbn [iw_reg slots_of map app]; intros z J; apply in_map_iff in J; destruct J as (y & <- & J); apply filter_In in J; apply in_map; apply filter_In; split; [now apply Inc|tauto]|]]; cycle 1.
  { intros Ow Z1 Z2 Z3 a k s J. cbn [iw_reg iw_tabs] in *. pose proof (Inc _ J) as J0. pose proof (Ow a k s J0) as Ig. apply (Permutation_in _ P1') in Ig. apply in_app_or in Ig. destruct Ig as [Ig|Ig]; [|apply (Permutation_in _ (Permutation_sym (P2' None))); exact Ig]. exfalso. cbn [group_of] in Ig. rewrite Eg in Ig. cbn in Ig.
    assert (He : forall n L, Permutation (handles (shape (iw_reg w)) H n) L -> length L = 0%nat -> handles (shape (iw_reg w)) H n = []) by (intros n L Pl El; apply Permutation_length in Pl; rewrite El in Pl; now apply length_zero_iff_nil).
    assert (Ha : H a = []). { destruct (H a) as [|e l] eqn:Ea; [reflexivity|]. exfalso. assert (X : forall n L, Permutation (handles (shape (iw_reg w)) H n) L -> length L = 0%nat -> k = Some n -> False). { intros n L Pl El ->. assert (In (a, e) (handles (shape (iw_reg w)) H n)) as Ie by (apply handles_in; exists s; split; [exact J0|rewrite Ea; now left]). rewrite (He n L Pl El) in Ie. destruct Ie. } destruct (Sz a k s J0) as [(Ek & _)|[(Ek & _)|(Ek & _)]]; [apply (X _ _ Ph ltac:(lia) Ek)|apply (X _ _ Pn ltac:(lia) Ek)|apply (X _ _ Pa ltac:(lia) Ek)]. }
    apply (Gone a k s Ha); [intuition congruence|exact J]. }
  constructor; cbn [iw_reg iw_places iw_tabs vt vids n_rows n_nodes n_addrs]; try assumption.
  - exists H, (flat_map one (it_rows it) ++ Gr), Gn, Ga. rewrite !Hh. split; [exact St'|]. split; [rewrite Ph; exact Pp|]. split; [exact Pn|]. split; [exact Pa|]. split; [|auto]. rewrite <- L1. symmetry. apply (Permutation_length Pp).
  - apply (others (shape (iw_reg w)) _ _ _ _ i it None); try assumption; [|reflexivity]. intros a n s J. cbn [group_of] in J. rewrite Eg in J. cbn in J. apply Keep; intros ->; tauto.
  - apply (Permutation_NoDup (l := R')); [symmetry; apply (P2' None)|]. apply (Permutation_NoDup P1') in Ng. clear - Ng. induction (group_of (Some it)) as [|z l IHl]; [exact Ng|]. cbn [app] in Ng. inversion Ng; subst. auto.
Qed.

Lemma start : inv iw0 vw0 (2 ^ 32).
Proof.
  constructor; cbn [iw0 vw0 iw_reg iw_places iw_tabs vt vids n_rows n_nodes n_addrs].
  - exists (fun _ => []), [], [], []. repeat split; try (apply Permutation_refl); try (cbn; constructor); match goal with J : In _ (plist reg0) |- _ => destruct J end.
  - intros a n s [].
  - constructor.
  - constructor.
  - constructor.
  - reflexivity.
Qed.
Lemma run_ok : forall os w v last rs v', inv w v last -> Forall u32 os -> (forall x l, flat_map slots_of os = x :: l -> x <= last) -> descending os -> vrun v os = Ok (rs, v') ->
  exists w' last', irun pick sys w os = Ok (rs, w') /\ inv w' v' last' /\ incl (hsizes (shape (iw_reg w'))) (map (Z.mul 8) (flat_map slots_of os) ++ hsizes (shape (iw_reg w))).
Proof.
  induction os as [|o os IH]; intros w v last rs v' V U F D E; cbn [vrun irun] in *.
  - assert (rs = [] /\ v' = v) as (-> & ->) by (split; congruence). exists w, last. split; [reflexivity|]. split; [exact V|]. apply incl_appr, incl_refl.
  - apply obind_ok in E. destruct E as ([x v1] & E1 & E). apply obind_ok in E. destruct E as ([l v2] & E2 & E). assert (rs = x :: l /\ v' = v2) as (-> & ->) by (split; congruence). inversion U as [|? ? U1 U2]; subst.
    assert (Go : forall w1 last1, istep pick sys w o = Ok (x, w1) -> inv w1 v1 last1 -> grew w w1 o -> (forall y l, flat_map slots_of os = y :: l -> y <= last1) -> exists w' last', (' (r, w0) <- istep pick sys w o ;; ' (l0, w0) <- irun pick sys w0 os ;; Ok (r :: l0, w0)) = Ok (x :: l, w') /\ inv w' v2 last'
      /\ incl (hsizes (shape (iw_reg w'))) (map (Z.mul 8) (flat_map slots_of (o :: os)) ++ hsizes (shape (iw_reg w)))).
    { intros w1 last1 Es V1 G1 F1. rewrite Es. cbn [obind]. destruct (IH w1 v1 last1 l v2 V1 U2 F1) as (w' & last' & Er & V' & G'); [|exact E2|].
      - intros l1 a l2 b l3 Ex. apply (D (slots_of o ++ l1) a l2 b l3). cbn [flat_map]. rewrite Ex, <- app_assoc. reflexivity.
      - rewrite Er. cbn [obind]. exists w', last'. split; [reflexivity|]. split; [exact V'|]. cbn [flat_map]. rewrite map_app. intros z J. apply G' in J. apply in_app_or in J. rewrite <- app_assoc. destruct J as [J|J]; [apply in_or_app; right; apply in_or_app; now left|]. apply G1 in J. apply in_app_or in J. destruct J as [J|J]; apply in_or_app; [now left|right; apply in_or_app; now right]. }
    destruct o as [size|i net|i net|i].
    + cbn [vstep] in E1. match type of E1 with Ok (?u, ?q) = _ => assert (x = u) by congruence; assert (v1 = q) by congruence; subst x v1 end. destruct (step_new w v last size V U1) as (w1 & Es & V1 & G1 & _); [apply (F _ (flat_map slots_of os)); reflexivity|]. apply (Go w1 _ Es V1 G1). intros y l0 Ey. apply (D [] _ [] y l0). cbn [flat_map slots_of app]. now rewrite Ey.
    + destruct (step_add w v last i net x v1 V E1) as (w1 & Es & V1 & G1). apply (Go w1 last Es V1 G1). intros y l0 Ey. apply (F y l0). exact Ey.
    + destruct (step_search w v last i net x v1 V E1) as (w1 & Es & V1 & G1). apply (Go w1 last Es V1 G1). intros y l0 Ey. apply (F y l0). exact Ey.
    + destruct (step_free w v last i x v1 V E1) as (w1 & Es & V1 & G1 & _). apply (Go w1 last Es V1 G1). intros y l0 Ey. apply (F y l0). exact Ey.
Qed.
(** tables made and destroyed only *)
Definition plain (o : iop) : Prop := match o with INew _ | IFree _ => True | _ => False end.
Lemma plain_ok : forall os w v last rs v', inv w v last -> owned w -> n_rows v = 0%nat -> n_nodes v = 0%nat -> n_addrs v = 0%nat -> Forall u32 os -> Forall plain os -> (forall x l, flat_map slots_of os = x :: l -> x <= last) -> descending os -> vrun v os = Ok (rs, v') ->
  exists w', irun pick sys w os = Ok (rs, w') /\ owned w' /\ exists last', inv w' v' last'.
Proof.
  induction os as [|o os IH]; intros w v last rs v' V Ow Z1 Z2 Z3 U Pl F D E; cbn [vrun irun] in *.
  - assert (rs = [] /\ v' = v) as (-> & ->) by (split; congruence). eauto.
  - apply obind_ok in E. destruct E as ([x v1] & E1 & E). apply obind_ok in E. destruct E as ([l v2] & E2 & E). assert (rs = x :: l /\ v' = v2) as (-> & ->) by (split; congruence). inversion U as [|? ? U1 U2]; subst. inversion Pl as [|? ? P1 P2]; subst.
    assert (D' : descending os). { intros l1 a l2 b l3 Ex. apply (D (slots_of o ++ l1) a l2 b l3). cbn [flat_map]. rewrite Ex, <- app_assoc. reflexivity. }
    destruct o as [size|i net|i net|i]; try contradiction.
    + cbn [vstep] in E1. match type of E1 with Ok (?u, ?q) = _ => assert (x = u) by congruence; assert (v1 = q) by congruence; subst x v1 end. destruct (step_new w v last size V U1) as (w1 & Es & V1 & _ & O1); [apply (F _ (flat_map slots_of os)); reflexivity|]. rewrite Es. cbn [obind].
      destruct (IH w1 _ _ l v2 V1 (O1 Ow) Z1 Z2 Z3 U2 P2) as (w' & Er & O' & V'); [|exact D'|exact E2|rewrite Er; cbn [obind]; eauto]. intros y l0 Ey. apply (D [] _ [] y l0). cbn [flat_map slots_of app]. now rewrite Ey.
    + destruct (step_free w v last i x v1 V E1) as (w1 & Es & V1 & _ & O1). rewrite Es. cbn [obind]. cbn [vstep] in E1. apply obind_ok in E1. destruct E1 as (t & _ & E1). match type of E1 with Ok (?u, ?q) = _ => assert (v1 = q) by congruence; subst v1 end.
      destruct (IH w1 _ _ l v2 V1 (O1 Ow Z1 Z2 Z3) Z1 Z2 Z3 U2 P2) as (w' & Er & O' & V'); [exact F|exact D'|exact E2|rewrite Er; cbn [obind]; eauto].
Qed.
Lemma run_app : forall os1 os2 w rs w1, irun pick sys w os1 = Ok (rs, w1) -> irun pick sys w (os1 ++ os2) = (' (l, w2) <- irun pick sys w1 os2 ;; Ok (rs ++ l, w2)).
Proof.
  induction os1 as [|o os1 IH]; intros os2 w rs w1 E; cbn [app irun] in *.
  - assert (rs = [] /\ w1 = w) as (-> & ->) by (split; congruence). destruct (irun pick sys w os2) as [[l w2]| | |]; reflexivity.
  - apply obind_ok in E. destruct E as ([x w0] & E1 & E). apply obind_ok in E. destruct E as ([l w2] & E2 & E). assert (rs = x :: l /\ w1 = w2) as (-> & ->) by (split; congruence). rewrite E1. cbn [obind]. rewrite (IH os2 w0 l w2 E2). destruct (irun pick sys w2 os2) as [[l' w3]| | |]; reflexivity.
Qed.

(** a table larger than the oldest row pool *)
Lemma bigger_ub w v last size ip b ad rs tot : inv w v last -> 0 < size < 2 ^ 32 -> (0 < n_rows v)%nat -> (forall s, In s (hsizes (shape (iw_reg w))) -> s < 8 * size) -> 1 <= b <= 32 -> make_addr ip b = Ok ad -> tot = length (iw_tabs w) -> rs = [INew size; IAdd tot (Some (ip, b))] -> irun pick sys w rs = UB.
Proof.
  intros [(H & Gr & Gn & Ga & St & Ph & Pn & Pa & L1 & L2 & L3) Sz So Ft Ng Ei] Hs Hr Hb Hbit Em -> ->. cbn [irun istep]. cbv zeta. set (k := length (iw_tabs w)). set (l := map addr (plist (iw_reg w))). set (a1 := pick k l). set (a2 := pick k (a1 :: l)). set (a3 := pick k (a2 :: a1 :: l)).
  destruct (iinit_gen sys (iw_reg w) H a1 a2 a3 size Hsys ltac:(lia) St (fresh _ _) (fresh _ _) (fresh _ _)) as (r' & H' & E & St' & Hh & Sh). rewrite E. cbn [obind iw_tabs iw_reg iw_places]. unfold live. rewrite nth_error_app2, Nat.sub_diag by lia. cbn [nth_error obind]. unfold iadd. cbn [it_tbl tany tbl_init].
  set (rsz := if size =? 0 then 128 else size) in *. assert (Ers : rsz = size) by (unfold rsz; destruct (Z.eqb_spec size 0); lia).
  assert (Sz' : sized (Z.min last size) (shape r')). { intros a n s J. rewrite Sh in J. apply in_app_or in J. destruct J as [J|[J|[J|[J|[]]]]]; [destruct (Sz a n s J) as [(X & Y)|X]; [left; split; [exact X|lia]|now right]|left; split; [congruence|]; assert (s = 8 * rsz) by congruence; lia|right; left; split; congruence|right; right; split; congruence]. }
  pose proof (inode_ok r' H' _ a2 16 a3 16 (Some (ip, b)) St' Sz') as N. destruct N with (v := ad) as (r1 & hn & ha & H1 & E1 & St1 & Sh1 & Q1 & Q2 & Q3); [rewrite Sh; apply in_or_app; right; right; now left|rewrite Sh; apply in_or_app; right; right; right; now left|exact Em|]. rewrite E1. cbn [obind].
  assert (An : alive r1 hn = true) by (apply (alive_handle r1 H1 node_pool); [exact St1|]; rewrite Sh1; apply (Permutation_in _ (Permutation_sym Q2)); now left). assert (Aa : alive r1 ha = true) by (apply (alive_handle r1 H1 addr_pool); [exact St1|]; rewrite Sh1; apply (Permutation_in _ (Permutation_sym Q3)); now left).
  assert (Eb : bitlen ad = b). { unfold make_addr in Em. apply obind_ok in Em. destruct Em as (m & _ & Em). cbv zeta in Em. match type of Em with Ok ?y = _ => assert (ad = y) by congruence; subst ad end. reflexivity. }
  unfold iadd_node. rewrite An, Aa. cbn [andb safe obind]. rewrite Eb. replace (b =? 0) with false by (symmetry; apply Z.eqb_neq; lia).
  assert (Ex : exists a s, In (a, Some hash_pool, s) (shape (iw_reg w))). { apply Permutation_length in Ph. destruct (handles (shape (iw_reg w)) H hash_pool) as [|[a x] q] eqn:Eh; [cbn [length] in Ph; lia|]. assert (J : In (a, x) (handles (shape (iw_reg w)) H hash_pool)) by (rewrite Eh; now left). apply handles_in in J. destruct J as (s & J & _). eauto. }
  destruct Ex as (a0 & s0 & J0). assert (J1 : In (a0, Some hash_pool, s0) (shape r1)) by (rewrite Sh1, Sh; apply in_or_app; now left). destruct (get_first r1 H1 hash_pool a0 s0 St1 J1) as (l1 & b0 & t0 & l2 & Es & Nn & G). rewrite G. cbn [obind].
  assert (Sm : t0 < 8 * size).
  { (* the oldest row pool is one that was there *)
    assert (X : hsizes (shape r1) = t0 :: hsizes l2) by (unfold hsizes; rewrite Es, filter_app; replace (filter (is_ hash_pool) l1) with (@nil shp) by (symmetry; clear - Nn; induction l1 as [|y l1 IH]; [reflexivity|]; cbn [filter]; rewrite (Nn y (or_introl eq_refl)); apply IH; intros z J; apply Nn; now right); cbn [app filter]; rewrite is_self; reflexivity).
    assert (Y : exists q, hsizes (shape r1) = hsizes (shape (iw_reg w)) ++ q) by (rewrite Sh1, Sh; unfold hsizes; rewrite filter_app, map_app; eauto). destruct Y as (q & Y). assert (J2 : In s0 (hsizes (shape (iw_reg w)))) by (unfold hsizes; change s0 with (snd (a0, Some hash_pool, s0)); apply in_map, filter_In; split; [exact J0|apply is_self]).
    apply Hb. rewrite X in Y. destruct (hsizes (shape (iw_reg w))) as [|z zs]; [destruct J2|]. cbn [app] in Y. left. congruence. }
  cbn [it_rows it_tbl tsz tbl_init]. assert (Er : nth_error (repeat (@None handle) 32) (Z.to_nat ((b - 1) mod 256)) = Some None). { rewrite Z.mod_small by lia. destruct (nth_error (repeat (@None handle) 32) (Z.to_nat (b - 1))) as [o|] eqn:En; [apply nth_error_In in En; apply repeat_spec in En; congruence|]. apply nth_error_None in En. rewrite repeat_length in En. lia. } rewrite Er. cbn [obind].
  assert (J3 : In (b0, Some hash_pool, t0) (shape r1)) by (rewrite Es; apply in_or_app; right; now left). destruct (take r1 H1 hash_pool b0 t0 St1 J3) as (r2 & x & H2 & E2 & S2 & Sh2 & _). rewrite E2. cbn [obind].
  assert (Rm : room r2 b0 (SIZEOF_PTR * rsz) = false). { assert (J4 : In (b0, Some hash_pool, t0) (shape r2)) by now rewrite Sh2. destruct (find_shape r2 H2 b0 _ t0 S2 J4) as (e & Fe & _ & _ & Se & _). unfold room. rewrite Fe. apply Z.leb_gt. unfold SIZEOF_PTR. lia. }
  fold rsz. rewrite Rm. reflexivity.
Qed.
End S.
