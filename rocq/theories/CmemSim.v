(** What inserting, reading, parsing and closing do to a configuration in memory. *)
From Coq Require Import Permutation.
From Verif Require Import Prelude AmemModel AmemProofs OptsModel OptsProofs CfgModel CfgSpec CfgProofs CmemModel CmemSpec Perm CmemProofs.
Local Open Scope Z_scope.

Definition conf (c : nat) (f : option nat) (A : list ablk) : list (nat * cell) := (c, CCfg f (hd_b A)) :: cells_b A.
Lemma conf_sub m c f A R : heap m (conf c f A ++ R) -> sub (cells_b A) m.
Proof. intros H. apply (heap_sub _ _ _ H). intros x I. right. apply in_or_app. now left. Qed.
Lemma conf_size m c f A R : heap m (conf c f A ++ R) -> (length A <= size m)%nat /\ forall x, In x A -> (length (bvs x) <= size m)%nat.
Proof.
  intros H. rewrite (heap_size _ _ H). unfold conf. cbn [app length]. rewrite app_length. pose proof (len_b A). split; [lia|]. intros x I. pose proof (len_v (bvs x)). assert (length (cells_v (bvs x)) <= length (cells_b A))%nat; [|lia]. clear - I. induction A as [|y A IH]; [destruct I|]. cbn [cells_b length]. rewrite app_length. destruct I as [->|I]; [lia|]. specialize (IH I). lia.
Qed.
Lemma conf_cfg m c f A R : heap m (conf c f A ++ R) -> rd_cfg m c = Ok (f, hd_b A).
Proof. intros H. unfold rd_cfg. rewrite (heap_get m c (CCfg f (hd_b A)) (cells_b A ++ R)); [reflexivity|exact H]. Qed.
Lemma conf_block m c f A R n : heap m (conf c f A ++ R) -> m_get_block (size m) m (hd_b A) n = Ok (option_map ba (find_b A n)).
Proof. intros H. apply get_block_ok; [now apply (conf_sub m c f A R)|now apply (conf_size m c f A R)]. Qed.
Lemma conf_rd_blk m c f A R x : heap m (conf c f A ++ R) -> In x A -> exists nx, rd_blk m (ba x) = Ok (Some (bna x), hd_v (bvs x), nx).
Proof. intros H I. destruct (blk_in A x I) as (nx & J). exists nx. unfold rd_blk. now rewrite (conf_sub _ _ _ _ _ H _ _ J). Qed.
Lemma conf_variable m c f A R x n : heap m (conf c f A ++ R) -> In x A -> m_get_variable (size m) m (hd_v (bvs x)) n = Ok (option_map va (find_v (bvs x) n)).
Proof. intros H I. apply get_variable_ok; [|now apply (conf_size m c f A R H)]. intros y w J. apply (conf_sub _ _ _ _ _ H). now apply (vals_in A x I). Qed.

Section S.
Variable pick : nat -> list nat -> nat.
Hypothesis fresh : forall k l, ~ In (pick k l) l.
Variable isfloat : text -> bool.

Lemma add_block_ok m c f A R b : heap m (conf c f A ++ R) -> refs_ok A ->
  exists x m' A', m_add_block pick m c b = Ok (ba x, m') /\ heap m' (conf c f A' ++ R) /\ refs_ok A' /\ find_b A' b = Some x /\ ((A' = A) \/ (find_b A b = None /\ x = mkab (ba x) (bna x) b [] /\ A' = x :: A)).
Proof.
  intros H Rf. unfold m_add_block. rewrite (conf_cfg _ _ _ _ _ H). cbn [obind]. rewrite (conf_block _ _ _ _ _ b H). cbn [obind]. destruct (find_b A b) as [x|] eqn:F; cbn [option_map].
  - exists x, m, A. auto 10.
  - destruct (heap_new pick fresh m (CBlk None None None) _ H) as (a & m1 & E1 & H1). rewrite E1. destruct (heap_new pick fresh m1 (CStr b) _ H1) as (s & m2 & E2 & H2). rewrite E2. set (x := mkab a s b []). exists x, (put (put m2 a (CBlk (Some s) None (hd_b A))) c (CCfg f (Some a))), (x :: A). split; [reflexivity|]. split; [|split; [|split; [cbn [find_b x bnm]; now rewrite text_refl|right; auto]]].
    + apply (heap_perm _ ((c, CCfg f (Some a)) :: (a, CBlk (Some s) None (hd_b A)) :: (s, CStr b) :: cells_b A ++ R)); [|unfold conf; cbn [cells_b hd_b x ba bna bnm bvs hd_v cells_v app]; reflexivity].
      apply (heap_put _ c (CCfg f (hd_b A))). apply (heap_perm _ ((a, CBlk (Some s) None (hd_b A)) :: (c, CCfg f (hd_b A)) :: (s, CStr b) :: cells_b A ++ R)); [|perm].
      apply (heap_put _ a (CBlk None None None)). apply (heap_perm _ _ _ H2). unfold conf. perm.
    + intros u z p rb rv [<-|Iu] Iz Ez; [destruct Iz|]. destruct (Rf u z p rb rv Iu Iz Ez) as (q & Lq & Eq). exists q. split; [|exact Eq]. unfold aloc in *. cbn [find_b x bnm]. destruct (text_eqb rb b) eqn:E; [|exact Lq]. apply text_eqb_eq in E. subst rb. rewrite F in Lq. discriminate.
Qed.
Lemma add_variable_ok m c f A R b x v : heap m (conf c f A ++ R) -> refs_ok A -> find_b A b = Some x ->
  exists y m' A', m_add_variable pick m (ba x) v = Ok (va y, m') /\ heap m' (conf c f A' ++ R) /\ refs_ok A' /\ aloc A' b v = Some y /\ ((A' = A) \/ (find_v (bvs x) v = None /\ y = mkav (va y) (vna y) v (GBool 0) /\ A' = add_v A b y)).
Proof.
  intros H Rf F. unfold m_add_variable. assert (I : In x A) by now apply find_b_in in F. destruct (add_v_cells A b x F) as (nx & Q & P1 & P2).
  assert (H0 : heap m ((ba x, CBlk (Some (bna x)) (hd_v (bvs x)) nx) :: (c, CCfg f (hd_b A)) :: Q ++ R)) by (apply (heap_perm _ _ _ H); unfold conf; cbn [app]; rewrite P1; perm).
  unfold rd_blk. rewrite (heap_get _ _ _ _ H0). cbn [obind]. rewrite (conf_variable _ _ _ _ _ _ v H I). cbn [obind]. destruct (find_v (bvs x) v) as [y|] eqn:Fv; cbn [option_map].
  - exists y, m, A. split; [reflexivity|]. split; [exact H|]. split; [exact Rf|]. split; [unfold aloc; now rewrite F|now left].
  - destruct (heap_new pick fresh m (CVal None (VBool 0) None) _ H0) as (a & m1 & E1 & H1). rewrite E1. destruct (heap_new pick fresh m1 (CStr v) _ H1) as (s & m2 & E2 & H2). rewrite E2. set (y := mkav a s v (GBool 0)). exists y, (put (put m2 a (CVal (Some s) (VBool 0) (hd_v (bvs x)))) (ba x) (CBlk (Some (bna x)) (Some a) nx)), (add_v A b y). split; [reflexivity|].
    assert (N : find_v (bvs x) (vnm y) = None) by exact Fv. split; [|split; [now apply (add_v_refs A b y x)|split; [now apply (add_v_aloc A b y x F N)|right; auto]]].
    apply (heap_perm _ ((ba x, CBlk (Some (bna x)) (Some a) nx) :: (a, CVal (Some s) (VBool 0) (hd_v (bvs x))) :: (s, CStr v) :: (c, CCfg f (hd_b A)) :: Q ++ R)).
    + apply (heap_put _ _ (CBlk (Some (bna x)) (hd_v (bvs x)) nx)). apply (heap_perm _ ((a, CVal (Some s) (VBool 0) (hd_v (bvs x))) :: (ba x, CBlk (Some (bna x)) (hd_v (bvs x)) nx) :: (s, CStr v) :: (c, CCfg f (hd_b A)) :: Q ++ R)); [|perm]. apply (heap_put _ _ (CVal None (VBool 0) None)). apply (heap_perm _ _ _ H2). perm.
    + unfold conf. rewrite add_v_hd. specialize (P2 y eq_refl). cbn [app]. rewrite P2. subst y. cbn [va vna vnm]. perm.
Qed.
(** both *)
Lemma add_ok m c f A R b v : heap m (conf c f A ++ R) -> refs_ok A ->
  exists q m1 y m' A', m_add_block pick m c b = Ok (q, m1) /\ m_add_variable pick m1 q v = Ok (va y, m') /\ heap m' (conf c f A' ++ R) /\ refs_ok A' /\ aloc A' b v = Some y /\ erase A' = (match lookup (erase A) b v with Some _ => erase A | None => set_entry (erase A) b v (EBool 0) end)
    /\ (length (strs (ve y)) = dropped (erase A) b v) /\ (forall p s, In (p, CStr s) (cells_b A) -> In (p, CStr s) (cells_b A')).
Proof.
  intros H Rf. destruct (add_block_ok m c f A R b H Rf) as (x & m1 & A1 & E1 & H1 & Rf1 & F1 & C1). destruct (add_variable_ok m1 c f A1 R b x v H1 Rf1 F1) as (y & m2 & A2 & E2 & H2 & Rf2 & L2 & C2). exists (ba x), m1, y, m2, A2. split; [exact E1|]. split; [exact E2|]. split; [exact H2|]. split; [exact Rf2|]. split; [exact L2|].
  assert (Str1 : forall p s, In (p, CStr s) (cells_b A) -> In (p, CStr s) (cells_b A1)). { destruct C1 as [-> |(_ & Ex & ->)]; [auto|]. intros p s J. cbn [cells_b]. right. right. apply in_or_app. now right. }
  assert (Str2 : forall p s, In (p, CStr s) (cells_b A1) -> In (p, CStr s) (cells_b A2)). { destruct C2 as [-> |(_ & Ey & ->)]; [auto|]. intros p s J. destruct (add_v_cells A1 b x F1) as (nx & Q & P1 & P2). specialize (P2 y). rewrite Ey in P2. specialize (P2 eq_refl). rewrite <- Ey in P2. apply (Permutation_in _ (Permutation_sym P2)). apply (Permutation_in _ P1) in J. destruct J as [J|J]; [discriminate|]. right. right. right. exact J. }
  split; [|split; [|auto]].
  - destruct C2 as [-> |(N2 & Ey & ->)].
    + destruct C1 as [-> |(N1 & Ex & ->)]; [rewrite aloc_erase, L2; reflexivity|]. exfalso. unfold aloc in L2. rewrite F1 in L2. rewrite Ex in L2. discriminate.
    + assert (Vy : vnm y = v) by (rewrite Ey; reflexivity). rewrite (add_v_erase A1 b y x F1) by now rewrite Vy. rewrite Vy. assert (Eb : er (ve y) = EBool 0) by (rewrite Ey; reflexivity). rewrite Eb. destruct C1 as [-> |(N1 & Ex & ->)].
      * rewrite aloc_erase. unfold aloc. rewrite F1, N2. reflexivity.
      * rewrite aloc_erase. unfold aloc. rewrite N1. cbn [option_map]. unfold set_entry. rewrite !find_b_erase, N1. cbn [option_map find_b]. rewrite Ex. cbn [bnm]. rewrite text_refl. cbn [option_map erase map bnm bvs erase_v]. cbn [put_block]. rewrite text_refl. reflexivity.
  - unfold dropped. rewrite aloc_erase. destruct C2 as [-> |(N2 & Ey & ->)].
    + destruct C1 as [-> |(N1 & Ex & ->)]; [rewrite L2; cbn [option_map]; destruct (ve y); reflexivity|]. exfalso. unfold aloc in L2. rewrite F1 in L2. rewrite Ex in L2. discriminate.
    + rewrite Ey. cbn [ve strs length]. destruct C1 as [-> |(N1 & Ex & ->)]; unfold aloc; [rewrite F1, N2; reflexivity|rewrite N1; reflexivity].
Qed.

Lemma insert_ok m c f A R bp vp tp b v t : heap m (conf c f A ++ (bp, CStr b) :: (vp, CStr v) :: (tp, CStr t) :: R) -> refs_ok A ->
  exists m' A' L t', m_insert pick isfloat m c bp vp tp = Ok m' /\ heap m' (conf c f A' ++ (bp, CStr b) :: (vp, CStr v) :: (tp, CStr t') :: L ++ R) /\ refs_ok A' /\ erase A' = insert isfloat (erase A) b v t /\ length L = dropped (erase A) b v
    /\ (forall p s, In (p, CStr s) (cells_b A) -> In (p, CStr s) (cells_b A' ++ L)).
Proof.
  intros H Rf. unfold m_insert.
  assert (Sb : forall p s, In (p, CStr s) [(bp, CStr b); (vp, CStr v); (tp, CStr t)] -> rd_str m p = Ok s). { intros p s J. unfold rd_str. assert (X : sub [(bp, CStr b); (vp, CStr v); (tp, CStr t)] m). { apply (heap_sub _ _ _ H). intros z Jz. apply in_or_app. right. cbn [In] in *. tauto. } now rewrite (X _ _ J). }
  rewrite (Sb bp b), (Sb vp v), (Sb tp t) by (cbn [In]; auto). cbn [obind].
  destruct (add_ok m c f A _ b v H Rf) as (q & m1 & y & m2 & A2 & E1 & E2 & H2 & Rf2 & L2 & Er2 & Dr & Str). rewrite E1. cbn [obind]. rewrite E2. cbn [obind]. clear E1 E2.
  destruct (set_b_cells A2 b v y L2) as (nx & Q & P1 & P2).
  set (T := (bp, CStr b) :: (vp, CStr v) :: (tp, CStr t) :: R) in *.
  assert (H3 : heap m2 ((va y, CVal (Some (vna y)) (cv (ve y)) nx) :: (c, CCfg f (hd_b A2)) :: strs (ve y) ++ Q ++ T)) by (apply (heap_perm _ _ _ H2); unfold conf; cbn [app]; rewrite P1; perm).
  unfold rd_val. rewrite (heap_get _ _ _ _ H3). cbn [obind].
  assert (Old : forall e p s, In (p, CStr s) (cells_b A) -> In (p, CStr s) (cells_b (set_b A2 b v e) ++ strs (ve y))). { intros e p s J. apply Str in J. apply (Permutation_in _ P1) in J. destruct J as [J|J]; [discriminate|]. apply in_app_or in J. apply in_or_app. destruct J as [J|J]; [now right|left]. apply (Permutation_in _ (Permutation_sym (P2 e))). right. apply in_or_app. now right. }
  (* a value that is no string *)
  assert (Plain : forall e, strs e = [] -> (forall p rb rv, e <> GRef p rb rv) -> er e = get_type isfloat t -> (forall s, er e <> EString s) ->
    exists m' A' L t', Ok (put m2 (va y) (CVal (Some (vna y)) (cv e) nx)) = Ok m' /\ heap m' (conf c f A' ++ (bp, CStr b) :: (vp, CStr v) :: (tp, CStr t') :: L ++ R) /\ refs_ok A' /\ erase A' = insert isfloat (erase A) b v t /\ length L = dropped (erase A) b v /\ (forall p s, In (p, CStr s) (cells_b A) -> In (p, CStr s) (cells_b A' ++ L))).
  { intros e Se Ne Ee Ns. eexists _, (set_b A2 b v e), (strs (ve y)), t. split; [reflexivity|]. split; [|split; [|split; [|split; [exact Dr|apply Old]]]].
    - apply (heap_perm _ ((va y, CVal (Some (vna y)) (cv e) nx) :: (c, CCfg f (hd_b A2)) :: strs (ve y) ++ Q ++ T)); [now apply (heap_put _ _ (CVal (Some (vna y)) (cv (ve y)) nx))|]. unfold conf, T. rewrite set_b_hd. cbn [app]. rewrite (P2 e), Se. perm.
    - apply set_b_refs; [exact Rf2|]. intros p rb rv X. now apply Ne in X.
    - rewrite (set_b_erase A2 b v y e L2), Er2. unfold insert. cbv zeta. rewrite <- Ee. destruct (er e); try reflexivity. now exfalso; eapply Ns. }
  destruct (get_type isfloat t) as [z|z|z|s|rb rv] eqn:Gt.
  - apply (Plain (GBool z)); try reflexivity; discriminate.
  - apply (Plain (GInt z)); try reflexivity; discriminate.
  - apply (Plain (GFloat z)); try reflexivity; discriminate.
  - clear Plain. set (m3 := match t with [] => m2 | c0 :: _ => if (c0 =? 39) || (c0 =? 34) then put m2 tp (CStr (removelast t)) else m2 end). cbv zeta.
    assert (X : exists t', heap m3 ((va y, CVal (Some (vna y)) (cv (ve y)) nx) :: (c, CCfg f (hd_b A2)) :: strs (ve y) ++ Q ++ (bp, CStr b) :: (vp, CStr v) :: (tp, CStr t') :: R)).
    { unfold m3. destruct t as [|c0 t0]; [exists []; exact H3|]. destruct ((c0 =? 39) || (c0 =? 34)); [|exists (c0 :: t0); exact H3]. exists (removelast (c0 :: t0)). apply (heap_perm _ ((tp, CStr (removelast (c0 :: t0))) :: (va y, CVal (Some (vna y)) (cv (ve y)) nx) :: (c, CCfg f (hd_b A2)) :: strs (ve y) ++ Q ++ (bp, CStr b) :: (vp, CStr v) :: R)); [|perm]. apply (heap_put _ _ (CStr (c0 :: t0))). apply (heap_perm _ _ _ H3). unfold T. perm. }
    destruct X as (t' & H4). clear m H H2 H3 Sb T. clearbody m3. destruct (heap_new pick fresh m3 (CStr s) _ H4) as (sp & m4 & E4 & H5). rewrite E4. set (m5 := put m4 (va y) (CVal (Some (vna y)) (VStr sp) nx)).
    set (T := (bp, CStr b) :: (vp, CStr v) :: (tp, CStr t') :: R) in *. set (A3 := set_b A2 b v (GStr sp s)).
    assert (H6 : heap m5 ((va y, CVal (Some (vna y)) (VStr sp) nx) :: (sp, CStr s) :: (c, CCfg f (hd_b A2)) :: strs (ve y) ++ Q ++ T)). { apply (heap_put _ _ (CVal (Some (vna y)) (cv (ve y)) nx)). apply (heap_perm _ _ _ H5). perm. } clearbody m5.
    assert (Rf3 : refs_ok A3) by (apply set_b_refs; [exact Rf2|discriminate]).
    assert (Fin : forall m', heap m' ((va y, CVal (Some (vna y)) (VStr sp) nx) :: (sp, CStr s) :: (c, CCfg f (hd_b A2)) :: strs (ve y) ++ Q ++ T) -> heap m' (conf c f A3 ++ (bp, CStr b) :: (vp, CStr v) :: (tp, CStr t') :: strs (ve y) ++ R)). { intros m' Hm. apply (heap_perm _ _ _ Hm). unfold conf, A3, T. rewrite set_b_hd. cbn [app]. rewrite (P2 (GStr sp s)). cbn [strs cv]. perm. }
    assert (Er3 : erase A3 = set_entry (erase A2) b v (EString s)) by (unfold A3; apply (set_b_erase A2 b v y (GStr sp s) L2)).
    destruct (split_dot s) as [[rb rv]|] eqn:Sd.
    + destruct (heap_new pick fresh m5 (CStr rb) _ H6) as (tmp & m6 & E6 & H7). rewrite E6.
      assert (H8 : heap m6 (conf c f A3 ++ (tmp, CStr rb) :: (bp, CStr b) :: (vp, CStr v) :: (tp, CStr t') :: strs (ve y) ++ R)). { apply (heap_perm _ _ _ H7). unfold conf, A3, T. rewrite set_b_hd. cbn [app]. rewrite (P2 (GStr sp s)). cbn [strs cv]. perm. }
      rewrite (conf_cfg _ _ _ _ _ H8). cbn [obind]. rewrite (conf_block _ _ _ _ _ rb H8). cbn [obind].
      (* no such variable *)
      assert (None_case : aloc A3 rb rv = None -> exists m' A' L t'0, cfree m6 tmp = Ok m' /\ heap m' (conf c f A' ++ (bp, CStr b) :: (vp, CStr v) :: (tp, CStr t'0) :: L ++ R) /\ refs_ok A' /\ erase A' = insert isfloat (erase A) b v t /\ length L = dropped (erase A) b v /\ (forall p s0, In (p, CStr s0) (cells_b A) -> In (p, CStr s0) (cells_b A' ++ L))).
      { intros Nl. destruct (heap_free m6 tmp (CStr rb) _ H7) as (m7 & E7 & H9). exists m7, A3, (strs (ve y)), t'. split; [exact E7|]. split; [now apply Fin|]. split; [exact Rf3|]. split; [|split; [exact Dr|apply Old]].
        rewrite Er3. unfold insert. cbv zeta. rewrite Gt, <- Er2, Sd. assert (Nl2 : aloc A2 rb rv = None). { pose proof (set_b_aloc A2 b v (GStr sp s) rb rv) as Q1. fold A3 in Q1. rewrite Nl in Q1. destruct (aloc A2 rb rv); [discriminate|reflexivity]. } rewrite aloc_erase, Nl2. reflexivity. }
      destruct (find_b A3 rb) as [x|] eqn:Fx; cbn [option_map].
      * assert (Ix : In x A3) by now apply find_b_in in Fx. destruct (conf_rd_blk _ _ _ _ _ x H8 Ix) as (nx' & Eb). rewrite Eb. cbn [obind]. rewrite (conf_variable _ _ _ _ _ x rv H8 Ix). cbn [obind]. destruct (find_v (bvs x) rv) as [w|] eqn:Fw; cbn [option_map].
        -- assert (Lw : aloc A3 rb rv = Some w) by (unfold aloc; now rewrite Fx). pose proof (set_b_aloc A2 b v (GStr sp s) rb rv) as Q1. fold A3 in Q1. rewrite Lw in Q1. cbn [option_map] in Q1. destruct (aloc A2 rb rv) as [w2|] eqn:Lw2; [|discriminate]. cbn [option_map] in Q1. assert (Ew : va w = va w2) by congruence.
           assert (H9 : heap m6 ((sp, CStr s) :: (tmp, CStr rb) :: (va y, CVal (Some (vna y)) (VStr sp) nx) :: (c, CCfg f (hd_b A2)) :: strs (ve y) ++ Q ++ T)) by (apply (heap_perm _ _ _ H7); perm). destruct (heap_free _ _ _ _ H9) as (m7 & E7 & H10). rewrite E7. cbn [obind].
           assert (H11 : heap (put m7 (va y) (CVal (Some (vna y)) (VRef (va w)) nx)) ((tmp, CStr rb) :: (va y, CVal (Some (vna y)) (VRef (va w)) nx) :: (c, CCfg f (hd_b A2)) :: strs (ve y) ++ Q ++ T)). { apply (heap_perm _ ((va y, CVal (Some (vna y)) (VRef (va w)) nx) :: (tmp, CStr rb) :: (c, CCfg f (hd_b A2)) :: strs (ve y) ++ Q ++ T)); [|perm]. apply (heap_put _ _ (CVal (Some (vna y)) (VStr sp) nx)). apply (heap_perm _ _ _ H10). perm. }
           destruct (heap_free _ _ _ _ H11) as (m8 & E8 & H12). exists m8, (set_b A2 b v (GRef (va w) rb rv)), (strs (ve y)), t'. split; [exact E8|]. split; [|split; [|split; [|split; [exact Dr|apply Old]]]].
           ++ apply (heap_perm _ _ _ H12). unfold conf, T. rewrite set_b_hd. cbn [app]. rewrite (P2 (GRef (va w) rb rv)). cbn [strs cv app]. perm.
           ++ apply set_b_refs; [exact Rf2|]. intros p rb' rv' X. assert (p = va w /\ rb' = rb /\ rv' = rv) as (-> & -> & ->) by (repeat split; congruence). exists w2. split; [exact Lw2|congruence].
           ++ rewrite (set_b_erase A2 b v y _ L2). unfold insert. cbv zeta. rewrite Gt, <- Er2, Sd, aloc_erase, Lw2. reflexivity.
        -- apply None_case. unfold aloc. rewrite Fx. exact Fw.
      * apply None_case. unfold aloc. now rewrite Fx.
    + exists m5, A3, (strs (ve y)), t'. split; [reflexivity|]. split; [now apply Fin|]. split; [exact Rf3|]. split; [|split; [exact Dr|apply Old]]. rewrite Er3. unfold insert. cbv zeta. rewrite Gt, <- Er2, Sd. reflexivity.
  - exfalso. unfold get_type in Gt. destruct (strtol0 t) as [[n rest] ?]. repeat match type of Gt with (if ?x then _ else _) = _ => destruct x | match ?x with _ => _ end = _ => destruct x end; discriminate.
Qed.
End S.
