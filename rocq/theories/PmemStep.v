(** Every step in memory follows the step on values. *)
From Coq Require Import Permutation.
From Verif Require Import Prelude Perm HeapModel PtrArrayModel PtrArrayProofs PtrDel PmemModel PmemSpec PmemProofs PmemSim.
Local Open Scope Z_scope.

Section S.
Variable pick : nat -> list nat -> nat.
Hypothesis ok : good pick.

Lemma with_arr w v G i a d x : inv w v G -> nth_error G i = Some (Some (a, d, x)) -> exists R, owns (pm w) (acells a d x ++ R ++ mcells (pmems w) (vmem v)) /\ Permutation (all G) (acells a d x ++ R) /\ (forall g', Permutation (all (upd G i g')) (acell g' ++ R)) /\ (forall j h, nth_error G j = Some h -> j <> i -> exists R', Permutation R (acell h ++ R')).
Proof.
  intros V E. destruct (split_at G i _ E) as (R & P1 & P2 & P3). exists R. split; [|auto]. apply (owns_perm _ _ _ (i_own _ _ _ V)). rewrite P1. cbn [acell]. perm.
Qed.
Lemma nth_ptr ma l i : (i < length l)%nat -> nth i (map (ptr ma) l) 0 = ptr ma (nth i l 0%nat).
Proof. intros L. rewrite (nth_indep _ 0 (ptr ma 0%nat)) by (rewrite map_length; exact L). apply map_nth. Qed.
Lemma last_ptr ma l : l <> [] -> last (map (ptr ma) l) 0 = ptr ma (last l 0%nat).
Proof. intros N. destruct (exists_last N) as (b & y & ->). rewrite map_app. cbn [map]. now rewrite !last_last. Qed.
Lemma map_upd_list (f : nat -> Z) l i z : map f (upd l i z) = upd (map f l) i (f z).
Proof. apply map_upd. Qed.

(** what zt_ptr_array_del does on numbers *)
Lemma del_numbers w v G x l k l' c : inv w v G -> holds x (map (ptr (pmems w)) l) -> Forall (alive (vmem v)) l -> alive (vmem v) k -> addr (pmems w) k <> 0%nat -> sweep (length l) k l = (l', c) ->
  exists x', del_loop (S (Z.to_nat (count x))) x (ptr (pmems w) k) 0 = Ok (x', if cb x then repeat (ptr (pmems w) k) c else []) /\ holds x' (map (ptr (pmems w)) l') /\ cb x' = cb x.
Proof.
  intros V Hx A Ak Nz E. pose proof (inj_of _ _ _ V) as Inj. rewrite Forall_forall in A. pose proof (sweep_swept (ptr (pmems w)) (length l) k l l' c (le_n _) (fun j J => Inj j k (A j J) Ak) E) as Sw.
  pose proof Hx as (_ & C & _). rewrite map_length in C. destruct (del_swept (S (Z.to_nat (count x))) x [] (map (ptr (pmems w)) l) (ptr (pmems w) k) Hx) as (x' & l2 & c2 & E2 & H2 & Sw2 & Cb & _); [rewrite map_length; lia|]. destruct (swept_det _ _ _ _ Sw _ _ Sw2) as [<- <-]. exists x'. auto.
Qed.
Lemma free_numbers w v G i a d x R l : inv w v G -> owns (pm w) (acells a d x ++ R ++ mcells (pmems w) (vmem v)) -> nth_error G i = Some (Some (a, d, x)) -> holds x (map (ptr (pmems w)) l) -> Forall (alive (vmem v)) l -> NoDup l ->
  exists m', m_free_loop (Z.to_nat (count x)) (pm w) a 0 = Ok m' /\ owns m' (acells a d x ++ R ++ mcells (pmems w) (kill (vmem v) l)).
Proof.
  intros V H Eg Hx A ND. destruct (mcells_kills (pmems w) l (vmem v) (i_len _ _ _ V) ND A) as (qs & P & Eq). pose proof Hx as (_ & C & _). rewrite map_length in C.
  destruct (m_free_ok qs [] (pm w) a d x (R ++ mcells (pmems w) (kill (vmem v) l))) as (m' & E & H').
  - cbn [app]. replace (map (fun q => Z.of_nat (fst q)) qs) with (map (ptr (pmems w)) l); [exact Hx|]. rewrite <- (map_map fst Z.of_nat qs), Eq, map_map. reflexivity.
  - apply (owns_perm _ _ _ H). rewrite P. perm.
  - exists m'. split; [|exact H']. rewrite C, Nat2Z.id. assert (Lq : length qs = length l) by (rewrite <- (map_length fst qs), Eq, map_length; reflexivity). rewrite <- Lq. exact E.
Qed.
Lemma step_ok w v G o r v' : inv w v G -> vstep v o = Ok (r, v') -> exists w' G', pstep pick w o = Ok (r, w') /\ inv w' v' G'.
Proof.
  intros V E. destruct o as [f|t|i k|i k|i idx|i s d0|i j|i members|k|k]; cbn [vstep pstep] in *.
  - (* new *) match type of E with Ok (?u, ?z) = _ => assert (r = u /\ v' = z) as [-> ->] by (split; congruence) end. destruct V as [V1 V2 V3 V4]. destruct (m_init_ok pick ok (pm w) f _ V1) as (a & d & m' & E1 & H1). rewrite E1. eexists _, (G ++ [Some (a, d, pa_init f)]). split; [reflexivity|]. constructor; cbn [pm parrs pmems varr vmem].
    + apply (owns_perm _ _ _ H1). unfold all. rewrite flat_map_app. cbn [flat_map acell]. perm.
    + rewrite map_app, V2. reflexivity.
    + apply F2_snoc; [exact V3|]. cbn [arep map]. split; [reflexivity|]. split; [apply init_ok|constructor].
    + exact V4.
  - (* make *) match type of E with Ok (?u, ?z) = _ => assert (r = u /\ v' = z) as [-> ->] by (split; congruence) end. destruct (owns_new pick (pm w) (PMem t) _ ok (i_own _ _ _ V)) as (p & m' & E1 & H1). rewrite E1. destruct V as [V1 V2 V3 V4]. eexists _, G. split; [reflexivity|]. constructor; cbn [pm parrs pmems varr vmem].
    + apply (owns_perm _ _ _ H1). rewrite mcells_app by exact V4. perm.
    + exact V2.
    + revert V3. apply F2_weak. intros i0 g o0 _ _ R. destruct g as [[[a d] x]|], o0 as [[f l]|]; cbn [arep] in *; auto. destruct R as (R1 & R2 & R3). split; [exact R1|]. rewrite Forall_forall in R3.
      assert (Q : forall j, In j l -> (j < length (pmems w))%nat). { intros j J. destruct (R3 j J) as (u & Eu). rewrite V4. apply nth_error_Some. congruence. }
      split.
      * replace (map (ptr (pmems w ++ [p])) l) with (map (ptr (pmems w)) l); [exact R2|]. apply map_ext_in. intros j J. unfold ptr, addr. rewrite app_nth1; [reflexivity|now apply Q].
      * rewrite Forall_forall. intros j J. destruct (R3 j J) as (u & Eu). exists u. rewrite nth_error_app1; [exact Eu|]. rewrite <- V4. now apply Q.
    + rewrite !app_length, V4. reflexivity.
  - (* add *) apply obind_ok in E. destruct E as ([f l] & Ei & E). apply obind_ok in E. destruct E as (t & Ek & E). apply obind_ok in E. destruct E as (u & Eu & E). apply safe_ok in Eu. match type of E with Ok (?u0, ?z) = _ => assert (r = u0 /\ v' = z) as [-> ->] by (split; congruence) end.
    destruct (get_arr _ _ _ _ _ _ V Ei) as (a & d & x & Eg & La & Cb & Hx & A). destruct (get_mem _ _ _ _ _ V Ek) as (Mk & Rk & Nk & Ak). rewrite La, Mk. cbn [obind]. destruct (with_arr _ _ _ _ _ _ _ V Eg) as (R & H & P1 & P2 & P3).
    destruct (add_ok x _ (ptr (pmems w) k) Hx) as (x' & E1 & Hx' & _); [unfold ptr; lia|rewrite map_length; unfold I32MAX; lia|]. destruct (m_add_ok pick ok _ _ _ _ _ _ _ _ H E1) as (d' & m' & E2 & H2). unfold ptr in E2. rewrite E2. cbn [obind]. eexists _, _. split; [reflexivity|]. rewrite <- Cb, <- (cb_add _ _ _ _ E1). apply (inv_arr w v G i a d x d' x' (l ++ [k]) m' R V Eg P2 H2); [rewrite map_app; exact Hx'|]. apply Forall_app. split; [exact A|]. constructor; [exact Ak|constructor].
  - (* del *) apply obind_ok in E. destruct E as ([f l] & Ei & E). apply obind_ok in E. destruct E as (t & Ek & E). destruct (sweep (length l) k l) as [l' c] eqn:Es. 
    destruct (get_arr _ _ _ _ _ _ V Ei) as (a & d & x & Eg & La & Cb & Hx & A). destruct (get_mem _ _ _ _ _ V Ek) as (Mk & Rk & Nk & Ak). rewrite La, Mk. cbn [obind]. destruct (with_arr _ _ _ _ _ _ _ V Eg) as (R & H & P1 & P2 & P3).
    destruct (del_numbers w v G x l k l' c V Hx A Ak Nk Es) as (x' & Ed & Hx' & Cb'). unfold m_del. replace (Z.of_nat (addr (pmems w) k) =? 0) with false by lia. rewrite (load_ok _ _ _ _ _ H). cbn [obind]. pose proof (sweep_in _ _ _ _ _ Es) as In'. assert (A' : Forall (alive (vmem v)) l') by (rewrite Forall_forall in *; auto).
    destruct (f && (0 <? c)%nat) eqn:Fc.
    + apply Bool.andb_true_iff in Fc. destruct Fc as [-> Fc]. apply obind_ok in E. destruct E as (u & Eu & E). apply safe_ok in Eu. apply Bool.andb_true_iff in Eu. destruct Eu as [Ec Eu]. apply Nat.eqb_eq in Ec. subst c. apply Bool.negb_true_iff in Eu. match type of E with Ok (?u0, ?z) = _ => assert (r = u0 /\ v' = z) as [-> ->] by (split; congruence) end. rewrite Cb in Ed. cbn [repeat] in Ed.
      destruct (m_del_one (S (Z.to_nat (count x))) (pm w) a d x (R ++ mcells (pmems w) (upd (vmem v) k None)) (ptr (pmems w) k) 0 x' (PMem t)) as (m' & E2 & H2).
      { apply (owns_perm _ _ _ H). unfold ptr. rewrite Nat2Z.id. rewrite (mcells_kill (pmems w) (vmem v) k t (i_len _ _ _ V) (live_some _ _ _ Ek)). perm. } { exact Ed. }
      unfold ptr in E2. rewrite E2. cbn [obind]. eexists _, (upd G i (Some (a, d, x'))). split; [reflexivity|].
      assert (V1 : Forall2 (arep (pmems w) (vmem v)) (upd G i (Some (a, d, x'))) (upd (varr v) i (Some (true, l')))) by (apply F2_upd; [exact (i_rep _ _ _ V)|]; cbn [arep]; split; [congruence|split; assumption]).
      constructor; cbn [pm parrs pmems varr vmem].
      * apply (owns_perm _ _ _ H2). rewrite P2. cbn [acell]. perm.
      * rewrite map_upd, <- (i_adr _ _ _ V). cbn [aaddr]. symmetry. apply upd_same. rewrite (i_adr _ _ _ V), nth_error_map, Eg. reflexivity.
      * revert V1. apply rep_kill. intros i0 f0 l0 E0 j J Aj. apply alive_upd; [exact Aj|]. intros ->. exact (stored_false _ _ Eu i0 f0 l0 E0 J).
      * rewrite upd_length. exact (i_len _ _ _ V).
    + match type of E with Ok (?u0, ?z) = _ => assert (r = u0 /\ v' = z) as [-> ->] by (split; congruence) end. assert (Q : (if cb x then repeat (ptr (pmems w) k) c else []) = []). { rewrite Cb. destruct f; [|reflexivity]. cbn [andb] in Fc. destruct c; [reflexivity|discriminate]. } rewrite Q in Ed. destruct (m_del_none _ _ _ _ _ _ _ _ _ H Ed) as (m' & E2 & H2). unfold ptr in E2. rewrite E2. cbn [obind]. eexists _, _. split; [reflexivity|]. rewrite <- Cb, <- Cb'. apply (inv_arr w v G i a d x d x' l' m' R V Eg P2 H2 Hx' A').
  - (* get *) apply obind_ok in E. destruct E as ([f l] & Ei & E). destruct (get_arr _ _ _ _ _ _ V Ei) as (a & d & x & Eg & La & Cb & Hx & A). rewrite La. cbn [obind]. destruct (with_arr _ _ _ _ _ _ _ V Eg) as (R & H & P1 & P2 & P3). unfold m_get. rewrite (load_ok _ _ _ _ _ H). cbn [obind]. pose proof Hx as (_ & C & _). rewrite map_length in C. destruct (idx >=? Z.of_nat (length l)) eqn:Ge.
    + assert (r = RTag None /\ v' = v) as [-> ->] by (split; congruence). unfold pa_get. replace (idx =? -1) with false by lia. rewrite C, Ge. cbn [obind]. exists w, G. split; [reflexivity|exact V].
    + apply obind_ok in E. destruct E as (u & Eu & E). apply safe_ok in Eu. apply obind_ok in E. destruct E as (t & Et & E). assert (r = RTag (Some t) /\ v' = v) as [-> ->] by (split; congruence). destruct (get_mem _ _ _ _ _ V Et) as (Mk & Rk & Nk & Ak).
      assert (Q : pa_get x idx = Ok (ptr (pmems w) (if idx =? -1 then last l 0%nat else nth (Z.to_nat idx) l 0%nat))).
      { destruct (Z.eqb_spec idx (-1)) as [->|Ni].
        - rewrite (get_last x _ Hx); [|intros X; apply map_eq_nil in X; subst l; cbn in Eu; discriminate]. rewrite last_ptr; [reflexivity|]. intros ->. cbn in Eu. discriminate.
        - rewrite (get_ok x _ idx Hx) by lia. rewrite nth_ptr by lia. reflexivity. }
      rewrite Q. cbn [obind]. unfold ptr at 1. replace (Z.of_nat _ =? 0) with false by lia. unfold ptr. rewrite Nat2Z.id, Rk. cbn [obind]. exists w, G. split; [reflexivity|exact V].
  - (* move *) apply obind_ok in E. destruct E as ([f l] & Ei & E). destruct (get_arr _ _ _ _ _ _ V Ei) as (a & d & x & Eg & La & Cb & Hx & A). rewrite La. cbn [obind]. destruct (with_arr _ _ _ _ _ _ _ V Eg) as (R & H & P1 & P2 & P3). pose proof Hx as (_ & C & _). rewrite map_length in C. destruct ((s >? Z.of_nat (length l)) || (d0 >? Z.of_nat (length l))) eqn:Big.
    + assert (r = RCode (-1) /\ v' = v) as [-> ->] by (split; congruence). assert (Q : pa_move x s d0 = Ok (-1, x)) by (unfold pa_move; rewrite C; destruct (s >? Z.of_nat (length l)); [reflexivity|]; cbn [orb] in Big; now rewrite Big). destruct (m_move_ok _ _ _ _ _ _ _ _ _ H Q) as (m' & E2 & H2). rewrite E2. cbn [obind]. eexists _, _. split; [reflexivity|].
      pose proof (inv_arr w v G i a d x d x l m' R V Eg P2 H2 Hx A) as V'. rewrite (upd_same G i _ Eg), Cb, (upd_same (varr v) i _ (live_some _ _ _ Ei)) in V'. destruct v. exact V'.
    + apply obind_ok in E. destruct E as (u & Eu & E). apply safe_ok in Eu. match type of E with Ok (?u0, ?z) = _ => assert (r = u0 /\ v' = z) as [-> ->] by (split; congruence) end. destruct (move_ok x _ s d0 Hx) as (x' & E1 & Hx'); [rewrite map_length; lia|rewrite map_length; lia|]. destruct (m_move_ok _ _ _ _ _ _ _ _ _ H E1) as (m' & E2 & H2). rewrite E2. cbn [obind]. eexists _, _. split; [reflexivity|]. rewrite <- Cb, <- (proj1 (cb_move _ _ _ _ _ E1)). apply (inv_arr w v G i a d x d x' _ m' R V Eg P2 H2).
      * rewrite map_upd. rewrite <- nth_ptr by lia. exact Hx'.
      * rewrite Forall_forall in *. intros j J. apply In_nth_error in J. destruct J as (n & En). rewrite upd_nth_error in En. destruct (Nat.eqb n (Z.to_nat d0)).
        -- destruct (Nat.ltb _ _); [|discriminate]. assert (j = nth (Z.to_nat s) l 0%nat) by congruence. subst j. apply A. apply nth_In. lia.
        -- apply A. now apply (nth_error_In _ n).
  - (* cat *) apply obind_ok in E. destruct E as ([f l] & Ei & E). apply obind_ok in E. destruct E as ([f2 l2] & Ej & E). apply obind_ok in E. destruct E as (u & Eu & E). apply safe_ok in Eu. apply Bool.andb_true_iff in Eu. destruct Eu as [Nij Eu]. apply Bool.negb_true_iff in Nij. apply Nat.eqb_neq in Nij. match type of E with Ok (?u0, ?z) = _ => assert (r = u0 /\ v' = z) as [-> ->] by (split; congruence) end.
    destruct (get_arr _ _ _ _ _ _ V Ei) as (a & d & x & Eg & La & Cb & Hx & A). destruct (get_arr _ _ _ _ _ _ V Ej) as (b & e & y & Eg2 & Lb & Cb2 & Hy & A2). rewrite La, Lb. cbn [obind]. destruct (with_arr _ _ _ _ _ _ _ V Eg) as (R & H & P1 & P2 & P3). destruct (P3 j _ Eg2) as (R' & P4); [congruence|]. cbn [acell] in P4.
    assert (H2 : owns (pm w) (acells a d x ++ acells b e y ++ R' ++ mcells (pmems w) (vmem v))) by (apply (owns_perm _ _ _ H); rewrite P4; perm). unfold m_cat. rewrite (load_ok (pm w) b e y (acells a d x ++ R' ++ mcells (pmems w) (vmem v))) by (apply (owns_perm _ _ _ H2); perm). cbn [obind]. pose proof Hy as (_ & C & _). rewrite map_length in C.
    destruct (cat_ok (S (Z.to_nat (count y))) x y (map (ptr (pmems w)) l) (map (ptr (pmems w)) l2) 0) as (x' & E1 & Hx'); [cbn [Z.to_nat firstn]; rewrite app_nil_r; exact Hx|exact Hy|rewrite map_length; lia|rewrite map_length; lia|rewrite !map_length; unfold I32MAX; lia|].
    destruct (m_cat_ok pick ok _ _ _ _ _ _ _ _ _ _ _ _ H2 E1) as (d' & m' & E2 & H3). rewrite E2. cbn [obind]. eexists _, _. split; [reflexivity|].
    assert (Cx : cb x' = cb x) by exact (cb_cat _ _ _ _ _ _ E1).
    rewrite <- Cb, <- Cx. apply (inv_arr w v G i a d x d' x' (l ++ l2) m' R V Eg P2); [|rewrite map_app; exact Hx'|apply Forall_app; split; assumption]. apply (owns_perm _ _ _ H3). rewrite P4. perm.
  - (* free *) apply obind_ok in E. destruct E as ([f l] & Ei & E). destruct (get_arr _ _ _ _ _ _ V Ei) as (a & d & x & Eg & La & Cb & Hx & A). rewrite La. cbn [obind]. destruct (with_arr _ _ _ _ _ _ _ V Eg) as (R & H & P1 & P2 & P3). unfold m_free. rewrite (load_ok _ _ _ _ _ H). cbn [obind].
    assert (Adr : upd (parrs w) i None = map aaddr (upd G i None)) by (rewrite map_upd, (i_adr _ _ _ V); reflexivity). assert (Rep : Forall2 (arep (pmems w) (vmem v)) (upd G i None) (upd (varr v) i None)) by (apply F2_upd; [exact (i_rep _ _ _ V)|exact Logic.I]).
    destruct members.
    + apply obind_ok in E. destruct E as (u & Eu & E). apply safe_ok in Eu. apply Bool.andb_true_iff in Eu. destruct Eu as [Ed Es]. apply distinct_nodup in Ed. apply Bool.negb_true_iff in Es. match type of E with Ok (?u0, ?z) = _ => assert (r = u0 /\ v' = z) as [-> ->] by (split; congruence) end.
      destruct (free_numbers w v G i a d x R l V H Eg Hx A Ed) as (m1 & E1 & H1). change (1 >? 0) with true. cbv iota. rewrite E1. cbn [obind]. rewrite (arr_ok _ _ _ _ _ H1). cbn [obind]. destruct (owns_free m1 d (PBlk (slots x)) ((a, PArr (size x) (count x) d (cb x)) :: R ++ mcells (pmems w) (kill (vmem v) l))) as (m2 & E2 & H2); [apply (owns_perm _ _ _ H1); unfold acells; perm|]. rewrite E2. cbn [obind]. destruct (owns_free _ _ _ _ H2) as (m3 & E3 & H3). rewrite E3. cbn [obind]. eexists _, (upd G i None). split; [reflexivity|]. constructor; cbn [pm parrs pmems varr vmem].
      * apply (owns_perm _ _ _ H3). rewrite (P2 None). cbn [acell]. perm.
      * exact Adr.
      * revert Rep. apply rep_kill. intros i0 f0 l0 E0 j J Aj. apply kill_alive; [exact Aj|]. intros I. rewrite <- Bool.not_true_iff_false in Es. apply Es. apply existsb_exists. exists j. split; [exact I|]. destruct (stored (upd (varr v) i None) j) eqn:Ej; [reflexivity|]. exfalso. exact (stored_false _ _ Ej i0 f0 l0 E0 J).
      * rewrite kill_len. exact (i_len _ _ _ V).
    + match type of E with Ok (?u0, ?z) = _ => assert (r = u0 /\ v' = z) as [-> ->] by (split; congruence) end. change (0 >? 0) with false. cbv iota. cbn [obind]. rewrite (arr_ok _ _ _ _ _ H). cbn [obind]. destruct (owns_free (pm w) d (PBlk (slots x)) ((a, PArr (size x) (count x) d (cb x)) :: R ++ mcells (pmems w) (vmem v))) as (m2 & E2 & H2); [apply (owns_perm _ _ _ H); unfold acells; perm|]. rewrite E2. cbn [obind]. destruct (owns_free _ _ _ _ H2) as (m3 & E3 & H3). rewrite E3. cbn [obind]. eexists _, (upd G i None). split; [reflexivity|]. constructor; cbn [pm parrs pmems varr vmem].
      * apply (owns_perm _ _ _ H3). rewrite (P2 None). cbn [acell]. perm.
      * exact Adr. * exact Rep. * exact (i_len _ _ _ V).
  - (* look *) apply obind_ok in E. destruct E as (t & Et & E). assert (r = RTag (Some t) /\ v' = v) as [-> ->] by (split; congruence). destruct (get_mem _ _ _ _ _ V Et) as (Mk & Rk & Nk & Ak). rewrite Mk. cbn [obind]. rewrite Rk. cbn [obind]. exists w, G. split; [reflexivity|exact V].
  - (* drop *) apply obind_ok in E. destruct E as (t & Et & E). apply obind_ok in E. destruct E as (u & Eu & E). apply safe_ok in Eu. apply Bool.negb_true_iff in Eu. match type of E with Ok (?u0, ?z) = _ => assert (r = u0 /\ v' = z) as [-> ->] by (split; congruence) end. destruct (get_mem _ _ _ _ _ V Et) as (Mk & Rk & Nk & Ak). rewrite Mk. cbn [obind]. destruct V as [V1 V2 V3 V4].
    destruct (owns_free (pm w) (addr (pmems w) k) (PMem t) (all G ++ mcells (pmems w) (upd (vmem v) k None))) as (m' & E1 & H1); [apply (owns_perm _ _ _ V1); rewrite (mcells_kill (pmems w) (vmem v) k t V4 (live_some _ _ _ Et)); perm|]. rewrite E1. cbn [obind]. eexists _, G. split; [reflexivity|]. constructor; cbn [pm parrs pmems varr vmem]; [exact H1|exact V2| |rewrite upd_length; exact V4]. revert V3. apply rep_kill. intros i0 f0 l0 E0 j J Aj. apply alive_upd; [exact Aj|]. intros ->. exact (stored_false _ _ Eu i0 f0 l0 E0 J).
Qed.
Lemma run_ok : forall os w v G rs v', inv w v G -> vrun v os = Ok (rs, v') -> exists w' G', prun pick w os = Ok (rs, w') /\ inv w' v' G'.
Proof.
  induction os as [|o os IH]; intros w v G rs v' V E; cbn [vrun prun] in *; [assert (rs = [] /\ v' = v) as [-> ->] by (split; congruence); eauto|]. apply obind_ok in E. destruct E as ([r v1] & E1 & E). apply obind_ok in E. destruct E as ([l v2] & E2 & E). assert (rs = r :: l /\ v' = v2) as [-> ->] by (split; congruence). destruct (step_ok _ _ _ _ _ _ V E1) as (w1 & G1 & S1 & V1). rewrite S1. cbn [obind]. destruct (IH _ _ _ _ _ V1 E2) as (w2 & G2 & S2 & V2). rewrite S2. cbn [obind]. eauto.
Qed.
Lemma inv0 : inv pw0 vw0 [].
Proof. constructor; try reflexivity; [apply owns_nil|constructor]. Qed.
End S.
