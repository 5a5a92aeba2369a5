From Verif Require Import Prelude HashModel TableModel TableProofs TableCopy SetModel SetProofs TptrModel TptrSpec TptrProofs TptrSelf SptrModel SptrSpec.
From Coq Require Import Permutation.
Open Scope Z_scope.

Section P.
Variable matchf : elt -> elt -> bool.
Variable pick : nat -> list nat -> nat.
Hypothesis fresh : forall c l, ~ In (pick c l) l.
Notation heap := (heap elt elt).
Notation an := (nat * node elt elt)%type.
Notation memb := (memb matchf).
Notation sound := (sound matchf).
Notation one_set := (one_set matchf).
Notation is_set := (is_set matchf).
Notation mem := (SetProofs.mem matchf).

Lemma memb_mem l e : memb l e = true <-> mem l e.
Proof. unfold SptrSpec.memb. rewrite existsb_exists. reflexivity. Qed.
Lemma memb_false l e : memb l e = false <-> ~ mem l e.
Proof. rewrite <- memb_mem. destruct (memb l e); split; congruence. Qed.

Lemma represents_ext (h h' : heap) t T : represents h t T -> (forall x, In x (map fst (cells h)) -> look (cells h') x = look (cells h) x) -> NoDup (map fst (cells h')) -> represents h' t T.
Proof.
  intros (L & R & ->) E ND. exists L. split; [|reflexivity]. constructor; [|exact (r_apart _ _ _ R)|exact ND]. apply (chains_ext elt elt h); [exact (r_chains _ _ _ R)|]. intros x Ix. apply E. now apply (chains_in elt elt h _ _ (r_chains _ _ _ R)).
Qed.
Lemma F2_nth {A B} (R : A -> B -> Prop) : forall l m i b, Forall2 R l m -> nth_error m i = Some b -> exists a, nth_error l i = Some a /\ R a b.
Proof. intros l m i b F. revert i. induction F as [|x y l m H F IH]; intros [|i] E; cbn [nth_error] in *; try discriminate; [|now apply IH]. exists x. split; [reflexivity|congruence]. Qed.
Lemma F2_impl {A B} (P Q : A -> B -> Prop) : (forall a b, P a b -> Q a b) -> forall l m, Forall2 P l m -> Forall2 Q l m.
Proof. intros H l m F. induction F; constructor; auto. Qed.
Lemma F2_upd {A B} (R : A -> B -> Prop) : forall l m i a b, Forall2 R l m -> R a b -> Forall2 R (upd l i a) (upd m i b).
Proof. intros l m i a b F H. revert i. induction F as [|x y l m H1 F IH]; intros [|i]; cbn [upd]; constructor; auto. Qed.

Lemma set_of w LL i l : sound w LL -> nth_error LL i = Some l -> exists s S, wget w i = Ok s /\ nth_error (wsets w) i = Some s /\ represents (wheap w) (ptbl s) (stbl S) /\ plen s = slen S /\ is_set S l.
Proof. intros (ND & F) N. destruct (F2_nth _ _ _ _ _ F N) as (s & Ns & S & R & P & I_). exists s, S. unfold wget. rewrite Ns. auto. Qed.

Lemma member_in w LL i l e fuel : sound w LL -> nth_error LL i = Some l -> (length (cells (wheap w)) < fuel)%nat -> w_member matchf fuel w i e = Ok (memb l e).
Proof.
  intros SO N Lf. destruct (set_of w LL i l SO N) as (s & S & G & _ & (L & R & ET) & _ & I_). unfold w_member. rewrite G. cbn [obind]. destruct (member_ok matchf S l e I_) as (b & Eb & Hb). unfold set_is_member in Eb. apply obind_ok in Eb. destruct Eb as (r & Er & Eb). rewrite ET in Er.
  rewrite (pget_ok elt elt elt_hash matchf pick fresh _ _ L e fuel r R Lf Er). cbn [obind]. rewrite Eb. f_equal. destruct b; symmetry; [now apply memb_mem, Hb|]. apply memb_false. intros M. apply Hb in M. discriminate.
Qed.
Lemma insert_in w LL i l e fuel : sound w LL -> nth_error LL i = Some l -> (length (cells (wheap w)) < fuel)%nat ->
  if memb l e then w_insert matchf pick fuel w i e = Ok (1, w) else
  exists w', w_insert matchf pick fuel w i e = Ok (0, w') /\ sound w' (upd LL i (e :: l)) /\ (forall x, In x (map fst (cells (wheap w))) -> look (cells (wheap w')) x = look (cells (wheap w)) x) /\ length (cells (wheap w')) = S (length (cells (wheap w))) /\
    (forall k, k <> i -> nth_error (wsets w') k = nth_error (wsets w) k).
Proof.
  intros SO N Lf. unfold w_insert. rewrite (member_in w LL i l e fuel SO N Lf). cbn [obind]. destruct (memb l e) eqn:M; [reflexivity|]. apply memb_false in M. destruct (set_of w LL i l SO N) as (s & S & G & Ns & (L & R & ET) & P & I_). rewrite G. cbn [obind].
  destruct (insert_new matchf S l e I_ M) as (S' & E' & I'). unfold set_insert in E'. destruct (member_ok matchf S l e I_) as (b & Eb & Hb). rewrite Eb in E'. cbn [obind] in E'. destruct b; [exfalso; now apply M, Hb|]. apply obind_ok in E'. destruct E' as ((rc & T') & ST & E'). assert (rc = 0 /\ S' = mkset T' (slen S + 1)) as (-> & ->) by (split; congruence). rewrite ET in ST.
  destruct (pset_ok elt elt elt_hash matchf pick fresh _ _ L e e fuel _ _ R Lf ST) as (h' & t' & L' & EP & R' & ET' & LK & IC & R0 & _). rewrite EP. cbn [obind]. destruct (R0 eq_refl) as (x & c & _ & _ & EC & NX).
  assert (ND' : NoDup (map fst (cells h'))) by exact (r_heap _ _ _ R').
  eexists. split; [reflexivity|]. cbn [wheap wsets]. split; [|split; [exact LK|split]].
  - split; [exact ND'|]. cbn [wsets wheap]. apply F2_upd.
    + destruct SO as (_ & F). eapply F2_impl; [|exact F]. intros s0 l0 (S0 & Q1 & Q2 & Q3). exists S0. split; [|auto]. now apply (represents_ext (wheap w)).
    + exists (mkset T' (slen S + 1)). cbn [ptbl plen stbl slen]. split; [now exists L'|]. split; [now rewrite P|exact I'].
  - rewrite <- (map_length fst), EC. cbn [length]. now rewrite map_length.
  - intros k Nk. rewrite upd_nth_error. destruct (Nat.eqb_spec k i); [contradiction|reflexivity].
Qed.

(** one callback: [want] says which elements are to be inserted into set v *)
Section Cb.
Variable fuel0 : nat.
Variable v : nat.
Variable LL0 : list (list elt).
Variable want : list elt -> elt -> bool.
Variable cb : world -> elt -> outcome (Z * world).
Definition rest_same (LL : list (list elt)) : Prop := forall k, k <> v -> nth_error LL k = nth_error LL0 k.
Definition cb_ok : Prop := forall w LL l e, sound w LL -> rest_same LL -> nth_error LL v = Some l -> (length (cells (wheap w)) < fuel0)%nat ->
  if want l e then cb w e = w_insert matchf pick fuel0 w v e else cb w e = Ok (0, w).
Hypothesis CB : cb_ok.
Notation absorb := (absorb matchf want).

Lemma upd_upd {A} (l : list A) i a b : upd (upd l i a) i b = upd l i b.
Proof. revert i. induction l as [|x l IH]; intros [|i]; cbn [upd]; try reflexivity. now rewrite IH. Qed.
Lemma rest_upd LL l : rest_same LL -> rest_same (upd LL v l).
Proof. intros R k Nk. rewrite upd_nth_error. destruct (Nat.eqb_spec k v); [contradiction|now apply R]. Qed.
Lemma at_upd {A} (LL : list A) i l l' : nth_error LL i = Some l -> nth_error (upd LL i l') i = Some l'.
Proof. intros N. rewrite upd_nth_error, Nat.eqb_refl. assert (X : (i < length LL)%nat) by (apply nth_error_Some; congruence). apply Nat.ltb_lt in X. now rewrite X. Qed.

Lemma chain_walk : forall c w LL l p fuel, sound w LL -> rest_same LL -> nth_error LL v = Some l -> chain (wheap w) p c -> (length c < fuel)%nat -> (length (cells (wheap w)) + length c < fuel0)%nat ->
  exists r w' l', walk_chain cb fuel w p = Ok (r, w') /\ absorb (map (fun a => ndatum (snd a)) c) l = (r, l') /\ sound w' (upd LL v l') /\ (l' = l -> w' = w) /\ (exists m, l' = m ++ l /\ (length m <= length c)%nat) /\
    (forall x, In x (map fst (cells (wheap w))) -> In x (map fst (cells (wheap w'))) /\ look (cells (wheap w')) x = look (cells (wheap w)) x) /\ (length (cells (wheap w')) <= length (cells (wheap w)) + length c)%nat /\ (forall k, k <> v -> nth_error (wsets w') k = nth_error (wsets w) k).
Proof.
  induction c as [|[x n] c IH]; intros w LL l p [|f] SO RS N C Lc Lf; cbn [length] in Lc, Lf; try lia; cbn [chain] in C.
  - subst p. exists 0, w, l. cbn [walk_chain map SptrSpec.absorb length]. rewrite (upd_id LL v l N). repeat (split; [solve [reflexivity|assumption|auto]|]). split; [exists []; split; [reflexivity|cbn [length]; lia]|]. split; [auto|]. split; [lia|auto].
  - destruct C as (-> & q & Lk & C). cbn [walk_chain map SptrSpec.absorb snd]. unfold hget. rewrite Lk. cbn [obind cell hd hn]. pose proof (CB w LL l (ndatum n) SO RS N ltac:(lia)) as W. destruct (want l (ndatum n)).
    + pose proof (insert_in w LL v l (ndatum n) fuel0 SO N ltac:(lia)) as X. destruct (memb l (ndatum n)).
      * rewrite W, X. cbn [obind]. change (1 =? 0) with false. cbv iota. exists 1, w, l. rewrite (upd_id LL v l N). repeat (split; [solve [reflexivity|assumption|auto]|]). split; [exists []; split; [reflexivity|cbn [length]; lia]|]. split; [auto|]. split; [lia|auto].
      * destruct X as (w1 & E1 & SO1 & LK & LC & KS). rewrite W, E1. cbn [obind]. change (0 =? 0) with true. cbv iota.
        destruct (IH w1 (upd LL v (ndatum n :: l)) (ndatum n :: l) q f) as (r & w2 & l2 & E2 & A2 & SO2 & ID2 & (m & Em & Lm) & LK2 & LC2 & KS2); [exact SO1|now apply rest_upd|now apply (at_upd LL v l)| |lia|lia|].
        { apply (chain_ext elt elt (wheap w)); [exact C|]. intros y Iy. apply LK. now apply (chain_in elt elt (wheap w) c q). }
        exists r, w2, l2. rewrite upd_upd in SO2. split; [exact E2|]. split; [exact A2|]. split; [exact SO2|]. split; [intros E; exfalso; rewrite Em in E; apply (f_equal (@length elt)) in E; rewrite app_length in E; cbn [length] in E; lia|]. split; [exists (m ++ [ndatum n]); split; [now rewrite <- app_assoc|rewrite app_length; cbn [length]; lia]|].
        split; [intros y Iy|split; [cbn [length]; lia|intros k Nk; rewrite KS2 by exact Nk; now apply KS]]. assert (J : In y (map fst (cells (wheap w1)))). { destruct (look (cells (wheap w)) y) as [z|] eqn:Ez; [apply (look_in elt elt _ _ z); now rewrite LK|]. apply look_not in Ez. contradiction. } destruct (LK2 y J) as (J1 & J2). split; [exact J1|]. rewrite J2. now apply LK.
    + rewrite W. cbn [obind]. change (0 =? 0) with true. cbv iota. destruct (IH w LL l q f SO RS N C ltac:(lia) ltac:(lia)) as (r & w2 & l2 & E2 & A2 & SO2 & ID2 & (m & Em & Lm) & LK2 & LC2 & KS2). exists r, w2, l2. split; [exact E2|]. split; [exact A2|]. split; [exact SO2|]. split; [exact ID2|]. split; [exists m; split; [exact Em|cbn [length]; lia]|]. split; [exact LK2|]. split; [cbn [length]; lia|exact KS2].
Qed.
Lemma absorb_members : forall L l, (forall e, In e L -> memb l e = true) -> snd (absorb L l) = l.
Proof. induction L as [|e L IH]; intros l M; cbn [SptrSpec.absorb]; [reflexivity|]. destruct (want l e); [rewrite (M e (or_introl eq_refl)); reflexivity|]. apply IH. intros x Ix. apply M. now right. Qed.
Lemma absorb_app : forall L1 L2 l, absorb (L1 ++ L2) l = let '(r, l') := absorb L1 l in if r =? 0 then absorb L2 l' else (r, l').
Proof.
  induction L1 as [|e L1 IH]; intros L2 l; cbn [SptrSpec.absorb app]; [reflexivity|]. destruct (want l e); [destruct (memb l e); [reflexivity|]|]; apply IH.
Qed.

Notation data c := (map (fun a : an => ndatum (snd a)) c).
Lemma loop_walk i s L : forall bs b w LL l fuel, bs = seq b (length L - b) -> (b <= length L)%nat -> sound w LL -> rest_same LL -> nth_error LL v = Some l -> nth_error (wsets w) i = Some s -> rep (wheap w) (ptbl s) L -> (i = v -> forall e, In e (data (concat L)) -> memb l e = true) ->
  (length (concat L) < fuel)%nat -> (length (cells (wheap w)) + length (concat (skipn b L)) < fuel0)%nat ->
  exists r w' l', walk_loop cb fuel w i bs = Ok (r, w') /\ absorb (data (concat (skipn b L))) l = (r, l') /\ sound w' (upd LL v l') /\ (l' = l -> w' = w) /\ (exists m, l' = m ++ l) /\
    (forall x, In x (map fst (cells (wheap w))) -> In x (map fst (cells (wheap w'))) /\ look (cells (wheap w')) x = look (cells (wheap w)) x) /\ (length (cells (wheap w')) <= length (cells (wheap w)) + length (concat (skipn b L)))%nat /\ (forall k, k <> v -> nth_error (wsets w') k = nth_error (wsets w) k).
Proof.
  induction bs as [|b' bs IH]; intros b w LL l fuel Eb Hb SO RS N Ns R AL Lf L0.
  - assert (length L - b = 0)%nat by (destruct (length L - b)%nat; [reflexivity|discriminate]). exists 0, w, l. rewrite skipn_all2 by lia. cbn [walk_loop concat map SptrSpec.absorb length]. rewrite (upd_id LL v l N). repeat (split; [solve [reflexivity|assumption|auto]|]). split; [now exists []|]. split; [auto|]. split; [lia|auto].
  - destruct (length L - b)%nat as [|m] eqn:Em; [discriminate|]. cbn [seq] in Eb. injection Eb as -> ->. assert (Hi : (b < length L)%nat) by lia. assert (Hi2 := Hi). apply nth_error_Some in Hi. destruct (nth_error L b) as [c|] eqn:Nc; [|congruence].
    destruct (bucket_of elt elt pick fresh (wheap w) (ptbl s) L b c R Nc) as (p & Hp & C).
    assert (SK : skipn b L = c :: skipn (S b) L). { clear - Nc. revert b Nc. induction L as [|a L IH]; intros [|i] N; cbn [nth_error] in N; try discriminate; [cbn [skipn]; congruence|]. cbn [skipn]. rewrite (IH i N). reflexivity. }
    assert (LCL : (length c <= length (concat L))%nat). { apply nth_error_split in Nc. destruct Nc as (A & B & -> & _). rewrite concat_app. cbn [concat]. rewrite !app_length. lia. }
    rewrite SK in L0 |- *. cbn [concat] in L0 |- *. rewrite app_length in L0 |- *. cbn [walk_loop]. unfold wget. rewrite Ns. cbn [obind]. unfold head_at. rewrite Hp. cbn [obind].
    destruct (chain_walk c w LL l p fuel SO RS N C ltac:(lia) ltac:(lia)) as (r1 & w1 & l1 & E1 & A1 & SO1 & ID1 & (m1 & M1 & Lm) & LK1 & LC1 & KS1). rewrite E1. cbn [obind]. rewrite map_app, absorb_app, A1.
    destruct (Z.eqb_spec r1 0) as [->|Zr].
    2:{ exists r1, w1, l1. split; [reflexivity|]. split; [reflexivity|]. split; [exact SO1|]. split; [exact ID1|]. split; [now exists m1|]. split; [exact LK1|]. split; [lia|exact KS1]. }
    assert (X : nth_error (wsets w1) i = Some s /\ (i = v -> l1 = l)).
    { destruct (Nat.eq_dec i v) as [->|NE]; [|split; [now rewrite KS1|contradiction]]. assert (Q : snd (absorb (data c) l) = l). { apply absorb_members. intros e Ie. apply AL; [reflexivity|]. apply nth_error_split in Nc. destruct Nc as (A & B & -> & _). rewrite concat_app. cbn [concat]. rewrite !map_app. apply in_or_app. right. apply in_or_app. now left. } rewrite A1 in Q. cbn [snd] in Q. split; [rewrite (ID1 Q); exact Ns|auto]. }
    destruct X as (Ns1 & EQl).
    destruct (IH (S b) w1 (upd LL v l1) l1 fuel) as (r2 & w2 & l2 & E2 & A2 & SO2 & ID2 & (m2 & M2) & LK2 & LC2 & KS2).
    + f_equal. lia.
    + lia.
    + exact SO1.
    + now apply rest_upd.
    + now apply (at_upd LL v l).
    + exact Ns1.
    + constructor; [|exact (r_apart _ _ _ R)|exact (proj1 SO1)]. apply (chains_ext elt elt (wheap w)); [exact (r_chains _ _ _ R)|]. intros x Ix. apply LK1. now apply (chains_in elt elt (wheap w) _ _ (r_chains _ _ _ R)).
    + intros Ei e Ie. rewrite (EQl Ei). now apply AL.
    + lia.
    + lia.
    + exists r2, w2, l2. split; [exact E2|]. split; [exact A2|]. rewrite upd_upd in SO2. split; [exact SO2|]. split; [|split; [exists (m2 ++ m1); now rewrite M2, M1, app_assoc|split]].
      * intros E. assert (X : m2 = [] /\ m1 = []). { rewrite M2, M1, app_assoc in E. apply (f_equal (@length elt)) in E. rewrite !app_length in E. destruct m2, m1; cbn [length] in E; try lia. auto. } destruct X as (-> & ->). rewrite (ID2 M2). now apply ID1.
      * intros x Ix. destruct (LK1 x Ix) as (J1 & J2). destruct (LK2 x J1) as (J3 & J4). split; [exact J3|congruence].
      * split; [lia|]. intros k Nk. rewrite KS2 by exact Nk. now apply KS1.
Qed.
Lemma walk_ok i li : forall w LL l fuel, equivalence elt matchf -> sound w LL -> rest_same LL -> nth_error LL v = Some l -> nth_error LL i = Some li -> (length (cells (wheap w)) < fuel)%nat -> (2 * length (cells (wheap w)) < fuel0)%nat ->
  exists L r w' l', Permutation L li /\ walk cb fuel w i = Ok (r, w') /\ absorb L l = (r, l') /\ sound w' (upd LL v l') /\ (i = v -> l' = l) /\ (l' = l -> w' = w) /\ (length (cells (wheap w')) <= 2 * length (cells (wheap w)))%nat.
Proof.
  intros w LL l fuel EQ SO RS N Ni Lf L0. destruct (set_of w LL i li SO Ni) as (s & S & G & Ns & (L & R & ET) & P & I_). unfold walk. rewrite G. cbn [obind]. rewrite (rep_same_len elt elt _ _ L R).
  assert (LC : (length (concat L) <= length (cells (wheap w)))%nat). { rewrite <- (map_length fst (concat L)), <- (map_length fst (cells (wheap w))). apply NoDup_incl_length; [exact (r_apart _ _ _ R)|]. apply (chains_in elt elt _ _ _ (r_chains _ _ _ R)). }
  assert (PM : Permutation (data (concat L)) li). { destruct I_ as (H & _). pose proof (all_nodes_perm elt elt elt_hash (stbl S) (dbl li) H) as Q. apply (Permutation_map snd) in Q. rewrite map_map in Q. unfold dbl in Q. rewrite map_map, map_id in Q. rewrite ET in Q. unfold all_nodes, tab in Q. cbn [tbuckets] in Q. rewrite <- concat_map, map_map in Q. exact Q. }
  destruct (loop_walk i s L (seq 0 (length L)) 0 w LL l fuel) as (r & w' & l' & E & A & SO' & ID & _ & _ & LC' & _); auto.
  - f_equal. lia.
  - lia.
  - intros -> e Ie. assert (li = l) by congruence. subst li. apply memb_mem. exists e. split; [now apply (Permutation_in _ PM)|]. now apply eqv_refl.
  - lia.
  - cbn [skipn]. lia.
  - cbn [skipn] in *. exists (data (concat L)), r, w', l'. repeat (split; [assumption|]). split; [|split; [exact ID|lia]]. intros ->. assert (li = l) by congruence. subst li. replace l' with (snd (absorb (data (concat L)) l)) by now rewrite A. apply absorb_members. intros e Ie. apply memb_mem. exists e. split; [now apply (Permutation_in _ PM)|]. now apply eqv_refl.
Qed.
End Cb.
End P.
