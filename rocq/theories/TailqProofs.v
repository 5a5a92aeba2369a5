(** Proofs about TailqModel: one lemma for each macro, over the blocks of one queue and whatever else is in memory. *)
From Coq Require Import Permutation.
From Verif Require Import Prelude AmemModel AmemProofs HeapModel Perm TailqModel.
Local Open Scope nat_scope.

Definition el := (nat * Z)%type.
Definition hdt (l : list el) (t : nat) : nat := match l with [] => t | (e, _) :: _ => e end.
Fixpoint qb (s : slot) (l : list el) (t : nat) : list (nat * entry) := match l with [] => [] | (e, v) :: l => (e, mkentry (hdt l t) s v) :: qb (Next e) l t end.
Fixpoint endslot (s : slot) (l : list el) : slot := match l with [] => s | (e, _) :: l => endslot (Next e) l end.
Lemma hdt_app l1 l2 t : hdt (l1 ++ l2) t = hdt l1 (hdt l2 t). Proof. now destruct l1 as [|[e v] l1]. Qed.
Lemma qb_app l1 : forall s l2 t, qb s (l1 ++ l2) t = qb s l1 (hdt l2 t) ++ qb (endslot s l1) l2 t.
Proof. induction l1 as [|[e v] l1 IH]; intros s l2 t; [reflexivity|]. cbn [app qb endslot]. now rewrite IH, hdt_app. Qed.
Lemma endslot_app l1 : forall s l2, endslot s (l1 ++ l2) = endslot (endslot s l1) l2.
Proof. induction l1 as [|[e v] l1 IH]; intros s l2; [reflexivity|]. cbn [app endslot]. apply IH. Qed.
Lemma qb_fst l : forall s t, map fst (qb s l t) = map fst l.
Proof. induction l as [|[e v] l IH]; intros s t; [reflexivity|]. cbn [qb map fst]. now rewrite IH. Qed.
Lemma qb_data l : forall s t, map (fun b => (fst b, data (snd b))) (qb s l t) = l.
Proof. induction l as [|[e v] l IH]; intros s t; [reflexivity|]. cbn [qb map fst snd data]. now rewrite IH. Qed.

Definition same (q : nat) (m m' : mem) : Prop := forall p, p <> q -> heads m' p = heads m p.
Lemma same_trans q a b c : same q a b -> same q b c -> same q a c. Proof. intros H G p N. rewrite G, H; auto. Qed.
Lemma same_refl q a : same q a a. Proof. intros p _. reflexivity. Qed.
Lemma same_set q m h : same q m (set_head m q h). Proof. intros p N. cbn [set_head heads]. apply Nat.eqb_neq in N. now rewrite N. Qed.
Lemma set_same m q h : heads (set_head m q h) q = h. Proof. cbn [set_head heads]. now rewrite Nat.eqb_refl. Qed.

(** the queue, with last pointer [s], whose last entry points to [t], and the other blocks *)
Definition at_ (m : mem) (q : nat) (l : list el) (t : nat) (s : slot) (R : list (nat * entry)) : Prop := owns (heap m) (qb (First q) l t ++ R) /\ heads m q = (hdt l t, s).
Definition rep (m : mem) (q : nat) (l : list el) (R : list (nat * entry)) : Prop := at_ m q l 0 (endslot (First q) l) R.
Lemma at_perm m q l t s R R' : at_ m q l t s R -> Permutation R R' -> at_ m q l t s R'.
Proof. intros [O H] P. split; [|exact H]. apply (owns_perm _ _ _ O). now apply Permutation_app_head. Qed.
Lemma owns_nx m e c L n : owns (heap m) ((e, c) :: L) -> exists m', set_nx m e n = Ok m' /\ owns (heap m') ((e, mkentry n (pv c) (data c)) :: L) /\ heads m' = heads m.
Proof. intros O. unfold set_nx, get. rewrite (owns_get _ _ _ _ O). cbn [obind]. eexists. split; [reflexivity|]. split; [|reflexivity]. now apply owns_put with (c := c). Qed.
Lemma owns_pv m e c L s : owns (heap m) ((e, c) :: L) -> exists m', set_pv m e s = Ok m' /\ owns (heap m') ((e, mkentry (nx c) s (data c)) :: L) /\ heads m' = heads m.
Proof. intros O. unfold set_pv, get. rewrite (owns_get _ _ _ _ O). cbn [obind]. eexists. split; [reflexivity|]. split; [|reflexivity]. now apply owns_put with (c := c). Qed.
Lemma snoc_cases {A} (l : list A) : l = [] \/ exists l0 x, l = l0 ++ [x].
Proof. destruct l as [|a l] using rev_ind; [now left|right]. eauto. Qed.
Lemma assign_end m q l t s R x : at_ m q l t s R -> exists m', assign m (endslot (First q) l) x = Ok m' /\ at_ m' q l x s R /\ same q m m'.
Proof.
  intros [O H]. destruct (snoc_cases l) as [-> | (l0 & [e v] & ->)].
  - cbn [endslot assign]. eexists. split; [reflexivity|]. split; [|apply same_set]. split; [exact O|]. unfold set_first. rewrite set_same, H. reflexivity.
  - rewrite endslot_app. cbn [endslot assign]. rewrite qb_app in O. cbn [qb hdt] in O.
    assert (O1 : owns (heap m) ((e, mkentry t (endslot (First q) l0) v) :: qb (First q) l0 e ++ R)) by (apply (owns_perm _ _ _ O); perm).
    destruct (owns_nx m e _ _ x O1) as (m' & E & O2 & H2). exists m'. split; [exact E|]. split; [split|].
    + rewrite qb_app. cbn [qb hdt]. apply (owns_perm _ _ _ O2). cbn [pv data]. perm.
    + rewrite H2, H, !hdt_app. reflexivity.
    + intros p _. now rewrite H2.
Qed.
Lemma deref_end m q l t s R : at_ m q l t s R -> deref m (endslot (First q) l) = Ok t.
Proof.
  intros [O H]. destruct (snoc_cases l) as [-> | (l0 & [e v] & ->)].
  - cbn [endslot deref]. now rewrite H.
  - rewrite endslot_app. cbn [endslot deref]. unfold get. rewrite (owns_in _ _ e (mkentry t (endslot (First q) l0) v) O); [reflexivity|]. apply in_or_app. left. rewrite qb_app. apply in_or_app. right. now left.
Qed.
Lemma at_front m q l1 l2 t s R : at_ m q (l1 ++ l2) t s R <-> at_ m q l1 (hdt l2 t) s (qb (endslot (First q) l1) l2 t ++ R).
Proof. unfold at_. rewrite qb_app, hdt_app, <- app_assoc. reflexivity. Qed.
Lemma at_get m q l1 e v l2 t s R : at_ m q (l1 ++ (e, v) :: l2) t s R -> get m e = Ok (mkentry (hdt l2 t) (endslot (First q) l1) v).
Proof. intros [O _]. apply (owns_in _ _ _ _ O). apply in_or_app. left. rewrite qb_app. apply in_or_app. right. now left. Qed.
Lemma at_nonnull m q l t s R e v : at_ m q l t s R -> In (e, v) l -> e <> 0.
Proof. intros [O _] J. apply in_split in J as (l1 & l2 & ->). apply (owns_nonnull _ _ e (mkentry (hdt l2 t) (endslot (First q) l1) v) O). apply in_or_app. left. rewrite qb_app. apply in_or_app. right. now left. Qed.

(** ** the macros *)
Lemma insert_tail_ok m q l e c R : rep m q l ((e, c) :: R) -> exists m', tq_insert_tail m q e = Ok m' /\ rep m' q (l ++ [(e, data c)]) R /\ same q m m'.
Proof.
  intros [O H]. unfold tq_insert_tail.
  assert (O1 : owns (heap m) ((e, c) :: qb (First q) l 0 ++ R)) by (apply (owns_perm _ _ _ O); perm).
  destruct (owns_nx m e c _ 0 O1) as (m1 & E1 & O2 & H1). rewrite E1. cbn [obind]. rewrite H1, H. cbn [snd].
  destruct (owns_pv m1 e _ _ (endslot (First q) l) O2) as (m2 & E2 & O3 & H2). rewrite E2. cbn [obind nx pv data] in *. rewrite H2, H1, H. cbn [snd].
  assert (A2 : at_ m2 q l 0 (endslot (First q) l) ((e, mkentry 0 (endslot (First q) l) (data c)) :: R)). { split; [|congruence]. apply (owns_perm _ _ _ O3). perm. }
  destruct (assign_end _ _ _ _ _ _ e A2) as (m3 & E3 & A3 & S3). rewrite E3. cbn [obind]. eexists. split; [reflexivity|]. destruct A3 as [O4 H4]. split; [split|].
  - rewrite qb_app. cbn [qb hdt]. apply (owns_perm _ _ _ O4). perm.
  - unfold set_last. rewrite set_same, H4, hdt_app, endslot_app. reflexivity.
  - intros p N. unfold set_last. rewrite (same_set q m3 _ p N), (S3 p N). congruence.
Qed.
Lemma insert_head_ok m q l e c R : rep m q l ((e, c) :: R) -> exists m', tq_insert_head m q e = Ok m' /\ rep m' q ((e, data c) :: l) R /\ same q m m'.
Proof.
  intros A. pose proof A as [O H]. unfold tq_insert_head. rewrite H. cbn [fst]. cbv zeta.
  assert (O1 : owns (heap m) ((e, c) :: qb (First q) l 0 ++ R)) by (apply (owns_perm _ _ _ O); perm).
  destruct (owns_nx m e c _ (hdt l 0) O1) as (m1 & E1 & O2 & H1). rewrite E1. cbn [obind].
  destruct l as [|[f w] l].
  - cbn [hdt Nat.eqb obind qb app endslot] in *.
    destruct (owns_pv (set_first (set_last m1 q (Next e)) q e) e _ _ (First q) O2) as (m2 & E2 & O3 & H2). exists m2. split; [exact E2|]. cbn [nx data] in O3. split; [split|].
    + exact O3.
    + rewrite H2. unfold set_first, set_last. rewrite !set_same. reflexivity.
    + intros p N. rewrite H2. unfold set_first. rewrite (same_set q _ _ p N). unfold set_last. rewrite (same_set q _ _ p N). congruence.
  - cbn [hdt] in *. assert (NZ : f <> 0) by (apply (at_nonnull _ _ _ _ _ _ _ w A); now left). apply Nat.eqb_neq in NZ. rewrite NZ.
    cbn [qb] in O2. assert (O3 : owns (heap m1) ((f, mkentry (hdt l 0) (First q) w) :: (e, mkentry f (pv c) (data c)) :: qb (Next f) l 0 ++ R)) by (apply (owns_perm _ _ _ O2); perm).
    destruct (owns_pv m1 f _ _ (Next e) O3) as (m2 & E2 & O4 & H2). rewrite E2. cbn [obind nx data] in *.
    assert (O5 : owns (heap (set_first m2 q e)) ((e, mkentry f (pv c) (data c)) :: (f, mkentry (hdt l 0) (Next e) w) :: qb (Next f) l 0 ++ R)) by (apply (owns_perm _ _ _ O4); perm).
    destruct (owns_pv _ e _ _ (First q) O5) as (m3 & E3 & O6 & H3). exists m3. split; [exact E3|]. split; [split|].
    + exact O6.
    + rewrite H3. unfold set_first. rewrite set_same, H2, H1, H. reflexivity.
    + intros p N. rewrite H3. unfold set_first. rewrite (same_set q _ _ p N). congruence.
Qed.
Lemma insert_after_ok m q l1 a v l2 e c R : rep m q (l1 ++ (a, v) :: l2) ((e, c) :: R) -> exists m', tq_insert_after m q a e = Ok m' /\ rep m' q (l1 ++ (a, v) :: (e, data c) :: l2) R /\ same q m m'.
Proof.
  intros A. pose proof A as [O H]. unfold tq_insert_after. rewrite (at_get _ _ _ _ _ _ _ _ _ A). cbn [obind nx].
  set (s := endslot (First q) l1) in *. rewrite qb_app in O. cbn [qb hdt] in O. fold s in O.
  assert (O1 : owns (heap m) ((e, c) :: qb (First q) l1 a ++ (a, mkentry (hdt l2 0) s v) :: qb (Next a) l2 0 ++ R)) by (apply (owns_perm _ _ _ O); perm).
  destruct (owns_nx m e c _ (hdt l2 0) O1) as (m1 & E1 & O2 & H1). rewrite E1. cbn [obind].
  assert (X : exists m2, (if hdt l2 0 =? 0 then Ok (set_last m1 q (Next e)) else set_pv m1 (hdt l2 0) (Next e)) = Ok m2 /\ owns (heap m2) ((e, mkentry (hdt l2 0) (pv c) (data c)) :: qb (First q) l1 a ++ (a, mkentry (hdt l2 0) s v) :: qb (Next e) l2 0 ++ R) /\ heads m2 q = (hdt (l1 ++ [(a, v)]) 0, endslot (Next e) l2) /\ same q m m2).
  { destruct l2 as [|[f w] l2].
    - cbn [hdt Nat.eqb] in *. eexists. split; [reflexivity|]. split; [exact O2|]. split.
      + unfold set_last. rewrite set_same, H1, H. reflexivity.
      + intros p N. unfold set_last. rewrite (same_set q _ _ p N). congruence.
    - cbn [hdt] in *. assert (NZ : f <> 0) by (apply (at_nonnull _ _ _ _ _ _ _ w A); apply in_or_app; right; right; now left). apply Nat.eqb_neq in NZ. rewrite NZ. cbn [qb] in *.
      assert (O3 : owns (heap m1) ((f, mkentry (hdt l2 0) (Next a) w) :: (e, mkentry f (pv c) (data c)) :: qb (First q) l1 a ++ (a, mkentry f s v) :: qb (Next f) l2 0 ++ R)) by (apply (owns_perm _ _ _ O2); perm).
      destruct (owns_pv m1 f _ _ (Next e) O3) as (m2 & E2 & O4 & H2). exists m2. split; [exact E2|]. cbn [nx data] in O4. split; [apply (owns_perm _ _ _ O4); perm|]. split.
      + rewrite H2, H1, H, !hdt_app, endslot_app. reflexivity.
      + intros p _. congruence. }
  destruct X as (m2 & E2 & O3 & H2 & S2). rewrite E2. cbn [obind].
  assert (O4 : owns (heap m2) ((a, mkentry (hdt l2 0) s v) :: (e, mkentry (hdt l2 0) (pv c) (data c)) :: qb (First q) l1 a ++ qb (Next e) l2 0 ++ R)) by (apply (owns_perm _ _ _ O3); perm).
  destruct (owns_nx m2 a _ _ e O4) as (m3 & E3 & O5 & H3). rewrite E3. cbn [obind pv data] in *.
  assert (O6 : owns (heap m3) ((e, mkentry (hdt l2 0) (pv c) (data c)) :: (a, mkentry e s v) :: qb (First q) l1 a ++ qb (Next e) l2 0 ++ R)) by (apply (owns_perm _ _ _ O5); perm).
  destruct (owns_pv m3 e _ _ (Next a) O6) as (m4 & E4 & O7 & H4). exists m4. split; [exact E4|]. cbn [nx data] in O7. split; [split|].
  - rewrite qb_app. cbn [qb hdt]. fold s. apply (owns_perm _ _ _ O7). perm.
  - rewrite H4, H3, H2, !hdt_app, endslot_app. reflexivity.
  - intros p N. rewrite H4, H3. now apply S2.
Qed.
Lemma insert_before_ok m q l1 a v l2 e c R : rep m q (l1 ++ (a, v) :: l2) ((e, c) :: R) -> exists m', tq_insert_before m a e = Ok m' /\ rep m' q (l1 ++ (e, data c) :: (a, v) :: l2) R /\ same q m m'.
Proof.
  intros A. pose proof A as [O H]. unfold tq_insert_before. rewrite (at_get _ _ _ _ _ _ _ _ _ A). cbn [obind pv].
  set (s := endslot (First q) l1) in *. rewrite qb_app in O. cbn [qb hdt] in O. fold s in O.
  assert (O1 : owns (heap m) ((e, c) :: qb (First q) l1 a ++ (a, mkentry (hdt l2 0) s v) :: qb (Next a) l2 0 ++ R)) by (apply (owns_perm _ _ _ O); perm).
  destruct (owns_pv m e c _ s O1) as (m1 & E1 & O2 & H1). rewrite E1. cbn [obind].
  destruct (owns_nx m1 e _ _ a O2) as (m2 & E2 & O3 & H2). rewrite E2. cbn [obind pv nx data] in *.
  assert (O4 : owns (heap m2) ((a, mkentry (hdt l2 0) s v) :: (e, mkentry a s (data c)) :: qb (First q) l1 a ++ qb (Next a) l2 0 ++ R)) by (apply (owns_perm _ _ _ O3); perm).
  unfold get. rewrite (owns_get _ _ _ _ O4). cbn [obind pv].
  assert (A2 : at_ m2 q l1 a (endslot (First q) (l1 ++ (a, v) :: l2)) ((a, mkentry (hdt l2 0) s v) :: (e, mkentry a s (data c)) :: qb (Next a) l2 0 ++ R)). { split; [apply (owns_perm _ _ _ O4); perm|]. rewrite H2, H1, H, hdt_app. reflexivity. }
  destruct (assign_end _ _ _ _ _ _ e A2) as (m3 & E3 & [O5 H3] & S3). fold s in E3. rewrite E3. cbn [obind].
  assert (O6 : owns (heap m3) ((a, mkentry (hdt l2 0) s v) :: (e, mkentry a s (data c)) :: qb (First q) l1 e ++ qb (Next a) l2 0 ++ R)) by (apply (owns_perm _ _ _ O5); perm).
  destruct (owns_pv m3 a _ _ (Next e) O6) as (m4 & E4 & O7 & H4). exists m4. split; [exact E4|]. cbn [nx data] in O7. split; [split|].
  - rewrite qb_app. cbn [qb hdt]. fold s. apply (owns_perm _ _ _ O7). perm.
  - rewrite H4, H3, hdt_app, !endslot_app. reflexivity.
  - intros p N. rewrite H4, (S3 p N). congruence.
Qed.
Lemma remove_ok m q l1 e v l2 R : rep m q (l1 ++ (e, v) :: l2) R -> exists m' c, tq_remove m q e = Ok m' /\ rep m' q (l1 ++ l2) ((e, c) :: R) /\ data c = v /\ same q m m'.
Proof.
  intros A. pose proof A as [O H]. unfold tq_remove. rewrite (at_get _ _ _ _ _ _ _ _ _ A). cbn [obind nx pv].
  set (s := endslot (First q) l1) in *. rewrite qb_app in O. cbn [qb hdt] in O. fold s in O.
  assert (X : exists m2, (if hdt l2 0 =? 0 then Ok (set_last m q s) else set_pv m (hdt l2 0) s) = Ok m2 /\ owns (heap m2) (qb (First q) l1 e ++ (e, mkentry (hdt l2 0) s v) :: qb s l2 0 ++ R) /\ heads m2 q = (hdt l1 e, endslot s l2) /\ same q m m2).
  { destruct l2 as [|[f w] l2].
    - cbn [hdt Nat.eqb] in *. eexists. split; [reflexivity|]. split; [apply (owns_perm _ _ _ O); cbn [qb]; perm|]. split; [|apply same_set].
      unfold set_last. rewrite set_same, H, hdt_app. reflexivity.
    - cbn [hdt] in *. assert (NZ : f <> 0) by (apply (at_nonnull _ _ _ _ _ _ _ w A); apply in_or_app; right; right; now left). apply Nat.eqb_neq in NZ. rewrite NZ. cbn [qb] in *.
      assert (O3 : owns (heap m) ((f, mkentry (hdt l2 0) (Next e) w) :: qb (First q) l1 e ++ (e, mkentry f s v) :: qb (Next f) l2 0 ++ R)) by (apply (owns_perm _ _ _ O); perm).
      destruct (owns_pv m f _ _ s O3) as (m2 & E2 & O4 & H2). exists m2. split; [exact E2|]. cbn [nx data] in O4. split; [apply (owns_perm _ _ _ O4); perm|]. split.
      + rewrite H2, H, !hdt_app, endslot_app. reflexivity.
      + intros p _. congruence. }
  destruct X as (m2 & E2 & O2 & H2 & S2). rewrite E2. cbn [obind]. unfold get. rewrite (owns_in _ _ e (mkentry (hdt l2 0) s v) O2) by (apply in_or_app; right; now left). cbn [obind pv nx].
  assert (A2 : at_ m2 q l1 e (endslot s l2) (qb s l2 0 ++ (e, mkentry (hdt l2 0) s v) :: R)). { split; [apply (owns_perm _ _ _ O2); perm|exact H2]. }
  destruct (assign_end _ _ _ _ _ _ (hdt l2 0) A2) as (m3 & E3 & A3 & S3). fold s in E3. exists m3, (mkentry (hdt l2 0) s v). split; [exact E3|]. split; [|split; [reflexivity|now apply same_trans with m2]].
  unfold rep. apply at_front. rewrite endslot_app. exact A3.
Qed.
Lemma rep_heads m m' q l R : rep m q l R -> heap m' = heap m -> heads m' q = heads m q -> rep m' q l R.
Proof. intros [O H] E1 E2. split; congruence. Qed.
(** two queues *)
Lemma concat_ok m q r l k R : q <> r -> rep m q l (qb (First r) k 0 ++ R) -> heads m r = (hdt k 0, endslot (First r) k) -> exists m', tq_concat m q r = Ok m' /\ rep m' q (l ++ k) R /\ heads m' r = (0, First r) /\ (forall p, p <> q -> p <> r -> heads m' p = heads m p).
Proof.
  intros D A Hr. pose proof A as [O H]. unfold tq_concat. rewrite Hr, H. cbn [fst snd]. cbv zeta.
  destruct k as [|[f w] k]; cbn [hdt].
  - cbn [Nat.eqb]. exists m. split; [reflexivity|]. rewrite app_nil_r. split; [exact A|]. split; [exact Hr|reflexivity].
  - assert (NZ : f <> 0). { apply (owns_nonnull _ _ f (mkentry (hdt k 0) (First r) w) O). apply in_or_app. right. now left. } apply Nat.eqb_neq in NZ. rewrite NZ.
    destruct (assign_end _ _ _ _ _ _ f A) as (m1 & E1 & [O1 H1] & S1). rewrite E1. cbn [obind]. rewrite (S1 r) by congruence. rewrite Hr. cbn [fst hdt]. rewrite H1. cbn [snd].
    cbn [qb] in O1. assert (O2 : owns (heap m1) ((f, mkentry (hdt k 0) (First r) w) :: qb (First q) l f ++ qb (Next f) k 0 ++ R)) by (apply (owns_perm _ _ _ O1); perm).
    destruct (owns_pv m1 f _ _ (endslot (First q) l) O2) as (m2 & E2 & O3 & H2). rewrite E2. cbn [obind nx data] in *. eexists. split; [reflexivity|].
    assert (X : forall p, p <> q -> p <> r -> heads (tq_init (set_last m2 q (snd (heads m2 r))) r) p = heads m p). { intros p N1 N2. unfold tq_init. rewrite (same_set r _ _ p N2). unfold set_last. rewrite (same_set q _ _ p N1). rewrite H2. now apply S1. }
    split; [split|split; [|exact X]].
    + rewrite qb_app. cbn [qb hdt]. apply (owns_perm _ _ _ O3). cbn [tq_init set_last set_head heap]. perm.
    + unfold tq_init. rewrite (same_set r _ _ q D). unfold set_last. rewrite set_same, H2, H1, hdt_app, endslot_app. f_equal. rewrite (S1 r) by congruence. rewrite Hr. reflexivity.
    + unfold tq_init. now rewrite set_same.
Qed.

(** ** looking *)
Definition lastof (l : list el) : nat := last (map fst l) 0.
Lemma lastof_snoc l e v : lastof (l ++ [(e, v)]) = e.
Proof. unfold lastof. rewrite map_app. cbn [map fst]. apply last_last. Qed.
Lemma pun_end m q l1 l2 R : rep m q (l1 ++ l2) R -> (s <- pun m (endslot (First q) l1) ;; deref m s) = Ok (lastof l1).
Proof.
  intros A. destruct (snoc_cases l1) as [-> | (l0 & [e v] & ->)].
  - cbn [endslot pun]. pose proof A as [O H]. rewrite H. cbn [obind snd]. now rewrite (deref_end _ _ _ _ _ _ A).
  - rewrite endslot_app. cbn [endslot pun]. rewrite lastof_snoc. rewrite <- app_assoc in A. cbn [app] in A. rewrite (at_get _ _ _ _ _ _ _ _ _ A). cbn [obind pv]. apply at_front in A. now rewrite (deref_end _ _ _ _ _ _ A).
Qed.
Lemma first_ok m q l R : rep m q l R -> tq_first m q = hd 0 (map fst l).
Proof. intros [O H]. unfold tq_first. rewrite H. now destruct l as [|[e v] l]. Qed.
Lemma empty_ok m q l R : rep m q l R -> tq_empty m q = match l with [] => true | _ => false end.
Proof. intros A. unfold tq_empty. pose proof (first_ok _ _ _ _ A) as F. unfold tq_first in F. rewrite F. destruct l as [|[e v] l]; [reflexivity|]. cbn [map fst hd]. apply Nat.eqb_neq. apply (at_nonnull _ _ _ _ _ _ _ v A). now left. Qed.
Lemma last_ok m q l R : rep m q l R -> tq_last m q = Ok (lastof l).
Proof. intros A. unfold tq_last. pose proof A as [O H]. rewrite H. cbn [snd]. apply (pun_end m q l [] R). now rewrite app_nil_r. Qed.
Lemma next_ok m q l1 e v l2 R : rep m q (l1 ++ (e, v) :: l2) R -> tq_next m e = Ok (hd 0 (map fst l2)).
Proof. intros A. unfold tq_next. rewrite (at_get _ _ _ _ _ _ _ _ _ A). cbn [obind nx]. now destruct l2 as [|[f w] l2]. Qed.
Lemma prev_ok m q l1 e v l2 R : rep m q (l1 ++ (e, v) :: l2) R -> tq_prev m e = Ok (lastof l1).
Proof. intros A. unfold tq_prev. rewrite (at_get _ _ _ _ _ _ _ _ _ A). cbn [obind pv]. apply (pun_end _ _ _ _ _ A). Qed.
Lemma foreach_ok m q R l2 : forall l1 fuel, rep m q (l1 ++ l2) R -> length l2 < fuel -> tq_foreach fuel m (hd 0 (map fst l2)) = Ok (map fst l2).
Proof.
  induction l2 as [|[e v] l2 IH]; intros l1 fuel A F; (destruct fuel; [cbn [length] in F; lia|]); [reflexivity|]. cbn [map fst hd tq_foreach].
  assert (NZ : e <> 0) by (apply (at_nonnull _ _ _ _ _ _ _ v A); apply in_or_app; right; now left). apply Nat.eqb_neq in NZ. rewrite NZ, (next_ok _ _ _ _ _ _ _ A). cbn [obind]. rewrite (IH (l1 ++ [(e, v)])); [reflexivity|now rewrite <- app_assoc|cbn [length] in F; lia].
Qed.
Lemma reverse_ok m q R l1 : forall l2 fuel, rep m q (l1 ++ l2) R -> length l1 < fuel -> tq_reverse fuel m (lastof l1) = Ok (rev (map fst l1)).
Proof.
  induction l1 as [|[e v] l1 IH] using rev_ind; intros l2 fuel A F; (destruct fuel; [lia|]); [reflexivity|]. rewrite lastof_snoc, map_app, rev_app_distr. cbn [map fst rev app tq_reverse]. rewrite <- app_assoc in A. cbn [app] in A.
  assert (NZ : e <> 0) by (apply (at_nonnull _ _ _ _ _ _ _ v A); apply in_or_app; right; now left). apply Nat.eqb_neq in NZ. rewrite NZ, (prev_ok _ _ _ _ _ _ _ A). cbn [obind]. rewrite app_length in F. cbn [length] in F. rewrite (IH ((e, v) :: l2)); [reflexivity|exact A|lia].
Qed.
