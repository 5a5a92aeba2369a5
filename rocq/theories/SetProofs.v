From Verif Require Import Prelude HashModel HashProofs TableModel TableProofs TableCopy SetModel.
From Coq Require Import Permutation.
Open Scope Z_scope.

Lemma elt_hash_range e : 0 <= elt_hash e < 2 ^ 32.
Proof.
  unfold elt_hash. destruct (table_hash_int (fst e) (snd e)) as [h| | |] eqn:E; try lia.
  unfold table_hash_int, zt_hash32_buff in E.
  assert (G : forall n l v, 0 <= v < 2 ^ 32 -> hash_loop 32 HASH32_PRIME n l v = Ok h -> 0 <= h < 2 ^ 32).
  { clear. induction n as [|n IH]; intros l v Hv H; cbn [hash_loop] in H; [congruence|]. destruct l; [discriminate|]. apply IH in H; [exact H|].
    unfold hash_step. apply Z.mod_pos_bound. lia. }
  apply G in E; [exact E|]. vm_compute. split; congruence.
Qed.

Section P.
Variable matchf : elt -> elt -> bool.
Hypothesis EQ : equivalence elt matchf.
(** two elements are the same member *)
Definition eqv : elt -> elt -> bool := same elt elt_hash matchf.
Definition mem (l : list elt) (e : elt) : Prop := exists x, In x l /\ eqv x e = true.
Fixpoint distinct (l : list elt) : Prop := match l with [] => True | x :: r => ~ mem r x /\ distinct r end.
Definition dbl (l : list elt) : list (elt * elt) := map (fun e => (e, e)) l.
(** the set object represents the finite set whose members are l *)
Definition is_set (s : zset) (l : list elt) : Prop :=
  holds elt elt elt_hash (stbl s) (dbl l) /\ slen s = Z.of_nat (length l) /\ distinct l /\ tdup (stbl s) = false.

Lemma eqv_refl e : eqv e e = true.
Proof. destruct EQ as (R & _). unfold eqv, same. now rewrite Z.eqb_refl, R. Qed.
Lemma eqv_sym a b : eqv a b = eqv b a.
Proof. destruct EQ as (_ & S & _). unfold eqv, same. now rewrite Z.eqb_sym, S. Qed.
Lemma eqv_trans a b c : eqv a b = true -> eqv b c = true -> eqv a c = true.
Proof. apply (same_trans elt elt_hash matchf EQ). Qed.

Lemma lookup_dbl l e : match lookup elt elt elt_hash matchf (dbl l) e with Some _ => mem l e | None => ~ mem l e end.
Proof.
  induction l as [|x l IH]; [intros (y & [] & _)|]. cbn [dbl map lookup]. fold eqv. destruct (eqv x e) eqn:E.
  - exists x. split; [now left|exact E].
  - change (map (fun e0 : elt => (e0, e0)) l) with (dbl l). destruct (lookup elt elt elt_hash matchf (dbl l) e).
    + destruct IH as (y & H & H2). exists y. split; [now right|exact H2].
    + intros (y & [<-|H] & H2); [congruence|]. apply IH. exists y. auto.
Qed.
Lemma member_ok s l e : is_set s l -> exists b, set_is_member matchf s e = Ok b /\ (b = true <-> mem l e).
Proof.
  intros (H & _). unfold set_is_member. rewrite (get_ok elt elt elt_hash matchf (stbl s) _ e H). cbn [obind].
  pose proof (lookup_dbl l e) as L. destruct (lookup elt elt elt_hash matchf (dbl l) e).
  - exists true. split; [reflexivity|tauto].
  - exists false. split; [reflexivity|]. split; [discriminate|tauto].
Qed.
Lemma init_set : is_set set_init [].
Proof.
  split; [|split; [reflexivity|split; [exact I|reflexivity]]]. destruct (pick_good 128) as (b & G & N); try lia.
  exact (init_bounds elt elt elt_hash false false 128 b G N elt_hash_range).
Qed.
Lemma insert_new s l e : is_set s l -> ~ mem l e -> exists s', set_insert matchf s e = Ok (0, s') /\ is_set s' (e :: l).
Proof.
  intros H N. destruct (member_ok s l e H) as (b & B1 & B2). unfold set_insert. rewrite B1. cbn [obind].
  destruct b; [exfalso; apply N; now apply B2|]. destruct H as (H & L & Di & Du).
  destruct (set_ok elt elt elt_hash matchf (stbl s) (dbl l) e e H) as (t & E1 & E2 & E3).
  unfold ref_set in *. rewrite Du in *. pose proof (lookup_dbl l e) as Lk. destruct (lookup elt elt elt_hash matchf (dbl l) e); [contradiction|].
  cbn [fst snd] in *. rewrite E1. cbn [obind]. eexists. split; [reflexivity|]. split; [exact E2|]. cbn [stbl slen length]. split; [lia|]. split; [split; assumption|exact E3].
Qed.
Lemma insert_old s l e : is_set s l -> mem l e -> set_insert matchf s e = Ok (1, s).
Proof. intros H M. destruct (member_ok s l e H) as (b & B1 & B2). unfold set_insert. rewrite B1. cbn [obind]. apply B2 in M. now rewrite M. Qed.

(** iteration: the callback sees the members in some order *)
Fixpoint each (f : zset -> elt -> outcome (Z * zset)) (l : list elt) (s : zset) : outcome (Z * zset) :=
  match l with
  | [] => Ok (0, s)
  | e :: r => ' (x, s') <- f s e ;; if x =? 0 then each f r s' else Ok (x, s')
  end.
Lemma visit_each f : forall ns s, (let '(r, a) := visit (callback f) ns (Ok s) in s' <- a ;; Ok (r, s')) = each f (map ndatum ns) s.
Proof.
  induction ns as [|n ns IH]; intros s; [reflexivity|]. cbn [visit map each]. unfold callback at 1.
  destruct (f s (ndatum n)) as [[x s']| | |]; cbn; try reflexivity.
  destruct (x =? 0) eqn:E; [apply IH|]. reflexivity.
Qed.
Lemma iterate_ok s l : is_set s l -> exists L, Permutation L l /\ forall f acc, iterate (stbl s) f acc = each f L acc.
Proof.
  intros (H & _). exists (map ndatum (all_nodes (stbl s))). split.
  - pose proof (all_nodes_perm elt elt elt_hash (stbl s) (dbl l) H) as P. apply (Permutation_map snd) in P.
    rewrite map_map in P. unfold dbl in P. rewrite map_map, map_id in P. exact P.
  - intros f acc. unfold iterate, table_for_each. apply visit_each.
Qed.

Lemma mem_perm l L e : Permutation L l -> mem L e <-> mem l e.
Proof. intros P. split; intros (x & H & E); exists x; split; auto; [eapply Permutation_in; eauto|eapply Permutation_in; [apply Permutation_sym|]; eauto]. Qed.
Lemma mem_cong l a b : eqv a b = true -> mem l a <-> mem l b.
Proof. intros E. split; intros (x & H & X); exists x; split; auto; [eapply eqv_trans; eauto|]. eapply eqv_trans; [exact X|]. now rewrite eqv_sym. Qed.
Lemma distinct_spec l : distinct l <-> forall l1 x l2, l = l1 ++ x :: l2 -> ~ mem l2 x.
Proof.
  split.
  - intros D l1. revert l D. induction l1 as [|y l1 IH]; intros l D x l2 ->; cbn in D; [apply D|]. now apply (IH (l1 ++ x :: l2)).
  - induction l as [|x l IH]; intros H; [exact I|]. split; [now apply (H [])|]. apply IH. intros l1 y l2 ->. now apply (H (x :: l1)).
Qed.
Lemma distinct_perm l L : Permutation L l -> distinct l -> distinct L.
Proof.
  intros P. apply Permutation_sym in P. induction P as [|x l L P IH|x y l|l l2 l3 P1 IH1 P2 IH2]; intros D; auto.
  - destruct D as [D1 D2]. split; [|now apply IH]. intros M. apply D1. apply (mem_perm l L x); [now apply Permutation_sym|exact M].
  - destruct D as (D1 & D2 & D3). split; [|split; [|exact D3]].
    + intros (z & [<-|H] & E).
      * apply D1. exists x. split; [now left|]. now rewrite eqv_sym.
      * apply D2. exists z. auto.
    + intros (z & H & E). apply D1. exists z. split; [now right|exact E].
Qed.
Lemma mem_app l1 l2 e : mem (l1 ++ l2) e <-> mem l1 e \/ mem l2 e.
Proof.
  split.
  - intros (x & H & E). apply in_app_or in H. destruct H; [left|right]; exists x; auto.
  - intros [(x & H & E)|(x & H & E)]; exists x; split; auto; apply in_or_app; auto.
Qed.

(** inserting members one after the other into a set that contains none of them *)
Lemma each_insert : forall L s l, is_set s l -> distinct L -> (forall e, mem L e -> ~ mem l e) ->
  exists s', each (set_insert matchf) L s = Ok (0, s') /\ is_set s' (rev L ++ l).
Proof.
  induction L as [|x L IH]; intros s l H D N; cbn [each]; [exists s; auto|]. destruct D as [D1 D2].
  destruct (insert_new s l x H) as (s1 & E1 & E2).
  { apply N. exists x. split; [now left|apply eqv_refl]. }
  rewrite E1. cbn [obind]. rewrite Z.eqb_refl. destruct (IH s1 (x :: l) E2 D2) as (s' & R1 & R2).
  - intros e M (y & [<-|Hy] & E).
    + apply D1. destruct M as (z & Hz & Ez). exists z. split; [exact Hz|]. eapply eqv_trans; [exact Ez|]. now rewrite eqv_sym.
    + apply (N e); [destruct M as (z & Hz & Ez); exists z; split; [now right|exact Ez]|]. exists y. auto.
  - exists s'. split; [exact R1|]. cbn [rev]. now rewrite <- app_assoc.
Qed.
Lemma each_filter (P : elt -> Prop) (f : zset -> elt -> outcome (Z * zset)) :
  (forall a e, (exists b : bool, f a e = (if b then set_insert matchf a e else Ok (0, a)) /\ (b = true <-> P e))) ->
  forall L, exists L', (forall e, In e L' <-> In e L /\ P e) /\ (distinct L -> distinct L') /\ forall s l, is_set s l -> distinct L -> (forall e, mem L' e -> ~ mem l e) ->
  exists s', each f L s = Ok (0, s') /\ is_set s' (rev L' ++ l).
Proof.
  intros F. induction L as [|x L IH].
  - exists []. split; [cbn; tauto|]. split; [auto|]. intros s l H D N. exists s. auto.
  - destruct IH as (L' & I1 & I2 & I3). destruct (F set_init x) as (b & _ & Hb). destruct b.
    + exists (x :: L'). split; [|split].
      * intros e. cbn [In]. rewrite I1. split; [intros [<-|[? ?]]; [split; [now left|now apply Hb]|tauto]|tauto].
      * intros [D1 D2]. split; [|now apply I2]. intros (z & Hz & Ez). apply D1. exists z. split; [now apply I1|exact Ez].
      * intros s l H [D1 D2] N. cbn [each]. destruct (F s x) as (b & Fb & Hb'). destruct b; [|exfalso; assert (false = true) by (apply Hb'; now apply Hb); discriminate].
        rewrite Fb. destruct (insert_new s l x H) as (s1 & E1 & E2).
        { apply N. exists x. split; [now left|apply eqv_refl]. }
        rewrite E1. cbn [obind]. rewrite Z.eqb_refl. destruct (I3 s1 (x :: l) E2 D2) as (s' & R1 & R2).
        -- intros e M (y & [<-|Hy] & E).
           ++ apply D1. destruct M as (z & Hz & Ez). exists z. split; [now apply I1|]. eapply eqv_trans; [exact Ez|]. now rewrite eqv_sym.
           ++ apply (N e); [destruct M as (z & Hz & Ez); exists z; split; [now right|exact Ez]|]. exists y. auto.
        -- exists s'. split; [exact R1|]. cbn [rev]. now rewrite <- app_assoc.
    + exists L'. split; [|split].
      * intros e. cbn [In]. rewrite I1. split; [tauto|]. intros [[<-|?] Pe]; [|tauto]. apply Hb in Pe. discriminate.
      * intros [D1 D2]. now apply I2.
      * intros s l H [D1 D2] N. cbn [each]. destruct (F s x) as (b & Fb & Hb'). destruct b; [exfalso; assert (false = true) by (apply Hb; now apply Hb'); discriminate|].
        rewrite Fb. cbn [obind]. rewrite Z.eqb_refl. apply I3; assumption.
Qed.

Lemma union_ok su s1 s2 lu l1 l2 : is_set su lu -> is_set s1 l1 -> is_set s2 l2 ->
  (forall e, mem l1 e -> ~ mem lu e) -> (forall e, mem l2 e -> ~ mem lu e /\ ~ mem l1 e) ->
  exists u l, set_union matchf su s1 s2 = Ok (0, u) /\ is_set u l /\ forall e, mem l e <-> mem lu e \/ mem l1 e \/ mem l2 e.
Proof.
  intros Hu H1 H2 N1 N2. unfold set_union. destruct (iterate_ok s1 l1 H1) as (L1 & P1 & I1). destruct (iterate_ok s2 l2 H2) as (L2 & P2 & I2).
  rewrite I1. destruct (each_insert L1 su lu Hu) as (u1 & E1 & U1).
  - apply (distinct_perm l1); [exact P1|apply H1].
  - intros e M. apply N1. now apply (mem_perm l1 L1).
  - rewrite E1. cbn [obind]. rewrite I2. destruct (each_insert L2 u1 _ U1) as (u2 & E2 & U2).
    + apply (distinct_perm l2); [exact P2|apply H2].
    + intros e M M2. apply (mem_perm l2 L2 e P2) in M. apply mem_app in M2. destruct M2 as [M2|M2].
      * destruct (N2 e M) as [_ N3]. apply N3. apply (mem_perm l1 L1 e P1). apply (mem_perm L1 (rev L1)); [apply Permutation_sym, Permutation_rev|exact M2].
      * destruct (N2 e M) as [N3 _]. exact (N3 M2).
    + rewrite E2. cbn [obind]. exists u2. eexists. split; [reflexivity|]. split; [exact U2|]. intros e. rewrite !mem_app.
      rewrite (mem_perm L2 (rev L2) e) by apply Permutation_sym, Permutation_rev. rewrite (mem_perm L1 (rev L1) e) by apply Permutation_sym, Permutation_rev.
      rewrite (mem_perm l1 L1 e P1), (mem_perm l2 L2 e P2). tauto.
Qed.
Lemma filter_ok (P : elt -> Prop) f sx s1 lx l1 : (forall a b, eqv a b = true -> P a -> P b) -> is_set sx lx -> is_set s1 l1 ->
  (forall a e, (exists b : bool, f a e = (if b then set_insert matchf a e else Ok (0, a)) /\ (b = true <-> P e))) ->
  (forall e, mem l1 e -> P e -> ~ mem lx e) ->
  exists u l, iterate (stbl s1) f sx = Ok (0, u) /\ is_set u l /\ forall e, mem l e <-> mem lx e \/ (mem l1 e /\ P e).
Proof.
  intros C Hx H1 F N. destruct (iterate_ok s1 l1 H1) as (L1 & P1 & I1). rewrite I1. destruct (each_filter P f F L1) as (L' & E1 & E2 & E3).
  destruct (E3 sx lx Hx) as (u & U1 & U2).
  - apply (distinct_perm l1); [exact P1|apply H1].
  - intros e (x & Hx1 & Ex). apply E1 in Hx1. destruct Hx1 as [A B]. apply N; [|now apply (C x)].
    apply (mem_perm l1 L1 e P1). exists x. auto.
  - exists u. eexists. split; [exact U1|]. split; [exact U2|]. intros e. rewrite mem_app. rewrite (mem_perm L' (rev L') e) by apply Permutation_sym, Permutation_rev.
    split.
    + intros [(x & A & B)|]; [|now left]. right. apply E1 in A. destruct A as [A1 A2]. split; [|now apply (C x)]. apply (mem_perm l1 L1 e P1). exists x. auto.
    + intros [|[M Pe]]; [now right|]. left. apply (mem_perm l1 L1 e P1) in M. destruct M as (x & A & B). exists x. split; [|exact B]. apply E1. split; [exact A|].
      apply (C e x); [now rewrite eqv_sym|exact Pe].
Qed.
Lemma intersection_ok si s1 s2 li l1 l2 : is_set si li -> is_set s1 l1 -> is_set s2 l2 -> (forall e, mem l1 e -> mem l2 e -> ~ mem li e) ->
  exists u l, set_intersection matchf si s1 s2 = Ok (0, u) /\ is_set u l /\ forall e, mem l e <-> mem li e \/ (mem l1 e /\ mem l2 e).
Proof.
  intros Hi H1 H2 N. unfold set_intersection. apply (filter_ok (mem l2)); auto.
  - intros a b E M. now apply (mem_cong l2 a b E).
  - intros a e. destruct (member_ok s2 l2 e H2) as (b & B1 & B2). exists b. split; [|exact B2]. unfold intersect_cb. rewrite B1. reflexivity.
Qed.
Lemma difference_ok sd s1 s2 ld l1 l2 : is_set sd ld -> is_set s1 l1 -> is_set s2 l2 -> (forall e, mem l1 e -> ~ mem l2 e -> ~ mem ld e) ->
  exists u l, set_difference matchf sd s1 s2 = Ok (0, u) /\ is_set u l /\ forall e, mem l e <-> mem ld e \/ (mem l1 e /\ ~ mem l2 e).
Proof.
  intros Hi H1 H2 N. unfold set_difference. apply (filter_ok (fun e => ~ mem l2 e)); auto.
  - intros a b E NA MB. apply NA. now apply (mem_cong l2 a b).
  - intros a e. destruct (member_ok s2 l2 e H2) as (b & B1 & B2). exists (negb b). split; [unfold difference_cb; rewrite B1; now destruct b|].
    destruct b; cbn; rewrite <- B2; split; intros; try congruence; discriminate.
Qed.

(** pigeonhole up to equivalence *)
Lemma incl_length : forall l1 l2, distinct l1 -> distinct l2 -> (forall e, mem l1 e -> mem l2 e) ->
  (length l1 <= length l2)%nat /\ (length l1 = length l2 -> forall e, mem l2 e -> mem l1 e).
Proof.
  induction l1 as [|x l1 IH]; intros l2 D1 D2 H.
  - split; [cbn; lia|]. destruct l2; [auto|discriminate].
  - destruct D1 as [D1 D1']. assert (M : mem l2 x) by (apply H; exists x; split; [now left|apply eqv_refl]).
    destruct M as (y & Hy & Ey). apply in_split in Hy. destruct Hy as (a & b & ->).
    assert (Pm : Permutation (y :: a ++ b) (a ++ y :: b)) by apply Permutation_middle.
    assert (D3 : distinct (y :: a ++ b)) by (eapply distinct_perm; eauto). destruct D3 as [D3 D4].
    destruct (IH (a ++ b) D1' D4) as [I1 I2].
    + intros e (z & Hz & Ez). assert (M : mem (a ++ y :: b) e). { apply H. exists z. split; [now right|exact Ez]. }
      apply (mem_perm _ _ e Pm) in M. destruct M as (w & [<-|Hw] & Ew); [|exists w; auto].
      exfalso. apply D1. exists z. split; [exact Hz|]. apply eqv_trans with e; [exact Ez|]. apply eqv_trans with y; [now rewrite eqv_sym|exact Ey].
    + apply Permutation_length in Pm. cbn [length] in *. split; [lia|]. intros L e M. apply (mem_perm _ _ e (Permutation_middle a b y)) in M.
      destruct M as (w & [<-|Hw] & Ew).
      * exists x. split; [now left|]. eapply eqv_trans; [|exact Ew]. now rewrite eqv_sym.
      * destruct (I2 ltac:(lia) e) as (z & Hz & Ez); [exists w; auto|]. exists z. split; [now right|exact Ez].
Qed.
Lemma each_subset s2 l2 : is_set s2 l2 -> forall L acc, exists r, each (subset_cb matchf s2) L acc = Ok (r, acc) /\ (r = 0 <-> forall e, In e L -> mem l2 e).
Proof.
  intros H. induction L as [|x L IH]; intros acc; cbn [each].
  - exists 0. split; [reflexivity|]. split; [easy|reflexivity].
  - unfold subset_cb. destruct (member_ok s2 l2 x H) as (b & B1 & B2). rewrite B1. cbn [obind]. destruct b.
    + rewrite Z.eqb_refl. destruct (IH acc) as (r & R1 & R2). exists r. split; [exact R1|]. rewrite R2. split.
      * intros A e [<-|He]; [now apply B2|auto].
      * intros A e He. apply A. now right.
    + exists 1. split; [reflexivity|]. split; [discriminate|]. intros A. assert (M := A x (or_introl eq_refl)). apply B2 in M. discriminate.
Qed.
Lemma subset_ok s1 s2 l1 l2 : is_set s1 l1 -> is_set s2 l2 -> exists b, set_is_subset matchf s1 s2 = Ok b /\ (b = true <-> forall e, mem l1 e -> mem l2 e).
Proof.
  intros H1 H2. unfold set_is_subset. pose proof H1 as (A1 & A2 & A3 & A4). pose proof H2 as (B1 & B2 & B3 & B4).
  destruct (slen s1 >? slen s2) eqn:G.
  - exists false. split; [reflexivity|]. split; [discriminate|]. intros I. destruct (incl_length l1 l2 A3 B3 I) as [L _]. lia.
  - destruct (iterate_ok s1 l1 H1) as (L & P & I1). rewrite I1. destruct (each_subset s2 l2 H2 L s1) as (r & R1 & R2). rewrite R1. cbn [obind].
    exists (r =? 0). split; [reflexivity|]. rewrite Z.eqb_eq, R2. split.
    + intros A e M. apply (mem_perm l1 L e P) in M. destruct M as (x & Hx & Ex). apply (mem_cong l2 x e Ex). now apply A.
    + intros A e He. apply A. apply (mem_perm l1 L e P). exists e. split; [exact He|apply eqv_refl].
Qed.
Lemma equal_ok s1 s2 l1 l2 : is_set s1 l1 -> is_set s2 l2 -> exists b, set_is_equal matchf s1 s2 = Ok b /\ (b = true <-> forall e, mem l1 e <-> mem l2 e).
Proof.
  intros H1 H2. unfold set_is_equal. pose proof H1 as (A1 & A2 & A3 & A4). pose proof H2 as (B1 & B2 & B3 & B4).
  destruct (slen s1 =? slen s2) eqn:G; cbn [negb].
  - destruct (iterate_ok s1 l1 H1) as (L & P & I1). rewrite I1. destruct (each_subset s2 l2 H2 L s1) as (r & R1 & R2). rewrite R1. cbn [obind].
    exists (r =? 0). split; [reflexivity|]. rewrite Z.eqb_eq, R2. split.
    + intros A. assert (I : forall e, mem l1 e -> mem l2 e).
      { intros e M. apply (mem_perm l1 L e P) in M. destruct M as (x & Hx & Ex). apply (mem_cong l2 x e Ex). now apply A. }
      destruct (incl_length l1 l2 A3 B3 I) as [_ J]. intros e. split; [apply I|apply J; lia].
    + intros A e He. apply A. apply (mem_perm l1 L e P). exists e. split; [exact He|apply eqv_refl].
  - exists false. split; [reflexivity|]. split; [discriminate|]. intros I. destruct (incl_length l1 l2 A3 B3) as [L1 _]; [intros e; apply I|].
    destruct (incl_length l2 l1 B3 A3) as [L2 _]; [intros e; apply I|]. lia.
Qed.
(** remove: what it really does *)
Lemma remove_effect s l p : is_set s l -> ~ mem l (p, 0%nat) ->
  exists s', set_remove matchf s p = Ok (0, 0, s') /\ stbl s' = stbl s /\ slen s' = slen s - 1.
Proof.
  intros (H & _) N. unfold set_remove. pose proof (lookup_dbl l (p, 0%nat)) as Lk. destruct (lookup elt elt elt_hash matchf (dbl l) (p, 0%nat)) eqn:Q; [contradiction|].
  rewrite (del_missing elt elt elt_hash matchf (stbl s) _ _ H Q). cbn [obind]. eexists. split; [reflexivity|]. auto.
Qed.
End P.
