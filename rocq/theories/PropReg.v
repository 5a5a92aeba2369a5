(** C59: zt_mem.c: finding pools by name, destroying them, the exit handler, the figures, groups, heaps.  Specification: RegSpec.v.  sys is the system page size. *)
From Verif Require Import Prelude MemModel MemProofs MemPool RegModel RegSpec.
From Coq Require Import Permutation.
Open Scope Z_scope.

Definition pair_of (e : entry) : nat * text := (addr e, match name e with Some n => n | None => [] end).
Record inv (w : world) : Prop := mkinv {
  i_nodup : NoDup (map addr (plist (w_reg w)));
  i_ok : forall e, In e (plist (w_reg w)) -> pool_ok (body e) (w_held w (addr e)) /\ name e <> None;
  i_log : map pair_of (plist (w_reg w)) = living (w_log w);
  i_hooks : hooks (w_reg w) = 0%nat -> plist (w_reg w) = [];
  i_hooks1 : (hooks (w_reg w) <= 1)%nat }.

Lemma find_some l a e : find l a = Some e -> In e l /\ addr e = a.
Proof. induction l as [|x l IH]; cbn [find]; [discriminate|]. destruct (Nat.eqb_spec (addr x) a); intros H; [assert (x = e) by congruence; subst; split; [now left|reflexivity]|]. destruct (IH H). split; [now right|assumption]. Qed.
Lemma find_none l a : find l a = None <-> ~ In a (map addr l).
Proof. induction l as [|x l IH]; cbn [find map In]; [tauto|]. destruct (Nat.eqb_spec (addr x) a); [split; [discriminate|tauto]|]. rewrite IH. tauto. Qed.
Lemma find_in l e : NoDup (map addr l) -> In e l -> find l (addr e) = Some e.
Proof.
  induction l as [|x l IH]; cbn [find map In]; [tauto|]. intros ND [->|I]; [now rewrite Nat.eqb_refl|]. inversion ND as [|? ? N1 N2]; subst.
  destruct (Nat.eqb_spec (addr x) (addr e)) as [E|]; [|now apply IH]. exfalso. apply N1. rewrite E. now apply in_map.
Qed.
Lemma put_addr l a p : map addr (put l a p) = map addr l.
Proof. unfold put. rewrite map_map. apply map_ext. intros e. now destruct (addr e =? a)%nat. Qed.
Lemma put_pair l a p : map pair_of (put l a p) = map pair_of l.
Proof. unfold put. rewrite map_map. apply map_ext. intros e. now destruct (addr e =? a)%nat. Qed.
Lemma remove_addr l a : map addr (remove l a) = filter (fun b => negb (b =? a)%nat) (map addr l).
Proof. unfold remove. induction l as [|e l IH]; cbn [filter map]; [reflexivity|]. destruct (addr e =? a)%nat; cbn [negb map]; now rewrite IH. Qed.
Lemma remove_pair l a : map pair_of (remove l a) = filter (fun x => negb (fst x =? a)%nat) (map pair_of l).
Proof. unfold remove. induction l as [|e l IH]; cbn [filter map]; [reflexivity|]. cbn [pair_of fst]. destruct (addr e =? a)%nat; cbn [negb map]; now rewrite IH. Qed.
Lemma in_put l a p e : In e (put l a p) -> (addr e <> a /\ In e l) \/ (addr e = a /\ body e = p /\ exists x, In x l /\ addr x = a /\ name x = name e).
Proof.
  unfold put. rewrite in_map_iff. intros (x & E & I). destruct (Nat.eqb_spec (addr x) a) as [A|A]; subst e; cbn [addr body name]; [right|left; auto].
  split; [exact A|]. split; [reflexivity|]. now exists x.
Qed.
Lemma living_snoc log e : living (log ++ [e]) = after (living log) e.
Proof. unfold living. now rewrite fold_left_app. Qed.

(** destroying a pool of a consistent state *)
Lemma destroy_ok r held a e : NoDup (map addr (plist r)) -> find (plist r) a = Some e -> pool_ok (body e) (held a) ->
  (held a = [] -> destroy r a = Ok (0, mkreg (remove (plist r) a) (hooks r))) /\
  (held a <> [] -> exists p', destroy r a = Ok (-1, mkreg (put (plist r) a p') (hooks r)) /\ pool_ok p' (held a)).
Proof.
  intros ND F K. unfold destroy. rewrite F. destruct (pool_destroy_ok (body e) (held a) K) as [A B]. split.
  - intros H. now rewrite (A H).
  - intros H. destruct (B H) as (p' & E & K'). exists p'. rewrite E. auto.
Qed.

Lemma step_inv sys w o : 4096 <= sys < 2 ^ 63 -> sizes o -> inv w -> exists w', wstep sys w o = Ok w' /\ inv w' /\
  (hooks (w_reg w') = if is_new o then 1%nat else hooks (w_reg w)).
Proof.
  intros S F [ND OKS LG H0 H1]. destruct o as [a ms n elts size cb fl|a os|a]; cbn [wstep is_new].
  - destruct (find (plist (w_reg w)) a) eqn:FD.
    { exists w. split; [reflexivity|]. split; [now constructor|]. destruct (hooks (w_reg w)) as [|[|h]] eqn:HK; [|reflexivity|lia]. rewrite (H0 eq_refl) in FD. discriminate. }
    cbn [sizes] in F. destruct F as (F1 & F2 & F3).
    destruct (pool_init_ok sys elts size cb fl S F1 F2) as (p & E & K & _); [exact F3|].
    assert (HK : match hooks (w_reg w) with O => 1%nat | h => h end = 1%nat) by (destruct (hooks (w_reg w)) as [|[|h]]; [reflexivity|reflexivity|lia]).
    assert (C : exists c, calculate sys (if elts =? 0 then 1 else elts) size = Ok c).
    { unfold pool_init in E. apply obind_ok in E. destruct E as (c & E & _). now exists c. }
    destruct C as (c & C). unfold init. rewrite C. cbn [obind]. cbv zeta. rewrite HK. destruct ms; cbn [negb].
    + rewrite E. cbn [obind]. eexists. split; [reflexivity|]. cbn [w_reg hooks]. split; [|reflexivity]. constructor; cbn [w_reg plist hooks w_held w_log].
      * rewrite map_app. cbn [map addr]. apply find_none in FD.  apply (Permutation_NoDup (l := a :: map addr (plist (w_reg w)))); [apply Permutation_cons_append|]. now constructor.
      * intros e I. apply in_app_or in I. destruct I as [I|[<-|[]]].
        -- unfold held_now. destruct (Nat.eqb_spec (addr e) a) as [A|A]; [|now apply OKS]. exfalso. apply find_none in FD. apply FD. rewrite <- A. now apply in_map.
        -- cbn [body addr name strdup_name]. unfold held_now. rewrite Nat.eqb_refl. split; [exact K|discriminate].
      * rewrite living_snoc, map_app, LG. reflexivity.
      * lia.
      * lia.
    + eexists. split; [reflexivity|]. cbn [w_reg hooks]. split; [|reflexivity]. constructor; cbn [w_reg plist hooks w_held w_log]; auto; [|lia]. rewrite living_snoc. exact LG.
  - destruct (find (plist (w_reg w)) a) as [e|] eqn:FD; [|exists w; split; [reflexivity|]; split; [now constructor|reflexivity]].
    destruct (find_some _ _ _ FD) as [I A]. destruct (OKS e I) as [K N]. rewrite A in K. destruct (run_ok os (body e) (w_held w a) K) as (p & out & E & K'). rewrite E. cbn [obind].
    eexists. split; [reflexivity|]. cbn [w_reg hooks]. split; [|reflexivity]. constructor; cbn [w_reg plist hooks w_held w_log]; auto.
    + now rewrite put_addr.
    + intros x Ix. apply in_put in Ix. unfold held_now. destruct Ix as [(B & Ix)|(B & B2 & y & Iy & Ay & Ny)].
      * replace (addr x =? a)%nat with false by (symmetry; now apply Nat.eqb_neq). now apply OKS.
      * rewrite B, Nat.eqb_refl, B2, <- Ny. split; [exact K'|]. now apply OKS.
    + now rewrite put_pair.
    + intros Z. rewrite (H0 Z) in FD. discriminate.
  - destruct (find (plist (w_reg w)) a) as [e|] eqn:FD; [|exists w; split; [reflexivity|]; split; [now constructor|reflexivity]].
    destruct (find_some _ _ _ FD) as [I A]. destruct (OKS e I) as [K N]. rewrite A in K. destruct (destroy_ok (w_reg w) (w_held w) a e ND FD K) as [D1 D2].
    assert (HZ : hooks (w_reg w) = 0%nat -> False) by (intros Z; rewrite (H0 Z) in FD; discriminate).
    destruct (w_held w a) as [|x l] eqn:HD.
    + rewrite (D1 eq_refl). cbn [obind Z.eqb]. eexists. split; [reflexivity|]. cbn [w_reg hooks]. split; [|reflexivity]. constructor; cbn [w_reg plist hooks w_held w_log]; auto; [| | |tauto].
      * rewrite remove_addr. now apply NoDup_filter.
      * intros y Iy. apply filter_In in Iy. now apply OKS.
      * rewrite remove_pair, living_snoc, LG. reflexivity.
    + destruct D2 as (p' & E & K'); [discriminate|]. rewrite E. cbn [obind Z.eqb]. eexists. split; [reflexivity|]. cbn [w_reg hooks]. split; [|reflexivity].
      constructor; cbn [w_reg plist hooks w_held w_log]; auto; [| | |tauto].
      * now rewrite put_addr.
      * intros y Iy. apply in_put in Iy. destruct Iy as [(B & Iy)|(B & B2 & z & Iz & Az & Nz)]; [now apply OKS|]. rewrite B, B2, <- Nz, HD. split; [exact K'|]. now apply OKS.
      * rewrite put_pair, living_snoc. exact LG.
Qed.
Lemma run_inv sys : 4096 <= sys < 2 ^ 63 -> forall os w, Forall sizes os -> inv w -> exists w', wrun sys w os = Ok w' /\ inv w' /\
  (hooks (w_reg w') = if existsb is_new os then 1%nat else hooks (w_reg w)).
Proof.
  intros S. induction os as [|o os IH]; intros w F I; cbn [wrun existsb]; [now exists w|]. inversion F as [|? ? F1 F2]; subst.
  destruct (step_inv sys w o S F1 I) as (w1 & E1 & I1 & K1). rewrite E1. cbn [obind]. destruct (IH w1 F2 I1) as (w2 & E2 & I2 & K2). exists w2. split; [exact E2|]. split; [exact I2|].
  rewrite K2, K1. now destruct (is_new o), (existsb is_new os).
Qed.
Lemma inv0 : inv world0.
Proof. constructor; cbn; auto; [constructor|tauto]. Qed.

(** what the program looks at *)
Lemma strncmp_same : forall n o, length o = length n -> strncmp_eq (length n) n o = true <-> o = n.
Proof.
  induction n as [|c n IH]; intros [|d o] L; cbn [length strncmp_eq] in *; try discriminate; [tauto|]. rewrite andb_true_iff, Z.eqb_eq, IH by lia. split; [intros [-> ->]; reflexivity|intros E; split; congruence].
Qed.
Lemma get_loop_ok n : forall l, (forall e, In e l -> name e <> None) -> get_loop n l = Ok (oldest n (map pair_of l)).
Proof.
  induction l as [|e l IH]; intros H; cbn [get_loop map oldest]; [reflexivity|]. unfold pair_of at 1. pose proof (H e (or_introl eq_refl)) as N. destruct (name e) as [o|]; [|congruence].
  rewrite IH by (intros x I; apply H; now right). destruct (list_eq_dec Z.eq_dec o n) as [->|NE].
  - rewrite Nat.eqb_refl. cbn [andb]. now rewrite (proj2 (strncmp_same n n eq_refl) eq_refl).
  - destruct (Nat.eqb_spec (length o) (length n)) as [L|L]; cbn [andb]; [|reflexivity]. destruct (strncmp_eq (length n) n o) eqn:E; [|reflexivity]. apply strncmp_same in E; [contradiction|exact L].
Qed.

(** C59. Whatever a program does with pools, zt_mem_pool_get answers with the oldest pool of that name that is still there, NULL when there is none or the name is NULL; the pools whose
    creator gave no name go by the name *unknown*.  Nothing in the history is undefined behaviour, and the pools are consistent throughout. *)
Theorem C59_get : forall sys os, 4096 <= sys < 2 ^ 63 -> Forall sizes os -> exists w, wrun sys world0 os = Ok w /\
  (forall n, get (w_reg w) (Some n) = Ok (oldest n (living (w_log w)))) /\ get (w_reg w) None = Ok None /\
  NoDup (map fst (living (w_log w))) /\
  (forall a, In a (map fst (living (w_log w))) <-> exists e, find (plist (w_reg w)) a = Some e) /\
  (forall a e, find (plist (w_reg w)) a = Some e -> pool_ok (body e) (w_held w a)).
Proof.
  intros sys os S F. destruct (run_inv sys S os world0 F inv0) as (w & E & [ND OKS LG H0 H1] & _). exists w. split; [exact E|].
  assert (MA : map fst (living (w_log w)) = map addr (plist (w_reg w))) by (rewrite <- LG, map_map; reflexivity).
  split; [|split; [reflexivity|split; [now rewrite MA|split]]].
  - intros n. cbn [get]. rewrite get_loop_ok by (intros e I; now apply OKS). now rewrite LG.
  - intros a. rewrite MA. pose proof (find_none (plist (w_reg w)) a) as FN. split.
    + intros I. destruct (find (plist (w_reg w)) a) as [e|]; [now exists e|]. exfalso. now apply (proj1 FN eq_refl).
    + intros (e & FD). destruct (find_some _ _ _ FD) as [I <-]. now apply in_map.
  - intros a e FD. destruct (find_some _ _ _ FD) as [I <-]. now apply OKS.
Qed.
Print Assumptions C59_get.

(** a state a program can reach *)
Definition reachable (sys : Z) (w : world) : Prop := exists os, Forall sizes os /\ wrun sys world0 os = Ok w.
Lemma reachable_inv sys w : 4096 <= sys < 2 ^ 63 -> reachable sys w -> inv w.
Proof. intros S (os & F & E). destruct (run_inv sys S os world0 F inv0) as (w' & E' & I & _). now assert (w' = w) as <- by congruence. Qed.

(** zt_mem_pool_destroy succeeds exactly when no element of the pool is held: then the pool is no longer found, otherwise it and all the others still are *)
Theorem C59_destroy : forall sys w a, 4096 <= sys < 2 ^ 63 -> reachable sys w -> In a (map fst (living (w_log w))) -> exists rc r', destroy (w_reg w) a = Ok (rc, r') /\
  (w_held w a = [] -> rc = 0 /\ (forall n, get r' (Some n) = Ok (oldest n (filter (fun x => negb (fst x =? a)%nat) (living (w_log w))))) /\ find (plist r') a = None) /\
  (w_held w a <> [] -> rc = -1 /\ (forall n, get r' (Some n) = get (w_reg w) (Some n)) /\ exists e, find (plist r') a = Some e /\ pool_ok (body e) (w_held w a)).
Proof.
  intros sys w a S R I. destruct (reachable_inv sys w S R) as [ND OKS LG H0 H1].
  assert (MA : map fst (living (w_log w)) = map addr (plist (w_reg w))) by (rewrite <- LG, map_map; reflexivity). rewrite MA in I.
  destruct (find (plist (w_reg w)) a) as [e|] eqn:FD; [|now apply find_none in FD]. destruct (find_some _ _ _ FD) as [Ie A]. destruct (OKS e Ie) as [K N]. rewrite A in K.
  destruct (destroy_ok (w_reg w) (w_held w) a e ND FD K) as [D1 D2].
  destruct (w_held w a) as [|x l] eqn:HD.
  - rewrite (D1 eq_refl). eexists _, _. split; [reflexivity|]. split; [|congruence]. intros _. split; [reflexivity|]. cbn [get plist]. split.
    + intros n. rewrite get_loop_ok by (intros y Iy; apply filter_In in Iy; now apply OKS). now rewrite remove_pair, LG.
    + apply find_none. rewrite remove_addr. intros H. apply filter_In in H. destruct H as [_ H]. now rewrite Nat.eqb_refl in H.
  - destruct D2 as (p' & E & K'); [discriminate|]. rewrite E. eexists _, _. split; [reflexivity|]. split; [discriminate|]. intros _. split; [reflexivity|]. cbn [get plist]. split.
    + intros n. assert (NN : forall y, In y (put (plist (w_reg w)) a p') -> name y <> None).
      { intros y Iy. apply in_put in Iy. destruct Iy as [(_ & Iy)|(_ & _ & z & Iz & _ & <-)]; now apply OKS. }
      rewrite !get_loop_ok; [now rewrite put_pair|intros y Iy; now apply OKS|exact NN].
    + destruct (find (put (plist (w_reg w)) a p') a) as [y|] eqn:FP.
      * exists y. split; [reflexivity|]. destruct (find_some _ _ _ FP) as [Iy Ay]. apply in_put in Iy. destruct Iy as [(B & _)|(_ & <- & _)]; [congruence|exact K'].
      * apply find_none in FP. rewrite put_addr in FP. contradiction.
Qed.
Print Assumptions C59_destroy.

(** the exit handler: registered by the first zt_mem_pool_init and by no later one; it destroys every pool of which no element is held, and keeps the others *)
Theorem C59_hook : forall sys os w, 4096 <= sys < 2 ^ 63 -> Forall sizes os -> wrun sys world0 os = Ok w -> hooks (w_reg w) = if existsb is_new os then 1%nat else 0%nat.
Proof. intros sys os w S F E. destruct (run_inv sys S os world0 F inv0) as (w' & E' & _ & H). assert (w' = w) as <- by congruence. exact H. Qed.
Print Assumptions C59_hook.

Lemma release_loop_ok held : forall l r, NoDup (map addr (plist r)) -> NoDup l -> incl l (map addr (plist r)) -> (forall e, In e (plist r) -> pool_ok (body e) (held (addr e))) ->
  exists r', release_loop l r = Ok r' /\ map addr (plist r') = filter (fun a => negb (existsb (Nat.eqb a) l) || negb (match held a with [] => true | _ => false end)) (map addr (plist r)) /\
    (forall e, In e (plist r') -> pool_ok (body e) (held (addr e))).
Proof.
  induction l as [|a l IH]; intros r ND NL IC OKS; cbn [release_loop existsb negb orb].
  { exists r. split; [reflexivity|]. split; [|exact OKS]. clear. induction (map addr (plist r)) as [|x m IHm]; cbn [filter]; [reflexivity|]. now rewrite <- IHm. }
  inversion NL as [|? ? N1 N2]; subst.
  assert (I : In a (map addr (plist r))) by (apply IC; now left).
  destruct (find (plist r) a) as [e|] eqn:FD; [|now apply find_none in FD]. destruct (find_some _ _ _ FD) as [Ie A]. pose proof (OKS e Ie) as K. rewrite A in K.
  destruct (destroy_ok r held a e ND FD K) as [D1 D2]. destruct (held a) as [|x h] eqn:HD.
  - rewrite (D1 eq_refl). cbn [obind]. destruct (IH (mkreg (remove (plist r) a) (hooks r))) as (r' & E & M & O); cbn [plist].
    + rewrite remove_addr. now apply NoDup_filter.
    + exact N2.
    + intros b Ib. rewrite remove_addr. apply filter_In. split; [apply IC; now right|]. apply negb_true_iff, Nat.eqb_neq. intros ->. contradiction.
    + intros y Iy. apply filter_In in Iy. now apply OKS.
    + exists r'. split; [exact E|]. split; [|exact O]. rewrite M. cbn [plist]. rewrite remove_addr. clear - HD. induction (map addr (plist r)) as [|b m IHm]; [reflexivity|]. cbn [filter].
      destruct (Nat.eqb_spec b a) as [->|NE]; cbn [negb orb filter]; [rewrite HD; cbn [negb]; exact IHm|]. rewrite IHm. reflexivity.
  - destruct D2 as (p' & E & K'); [discriminate|]. rewrite E. cbn [obind]. destruct (IH (mkreg (put (plist r) a p') (hooks r))) as (r' & E' & M & O); cbn [plist].
    + now rewrite put_addr.
    + exact N2.
    + intros b Ib. rewrite put_addr. apply IC. now right.
    + intros y Iy. apply in_put in Iy. destruct Iy as [(_ & Iy)|(B & B2 & _)]; [now apply OKS|]. rewrite B, B2, HD. exact K'.
    + exists r'. split; [exact E'|]. split; [|exact O]. rewrite M. cbn [plist]. rewrite put_addr. apply filter_ext. intros b. destruct (Nat.eqb_spec b a) as [->|NE]; cbn [orb negb]; [|reflexivity]. rewrite HD. cbn [negb]. apply orb_true_r.
Qed.
Theorem C59_exit : forall sys w, 4096 <= sys < 2 ^ 63 -> reachable sys w -> exists r', at_exit (w_reg w) = Ok r' /\
  map addr (plist r') = filter (fun a => match w_held w a with [] => false | _ => true end) (map fst (living (w_log w))) /\
  (forall a e, find (plist r') a = Some e -> pool_ok (body e) (w_held w a)).
Proof.
  intros sys w S R. destruct (reachable_inv sys w S R) as [ND OKS LG H0 H1].
  assert (MA : map fst (living (w_log w)) = map addr (plist (w_reg w))) by (rewrite <- LG, map_map; reflexivity). rewrite MA. unfold at_exit.
  destruct (Nat.eqb_spec (hooks (w_reg w)) 0) as [Z|Z].
  { exists (w_reg w). split; [reflexivity|]. rewrite (H0 Z). split; [reflexivity|]. cbn. discriminate. }
  destruct (release_loop_ok (w_held w) (map addr (plist (w_reg w))) (w_reg w) ND ND (incl_refl _)) as (r' & E & M & O); [intros e I; now apply OKS|].
  exists r'. split; [exact E|]. split.
  - rewrite M. apply filter_ext_in. intros a I. replace (existsb (Nat.eqb a) (map addr (plist (w_reg w)))) with true.
    + cbn [negb orb]. now destruct (w_held w a).
    + symmetry. apply existsb_exists. exists a. split; [exact I|apply Nat.eqb_refl].
  - intros a e FD. destruct (find_some _ _ _ FD) as [I <-]. now apply O.
Qed.
Print Assumptions C59_exit.

(** when the pool cannot be allocated nothing changes, except that the exit handler is registered *)
Theorem C59_no_memory : forall sys r a mn mp n elts size cb fl x r', init sys r a false mn mp n elts size cb fl = Ok (x, r') -> x = None /\ plist r' = plist r /\ (hooks r <= hooks r')%nat.
Proof.
  intros sys r a mn mp n elts size cb fl x r' H. unfold init in H. apply obind_ok in H. destruct H as (c & _ & H). cbv zeta in H. cbn [negb] in H.
  assert (X : (x, r') = (None, mkreg (plist r) (match hooks r with O => 1%nat | h => h end))) by congruence. injection X as -> ->. split; [reflexivity|]. split; [reflexivity|]. cbn [hooks]. destruct (hooks r); lia.
Qed.
Print Assumptions C59_no_memory.
(** when the copy of the name cannot be allocated the pool has no name, and from then on, until it is destroyed, looking for a pool behind it is undefined behaviour *)
Theorem C59_name_refuted : exists r, init 4096 reg0 7 true false true (Some [97]) 10 40 None 0 = Ok (Some 7%nat, r) /\ get r (Some [97]) = UB /\ get r (Some [98]) = UB.
Proof. eexists. split; [vm_compute; reflexivity|]. split; reflexivity. Qed.
Print Assumptions C59_name_refuted.

(** non-vacuity: three pools, two of the same name, one without; the older of the two is busy, the unnamed one destroyed *)
Example C59_ex : exists w r', wrun 4096 world0 [New 5 true (Some [97]) 10 40 None 0; Use 5 [Alloc; Alloc]; New 9 true None 10 40 None 0; New 5 true (Some [98]) 1 1 None 0; New 6 true (Some [97]) 20 16 None 0;
    Destroy 5; Destroy 9; New 9 false (Some [99]) 10 40 None 0] = Ok w /\
  w_log w = [Created 5 [97]; Created 9 unknown; Created 6 [97]; Refused 5; Destroyed 9; NotCreated] /\ get (w_reg w) (Some [97]) = Ok (Some 5%nat) /\ get (w_reg w) (Some unknown) = Ok None /\
  get (w_reg w) (Some [97; 97]) = Ok None /\ at_exit (w_reg w) = Ok r' /\ map addr (plist r') = [5%nat].
Proof. eexists _, _. split; [vm_compute; reflexivity|]. repeat split. Qed.
