(** C60: zt_mem.c: a pool's figures, groups of pools, heaps.  [pool_ok p held] (MemProofs.v): [held] are the elements in use. *)
From Verif Require Import Prelude MemModel MemProofs MemPool RegModel RegSpec PropReg.
From Coq Require Import Permutation.
Open Scope Z_scope.

(** the pages of a pool with an element in use *)
Definition busy (held : list elt) (id : nat) : bool := existsb (fun e => (fst e =? id)%nat) held.

Lemma split_page (id : nat) (l : list elt) : length l = (length (of_page id l) + length (filter (fun e => negb (fst e =? id)%nat) l))%nat.
Proof. induction l as [|e l IH]; [reflexivity|]. unfold of_page in *. cbn [filter]. destruct (fst e =? id)%nat; cbn [negb length]; lia. Qed.
Lemma of_page_not (id i : nat) (l : list elt) : i <> id -> of_page i (filter (fun e => negb (fst e =? id)%nat) l) = of_page i l.
Proof.
  intros NE. induction l as [|e l IH]; [reflexivity|]. unfold of_page in *. cbn [filter]. destruct (Nat.eqb_spec (fst e) id) as [E|E]; cbn [negb].
  - rewrite IH. replace (fst e =? i)%nat with false by (symmetry; apply Nat.eqb_neq; congruence). reflexivity.
  - cbn [filter]. rewrite IH. reflexivity.
Qed.
Lemma count_pages : forall ids (l : list elt), NoDup ids -> (forall e, In e l -> In (fst e) ids) -> length l = list_sum (map (fun i => length (of_page i l)) ids).
Proof.
  induction ids as [|id ids IH]; intros l ND I; cbn [map list_sum fold_right].
  - destruct l as [|e l]; [reflexivity|]. destruct (I e (or_introl eq_refl)).
  - inversion ND as [|? ? N1 N2]; subst. pose proof (split_page id l) as SP.
    assert (J : forall e : elt, In e (filter (fun e : elt => negb (fst e =? id)%nat) l) -> In (fst e) ids).
    { intros e Ie. apply filter_In in Ie. destruct Ie as [Ie E]. destruct (I e Ie) as [F|F]; [|exact F]. rewrite F, Nat.eqb_refl in E. discriminate. }
    pose proof (IH _ N2 J) as Q. assert (M : map (fun i => length (of_page i (filter (fun e : elt => negb (fst e =? id)%nat) l))) ids = map (fun i => length (of_page i l)) ids).
    { apply map_ext_in. intros i Ii. rewrite of_page_not; [reflexivity|]. intros ->. contradiction. }
    rewrite M in Q. change (length l = (length (of_page id l) + list_sum (map (fun i => length (of_page i l)) ids))%nat). unfold elt in *. rewrite <- Q. exact SP.
Qed.
Lemma of_page_nil held id : of_page id held = [] <-> busy held id = false.
Proof.
  unfold of_page, busy. induction held as [|e l IH]; [tauto|]. cbn [filter existsb]. destruct (fst e =? id)%nat; cbn [orb]; [split; discriminate|exact IH].
Qed.
Lemma sum_fold : forall (pg : list (nat * Z)) s, fold_left (fun s x => s + snd x) pg s = s + fold_right Z.add 0 (map snd pg).
Proof. induction pg as [|x pg IH]; intros s; cbn [fold_left map fold_right]; [lia|]. rewrite IH. lia. Qed.
Lemma free_sum p held : pool_ok p held -> fold_left (fun s pg => s + snd pg) (pages p) 0 = Z.of_nat (length (frees p)).
Proof.
  intros K. rewrite sum_fold, (count_pages (map fst (pages p)) (frees p) (ok_ids _ _ K)).
  - pose proof (ok_count _ _ K) as C. induction (pages p) as [|x pg IH]; cbn [map fold_right list_sum]; [reflexivity|]. inversion C as [|? ? C1 C2]; subst. specialize (IH C2). cbn [map] in *. change (list_sum (?a :: ?b)) with (a + list_sum b)%nat.
    unfold list_sum in *. cbn [fold_right]. lia.
  - intros e I. assert (J : In e (elements p)) by (apply (Permutation_in e (ok_all _ _ K)); apply in_or_app; now left). now apply in_elements in J.
Qed.
Lemma full_iff p held pg : pool_ok p held -> In pg (pages p) -> full p pg = negb (busy held (fst pg)).
Proof.
  intros K I. assert (N : num_free (pages p) (fst pg) = Some (snd pg)) by (apply num_free_nodup; [exact (ok_ids _ _ K)|]; now destruct pg).
  destruct (ok_used p held _ _ K N) as [E _]. unfold full. pose proof (of_page_nil held (fst pg)) as O. destruct (busy held (fst pg)).
  - cbn [negb]. apply Z.eqb_neq. intros X. destruct (of_page (fst pg) held); [discriminate (proj1 O eq_refl)|cbn [length] in E; lia].
  - cbn [negb]. apply Z.eqb_eq. rewrite (proj2 O eq_refl) in E. cbn [length] in E. lia.
Qed.
Lemma filter_len {A} (f : A -> bool) l : length (filter (fun x => negb (f x)) l) = (length l - length (filter f l))%nat.
Proof. induction l as [|x l IH]; [reflexivity|]. cbn [filter]. assert (length (filter f l) <= length l)%nat by (clear; induction l as [|y m IH]; cbn [filter length]; [lia|destruct (f y); cbn [length]; lia]). destruct (f x); cbn [negb length]; lia. Qed.
Lemma nfree_pages p held : pool_ok p held -> nfree p = Z.of_nat (length (filter (fun id => negb (busy held id)) (map fst (pages p)))).
Proof.
  intros K. rewrite (ok_nfree _ _ K). f_equal. assert (G : forall l, incl l (pages p) -> length (filter (full p) l) = length (filter (fun id => negb (busy held id)) (map fst l))).
  { induction l as [|x l IH]; intros IC; [reflexivity|]. cbn [filter map]. rewrite (full_iff p held x K (IC x (or_introl eq_refl))). specialize (IH (fun y I => IC y (or_intror I))). destruct (negb (busy held (fst x))); cbn [length]; lia. }
  apply G, incl_refl.
Qed.

(** C60. zt_mem_pool_get_stats: 0 without a pool or without a place for the answer, otherwise 1 and the figures: the pages, those of them with nothing in use, what was asked for *)
Theorem C60_stats : forall p held, pool_ok p held -> get_stats None true = (0, None) /\ get_stats (Some p) false = (0, None) /\ exists s, get_stats (Some p) true = (1, Some s) /\
  s_pages s = Z.of_nat (length (pages p)) /\ s_free_pages s = Z.of_nat (length (filter (fun id => negb (busy held id)) (map fst (pages p)))) /\
  s_elt_size s = elt_size p /\ s_flags s = flags p /\ s_requested s = rcache p /\ s_actual s = ncache p /\ s_cached s = pcache p /\ s_page_size s = page_size p /\ s_allocs s = page_allocs p /\ s_frees s = page_frees p /\
  s_epp s * s_pages s = Z.of_nat (length (frees p) + length held).
Proof.
  intros p held K. split; [reflexivity|]. split; [reflexivity|]. eexists. split; [reflexivity|]. cbn [s_pages s_free_pages s_elt_size s_flags s_requested s_actual s_cached s_page_size s_allocs s_frees s_epp].
  split; [exact (ok_npages _ _ K)|]. split; [exact (nfree_pages p held K)|]. do 8 (split; [reflexivity|]). rewrite (ok_npages _ _ K). pose proof (Permutation_length (ok_all _ _ K)) as L. rewrite app_length in L. rewrite L.
  pose proof (ok_epp _ _ K). unfold elements. clear L. induction (pages p) as [|x pg IH]; cbn [flat_map length]; [lia|]. rewrite app_length, slots_length. lia.
Qed.
Print Assumptions C60_stats.

(** what zt_mem_pool_display prints, for a pool whose pages fit in the address space: all the elements, those not in use, the pages with an element in use, and the sizes *)
Theorem C60_display : forall p held, pool_ok p held -> page_size p < 2 ^ 64 -> page_size p * npages p < 2 ^ 64 ->
  shown p = (Z.of_nat (length (frees p) + length held), Z.of_nat (length (frees p)), Z.of_nat (length (filter (busy held) (map fst (pages p)))), (24 + elt_size p) * epp p, page_size p * Z.of_nat (length (pages p))).
Proof.
  intros p held K B0 B. pose proof (ok_npages _ _ K) as NP. assert (P1 : 0 <= npages p) by lia.
  destruct (ok_fits _ _ K) as (F1 & F2 & F3). pose proof (ok_epp _ _ K) as E1. unfold shown, u64. rewrite (free_sum p held K).
  pose proof (Permutation_length (ok_all _ _ K)) as L. rewrite app_length in L.
  assert (T : epp p * npages p = Z.of_nat (length (frees p) + length held)).
  { rewrite NP, L. unfold elements. clear - E1. induction (pages p) as [|x pg IH]; cbn [flat_map length]; [lia|]. rewrite app_length, slots_length. lia. }
  assert (PS : epp p * (24 + elt_size p) <= page_size p) by (unfold ELT, PAGE in *; lia).
  assert (LF : (length (filter (busy held) (map fst (pages p))) <= length (pages p))%nat).
  { rewrite <- (map_length fst (pages p)). generalize (map fst (pages p)). induction l as [|y m IH]; cbn [filter length]; [lia|destruct (busy held y); cbn [length]; lia]. }
  assert (NF : npages p - nfree p = Z.of_nat (length (filter (busy held) (map fst (pages p))))).
  { rewrite NP, (nfree_pages p held K). rewrite filter_len, map_length. lia. }
  assert (M1 : 1 <= epp p <= page_size p) by nia. assert (M2 : epp p * npages p <= page_size p * npages p) by nia. assert (M3 : npages p <= page_size p * npages p) by nia.
  rewrite NF. unfold ELT in *. rewrite (Z.mod_small (24 + elt_size p)) by lia. rewrite !Z.mod_small by (try split; try nia; lia). rewrite T, <- NP. reflexivity.
Qed.
Print Assumptions C60_display.

(** a list of pools, [held a] being the elements in use of the pool at a *)
Definition good (r : reg) (held : nat -> list elt) : Prop := NoDup (map addr (plist r)) /\ forall e, In e (plist r) -> pool_ok (body e) (held (addr e)).
Definition named (d : gdesc) : Prop := g_name d <> None.
Definition gsizes (d : gdesc) : Prop := 0 <= g_elts d < 2 ^ 63 /\ 0 <= g_size d /\ Z.max 1 (g_elts d) * (24 + g_size d) + 32 < 2 ^ 64.
(** the pool a descriptor asks for *)
Definition made (d : gdesc) (e : entry) : Prop := name e = g_name d /\ elt_size (body e) = g_size d /\ rcache (body e) = g_elts d /\ pool_ok (body e) [].

Lemma init_made sys r a d : 4096 <= sys < 2 ^ 63 -> gsizes d -> named d -> exists e h, init sys r a true true true (g_name d) (g_elts d) (g_size d) (g_test d) (g_flags d) = Ok (Some a, mkreg (plist r ++ [e]) h) /\ addr e = a /\ made d e.
Proof.
  intros S (F1 & F2 & F3) N. destruct (pool_init_ok sys (g_elts d) (g_size d) (g_test d) (g_flags d) S F1 F2 F3) as (p & E & K & SZ & _ & _ & RC & _).
  assert (C : exists c, calculate sys (if g_elts d =? 0 then 1 else g_elts d) (g_size d) = Ok c). { pose proof E as E'. unfold pool_init in E'. apply obind_ok in E'. destruct E' as (c & E' & _). now exists c. }
  destruct C as (c & C). unfold init. rewrite C. cbn [obind negb]. rewrite E. cbn [obind]. eexists _, _. split; [reflexivity|]. split; [reflexivity|]. unfold made. cbn [name body strdup_name]. split; [|auto].
  unfold named in N. destruct (g_name d); [reflexivity|congruence].
Qed.
Lemma group_loop_ok sys : 4096 <= sys < 2 ^ 63 -> forall ds addrs r before rest more, Forall named ds -> Forall gsizes ds -> length addrs = length ds ->
  exists new h, Forall2 made ds new /\ map addr new = addrs /\
    group_loop sys r (ds ++ rest) (map Some addrs ++ more) before = group_loop sys (mkreg (plist r ++ new) h) rest more (before ++ addrs).
Proof.
  intros S. induction ds as [|d ds IH]; intros [|a addrs] r before rest more N F L; cbn [length] in L; try discriminate; cbn [map app].
  - exists [], (hooks r). split; [constructor|]. split; [reflexivity|]. rewrite !app_nil_r. now destruct r.
  - inversion N as [|? ? N1 N2]; subst. inversion F as [|? ? F1 F2]; subst. cbn [group_loop]. destruct (g_name d) eqn:GN; [|now unfold named in N1]. rewrite <- GN.
    destruct (init_made sys r a d S F1 N1) as (e & h & E & A & M). rewrite E. cbn [obind].
    destruct (IH addrs (mkreg (plist r ++ [e]) h) (before ++ [a]) rest more N2 F2 ltac:(lia)) as (new & h' & M' & A' & E'). exists (e :: new), h'. split; [now constructor|]. split; [cbn [map]; congruence|].
    rewrite E'. cbn [plist]. now rewrite <- !app_assoc.
Qed.

(** zt_mem_pool_group_init, every descriptor with a name and every malloc succeeding: a pool for each descriptor, in order, known by its name like any other pool *)
Theorem C60_group_init : forall sys r ds addrs, 4096 <= sys < 2 ^ 63 -> Forall named ds -> Forall gsizes ds -> length addrs = length ds ->
  exists new r', group_init sys r ds (map Some addrs) = Ok (Some (map Some addrs), r') /\ plist r' = plist r ++ new /\ map addr new = addrs /\ Forall2 made ds new.
Proof.
  intros sys r ds addrs S N F L. destruct (group_loop_ok sys S ds addrs r [] [] [] N F L) as (new & h & M & A & E). unfold group_init. rewrite !app_nil_r in E. rewrite E. cbn [group_loop app].
  eexists new, _. split; [reflexivity|]. auto.
Qed.
Print Assumptions C60_group_init.

Lemma remove_last l x : ~ In (addr x) (map addr l) -> remove (l ++ [x]) (addr x) = l.
Proof.
  intros N. unfold remove. rewrite filter_app. cbn [filter]. rewrite Nat.eqb_refl. cbn [negb]. rewrite app_nil_r. induction l as [|y l IH]; [reflexivity|]. cbn [filter map In] in *.
  destruct (Nat.eqb_spec (addr y) (addr x)); [tauto|]. cbn [negb]. f_equal. apply IH. tauto.
Qed.
Lemma back_out_S i ps r : back_out (S i) ps r = if (i =? 0)%nat then Ok r else match nth_error ps i with None => UB | Some a => ' (_, r) <- destroy r a ;; back_out i ps r end.
Proof. reflexivity. Qed.
Lemma back_out_ok e0 old h : forall more tail, NoDup (map addr (old ++ e0 :: more)) -> (forall e, In e more -> pool_ok (body e) []) ->
  back_out (S (length more)) (addr e0 :: map addr more ++ tail) (mkreg (old ++ e0 :: more) h) = Ok (mkreg (old ++ [e0]) h).
Proof.
  induction more as [|x m IH] using rev_ind; intros tail ND K; [reflexivity|]. rewrite app_length. cbn [length]. rewrite Nat.add_1_r. rewrite back_out_S. cbn [Nat.eqb nth_error].
  rewrite map_app, <- app_assoc. cbn [map app]. rewrite nth_error_app2 by (rewrite map_length; lia). rewrite map_length, Nat.sub_diag. cbn [nth_error].
  change (e0 :: m ++ [x]) with ((e0 :: m) ++ [x]) in *. rewrite app_assoc in *. rewrite map_app in ND. cbn [map] in ND.
  assert (NI : ~ In (addr x) (map addr (old ++ e0 :: m))). { apply NoDup_remove_2 in ND. now rewrite app_nil_r in ND. }
  unfold destroy at 1. cbn [plist hooks]. rewrite (find_in _ x); [|rewrite map_app; exact ND|apply in_or_app; right; now left].
  assert (Kx : pool_ok (body x) []) by (apply K, in_or_app; right; now left). rewrite (proj1 (pool_destroy_ok (body x) [] Kx)) by reflexivity. cbn [obind]. rewrite remove_last by exact NI.
  rewrite IH; [reflexivity| |].
  - apply NoDup_remove_1 in ND. now rewrite app_nil_r in ND.
  - intros e I. apply K. apply in_or_app. now left.
Qed.
(** when malloc fails for a later pool the group is given up: NULL, and the pools made are destroyed again, except the first, which stays in the list of all pools with nobody to destroy it but the exit handler *)
Theorem C60_group_back_out_refuted : forall sys r ds d ds' a addrs more, 4096 <= sys < 2 ^ 63 -> Forall named (ds ++ [d]) -> Forall gsizes (ds ++ [d]) -> length (a :: addrs) = length ds ->
  NoDup (map addr (plist r) ++ a :: addrs) ->
  exists e r', group_init sys r (ds ++ d :: ds') (map Some (a :: addrs) ++ None :: more) = Ok (None, r') /\ plist r' = plist r ++ [e] /\ addr e = a.
Proof.
  intros sys r ds d ds' a addrs more S N F L ND. apply Forall_app in N. destruct N as [N1 N2]. apply Forall_app in F. destruct F as [F1 F2]. inversion N2 as [|? ? Nd _]; subst. inversion F2 as [|? ? Fd _]; subst.
  destruct (group_loop_ok sys S ds (a :: addrs) r [] (d :: ds') (None :: more) N1 F1 L) as (new & h & M & A & E). unfold group_init. rewrite E. cbn [app group_loop].
  destruct (g_name d) eqn:GN; [|now unfold named in Nd]. destruct (init_made sys (mkreg (plist r ++ new) h) 0%nat d S Fd Nd) as (e' & h' & E' & _). unfold init in E' |- *. rewrite <- GN.
  destruct (calculate sys (if g_elts d =? 0 then 1 else g_elts d) (g_size d)) as [c| | |] eqn:C; try discriminate E'. cbn [obind negb plist hooks]. clear E'.
  destruct new as [|e0 m]; cbn [map] in A; [discriminate|]. injection A as A0 A1. cbn [length]. rewrite <- A0 in *. rewrite <- A1 in *.
  rewrite map_length. assert (KK : forall e, In e m -> pool_ok (body e) []).
  { intros e I. clear - M I. assert (G : forall l k, Forall2 made l k -> forall x, In x k -> pool_ok (body x) []) by (induction 1; cbn [In]; [tauto|intros z [<-|J]; [apply H|now apply IHForall2]]). apply (G _ _ M). now right. }
  pose proof (back_out_ok e0 (plist r) (match h with O => 1%nat | h => h end) m []) as B. rewrite app_nil_r in B. replace (match h with O => 1%nat | Datatypes.S n => Datatypes.S n end) with (match h with O => 1%nat | h => h end) by (now destruct h). rewrite B; [|rewrite map_app; exact ND|exact KK].
  cbn [obind]. eexists e0, _. split; [reflexivity|]. split; reflexivity.
Qed.
Print Assumptions C60_group_back_out_refuted.
(** when it fails for the first pool the loop starts below 0 *)
Theorem C60_group_first_refuted : forall sys r d ds more, 4096 <= sys < 2 ^ 63 -> named d -> gsizes d -> group_init sys r (d :: ds) (None :: more) = UB.
Proof.
  intros sys r d ds more S N F. unfold group_init. cbn [group_loop]. destruct (g_name d) eqn:GN; [|now unfold named in N]. destruct (init_made sys r 0%nat d S F N) as (e' & h' & E' & _). unfold init in E' |- *. rewrite <- GN.
  destruct (calculate sys (if g_elts d =? 0 then 1 else g_elts d) (g_size d)) as [c| | |] eqn:C; try discriminate E'. reflexivity.
Qed.
Print Assumptions C60_group_first_refuted.

(** zt_mem_pool_group_destroy: 0 when no element of any of its pools is held, -1 otherwise; every pool with nothing held is gone, the others stay in the list of all pools, consistent, but no longer in a group *)
Theorem C60_group_destroy : forall r held addrs, good r held -> NoDup addrs -> incl addrs (map addr (plist r)) -> exists rc r', group_destroy r (map Some addrs) 0 = Ok (rc, r') /\
  (rc = 0 \/ rc = -1) /\ (rc = 0 <-> forall a, In a addrs -> held a = []) /\
  (forall a, In a (map addr (plist r')) <-> In a (map addr (plist r)) /\ (In a addrs -> held a <> [])) /\ good r' held.
Proof.
  intros r held addrs G ND IC.
  assert (X : forall addrs r ret, good r held -> NoDup addrs -> incl addrs (map addr (plist r)) -> exists r', group_destroy r (map Some addrs) ret = Ok (if forallb (fun a => match held a with [] => true | _ => false end) addrs then ret else -1, r') /\
    (forall a, In a (map addr (plist r')) <-> In a (map addr (plist r)) /\ (In a addrs -> held a <> [])) /\ good r' held).
  { clear r addrs G ND IC. induction addrs as [|a addrs IH]; intros r ret G ND IC; cbn [map group_destroy forallb].
    - exists r. split; [reflexivity|]. split; [cbn [In]; tauto|exact G].
    - inversion ND as [|? ? N1 N2]; subst. destruct G as [GN GK]. assert (I : In a (map addr (plist r))) by (apply IC; now left).
      destruct (find (plist r) a) as [e|] eqn:FD; [|now apply find_none in FD]. destruct (find_some _ _ _ FD) as [Ie A]. pose proof (GK e Ie) as K. rewrite A in K.
      destruct (destroy_ok r held a e GN FD K) as [D1 D2]. destruct (held a) as [|x h] eqn:HD.
      + rewrite (D1 eq_refl). cbn [obind Z.eqb andb]. destruct (IH (mkreg (remove (plist r) a) (hooks r)) ret) as (r' & E & M & O).
        * split; cbn [plist]; [rewrite remove_addr; now apply NoDup_filter|]. intros y Iy. apply filter_In in Iy. now apply GK.
        * exact N2.
        * intros b Ib. cbn [plist]. rewrite remove_addr. apply filter_In. split; [apply IC; now right|]. apply negb_true_iff, Nat.eqb_neq. intros ->. contradiction.
        * exists r'. split; [exact E|]. split; [|exact O]. intros b. rewrite M. cbn [plist In]. rewrite remove_addr, filter_In, negb_true_iff, Nat.eqb_neq. split.
          -- intros ((B1 & B2) & B3). split; [exact B1|]. intros [B|B]; [congruence|now apply B3].
          -- intros (B1 & B2). split; [split; [exact B1|]|intros B; apply B2; now right]. intros ->. now apply (B2 (or_introl eq_refl)).
      + destruct D2 as (p' & E & K'); [discriminate|]. rewrite E. cbn [obind Z.eqb andb]. destruct (IH (mkreg (put (plist r) a p') (hooks r)) (-1)) as (r' & E' & M & O).
        * split; cbn [plist]; [now rewrite put_addr|]. intros y Iy. apply in_put in Iy. destruct Iy as [(_ & Iy)|(B & B2 & _)]; [now apply GK|]. rewrite B, B2, HD. exact K'.
        * exact N2.
        * intros b Ib. cbn [plist]. rewrite put_addr. apply IC. now right.
        * exists r'. split; [rewrite E'; now destruct (forallb _ addrs)|]. split; [|exact O]. intros b. rewrite M. cbn [plist In]. rewrite put_addr. split.
          -- intros (B1 & B2). split; [exact B1|]. intros [<-|B]; [congruence|now apply B2].
          -- intros (B1 & B2). split; [exact B1|]. intros B. apply B2. now right. }
  destruct (X addrs r 0 G ND IC) as (r' & E & M & O). eexists _, r'. split; [exact E|]. split; [destruct (forallb _ addrs); auto|]. split; [|auto].
  destruct (forallb (fun a => match held a with [] => true | _ => false end) addrs) eqn:FB.
  - rewrite forallb_forall in FB. split; [|reflexivity]. intros _ a Ia. specialize (FB a Ia). now destruct (held a).
  - split; [discriminate|]. intros Q. assert (FB' : forallb (fun a => match held a with [] => true | _ => false end) addrs = true) by (apply forallb_forall; intros a Ia; now rewrite (Q a Ia)). congruence.
Qed.
Print Assumptions C60_group_destroy.
(** a group with fewer named descriptors than its length cannot be destroyed *)
Theorem C60_group_short_refuted : forall sys r d ds a ms, 4096 <= sys < 2 ^ 63 -> named d -> gsizes d -> NoDup (a :: map addr (plist r)) -> ds <> [] -> length ds = length ms -> Forall (fun d => g_name d = None) ds ->
  exists g r', group_init sys r (d :: ds) (Some a :: ms) = Ok (Some g, r') /\ group_destroy r' g 0 = UB.
Proof.
  intros sys r d ds a ms S N F ND NE L U. destruct ds as [|d2 ds]; [congruence|]. destruct ms as [|m ms]; [discriminate|]. destruct (group_loop_ok sys S [d] [a] r [] (d2 :: ds) (m :: ms) (Forall_cons _ N (Forall_nil _)) (Forall_cons _ F (Forall_nil _)) eq_refl) as (new & h & M & A & E).
  cbn [map app] in E. unfold group_init. rewrite E. inversion U as [|? ? U1 _]; subst. cbn [group_loop]. rewrite U1. eexists _, _. split; [reflexivity|]. cbn [map app group_destroy].
  inversion M as [|? e ? ? M1 M2]; subst. inversion M2; subst. cbn [map] in A. injection A as A. destruct M1 as (_ & _ & _ & K). unfold destroy. cbn [plist hooks].
  rewrite <- A, (find_in _ e); [|rewrite map_app; cbn [map]; rewrite A; apply (Permutation_NoDup (l := a :: map addr (plist r))); [apply Permutation_cons_append|exact ND]|apply in_or_app; right; now left].
  now rewrite (proj1 (pool_destroy_ok (body e) [] K)).
Qed.
Print Assumptions C60_group_short_refuted.

(** heaps: the data lie behind the header inside the block asked for, the name is the one given or *unknown*; destroying clears the caller's pointer, and NULL is accepted *)
Theorem C60_heap : forall n size, 0 <= size < 2 ^ 64 - 16 -> exists h, heap_init true true n size = Some h /\
  heap_name (Some h) = Some (match n with Some n => n | None => [42; 117; 110; 107; 110; 111; 119; 110; 42] end) /\
  (exists o, heap_data (Some h) = Ok o /\ 16 <= o /\ o mod 8 = 0 /\ o + size <= h_block h) /\ h_size h = size /\ heap_destroy (Some (Some h)) = Ok (Some None) /\ heap_destroy None = Ok None /\ heap_name None = None /\
  heap_init false true n size = None.
Proof.
  intros n size B. eexists. split; [reflexivity|]. cbn [heap_name h_name strdup_name h_block h_size heap_data heap_destroy]. split; [now destruct n|]. split; [|auto 10].
  exists 16. unfold u64, HEAP. rewrite (Z.mod_small (16 + size)) by lia. split; [reflexivity|]. split; [lia|]. split; [reflexivity|lia].
Qed.
Print Assumptions C60_heap.
(** a size that does not fit with the header gives a heap smaller than asked for; destroying twice through the same pointer, and the data of no heap, are undefined *)
Theorem C60_heap_refuted : (exists h, heap_init true true None (2 ^ 64 - 8) = Some h /\ h_block h < h_size h) /\ heap_destroy (Some None) = UB /\ heap_data None = UB.
Proof. split; [eexists; split; [reflexivity|]; vm_compute; reflexivity|]. auto. Qed.
Print Assumptions C60_heap_refuted.

Definition ex_desc (c size : Z) : gdesc := mkgdesc (Some [c]) 10 size None 0.
Example C60_ex : exists r g, group_init 4096 reg0 [ex_desc 97 16; ex_desc 98 64] [Some 3%nat; Some 4%nat] = Ok (Some g, r) /\ g = [Some 3%nat; Some 4%nat] /\ get r (Some [98]) = Ok (Some 4%nat) /\
  (exists r', group_destroy r g 0 = Ok (0, r') /\ plist r' = []) /\ Forall named [ex_desc 97 16; ex_desc 98 64] /\ Forall gsizes [ex_desc 97 16; ex_desc 98 64] /\
  (exists e r', group_init 4096 reg0 [ex_desc 97 16; ex_desc 98 64] [Some 3%nat; None] = Ok (None, r') /\ plist r' = [e] /\ get r' (Some [97]) = Ok (Some 3%nat)).
Proof.
  eexists _, _. split; [vm_compute; reflexivity|]. split; [reflexivity|]. split; [reflexivity|]. split; [eexists; split; [vm_compute; reflexivity|reflexivity]|].
  split; [repeat constructor; discriminate|]. split; [constructor; [|constructor; [|constructor]]; unfold gsizes; cbn [ex_desc g_elts g_size]; lia|]. eexists _, _. split; [vm_compute; reflexivity|]. split; reflexivity.
Qed.
Example C60_stats_ex : exists p p1 held, pool_init 4096 true 130 40 None 1 = Ok p /\ run p [] (repeat Alloc 64) = Ok (p1, held) /\ length held = 64%nat /\
  shown p1 = (126, 62, 2, 4032, 8192) /\ (exists s, get_stats (Some p1) true = (1, Some s) /\ s_pages s = 2 /\ s_free_pages s = 0 /\ s_epp s = 63).
Proof. eexists _, _, _. split; [vm_compute; reflexivity|]. split; [vm_compute; reflexivity|]. split; [reflexivity|]. split; [vm_compute; reflexivity|]. eexists. split; [reflexivity|]. repeat split. Qed.
