(** C27: zt_mem.c.  Specification: [pool_ok p out] (MemProofs.v): [out] being the elements in use, every element (page, slot) with slot < elements per page of every page of the
    pool is either on the free list or in use, exactly once; num_free_elts, nfree_pages and npages count what they say; the elements of a page fit in it.
    sys is the system page size. *)
From Verif Require Import Prelude MemModel MemProofs MemPool.
From Coq Require Import Permutation.
Open Scope Z_scope.

(** a new pool is consistent and nothing is in use, for every element size and count whose page size fits in a size_t *)
Theorem C27_init : forall sys elts size cb fl, 4096 <= sys < 2 ^ 63 -> 0 <= elts < 2 ^ 63 -> 0 <= size -> Z.max 1 elts * (ELT + size) + PAGE < 2 ^ 64 ->
  exists p, pool_init sys true elts size cb fl = Ok p /\ pool_ok p [] /\ elt_size p = size /\ page_allocs p = npages p /\ page_frees p = 0 /\ rcache p = elts /\ 1 <= npages p.
Proof. exact pool_init_ok. Qed.
Print Assumptions C27_init.
(** alloc: the element was not in use, it belongs to a page of the pool, no page is lost; if an element was free no page is added *)
Theorem C27_alloc : forall p out, pool_ok p out -> exists p' e, pool_alloc true p = Ok (p', e) /\ pool_ok p' (e :: out) /\ ~ In e out /\
    In (fst e) (map fst (pages p')) /\ Z.of_nat (snd e) < epp p' /\ incl (map fst (pages p)) (map fst (pages p')) /\ (frees p <> [] -> map fst (pages p') = map fst (pages p)).
Proof.
  intros p out K. destruct (alloc_ok true p out K (or_introl eq_refl)) as (p' & e & E & K' & NI & I & IC & FR). exists p', e. apply in_elements in I. destruct I as [I1 I2].
  split; [exact E|]. split; [exact K'|]. split; [exact NI|]. split; [exact I1|]. split; [exact I2|]. split; [exact IC|]. intros NE. destruct (frees p) as [|f fr]; [congruence|]. now destruct (FR f fr eq_refl).
Qed.
Print Assumptions C27_alloc.
(** release of an element in use: it is out of use; either the page stays and the element is the next to be handed out, or no element of the page was in use any
    more, the release test said yes, and exactly that page is given back *)
Theorem C27_release : forall p o1 e o2, pool_ok p (o1 ++ e :: o2) -> exists p', pool_release p e = Ok p' /\ pool_ok p' (o1 ++ o2) /\
  ((map fst (pages p') = map fst (pages p) /\ exists p'', pool_alloc true p' = Ok (p'', e))
   \/ ((forall x, In x (o1 ++ o2) -> fst x <> fst e) /\ map fst (pages p') = filter (fun i => negb (i =? fst e)%nat) (map fst (pages p)) /\
       exists nf np, test p (rcache p) (u64 (ncache p * nf)) (u64 (ncache p * (np - nf))) (flags p) = true)).
Proof.
  intros p o1 e o2 K. destruct (release_ok p o1 e o2 K) as (p' & E & K' & _ & [(F & PG & _)|(AF & PG & _ & T)]); exists p'; (split; [exact E|split; [exact K'|]]); [left|right; auto].
  split; [exact PG|]. destruct (alloc_ok true p' (o1 ++ o2) K' (or_introl eq_refl)) as (p2 & e2 & E2 & _ & _ & _ & _ & FR). destruct (FR e (frees p) F) as [-> _]. now exists p2.
Qed.
Print Assumptions C27_release.
(** every history of alloc, release and release_free_pages: no undefined behaviour, and afterwards no element is held twice, each is a slot of a live page, and the
    pool is consistent *)
Theorem C27_history : forall os p out, pool_ok p out -> exists p' out', run p out os = Ok (p', out') /\ pool_ok p' out' /\ NoDup out' /\
  (forall e, In e out' -> In (fst e) (map fst (pages p')) /\ Z.of_nat (snd e) < epp p' /\ ~ In e (frees p')).
Proof.
  intros os p out K. destruct (run_ok os p out K) as (p' & out' & E & K'). exists p', out'. split; [exact E|]. split; [exact K'|]. pose proof (ok_nodup _ _ K') as ND.
  split; [clear - ND; induction (frees p') as [|x l IH]; [exact ND|]; inversion ND; subst; now apply IH|]. intros e I.
  assert (J : In e (elements p')) by (eapply Permutation_in; [apply (ok_all _ _ K')|]; apply in_or_app; now right). apply in_elements in J. destruct J as [J1 J2]. split; [exact J1|]. split; [exact J2|].
  intros F. clear - ND I F. induction (frees p') as [|x l IH]; [destruct F|]. cbn [app] in ND. apply NoDup_cons_iff in ND. destruct ND as [NI ND]. destruct F as [->|F]; [apply NI, in_or_app; now right|now apply IH].
Qed.
Print Assumptions C27_history.
(** different elements are disjoint blocks of elt_size bytes inside their page (in different pages they are in different blocks of malloc) *)
Theorem C27_layout : forall p out e, pool_ok p out -> In (fst e) (map fst (pages p)) -> Z.of_nat (snd e) < epp p ->
  PAGE + ELT <= offset p e /\ offset p e + elt_size p <= page_size p /\
  forall f, fst f = fst e -> snd f <> snd e -> Z.of_nat (snd f) < epp p -> offset p f + elt_size p <= offset p e - ELT \/ offset p e + elt_size p <= offset p f - ELT.
Proof.
  intros p out e K I L. pose proof (ok_fits _ _ K) as (F1 & F2 & F3). unfold offset. unfold u64. rewrite Z.mod_small by (unfold ELT in *; lia). split; [unfold ELT in *; nia|]. split; [unfold ELT, PAGE in *; nia|].
  intros f _ NE LF. unfold ELT in *. destruct (Nat.lt_ge_cases (snd f) (snd e)) as [LT|GE]; [left|right]; [assert (Z.of_nat (snd f) + 1 <= Z.of_nat (snd e)) by lia|assert (Z.of_nat (snd e) + 1 <= Z.of_nat (snd f)) by lia]; nia.
Qed.
Print Assumptions C27_layout.
(** release_free_pages gives back exactly the pages without an element in use *)
Theorem C27_trim : forall p out, pool_ok p out -> exists p', release_free_pages p = Ok p' /\ pool_ok p' out /\
  map fst (pages p') = filter (fun id => existsb (fun e => (fst e =? id)%nat) out) (map fst (pages p)).
Proof. intros p out K. destruct (release_free_pages_ok p out K) as (p' & A & B & C & _). exists p'. auto. Qed.
Print Assumptions C27_trim.
(** destroy: succeeds exactly when nothing is in use; otherwise it returns -1 and the pool remains consistent with the same elements in use *)
Theorem C27_destroy : forall p out, pool_ok p out -> (out = [] -> pool_destroy p = Ok (0, None)) /\ (out <> [] -> exists p', pool_destroy p = Ok (-1, Some p') /\ pool_ok p' out).
Proof. exact pool_destroy_ok. Qed.
Print Assumptions C27_destroy.
(** with alloc and release only, pages allocated minus pages freed is the number of pages *)
Theorem C27_accounting : forall os p out p' out', pool_ok p out -> page_allocs p - page_frees p = npages p -> Forall (fun o => o <> Trim) os -> run p out os = Ok (p', out') ->
  page_allocs p' - page_frees p' = npages p' /\ npages p' = Z.of_nat (length (pages p')).
Proof.
  intros os p out p' out' K B NT H. pose proof (run_balance os NT p out p' out' K H) as E. unfold balance in E. split; [lia|]. destruct (run_ok os p out K) as (q & o & E' & K'). assert (q = p') by congruence. subst q. apply (ok_npages _ _ K').
Qed.
Print Assumptions C27_accounting.
(** the default release test: pages are given back unless POOL_NEVER_FREE (bit 0) is set; with it no release ever gives back a page *)
Theorem C27_never_free : forall p o1 e o2 p', pool_ok p (o1 ++ e :: o2) -> test p = (fun _ _ _ f => negb (Z.odd f)) -> Z.odd (flags p) = true -> pool_release p e = Ok p' -> map fst (pages p') = map fst (pages p).
Proof.
  intros p o1 e o2 p' K T F E. destruct (release_ok p o1 e o2 K) as (q & E' & _ & _ & [(_ & PG & _)|(_ & _ & _ & nf & np & TT)]); [now assert (q = p') as <- by congruence|]. rewrite T, F in TT. discriminate.
Qed.
Print Assumptions C27_never_free.
(** groups: the first pool large enough serves the request *)
Theorem C27_group : forall m g size i p e, group_alloc m g size = Ok (i, p, e) ->
  exists q, nth_error g i = Some (Some q) /\ size <= elt_size q /\ pool_alloc m q = Ok (p, e) /\ forall j r, (j < i)%nat -> nth_error g j = Some (Some r) -> elt_size r < size.
Proof. exact group_alloc_first. Qed.
Print Assumptions C27_group.

(** what does not hold *)
Definition small : outcome pool := pool_init 4096 true 100 40 None 0.
(** "actual elements in cache" is not the number of elements: 126 are reported, 63 exist, 100 were requested *)
Theorem C27_cache_refuted : exists p, small = Ok p /\ ncache p = 126 /\ length (frees p) = 63%nat /\ rcache p = 100.
Proof. eexists. split; [vm_compute; reflexivity|]. split; [vm_compute; reflexivity|]. split; vm_compute; reflexivity. Qed.
Print Assumptions C27_cache_refuted.
(** release_free_pages does not count the pages it frees *)
Theorem C27_trim_accounting_refuted : exists p p', small = Ok p /\ release_free_pages p = Ok p' /\ pages p' = [] /\ page_allocs p' = 1 /\ page_frees p' = 0.
Proof. eexists _, _. split; [vm_compute; reflexivity|]. split; [vm_compute; reflexivity|]. split; [vm_compute; reflexivity|]. split; vm_compute; reflexivity. Qed.
Print Assumptions C27_trim_accounting_refuted.
(** a failed destroy has already given back pages *)
Theorem C27_destroy_atomic_refuted : exists p p1 e p2 p3 p4, pool_init 4096 true 130 40 None 1 = Ok p /\ length (pages p) = 2%nat /\ run p [] (repeat Alloc 64) = Ok (p1, e) /\
  run p1 e (repeat (Release 1) 63) = Ok (p2, p3) /\ pool_destroy p2 = Ok (-1, Some p4) /\ length (pages p2) = 2%nat /\ length (pages p4) = 1%nat.
Proof. eexists _, _, _, _, _, _. split; [vm_compute; reflexivity|]. split; [vm_compute; reflexivity|]. split; [vm_compute; reflexivity|]. split; [vm_compute; reflexivity|]. split; [vm_compute; reflexivity|]. split; vm_compute; reflexivity. Qed.
Print Assumptions C27_destroy_atomic_refuted.
(** element sizes whose page does not fit in a size_t: the page is too small for its elements *)
Theorem C27_overflow_refuted : pool_init 4096 true 2 (2 ^ 63 - 24) None 0 = UB.
Proof. vm_compute. reflexivity. Qed.
Print Assumptions C27_overflow_refuted.
(** the block returned is aligned for a pointer when the size is a multiple of 8, and need not be otherwise *)
Theorem C27_alignment : forall p e, 0 <= elt_size p -> ELT + elt_size p < 2 ^ 64 -> elt_size p mod 8 = 0 -> offset p e mod 8 = 0.
Proof.
  intros p e Z0 B M. unfold offset, u64. rewrite (Z.mod_small (ELT + elt_size p)) by (unfold ELT in *; lia). apply Z.mod_divide; [lia|]. apply Z.mod_divide in M; [|lia]. destruct M as [q M]. rewrite M. exists (4 + Z.of_nat (snd e) * (3 + q) + 3). unfold PAGE, ELT. ring.
Qed.
Print Assumptions C27_alignment.
Theorem C27_alignment_refuted : exists p, pool_init 4096 true 10 5 None 0 = Ok p /\ In (0%nat, 1%nat) (frees p) /\ offset p (0%nat, 1%nat) mod 8 <> 0.
Proof. eexists. split; [vm_compute; reflexivity|]. split; [cbn; tauto|]. vm_compute. discriminate. Qed.
Print Assumptions C27_alignment_refuted.
(** a failing malloc is not noticed *)
Theorem C27_out_of_memory_refuted : forall p, frees p = [] -> pool_alloc false p = UB.
Proof. intros p E. unfold pool_alloc. now rewrite E. Qed.
Print Assumptions C27_out_of_memory_refuted.
(** a group is not searched for the closest size, and a group whose descriptors end early is read past its pools *)
Theorem C27_group_closest_refuted : exists a b p e, pool_init 4096 true 1 64 None 0 = Ok a /\ pool_init 4096 true 1 16 None 0 = Ok b /\ group_alloc true [Some a; Some b] 16 = Ok (0%nat, p, e) /\ elt_size b = 16 /\ elt_size p = 64.
Proof. eexists _, _, _, _. split; [vm_compute; reflexivity|]. split; [vm_compute; reflexivity|]. split; [vm_compute; reflexivity|]. split; vm_compute; reflexivity. Qed.
Print Assumptions C27_group_closest_refuted.
Theorem C27_group_unnamed_refuted : exists g, group_init 4096 [mkdesc true 1 16 None 0; mkdesc false 0 0 None 0] = Ok g /\ group_alloc true g 32 = UB.
Proof. eexists. split; [vm_compute; reflexivity|]. vm_compute. reflexivity. Qed.
Print Assumptions C27_group_unnamed_refuted.

(** non-vacuity *)
Example history_case : exists p p' out', pool_init 4096 true 3 1000 None 0 = Ok p /\ run p [] [Alloc; Alloc; Alloc; Alloc; Alloc; Release 2; Release 1; Alloc; Trim; Release 0] = Ok (p', out') /\ out' = [(1%nat, 1%nat); (0%nat, 1%nat); (0%nat, 0%nat)] /\ npages p' = 2 /\ nfree p' = 0.
Proof. eexists _, _, _. split; [vm_compute; reflexivity|]. split; [vm_compute; reflexivity|]. split; [vm_compute; reflexivity|]. split; vm_compute; reflexivity. Qed.
Example init_case : Z.max 1 100 * (ELT + 40) + PAGE < 2 ^ 64. Proof. reflexivity. Qed.
