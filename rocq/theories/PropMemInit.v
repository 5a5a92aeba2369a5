(** C27, initial state of a pool and of a group of pools (zt_mem.c:139-251, 556-569), added because mutants of these values survived. *)
From Verif Require Import Prelude MemModel MemProofs MemPool.
Open Scope Z_scope.

Lemma new_pages_keep n : forall p p', new_pages true n p = Ok p' ->
  page_size p' = page_size p /\ test p' = test p /\ flags p' = flags p.
Proof.
  induction n as [|n IH]; intros p p' H; cbn [new_pages] in H.
  - assert (p' = p) as -> by congruence. auto.
  - destruct (new_page true p) as [p1| | |] eqn:E; cbn [obind] in H; try discriminate.
    destruct (IH _ _ H) as (A & B & C). rewrite A, B, C.
    unfold new_page, page_alloc in E. cbn [negb] in E.
    destruct (safe _) eqn:S in E; cbn [obind] in E; try discriminate.
    assert (X : p1 = p1) by reflexivity. 
    match type of E with Ok ?q = Ok _ => assert (Y : p1 = q) by congruence end. subst p1. cbn. auto.
Qed.

(** How the memory asked for is laid out: elements smaller than half a system page are packed, as many as fit, into pages of exactly one system page, and
    as many whole pages as [elts] fills (at least one) exist from the start; larger elements get one page with room for exactly [elts] of them.
    The release test sees as its cache target the smallest multiple of a page's element count that holds [elts]. *)
Theorem C27_init_pages : forall sys elts size cb fl p, 4096 <= sys < 2 ^ 63 -> 0 <= elts < 2 ^ 63 -> 0 <= size -> Z.max 1 elts * (ELT + size) + PAGE < 2 ^ 64 ->
  pool_init sys true elts size cb fl = Ok p ->
  npages p = Z.max 1 (Z.max 1 elts / epp p) /\ Z.of_nat (length (pages p)) = npages p /\
  (size < (sys - PAGE) / 2 -> page_size p = sys /\ PAGE + epp p * (ELT + size) <= sys < PAGE + (epp p + 1) * (ELT + size)) /\
  ((sys - PAGE) / 2 <= size -> epp p = Z.max 1 elts /\ page_size p = PAGE + epp p * (ELT + size)) /\
  (0 < elts -> elts <= ncache p < elts + epp p /\ ncache p mod epp p = 0) /\
  (forall f, cb = Some f -> test p = f) /\ (cb = None -> forall a b c n, test p a b c n = negb (Z.odd n)) /\ flags p = fl.
Proof.
  intros sys elts size cb fl p S E Z0 OV H.
  unfold pool_init in H. set (el := if elts =? 0 then 1 else elts) in *. assert (EL : el = Z.max 1 elts) by (unfold el; destruct (Z.eqb_spec elts 0); lia).
  assert (US : u64 (sys - PAGE) = sys - PAGE) by (apply Z.mod_small; unfold PAGE; lia).
  assert (SZ : u64 (ELT + size) = ELT + size) by (apply Z.mod_small; unfold ELT, PAGE in *; nia).
  assert (CALC : exists ps ep np, calculate sys el size = Ok (ps, ep, np) /\ 1 <= ep /\ np = Z.max 1 (el / ep) /\ PAGE + ep * (ELT + size) <= ps /\ ep < 2 ^ 63 /\
    (size < (sys - PAGE) / 2 -> ps = sys /\ sys < PAGE + (ep + 1) * (ELT + size)) /\ ((sys - PAGE) / 2 <= size -> ep = el /\ ps = PAGE + ep * (ELT + size))).
  { unfold calculate. rewrite US, SZ. destruct (Z.ltb_spec size ((sys - PAGE) / 2)) as [LT|GE].
    - replace (ELT + size =? 0) with false by (symmetry; apply Z.eqb_neq; unfold ELT; lia). cbn [negb safe obind].
      assert (Q : 1 <= (sys - PAGE) / (ELT + size)).
      { apply Z.div_le_lower_bound; unfold ELT, PAGE in *; [lia|]. pose proof (Z.mul_div_le (sys - 32) 2 eq_refl). lia. }
      pose proof (Z.mul_div_le (sys - PAGE) (ELT + size) ltac:(unfold ELT; lia)) as M.
      pose proof (Z.mul_succ_div_gt (sys - PAGE) (ELT + size) ltac:(unfold ELT; lia)) as M2.
      set (ep := (sys - PAGE) / (ELT + size)) in *.
      assert (EB : ep < 2 ^ 63) by (unfold ELT, PAGE in *; nia).
      destruct (Z.ltb_spec ep el) as [L2|L2].
      + replace (ep =? 0) with false by (symmetry; apply Z.eqb_neq; lia). cbn [negb safe obind]. exists sys, ep, (el / ep). split; [reflexivity|]. split; [exact Q|].
        assert (1 <= el / ep) by (apply Z.div_le_lower_bound; lia). split; [lia|]. split; [lia|]. split; [exact EB|]. split; [intros _; split; [reflexivity|lia]|lia].
      + exists sys, ep, 1. split; [reflexivity|]. split; [exact Q|].
        assert (el / ep <= 1) by (apply Z.div_le_upper_bound; lia). split; [lia|]. split; [lia|]. split; [exact EB|]. split; [intros _; split; [reflexivity|lia]|lia].
    - assert (W : u64 el = el) by (apply Z.mod_small; lia). rewrite W. exists (u64 (u64 (el * (ELT + size)) + PAGE)), el, 1.
      assert (EE : u64 (u64 (el * (ELT + size)) + PAGE) = PAGE + el * (ELT + size)) by (rewrite EL; unfold u64; rewrite (Z.mod_small (Z.max 1 elts * (ELT + size))) by (unfold ELT, PAGE in *; nia); rewrite Z.mod_small; [lia|unfold ELT, PAGE in *; nia]).
      assert (EE2 : u64 (el * (ELT + size) + PAGE) = PAGE + el * (ELT + size)) by (rewrite EL; unfold u64; rewrite Z.mod_small; [lia|unfold ELT, PAGE in *; nia]).
      rewrite EE, EE2. split; [reflexivity|]. split; [lia|]. rewrite Z.div_same by lia. split; [lia|]. split; [lia|]. split; [lia|]. split; [lia|]. auto. }
  destruct CALC as (ps & ep & np & EC & EP & NP & FIT & EB & SM & LG). rewrite EC in H. cbn [obind] in H.
  assert (NP1 : 1 <= np) by lia.
  assert (PC : exists pc, (if 0 <? elts then if elts <? ep then Ok 1 else _ <- safe (negb (ep =? 0)) ;; Ok (if 0 <? elts mod ep then elts / ep + 1 else elts / ep) else Ok np) = Ok pc /\
     (0 < elts -> elts <= pc * ep < elts + ep)).
  { replace (ep =? 0) with false by (symmetry; apply Z.eqb_neq; lia). cbn [negb safe obind].
    destruct (Z.ltb_spec 0 elts); [|exists np; split; [reflexivity|lia]].
    destruct (Z.ltb_spec elts ep); [exists 1; split; [reflexivity|lia]|].
    pose proof (Z.div_mod elts ep ltac:(lia)). pose proof (Z.mod_pos_bound elts ep ltac:(lia)).
    destruct (Z.ltb_spec 0 (elts mod ep)); eexists; (split; [reflexivity|nia]). }
  destruct PC as (pc & EPC & PCB). rewrite EPC in H. cbn [obind] in H.
  match type of H with new_pages true _ ?q = _ => set (p0 := q) in * end.
  assert (K0 : pool_ok p0 []).
  { constructor; unfold p0; cbn [epp pages frees next_page nfree npages elt_size page_size]; try (repeat constructor; fail); [exact EP|]. split; [exact Z0|]. split; [unfold ELT, PAGE in *; nia|exact FIT]. }
  destruct (new_pages_ok (Z.to_nat np) p0 [] K0) as (q & E1 & K1 & A1 & B1 & C1 & D1 & F1 & G1 & H1).
  assert (q = p) as -> by congruence. destruct (new_pages_keep _ _ _ H) as (P1 & P2 & P3).
  unfold p0 in *. cbn [page_allocs page_frees npages elt_size rcache epp ncache page_size test flags] in *.
  split; [rewrite D1, <- EL; lia|]. split; [rewrite (ok_npages _ _ K1); lia|].
  split; [intros LT; destruct (SM LT) as (-> & X); rewrite P1, D1; lia|].
  split; [intros LT; destruct (LG LT) as (X & Y); rewrite P1, D1; lia|].
  split. { intros PO. specialize (PCB PO). rewrite H1, D1. unfold u64. rewrite Z.mod_small by lia. split; [exact PCB|]. apply Z.mod_mul. lia. }
  rewrite P2, P3. split; [intros f ->; reflexivity|]. split; [intros ->; reflexivity|reflexivity].
Qed.
Print Assumptions C27_init_pages.

(** a group of named descriptors: pool i is a fresh, consistent pool for descriptor i *)
Theorem C27_group_init : forall sys ds, 4096 <= sys < 2 ^ 63 ->
  Forall (fun d => d_name d = true /\ 0 <= d_elts d < 2 ^ 63 /\ 0 <= d_size d /\ Z.max 1 (d_elts d) * (ELT + d_size d) + PAGE < 2 ^ 64) ds ->
  exists g, group_init sys ds = Ok g /\
    Forall2 (fun d o => exists p, o = Some p /\ pool_ok p [] /\ elt_size p = d_size d /\ rcache p = d_elts d /\ flags p = d_flags d /\ 1 <= npages p) ds g.
Proof.
  intros sys ds Hs F. induction F as [|d ds (N & B1 & B2 & B3) F IH]; cbn [group_init]; [exists []; split; [reflexivity|constructor]|].
  rewrite N. destruct (pool_init_ok sys (d_elts d) (d_size d) (d_test d) (d_flags d) Hs B1 B2 B3) as (p & E & K & S & _ & _ & R & P). rewrite E. cbn [obind].
  destruct IH as (g & EG & FG). rewrite EG. cbn [obind]. exists (Some p :: g). split; [reflexivity|]. constructor; [|exact FG].
  exists p. destruct (C27_init_pages sys (d_elts d) (d_size d) (d_test d) (d_flags d) p Hs B1 B2 B3 E) as (_ & _ & _ & _ & _ & _ & _ & FL). auto 8.
Qed.
Print Assumptions C27_group_init.

Example init_case : exists p, pool_init 4096 true 200 40 None 1 = Ok p /\ npages p = 3 /\ epp p = 63 /\ ncache p = 252 /\ page_size p = 4096.
Proof. eexists. split; [vm_compute; reflexivity|]. repeat split; vm_compute; reflexivity. Qed.
