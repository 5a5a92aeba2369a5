(** zt_mem.c: creation, release of free pages, destruction, histories, groups *)
From Verif Require Import Prelude MemModel MemProofs.
From Coq Require Import Permutation.
Open Scope Z_scope.

(** pages with an element in use *)
Definition in_use (out : list elt) (id : nat) : bool := existsb (fun e => (fst e =? id)%nat) out.
Lemma in_use_full p out id n : pool_ok p out -> num_free (pages p) id = Some n -> (n =? epp p) = negb (in_use out id).
Proof.
  intros K NF. pose proof (ok_used _ _ _ _ K NF) as [U _]. unfold in_use. destruct (existsb (fun e => (fst e =? id)%nat) out) eqn:EX; cbn [negb].
  - apply existsb_exists in EX. destruct EX as (e & I & E). assert (J : In e (of_page id out)) by (apply filter_In; now split). apply Z.eqb_neq. destruct (of_page id out); [destruct J|]. cbn [length] in U. lia.
  - apply Z.eqb_eq. assert (of_page id out = []); [|rewrite H in U; cbn [length] in U; lia]. unfold of_page. clear - EX. induction out as [|e l IH]; [reflexivity|]. cbn [existsb filter] in *. apply orb_false_iff in EX. destruct EX as [-> EX]. now apply IH.
Qed.
Lemma map_filter_fst (f : nat -> bool) (l : list (nat * Z)) : map fst (filter (fun e => f (fst e)) l) = filter f (map fst l).
Proof. induction l as [|[i k] r IH]; [reflexivity|]. cbn [filter map fst]. destruct (f i); cbn [map fst]; now rewrite IH. Qed.
Lemma filter_filter_id (f : nat -> bool) i l : ~ In i l -> filter (fun j => negb (j =? i)%nat) l = l.
Proof. intros NI. apply filter_id. intros x I. apply negb_true_iff, Nat.eqb_neq. intros ->. contradiction. Qed.

Lemma release_pages_ok out : forall ids pre p, pool_ok p out -> map fst (pages p) = pre ++ ids ->
  exists p', release_pages ids p = Ok p' /\ pool_ok p' out /\ map fst (pages p') = pre ++ filter (in_use out) ids /\ epp p' = epp p /\ page_frees p' = page_frees p /\ page_allocs p' = page_allocs p.
Proof.
  induction ids as [|id ids IH]; intros pre p K EP; cbn [release_pages filter].
  - exists p. repeat split; try apply K. rewrite EP. now rewrite !app_nil_r.
  - assert (ND : NoDup (pre ++ id :: ids)) by (rewrite <- EP; apply (ok_ids _ _ K)).
    destruct (num_free_some (pages p) id) as (n & NF); [rewrite EP; apply in_or_app; right; now left|]. rewrite NF. pose proof (in_use_full _ _ _ _ K NF) as IU. rewrite IU. destruct (in_use out id) eqn:U; cbn [negb] in *.
    + cbn [obind]. destruct (IH (pre ++ [id]) p K) as (p' & E' & K' & M' & R'); [rewrite <- app_assoc; exact EP|]. exists p'. split; [exact E'|]. split; [exact K'|]. split; [rewrite M', <- app_assoc; reflexivity|exact R'].
    + apply Z.eqb_eq in IU. subst n. destruct (page_destroy_ok p out id K NF) as (p1 & E1 & K1 & PG & NO & R1 & R2 & R3). rewrite E1. cbn [obind].
      assert (M1 : map fst (pages p1) = pre ++ ids).
      { rewrite PG, (map_filter_fst (fun i => negb (i =? id)%nat)), EP. pose proof (NoDup_remove_2 _ _ _ ND) as NI. rewrite filter_app. cbn [filter]. rewrite Nat.eqb_refl. cbn [negb]. rewrite <- filter_app. apply (filter_filter_id (fun _ => true)). exact NI. }
      destruct (IH pre p1 K1 M1) as (p' & E' & K' & M' & R4 & R5 & R6). exists p'. split; [exact E'|]. split; [exact K'|]. split; [exact M'|]. repeat split; congruence.
Qed.
Lemma release_free_pages_ok p out : pool_ok p out ->
  exists p', release_free_pages p = Ok p' /\ pool_ok p' out /\ map fst (pages p') = filter (in_use out) (map fst (pages p)) /\ page_frees p' = page_frees p.
Proof. intros K. destruct (release_pages_ok out (map fst (pages p)) [] p K eq_refl) as (p' & A & B & C & _ & D & _). exists p'. auto. Qed.

Lemma destroy_pages_ok out : forall ids pre p, pool_ok p out -> map fst (pages p) = pre ++ ids -> (forall i, In i pre -> in_use out i = false) ->
  (out = [] -> destroy_pages ids p = Ok (0, None)) /\
  (existsb (in_use out) ids = true -> exists p', destroy_pages ids p = Ok (-1, Some p') /\ pool_ok p' out /\ incl (map fst (pages p')) (map fst (pages p))).
Proof.
  induction ids as [|id ids IH]; intros pre p K EP PRE; cbn [destroy_pages existsb]; [split; [reflexivity|discriminate]|].
  assert (ND : NoDup (pre ++ id :: ids)) by (rewrite <- EP; apply (ok_ids _ _ K)).
  destruct (num_free_some (pages p) id) as (n & NF); [rewrite EP; apply in_or_app; right; now left|]. rewrite NF. pose proof (in_use_full _ _ _ _ K NF) as IU. pose proof (ok_used _ _ _ _ K NF) as [U _].
  destruct (in_use out id) eqn:IN; cbn [negb orb] in *.
  - apply Z.eqb_neq in IU. replace (n <? epp p) with true by (symmetry; apply Z.ltb_lt; lia). split; [intros ->; discriminate IN|]. intros _. exists p. split; [reflexivity|]. split; [exact K|apply incl_refl].
  - apply Z.eqb_eq in IU. subst n. replace (epp p <? epp p) with false by (symmetry; apply Z.ltb_ge; lia).
    destruct (page_destroy_ok p out id K NF) as (p1 & E1 & K1 & PG & NO & R1 & R2 & R3). rewrite E1. cbn [obind].
    assert (M1 : map fst (pages p1) = pre ++ ids).
    { rewrite PG, (map_filter_fst (fun i => negb (i =? id)%nat)), EP. pose proof (NoDup_remove_2 _ _ _ ND) as NI. rewrite filter_app. cbn [filter]. rewrite Nat.eqb_refl. cbn [negb]. rewrite <- filter_app. apply (filter_filter_id (fun _ => true)). exact NI. }
    destruct (IH pre p1 K1 M1 PRE) as [A B]. split; [exact A|]. intros EX. destruct (B EX) as (p' & E' & K' & I'). exists p'. split; [exact E'|]. split; [exact K'|]. intros x I. apply I' in I. rewrite M1 in I. rewrite EP. apply in_app_or in I. apply in_or_app. destruct I as [I|I]; [now left|right; now right].
Qed.
Lemma pool_destroy_ok p out : pool_ok p out ->
  (out = [] -> pool_destroy p = Ok (0, None)) /\ (out <> [] -> exists p', pool_destroy p = Ok (-1, Some p') /\ pool_ok p' out).
Proof.
  intros K. destruct (destroy_pages_ok out (map fst (pages p)) [] p K eq_refl (fun i (I : In i []) => match I with end)) as [A B]. split; [exact A|]. intros NE. destruct B as (p' & E & K' & _); [|now exists p'].
  destruct out as [|e out]; [congruence|]. apply existsb_exists. exists (fst e). split; [|unfold in_use; cbn [existsb]; now rewrite Nat.eqb_refl].
  assert (I : In e (elements p)) by (eapply Permutation_in; [apply (ok_all _ _ K)|]; apply in_or_app; right; now left). now apply in_elements in I.
Qed.

(** creation *)
Lemma new_page_ok p out : pool_ok p out -> exists p', new_page true p = Ok p' /\ pool_ok p' out /\ page_allocs p' = page_allocs p + 1 /\ page_frees p' = page_frees p /\ npages p' = npages p + 1
  /\ epp p' = epp p /\ elt_size p' = elt_size p /\ length (frees p') = (length (frees p) + Z.to_nat (epp p))%nat /\ rcache p' = rcache p /\ ncache p' = ncache p.
Proof.
  intros K. pose proof (ok_epp _ _ K) as EP. unfold new_page, page_alloc. cbn [negb]. replace (Z.max 1 (epp p)) with (epp p) by lia.
  pose proof (ok_fits _ _ K) as (FZ & FB & FT). replace (_ <=? page_size p) with true by (symmetry; apply Z.leb_le; unfold u64; rewrite Z.mod_small by (unfold ELT in *; lia); unfold ELT in *; nia).
  cbn [safe obind]. eexists. split; [reflexivity|]. cbn [set_lists page_allocs page_frees npages epp elt_size frees rcache ncache].
  assert (NEW : ~ In (next_page p) (map fst (pages p))).
  { intros I. apply in_map_iff in I. destruct I as (pg & E & I). pose proof (ok_fresh _ _ K) as FR. rewrite Forall_forall in FR. specialize (FR _ I). lia. }
  assert (NEWF : of_page (next_page p) (frees p) = []).
  { destruct (of_page (next_page p) (frees p)) as [|e l] eqn:Q; [reflexivity|]. exfalso. assert (I : In e (of_page (next_page p) (frees p))) by (rewrite Q; now left). apply filter_In in I. destruct I as [I E]. apply Nat.eqb_eq in E.
    assert (J : In e (elements p)) by (eapply Permutation_in; [apply (ok_all _ _ K)|]; apply in_or_app; now left). apply in_elements in J. apply NEW. rewrite <- E. apply J. }
  split; [|repeat split; rewrite ?app_length, ?map_length, ?seq_length; reflexivity].
  constructor; cbn [set_lists epp pages frees next_page nfree npages elt_size page_size].
  - exact EP.
  - rewrite map_app. cbn [map fst]. apply (Permutation_NoDup (Permutation_cons_append _ _)). constructor; [exact NEW|apply (ok_ids _ _ K)].
  - apply Forall_app. split; [eapply Forall_impl; [|exact (ok_fresh _ _ K)]; intros pg Hpg; cbn beta in *; lia|]. repeat constructor.
  - unfold elements. cbn [set_lists epp pages]. rewrite flat_map_app. cbn [flat_map fst]. rewrite app_nil_r. fold (elements p). rewrite <- (ok_all _ _ K). rewrite <- !app_assoc. apply Permutation_app_head. apply Permutation_app_comm.
  - apply Forall_app. fold (slots (Z.to_nat (epp p)) (next_page p)). split.
    + pose proof (ok_count _ _ K) as C. rewrite Forall_forall in C |- *. intros pg I. rewrite of_page_app, of_page_slots. destruct (Nat.eqb_spec (next_page p) (fst pg)) as [E|_]; [|rewrite app_nil_r; now apply C]. exfalso. apply NEW. rewrite E. now apply in_map.
    + constructor; [|constructor]. cbn [fst snd]. rewrite of_page_app, NEWF, of_page_slots, Nat.eqb_refl. cbn [app]. rewrite slots_length. lia.
  - match goal with |- context [filter (full ?q)] => change (full q) with (full p) end. rewrite filter_app, app_length. cbn [filter]. replace (full p (next_page p, epp p)) with true by (symmetry; apply Z.eqb_refl). cbn [length]. rewrite (ok_nfree _ _ K). lia.
  - rewrite app_length. cbn [length]. rewrite (ok_npages _ _ K). lia.
  - exact (ok_fits _ _ K).
Qed.
Lemma new_pages_ok n : forall p out, pool_ok p out -> exists p', new_pages true n p = Ok p' /\ pool_ok p' out /\ page_allocs p' = page_allocs p + Z.of_nat n /\ page_frees p' = page_frees p /\ npages p' = npages p + Z.of_nat n
  /\ epp p' = epp p /\ elt_size p' = elt_size p /\ rcache p' = rcache p /\ ncache p' = ncache p.
Proof.
  induction n as [|n IH]; intros p out K; cbn [new_pages].
  - exists p. split; [reflexivity|]. split; [exact K|]. repeat split; lia.
  - destruct (new_page_ok p out K) as (p1 & E1 & K1 & A1 & B1 & C1 & D1 & F1 & _ & G1 & H1). rewrite E1. cbn [obind]. destruct (IH p1 out K1) as (p2 & E2 & K2 & A2 & B2 & C2 & D2 & F2 & G2 & H2). exists p2. split; [exact E2|]. split; [exact K2|]. repeat split; lia.
Qed.
Lemma pool_init_ok sys elts size cb fl : 4096 <= sys < 2 ^ 63 -> 0 <= elts < 2 ^ 63 -> 0 <= size -> Z.max 1 elts * (ELT + size) + PAGE < 2 ^ 64 ->
  exists p, pool_init sys true elts size cb fl = Ok p /\ pool_ok p [] /\ elt_size p = size /\ page_allocs p = npages p /\ page_frees p = 0 /\ rcache p = elts /\ 1 <= npages p.
Proof.
  intros S E Z0 OV. unfold pool_init. set (el := if elts =? 0 then 1 else elts). assert (EL : el = Z.max 1 elts) by (unfold el; destruct (Z.eqb_spec elts 0); lia).
  assert (US : u64 (sys - PAGE) = sys - PAGE) by (apply Z.mod_small; unfold PAGE; lia).
  assert (SZ : u64 (ELT + size) = ELT + size) by (apply Z.mod_small; unfold ELT, PAGE in *; nia).
  assert (CALC : exists ps ep np, calculate sys el size = Ok (ps, ep, np) /\ 1 <= ep /\ 1 <= np /\ PAGE + ep * (ELT + size) <= ps).
  { unfold calculate. rewrite US, SZ. destruct (Z.ltb_spec size ((sys - PAGE) / 2)) as [LT|GE].
    - replace (ELT + size =? 0) with false by (symmetry; apply Z.eqb_neq; unfold ELT; lia). cbn [negb safe obind].
      assert (Q : 1 <= (sys - PAGE) / (ELT + size)).
      { apply Z.div_le_lower_bound; unfold ELT, PAGE in *; [lia|]. pose proof (Z.mul_div_le (sys - 32) 2 eq_refl). lia. }
      pose proof (Z.mul_div_le (sys - PAGE) (ELT + size) ltac:(unfold ELT; lia)) as M.
      destruct (Z.ltb_spec ((sys - PAGE) / (ELT + size)) el) as [L2|L2].
      + replace ((sys - PAGE) / (ELT + size) =? 0) with false by (symmetry; apply Z.eqb_neq; lia). cbn [negb safe obind]. eexists _, _, _. split; [reflexivity|]. split; [exact Q|]. split; [apply Z.div_le_lower_bound; lia|lia].
      + eexists _, _, _. split; [reflexivity|]. split; [exact Q|]. split; lia.
    - assert (W : u64 el = el) by (apply Z.mod_small; lia). rewrite W. eexists _, _, _. split; [reflexivity|]. split; [lia|]. split; [lia|]. rewrite EL. unfold u64. rewrite Z.mod_small; [lia|]. unfold ELT, PAGE in *. nia. }
  destruct CALC as (ps & ep & np & EC & EP & NP & FIT). rewrite EC. cbn [obind].
  assert (PC : exists pc, (if 0 <? elts then if elts <? ep then Ok 1 else _ <- safe (negb (ep =? 0)) ;; Ok (if 0 <? elts mod ep then elts / ep + 1 else elts / ep) else Ok np) = Ok pc).
  { replace (ep =? 0) with false by (symmetry; apply Z.eqb_neq; lia). cbn [negb safe obind]. destruct (0 <? elts), (elts <? ep); eauto. }
  destruct PC as (pc & EPC). rewrite EPC. cbn [obind].
  match goal with |- context [new_pages true _ ?q] => set (p0 := q) end.
  assert (K0 : pool_ok p0 []).
  { constructor; unfold p0; cbn [epp pages frees next_page nfree npages elt_size page_size]; try (repeat constructor; fail); [exact EP|]. split; [exact Z0|]. split; [unfold ELT, PAGE in *; nia|exact FIT]. }
  destruct (new_pages_ok (Z.to_nat np) p0 [] K0) as (p & E1 & K1 & A1 & B1 & C1 & D1 & F1 & G1 & H1). exists p. unfold p0 in *. cbn [page_allocs page_frees npages elt_size rcache] in *. split; [exact E1|]. split; [exact K1|].
  split; [exact F1|]. split; [lia|]. split; [exact B1|]. split; [rewrite G1; apply Z.mod_small; lia|lia].
Qed.

(** histories; [out] are the elements the caller holds *)
Inductive op := Alloc | Release (k : nat) | Trim.
Definition without (k : nat) (out : list elt) : list elt := firstn k out ++ skipn (S k) out.
Fixpoint run (p : pool) (out : list elt) (os : list op) : outcome (pool * list elt) :=
  match os with
  | [] => Ok (p, out)
  | Alloc :: os => ' (p, e) <- pool_alloc true p ;; run p (e :: out) os
  | Release k :: os => match nth_error out k with None => run p out os | Some e => p <- pool_release p e ;; run p (without k out) os end
  | Trim :: os => p <- release_free_pages p ;; run p out os
  end.
Lemma nth_split' (out : list elt) k e : nth_error out k = Some e -> out = firstn k out ++ e :: skipn (S k) out.
Proof. revert k. induction out as [|x l IH]; intros [|k] H; cbn in *; [discriminate|discriminate|congruence|]. now rewrite <- (IH k H). Qed.
Lemma run_ok os : forall p out, pool_ok p out -> exists p' out', run p out os = Ok (p', out') /\ pool_ok p' out'.
Proof.
  induction os as [|o os IH]; intros p out K; cbn [run]; [now exists p, out|]. destruct o as [|k|].
  - destruct (alloc_ok true p out K (or_introl eq_refl)) as (p1 & e & E1 & K1 & _). rewrite E1. cbn [obind]. now apply IH.
  - destruct (nth_error out k) as [e|] eqn:NE; [|now apply IH]. rewrite (nth_split' _ _ _ NE) in K. destruct (release_ok p _ e _ K) as (p1 & E1 & K1 & _). rewrite E1. cbn [obind]. now apply IH.
  - destruct (release_free_pages_ok p out K) as (p1 & E1 & K1 & _). rewrite E1. cbn [obind]. now apply IH.
Qed.

(** pages obtained minus pages given back is the number of pages, as long as only alloc and release are used *)
Definition balance (p : pool) : Z := page_allocs p - page_frees p - npages p.
Lemma alloc_balance m p p' e : pool_alloc m p = Ok (p', e) -> balance p' = balance p.
Proof.
  unfold pool_alloc. intros H. apply obind_ok in H. destruct H as (p1 & H1 & H).
  assert (B1 : balance p1 = balance p).
  { destruct (frees p); [|now assert (p1 = p) as -> by congruence]. unfold new_page in H1. apply obind_ok in H1. destruct H1 as ([q|] & H1 & H2); [|discriminate]. unfold page_alloc in H1. destruct (negb m); [discriminate|]. apply obind_ok in H1. destruct H1 as (? & _ & H1).
    assert (EQ : p1 = set_lists q (nfree q) (npages q) (page_allocs q + 1) (page_frees q) (pages q) (frees q) (next_page q)) by congruence. rewrite EQ. injection H1 as <-. unfold balance. cbn [set_lists page_allocs page_frees npages]. lia. }
  destruct (frees p1) as [|e1 fr]; [discriminate|]. destruct (num_free (pages p1) (fst e1)); [|discriminate]. injection H as <- <-. exact B1.
Qed.
Lemma release_balance p o1 e o2 p' : pool_ok p (o1 ++ e :: o2) -> pool_release p e = Ok p' -> balance p' = balance p.
Proof.
  intros K H. destruct (release_ok p o1 e o2 K) as (q & E & _). assert (q = p') by congruence. subst q. clear E. unfold pool_release in H.
  destruct (num_free (pages p) (fst e)) as [n|] eqn:NF; [|discriminate]. cbv zeta in H. match type of H with context [page_destroy ?q _] => set (p1 := q) in H end. change (epp p1) with (epp p) in H.
  destruct (Z.eqb_spec (n + 1) (epp p)) as [EN|NEN]; [|injection H as <-; reflexivity]. match type of H with (if ?c then _ else _) = _ => destruct c end; [|injection H as <-; reflexivity].
  apply obind_ok in H. destruct H as (p2 & H1 & H). unfold page_destroy in H1.
  assert (NF1 : num_free (pages p1) (fst e) = Some (n + 1)).
  { apply num_free_nodup; [unfold p1; cbn [set_lists pages]; rewrite set_free_ids; apply (ok_ids _ _ K)|]. unfold p1. cbn [set_lists pages]. unfold set_free. apply in_map_iff. exists (fst e, n). cbn [fst]. rewrite Nat.eqb_refl. split; [reflexivity|now apply num_free_in]. }
  rewrite NF1 in H1. change (epp p1) with (epp p) in H1. replace (n + 1 <? epp p) with false in H1 by (symmetry; apply Z.ltb_ge; lia). injection H1 as <-. injection H as <-. unfold balance, p1. cbn [set_lists page_allocs page_frees npages]. lia.
Qed.
Lemma run_balance os : Forall (fun o => o <> Trim) os -> forall p out p' out', pool_ok p out -> run p out os = Ok (p', out') -> balance p' = balance p.
Proof.
  induction 1 as [|o os NT _ IH]; intros p out p' out' K H; cbn [run] in H; [now assert (p' = p) as -> by congruence|]. destruct o as [|k|]; [| |congruence].
  - destruct (alloc_ok true p out K (or_introl eq_refl)) as (p1 & e & E1 & K1 & _). rewrite E1 in H. cbn [obind] in H. rewrite (IH _ _ _ _ K1 H). now apply (alloc_balance true p p1 e).
  - destruct (nth_error out k) as [e|] eqn:NE; [|now apply (IH _ _ _ _ K H)]. rewrite (nth_split' _ _ _ NE) in K. destruct (release_ok p _ e _ K) as (p1 & E1 & K1 & _). rewrite E1 in H. cbn [obind] in H.
    rewrite (IH _ _ _ _ K1 H). now apply (release_balance p (firstn k out) e (skipn (S k) out)).
Qed.
Lemma group_alloc_first m : forall g size i p e, group_alloc m g size = Ok (i, p, e) ->
  exists q, nth_error g i = Some (Some q) /\ size <= elt_size q /\ pool_alloc m q = Ok (p, e) /\ forall j r, (j < i)%nat -> nth_error g j = Some (Some r) -> elt_size r < size.
Proof.
  induction g as [|[q|] g IH]; intros size i p e H; cbn [group_alloc] in H; [discriminate| |discriminate]. destruct (Z.leb_spec size (elt_size q)) as [LE|GT].
  - apply obind_ok in H. destruct H as ([p1 e1] & H1 & H). injection H as <- <- <-. exists q. split; [reflexivity|]. split; [exact LE|]. split; [exact H1|]. intros j r L. lia.
  - apply obind_ok in H. destruct H as ([[i1 p1] e1] & H1 & H). injection H as <- <- <-. destruct (IH _ _ _ _ H1) as (q' & A & B & C & D). exists q'. split; [exact A|]. split; [exact B|]. split; [exact C|].
    intros [|j] r L NE; cbn [nth_error] in NE; [injection NE as <-; lia|]. apply (D j r); [lia|exact NE].
Qed.
