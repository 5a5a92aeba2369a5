(** zt_mem.c: the invariant of a pool *)
From Verif Require Import Prelude MemModel.
From Coq Require Import Permutation.
Open Scope Z_scope.

Definition slots (n : nat) (id : nat) : list elt := map (pair id) (seq 0 n).
(** all the elements of the pages *)
Definition elements (p : pool) : list elt := flat_map (fun pg => slots (Z.to_nat (epp p)) (fst pg)) (pages p).
Definition of_page (id : nat) (l : list elt) : list elt := filter (fun e => (fst e =? id)%nat) l.
Definition full (p : pool) (pg : nat * Z) : bool := snd pg =? epp p.

(** [out] are the elements in use: every element of a page is either free or in use, once; the counters count *)
Record pool_ok (p : pool) (out : list elt) : Prop := mkok {
  ok_epp : 1 <= epp p;
  ok_ids : NoDup (map fst (pages p));
  ok_fresh : Forall (fun pg => (fst pg < next_page p)%nat) (pages p);
  ok_all : Permutation (frees p ++ out) (elements p);
  ok_count : Forall (fun pg => snd pg = Z.of_nat (length (of_page (fst pg) (frees p)))) (pages p);
  ok_nfree : nfree p = Z.of_nat (length (filter (full p) (pages p)));
  ok_npages : npages p = Z.of_nat (length (pages p));
  ok_fits : 0 <= elt_size p /\ ELT + elt_size p < 2 ^ 64 /\ PAGE + epp p * (ELT + elt_size p) <= page_size p
}.

Lemma filter_perm {A} (f : A -> bool) l m : Permutation l m -> Permutation (filter f l) (filter f m).
Proof.
  induction 1 as [|x l m _ IH|x y l|l m k _ I1 _ I2]; cbn [filter]; [constructor|destruct (f x); [now constructor|exact IH]|destruct (f x), (f y); (reflexivity || apply perm_swap)|now transitivity (filter f m)].
Qed.
Lemma num_free_in pg id n : num_free pg id = Some n -> In (id, n) pg.
Proof. induction pg as [|[i k] r IH]; cbn [num_free]; [discriminate|]. destruct (Nat.eqb_spec i id) as [->|NE]; [intros [= ->]; now left|]. intros H. right. now apply IH. Qed.
Lemma num_free_some pg id : In id (map fst pg) -> exists n, num_free pg id = Some n.
Proof. induction pg as [|[i k] r IH]; cbn [map fst num_free]; [intros []|]. destruct (Nat.eqb_spec i id) as [->|NE]; [intros _; now exists k|]. intros [E|I]; [congruence|now apply IH]. Qed.
Lemma num_free_nodup pg id n : NoDup (map fst pg) -> In (id, n) pg -> num_free pg id = Some n.
Proof.
  induction pg as [|[i k] r IH]; cbn [map fst num_free]; [intros _ []|]. intros ND I. inversion ND as [|? ? NI ND']; subst. destruct I as [[= -> ->]|I]; [now rewrite Nat.eqb_refl|].
  destruct (Nat.eqb_spec i id) as [->|NE]; [|now apply IH]. exfalso. apply NI. apply in_map_iff. now exists (id, n).
Qed.
Lemma set_free_ids pg id n : map fst (set_free pg id n) = map fst pg.
Proof. unfold set_free. rewrite map_map. apply map_ext. intros [i k]. cbn [fst]. now destruct (i =? id)%nat. Qed.
Lemma elements_set_free p id n nf np pa pf fr nx : elements (set_lists p nf np pa pf (set_free (pages p) id n) fr nx) = elements p.
Proof.
  unfold elements. cbn [epp pages set_lists]. unfold set_free. induction (pages p) as [|[i k] r IH]; [reflexivity|]. cbn [map flat_map fst]. rewrite IH. now destruct (i =? id)%nat.
Qed.
Lemma in_slots n id e : In e (slots n id) <-> fst e = id /\ (snd e < n)%nat.
Proof.
  unfold slots. rewrite in_map_iff. split; [intros (k & <- & I); apply in_seq in I; cbn [fst snd]; split; [reflexivity|lia]|]. intros [<- L]. exists (snd e). split; [now destruct e|]. apply in_seq. lia.
Qed.
Lemma in_elements p e : In e (elements p) <-> In (fst e) (map fst (pages p)) /\ Z.of_nat (snd e) < epp p.
Proof.
  unfold elements. rewrite in_flat_map. split.
  - intros (pg & I & S). apply in_slots in S. destruct S as [E L]. split; [rewrite E; now apply in_map|lia].
  - intros [I L]. apply in_map_iff in I. destruct I as (pg & E & I). exists pg. split; [exact I|]. apply in_slots. split; [congruence|lia].
Qed.
Lemma of_page_slots n id i : of_page id (slots n i) = if (i =? id)%nat then slots n i else [].
Proof.
  unfold of_page, slots. generalize (seq 0 n). intros l. induction l as [|k l IH]; cbn [map filter fst]; [now destruct (i =? id)%nat|]. rewrite IH. now destruct (i =? id)%nat.
Qed.
Lemma of_page_cons id e l : of_page id (e :: l) = if (fst e =? id)%nat then e :: of_page id l else of_page id l. Proof. reflexivity. Qed.
Lemma of_page_app id l m : of_page id (l ++ m) = of_page id l ++ of_page id m. Proof. apply filter_app. Qed.
(** a page of the pool has epp elements *)
Lemma of_page_elements p id : NoDup (map fst (pages p)) -> In id (map fst (pages p)) -> of_page id (elements p) = slots (Z.to_nat (epp p)) id.
Proof.
  unfold elements. induction (pages p) as [|[i k] r IH]; cbn [map flat_map fst]; [intros _ []|]. intros ND I. inversion ND as [|? ? NI ND']; subst. rewrite of_page_app, of_page_slots.
  destruct (Nat.eqb_spec i id) as [->|NE].
  - replace (of_page id _) with (@nil elt); [apply app_nil_r|]. clear - NI. induction r as [|[j n] r IH]; [reflexivity|]. cbn [flat_map map fst] in *. rewrite of_page_app, of_page_slots. destruct (Nat.eqb_spec j id) as [->|]; [exfalso; apply NI; now left|]. cbn [app]. apply IH. intros I. apply NI. now right.
  - cbn [app]. destruct I as [E|I]; [congruence|]. now apply IH.
Qed.
Lemma slots_length n id : length (slots n id) = n. Proof. unfold slots. now rewrite map_length, seq_length. Qed.
Lemma nodup_elements p : NoDup (map fst (pages p)) -> NoDup (elements p).
Proof.
  unfold elements. induction (pages p) as [|[i k] r IH]; cbn [map flat_map fst]; [constructor|]. intros ND. inversion ND as [|? ? NI ND']; subst.
  assert (DJ : forall e, In e (slots (Z.to_nat (epp p)) i) -> ~ In e (flat_map (fun pg => slots (Z.to_nat (epp p)) (fst pg)) r)).
  { intros e I J. apply in_slots in I. apply in_flat_map in J. destruct J as (pg & J & S). apply in_slots in S. apply NI. apply in_map_iff. exists pg. split; [|exact J]. destruct I, S. congruence. }
  specialize (IH ND'). assert (NS : NoDup (slots (Z.to_nat (epp p)) i)) by (apply FinFun.Injective_map_NoDup; [intros a b [=]; assumption|apply seq_NoDup]).
  revert NS DJ. generalize (slots (Z.to_nat (epp p)) i). intros l. induction l as [|e l IHl]; intros NS DJ; cbn [app]; [exact IH|]. inversion NS; subst. constructor; [|apply IHl; [assumption|intros x I; apply DJ; now right]].
  intros I. apply in_app_or in I. destruct I as [I|I]; [contradiction|]. now apply (DJ e (or_introl eq_refl)).
Qed.
Lemma ok_nodup p out : pool_ok p out -> NoDup (frees p ++ out).
Proof. intros K. eapply Permutation_NoDup; [symmetry; apply (ok_all _ _ K)|]. apply nodup_elements, (ok_ids _ _ K). Qed.
(** the free counter of a page and the elements in use *)
Lemma ok_used p out id n : pool_ok p out -> num_free (pages p) id = Some n -> n + Z.of_nat (length (of_page id out)) = epp p /\ n = Z.of_nat (length (of_page id (frees p))).
Proof.
  intros K NF. pose proof (num_free_in _ _ _ NF) as I. pose proof (ok_count _ _ K) as C. rewrite Forall_forall in C. specialize (C _ I). cbn [fst snd] in C. split; [|exact C].
  pose proof (filter_perm (fun e => (fst e =? id)%nat) _ _ (ok_all _ _ K)) as P. fold (of_page id (elements p)) in P. fold (of_page id (frees p ++ out)) in P. apply Permutation_length in P.
  rewrite of_page_app, app_length, (of_page_elements p id (ok_ids _ _ K)), slots_length in P; [|apply in_map_iff; now exists (id, n)]. pose proof (ok_epp _ _ K). lia.
Qed.

Lemma full_count_set p id n m : NoDup (map fst (pages p)) -> num_free (pages p) id = Some n ->
  Z.of_nat (length (filter (full p) (set_free (pages p) id m))) = Z.of_nat (length (filter (full p) (pages p))) - (if n =? epp p then 1 else 0) + (if m =? epp p then 1 else 0).
Proof.
  unfold set_free. generalize (pages p). intros l. induction l as [|[i k] r IH]; cbn [map fst num_free]; [discriminate|]. intros ND NF. inversion ND as [|? ? NI ND']; subst.
  destruct (Nat.eqb_spec i id) as [->|NE].
  - injection NF as ->. assert (EQ : map (fun e => if (fst e =? id)%nat then (fst e, m) else e) r = r).
    { clear - NI. induction r as [|[j x] r IH]; [reflexivity|]. cbn [map fst] in *. destruct (Nat.eqb_spec j id) as [->|]; [exfalso; apply NI; now left|]. rewrite IH; [reflexivity|]. intros I. apply NI. now right. }
    rewrite EQ. cbn [filter]. change (full p (id, m)) with (m =? epp p). change (full p (id, n)) with (n =? epp p). destruct (m =? epp p), (n =? epp p); cbn [length]; lia.
  - specialize (IH ND' NF). cbn [filter]. destruct (full p (i, k)); cbn [length]; lia.
Qed.
Lemma count_set_free pg id m fr' : NoDup (map fst pg) -> m = Z.of_nat (length (of_page id fr')) ->
  (forall i k, In (i, k) pg -> i <> id -> k = Z.of_nat (length (of_page i fr'))) -> Forall (fun e => snd e = Z.of_nat (length (of_page (fst e) fr'))) (set_free pg id m).
Proof.
  intros ND EM C. apply Forall_forall. intros e I. unfold set_free in I. apply in_map_iff in I. destruct I as ([i k] & E & I). cbn [fst] in E. destruct (Nat.eqb_spec i id) as [->|NE]; subst e; cbn [fst snd]; [exact EM|now apply C].
Qed.

Lemma alloc_ok m p out : pool_ok p out -> (m = true \/ frees p <> []) ->
  exists p' e, pool_alloc m p = Ok (p', e) /\ pool_ok p' (e :: out) /\ ~ In e out /\ In e (elements p') /\ incl (map fst (pages p)) (map fst (pages p')) /\
    (forall f fr, frees p = f :: fr -> e = f /\ map fst (pages p') = map fst (pages p)).
Proof.
  intros K M.
  assert (STEP : exists p1, (match frees p with [] => new_page m p | _ => Ok p end) = Ok p1 /\ pool_ok p1 out /\ frees p1 <> [] /\ incl (map fst (pages p)) (map fst (pages p1)) /\ (frees p <> [] -> p1 = p)).
  { destruct (frees p) as [|f fr] eqn:EF; [|exists p; split; [reflexivity|split; [exact K|split; [congruence|split; [apply incl_refl|reflexivity]]]]].
    destruct M as [->|M]; [|congruence]. unfold new_page, page_alloc. pose proof (ok_epp _ _ K) as EP. cbn [negb]. replace (Z.max 1 (epp p)) with (epp p) by lia.
    pose proof (ok_fits _ _ K) as (FZ & FB & FT). replace (_ <=? page_size p) with true by (symmetry; apply Z.leb_le; unfold u64; rewrite Z.mod_small by (unfold ELT in *; lia); unfold ELT in *; nia). cbn [safe obind]. eexists. split; [reflexivity|]. cbn [set_lists frees pages]. rewrite EF. cbn [app].
    assert (NS : map (pair (next_page p)) (seq 0 (Z.to_nat (epp p))) <> []) by (destruct (Z.to_nat (epp p)) eqn:Q; [lia|discriminate]).
    assert (NEW : ~ In (next_page p) (map fst (pages p))).
    { intros I. apply in_map_iff in I. destruct I as (pg & E & I). pose proof (ok_fresh _ _ K) as FR. rewrite Forall_forall in FR. specialize (FR _ I). lia. }
    assert (CNT : Forall (fun pg => snd pg = 0) (pages p)). { eapply Forall_impl; [|exact (ok_count _ _ K)]. intros pg E. rewrite EF in E. exact E. }
    split; [|split; [exact NS|split; [rewrite map_app; apply incl_appl, incl_refl|congruence]]]. constructor; cbn [set_lists epp pages frees next_page nfree npages elt_size page_size].
    - exact EP.
    - rewrite map_app. cbn [map fst]. apply (Permutation_NoDup (Permutation_cons_append _ _)). constructor; [exact NEW|apply (ok_ids _ _ K)].
    - apply Forall_app. split; [eapply Forall_impl; [|exact (ok_fresh _ _ K)]; intros pg Hpg; cbn beta in *; lia|]. repeat constructor.
    - unfold elements. cbn [epp pages set_lists]. rewrite flat_map_app. cbn [flat_map fst]. rewrite app_nil_r. pose proof (ok_all _ _ K) as A. rewrite EF in A. cbn [app] in A. rewrite A. apply Permutation_app_comm.
    - apply Forall_app. fold (slots (Z.to_nat (epp p)) (next_page p)). split.
      + rewrite Forall_forall in CNT |- *. intros pg I. rewrite of_page_slots. destruct (Nat.eqb_spec (next_page p) (fst pg)) as [E|_]; [|now apply CNT]. exfalso. apply NEW. rewrite E. now apply in_map.
      + constructor; [|constructor]. cbn [fst snd]. rewrite of_page_slots, Nat.eqb_refl, slots_length. lia.
    - match goal with |- context [filter (full ?q)] => change (full q) with (full p) end. rewrite filter_app, app_length. cbn [filter]. replace (full p (next_page p, epp p)) with true by (symmetry; apply Z.eqb_refl). cbn [length]. rewrite (ok_nfree _ _ K). lia.
    - rewrite app_length. cbn [length]. rewrite (ok_npages _ _ K). lia.
    - exact (ok_fits _ _ K). }
  destruct STEP as (p1 & E1 & K1 & NE & IC & SAME). unfold pool_alloc. rewrite E1. cbn [obind]. destruct (frees p1) as [|e fr] eqn:EF; [congruence|].
  assert (IE : In e (elements p1)) by (eapply Permutation_in; [apply (ok_all _ _ K1)|]; rewrite EF; now left).
  pose proof (proj1 (in_elements _ _) IE) as [IP _]. destruct (num_free_some _ _ IP) as (n & NF). rewrite NF.
  pose proof (ok_used _ _ _ _ K1 NF) as [U1 U2]. pose proof (ok_nodup _ _ K1) as ND. rewrite EF in ND. cbn [app] in ND. apply NoDup_cons_iff in ND. destruct ND as [NI ND'].
  eexists _, e. split; [reflexivity|]. split; [|split; [|split; [rewrite elements_set_free; exact IE|split]]].
  - constructor; cbn [set_lists epp pages frees next_page nfree npages elt_size page_size].
    + apply (ok_epp _ _ K1).
    + rewrite set_free_ids. apply (ok_ids _ _ K1).
    + pose proof (ok_fresh _ _ K1) as FR. rewrite Forall_forall in FR |- *. intros pg I. assert (J : In (fst pg) (map fst (set_free (pages p1) (fst e) (n - 1)))) by now apply in_map. rewrite set_free_ids in J. apply in_map_iff in J. destruct J as (q & <- & J). now apply FR.
    + rewrite elements_set_free. rewrite <- (ok_all _ _ K1), EF. cbn [app]. symmetry. apply Permutation_middle.
    + apply count_set_free; [apply (ok_ids _ _ K1)| |].
      * rewrite U2, EF. rewrite of_page_cons, Nat.eqb_refl. cbn [length]. lia.
      * intros i k I NEI. pose proof (ok_count _ _ K1) as C. rewrite Forall_forall in C. specialize (C _ I). cbn [fst snd] in C. rewrite C, EF. rewrite of_page_cons. destruct (Nat.eqb_spec (fst e) i); [congruence|reflexivity].
    + change (full (set_lists p1 _ _ _ _ _ _ _)) with (full p1). rewrite (full_count_set p1 (fst e) n (n - 1) (ok_ids _ _ K1) NF), <- (ok_nfree _ _ K1).
      destruct (Z.eqb_spec (n - 1) (epp p1 - 1)), (Z.eqb_spec n (epp p1)), (Z.eqb_spec (n - 1) (epp p1)); lia.
    + unfold set_free. rewrite map_length. apply (ok_npages _ _ K1).
    + apply (ok_fits _ _ K1).
  - intros I. apply NI. apply in_or_app. now right.
  - cbn [set_lists pages]. rewrite set_free_ids. exact IC.
  - intros f fr' EF'. assert (p1 = p) by (apply SAME; congruence). subst p1. cbn [set_lists pages]. rewrite set_free_ids. split; [congruence|reflexivity].
Qed.

Lemma filter_elements p id (nf np pa pf : Z) fr nx : elements (set_lists p nf np pa pf (filter (fun e => negb (fst e =? id)%nat) (pages p)) fr nx) = @filter elt (fun e : elt => negb (fst e =? id)%nat) (elements p).
Proof.
  unfold elements. cbn [epp pages set_lists]. induction (pages p) as [|[i k] r IH]; [reflexivity|]. cbn [filter flat_map fst]. rewrite filter_app.
  assert (S : @filter elt (fun e : elt => negb (fst e =? id)%nat) (slots (Z.to_nat (epp p)) i) = if (i =? id)%nat then [] else slots (Z.to_nat (epp p)) i).
  { unfold slots. generalize (seq 0 (Z.to_nat (epp p))). intros l. induction l as [|x l IHl]; cbn [map filter fst]; [now destruct (i =? id)%nat|]. rewrite IHl. now destruct (i =? id)%nat. }
  etransitivity; [|apply f_equal2; [symmetry; exact S|reflexivity]]. destruct (i =? id)%nat; cbn [negb flat_map app fst]; now rewrite IH.
Qed.
Lemma filter_ext_in' {A} (f g : A -> bool) l : (forall x, In x l -> f x = g x) -> filter f l = filter g l.
Proof. induction l as [|x l IH]; intros E; [reflexivity|]. cbn [filter]. rewrite (E x (or_introl eq_refl)), IH; [reflexivity|]. intros y I. apply E. now right. Qed.
Lemma filter_id {A} (f : A -> bool) l : (forall x, In x l -> f x = true) -> filter f l = l.
Proof. induction l as [|x l IH]; intros E; [reflexivity|]. cbn [filter]. rewrite (E x (or_introl eq_refl)), IH; [reflexivity|]. intros y I. apply E. now right. Qed.

(** destroying a page all of whose elements are free *)
Lemma page_destroy_ok p out id : pool_ok p out -> num_free (pages p) id = Some (epp p) ->
  exists p', page_destroy p id = Ok p' /\ pool_ok p' out /\ pages p' = filter (fun e => negb (fst e =? id)%nat) (pages p) /\ (forall e, In e out -> fst e <> id) /\ epp p' = epp p /\ page_frees p' = page_frees p /\ page_allocs p' = page_allocs p.
Proof.
  intros K NF. unfold page_destroy. rewrite NF. replace (epp p <? epp p) with false by (symmetry; apply Z.ltb_ge; lia). eexists. split; [reflexivity|].
  pose proof (ok_used _ _ _ _ K NF) as [U1 U2].
  assert (NO : forall e, In e out -> fst e <> id).
  { intros e I E. assert (J : In e (of_page id out)) by (apply filter_In; split; [exact I|now apply Nat.eqb_eq]). destruct (of_page id out) eqn:Q; [destruct J|]. cbn [length] in U1. lia. }
  split; [|split; [reflexivity|split; [exact NO|repeat split]]].
  assert (EF : filter (fun e => negb ((fst e =? id)%nat && (Z.of_nat (snd e) <? epp p))) (frees p) = filter (fun e => negb (fst e =? id)%nat) (frees p)).
  { apply filter_ext_in'. intros e I. assert (J : In e (elements p)) by (eapply Permutation_in; [apply (ok_all _ _ K)|]; apply in_or_app; now left). apply in_elements in J. destruct J as [_ J]. apply Z.ltb_lt in J. now rewrite J, andb_true_r. }
  rewrite EF. constructor; cbn [set_lists epp pages frees next_page nfree npages elt_size page_size].
  - apply (ok_epp _ _ K).
  - pose proof (ok_ids _ _ K) as ND. clear - ND. induction (pages p) as [|[i k] r IH]; [constructor|]. cbn [map fst filter] in *. inversion ND as [|? ? NI ND']; subst. destruct (negb (i =? id)%nat); [|now apply IH]. cbn [map fst]. constructor; [|now apply IH].
    intros I. apply NI. apply in_map_iff in I. destruct I as (q & E & I). apply filter_In in I. apply in_map_iff. exists q. tauto.
  - pose proof (ok_fresh _ _ K) as FR. rewrite Forall_forall in FR |- *. intros pg I. apply filter_In in I. now apply FR.
  - rewrite filter_elements. rewrite <- (filter_perm _ _ _ (ok_all _ _ K)), filter_app. rewrite (filter_id _ out); [reflexivity|]. intros e I. apply negb_true_iff, Nat.eqb_neq. now apply NO.
  - pose proof (ok_count _ _ K) as C. rewrite Forall_forall in C |- *. intros pg I. apply filter_In in I. destruct I as [I NE]. rewrite (C _ I). f_equal. f_equal. unfold of_page. clear - NE. apply negb_true_iff, Nat.eqb_neq in NE.
    induction (frees p) as [|e l IH]; [reflexivity|]. cbn [filter]. destruct (Nat.eqb_spec (fst e) (fst pg)) as [E|N1].
    + destruct (Nat.eqb_spec (fst e) id); [congruence|]. cbn [negb filter]. rewrite (proj2 (Nat.eqb_eq _ _) E). now rewrite IH.
    + destruct (negb (fst e =? id)%nat); [|exact IH]. cbn [filter]. rewrite (proj2 (Nat.eqb_neq _ _) N1). exact IH.
  - change (full (set_lists p _ _ _ _ _ _ _)) with (full p). rewrite (ok_nfree _ _ K). pose proof (ok_ids _ _ K) as ND. clear - NF ND. induction (pages p) as [|[i k] r IH]; [discriminate|]. cbn [num_free map fst] in *. inversion ND as [|? ? NI ND']; subst. cbn [filter fst].
    destruct (Nat.eqb_spec i id) as [->|NE]; cbn [negb].
    + injection NF as ->. replace (full p (id, epp p)) with true by (symmetry; apply Z.eqb_refl). cbn [length]. rewrite (filter_id (fun e => negb (fst e =? id)%nat) r); [lia|]. intros [j x] I. apply negb_true_iff, Nat.eqb_neq. cbn [fst]. intros ->. apply NI. apply in_map_iff. now exists (id, x).
    + cbn [filter]. specialize (IH NF ND'). destruct (full p (i, k)); cbn [length]; lia.
  - rewrite (ok_npages _ _ K). pose proof (ok_ids _ _ K) as ND. clear - NF ND. induction (pages p) as [|[i k] r IH]; [discriminate|]. cbn [num_free map fst] in *. inversion ND as [|? ? NI ND']; subst. cbn [filter fst length].
    destruct (Nat.eqb_spec i id) as [->|NE]; cbn [negb].
    + rewrite (filter_id (fun e => negb (fst e =? id)%nat) r); [lia|]. intros [j x] I. apply negb_true_iff, Nat.eqb_neq. cbn [fst]. intros ->. apply NI. apply in_map_iff. now exists (id, x).
    + cbn [length]. specialize (IH NF ND'). lia.
  - apply (ok_fits _ _ K).
Qed.

(** releasing an element in use *)
Definition all_free (id : nat) (out : list elt) : Prop := forall e, In e out -> fst e <> id.
Lemma release_ok p o1 e o2 : pool_ok p (o1 ++ e :: o2) ->
  exists p', pool_release p e = Ok p' /\ pool_ok p' (o1 ++ o2) /\ epp p' = epp p /\
    ((frees p' = e :: frees p /\ map fst (pages p') = map fst (pages p) /\ page_frees p' = page_frees p)
     \/ (all_free (fst e) (o1 ++ o2) /\ map fst (pages p') = filter (fun i => negb (i =? fst e)%nat) (map fst (pages p)) /\ page_frees p' = page_frees p + 1 /\
         exists nf np, test p (rcache p) (u64 (ncache p * nf)) (u64 (ncache p * (np - nf))) (flags p) = true)).
Proof.
  intros K. unfold pool_release.
  assert (IE : In e (elements p)) by (eapply Permutation_in; [apply (ok_all _ _ K)|]; apply in_or_app; right; apply in_or_app; right; now left).
  pose proof (proj1 (in_elements _ _) IE) as [IP _]. destruct (num_free_some _ _ IP) as (n & NF). rewrite NF. pose proof (ok_used _ _ _ _ K NF) as [U1 U2].
  set (p1 := set_lists p (if n + 1 =? epp p then nfree p + 1 else nfree p) (npages p) (page_allocs p) (page_frees p) (set_free (pages p) (fst e) (n + 1)) (e :: frees p) (next_page p)).
  assert (LT : n < epp p).
  { rewrite of_page_app, app_length in U1. rewrite of_page_cons, Nat.eqb_refl in U1. cbn [length] in U1. lia. }
  assert (K1 : pool_ok p1 (o1 ++ o2)).
  { constructor; unfold p1; cbn [set_lists epp pages frees next_page nfree npages elt_size page_size].
    - apply (ok_epp _ _ K).
    - rewrite set_free_ids. apply (ok_ids _ _ K).
    - pose proof (ok_fresh _ _ K) as FR. rewrite Forall_forall in FR |- *. intros pg I. assert (J : In (fst pg) (map fst (set_free (pages p) (fst e) (n + 1)))) by now apply in_map. rewrite set_free_ids in J. apply in_map_iff in J. destruct J as (q & <- & J). now apply FR.
    - rewrite elements_set_free. rewrite <- (ok_all _ _ K). cbn [app]. rewrite !app_assoc. apply Permutation_middle.
    - apply count_set_free; [apply (ok_ids _ _ K)| |].
      + rewrite of_page_cons, Nat.eqb_refl. cbn [length]. lia.
      + intros i k I NEI. pose proof (ok_count _ _ K) as C. rewrite Forall_forall in C. specialize (C _ I). cbn [fst snd] in C. rewrite C. rewrite of_page_cons. destruct (Nat.eqb_spec (fst e) i); [congruence|reflexivity].
    - change (full (set_lists p _ _ _ _ _ _ _)) with (full p). rewrite (full_count_set p (fst e) n (n + 1) (ok_ids _ _ K) NF), <- (ok_nfree _ _ K).
      destruct (Z.eqb_spec n (epp p)), (Z.eqb_spec (n + 1) (epp p)); lia.
    - unfold set_free. rewrite map_length. apply (ok_npages _ _ K).
    - apply (ok_fits _ _ K). }
  cbv zeta. fold p1. change (epp p1) with (epp p). change (test p1) with (test p). change (rcache p1) with (rcache p). change (ncache p1) with (ncache p). change (flags p1) with (flags p).
  assert (KEEP : exists p', Ok p1 = Ok p' /\ pool_ok p' (o1 ++ o2) /\ epp p' = epp p /\ ((frees p' = e :: frees p /\ map fst (pages p') = map fst (pages p) /\ page_frees p' = page_frees p)
     \/ (all_free (fst e) (o1 ++ o2) /\ map fst (pages p') = filter (fun i => negb (i =? fst e)%nat) (map fst (pages p)) /\ page_frees p' = page_frees p + 1 /\
         exists nf np, test p (rcache p) (u64 (ncache p * nf)) (u64 (ncache p * (np - nf))) (flags p) = true))).
  { exists p1. split; [reflexivity|]. split; [exact K1|]. split; [reflexivity|]. left. split; [reflexivity|]. split; [apply set_free_ids|reflexivity]. }
  destruct (Z.eqb_spec (n + 1) (epp p)) as [EN|NEN]; [|exact KEEP].
  destruct (test p (rcache p) (u64 (ncache p * nfree p1)) (u64 (ncache p * (npages p1 - nfree p1))) (flags p)) eqn:ET; [|exact KEEP].
  assert (NF1 : num_free (pages p1) (fst e) = Some (epp p1)).
  { apply num_free_nodup; [apply (ok_ids _ _ K1)|]. unfold p1. cbn [set_lists pages epp]. unfold set_free. apply in_map_iff. exists (fst e, n). cbn [fst]. rewrite Nat.eqb_refl, EN. split; [reflexivity|now apply num_free_in]. }
  destruct (page_destroy_ok p1 _ (fst e) K1 NF1) as (p2 & E2 & K2 & PG & NO & EP & PF & PA). rewrite E2. cbn [obind]. eexists. split; [reflexivity|]. split; [|split; [exact EP|right; split; [exact NO|split; [|split; [cbn [set_lists page_frees]; rewrite PF; reflexivity|exists (nfree p1), (npages p1); exact ET]]]]].
  - destruct K2. now constructor.
  - cbn [set_lists pages]. rewrite PG. unfold p1. cbn [set_lists pages]. rewrite <- (set_free_ids (pages p) (fst e) (n + 1)). generalize (set_free (pages p) (fst e) (n + 1)). clear. intros l. induction l as [|[i k] r IH]; [reflexivity|]. cbn [filter map fst]. destruct (negb (i =? fst e)%nat); cbn [map fst]; now rewrite IH.
Qed.
