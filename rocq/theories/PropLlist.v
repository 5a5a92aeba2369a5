(** C22, C23: zt_llist.h.  [chain m p l]: in memory m the list p consists of exactly the cells l
    (address, item); [same_outside A m m']: m' equals m at every address not in A. *)
From Verif Require Import Prelude Heap LlistModel LlistProofs.
From Coq Require Import Permutation Sorted.

(** ** C22.  In every statement the fuel only has to exceed the length: the loops terminate. *)
Theorem C22_cons : forall m v p l, wf m -> chain m p l ->
  exists m', llist_cons m v p = Ok (fresh m, m') /\ chain m' (fresh m) ((fresh m, v) :: l) /\
  ~ In (fresh m) (addrs l) /\ same_outside [fresh m] m m' /\ wf m' /\ fresh m' = S (fresh m).
Proof. exact cons_ok. Qed.
Print Assumptions C22_cons.
Theorem C22_pop : forall m p l, chain m p l -> NoDup (addrs l) ->
  match l with
  | [] => llist_pop m p = Ok (0%Z, 0, m)
  | (a, v) :: r => exists q m', llist_pop m p = Ok (v, q, m') /\ chain m' q r /\ cells m' a = None /\ same_outside [a] m m'
  end.
Proof. exact pop_ok. Qed.
Print Assumptions C22_pop.
Theorem C22_nth : forall m l p k fuel, chain m p l -> length l < fuel -> (0 <= k)%Z ->
  llist_nth fuel m p k = match nth_error (items l) (Z.to_nat k) with Some v => Ok v | None => Abort end.
Proof. exact nth_ok. Qed.
Print Assumptions C22_nth.
Theorem C22_nthtail : forall m l p k fuel, chain m p l -> length l < fuel -> (0 <= k)%Z ->
  if Z.to_nat k <? length l then exists t, llist_nthtail fuel m p k = Ok t /\ chain m t (skipn (S (Z.to_nat k)) l)
  else llist_nthtail fuel m p k = Abort.
Proof. exact nthtail_ok. Qed.
Print Assumptions C22_nthtail.
(** reverse copies: the old list and every old cell are untouched, the new one is fresh *)
Theorem C22_reverse : forall l m p fuel, wf m -> chain m p l -> length l < fuel ->
  exists q m' r, llist_reverse fuel m p = Ok (q, m') /\ chain m' q r /\ items r = rev (items l) /\ chain m' p l /\
    (forall a, a < fresh m -> cells m' a = cells m a) /\ Forall (fun a => fresh m <= a) (addrs r) /\ NoDup (addrs r) /\ wf m'.
Proof. exact reverse_ok_heap. Qed.
Print Assumptions C22_reverse.
(** nreverse relinks: the same cells in the opposite order *)
Theorem C22_nreverse : forall l m p fuel, chain m p l -> NoDup (addrs l) -> length l < fuel ->
  exists q m', llist_nreverse fuel m p = Ok (q, m') /\ chain m' q (rev l) /\ same_outside (addrs l) m m' /\ fresh m' = fresh m.
Proof. exact nreverse_ok. Qed.
Print Assumptions C22_nreverse.
(** nmerge keeps every cell of both lists exactly once and touches nothing else *)
Theorem C22_nmerge : forall cmp l1 l2 m p1 p2 fuel, chain m p1 l1 -> chain m p2 l2 -> NoDup (addrs l1 ++ addrs l2) ->
  length l1 + length l2 < fuel ->
  exists q m' l, llist_nmerge fuel cmp m p1 p2 = Ok (q, m') /\ chain m' q l /\ Permutation l (l1 ++ l2) /\
    same_outside (addrs l1 ++ addrs l2) m m' /\ fresh m' = fresh m.
Proof.
  intros cmp l1 l2 m p1 p2 fuel C1 C2 N F. destruct (nmerge_ok cmp l1 l2 m p1 p2 fuel C1 C2 N F) as (q & m' & H1 & H2 & H3).
  exists q, m', (merge cmp l1 l2). repeat split; try tauto. apply merge_perm.
Qed.
Print Assumptions C22_nmerge.
(** merging two ordered lists gives an ordered list *)
Theorem C22_nmerge_sorted : forall cmp (R : Z -> Z -> Prop) l1 l2 m p1 p2 fuel,
  (forall a b c, R a b -> R b c -> R a c) -> (forall a b, cmp b a <> 0%Z -> R a b) -> (forall a b, cmp b a = 0%Z -> R b a) ->
  chain m p1 l1 -> chain m p2 l2 -> NoDup (addrs l1 ++ addrs l2) -> length l1 + length l2 < fuel ->
  StronglySorted (fun x y => R (snd x) (snd y)) l1 -> StronglySorted (fun x y => R (snd x) (snd y)) l2 ->
  exists q m' l, llist_nmerge fuel cmp m p1 p2 = Ok (q, m') /\ chain m' q l /\ Permutation l (l1 ++ l2) /\
    StronglySorted (fun x y => R (snd x) (snd y)) l.
Proof.
  intros cmp R l1 l2 m p1 p2 fuel T Y No C1 C2 N F S1 S2.
  destruct (nmerge_ok cmp l1 l2 m p1 p2 fuel C1 C2 N F) as (q & m' & H1 & H2 & H3).
  exists q, m', (merge cmp l1 l2). repeat split; try tauto; [apply merge_perm|now apply (merge_sorted cmp R)].
Qed.
Print Assumptions C22_nmerge_sorted.
(** free releases every cell of the list, exactly once, and nothing else *)
Theorem C22_free : forall l m p fuel, chain m p l -> NoDup (addrs l) -> length l < fuel ->
  exists m', llist_free fuel m p = Ok m' /\ (forall a, In a (addrs l) -> cells m' a = None) /\ same_outside (addrs l) m m'.
Proof. exact free_ok. Qed.
Print Assumptions C22_free.

(** ** C23 sort *)
(** a permutation of the same cells, nothing else touched, for any comparison function whatever *)
Theorem C23_sort_permutation : forall cmp fuel l m p, chain m p l -> NoDup (addrs l) -> length l < fuel ->
  exists q m' l', llist_sort fuel cmp m p = Ok (q, m') /\ chain m' q l' /\ Permutation l l' /\
    same_outside (addrs l) m m' /\ fresh m' = fresh m.
Proof.
  intros cmp fuel l m p C N F. destruct (sort_msort cmp fuel l m p C N F) as (q & m' & l' & H1 & H2 & H3 & H4).
  exists q, m', l'. repeat split; try tauto. now apply (msort_perm cmp).
Qed.
Print Assumptions C23_sort_permutation.
(** ordered by every transitive R which cmp decides in the sense "cmp(y,x) non-zero: x may precede y; zero: y may
    precede x" - this covers both a >= test and a > test of a total preorder *)
Theorem C23_sort_sorted : forall cmp (R : Z -> Z -> Prop) fuel l m p,
  (forall a b c, R a b -> R b c -> R a c) -> (forall a b, cmp b a <> 0%Z -> R a b) -> (forall a b, cmp b a = 0%Z -> R b a) ->
  chain m p l -> NoDup (addrs l) -> length l < fuel ->
  exists q m' l', llist_sort fuel cmp m p = Ok (q, m') /\ chain m' q l' /\ Permutation l l' /\ StronglySorted R (items l').
Proof.
  intros cmp R fuel l m p T Y No C N F. destruct (sort_msort cmp fuel l m p C N F) as (q & m' & l' & H1 & H2 & H3 & H4).
  exists q, m', l'. repeat split; try tauto; [now apply (msort_perm cmp)|].
  pose proof (msort_sorted cmp R T Y No l l' H3) as S. clear -S. unfold items.
  induction S as [|x l S IH HF]; cbn [map]; constructor; auto. clear -HF. induction HF; cbn [map]; constructor; auto.
Qed.
Print Assumptions C23_sort_sorted.
(** stable when cmp(y,x) != 0 iff x <= y *)
Theorem C23_sort_stable : forall cmp (R : Z -> Z -> bool) fuel l m p,
  (forall a b c, R a b = true -> R b c = true -> R a c = true) -> (forall a b, R a b = true \/ R b a = true) ->
  (forall a b, cmp b a <> 0%Z <-> R a b = true) ->
  chain m p l -> NoDup (addrs l) -> length l < fuel ->
  exists q m' l', llist_sort fuel cmp m p = Ok (q, m') /\ chain m' q l' /\
    forall v, filter (fun x => R v (snd x) && R (snd x) v) l' = filter (fun x => R v (snd x) && R (snd x) v) l.
Proof.
  intros cmp R fuel l m p T To Y C N F. destruct (sort_msort cmp fuel l m p C N F) as (q & m' & l' & H1 & H2 & H3 & H4).
  exists q, m', l'. repeat split; auto. intros v. now apply (msort_stable cmp R T Y To).
Qed.
Print Assumptions C23_sort_stable.
(** A three-way comparison (negative / zero / positive, as strcmp) does not sort. *)
Definition three_way (a b : Z) : Z := (a - b)%Z.
Definition m123 : mem := mkheap (fun a => match a with 1 => Some (mkpair 2 2) | 2 => Some (mkpair 3 3) | 3 => Some (mkpair 1 0) | _ => None end) 4.
Ltac chain_tac := cbn; repeat (split; [reflexivity|split; [discriminate|eexists; split; [reflexivity|cbn]]]); reflexivity.
Lemma m123_wf : wf m123.
Proof. split; [reflexivity|]. split; [cbn; lia|]. intros [|[|[|[|a]]]] H; cbn in *; auto; lia. Qed.
Theorem C23_three_way_refuted : exists m p l q m' l', wf m /\ chain m p l /\ NoDup (addrs l) /\
  llist_sort 4 three_way m p = Ok (q, m') /\ chain m' q l' /\ ~ StronglySorted Z.le (items l').
Proof.
  exists m123, 1, [(1,2%Z);(2,3%Z);(3,1%Z)], 1.
  destruct (llist_sort 4 three_way m123 1) as [[q m']| | |] eqn:E; vm_compute in E; try discriminate.
  exists m', [(1,2%Z);(2,3%Z);(3,1%Z)]. injection E as <- <-. split; [exact m123_wf|]. split; [chain_tac|].
  split; [repeat constructor; cbn; lia|]. split; [reflexivity|]. split; [chain_tac|].
  intros S. inversion S as [|? ? ? H]; subst. inversion H as [|? ? ? H']; subst. inversion H'; subst. lia.
Qed.
Print Assumptions C23_three_way_refuted.

(** non-vacuity: a three-element list in memory, sorted by "greater or equal" *)
Definition geb (a b : Z) : Z := if (a >=? b)%Z then 1%Z else 0%Z.
Example C22_ex : wf m123 /\ chain m123 1 [(1,2%Z);(2,3%Z);(3,1%Z)] /\ NoDup (addrs [(1,2%Z);(2,3%Z);(3,1%Z)]) /\
  llist_nth 4 m123 1 2 = Ok 1%Z /\ llist_nth 4 m123 1 3 = Abort.
Proof.
  split; [exact m123_wf|]. split; [chain_tac|]. split; [repeat constructor; cbn; lia|]. split; reflexivity.
Qed.
Example C23_ex : exists q m', llist_sort 4 geb m123 1 = Ok (q, m') /\ chain m' q [(3,1%Z);(1,2%Z);(2,3%Z)] /\
  (forall a b, geb b a <> 0%Z <-> (a <=? b)%Z = true).
Proof.
  destruct (llist_sort 4 geb m123 1) as [[q m']| | |] eqn:E; vm_compute in E; try discriminate.
  injection E as <- <-. do 2 eexists. split; [reflexivity|]. split; [chain_tac|].
  intros a b. unfold geb. destruct (b >=? a)%Z eqn:G; split; intros; try lia; try congruence.
Qed.
