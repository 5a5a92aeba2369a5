(** C28: zt_ez_mempool. *)
From Verif Require Import Prelude Heap Sep EzModel EzProofs EzSpec EzHistory.
From Coq Require Import Permutation.

Lemma free_chunks_mono : forall f f' h c r, f <= f' -> free_chunks f h c = Ok r -> free_chunks f' h c = Ok r.
Proof.
  induction f as [|f IH]; intros [|f'] h c r L; cbn [free_chunks]; try discriminate; try lia. destruct (c =? 0); [trivial|]. destruct (load_chunk h c) as [[[d n] g]| | |]; cbn [obind]; try discriminate. destruct (drop h d g) as [h1| | |]; cbn [obind]; try discriminate. destruct (release h1 c) as [h2| | |]; cbn [obind]; try discriminate.
  destruct (free_chunks f h2 n) as [q| | |] eqn:E; cbn [obind]; try discriminate. rewrite (IH f' h2 n q ltac:(lia) E). trivial.
Qed.
Lemma destroy_mono : forall f f', f <= f' -> (forall h a r, destroy f h a = Ok r -> destroy f' h a = Ok r) /\ (forall h a r, chain f h a = Ok r -> chain f' h a = Ok r).
Proof.
  induction f as [|f IH]; intros [|f'] L; try lia; [split; cbn; discriminate|split; cbn; discriminate|]. destruct (IH f' ltac:(lia)) as [ID IC]. split; intros h a r.
  - cbn [destroy]. destruct (load_pool h a) as [[[[c s] n] p]| | |]; cbn [obind]; try discriminate. match goal with |- context [obind ?x _] => destruct x as [h1| | |]; cbn [obind]; try discriminate end.
    destruct (free_chunks f h1 c) as [[h2 l1]| | |] eqn:E1; cbn [obind]; try discriminate. rewrite (free_chunks_mono f f' h1 c _ ltac:(lia) E1). cbn [obind]. destruct (chain f h2 s) as [[h3 l2]| | |] eqn:E2; cbn [obind]; try discriminate. rewrite (IC _ _ _ E2). trivial.
  - cbn [chain]. destruct (a =? 0); [trivial|]. destruct (load_pool h a) as [[[[c s] n] p]| | |]; cbn [obind]; try discriminate. destruct (destroy f h a) as [[h1 l1]| | |] eqn:E1; cbn [obind]; try discriminate. rewrite (ID _ _ _ E1). cbn [obind]. destruct (chain f h1 n) as [[h2 l2]| | |] eqn:E2; cbn [obind]; try discriminate. rewrite (IC _ _ _ E2). trivial.
Qed.
Lemma step_mono o f f' h r : f <= f' -> step f h o = Ok r -> step f' h o = Ok r.
Proof.
  intros L. destruct o; trivial. cbn [step]. destruct (destroy f h r0) as [q| | |] eqn:E; cbn [obind]; try discriminate. now rewrite (proj1 (destroy_mono f f' L) _ _ _ E).
Qed.
Lemma does_det h o h1 a1 l1 h2 a2 l2 : does h o h1 a1 l1 -> does h o h2 a2 l2 -> h1 = h2 /\ a1 = a2 /\ l1 = l2.
Proof. intros [N1 A] [N2 B]. specialize (A (N1 + N2) ltac:(lia)). specialize (B (N1 + N2) ltac:(lia)). assert (X : Ok (h1, a1, l1) = Ok (h2, a2, l2)) by congruence. injection X as -> -> ->. auto. Qed.
Lemma does_ok s h o : inv s h -> allowed s o -> exists h' a log s', does h o h' a log /\ after s o a s' log /\ inv s' h'.
Proof.
  intros IV AL. destruct (step_ok s h o IV AL) as (N & Q). destruct (Q N (le_n N)) as (h' & a & log & s' & E & A & B). exists h', a, log, s'. split; [|now split]. exists N. intros fuel L. now apply (step_mono o N fuel).
Qed.
Lemma history_inv h s : history h s -> inv s h.
Proof.
  induction 1 as [|h s o h' a log H IH AL D].
  - exists []. split; [constructor|]. split; [|split; reflexivity]. split; [split; [reflexivity|split; [cbn [fresh]; lia|reflexivity]]|]. split; [split; constructor|]. cbn. congruence.
  - destruct (does_ok s h o IH AL) as (h2 & a2 & l2 & s2 & D2 & A2 & I2). destruct (does_det _ _ _ _ _ _ _ _ D D2) as (-> & -> & ->). destruct A2 as [_ ->]. exact I2.
Qed.

(** In every history, every call a careful user makes terminates and does exactly what is expected: in particular destroying a root runs the destructors registered
    with the pools of its tree, each exactly as often as it was registered, and nothing else ... *)
Theorem C28_calls : forall h s o, history h s -> allowed s o -> exists h' a log, does h o h' a log /\ logged s o log /\ history h' (next s o a).
Proof. intros h s o H AL. destruct (does_ok s h o (history_inv _ _ H) AL) as (h' & a & log & s' & D & [A _] & _). exists h', a, log. split; [exact D|]. split; [exact A|]. exact (Call _ _ _ _ _ _ H AL D). Qed.
Print Assumptions C28_calls.
(** ... and what is in memory is always exactly the live pools, their registrations and the user's own blocks. *)
Theorem C28_memory : forall h s, history h s -> memory s h.
Proof. intros h s H. apply inv_memory, history_inv, H. Qed.
Print Assumptions C28_memory.
(** nothing is left once every root is destroyed and the user freed what was his *)
Theorem C28_no_leak : forall h, history h empty -> forall b, cells h b = None.
Proof.
  intros h H b. destruct (C28_memory _ _ H) as (_ & P & B & hs & _ & L & C). destruct (cells h b) as [c|] eqn:E; [|reflexivity]. exfalso. destruct c as [c u n p|d n f|].
  - apply (P b). eauto.
  - cbn in L. destruct hs; [|discriminate]. apply (C b). eauto.
  - apply (B b). exact E.
Qed.
Print Assumptions C28_no_leak.
(** the order: destructors of a pool run last-registered first, before those of its sub-pools, the last created sub-pool first *)
Theorem C28_order : forall a cs s F h, holds h (pcells (P a cs s Nil) 0 ++ F) -> exists h', (exists N, forall fuel, N <= fuel -> destroy fuel h a = Ok (h', drops (P a cs s Nil))) /\ holds h' F.
Proof.
  intros a cs s F h H. destruct (destroy_ok a cs s F h _ (le_n _) H) as (h' & E & HF & _). exists h'. split; [|exact HF]. exists (sz (P a cs s Nil)). intros fuel L. exact (proj1 (destroy_mono _ fuel L) _ _ _ E).
Qed.
Print Assumptions C28_order.

(** The hypothesis that only roots are destroyed is needed.  [runs] is the program making the calls in a row, from the empty heap. *)
Definition h0 : eheap := mkheap (fun _ => None) 1.
Fixpoint runs (fuel : nat) (ops : list op) (h : eheap) : outcome (eheap * list (cb * nat)) :=
  match ops with [] => Ok (h, []) | o :: r => ' (h, _, l) <- step fuel h o ;; ' (h, l') <- runs fuel r h ;; Ok (h, l ++ l') end.
(* parent 1, sub-pools 2 and 3, block 5 from pool 3: destroying 2 and then 1 never frees pool 3, nor the block *)
Theorem C28_subpool_leak_refuted : exists h, runs 9 [Init 0; Init 1; Init 1; Alloc 3 Default; Destroy 2; Destroy 1] h0 = Ok (h, []) /\ cells h 5 = Some Block /\ cells h 3 = Some (Pool 4 0 2 1) /\ cells h 1 = None.
Proof.
  assert (X : match runs 9 [Init 0; Init 1; Init 1; Alloc 3 Default; Destroy 2; Destroy 1] h0 with Ok (h, []) => (cells h 5, cells h 3, cells h 1) | _ => (None, None, None) end = (Some Block, Some (Pool 4 0 2 1), None)) by (vm_compute; reflexivity).
  destruct (runs 9 _ h0) as [[h [|? ?]]| | |]; try discriminate X. exists h. injection X as -> -> ->. split; [reflexivity|]. split; [reflexivity|]. split; reflexivity.
Qed.
Print Assumptions C28_subpool_leak_refuted.
(* and destroying the sub-pool left over writes through the pointer to its freed parent *)
Theorem C28_orphan_refuted : runs 9 [Init 0; Init 1; Init 1; Destroy 2; Destroy 1; Destroy 3] h0 = UB.
Proof. vm_compute. reflexivity. Qed.
Print Assumptions C28_orphan_refuted.
(* the copy of an empty string is not registered with the pool *)
Theorem C28_strdup_empty_refuted : exists h, runs 9 [Init 0; Strdup 1 0; Destroy 1] h0 = Ok (h, []) /\ cells h 2 = Some Block.
Proof.
  assert (X : match runs 9 [Init 0; Strdup 1 0; Destroy 1] h0 with Ok (h, []) => cells h 2 | _ => None end = Some Block) by (vm_compute; reflexivity).
  destruct (runs 9 _ h0) as [[h [|? ?]]| | |]; try discriminate X. exists h. split; [reflexivity|exact X].
Qed.
Print Assumptions C28_strdup_empty_refuted.

(** non-vacuity: a tree of four pools, a second root, three kinds of registrations *)
Lemma does_fuel h o h' a l : step 20 h o = Ok (h', a, l) -> does h o h' a l.
Proof. intros E. exists 20. intros fuel L. exact (step_mono o 20 fuel _ _ L E). Qed.
Definition allowedb (s : st) (o : op) : bool :=
  let live p := existsb (Nat.eqb p) (map fst (pools s)) in
  match o with
  | Init p => (p =? 0) || live p
  | Alloc p _ | Strdup p _ => live p
  | Add p d _ f => live p && (isuser f || (d =? 0) || existsb (Nat.eqb d) (mine s))
  | Malloc => true
  | Mfree d => existsb (Nat.eqb d) (mine s)
  | Destroy r => existsb (fun e => (fst e =? r) && (snd e =? r)) (pools s)
  end.
Lemma allowedb_ok s o : allowedb s o = true -> allowed s o.
Proof.
  assert (X : forall x l, existsb (Nat.eqb x) l = true -> In x l). { intros x l E. apply existsb_exists in E. destruct E as (y & I & E). apply Nat.eqb_eq in E. now subst. }
  destruct o; cbn [allowedb allowed]; intros E; try (now apply X); try exact I.
  - apply orb_true_iff in E. destruct E as [E|E]; [left; now apply Nat.eqb_eq|right; now apply X].
  - apply andb_true_iff in E. destruct E as [E1 E2]. split; [now apply X|]. apply orb_true_iff in E2. destruct E2 as [E2|E2]; [|right; right; now apply X]. apply orb_true_iff in E2. destruct E2 as [E2|E2]; [now left|right; left; now apply Nat.eqb_eq].
  - apply existsb_exists in E. destruct E as ([x y] & J & E). apply andb_true_iff in E. destruct E as [E1 E2]. apply Nat.eqb_eq in E1. apply Nat.eqb_eq in E2. cbn [fst snd] in *. now subst.
Qed.
Fixpoint prog (ops : list op) (h : eheap) (s : st) : option (eheap * st * list (cb * nat)) :=
  match ops with
  | [] => Some (h, s, [])
  | o :: r => if allowedb s o then match step 20 h o with Ok (h, a, l) => match prog r h (next s o a) with Some (h, s, l') => Some (h, s, l ++ l') | None => None end | _ => None end else None
  end.
Lemma prog_ok : forall ops h s h' s' l, history h s -> prog ops h s = Some (h', s', l) -> history h' s'.
Proof.
  induction ops as [|o ops IH]; intros h s h' s' l H; cbn [prog]; [intros E; assert (h = h' /\ s = s') as [<- <-] by (split; congruence); exact H|]. destruct (allowedb s o) eqn:A; [|discriminate]. destruct (step 20 h o) as [[[h1 a] l1]| | |] eqn:E; try discriminate. destruct (prog ops h1 (next s o a)) as [[[h2 s2] l2]|] eqn:F; [|discriminate]. intros X. assert (h2 = h' /\ s2 = s') as [-> ->] by (split; congruence).
  apply (IH _ _ _ _ _ (Call _ _ _ _ _ _ H (allowedb_ok _ _ A) (does_fuel _ _ _ _ _ E)) F).
Qed.
Definition case : list op := [Init 0; Init 1; Init 2; Init 1; Alloc 2 Default; Malloc; Init 0; Malloc; Add 4 9 3 (User 7); Strdup 1 5; Strdup 8 4].
Definition view (x : option (eheap * st * list (cb * nat))) : option (list (nat * nat) * nat * list (cb * nat)) := match x with Some (_, s, l) => Some (pools s, length (rg s), l) | None => None end.
(* four pools in the tree of 1, and the root 8 *)
Example history_case : view (prog case h0 empty) = Some ([(8, 8); (4, 1); (3, 1); (2, 1); (1, 1)], 4, []) /\ view (prog (case ++ [Destroy 1]) h0 empty) = Some ([(8, 8)], 1, [(Free, 11); (User 7, 9); (Default, 6)]) /\
  view (prog (case ++ [Destroy 8; Destroy 1; Mfree 9; Mfree 7]) h0 empty) = Some ([], 0, [(Free, 13); (Free, 11); (User 7, 9); (Default, 6)]).
Proof. split; [|split]; vm_compute; reflexivity. Qed.

(** zt_ez_mempool_add_buffer refuses a NULL or empty buffer with -1 and changes nothing; otherwise, whenever the pool exists, it answers 0. *)
Theorem C28_add_result : forall h p d n f,
  (d = 0 \/ n = 0 -> add_buffer h p d n f = Ok (h, (-1)%Z)) /\
  (d <> 0 -> n <> 0 -> forall h' r, add_buffer h p d n f = Ok (h', r) -> r = 0%Z).
Proof.
  intros h p d n f. unfold add_buffer. split.
  - intros [-> | ->]; [reflexivity|]. now rewrite orb_true_r.
  - intros D N h' r. replace (d =? 0) with false by (symmetry; now apply Nat.eqb_neq). replace (n =? 0) with false by (symmetry; now apply Nat.eqb_neq). cbn [orb].
    destruct (alloc h (Chunk d 0 f)) as [ch h1]. destruct (chunk_append h1 p ch); cbn [obind]; congruence.
Qed.
Print Assumptions C28_add_result.
Example C28_add_result_example : match init h0 0 with Ok (h, p) => let (d, h) := alloc h Block in match add_buffer h p d 3 Free with Ok (_, r) => r = 0%Z | _ => False end | _ => False end.
Proof. vm_compute. reflexivity. Qed.
