(** C83: compat/sys/tree.h, the red-black tree macros.  Specification: [holds_tree cmp h head U L] (RbtIter.v): the pointers below head form a red-black tree with
    consistent parent pointers whose in-order sequence is L, sorted by cmp; U are all the elements that exist.  [spec_call]/[spec_calls] (RbMacProofs.v) are the
    same calls on the sorted list.  The fuel hypotheses say that 2*log2(n+1)+3 steps are enough for every search and repair loop, n for an iteration. *)
From Verif Require Import Prelude Heap RbtModel RbtRep RbtInsert RbtRemove RbtSearch RbtIter RbMacModel RbMacProofs.
From Coq Require Import Permutation Sorted.

(** every history of macro calls on every tree answers like the sorted list, and ends in an ordered red-black tree of exactly those elements *)
Theorem C83_history : forall cmp fuel U cs h head L, three_way cmp -> 2 * Nat.log2 (length U + 1) + 3 <= fuel -> length U < fuel ->
  holds_tree cmp h head U L -> proper cmp U L cs ->
  exists h' head', do_calls fuel cmp h head cs = Ok (h', head', snd (spec_calls cmp L cs)) /\ holds_tree cmp h' head' U (fst (spec_calls cmp L cs)).
Proof. intros cmp fuel U cs h head L TW F1 F2. now apply calls_ok. Qed.
Print Assumptions C83_history.
(** in particular from RB_INITIALIZER (head NULL), the elements U being distinct live nodes with any contents *)
Theorem C83_from_init : forall cmp fuel U cs h, three_way cmp -> 2 * Nat.log2 (length U + 1) + 3 <= fuel -> length U < fuel ->
  NoDup U -> Forall (fun a => a <> 0 /\ exists n, cells h a = Some n) U -> proper cmp U [] cs ->
  exists h' head', do_calls fuel cmp h 0 cs = Ok (h', head', snd (spec_calls cmp [] cs)) /\ holds_tree cmp h' head' U (fst (spec_calls cmp [] cs)).
Proof.
  intros cmp fuel U cs h TW F1 F2 ND FA LG. apply calls_ok; try assumption.
  assert (C : exists F, map fst F = U /\ Forall (fun e => fst e <> 0 /\ cells h (fst e) = Some (snd e)) F).
  { clear - FA. induction FA as [|a U (A & n & B) _ (F & E & IH)]; [now exists []|]. exists ((a, n) :: F). cbn [map fst]. split; [now rewrite E|]. constructor; [now split|exact IH]. }
  destruct C as (F & E & FF). exists RbtRep.E, F. split; [reflexivity|]. split; [split; [cbn [nodes app]; now rewrite E|exact FF]|]. split; [split; [exact I|now exists 0]|]. split; [reflexivity|]. split; [constructor|]. cbn [nodes app]. now rewrite E.
Qed.
Print Assumptions C83_from_init.
(** RB_PREV is the element before, NULL before the first; RB_NEXT the element after, NULL after the last *)
Theorem C83_prev : forall cmp fuel h head U A a B, 2 * Nat.log2 (length (A ++ a :: B) + 1) < fuel -> holds_tree cmp h head U (A ++ a :: B) ->
  rb_prev fuel h a = Ok (last A 0) /\ rb_next fuel h a = Ok (hd 0 B).
Proof.
  intros cmp fuel h head U A a B FU (T & F & -> & H & RB & IO & _). pose proof (rb_log T RB) as LG. rewrite IO in LG. split; [apply (prev_ok h T F A a B fuel ltac:(lia) H IO)|].
  rewrite next_same; [apply (next_ok h T F A a B fuel ltac:(lia) H IO)|]. apply (holds_nonzero h T 0 F a H). rewrite IO. apply in_or_app. right. now left.
Qed.
Print Assumptions C83_prev.
(** the two are inverse to each other between neighbours *)
Theorem C83_inverse : forall cmp fuel h head U A a b B, 2 * Nat.log2 (length (A ++ a :: b :: B) + 1) < fuel -> holds_tree cmp h head U (A ++ a :: b :: B) ->
  rb_next fuel h a = Ok b /\ rb_prev fuel h b = Ok a.
Proof.
  intros cmp fuel h head U A a b B FU HT. split; [apply (C83_prev cmp fuel h head U A a (b :: B) FU HT)|].
  change (a :: b :: B) with ([a] ++ b :: B) in FU, HT. rewrite app_assoc in FU, HT. pose proof (proj1 (C83_prev cmp fuel h head U (A ++ [a]) b B FU HT)) as K. now rewrite last_last in K.
Qed.
Print Assumptions C83_inverse.
(** RB_FOREACH visits every element once in order, RB_FOREACH_REVERSE every element once from the last to the first *)
Theorem C83_foreach : forall cmp fuel h head U L, 2 * Nat.log2 (length L + 1) < fuel -> length L < fuel -> holds_tree cmp h head U L ->
  rb_foreach fuel h head = Ok L /\ rb_foreach_reverse fuel h head = Ok (rev L) /\ NoDup L.
Proof.
  intros cmp fuel h head U L FU FV (T & F & -> & H & RB & IO & _). pose proof (rb_log T RB) as LG. subst L.
  split; [rewrite foreach_same; apply (for_each_ok h T F fuel ltac:(lia) FV H)|]. split; [apply (foreach_reverse_ok h T F fuel ltac:(lia) FV H)|apply (holds_nodup _ _ _ _ H)].
Qed.
Print Assumptions C83_foreach.
(** RB_EMPTY is true exactly of the tree without elements (zt_rbt_empty is not, C26) *)
Theorem C83_empty : forall cmp h head U L, holds_tree cmp h head U L -> (rb_empty head = true <-> L = []).
Proof. intros cmp h head U L (T & F & -> & H & RB & <- & _). rewrite (empty_ok h T F H). destruct (inorder T); split; intros; congruence. Qed.
Print Assumptions C83_empty.
(** RB_NEXT and RB_PREV read their argument: of NULL they are undefined (zt_rbt_next answers NULL) *)
Theorem C83_null : forall fuel h, cells h 0 = None -> rb_next fuel h 0 = UB /\ rb_prev fuel h 0 = UB /\ next fuel h 0 = Ok 0.
Proof. intros fuel h N. unfold rb_next, rb_prev, load. rewrite N. now repeat split. Qed.
Print Assumptions C83_null.
(** a step reads only the tree: nothing in the heap changes in any call but insert and remove *)
Theorem C83_readonly : forall fuel cmp h head c h' head' r, (forall x, c <> Insert x /\ c <> Remove x) -> do_call fuel cmp h head c = Ok (h', head', r) -> h' = h /\ head' = head.
Proof.
  intros fuel cmp h head c h' head' r N K. destruct c as [x|x|x|x|x|x| | | | |]; cbn [do_call] in K;
    [destruct (N x) as [M _]; congruence|destruct (N x) as [_ M]; congruence|..|injection K as <- <- _; now split].
  - destruct (find fuel cmp h head x); cbn [obind] in K; try discriminate; injection K as <- <- _; now split.
  - destruct (nfind fuel cmp h head x); cbn [obind] in K; try discriminate; injection K as <- <- _; now split.
  - destruct (rb_next fuel h x); cbn [obind] in K; try discriminate; injection K as <- <- _; now split.
  - destruct (rb_prev fuel h x); cbn [obind] in K; try discriminate; injection K as <- <- _; now split.
  - destruct (minmax fuel h head (-1)%Z); cbn [obind] in K; try discriminate; injection K as <- <- _; now split.
  - destruct (minmax fuel h head 1%Z); cbn [obind] in K; try discriminate; injection K as <- <- _; now split.
  - destruct (rb_foreach fuel h head); cbn [obind] in K; try discriminate; injection K as <- <- _; now split.
  - destruct (rb_foreach_reverse fuel h head); cbn [obind] in K; try discriminate; injection K as <- <- _; now split.
Qed.
Print Assumptions C83_readonly.

(** non-vacuity: a history that takes every branch of RB_PREV, and a tree that meets [holds_tree] *)
Definition bynum (x y : nat) : Z := (Z.of_nat x - Z.of_nat y)%Z.
Example bynum_ok : three_way bynum.
Proof. split; unfold bynum; intros; lia. Qed.
Definition room : nheap := mkheap (fun a => if (0 <? a) && (a <? 12) then Some (mknode red 99 98 97) else None) 12.
Definition work : list call := [Empty; Foreach; ForeachReverse; Insert 5; Insert 2; Insert 8; Insert 1; Insert 9; Insert 3; Insert 7; Insert 4; Insert 6; Insert 3].
Definition more : list call := [Empty; Prev 1; Prev 2; Prev 3; Prev 4; Prev 5; Prev 6; Prev 7; Prev 8; Prev 9; Next 9; Next 4; Remove 5; Prev 6; Find 5; Nfind 5; Min; Max; Foreach; ForeachReverse].
Example history_case : exists h' head', do_calls 20 bynum room 0 (work ++ more) = Ok (h', head',
  [Bool true; Visited []; Visited []; Node 0; Node 0; Node 0; Node 0; Node 0; Node 0; Node 0; Node 0; Node 0; Node 3] ++
  [Bool false; Node 0; Node 1; Node 2; Node 3; Node 4; Node 5; Node 6; Node 7; Node 8; Node 0; Node 5; Node 5; Node 4; Node 0; Node 6; Node 1; Node 9; Visited [1; 2; 3; 4; 6; 7; 8; 9]; Visited [9; 8; 7; 6; 4; 3; 2; 1]]).
Proof. eexists _, _. vm_compute. reflexivity. Qed.
Example proper_case : proper bynum (seq 1 11) [] (work ++ more).
Proof. vm_compute. tauto. Qed.
Example tree_case : exists h' head', holds_tree bynum h' head' (seq 1 11) [1; 2; 3; 4; 5; 6; 7; 8; 9].
Proof.
  destruct (C83_from_init bynum 20 (seq 1 11) work room bynum_ok) as (h' & head' & _ & HT);
    [vm_compute; lia|vm_compute; lia|apply seq_NoDup|repeat constructor; try discriminate; eexists; reflexivity|vm_compute; tauto|].
  exists h', head'. exact HT.
Qed.
