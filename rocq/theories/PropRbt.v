(** C26: zt_tree.c.  Specification: [holds_tree cmp h head U L] (RbtIter.v): the pointers below head form a binary tree with consistent parent pointers whose
    in-order sequence is L, sorted by cmp, with the red-black colouring [rbtree] (RbtInsert.v: black root, no red node with a red child, equal black heights);
    U are all the elements that exist.  [spec_step]/[spec_run] (RbtIter.v) is the same operation on the sorted list.  The fuel hypotheses say that
    2*log2(n+1)+3 steps are enough for every search and repair loop. *)
From Verif Require Import Prelude Heap RbtModel RbtRep RbtInsert RbtRemove RbtSearch RbtIter.
From Coq Require Import Permutation Sorted.

(** every history of operations on every tree behaves like the sorted list, and ends in an ordered red-black tree of exactly those elements *)
Theorem C26_history : forall cmp fuel U os h head L, three_way cmp -> 2 * Nat.log2 (length U + 1) + 3 <= fuel -> length U < fuel ->
  holds_tree cmp h head U L -> legal cmp U L os ->
  exists h' head', run fuel cmp h head os = Ok (h', head', snd (spec_run cmp L os)) /\ holds_tree cmp h' head' U (fst (spec_run cmp L os)).
Proof. intros cmp fuel U os h head L TW F1 F2. now apply run_ok. Qed.
Print Assumptions C26_history.
(** in particular from the empty tree (head NULL), the elements U being distinct live nodes with any contents *)
Theorem C26_from_empty : forall cmp fuel U os h, three_way cmp -> 2 * Nat.log2 (length U + 1) + 3 <= fuel -> length U < fuel ->
  NoDup U -> Forall (fun a => a <> 0 /\ exists n, cells h a = Some n) U -> legal cmp U [] os ->
  exists h' head', run fuel cmp h 0 os = Ok (h', head', snd (spec_run cmp [] os)) /\ holds_tree cmp h' head' U (fst (spec_run cmp [] os)).
Proof.
  intros cmp fuel U os h TW F1 F2 ND FA LG. apply run_ok; try assumption.
  assert (C : exists F, map fst F = U /\ Forall (fun e => fst e <> 0 /\ cells h (fst e) = Some (snd e)) F).
  { clear - FA. induction FA as [|a U (A & n & B) _ (F & E & IH)]; [now exists []|]. exists ((a, n) :: F). cbn [map fst]. split; [now rewrite E|]. constructor; [now split|exact IH]. }
  destruct C as (F & E & FF). exists RbtRep.E, F. split; [reflexivity|]. split; [split; [cbn [nodes app]; now rewrite E|exact FF]|]. split; [split; [exact I|now exists 0]|]. split; [reflexivity|]. split; [constructor|]. cbn [nodes app]. now rewrite E.
Qed.
Print Assumptions C26_from_empty.

(** insertion: an equal element is returned and nothing changes; otherwise x is added in its place.  The other cells F of the heap keep their contents *)
Theorem C26_insert : forall cmp fuel h T x n0 F, three_way cmp -> rbtree T -> sorted cmp (inorder T) -> 2 * Nat.log2 (length (inorder T) + 1) + 3 <= fuel ->
  holds h (nodes T 0 ++ (x, n0) :: F) ->
  match List.find (fun y => cmp x y =? 0)%Z (inorder T) with
  | Some y => insert fuel cmp h (root T) x = Ok (h, root T, y)
  | None => exists h' T', insert fuel cmp h (root T) x = Ok (h', root T', 0) /\ holds h' (nodes T' 0 ++ F) /\ rbtree T' /\
      inorder T' = filter (fun y => 0 <? cmp x y)%Z (inorder T) ++ x :: filter (fun y => cmp x y <? 0)%Z (inorder T) /\ sorted cmp (inorder T')
  end.
Proof. intros cmp fuel h T x n0 F TW RB SO FU H. apply (insert_ok cmp TW fuel h T x n0 F RB SO); [pose proof (rb_log T RB); lia|exact H]. Qed.
Print Assumptions C26_insert.
(** removal of an element of the tree takes out exactly that element; the removed node and the other cells are not part of the tree any more *)
Theorem C26_remove : forall fuel h T F A a B, rbtree T -> 2 * Nat.log2 (length (inorder T) + 1) + 2 <= fuel -> holds h (nodes T 0 ++ F) -> inorder T = A ++ a :: B ->
  exists h' T' n, remove fuel h (root T) a = Ok (h', root T', a) /\ holds h' (nodes T' 0 ++ (a, n) :: F) /\ rbtree T' /\ inorder T' = A ++ B.
Proof. intros fuel h T F A a B RB FU. apply remove_list; [exact RB|pose proof (rb_log T RB); lia]. Qed.
Print Assumptions C26_remove.
(** find: the element equal to the key, NULL if there is none *)
Theorem C26_find : forall cmp fuel h T F x, three_way cmp -> rbtree T -> sorted cmp (inorder T) -> 2 * Nat.log2 (length (inorder T) + 1) < fuel -> holds h (nodes T 0 ++ F) ->
  exists y, find fuel cmp h (root T) x = Ok y /\ (y <> 0 -> In y (inorder T) /\ cmp x y = 0%Z) /\ (y = 0 -> forall v, In v (inorder T) -> cmp x v <> 0%Z).
Proof.
  intros cmp fuel h T F x TW RB SO FU H. pose proof (rb_log T RB). unfold find. rewrite (find_from_ok cmp TW h x T F 0 fuel ltac:(lia) H SO). eexists. split; [reflexivity|]. unfold found.
  destruct (List.find (fun y => cmp x y =? 0)%Z (inorder T)) as [y|] eqn:FI.
  - apply find_some in FI. destruct FI as [I E]. apply Z.eqb_eq in E. split; [auto|]. intros ->. exfalso. now apply (holds_nonzero h T 0 F 0 H).
  - split; [congruence|]. intros _ v I E. apply (List.find_none _ _ FI) in I. apply Z.eqb_neq in I. contradiction.
Qed.
Print Assumptions C26_find.
(** nfind: the least element not less than the key, NULL if all are less *)
Theorem C26_nfind : forall cmp fuel h T F x, three_way cmp -> rbtree T -> sorted cmp (inorder T) -> 2 * Nat.log2 (length (inorder T) + 1) < fuel -> holds h (nodes T 0 ++ F) ->
  exists y, nfind fuel cmp h (root T) x = Ok y /\
    (y <> 0 -> In y (inorder T) /\ (cmp x y <= 0)%Z /\ forall v, In v (inorder T) -> (cmp x v <= 0)%Z -> v = y \/ (cmp y v < 0)%Z) /\
    (y = 0 -> forall v, In v (inorder T) -> (0 < cmp x v)%Z).
Proof.
  intros cmp fuel h T F x TW RB SO FU H. pose proof (rb_log T RB). unfold nfind. rewrite (nfind_from_ok cmp TW h x T F 0 fuel 0 ltac:(lia) H SO). eexists. split; [reflexivity|]. unfold ceiling.
  destruct (List.find (fun y => cmp x y <=? 0)%Z (inorder T)) as [y|] eqn:FI.
  - pose proof (find_some _ _ FI) as [I E]. apply Z.leb_le in E. split; [|intros ->; exfalso; now apply (holds_nonzero h T 0 F 0 H)]. intros _. split; [exact I|]. split; [exact E|].
    clear - FI SO. induction (inorder T) as [|u M IH]; [discriminate|]. cbn [List.find] in FI. inversion SO as [|? ? S1 S2]; subst. rewrite Forall_forall in S2. intros v [->|J] LE.
    + rewrite (proj2 (Z.leb_le _ _) LE) in FI. left. congruence.
    + destruct (cmp x u <=? 0)%Z; [assert (u = y) by congruence; subst; right; now apply S2|]. now apply IH.
  - split; [congruence|]. intros _ v I. apply (List.find_none _ _ FI) in I. now apply Z.leb_gt in I.
Qed.
Print Assumptions C26_nfind.
(** next is the following element in order, NULL after the last; for_each visits all in order *)
Theorem C26_next : forall fuel h T F A a B, rbtree T -> 2 * Nat.log2 (length (inorder T) + 1) < fuel -> holds h (nodes T 0 ++ F) -> inorder T = A ++ a :: B ->
  next fuel h a = Ok (match B with [] => 0 | b :: _ => b end).
Proof. intros fuel h T F A a B RB FU H IO. rewrite (next_ok h T F A a B fuel ltac:(pose proof (rb_log T RB); lia) H IO). now destruct B. Qed.
Print Assumptions C26_next.
Theorem C26_for_each : forall fuel h T F, rbtree T -> 2 * Nat.log2 (length (inorder T) + 1) < fuel -> length (inorder T) < fuel -> holds h (nodes T 0 ++ F) -> for_each fuel h (root T) = Ok (inorder T).
Proof. intros fuel h T F RB FU FV H. apply (for_each_ok h T F fuel); [pose proof (rb_log T RB); lia|exact FV|exact H]. Qed.
Print Assumptions C26_for_each.
(** the first and the last element *)
Theorem C26_minmax : forall fuel h T F val, rbtree T -> 2 * Nat.log2 (length (inorder T) + 1) < fuel -> holds h (nodes T 0 ++ F) ->
  minmax fuel h (root T) val = Ok (if (val <? 0)%Z then hd 0 (inorder T) else last (inorder T) 0).
Proof. intros fuel h T F val RB FU H. apply (minmax_ok h val T F 0 0 fuel); [pose proof (rb_log T RB); lia|exact H]. Qed.
Print Assumptions C26_minmax.
(** iteration with removal of the current element: every element is visited once, in order; the kept ones remain, the removed nodes D are out *)
Theorem C26_for_each_safe : forall fuel del h T F, rbtree T -> 2 * Nat.log2 (length (inorder T) + 1) + 2 <= fuel -> length (inorder T) < fuel -> holds h (nodes T 0 ++ F) ->
  exists h' T' D, for_each_safe fuel del h (root T) = Ok (h', root T', inorder T) /\ holds h' (nodes T' 0 ++ D ++ F) /\ rbtree T' /\
    inorder T' = filter (fun a => negb (del a)) (inorder T) /\ Permutation (map fst D) (filter del (inorder T)).
Proof. exact for_each_safe_ok. Qed.
Print Assumptions C26_for_each_safe.
(** the height of a red-black tree of n elements *)
Theorem C26_height : forall T, rbtree T -> height T <= 2 * Nat.log2 (length (inorder T) + 1).
Proof. exact rb_log. Qed.
Print Assumptions C26_height.
(** zt_rbt_empty is true of every non-empty tree, and reads through NULL on the empty one *)
Theorem C26_empty_refuted : (forall h T F, T <> E -> holds h (nodes T 0 ++ F) -> empty h (root T) = Ok true) /\ (forall h, cells h 0 = None -> empty h 0 = UB).
Proof.
  split.
  - intros h T F NE H. destruct T as [|c l a r]; [congruence|]. unfold empty. cbn [root]. flat H. ld H. reflexivity.
  - intros h N. unfold empty, load. now rewrite N.
Qed.
Print Assumptions C26_empty_refuted.

(** non-vacuity *)
Definition bynum (x y : nat) : Z := (Z.of_nat x - Z.of_nat y)%Z.
Example bynum_ok : three_way bynum.
Proof. split; unfold bynum; intros; lia. Qed.
Definition room : nheap := mkheap (fun a => if (0 <? a) && (a <? 12) then Some (mknode red 99 98 97) else None) 12.
Example history_case : exists h' head',
  run 20 bynum room 0 [Insert 5; Insert 2; Insert 8; Insert 1; Insert 9; Insert 3; Insert 7; Insert 4; Insert 6; Insert 3; Remove 5; Remove 1; Remove 2; Find 5; Nfind 5; Next 4; Min; Max; Each]
    = Ok (h', head', [Node 0; Node 0; Node 0; Node 0; Node 0; Node 0; Node 0; Node 0; Node 0; Node 3; Node 5; Node 1; Node 2; Node 0; Node 6; Node 6; Node 3; Node 9; Visited [3; 4; 6; 7; 8; 9]]).
Proof. eexists _, _. vm_compute. reflexivity. Qed.
Example room_ok : Forall (fun a => a <> 0 /\ exists n, cells room a = Some n) (seq 1 11).
Proof. repeat constructor; try discriminate; eexists; reflexivity. Qed.
Example legal_case : legal bynum (seq 1 11) [] [Insert 5; Insert 2; Remove 5; Next 2].
Proof. cbn. tauto. Qed.
Example rbtree_case : rbtree (N black (N red (N black E 1 E) 2 (N black E 3 (N red E 4 E))) 5 (N black E 6 E)).
Proof. split; [exact I|]. exists 2. cbn. tauto. Qed.
Example safe_case : exists h' head', (' (h, hd, _) <- run 20 bynum room 0 (map Insert [3; 1; 4; 2; 5; 6; 7]) ;; for_each_safe 20 Nat.even h hd) = Ok (h', head', [1; 2; 3; 4; 5; 6; 7]) /\ for_each 20 h' head' = Ok [1; 3; 5; 7].
Proof. eexists _, _. split; [vm_compute; reflexivity|vm_compute; reflexivity]. Qed.
