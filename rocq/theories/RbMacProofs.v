(** compat/sys/tree.h, RB macros: predecessor, reverse iteration, histories *)
From Verif Require Import Prelude Heap RbtModel RbtRep RbtInsert RbtRemove RbtSearch RbtIter RbMacModel.
From Coq Require Import Permutation Sorted.

Lemma rightmost_split : forall r, r <> E -> exists c2 cm m lm, r = plug c2 (N cm lm m E) /\ zright c2 = [] /\
  forall fuel h p L, holds h (nodes r p ++ L) -> length c2 < fuel -> rightmost fuel h (root r) = Ok m.
Proof.
  induction r as [|c l _ a r IH]; intros NE; [congruence|]. destruct r as [|c2 r1 x r2].
  - exists [], c, a, l. split; [reflexivity|]. split; [reflexivity|]. intros fuel h p L H LT. destruct fuel; [lia|]. cbn [rightmost root]. flat H. ld H. reflexivity.
  - destruct (IH ltac:(discriminate)) as (z & cm & m & lm & EQ & ZR & LM). exists (z ++ [(Rt, c, a, l)]), cm, m, lm. split; [rewrite plug_app, <- EQ; reflexivity|].
    split. { clear -ZR. induction z as [|[[[[|] ?] ?] ?] z IH]; cbn [app zright] in *; [reflexivity|discriminate|auto]. }
    intros fuel h p L H LT. rewrite app_length in LT. cbn [length] in LT. destruct fuel; [lia|]. cbn [rightmost root]. flat H. ld H. cbn [root]. nz x H.
    apply (LM fuel h a ((a, mknode c (root l) x p) :: nodes l a ++ L)); [|lia]. revert H; apply holds_perm; perm.
Qed.
Lemma last_snoc3 (A B : list nat) a d : last (A ++ B ++ [a]) d = a.
Proof. rewrite app_assoc. apply last_last. Qed.
Lemma climb_left_ok h F : forall z t fuel, t <> E -> length z < fuel -> holds h (znodes z (root t) ++ nodes t (zroot z) ++ F) -> climb_left fuel h (root t) = Ok (last (zleft z) 0).
Proof.
  induction z as [|[[[d cp] p] s] z IH]; intros t fuel NE FU H; (destruct fuel as [|fuel]; [lia|]); destruct t as [|c l a r]; [congruence| |congruence|]; cbn [climb_left root length] in *.
  - flat H. ld H. reflexivity.
  - destruct d; flat H; ld H; nz p H; ld H.
    + rewrite Nat.eqb_refl. cbn [zleft]. apply (IH (N cp (N c l a r) p s) fuel ltac:(discriminate) ltac:(lia)). revert H; apply holds_perm; perm.
    + neroot a s p H NR. replace (a =? root s) with false by (symmetry; apply Nat.eqb_neq; congruence). cbn [zleft]. now rewrite last_snoc3.
Qed.
Lemma prev_plug h F z c l a r fuel : height (plug z (N c l a r)) < fuel -> holds h (nodes (plug z (N c l a r)) 0 ++ F) -> rb_prev fuel h a = Ok (last (zleft z ++ inorder l) 0).
Proof.
  intros FU H. pose proof (height_plug z (N c l a r)) as HP. cbn [height] in HP. apply rep_plug in H. cbn [root] in H. unfold rb_prev. flat H. ld H.
  destruct l as [|cl l1 y l2].
  - cbn [root Nat.eqb negb inorder]. rewrite app_nil_r.
    assert (CL : climb_left fuel h a = Ok (last (zleft z) 0)) by (apply (climb_left_ok h F z (N c E a r) fuel ltac:(discriminate) ltac:(lia)); revert H; apply holds_perm; perm).
    destruct z as [|[[[d cp] p] s] z]; cbn [zroot Nat.eqb]; [exact CL|]. destruct d; flat H; nz p H; ld H.
    + neroot a s p H NR. replace (a =? root s) with false by (symmetry; apply Nat.eqb_neq; congruence). exact CL.
    + rewrite Nat.eqb_refl. cbn [zleft]. now rewrite last_snoc3.
  - assert (LM : exists m rest, inorder (N cl l1 y l2) = rest ++ [m] /\ rightmost fuel h y = Ok m).
    { destruct (rightmost_split (N cl l1 y l2) ltac:(discriminate)) as (c2 & cm & m & lm & EQ & ZR & LM). exists m, (zleft c2 ++ inorder lm).
      split; [rewrite EQ, inorder_plug, ZR; cbn [inorder]; rewrite app_nil_r, <- app_assoc; reflexivity|]. pose proof (height_plug c2 (N cm lm m E)) as HQ. rewrite <- EQ in HQ. cbn [height] in HQ, HP.
      apply (LM fuel h a ((a, mknode c y (root r) (zroot z)) :: nodes r a ++ znodes z a ++ F)); [revert H; apply holds_perm; perm|lia]. }
    destruct LM as (m & rest & EI & LM). rewrite EI, last_snoc3. cbn [root]. flat H. nz y H. cbn [negb]. exact LM.
Qed.
Lemma prev_ok h T F A a B fuel : height T < fuel -> holds h (nodes T 0 ++ F) -> inorder T = A ++ a :: B -> rb_prev fuel h a = Ok (last A 0).
Proof. intros FU H IO. destruct (locate h T F A a B H IO) as (z & c & l & r & -> & -> & _). now apply (prev_plug h F z c l a r fuel). Qed.
Lemma next_same fuel h a : a <> 0 -> rb_next fuel h a = next fuel h a.
Proof. intros N. unfold next. now rewrite (proj2 (Nat.eqb_neq _ _) N). Qed.
Lemma from_same lf h : forall fuel x, rb_from fuel lf h x = each_from fuel lf h x.
Proof.
  induction fuel as [|fuel IH]; intros x; [reflexivity|]. cbn [rb_from each_from]. destruct (x =? 0) eqn:X; [reflexivity|]. rewrite next_same by (now apply Nat.eqb_neq).
  destruct (next lf h x); cbn [obind]; [now rewrite IH|reflexivity..].
Qed.
Lemma foreach_same fuel h head : rb_foreach fuel h head = for_each fuel h head.
Proof. unfold rb_foreach, for_each. destruct (minmax fuel h head (-1)%Z); cbn [obind]; [apply from_same|reflexivity..]. Qed.
Lemma back_ok h T F lf : height T < lf -> holds h (nodes T 0 ++ F) -> forall A B fuel, inorder T = A ++ B -> length A < fuel -> rb_back fuel lf h (last A 0) = Ok (rev A).
Proof.
  intros FL H. induction A as [|a A IH] using rev_ind; intros B fuel IO FU; (destruct fuel as [|fuel]; [lia|]); cbn [rb_back] in *; [reflexivity|].
  rewrite last_last. rewrite app_length in FU. cbn [length] in FU. rewrite <- app_assoc in IO. cbn [app] in IO.
  assert (NA : a <> 0) by (apply (holds_nonzero h T 0 F a H); rewrite IO; apply in_or_app; right; now left).
  rewrite (proj2 (Nat.eqb_neq _ _) NA), (prev_ok h T F A a B lf FL H IO). cbn [obind]. rewrite (IH (a :: B) fuel IO ltac:(lia)), rev_app_distr. reflexivity.
Qed.
Lemma foreach_reverse_ok h T F fuel : height T < fuel -> length (inorder T) < fuel -> holds h (nodes T 0 ++ F) -> rb_foreach_reverse fuel h (root T) = Ok (rev (inorder T)).
Proof.
  intros FL FU H. unfold rb_foreach_reverse, minmax. rewrite (minmax_ok h 1%Z T F 0 0 fuel FL H). cbn [Z.ltb Z.compare obind]. apply (back_ok h T F fuel FL H (inorder T) [] fuel); [now rewrite app_nil_r|exact FU].
Qed.
Lemma empty_ok h T F : holds h (nodes T 0 ++ F) -> rb_empty (root T) = match inorder T with [] => true | _ => false end.
Proof.
  intros H. destruct T as [|c l a r]; [reflexivity|]. unfold rb_empty. cbn [root inorder]. flat H. nz a H. destruct (inorder l); reflexivity.
Qed.

(** the same calls on the list of the elements in order *)
Fixpoint before (p x : nat) (L : list nat) : nat := match L with [] => 0 | y :: M => if y =? x then p else before y x M end.
Definition spec_call (cmp : nat -> nat -> Z) (L : list nat) (c : call) : list nat * answer :=
  match c with
  | Insert x => match List.find (fun y => cmp x y =? 0)%Z L with Some y => (L, Node y) | None => (filter (fun y => 0 <? cmp x y)%Z L ++ x :: filter (fun y => cmp x y <? 0)%Z L, Node 0) end
  | Remove x => (filter (fun y => negb (y =? x)) L, Node x)
  | Find x => (L, Node (match List.find (fun y => cmp x y =? 0)%Z L with Some y => y | None => 0 end))
  | Nfind x => (L, Node (match List.find (fun y => cmp x y <=? 0)%Z L with Some y => y | None => 0 end))
  | Next x => (L, Node (after x L))
  | Prev x => (L, Node (before 0 x L))
  | Min => (L, Node (hd 0 L))
  | Max => (L, Node (last L 0))
  | Foreach => (L, Visited L)
  | ForeachReverse => (L, Visited (rev L))
  | Empty => (L, Bool (match L with [] => true | _ => false end))
  end.
Fixpoint spec_calls (cmp : nat -> nat -> Z) (L : list nat) (cs : list call) : list nat * list answer :=
  match cs with
  | [] => (L, [])
  | c :: cs => let (L1, r) := spec_call cmp L c in let (L2, rs) := spec_calls cmp L1 cs in (L2, r :: rs)
  end.
(** what a caller may do: insert elements of U, remove (and step from) elements that are in the tree *)
Fixpoint proper (cmp : nat -> nat -> Z) (U L : list nat) (cs : list call) : Prop :=
  match cs with
  | [] => True
  | c :: cs => (match c with Insert x => In x U | Remove x | Next x | Prev x => In x L | _ => True end) /\ proper cmp U (fst (spec_call cmp L c)) cs
  end.

Lemma before_split A x B : forall p, NoDup (A ++ x :: B) -> before p x (A ++ x :: B) = last A p.
Proof.
  induction A as [|y A IH]; intros p ND; cbn [app before]; [now rewrite Nat.eqb_refl|]. cbn [app] in ND. apply NoDup_cons_iff in ND. destruct ND as [NI ND].
  replace (y =? x) with false by (symmetry; apply Nat.eqb_neq; intros ->; apply NI, in_or_app; right; now left). rewrite (IH y ND).
  destruct A as [|z A]; [reflexivity|]. cbn [last]. clear. revert z. induction A as [|u A IH]; intros z; [reflexivity|]. cbn [last] in *. apply IH.
Qed.
Definition as_op (c : call) : option op :=
  match c with
  | Insert x => Some (RbtIter.Insert x) | Remove x => Some (RbtIter.Remove x) | Find x => Some (RbtIter.Find x) | Nfind x => Some (RbtIter.Nfind x)
  | Next x => Some (RbtIter.Next x) | Min => Some RbtIter.Min | Max => Some RbtIter.Max | Foreach => Some Each
  | Prev _ | ForeachReverse | Empty => None
  end.
Definition as_answer (r : res) : answer := match r with RbtIter.Node a => Node a | RbtIter.Visited l => Visited l end.
Lemma do_op fuel cmp h head c o : as_op c = Some o -> (forall x, c = Next x -> x <> 0) -> forall h' head' r, step fuel cmp h head o = Ok (h', head', r) -> do_call fuel cmp h head c = Ok (h', head', as_answer r).
Proof.
  intros A NZ h' head' r. destruct c as [x|x|x|x|x|x| | | | |]; cbn [as_op] in A; try discriminate; injection A as <-; cbn [step do_call]; rewrite ?foreach_same, ?(next_same _ _ _ (NZ _ eq_refl)).
  - destruct (insert fuel cmp h head x) as [[[? ?] ?]| | |]; cbn [obind]; try discriminate; intros K; injection K as <- <- <-; reflexivity.
  - destruct (remove fuel h head x) as [[[? ?] ?]| | |]; cbn [obind]; try discriminate; intros K; injection K as <- <- <-; reflexivity.
  - destruct (find fuel cmp h head x); cbn [obind]; try discriminate; intros K; injection K as <- <- <-; reflexivity.
  - destruct (nfind fuel cmp h head x); cbn [obind]; try discriminate; intros K; injection K as <- <- <-; reflexivity.
  - destruct (next fuel h x); cbn [obind]; try discriminate; intros K; injection K as <- <- <-; reflexivity.
  - destruct (minmax fuel h head (-1)%Z); cbn [obind]; try discriminate; intros K; injection K as <- <- <-; reflexivity.
  - destruct (minmax fuel h head 1%Z); cbn [obind]; try discriminate; intros K; injection K as <- <- <-; reflexivity.
  - destruct (for_each fuel h head); cbn [obind]; try discriminate; intros K; injection K as <- <- <-; reflexivity.
Qed.
Lemma spec_op cmp L c o : as_op c = Some o -> spec_call cmp L c = (fst (spec_step cmp L o), as_answer (snd (spec_step cmp L o))).
Proof.
  intros A. destruct c; cbn [as_op] in A; try discriminate; injection A as <-; cbn [spec_step spec_call fst snd as_answer]; try reflexivity.
  destruct (List.find _ L); reflexivity.
Qed.
Lemma call_ok cmp fuel h head U L c : three_way cmp -> 2 * Nat.log2 (length U + 1) + 3 <= fuel -> length U < fuel -> holds_tree cmp h head U L ->
  (match c with Insert x => In x U | Remove x | Next x | Prev x => In x L | _ => True end) ->
  exists h' head', do_call fuel cmp h head c = Ok (h', head', snd (spec_call cmp L c)) /\ holds_tree cmp h' head' U (fst (spec_call cmp L c)).
Proof.
  intros TW F1 F2 HT LG. destruct (as_op c) as [o|] eqn:AO.
  - assert (LO : legal_op U L o) by (destruct c; cbn [as_op] in AO; try discriminate; injection AO as <-; exact LG).
    destruct (step_ok cmp fuel h head U L o TW F1 F2 HT LO) as (h' & head' & ES & HT'). exists h', head'. rewrite (spec_op cmp L c o AO). cbn [fst snd]. split; [|exact HT'].
    apply (do_op fuel cmp h head c o AO); [|exact ES]. intros x -> ->. destruct HT as (T & F & -> & H & RB & IO & _). subst L. apply (holds_nonzero h T 0 F 0 H LG eq_refl).
  - destruct HT as (T & F & -> & H & RB & IO & SO & PU). subst L. exists h, (root T).
    assert (LU : length (inorder T) <= length U) by (rewrite (Permutation_length PU), (Permutation_length (inorder_nodes T 0)), map_app, app_length; lia).
    assert (HH : height T + 3 <= fuel).
    { pose proof (rb_log T RB). assert (Nat.log2 (length (inorder T) + 1) <= Nat.log2 (length U + 1)) by (apply Nat.log2_le_mono; lia). lia. }
    split; [|destruct c; cbn [as_op] in AO; try discriminate; cbn [spec_call fst]; exists T, F; repeat split; auto; try apply H; apply RB].
    destruct c; cbn [as_op] in AO; try discriminate; cbn [do_call spec_call snd].
    + pose proof (in_split _ _ LG) as (A & B & IO). pose proof (holds_nodup _ _ _ _ H) as ND. rewrite (prev_ok h T F A x B fuel ltac:(lia) H IO). cbn [obind].
      rewrite IO in ND |- *. now rewrite before_split.
    + rewrite (foreach_reverse_ok h T F fuel ltac:(lia) ltac:(lia) H). reflexivity.
    + now rewrite (empty_ok h T F H).
Qed.
Lemma calls_ok cmp fuel U : three_way cmp -> 2 * Nat.log2 (length U + 1) + 3 <= fuel -> length U < fuel -> forall cs h head L, holds_tree cmp h head U L -> proper cmp U L cs ->
  exists h' head', do_calls fuel cmp h head cs = Ok (h', head', snd (spec_calls cmp L cs)) /\ holds_tree cmp h' head' U (fst (spec_calls cmp L cs)).
Proof.
  intros TW F1 F2. induction cs as [|c cs IH]; intros h head L HT LG; cbn [do_calls spec_calls proper] in *; [exists h, head; split; [reflexivity|exact HT]|].
  destruct LG as [L1 L2]. destruct (call_ok cmp fuel h head U L c TW F1 F2 HT L1) as (h1 & hd1 & E1 & HT1). rewrite E1. cbn [obind].
  destruct (spec_call cmp L c) as [M r] eqn:SS. cbn [fst snd] in *. destruct (IH h1 hd1 M HT1 L2) as (h2 & hd2 & E2 & HT2). rewrite E2. cbn [obind]. exists h2, hd2.
  destruct (spec_calls cmp M cs) as [M2 rs]. cbn [fst snd] in *. split; [reflexivity|exact HT2].
Qed.
