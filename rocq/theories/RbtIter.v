(** zt_tree.c, zt_tree.h: successor, iteration, height, histories *)
From Verif Require Import Prelude Heap RbtModel RbtRep RbtInsert RbtRemove RbtSearch.
From Coq Require Import Permutation Sorted.

(** an element of the tree and its position *)
Lemma locate_in a : forall t, In a (inorder t) -> exists z c l r, t = plug z (N c l a r).
Proof.
  induction t as [|c l IHl b r IHr]; intros I; [destruct I|]. cbn [inorder] in I. apply in_app_or in I. destruct I as [I|[->|I]].
  - destruct (IHl I) as (z & c' & l' & r' & ->). exists (z ++ [(Lf, c, b, r)]), c', l', r'. now rewrite plug_app.
  - now exists [], c, l, r.
  - destruct (IHr I) as (z & c' & l' & r' & ->). exists (z ++ [(Rt, c, b, l)]), c', l', r'. now rewrite plug_app.
Qed.
Lemma nodup_split (A : list nat) a : forall B C D, NoDup (A ++ a :: B) -> A ++ a :: B = C ++ a :: D -> A = C /\ B = D.
Proof.
  induction A as [|x A IH]; intros B C D ND EQ.
  - destruct C as [|y C]; cbn [app] in EQ; [split; [reflexivity|congruence]|]. assert (a = y) by congruence. subst y. assert (B = C ++ a :: D) by congruence. subst B. inversion ND as [|? ? NI _]; subst. exfalso. apply NI. apply in_or_app. right. now left.
  - destruct C as [|y C]; cbn [app] in *.
    + assert (x = a) by congruence. subst x. inversion ND as [|? ? NI _]; subst. exfalso. apply NI. apply in_or_app. right. now left.
    + assert (x = y) by congruence. subst y. inversion ND as [|? ? _ ND']; subst. destruct (IH B C D ND') as [-> ->]; [congruence|]. split; reflexivity.
Qed.
Lemma holds_nodup h t p F : holds h (nodes t p ++ F) -> NoDup (inorder t).
Proof.
  intros H. apply holds_app in H. destruct H as [[ND _] _]. eapply Permutation_NoDup; [|exact ND]. symmetry. apply inorder_nodes.
Qed.
Lemma holds_nonzero h t p F a : holds h (nodes t p ++ F) -> In a (inorder t) -> a <> 0.
Proof.
  intros H I. apply holds_app in H. destruct H as [[_ FA] _]. apply (Permutation_in _ (inorder_nodes t p)) in I. apply in_map_iff in I. destruct I as ([b n] & <- & I). rewrite Forall_forall in FA. apply (FA _ I).
Qed.
Lemma locate h T F A a B : holds h (nodes T 0 ++ F) -> inorder T = A ++ a :: B ->
  exists z c l r, T = plug z (N c l a r) /\ A = zleft z ++ inorder l /\ B = inorder r ++ zright z.
Proof.
  intros H IO. pose proof (holds_nodup _ _ _ _ H) as ND. destruct (locate_in a T) as (z & c & l & r & ->); [rewrite IO; apply in_or_app; right; now left|].
  exists z, c, l, r. split; [reflexivity|]. rewrite inorder_plug in IO, ND. cbn [inorder] in IO, ND. rewrite <- app_assoc, app_assoc in IO, ND. cbn [app] in IO, ND.
  destruct (nodup_split (zleft z ++ inorder l) a (inorder r ++ zright z) A B ND IO) as [<- <-]. split; reflexivity.
Qed.

Lemma climb_ok h F : forall z t fuel, t <> E -> length z < fuel -> holds h (znodes z (root t) ++ nodes t (zroot z) ++ F) -> climb fuel h (root t) = Ok (hd 0 (zright z)).
Proof.
  induction z as [|[[[d cp] p] s] z IH]; intros t fuel NE FU H; (destruct fuel as [|fuel]; [lia|]); destruct t as [|c l a r]; [congruence| |congruence|]; cbn [climb root length] in *.
  - flat H. ld H. reflexivity.
  - destruct d; flat H; ld H; nz p H; ld H.
    + neroot a s p H NR. replace (a =? root s) with false by (symmetry; apply Nat.eqb_neq; congruence). reflexivity.
    + rewrite Nat.eqb_refl. cbn [zright]. apply (IH (N cp s p (N c l a r)) fuel ltac:(discriminate) ltac:(lia)). revert H; apply holds_perm; perm.
Qed.
Lemma next_plug h F z c l a r fuel : height (plug z (N c l a r)) < fuel -> holds h (nodes (plug z (N c l a r)) 0 ++ F) -> next fuel h a = Ok (hd 0 (inorder r ++ zright z)).
Proof.
  intros FU H. pose proof (height_plug z (N c l a r)) as HP. cbn [height] in HP. apply rep_plug in H. cbn [root] in H. unfold next. flat H. nz a H. ld H.
  destruct r as [|cr r1 y r2].
  - cbn [root Nat.eqb negb inorder app].
    assert (CL : climb fuel h a = Ok (hd 0 (zright z))) by (apply (climb_ok h F z (N c l a E) fuel ltac:(discriminate) ltac:(lia)); revert H; apply holds_perm; perm).
    destruct z as [|[[[d cp] p] s] z]; cbn [zroot Nat.eqb]; [exact CL|]. destruct d; flat H; nz p H; ld H.
    + rewrite Nat.eqb_refl. reflexivity.
    + neroot a s p H NR. replace (a =? root s) with false by (symmetry; apply Nat.eqb_neq; congruence). exact CL.
  - assert (LM : exists m rest, inorder (N cr r1 y r2) = m :: rest /\ leftmost fuel h y = Ok m).
    { destruct (leftmost_split (N cr r1 y r2) ltac:(discriminate)) as (c2 & cm & m & rm & EQ & ZL & LM). exists m, (inorder rm ++ zright c2).
      split; [rewrite EQ, inorder_plug, ZL; reflexivity|]. pose proof (height_plug c2 (N cm E m rm)) as HQ. rewrite <- EQ in HQ. cbn [height] in HQ, HP.
      apply (LM fuel h a ((a, mknode c (root l) y (zroot z)) :: nodes l a ++ znodes z a ++ F)); [revert H; apply holds_perm; perm|lia]. }
    destruct LM as (m & rest & EI & LM). rewrite EI. cbn [root]. flat H. nz y H. cbn [negb]. rewrite LM. reflexivity.
Qed.
Lemma next_ok h T F A a B fuel : height T < fuel -> holds h (nodes T 0 ++ F) -> inorder T = A ++ a :: B -> next fuel h a = Ok (hd 0 B).
Proof. intros FU H IO. destruct (locate h T F A a B H IO) as (z & c & l & r & -> & _ & ->). now apply (next_plug h F z c l a r fuel). Qed.
Lemma each_ok h T F lf : height T < lf -> holds h (nodes T 0 ++ F) -> forall B A fuel, inorder T = A ++ B -> length B < fuel -> each_from fuel lf h (hd 0 B) = Ok B.
Proof.
  intros FL H. induction B as [|a B IH]; intros A fuel IO FU; (destruct fuel as [|fuel]; [lia|]); cbn [each_from hd length] in *; [reflexivity|].
  assert (NA : a <> 0) by (apply (holds_nonzero h T 0 F a H); rewrite IO; apply in_or_app; right; now left).
  rewrite (proj2 (Nat.eqb_neq _ _) NA), (next_ok h T F A a B lf FL H IO). cbn [obind]. rewrite (IH (A ++ [a]) fuel); [reflexivity|rewrite <- app_assoc; exact IO|lia].
Qed.
Lemma for_each_ok h T F fuel : height T < fuel -> length (inorder T) < fuel -> holds h (nodes T 0 ++ F) -> for_each fuel h (root T) = Ok (inorder T).
Proof.
  intros FL FU H. unfold for_each, minmax. rewrite (minmax_ok h (-1)%Z T F 0 0 fuel FL H). cbn [Z.ltb Z.compare obind]. now apply (each_ok h T F fuel FL H (inorder T) [] fuel).
Qed.

(** the height is logarithmic *)
Lemma rb_size t : forall n, rb n t -> 2 ^ n <= S (length (inorder t)).
Proof.
  induction t as [|[|] l IHl a r IHr]; intros n R; cbn [rb inorder] in *.
  - subst n. cbn. lia.
  - rewrite app_length. cbn [length]. specialize (IHl n). specialize (IHr n). assert (2 ^ n <= S (length (inorder l))) by tauto. lia.
  - destruct n as [|n]; [contradiction|]. destruct R as [R1 R2]. specialize (IHl _ R1). specialize (IHr _ R2). rewrite app_length. cbn [length Nat.pow]. lia.
Qed.
Lemma rb_height t : forall n, rb n t -> height t <= 2 * n + (match t with N red _ _ _ => 1 | _ => 0 end).
Proof.
  induction t as [|[|] l IHl a r IHr]; intros n R; cbn [rb height] in *.
  - lia.
  - destruct R as (R1 & R2 & B1 & B2). specialize (IHl _ R1). specialize (IHr _ R2). destruct l as [|[|] ? ? ?], r as [|[|] ? ? ?]; try contradiction; lia.
  - destruct n as [|n]; [contradiction|]. destruct R as [R1 R2]. specialize (IHl _ R1). specialize (IHr _ R2). destruct l as [|[|] ? ? ?], r as [|[|] ? ? ?]; lia.
Qed.
Lemma rb_log T : rbtree T -> height T <= 2 * Nat.log2 (length (inorder T) + 1).
Proof.
  intros [B (n & R)]. pose proof (rb_height T n R) as H1. pose proof (rb_size T n R) as H2. assert (n <= Nat.log2 (length (inorder T) + 1)) by (apply Nat.log2_le_pow2; lia).
  destruct T as [|[|] ? ? ?]; [|contradiction|]; lia.
Qed.

(** removal in terms of the sequence of elements *)
Lemma remove_list fuel h T F A a B : rbtree T -> height T + 2 <= fuel -> holds h (nodes T 0 ++ F) -> inorder T = A ++ a :: B ->
  exists h' T' n, remove fuel h (root T) a = Ok (h', root T', a) /\ holds h' (nodes T' 0 ++ (a, n) :: F) /\ rbtree T' /\ inorder T' = A ++ B.
Proof.
  intros RB FU H IO. destruct (locate h T F A a B H IO) as (z & c & l & r & -> & -> & ->).
  destruct (remove_ok fuel h z c l a r F RB FU H) as (h' & hd & E1 & T' & n & -> & H' & RB' & IO'). exists h', T', n. split; [exact E1|]. split; [exact H'|]. split; [exact RB'|]. rewrite IO'. now rewrite <- !app_assoc.
Qed.

(** removing while iterating *)
Lemma safe_ok lf del : forall B A fuel h T F, rbtree T -> 2 * Nat.log2 (length (A ++ B) + 1) + 2 <= lf -> holds h (nodes T 0 ++ F) -> inorder T = filter (fun a => negb (del a)) A ++ B -> length B < fuel ->
  exists h' T' D, safe_from fuel lf del h (root T) (hd 0 B) (hd 0 (tl B)) = Ok (h', root T', B) /\ holds h' (nodes T' 0 ++ D ++ F) /\ rbtree T' /\
    inorder T' = filter (fun a => negb (del a)) (A ++ B) /\ Permutation (map fst D) (filter del B).
Proof.
  induction B as [|a B IH]; intros A fuel h T F RB FL H IO FU; (destruct fuel as [|fuel]; [cbn [length] in FU; lia|]); cbn [safe_from hd tl length] in *.
  - exists h, T, []. rewrite app_nil_r in *. cbn [Nat.eqb]. rewrite IO. cbn [app filter map]. repeat split; auto; apply H || apply RB.
  - assert (NA : a <> 0) by (apply (holds_nonzero h T 0 F a H); rewrite IO; apply in_or_app; right; now left).
    rewrite (proj2 (Nat.eqb_neq _ _) NA).
    assert (LT : forall T0 : tree, rbtree T0 -> length (inorder T0) <= length (A ++ a :: B) -> height T0 + 2 <= lf).
    { intros T0 RB0 LE. pose proof (rb_log T0 RB0). assert (Nat.log2 (length (inorder T0) + 1) <= Nat.log2 (length (A ++ a :: B) + 1)) by (apply Nat.log2_le_mono; lia). lia. }
    assert (FLE : length (filter (fun a => negb (del a)) A) <= length A) by (clear; induction A as [|x A IH]; cbn [filter length]; [lia|]; destruct (negb (del x)); cbn [length]; lia).
    assert (HT : height T + 2 <= lf) by (apply LT; [exact RB|rewrite IO, !app_length; cbn [length]; lia]).
    assert (STEP : exists h1 T1 D1, (if del a then ' (h, head, _) <- remove lf h (root T) a ;; Ok (h, head) else Ok (h, root T)) = Ok (h1, root T1) /\ holds h1 (nodes T1 0 ++ D1 ++ F) /\ rbtree T1 /\
              inorder T1 = filter (fun a => negb (del a)) (A ++ [a]) ++ B /\ map fst D1 = filter del [a]).
    { rewrite filter_app. cbn [filter]. destruct (del a) eqn:DA; cbn [negb].
      - destruct (remove_list lf h T F _ a B RB HT H IO) as (h1 & T1 & n & E1 & H1 & RB1 & IO1). rewrite E1. cbn [obind]. exists h1, T1, [(a, n)]. rewrite app_nil_r. auto.
      - exists h, T, []. rewrite <- app_assoc. auto. }
    destruct STEP as (h1 & T1 & D1 & E1 & H1 & RB1 & IO1 & M1). rewrite E1. cbn [obind].
    assert (HT1 : height T1 + 2 <= lf).
    { apply LT; [exact RB1|]. rewrite IO1, filter_app, !app_length. cbn [length filter]. destruct (negb (del a)); cbn [length]; lia. }
    assert (EN : (if hd 0 B =? 0 then Ok 0 else next lf h1 (hd 0 B)) = Ok (hd 0 (tl B))).
    { destruct B as [|b B]; [reflexivity|]. cbn [hd tl]. assert (NB : b <> 0) by (apply (holds_nonzero h1 T1 0 (D1 ++ F) b H1); rewrite IO1; apply in_or_app; right; now left).
      rewrite (proj2 (Nat.eqb_neq _ _) NB). apply (next_ok h1 T1 (D1 ++ F) (filter (fun a => negb (del a)) (A ++ [a])) b B lf); [lia|exact H1|exact IO1]. }
    rewrite EN. cbn [obind].
    destruct (IH (A ++ [a]) fuel h1 T1 (D1 ++ F) RB1) as (h2 & T2 & D2 & E2 & H2 & RB2 & IO2 & M2); [rewrite <- app_assoc; exact FL|exact H1|exact IO1|lia|].
    rewrite E2. cbn [obind]. exists h2, T2, (D2 ++ D1). split; [reflexivity|]. split; [rewrite <- app_assoc; exact H2|]. split; [exact RB2|]. split; [rewrite IO2, <- app_assoc; reflexivity|].
    rewrite map_app, M1, M2. change (a :: B) with ([a] ++ B). rewrite filter_app. apply Permutation_app_comm.
Qed.
Lemma for_each_safe_ok fuel del h T F : rbtree T -> 2 * Nat.log2 (length (inorder T) + 1) + 2 <= fuel -> length (inorder T) < fuel -> holds h (nodes T 0 ++ F) ->
  exists h' T' D, for_each_safe fuel del h (root T) = Ok (h', root T', inorder T) /\ holds h' (nodes T' 0 ++ D ++ F) /\ rbtree T' /\
    inorder T' = filter (fun a => negb (del a)) (inorder T) /\ Permutation (map fst D) (filter del (inorder T)).
Proof.
  intros RB FL FU H. pose proof (rb_log T RB) as HL. unfold for_each_safe, minmax. rewrite (minmax_ok h (-1)%Z T F 0 0 fuel ltac:(lia) H). cbn [Z.ltb Z.compare obind].
  assert (EN : next fuel h (hd 0 (inorder T)) = Ok (hd 0 (tl (inorder T)))).
  { destruct (inorder T) as [|a B] eqn:IO; [reflexivity|]. cbn [hd tl]. apply (next_ok h T F [] a B fuel); [lia|exact H|exact IO]. }
  rewrite EN. cbn [obind]. exact (safe_ok fuel del (inorder T) [] fuel h T F RB FL H eq_refl FU).
Qed.

(** histories *)
Inductive op := Insert (x : nat) | Remove (x : nat) | Find (x : nat) | Nfind (x : nat) | Next (x : nat) | Min | Max | Each.
Inductive res := Node (a : nat) | Visited (l : list nat).
Definition step (fuel : nat) (cmp : nat -> nat -> Z) (h : nheap) (head : nat) (o : op) : outcome (nheap * nat * res) :=
  match o with
  | Insert x => ' (h, head, r) <- insert fuel cmp h head x ;; Ok (h, head, Node r)
  | Remove x => ' (h, head, r) <- remove fuel h head x ;; Ok (h, head, Node r)
  | Find x => r <- find fuel cmp h head x ;; Ok (h, head, Node r)
  | Nfind x => r <- nfind fuel cmp h head x ;; Ok (h, head, Node r)
  | Next x => r <- next fuel h x ;; Ok (h, head, Node r)
  | Min => r <- minmax fuel h head (-1)%Z ;; Ok (h, head, Node r)
  | Max => r <- minmax fuel h head 1%Z ;; Ok (h, head, Node r)
  | Each => r <- for_each fuel h head ;; Ok (h, head, Visited r)
  end.
Fixpoint run (fuel : nat) (cmp : nat -> nat -> Z) (h : nheap) (head : nat) (os : list op) {struct os} : outcome (nheap * nat * list res) :=
  match os with
  | [] => Ok (h, head, [])
  | o :: os => ' (h, head, r) <- step fuel cmp h head o ;; ' (h, head, rs) <- run fuel cmp h head os ;; Ok (h, head, r :: rs)
  end.
(** the same operations on a sorted list of elements *)
Fixpoint after (x : nat) (L : list nat) : nat := match L with [] => 0 | y :: M => if y =? x then hd 0 M else after x M end.
Definition spec_step (cmp : nat -> nat -> Z) (L : list nat) (o : op) : list nat * res :=
  match o with
  | Insert x => match List.find (fun y => cmp x y =? 0)%Z L with Some y => (L, Node y) | None => (added cmp x L, Node 0) end
  | Remove x => (filter (fun y => negb (y =? x)) L, Node x)
  | Find x => (L, Node (found cmp x L))
  | Nfind x => (L, Node (ceiling cmp x 0 L))
  | Next x => (L, Node (after x L))
  | Min => (L, Node (hd 0 L))
  | Max => (L, Node (last L 0))
  | Each => (L, Visited L)
  end.
Fixpoint spec_run (cmp : nat -> nat -> Z) (L : list nat) (os : list op) : list nat * list res :=
  match os with
  | [] => (L, [])
  | o :: os => let (L1, r) := spec_step cmp L o in let (L2, rs) := spec_run cmp L1 os in (L2, r :: rs)
  end.
(** what a caller may do: insert elements of U, remove (and ask for the successor of) elements that are in the tree *)
Definition legal_op (U L : list nat) (o : op) : Prop := match o with Insert x => In x U | Remove x | Next x => In x L | _ => True end.
Fixpoint legal (cmp : nat -> nat -> Z) (U L : list nat) (os : list op) : Prop :=
  match os with [] => True | o :: os => legal_op U L o /\ legal cmp U (fst (spec_step cmp L o)) os end.
(** the tree at head is a red-black tree with the elements L in order; U are the elements that exist, inside and outside the tree *)
Definition holds_tree (cmp : nat -> nat -> Z) (h : nheap) (head : nat) (U L : list nat) : Prop :=
  exists T F, head = root T /\ holds h (nodes T 0 ++ F) /\ rbtree T /\ inorder T = L /\ sorted cmp L /\ Permutation U (map fst (nodes T 0 ++ F)).

Lemma insert_found cmp fuel h T x y F : three_way cmp -> rbtree T -> sorted cmp (inorder T) -> height T + 3 <= fuel -> holds h (nodes T 0 ++ F) ->
  List.find (fun y => cmp x y =? 0)%Z (inorder T) = Some y -> insert fuel cmp h (root T) x = Ok (h, root T, y).
Proof.
  intros TW RB SO FU H FI. unfold insert.
  destruct (descend_ok cmp TW h F x T [] fuel 0%Z ltac:(lia) H SO (Forall_nil _) (Forall_nil _) I) as [(z & c & l & y' & r & ED & EP & E0)|(z & comp & ED & EP & DI & FL & FR)];
    cbn [zroot plug] in *; rewrite ED; cbn [obind].
  - assert (IO : inorder T = (zleft z ++ inorder l) ++ y' :: inorder r ++ zright z) by (rewrite <- EP, inorder_plug; cbn [inorder]; rewrite <- !app_assoc; reflexivity).
    rewrite IO in SO, FI. rewrite (find_eq cmp TW _ x y' _ SO E0) in FI. assert (y = y') by congruence. subst y'. rewrite <- EP in H. apply rep_plug in H. flat H. nz y H. reflexivity.
  - assert (IO : inorder T = zleft z ++ zright z) by (rewrite <- EP, inorder_plug; reflexivity).
    rewrite IO, find_app, (find_none _ (zleft z)), (find_none _ (zright z)) in FI; [discriminate FI| |]; (eapply Forall_impl; [|first [exact FR|exact FL]]); intros v Hv; cbn beta in Hv; apply Z.eqb_neq; lia.
Qed.
Lemma after_split A x B : NoDup (A ++ x :: B) -> after x (A ++ x :: B) = hd 0 B.
Proof.
  induction A as [|y A IH]; intros ND; cbn [app after]; [now rewrite Nat.eqb_refl|]. cbn [app] in ND. inversion ND as [|? ? NI ND']; subst. replace (y =? x) with false; [now apply IH|]. symmetry. apply Nat.eqb_neq. intros ->. apply NI. apply in_or_app. right. now left.
Qed.
Lemma filter_out A x B : NoDup (A ++ x :: B) -> filter (fun y => negb (y =? x)) (A ++ x :: B) = A ++ B.
Proof.
  intros ND. pose proof (NoDup_remove_2 _ _ _ ND) as NI. rewrite filter_app. cbn [filter]. rewrite Nat.eqb_refl. cbn [negb].
  assert (K : forall M, ~ In x M -> filter (fun y => negb (y =? x)) M = M).
  { clear. induction M as [|y M IH]; intros NI; [reflexivity|]. cbn [filter]. replace (y =? x) with false by (symmetry; apply Nat.eqb_neq; intros ->; apply NI; now left). cbn [negb]. rewrite IH; [reflexivity|]. intros I. apply NI. now right. }
  rewrite !K; [reflexivity| |]; intros I; apply NI, in_or_app; auto.
Qed.
Lemma sorted_drop cmp A x B : sorted cmp (A ++ x :: B) -> sorted cmp (A ++ B).
Proof.
  intros S. apply sorted_app in S. destruct S as (S1 & S2 & S3). inversion S2; subst. apply sorted_app. split; [exact S1|]. split; [assumption|]. intros u v I J. apply S3; [exact I|now right].
Qed.

Lemma step_ok cmp fuel h head U L o : three_way cmp -> 2 * Nat.log2 (length U + 1) + 3 <= fuel -> length U < fuel -> holds_tree cmp h head U L -> legal_op U L o ->
  exists h' head', step fuel cmp h head o = Ok (h', head', snd (spec_step cmp L o)) /\ holds_tree cmp h' head' U (fst (spec_step cmp L o)).
Proof.
  intros TW F1 F2 HT LG. pose proof HT as (T & F & -> & H & RB & IO & SO & PU). subst L.
  assert (LU : length (inorder T) <= length U).
  { rewrite (Permutation_length PU), (Permutation_length (inorder_nodes T 0)), map_app, app_length. lia. }
  assert (HH : height T + 3 <= fuel).
  { pose proof (rb_log T RB). assert (Nat.log2 (length (inorder T) + 1) <= Nat.log2 (length U + 1)) by (apply Nat.log2_le_mono; lia). lia. }
  destruct o as [x|x|x|x|x| | |]; cbn [step spec_step legal_op fst snd] in *.
  - destruct (List.find (fun y => cmp x y =? 0)%Z (inorder T)) as [y|] eqn:FI; cbn [fst snd].
    + rewrite (insert_found cmp fuel h T x y F TW RB SO HH H FI). cbn [obind]. exists h, (root T). split; [reflexivity|exact HT].
    + assert (INF : In x (map fst F)).
      { apply (Permutation_in _ PU) in LG. rewrite map_app in LG. apply in_app_or in LG. destruct LG as [I|I]; [|exact I]. exfalso.
        apply (Permutation_in _ (Permutation_sym (inorder_nodes T 0))) in I. apply (List.find_none _ _ FI) in I. rewrite (cmp_refl cmp TW) in I. discriminate. }
      apply in_map_iff in INF. destruct INF as ([x' n0] & Ex & INF). cbn [fst] in Ex. subst x'. apply in_split in INF. destruct INF as (Fa & Fb & ->).
      assert (H' : holds h (nodes T 0 ++ (x, n0) :: Fa ++ Fb)) by (revert H; apply holds_perm; apply Permutation_app_head; symmetry; apply Permutation_middle).
      pose proof (insert_ok cmp TW fuel h T x n0 (Fa ++ Fb) RB SO HH H') as INS. rewrite FI in INS. destruct INS as (h' & T' & E1 & H1 & RB1 & IO1 & SO1).
      rewrite E1. cbn [obind]. exists h', (root T'). split; [reflexivity|]. exists T', (Fa ++ Fb). split; [reflexivity|]. split; [exact H1|]. split; [exact RB1|]. split; [exact IO1|]. split; [rewrite <- IO1; exact SO1|].
      rewrite PU, !map_app, <- (inorder_nodes T 0), <- (inorder_nodes T' 0), IO1. cbn [map fst].
      assert (PA : Permutation (added cmp x (inorder T)) (x :: inorder T)).
      { unfold added. rewrite <- Permutation_middle. constructor. clear - FI TW. induction (inorder T) as [|y M IH]; [reflexivity|]. cbn [List.find] in FI. destruct (cmp x y =? 0)%Z eqn:E0; [discriminate|]. specialize (IH FI). apply Z.eqb_neq in E0. cbn [filter].
        destruct (0 <? cmp x y)%Z eqn:C1; [apply Z.ltb_lt in C1|apply Z.ltb_ge in C1].
        - replace (cmp x y <? 0)%Z with false by (symmetry; apply Z.ltb_ge; lia). cbn [app]. now constructor.
        - replace (cmp x y <? 0)%Z with true by (symmetry; apply Z.ltb_lt; lia). rewrite <- Permutation_middle. now constructor. }
      rewrite PA. cbn [app]. rewrite app_assoc. rewrite <- Permutation_middle, <- app_assoc. reflexivity.
  - pose proof (in_split _ _ LG) as (A & B & IO). pose proof (holds_nodup _ _ _ _ H) as ND.
    destruct (remove_list fuel h T F A x B RB ltac:(lia) H IO) as (h' & T' & n & E1 & H1 & RB1 & IO1). rewrite E1. cbn [obind]. exists h', (root T'). split; [reflexivity|].
    rewrite IO in ND |- *. rewrite (filter_out _ _ _ ND). exists T', ((x, n) :: F). split; [reflexivity|]. split; [exact H1|]. split; [exact RB1|]. split; [exact IO1|]. split; [rewrite IO in SO; apply (sorted_drop cmp A x B SO)|].
    rewrite PU, !map_app, <- (inorder_nodes T 0), <- (inorder_nodes T' 0), IO, IO1. cbn [map fst]. rewrite <- !app_assoc. cbn [app]. apply Permutation_app_head. apply Permutation_middle.
  - unfold find. rewrite (find_from_ok cmp TW h x T F 0 fuel ltac:(lia) H SO). cbn [obind]. exists h, (root T). split; [reflexivity|exact HT].
  - unfold nfind. rewrite (nfind_from_ok cmp TW h x T F 0 fuel 0 ltac:(lia) H SO). cbn [obind]. exists h, (root T). split; [reflexivity|exact HT].
  - pose proof (in_split _ _ LG) as (A & B & IO). pose proof (holds_nodup _ _ _ _ H) as ND. rewrite (next_ok h T F A x B fuel ltac:(lia) H IO). cbn [obind]. exists h, (root T). split; [|exact HT].
    rewrite IO in ND |- *. now rewrite after_split.
  - unfold minmax. rewrite (minmax_ok h (-1)%Z T F 0 0 fuel ltac:(lia) H). cbn [obind]. exists h, (root T). split; [reflexivity|exact HT].
  - unfold minmax. rewrite (minmax_ok h 1%Z T F 0 0 fuel ltac:(lia) H). cbn [obind]. exists h, (root T). split; [reflexivity|exact HT].
  - rewrite (for_each_ok h T F fuel ltac:(lia) ltac:(lia) H). cbn [obind]. exists h, (root T). split; [reflexivity|exact HT].
Qed.
Lemma run_ok cmp fuel U : three_way cmp -> 2 * Nat.log2 (length U + 1) + 3 <= fuel -> length U < fuel -> forall os h head L, holds_tree cmp h head U L -> legal cmp U L os ->
  exists h' head', run fuel cmp h head os = Ok (h', head', snd (spec_run cmp L os)) /\ holds_tree cmp h' head' U (fst (spec_run cmp L os)).
Proof.
  intros TW F1 F2. induction os as [|o os IH]; intros h head L HT LG; cbn [run spec_run legal] in *; [exists h, head; split; [reflexivity|exact HT]|].
  destruct LG as [L1 L2]. destruct (step_ok cmp fuel h head U L o TW F1 F2 HT L1) as (h1 & hd1 & E1 & HT1). rewrite E1. cbn [obind].
  destruct (spec_step cmp L o) as [M r] eqn:SS. cbn [fst snd] in *. destruct (IH h1 hd1 M HT1 L2) as (h2 & hd2 & E2 & HT2). rewrite E2. cbn [obind]. exists h2, hd2.
  destruct (spec_run cmp M os) as [M2 rs]. cbn [fst snd] in *. split; [reflexivity|exact HT2].
Qed.
