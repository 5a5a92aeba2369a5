From Verif Require Import Prelude HeapModel AmemModel AmemProofs StailqModel StailqSpec.
Local Open Scope nat_scope.

(** one address of the heap *)
Lemma aget_aput {A} (l : list (nat * A)) x v y : aget (aput l x v) y = if y =? x then (match aget l x with Some _ => Some v | None => None end) else aget l y.
Proof.
  unfold aput. induction l as [|[z w] l IH]; cbn [map aget fst]; [now destruct (y =? x)|]. destruct (Nat.eqb_spec z x) as [->|N]; cbn [aget].
  - destruct (Nat.eqb_spec x y) as [->|N2]; [now rewrite Nat.eqb_refl|]. rewrite IH. destruct (Nat.eqb_spec y x) as [e|]; [congruence|reflexivity].
  - destruct (Nat.eqb_spec z y) as [->|N2]; [now destruct (Nat.eqb_spec y x)|]. exact IH.
Qed.
Definition look (h : hp node) (x : nat) : option node := aget (blocks h) x.
Definition nx_at (m : mem) (x : nat) : nat := match look (heap m) x with Some c => nx c | None => 0 end.

(** linked elements, the last one to b *)
Fixpoint seg (f : nat -> nat) (L : list nat) (b : nat) : Prop := match L with [] => True | x :: L => f x = hd b L /\ seg f L b end.
Lemma seg_app f : forall A B b, seg f (A ++ B) b <-> seg f A (hd b B) /\ seg f B b.
Proof.
  induction A as [|x A IH]; intros B b; cbn [app seg]; [tauto|]. rewrite IH. destruct A; cbn [app hd]; tauto.
Qed.
Lemma seg_ext f g : forall L b, (forall x, In x L -> g x = f x) -> seg f L b -> seg g L b.
Proof. induction L as [|x L IH]; intros b H; cbn [seg]; [tauto|]. intros [A B]. split; [rewrite H by (now left); exact A|]. apply IH; [intros y I; apply H; now right|exact B]. Qed.
Definition endof (q : nat) (L : list nat) : slot := last (map Next L) (First q).
Lemma endof_snoc q L e : endof q (L ++ [e]) = Next e.
Proof. unfold endof. rewrite map_app. cbn [map]. apply last_last. Qed.
Lemma endof_cons q x y L : endof q (x :: y :: L) = endof q (y :: L).
Proof. reflexivity. Qed.
Lemma endof_app q A x B : endof q (A ++ x :: B) = endof q (x :: B).
Proof. induction A as [|y A IH]; [reflexivity|]. cbn [app]. destruct A as [|z A]; [reflexivity|]. cbn [app] in *. now rewrite endof_cons. Qed.
Lemma endof_any q r x : forall B, endof q (x :: B) = endof r (x :: B).
Proof. intros B. revert x. induction B as [|y B IH]; intros x; [reflexivity|]. rewrite !endof_cons. apply IH. Qed.

Section P.
Variable tail : bool.
Variable fuel : nat.
Variable E : list nat.
Variable m0 : mem.
Hypothesis blocks0 : forall e, In e E -> e <> 0 /\ look (heap m0) e <> None.
Hypothesis enough : length E < fuel.
Notation set_last := (set_last tail).
(* what the lists never write *)
Definition kept (h : hp node) : Prop := forall x, match look (heap m0) x, look h x with Some c, Some c' => data c' = data c /\ (In x E \/ c' = c) | None, None => True | _, _ => False end.
Lemma kept_block m e : kept (heap m) -> In e E -> exists c, look (heap m) e = Some c /\ nx_at m e = nx c.
Proof. intros K I. specialize (K e). destruct (blocks0 e I) as [_ B]. unfold nx_at. destruct (look (heap m0) e); [|congruence]. destruct (look (heap m) e) as [c'|]; [|contradiction]. now exists c'. Qed.
Lemma next_ok m e : kept (heap m) -> In e E -> next_of m e = Ok (nx_at m e).
Proof. intros K I. destruct (kept_block m e K I) as (c & G & N). unfold next_of, hget. unfold look in G. rewrite G. cbn [obind]. now rewrite N. Qed.
Lemma set_nx_ok m e n : kept (heap m) -> In e E -> exists m', set_nx m e n = Ok m' /\ heads m' = heads m /\ kept (heap m') /\ (forall x, nx_at m' x = if x =? e then n else nx_at m x).
Proof.
  intros K I. destruct (kept_block m e K I) as (c & G & N). unfold set_nx, hget. unfold look in G. rewrite G. cbn [obind]. eexists. split; [reflexivity|]. split; [reflexivity|]. split.
  - intros x. specialize (K x). unfold look in *. cbn [heap hput blocks]. rewrite aget_aput, G. destruct (Nat.eqb_spec x e) as [->|]; [|exact K]. rewrite G in K. destruct (aget (blocks (heap m0)) e); [|contradiction]. cbn [data]. tauto.
  - intros x. unfold nx_at, look. cbn [heap hput blocks]. rewrite aget_aput, G. now destruct (Nat.eqb_spec x e).
Qed.
Definition fine (m : mem) (q : nat) (L : list nat) : Prop := fst (heads m q) = hd 0 L /\ seg (nx_at m) L 0 /\ (tail = true -> snd (heads m q) = endof q L) /\ NoDup L /\ incl L E.
Definition apart (Q : state) : Prop := forall p q e, In e (of Q p) -> In e (of Q q) -> p = q.
Definition INV (m : mem) (Q : state) : Prop := kept (heap m) /\ (forall q L, Q q = Some L -> fine m q L) /\ apart Q /\ (forall q, Q q = None -> heads m q = heads m0 q).
Lemma fine_ext m m' q L : fine m q L -> heads m' q = heads m q -> (forall x, In x L -> nx_at m' x = nx_at m x) -> fine m' q L.
Proof. intros (A & B & C & D) H N. unfold fine. rewrite H. repeat split; try tauto. now apply (seg_ext (nx_at m)). Qed.
Lemma set_same Q q L : set Q q L q = Some L.
Proof. unfold set. now rewrite Nat.eqb_refl. Qed.
Lemma of_set Q q L p : of (set Q q L) p = if p =? q then L else of Q p.
Proof. unfold of, set. now destruct (p =? q). Qed.
Lemma apart_set Q q L : apart Q -> (forall e, In e L -> In e (of Q q) \/ forall p, ~ In e (of Q p)) -> apart (set Q q L).
Proof.
  intros D H p r e I J. rewrite of_set in I, J. destruct (Nat.eqb_spec p q) as [->|Np], (Nat.eqb_spec r q) as [->|Nr]; [reflexivity| | |exact (D _ _ _ I J)].
  - destruct (H e I) as [X|X]; [exact (D _ _ _ X J)|]. now apply X in J.
  - destruct (H e J) as [X|X]; [exact (D _ _ _ I X)|]. now apply X in I.
Qed.
(** one list is replaced *)
Lemma rebuild m Q m' q L : INV m Q -> kept (heap m') -> fine m' q L -> (forall p, p <> q -> heads m' p = heads m p) ->
  (forall p x, p <> q -> In x (of Q p) -> nx_at m' x = nx_at m x) ->
  (forall e, In e L -> In e (of Q q) \/ forall p, ~ In e (of Q p)) -> INV m' (set Q q L).
Proof.
  intros (K & F & D & N) K' F' H1 H2 H3. split; [exact K'|]. split; [|split; [now apply apart_set|]].
  - intros p M. unfold set. destruct (Nat.eqb_spec p q) as [->|Np]; [congruence|]. intros G. apply (fine_ext m); [now apply F|now apply H1|]. intros x I. apply (H2 p x Np). unfold of. now rewrite G.
  - intros p. unfold set. destruct (Nat.eqb_spec p q) as [->|Np]; [discriminate|]. intros G. rewrite H1 by exact Np. now apply N.
Qed.
(** heads *)
Lemma head_at m q h p : heads (set_head m q h) p = if p =? q then h else heads m p.
Proof. reflexivity. Qed.
Lemma first_at m q e p : heads (set_first m q e) p = if p =? q then (e, snd (heads m q)) else heads m p.
Proof. reflexivity. Qed.
Lemma last_at m q s p : heads (set_last m q s) p = if tail then (if p =? q then (fst (heads m q), s) else heads m p) else heads m p.
Proof. unfold StailqModel.set_last. now destruct tail. Qed.
Lemma last_heap m q s : heap (set_last m q s) = heap m.
Proof. unfold StailqModel.set_last. now destruct tail. Qed.
Lemma last_nx m q s x : nx_at (set_last m q s) x = nx_at m x.
Proof. unfold nx_at. now rewrite last_heap. Qed.
Lemma first_nx m q e x : nx_at (set_first m q e) x = nx_at m x.
Proof. reflexivity. Qed.
Lemma last_other m q s p : p <> q -> heads (set_last m q s) p = heads m p.
Proof. intros N. rewrite last_at. destruct tail; [|reflexivity]. destruct (Nat.eqb_spec p q); [contradiction|reflexivity]. Qed.
Lemma first_other m q e p : p <> q -> heads (set_first m q e) p = heads m p.
Proof. intros N. rewrite first_at. destruct (Nat.eqb_spec p q); [contradiction|reflexivity]. Qed.
Lemma last_fst m q s p : fst (heads (set_last m q s) p) = fst (heads m p).
Proof. rewrite last_at. destruct tail; [|reflexivity]. destruct (Nat.eqb_spec p q) as [->|]; reflexivity. Qed.
Lemma last_snd m q s : tail = true -> snd (heads (set_last m q s) q) = s.
Proof. intros T. rewrite last_at, T, Nat.eqb_refl. reflexivity. Qed.
Lemma first_fst m q e : fst (heads (set_first m q e) q) = e.
Proof. rewrite first_at, Nat.eqb_refl. reflexivity. Qed.
Lemma first_snd m q e : snd (heads (set_first m q e) q) = snd (heads m q).
Proof. rewrite first_at, Nat.eqb_refl. reflexivity. Qed.

Lemma ready_fine m Q q : INV m Q -> ready Q q -> exists L, Q q = Some L /\ of Q q = L /\ fine m q L.
Proof. intros (_ & F & _) R. unfold ready in R. unfold of. destruct (Q q) as [L|] eqn:G; [|congruence]. exists L. auto. Qed.
Lemma in_fine m Q q e : INV m Q -> In e (of Q q) -> exists L, Q q = Some L /\ of Q q = L /\ fine m q L.
Proof. intros I J. apply (ready_fine m); [exact I|]. unfold ready, of in *. destruct (Q q); [discriminate|contradiction]. Qed.
Lemma hd0 L : incl L E -> (hd 0 L =? 0) = match L with [] => true | _ => false end.
Proof. intros H. destruct L as [|x L]; [reflexivity|]. cbn [hd]. apply Nat.eqb_neq. apply blocks0, H. now left. Qed.

Lemma init_ok m Q q : INV m Q -> INV (q_init tail m q) (set Q q []).
Proof.
  intros V. apply (rebuild m); [exact V| | | | |intros e []].
  - unfold q_init. rewrite last_heap. apply V.
  - unfold fine, q_init. rewrite last_fst, first_fst. split; [reflexivity|]. split; [exact I|]. split; [intros T; now rewrite last_snd|]. split; [constructor|intros x []].
  - intros p N. unfold q_init. now rewrite last_other, first_other.
  - intros p x _ _. unfold q_init. now rewrite last_nx.
Qed.
Lemma insert_head_ok m Q q e : INV m Q -> ready Q q -> free E Q e -> exists m', q_insert_head tail m q e = Ok m' /\ INV m' (set Q q (e :: of Q q)).
Proof.
  intros V R [IE FE]. destruct (ready_fine m Q q V R) as (L & GQ & -> & (A & B & C & D & G)). assert (NL : ~ In e L) by (specialize (FE q); unfold of in FE; now rewrite GQ in FE).
  unfold q_insert_head. cbv zeta. destruct (set_nx_ok m e (fst (heads m q)) (proj1 V) IE) as (m1 & -> & H1 & K1 & N1). cbn [obind]. rewrite A, (hd0 L G). eexists. split; [reflexivity|].
  set (m2 := if match L with [] => true | _ => false end then set_last m1 q (Next e) else m1). assert (X : heap m2 = heap m1 /\ (forall p, p <> q -> heads m2 p = heads m p) /\ (tail = true -> snd (heads m2 q) = endof q (e :: L))).
  { unfold m2. destruct L as [|y L]; cbv iota.
    - rewrite last_heap. split; [reflexivity|]. split; [intros p N; rewrite last_other, H1 by exact N; reflexivity|]. intros T. now rewrite last_snd.
    - split; [reflexivity|]. split; [intros p N; now rewrite H1|]. intros T. rewrite H1, C by exact T. now rewrite endof_cons. }
  destruct X as (X1 & X2 & X3). assert (X4 : forall x, nx_at m2 x = if x =? e then hd 0 L else nx_at m x) by (intros x; unfold nx_at at 1; rewrite X1; fold (nx_at m1 x); rewrite N1, A; reflexivity). clearbody m2.
  apply (rebuild m); [exact V| | | | |].
  - cbn [set_first set_head heap]. now rewrite X1.
  - unfold fine. rewrite first_fst, first_snd. split; [reflexivity|]. split; [|split; [exact X3|split; [now constructor|intros y [<-|J]; [exact IE|now apply G]]]]. cbn [seg]. rewrite first_nx, X4, Nat.eqb_refl. split; [reflexivity|]. apply (seg_ext (nx_at m)); [|exact B]. intros x J. rewrite first_nx, X4. destruct (Nat.eqb_spec x e) as [->|]; [contradiction|reflexivity].
  - intros p N. now rewrite first_other, X2.
  - intros p x _ J. rewrite first_nx, X4. destruct (Nat.eqb_spec x e) as [->|]; [now apply FE in J|reflexivity].
  - intros y [<-|J]; [now right|]. left. unfold of. now rewrite GQ.
Qed.
(** *last = e, for a list A whose last element is known *)
Lemma assign_ok m q L e : tail = true -> kept (heap m) -> fine m q L -> exists m', assign m (snd (heads m q)) e = Ok m' /\ kept (heap m') /\ (forall p, p <> q -> heads m' p = heads m p) /\
  (forall p, snd (heads m' p) = snd (heads m p)) /\ fst (heads m' q) = hd e L /\ seg (nx_at m') L e /\ (forall x, ~ In x L -> nx_at m' x = nx_at m x).
Proof.
  intros T K (A & B & C & D & G). rewrite (C T). destruct L as [|z L _] using rev_ind.
  - cbn [endof map last assign]. eexists. split; [reflexivity|]. split; [exact K|]. split; [intros p N; now rewrite first_other|]. split; [intros p; rewrite first_at; now destruct (Nat.eqb_spec p q) as [->|]|]. rewrite first_fst. repeat split.
  - rewrite endof_snoc. cbn [assign]. assert (IZ : In z E) by (apply G, in_or_app; right; now left). destruct (set_nx_ok m z e K IZ) as (m1 & -> & H1 & K1 & N1). exists m1. split; [reflexivity|]. split; [exact K1|]. split; [intros; now rewrite H1|]. split; [intros; now rewrite H1|]. rewrite H1, A. split; [now destruct L|]. apply NoDup_remove in D. rewrite app_nil_r in D. destruct D as [_ D]. split.
    + apply seg_app in B. apply seg_app. cbn [hd seg] in *. rewrite N1, Nat.eqb_refl. split; [|tauto]. apply (seg_ext (nx_at m)); [|tauto]. intros x J. rewrite N1. destruct (Nat.eqb_spec x z) as [->|]; [contradiction|reflexivity].
    + intros x J. rewrite N1. destruct (Nat.eqb_spec x z) as [->|]; [|reflexivity]. exfalso. apply J, in_or_app. right. now left.
Qed.
Lemma insert_tail_ok m Q q e : tail = true -> INV m Q -> ready Q q -> free E Q e -> exists m', q_insert_tail tail m q e = Ok m' /\ INV m' (set Q q (of Q q ++ [e])).
Proof.
  intros T V R [IE FE]. destruct (ready_fine m Q q V R) as (L & GQ & -> & F). assert (NL : ~ In e L) by (specialize (FE q); unfold of in FE; now rewrite GQ in FE).
  unfold q_insert_tail. destruct (set_nx_ok m e 0 (proj1 V) IE) as (m1 & -> & H1 & K1 & N1). cbn [obind].
  assert (F1 : fine m1 q L). { apply (fine_ext m); [exact F|now rewrite H1|]. intros x J. rewrite N1. destruct (Nat.eqb_spec x e) as [->|]; [contradiction|reflexivity]. }
  destruct (assign_ok m1 q L e T K1 F1) as (m2 & -> & K2 & P2 & S2 & H2 & G2 & N2). cbn [obind]. eexists. split; [reflexivity|]. destruct F as (A & B & C & D & G). apply (rebuild m); [exact V| | | | |].
  - now rewrite last_heap.
  - unfold fine. rewrite last_fst, last_snd, H2, endof_snoc by exact T. split; [now destruct L|]. split; [|split; [reflexivity|split]].
    + apply seg_app. cbn [hd seg]. rewrite last_nx. split; [apply (seg_ext (nx_at m2)); [intros; apply last_nx|exact G2]|]. rewrite N2, N1, Nat.eqb_refl by exact NL. now split.
    + rewrite <- (app_nil_r (L ++ [e])), <- app_assoc. cbn [app]. apply (Permutation.Permutation_NoDup (Permutation.Permutation_middle L [] e)). rewrite app_nil_r. now constructor.
    + intros y J. apply in_app_or in J. destruct J as [J|[<-|[]]]; [now apply G|exact IE].
  - intros p N. rewrite last_other, P2, H1 by exact N. reflexivity.
  - intros p x N J. rewrite last_nx. rewrite N2; [|intros J2; apply N; apply (proj1 (proj2 (proj2 V)) p q x J); unfold of; now rewrite GQ]. rewrite N1. destruct (Nat.eqb_spec x e) as [->|]; [now apply FE in J|reflexivity].
  - intros y J. apply in_app_or in J. destruct J as [J|[<-|[]]]; [left; unfold of; now rewrite GQ|now right].
Qed.
Lemma after_split l e : forall A B, ~ In l A -> after l e (A ++ l :: B) = A ++ l :: e :: B.
Proof. induction A as [|x A IH]; intros B N; cbn [app after]; [now rewrite Nat.eqb_refl|]. destruct (Nat.eqb_spec x l) as [->|]; [exfalso; apply N; now left|]. rewrite IH; [reflexivity|]. intros J. apply N. now right. Qed.
Lemma without_split e : forall A B, ~ In e A -> ~ In e B -> without e (A ++ e :: B) = A ++ B.
Proof.
  intros A B NA NB. unfold without. rewrite filter_app. cbn [filter]. rewrite Nat.eqb_refl. cbn [negb]. f_equal.
  - clear NB. induction A as [|x A IH]; cbn [filter]; [reflexivity|]. destruct (Nat.eqb_spec x e) as [->|]; [exfalso; apply NA; now left|]. cbn [negb]. rewrite IH; [reflexivity|]. intros J. apply NA. now right.
  - clear NA. induction B as [|x B IH]; cbn [filter]; [reflexivity|]. destruct (Nat.eqb_spec x e) as [->|]; [exfalso; apply NB; now left|]. cbn [negb]. rewrite IH; [reflexivity|]. intros J. apply NB. now right.
Qed.
Lemma next_in_split e : forall A B, ~ In e A -> next_in e (A ++ e :: B) = hd 0 B.
Proof. induction A as [|x A IH]; intros B N; cbn [app next_in]; [now rewrite Nat.eqb_refl|]. destruct (Nat.eqb_spec x e) as [->|]; [exfalso; apply N; now left|]. apply IH. intros J. apply N. now right. Qed.
Lemma cut (L : list nat) e : NoDup L -> In e L -> exists A B, L = A ++ e :: B /\ ~ In e A /\ ~ In e B /\ NoDup (A ++ B).
Proof. intros D J. apply in_split in J. destruct J as (A & B & ->). apply NoDup_remove in D. destruct D as [D N]. exists A, B. rewrite in_app_iff in N. tauto. Qed.

Lemma insert_after_ok m Q q l e : INV m Q -> free E Q e -> In l (of Q q) -> exists m', q_insert_after tail m q l e = Ok m' /\ INV m' (set Q q (after l e (of Q q))).
Proof.
  intros V [IE FE] IL. destruct (in_fine m Q q l V IL) as (L & GQ & OQ & F). rewrite OQ in *. pose proof F as (A & B & C & D & G). assert (NL : ~ In e L) by (specialize (FE q); now rewrite OQ in FE).
  assert (IlE : In l E) by now apply G. unfold q_insert_after. rewrite (next_ok m l (proj1 V) IlE). cbn [obind]. destruct (set_nx_ok m e (nx_at m l) (proj1 V) IE) as (m1 & -> & H1 & K1 & N1). cbn [obind].
  destruct (cut L l D IL) as (U & W & -> & NU & NW & D2). rewrite after_split by exact NU. pose proof B as B'. apply seg_app in B'. cbn [hd seg] in B'. destruct B' as (B1 & B2 & B3). rewrite B2, (hd0 W) by (intros y J; apply G, in_or_app; right; now right).
  set (m2 := if match W with [] => true | _ => false end then set_last m1 q (Next e) else m1).
  assert (X : heap m2 = heap m1 /\ fst (heads m2 q) = fst (heads m q) /\ (forall p, p <> q -> heads m2 p = heads m p) /\ (tail = true -> snd (heads m2 q) = endof q (U ++ l :: e :: W))).
  { unfold m2. destruct W as [|y W]; cbv iota.
    - rewrite last_heap, last_fst, H1. split; [reflexivity|]. split; [reflexivity|]. split; [intros p N; rewrite last_other, H1 by exact N; reflexivity|]. intros T. rewrite last_snd by exact T. now rewrite endof_app.
    - split; [reflexivity|]. rewrite H1. split; [reflexivity|]. split; [reflexivity|]. intros T. rewrite C by exact T. rewrite !endof_app. now rewrite !endof_cons. }
  destruct X as (X1 & X2 & X3 & X4). assert (X5 : forall x, nx_at m2 x = if x =? e then hd 0 W else nx_at m x) by (intros x; unfold nx_at at 1; rewrite X1; fold (nx_at m1 x); rewrite N1, B2; reflexivity). clearbody m2.
  assert (K2 : kept (heap m2)) by (now rewrite X1). destruct (set_nx_ok m2 l e K2 IlE) as (m3 & -> & H3 & K3 & N3). exists m3. split; [reflexivity|]. assert (Nle : e <> l) by (intros ->; contradiction).
  assert (N4 : forall x, nx_at m3 x = if x =? l then e else if x =? e then hd 0 W else nx_at m x) by (intros x; rewrite N3, X5; reflexivity).
  apply (rebuild m); [exact V|exact K3| | | |].
  - unfold fine. rewrite H3, X2, A. split; [now destruct U|]. split; [|split; [exact X4|split]].
    + apply seg_app. cbn [hd seg]. split; [apply (seg_ext (nx_at m)); [|exact B1]|split; [|split]].
      * intros x J. rewrite N4. destruct (Nat.eqb_spec x l) as [->|]; [contradiction|]. destruct (Nat.eqb_spec x e) as [->|]; [|reflexivity]. exfalso. apply NL, in_or_app. now left.
      * now rewrite N4, Nat.eqb_refl.
      * rewrite N4, Nat.eqb_refl. destruct (Nat.eqb_spec e l); [contradiction|reflexivity].
      * apply (seg_ext (nx_at m)); [|exact B3]. intros x J. rewrite N4. destruct (Nat.eqb_spec x l) as [->|]; [contradiction|]. destruct (Nat.eqb_spec x e) as [->|]; [|reflexivity]. exfalso. apply NL, in_or_app. right. now right.
    + apply (Permutation.Permutation_NoDup (l := e :: U ++ l :: W)); [|now constructor]. change (U ++ l :: e :: W) with (U ++ [l] ++ e :: W). change (U ++ l :: W) with (U ++ [l] ++ W). rewrite !app_assoc. apply Permutation.Permutation_middle.
    + intros y J. apply in_app_or in J. destruct J as [J|[<-|[<-|J]]]; [apply G, in_or_app; now left|exact IlE|exact IE|apply G, in_or_app; right; now right].
  - intros p N. rewrite H3. now apply X3.
  - intros p x N J. rewrite N4. destruct (Nat.eqb_spec x l) as [->|]; [exfalso; apply N, (proj1 (proj2 (proj2 V)) p q l J); now rewrite OQ|]. destruct (Nat.eqb_spec x e) as [->|]; [now apply FE in J|reflexivity].
  - intros y J. rewrite OQ. apply in_app_or in J. destruct J as [J|[<-|[<-|J]]]; [left; apply in_or_app; now left|now left|now right|left; apply in_or_app; right; now right].
Qed.
Lemma remove_head_ok m Q q : INV m Q -> of Q q <> [] -> exists m', q_remove_head tail m q = Ok m' /\ INV m' (set Q q (tl (of Q q))).
Proof.
  intros V NE. destruct (of Q q) as [|x L] eqn:OQ; [congruence|]. assert (J : In x (of Q q)) by (rewrite OQ; now left). destruct (in_fine m Q q x V J) as (L2 & GQ & OQ2 & (A & B & C & D & G)). rewrite OQ in OQ2. subst L2. cbn [tl hd seg] in *. destruct B as [B1 B2]. apply NoDup_cons_iff in D. destruct D as [D1 D2].
  assert (G2 : incl L E) by (intros y Y; apply G; now right). unfold q_remove_head. rewrite A, (next_ok m x (proj1 V)) by (apply G; now left). cbn [obind]. rewrite B1, (hd0 L G2). cbv zeta. eexists. split; [reflexivity|].
  apply (rebuild m); [exact V| | | | |].
  - destruct L; [rewrite last_heap|]; apply V.
  - unfold fine. split; [destruct L; [rewrite last_fst|]; now rewrite first_fst|]. split; [apply (seg_ext (nx_at m)); [|exact B2]; intros y _; destruct L; [now rewrite last_nx|reflexivity]|]. split; [|split; assumption]. intros T. destruct L; [now rewrite last_snd|]. rewrite first_snd, C by exact T. apply endof_cons.
  - intros p N. destruct L; [rewrite last_other by exact N|]; now apply first_other.
  - intros p y _ _. destruct L; [now rewrite last_nx|reflexivity].
  - intros y Y. left. rewrite OQ. now right.
Qed.
Lemma remove_from_ok q e : forall f m Q A cur R, INV m Q -> of Q q = A ++ cur :: R -> In e R -> length R < f -> exists m', remove_from tail f m q cur e = Ok m' /\ INV m' (set Q q (without e (of Q q))).
Proof.
  induction f as [|f IH]; intros m Q A cur R V OQ IR LF; [lia|]. cbn [remove_from]. assert (J : In cur (of Q q)) by (rewrite OQ; apply in_or_app; right; now left). destruct (in_fine m Q q cur V J) as (L & GQ & OQ2 & (FA & FB & FC & FD & FG)). rewrite OQ in OQ2. subst L.
  assert (IC : In cur E) by (apply FG, in_or_app; right; now left). rewrite (next_ok m cur (proj1 V) IC). cbn [obind]. pose proof FB as FB2. apply seg_app in FB2. cbn [hd seg] in FB2. destruct FB2 as (B1 & B2 & B3). rewrite B2. destruct R as [|y R]; [contradiction|]. cbn [hd]. destruct (Nat.eqb_spec y e) as [->|Ny].
  - assert (IE : In e E) by (apply FG, in_or_app; right; right; now left). rewrite (next_ok m e (proj1 V) IE). cbn [obind]. cbn [seg] in B3. destruct B3 as [B3 B4]. rewrite B3. destruct (set_nx_ok m cur (hd 0 R) (proj1 V) IC) as (m1 & -> & H1 & K1 & N1). cbn [obind]. rewrite hd0 by (intros z Z; apply FG, in_or_app; right; right; now right). eexists. split; [reflexivity|].
    assert (W : without e (of Q q) = A ++ cur :: R /\ NoDup (A ++ cur :: R) /\ ~ In e (A ++ cur :: R)). { rewrite OQ. change (A ++ cur :: e :: R) with (A ++ [cur] ++ e :: R) in *. rewrite app_assoc in *. apply NoDup_remove in FD. destruct FD as [FD NN]. rewrite without_split by (intros Z; apply NN, in_or_app; tauto). rewrite <- app_assoc in *. now repeat split. }
    destruct W as (-> & ND & NI). pose proof ND as ND1. apply NoDup_remove in ND1. destruct ND1 as [_ NC]. assert (NcE : cur <> e) by (intros ->; apply NI, in_or_app; right; now left).
    apply (rebuild m); [exact V| | | | |].
    + destruct R; [rewrite last_heap|]; exact K1.
    + unfold fine. split; [destruct R; [rewrite last_fst|]; rewrite H1, FA; now destruct A|]. split; [|split; [|split]].
      * assert (S1 : seg (nx_at m1) (A ++ cur :: R) 0). { apply seg_app. cbn [hd seg]. rewrite N1, Nat.eqb_refl. split; [apply (seg_ext (nx_at m)); [|exact B1]|split; [reflexivity|apply (seg_ext (nx_at m)); [|exact B4]]]; intros z Z; rewrite N1; (destruct (Nat.eqb_spec z cur) as [->|]; [exfalso; apply NC, in_or_app; tauto|reflexivity]). }
        destruct R; [|exact S1]. apply (seg_ext (nx_at m1)); [intros; apply last_nx|exact S1].
      * intros T. rewrite endof_app. destruct R as [|z R]; [now rewrite last_snd|]. rewrite H1, FC by exact T. rewrite endof_app. now rewrite !endof_cons.
      * exact ND.
      * intros z Z. apply FG. apply in_app_or in Z. apply in_or_app. cbn [In] in *. tauto.
    + intros p N. destruct R; [rewrite last_other by exact N|]; now rewrite H1.
    + intros p x N Z. assert (X : nx_at m1 x = nx_at m x). { rewrite N1. destruct (Nat.eqb_spec x cur) as [->|]; [|reflexivity]. exfalso. apply N. exact (proj1 (proj2 (proj2 V)) p q cur Z J). } destruct R; [rewrite last_nx|]; exact X.
    + intros z Z. left. rewrite OQ. apply in_app_or in Z. apply in_or_app. cbn [In] in *. tauto.
  - apply (IH m Q (A ++ [cur]) y R V); [now rewrite OQ, <- app_assoc|destruct IR; [congruence|assumption]|cbn [length] in LF; lia].
Qed.
Lemma fits m Q q L : INV m Q -> fine m q L -> length L < fuel.
Proof. intros V (_ & _ & _ & D & G). pose proof (NoDup_incl_length D G). lia. Qed.
Lemma remove_ok m Q q e : INV m Q -> In e (of Q q) -> exists m', q_remove tail fuel m q e = Ok m' /\ INV m' (set Q q (without e (of Q q))).
Proof.
  intros V J. destruct (in_fine m Q q e V J) as (L & GQ & OQ & F). pose proof (fits m Q q L V F) as LF. pose proof F as (A & B & C & D & G). rewrite OQ in J. destruct L as [|x L]; [contradiction|]. unfold q_remove. rewrite A. cbn [hd]. destruct (Nat.eqb_spec x e) as [->|N].
  - rewrite OQ. change (without e (e :: L)) with (without e ([] ++ e :: L)). inversion D; subst. rewrite without_split by (assumption || intros []). cbn [app]. replace L with (tl (of Q q)) by now rewrite OQ. apply remove_head_ok; [exact V|now rewrite OQ].
  - apply (remove_from_ok q e fuel m Q [] x L V); [now rewrite OQ|destruct J; [congruence|assumption]|cbn [length] in LF; lia].
Qed.
Lemma inv_ext m Q Q' : (forall q, Q q = Q' q) -> INV m Q -> INV m Q'.
Proof.
  intros H (K & F & D & N). assert (O : forall q, of Q' q = of Q q) by (intros q; unfold of; now rewrite H). split; [exact K|]. split; [intros q L; rewrite <- H; apply F|]. split; [intros p q e; rewrite !O; apply D|intros q; rewrite <- H; apply N].
Qed.
Lemma concat_ok m Q q r : tail = true -> INV m Q -> ready Q q -> ready Q r -> q <> r -> exists m', q_concat tail m q r = Ok m' /\ INV m' (set (set Q r []) q (of Q q ++ of Q r)).
Proof.
  intros T V Rq Rr NE. destruct (ready_fine m Q q V Rq) as (L & GL & OL & FL). destruct (ready_fine m Q r V Rr) as (M & GM & OM & FM). rewrite OL, OM. pose proof FM as (A & B & C & D & G). unfold q_concat. cbv zeta. rewrite A, (hd0 M G). destruct M as [|y M].
  - exists m. split; [reflexivity|]. apply (inv_ext m Q); [|exact V]. intros p. unfold set. rewrite app_nil_r. destruct (Nat.eqb_spec p q) as [->|]; [exact GL|]. destruct (Nat.eqb_spec p r) as [->|]; [exact GM|reflexivity].
  - cbn [hd]. destruct (assign_ok m q L y T (proj1 V) FL) as (m1 & -> & K1 & P1 & S1 & H1 & G1 & N1). cbn [obind]. eexists. split; [reflexivity|]. destruct V as (K & F & DJ & HN). destruct FL as (LA & LB & LC & LD & LG).
    assert (LM : forall x, In x (y :: M) -> ~ In x L) by (intros x J J2; apply NE, (DJ q r x); [now rewrite OL|now rewrite OM]).
    set (m2 := set_last m1 q (snd (heads m1 r))). assert (Hq : fst (heads m2 q) = hd y L /\ snd (heads m2 q) = endof q (L ++ y :: M)). { unfold m2. rewrite last_fst, last_snd, H1, S1, C, endof_app by exact T. split; [reflexivity|]. apply endof_any. }
    assert (Ho : forall p, p <> q -> heads m2 p = heads m p) by (intros p N; unfold m2; rewrite last_other, P1 by exact N; reflexivity). assert (Hn : forall x, nx_at m2 x = nx_at m1 x) by (intros; apply last_nx). assert (K2 : kept (heap m2)) by (unfold m2; now rewrite last_heap). clearbody m2.
    set (m3 := q_init tail m2 r). assert (I3 : heads m3 r = (0, First r)) by (unfold m3, q_init; rewrite last_at, T, Nat.eqb_refl, first_fst; reflexivity). assert (Ho3 : forall p, p <> r -> heads m3 p = heads m2 p) by (intros p N; unfold m3, q_init; now rewrite last_other, first_other). assert (Hn3 : forall x, nx_at m3 x = nx_at m1 x) by (intros x; unfold m3, q_init; rewrite last_nx, first_nx; apply Hn). assert (K3 : kept (heap m3)) by (unfold m3, q_init; rewrite last_heap; exact K2). clearbody m3.
    split; [exact K3|]. split; [|split].
    + intros p Z. unfold set. destruct (Nat.eqb_spec p q) as [->|Np]; [intros [= <-]|destruct (Nat.eqb_spec p r) as [->|Nr]; [intros [= <-]|intros GZ]].
      * unfold fine. rewrite Ho3 by exact NE. destruct Hq as [-> ->]. split; [now destruct L|]. split; [|split; [reflexivity|split]].
        -- apply seg_app. split; [apply (seg_ext (nx_at m1)); [intros; apply Hn3|exact G1]|]. apply (seg_ext (nx_at m)); [|exact B]. intros x J. rewrite Hn3, N1; [reflexivity|now apply LM].
        -- clear - LD D LM. induction L as [|x L IH]; [exact D|]. cbn [app]. inversion LD; subst. constructor; [|apply IH; [assumption|intros z Z Z2; apply (LM z Z); now right]]. intros J. apply in_app_or in J. destruct J as [J|J]; [contradiction|]. apply (LM x J). now left.
        -- intros x J. apply in_app_or in J. destruct J; [now apply LG|now apply G].
      * unfold fine. rewrite I3. split; [reflexivity|]. split; [exact I|]. split; [reflexivity|]. split; [constructor|intros x []].
      * apply (fine_ext m); [now apply F|rewrite Ho3, Ho by assumption; reflexivity|]. intros x J. rewrite Hn3. apply N1. intros J2. apply Np, (DJ p q x); [unfold of; now rewrite GZ|now rewrite OL].
    + intros p s x J1 J2. rewrite !of_set in *.
      assert (Y : forall p, In x (if p =? q then L ++ y :: M else if p =? r then [] else of Q p) -> (p = q /\ (In x (of Q q) \/ In x (of Q r))) \/ (p <> q /\ p <> r /\ In x (of Q p))). { intros u. rewrite OL, OM. destruct (Nat.eqb_spec u q); [intros J; apply in_app_or in J; tauto|]. destruct (Nat.eqb_spec u r); [intros []|tauto]. }
      apply Y in J1. apply Y in J2. destruct J1 as [[-> J1]|(U1 & U2 & J1)], J2 as [[-> J2]|(U3 & U4 & J2)]; [reflexivity| | |exact (DJ _ _ _ J1 J2)].
      * destruct J1 as [J1|J1]; [exact (DJ _ _ _ J1 J2)|]. destruct U4. exact (DJ _ _ _ J2 J1).
      * destruct J2 as [J2|J2]; [exact (DJ _ _ _ J1 J2)|]. destruct U2. exact (DJ _ _ _ J1 J2).
    + intros p. unfold set. destruct (Nat.eqb_spec p q) as [->|Np]; [discriminate|]. destruct (Nat.eqb_spec p r) as [->|Nr]; [discriminate|]. intros Z. rewrite Ho3, Ho by assumption. now apply HN.
Qed.
Lemma walk_ok m : forall f L, kept (heap m) -> seg (nx_at m) L 0 -> incl L E -> length L < f -> walk f m (hd 0 L) = Ok L.
Proof.
  induction f as [|f IH]; intros L K B G LF; [lia|]. cbn [walk]. rewrite (hd0 L G). destruct L as [|x L]; [reflexivity|]. cbn [hd seg] in *. destruct B as [B1 B2]. rewrite (next_ok m x K) by (apply G; now left). cbn [obind]. rewrite B1, IH; [reflexivity|exact K|exact B2|intros y Y; apply G; now right|cbn [length] in LF; lia].
Qed.
Lemma call_ok m Q c : INV m Q -> allowed tail E Q c -> exists m', do_call tail fuel m c = Ok (fst (spec Q c), m') /\ INV m' (snd (spec Q c)).
Proof.
  intros V H. destruct c; cbn [do_call spec fst snd allowed] in *; try (match goal with |- exists m', quiet ?X = _ /\ INV _ ?S => assert (Z : exists m', X = Ok m' /\ INV m' S); [|destruct Z as (m' & -> & Z); exists m'; split; [reflexivity|exact Z]] end).
  - eexists. split; [reflexivity|now apply init_ok].
  - now apply insert_head_ok.
  - now apply insert_tail_ok.
  - now apply insert_after_ok.
  - now apply remove_head_ok.
  - now apply remove_ok.
  - now apply concat_ok.
  - destruct (ready_fine m Q q V H) as (L & _ & -> & (A & _ & _ & _ & G)). rewrite A, (hd0 L G). exists m. split; [now destruct L|exact V].
  - destruct (ready_fine m Q q V H) as (L & _ & -> & (A & _)). rewrite A. exists m. now split.
  - destruct (in_fine m Q q e V H) as (L & _ & OQ & (A & B & C & D & G)). rewrite OQ in *. rewrite (next_ok m e (proj1 V)) by now apply G. cbn [obind]. exists m. split; [|exact V]. destruct (cut L e D H) as (U & W & -> & NU & NW & D2). rewrite next_in_split by exact NU. apply seg_app in B. cbn [seg] in B. destruct B as (_ & -> & _). reflexivity.
  - destruct (ready_fine m Q q V H) as (L & _ & -> & F). pose proof (fits m Q q L V F). destruct F as (A & B & C & D & G). rewrite A, walk_ok; [|apply V|exact B|exact G|assumption]. exists m. now split.
Qed.
Lemma calls_ok : forall l m Q, INV m Q -> history tail E Q l -> exists m', calls tail fuel m l = Ok (fst (answers Q l), m') /\ INV m' (snd (answers Q l)).
Proof.
  induction l as [|c l IH]; intros m Q V H; cbn [calls answers history] in *; [exists m; now split|]. destruct H as [H1 H2]. destruct (call_ok m Q c V H1) as (m1 & -> & V1). cbn [obind]. destruct (spec Q c) as [a Q1]. cbn [fst snd] in *. destruct (IH m1 Q1 V1 H2) as (m2 & -> & V2). cbn [obind]. destruct (answers Q1 l) as [o Q2]. cbn [fst snd] in *. exists m2. now split.
Qed.
Lemma inv0 : INV m0 (fun _ => None).
Proof. split; [|split; [discriminate|split; [intros p q e []|reflexivity]]]. intros x. destruct (look (heap m0) x); [|exact I]. split; [reflexivity|now right]. Qed.
(** an element that is not in the list *)
Lemma remove_from_absent q e : e <> 0 -> look (heap m0) 0 = None -> forall f m R, kept (heap m) -> seg (nx_at m) R 0 -> incl R E -> ~ In e R -> length R < f -> remove_from tail f m q (hd 0 R) e = UB.
Proof.
  intros Ne N0. induction f as [|f IH]; intros m R K B G NI LF; [lia|]. cbn [remove_from]. destruct R as [|x R]; cbn [hd].
  - unfold next_of, hget. specialize (K 0). rewrite N0 in K. unfold look in K. destruct (aget (blocks (heap m)) 0); [contradiction|reflexivity].
  - cbn [seg] in B. destruct B as [B1 B2]. rewrite (next_ok m x K) by (apply G; now left). cbn [obind]. rewrite B1. destruct (Nat.eqb_spec (hd 0 R) e) as [X|_].
    + exfalso. destruct R as [|y R]; cbn [hd] in X; [congruence|]. apply NI. right. now left.
    + apply IH; [exact K|exact B2|intros y Y; apply G; now right|intros Y; apply NI; now right|cbn [length] in LF; lia].
Qed.
Lemma remove_absent m Q q e : e <> 0 -> look (heap m0) 0 = None -> INV m Q -> ready Q q -> ~ In e (of Q q) -> q_remove tail fuel m q e = UB.
Proof.
  intros Ne N0 V R NI. destruct (ready_fine m Q q V R) as (L & _ & OQ & F). pose proof (fits m Q q L V F). destruct F as (A & B & C & D & G). rewrite OQ in NI. unfold q_remove. rewrite A. destruct (Nat.eqb_spec (hd 0 L) e) as [X|_].
  - exfalso. destruct L as [|x L]; cbn [hd] in X; [congruence|]. apply NI. now left.
  - apply remove_from_absent; try assumption. apply V.
Qed.
End P.
