From Verif Require Import Prelude HeapModel AmemModel AmemProofs BlistModel BlistSpec.
Local Open Scope nat_scope.

Lemma aget_aput {A} (l : list (nat * A)) x v y : aget (aput l x v) y = if y =? x then (match aget l x with Some _ => Some v | None => None end) else aget l y.
Proof.
  unfold aput. induction l as [|[z w] l IH]; cbn [map aget fst]; [now destruct (y =? x)|]. destruct (Nat.eqb_spec z x) as [->|N]; cbn [aget].
  - destruct (Nat.eqb_spec x y) as [->|N2]; [now rewrite Nat.eqb_refl|]. rewrite IH. destruct (Nat.eqb_spec y x) as [e|]; [congruence|reflexivity].
  - destruct (Nat.eqb_spec z y) as [->|N2]; [now destruct (Nat.eqb_spec y x)|]. exact IH.
Qed.
Definition look (h : hp node) (x : nat) : option node := aget (blocks h) x.
Definition nx_at (m : mem) (x : nat) : nat := match look (heap m) x with Some c => nx c | None => 0 end.
Definition pv_at (m : mem) (x : nat) : slot := match look (heap m) x with Some c => pv c | None => First 0 end.

(** forward links, the last one to b *)
Fixpoint seg (f : nat -> nat) (L : list nat) (b : nat) : Prop := match L with [] => True | x :: L => f x = hd b L /\ seg f L b end.
Lemma seg_app f : forall A B b, seg f (A ++ B) b <-> seg f A (hd b B) /\ seg f B b.
Proof. induction A as [|x A IH]; intros B b; cbn [app seg]; [tauto|]. rewrite IH. destruct A; cbn [app hd]; tauto. Qed.
Lemma seg_ext f g : forall L b, (forall x, In x L -> g x = f x) -> seg f L b -> seg g L b.
Proof. induction L as [|x L IH]; intros b H; cbn [seg]; [tauto|]. intros [A B]. split; [rewrite H by (now left); exact A|]. apply IH; [intros y I; apply H; now right|exact B]. Qed.
(** backward links, the first one to s *)
Fixpoint bk (g : nat -> slot) (s : slot) (L : list nat) : Prop := match L with [] => True | x :: L => g x = s /\ bk g (Next x) L end.
Definition endof (s : slot) (L : list nat) : slot := last (map Next L) s.
Lemma endof_snoc s L e : endof s (L ++ [e]) = Next e.
Proof. unfold endof. rewrite map_app. cbn [map]. apply last_last. Qed.
Lemma endof_cons s x L : endof s (x :: L) = endof (Next x) L.
Proof. unfold endof. cbn [map]. revert x s. induction L as [|y L IH]; intros x s; [reflexivity|]. cbn [map]. change (last (Next x :: Next y :: map Next L) s) with (last (Next y :: map Next L) s). rewrite (IH y s). symmetry. apply (IH y (Next x)). Qed.
Lemma bk_app g : forall A B s, bk g s (A ++ B) <-> bk g s A /\ bk g (endof s A) B.
Proof. induction A as [|x A IH]; intros B s; cbn [app bk]; [cbn; tauto|]. rewrite IH, endof_cons. tauto. Qed.
Lemma bk_ext g h : forall L s, (forall x, In x L -> h x = g x) -> bk g s L -> bk h s L.
Proof. induction L as [|x L IH]; intros s H; cbn [bk]; [tauto|]. intros [A B]. split; [rewrite H by (now left); exact A|]. apply IH; [intros y I; apply H; now right|exact B]. Qed.
Lemma nd_mid (A : list nat) x B : NoDup (A ++ x :: B) -> ~ In x A /\ ~ In x B /\ (forall z, In z A -> In z B -> False) /\ NoDup A /\ NoDup (A ++ B).
Proof.
  intros D. apply NoDup_remove in D. destruct D as [D N]. rewrite in_app_iff in N. split; [tauto|]. split; [tauto|]. split; [|split; [|exact D]]; clear N; induction A as [|y A IH]; [intros z []| |constructor|]; cbn [app] in D; inversion D as [|? ? D1 D2]; subst.
  - intros z [<-|I] J; [apply D1, in_or_app; now right|now apply (IH D2 z)].
  - constructor; [|now apply IH]. intros I. apply D1, in_or_app. now left.
Qed.

Section P.
Variable fuel : nat.
Variable E : list nat.
Variable m0 : mem.
Hypothesis blocks0 : forall e, In e E -> e <> 0 /\ look (heap m0) e <> None.
Hypothesis enough : length E < fuel.
(* what the lists never write *)
Definition kept (h : hp node) : Prop := forall x, match look (heap m0) x, look h x with Some c, Some c' => data c' = data c /\ (In x E \/ c' = c) | None, None => True | _, _ => False end.
Lemma kept_block m e : kept (heap m) -> In e E -> exists c, look (heap m) e = Some c /\ nx_at m e = nx c /\ pv_at m e = pv c.
Proof. intros K I. specialize (K e). destruct (blocks0 e I) as [_ B]. unfold nx_at, pv_at. destruct (look (heap m0) e); [|congruence]. destruct (look (heap m) e) as [c'|]; [|contradiction]. now exists c'. Qed.
Lemma next_ok m e : kept (heap m) -> In e E -> next_of m e = Ok (nx_at m e).
Proof. intros K I. destruct (kept_block m e K I) as (c & G & N & _). unfold next_of, hget. unfold look in G. rewrite G. cbn [obind]. now rewrite N. Qed.
Lemma prev_ok m e : kept (heap m) -> In e E -> prev_of m e = Ok (pv_at m e).
Proof. intros K I. destruct (kept_block m e K I) as (c & G & _ & N). unfold prev_of, hget. unfold look in G. rewrite G. cbn [obind]. now rewrite N. Qed.
Lemma put_kept m e c c' : kept (heap m) -> In e E -> look (heap m) e = Some c -> data c' = data c -> kept (hput (heap m) e c').
Proof.
  intros K I G D x. specialize (K x). unfold look in *. cbn [hput blocks]. rewrite aget_aput, G. destruct (Nat.eqb_spec x e) as [->|]; [|exact K]. rewrite G in K. destruct (aget (blocks (heap m0)) e); [|contradiction]. rewrite D. tauto.
Qed.
Lemma set_nx_ok m e n : kept (heap m) -> In e E -> exists m', set_nx m e n = Ok m' /\ heads m' = heads m /\ kept (heap m') /\ (forall x, nx_at m' x = if x =? e then n else nx_at m x) /\ (forall x, pv_at m' x = pv_at m x).
Proof.
  intros K I. destruct (kept_block m e K I) as (c & G & N). unfold set_nx, hget. pose proof G as G'. unfold look in G'. rewrite G'. cbn [obind]. eexists. split; [reflexivity|]. split; [reflexivity|]. split; [now apply (put_kept m e c)|].
  split; intros x; unfold nx_at, pv_at, look; cbn [heap hput blocks]; rewrite aget_aput, G'; destruct (Nat.eqb_spec x e) as [->|]; try reflexivity. cbn [pv]. now rewrite G'.
Qed.
Lemma set_pv_ok m e s : kept (heap m) -> In e E -> exists m', set_pv m e s = Ok m' /\ heads m' = heads m /\ kept (heap m') /\ (forall x, pv_at m' x = if x =? e then s else pv_at m x) /\ (forall x, nx_at m' x = nx_at m x).
Proof.
  intros K I. destruct (kept_block m e K I) as (c & G & N). unfold set_pv, hget. pose proof G as G'. unfold look in G'. rewrite G'. cbn [obind]. eexists. split; [reflexivity|]. split; [reflexivity|]. split; [now apply (put_kept m e c)|].
  split; intros x; unfold nx_at, pv_at, look; cbn [heap hput blocks]; rewrite aget_aput, G'; destruct (Nat.eqb_spec x e) as [->|]; try reflexivity. cbn [nx]. now rewrite G'.
Qed.
Definition fine (m : mem) (q : nat) (L : list nat) : Prop := heads m q = hd 0 L /\ seg (nx_at m) L 0 /\ bk (pv_at m) (First q) L /\ NoDup L /\ incl L E.
Definition apart (Q : state) : Prop := forall p q e, In e (of Q p) -> In e (of Q q) -> p = q.
Definition INV (m : mem) (Q : state) : Prop := kept (heap m) /\ (forall q L, Q q = Some L -> fine m q L) /\ apart Q /\ (forall q, Q q = None -> heads m q = heads m0 q).
Lemma of_set Q q L p : of (set Q q L) p = if p =? q then L else of Q p.
Proof. unfold of, set. now destruct (p =? q). Qed.
Lemma apart_set Q q L : apart Q -> (forall e, In e L -> In e (of Q q) \/ forall p, ~ In e (of Q p)) -> apart (set Q q L).
Proof.
  intros D H p r e I J. rewrite of_set in I, J. destruct (Nat.eqb_spec p q) as [->|Np], (Nat.eqb_spec r q) as [->|Nr]; [reflexivity| | |exact (D _ _ _ I J)].
  - destruct (H e I) as [X|X]; [exact (D _ _ _ X J)|]. now apply X in J.
  - destruct (H e J) as [X|X]; [exact (D _ _ _ I X)|]. now apply X in I.
Qed.
(** one list is replaced *)
Lemma rebuild m Q m' q L : INV m Q -> kept (heap m') -> fine m' q L -> (forall p, p <> q -> heads m' p = heads m p) ->
  (forall x, ~ In x L -> ~ In x (of Q q) -> nx_at m' x = nx_at m x /\ pv_at m' x = pv_at m x) ->
  (forall e, In e L -> In e (of Q q) \/ forall p, ~ In e (of Q p)) -> INV m' (set Q q L).
Proof.
  intros (K & F & D & N) K' F' H1 H2 H3. split; [exact K'|]. split; [|split; [now apply apart_set|]].
  - intros p M. unfold set. destruct (Nat.eqb_spec p q) as [->|Np]; [congruence|]. intros G. destruct (F p M G) as (A & B & C & U).
    assert (X : forall x, In x M -> nx_at m' x = nx_at m x /\ pv_at m' x = pv_at m x). { intros x I. assert (IP : In x (of Q p)) by (unfold of; now rewrite G). apply H2; [|intros J; apply Np; exact (D p q x IP J)]. intros J. destruct (H3 x J) as [J2|J2]; [apply Np; exact (D p q x IP J2)|now apply J2 in IP]. }
    split; [now rewrite H1|]. split; [apply (seg_ext (nx_at m)); [apply X|exact B]|]. split; [apply (bk_ext (pv_at m)); [apply X|exact C]|exact U].
  - intros p. unfold set. destruct (Nat.eqb_spec p q) as [->|Np]; [discriminate|]. intros G. rewrite H1 by exact Np. now apply N.
Qed.
Lemma head_other m q e p : p <> q -> heads (set_head m q e) p = heads m p.
Proof. intros N. cbn [set_head heads]. destruct (Nat.eqb_spec p q); [contradiction|reflexivity]. Qed.
Lemma head_same m q e : heads (set_head m q e) q = e.
Proof. cbn [set_head heads]. now rewrite Nat.eqb_refl. Qed.
Lemma ready_fine m Q q : INV m Q -> ready Q q -> exists L, Q q = Some L /\ of Q q = L /\ fine m q L.
Proof. intros (_ & F & _) R. unfold ready in R. unfold of. destruct (Q q) as [L|] eqn:G; [|congruence]. exists L. auto. Qed.
Lemma in_fine m Q q e : INV m Q -> In e (of Q q) -> exists L, Q q = Some L /\ of Q q = L /\ fine m q L.
Proof. intros I J. apply (ready_fine m); [exact I|]. unfold ready, of in *. destruct (Q q); [discriminate|contradiction]. Qed.
Lemma hd0 L : incl L E -> (hd 0 L =? 0) = match L with [] => true | _ => false end.
Proof. intros H. destruct L as [|x L]; [reflexivity|]. cbn [hd]. apply Nat.eqb_neq. apply blocks0, H. now left. Qed.
(** *p = v for the pointer p to what follows A *)
Lemma assign_ok m q A b v : kept (heap m) -> incl A E -> NoDup A -> seg (nx_at m) A b -> exists m', assign m (endof (First q) A) v = Ok m' /\ kept (heap m') /\ (forall p, p <> q -> heads m' p = heads m p) /\
  heads m' q = match A with [] => v | _ => heads m q end /\ seg (nx_at m') A v /\ (forall x, ~ In x A -> nx_at m' x = nx_at m x) /\ (forall x, pv_at m' x = pv_at m x).
Proof.
  intros K G D B. destruct A as [|z A _] using rev_ind.
  - cbn [endof map last assign]. eexists. split; [reflexivity|]. split; [exact K|]. split; [intros p N; now rewrite head_other|]. rewrite head_same. repeat split.
  - rewrite endof_snoc. cbn [assign]. assert (IZ : In z E) by (apply G, in_or_app; right; now left). destruct (set_nx_ok m z v K IZ) as (m1 & -> & H1 & K1 & N1 & P1). exists m1. split; [reflexivity|]. split; [exact K1|]. split; [intros; now rewrite H1|]. split; [rewrite H1; now destruct A|]. apply nd_mid in D. destruct D as (D & _). split; [|split; [|exact P1]].
    + apply seg_app in B. apply seg_app. cbn [hd seg] in *. rewrite N1, Nat.eqb_refl. split; [|tauto]. apply (seg_ext (nx_at m)); [|tauto]. intros x J. rewrite N1. destruct (Nat.eqb_spec x z) as [->|]; [contradiction|reflexivity].
    + intros x J. rewrite N1. destruct (Nat.eqb_spec x z) as [->|]; [|reflexivity]. exfalso. apply J, in_or_app. right. now left.
Qed.
Lemma init_ok m Q q : INV m Q -> INV (l_init m q) (set Q q []).
Proof.
  intros V. apply (rebuild m); [exact V|apply V| | | |intros e []].
  - unfold fine, l_init. rewrite head_same. repeat split; [constructor|intros x []].
  - intros p N. unfold l_init. now rewrite head_other.
  - now split.
Qed.
Lemma insert_head_ok m Q q e : INV m Q -> ready Q q -> free E Q e -> exists m', l_insert_head m q e = Ok m' /\ INV m' (set Q q (e :: of Q q)).
Proof.
  intros V R [IE FE]. destruct (ready_fine m Q q V R) as (L & GQ & OQ & (A & B & C & D & G)). rewrite OQ. assert (NL : ~ In e L) by (specialize (FE q); now rewrite OQ in FE).
  unfold l_insert_head. cbv zeta. destruct (set_nx_ok m e (heads m q) (proj1 V) IE) as (m1 & -> & H1 & K1 & N1 & P1). cbn [obind]. rewrite H1, A, (hd0 L G).
  assert (X : exists m2, (if match L with [] => true | _ => false end then Ok m1 else set_pv m1 (hd 0 L) (Next e)) = Ok m2 /\ heads m2 = heads m /\ kept (heap m2) /\ (forall x, nx_at m2 x = nx_at m1 x) /\ (forall x, ~ In x L -> pv_at m2 x = pv_at m x) /\ bk (pv_at m2) (Next e) L).
  { destruct L as [|y L]; [exists m1; auto 8|]. assert (IY : In y E) by (apply G; now left). cbn [hd]. destruct (set_pv_ok m1 y (Next e) K1 IY) as (m2 & -> & H2 & K2 & P2 & N2). exists m2. split; [reflexivity|]. split; [congruence|]. split; [exact K2|]. split; [exact N2|]. apply (nd_mid []) in D. destruct D as (_ & D & _). split.
    - intros x NX. cbn [In] in NX. rewrite P2, P1. destruct (Nat.eqb_spec x y); [subst; tauto|reflexivity].
    - cbn [bk] in *. rewrite P2, Nat.eqb_refl. split; [reflexivity|]. apply (bk_ext (pv_at m)); [|apply C]. intros x J. rewrite P2, P1. destruct (Nat.eqb_spec x y) as [->|]; [contradiction|reflexivity]. }
  destruct X as (m2 & -> & H2 & K2 & N2 & P2 & C2). cbn [obind]. destruct (set_pv_ok (set_head m2 q e) e (First q) K2 IE) as (m3 & -> & H3 & K3 & P3 & N3). exists m3. split; [reflexivity|].
  change (forall x, pv_at m3 x = if x =? e then First q else pv_at m2 x) in P3. change (forall x, nx_at m3 x = nx_at m2 x) in N3. apply (rebuild m); [exact V|exact K3| | | |].
  - unfold fine. rewrite H3, head_same. split; [reflexivity|]. split; [|split; [|split; [now constructor|intros y [<-|J]; [exact IE|now apply G]]]].
    + cbn [seg]. split; [rewrite N3, N2, N1, Nat.eqb_refl; exact A|]. apply (seg_ext (nx_at m)); [|exact B]. intros x J. rewrite N3, N2, N1. destruct (Nat.eqb_spec x e) as [->|]; [contradiction|reflexivity].
    + cbn [bk]. split; [now rewrite P3, Nat.eqb_refl|]. apply (bk_ext (pv_at m2)); [|exact C2]. intros x J. rewrite P3. destruct (Nat.eqb_spec x e) as [->|]; [contradiction|reflexivity].
  - intros p N. now rewrite H3, head_other, H2.
  - intros x NX1 NX2. rewrite OQ in NX2. rewrite N3, N2, N1, P3. cbn [In] in NX1. destruct (Nat.eqb_spec x e) as [->|]; [tauto|]. split; [reflexivity|now apply P2].
  - intros y [<-|J]; [now right|]. left. now rewrite OQ.
Qed.
Lemma after_split l e : forall A B, ~ In l A -> after l e (A ++ l :: B) = A ++ l :: e :: B.
Proof. induction A as [|x A IH]; intros B N; cbn [app after]; [now rewrite Nat.eqb_refl|]. destruct (Nat.eqb_spec x l) as [->|]; [exfalso; apply N; now left|]. rewrite IH; [reflexivity|]. intros J. apply N. now right. Qed.
Lemma before_split l e : forall A B, ~ In l A -> before l e (A ++ l :: B) = A ++ e :: l :: B.
Proof. induction A as [|x A IH]; intros B N; cbn [app before]; [now rewrite Nat.eqb_refl|]. destruct (Nat.eqb_spec x l) as [->|]; [exfalso; apply N; now left|]. rewrite IH; [reflexivity|]. intros J. apply N. now right. Qed.
Lemma without_split e : forall A B, ~ In e A -> ~ In e B -> without e (A ++ e :: B) = A ++ B.
Proof.
  intros A B NA NB. unfold without. rewrite filter_app. cbn [filter]. rewrite Nat.eqb_refl. cbn [negb]. f_equal.
  - clear NB. induction A as [|x A IH]; cbn [filter]; [reflexivity|]. destruct (Nat.eqb_spec x e) as [->|]; [exfalso; apply NA; now left|]. cbn [negb]. rewrite IH; [reflexivity|]. intros J. apply NA. now right.
  - clear NA. induction B as [|x B IH]; cbn [filter]; [reflexivity|]. destruct (Nat.eqb_spec x e) as [->|]; [exfalso; apply NB; now left|]. cbn [negb]. rewrite IH; [reflexivity|]. intros J. apply NB. now right.
Qed.
Lemma next_in_split e : forall A B, ~ In e A -> next_in e (A ++ e :: B) = hd 0 B.
Proof. induction A as [|x A IH]; intros B N; cbn [app next_in]; [now rewrite Nat.eqb_refl|]. destruct (Nat.eqb_spec x e) as [->|]; [exfalso; apply N; now left|]. apply IH. intros J. apply N. now right. Qed.
Lemma nd_insert (U : list nat) e W : NoDup (U ++ W) -> ~ In e (U ++ W) -> NoDup (U ++ e :: W).
Proof. intros D N. apply (Permutation.Permutation_NoDup (Permutation.Permutation_middle U W e)). now constructor. Qed.

Lemma insert_after_ok m Q q l e : INV m Q -> free E Q e -> In l (of Q q) -> exists m', l_insert_after m l e = Ok m' /\ INV m' (set Q q (after l e (of Q q))).
Proof.
  intros V [IE FE] IL. destruct (in_fine m Q q l V IL) as (L & GQ & OQ & (A & B & C & D & G)). rewrite OQ in *. assert (NL : ~ In e L) by (specialize (FE q); now rewrite OQ in FE).
  assert (IlE : In l E) by now apply G. apply in_split in IL. destruct IL as (U & W & ->). pose proof (nd_mid _ _ _ D) as (NU & NW & DUW & _). rewrite after_split by exact NU. pose proof B as B'. apply seg_app in B'. cbn [hd seg] in B'. destruct B' as (B1 & B2 & B3). apply bk_app in C. cbn [bk] in C. destruct C as (C1 & C2 & C3).
  unfold l_insert_after. rewrite (next_ok m l (proj1 V) IlE). cbn [obind]. destruct (set_nx_ok m e (nx_at m l) (proj1 V) IE) as (m1 & -> & H1 & K1 & N1 & P1). cbn [obind].
  assert (Nle : l <> e) by (intros ->; apply NL, in_or_app; right; now left). assert (GW : incl W E) by (intros y J; apply G, in_or_app; right; now right). rewrite B2, (hd0 W GW). rewrite (next_ok m1 l K1 IlE), N1. destruct (Nat.eqb_spec l e) as [|_]; [contradiction|]. rewrite B2. cbn [obind].
  assert (X : exists m2, (if match W with [] => true | _ => false end then Ok m1 else set_pv m1 (hd 0 W) (Next e)) = Ok m2 /\ heads m2 = heads m /\ kept (heap m2) /\ (forall x, nx_at m2 x = nx_at m1 x) /\ (forall x, ~ In x W -> pv_at m2 x = pv_at m x) /\ bk (pv_at m2) (Next e) W).
  { destruct W as [|y W]; [exists m1; auto 8|]. assert (IY : In y E) by (apply GW; now left). cbn [hd]. destruct (set_pv_ok m1 y (Next e) K1 IY) as (m2 & -> & H2 & K2 & P2 & N2). exists m2. split; [reflexivity|]. split; [congruence|]. split; [exact K2|]. split; [exact N2|].
    assert (NY : ~ In y W). { change (U ++ l :: y :: W) with (U ++ [l] ++ y :: W) in D. rewrite app_assoc in D. apply nd_mid in D. tauto. } split.
    - intros x NX. cbn [In] in NX. rewrite P2, P1. destruct (Nat.eqb_spec x y); [subst; tauto|reflexivity].
    - cbn [bk] in *. rewrite P2, Nat.eqb_refl. split; [reflexivity|]. apply (bk_ext (pv_at m)); [|apply C3]. intros x J. rewrite P2, P1. destruct (Nat.eqb_spec x y) as [->|]; [contradiction|reflexivity]. }
  destruct X as (m2 & -> & H2 & K2 & N2 & P2 & C4). cbn [obind]. destruct (set_nx_ok m2 l e K2 IlE) as (m3 & -> & H3 & K3 & N3 & P3). cbn [obind]. destruct (set_pv_ok m3 e (Next l) K3 IE) as (m4 & -> & H4 & K4 & P4 & N4). exists m4. split; [reflexivity|].
  assert (NN : forall x, nx_at m4 x = if x =? l then e else if x =? e then hd 0 W else nx_at m x) by (intros x; rewrite N4, N3, N2, N1, B2; reflexivity). assert (NUe : ~ In e U /\ ~ In e W) by (rewrite in_app_iff in NL; cbn [In] in NL; tauto). destruct NUe as [NUe NWe].
  apply (rebuild m); [exact V|exact K4| | | |].
  - unfold fine. rewrite H4, H3, H2, A. split; [now destruct U|]. split; [|split; [|split]].
    + apply seg_app. cbn [hd seg]. split; [apply (seg_ext (nx_at m)); [|exact B1]; intros x J; rewrite NN; (destruct (Nat.eqb_spec x l) as [->|]; [contradiction|]); destruct (Nat.eqb_spec x e) as [->|]; [contradiction|reflexivity]|]. split; [now rewrite NN, Nat.eqb_refl|]. split; [rewrite NN, Nat.eqb_refl; destruct (Nat.eqb_spec e l); [congruence|reflexivity]|].
      apply (seg_ext (nx_at m)); [|exact B3]. intros x J. rewrite NN. destruct (Nat.eqb_spec x l) as [->|]; [contradiction|]. destruct (Nat.eqb_spec x e) as [->|]; [contradiction|reflexivity].
    + assert (PP : forall x, x <> e -> ~ In x W -> pv_at m4 x = pv_at m x). { intros x Nx Wx. rewrite P4, P3. destruct (Nat.eqb_spec x e); [contradiction|]. now apply P2. }
      apply bk_app. cbn [bk]. split; [apply (bk_ext (pv_at m)); [|exact C1]; intros x J; apply PP; [intros ->; contradiction|intros J2; exact (DUW x J J2)]|]. split; [rewrite PP by assumption; exact C2|]. split; [now rewrite P4, Nat.eqb_refl|].
      apply (bk_ext (pv_at m2)); [|exact C4]. intros x J. rewrite P4, P3. destruct (Nat.eqb_spec x e) as [->|]; [contradiction|reflexivity].
    + change (U ++ l :: e :: W) with (U ++ [l] ++ e :: W). rewrite app_assoc. apply nd_insert; now rewrite <- app_assoc.
    + intros y J. apply in_app_or in J. destruct J as [J|[<-|[<-|J]]]; [apply G, in_or_app; now left|exact IlE|exact IE|apply GW, J].
  - intros p N. now rewrite H4, H3, H2.
  - intros x X1 X2. rewrite in_app_iff in X1. cbn [In] in X1. rewrite NN, P4, P3. destruct (Nat.eqb_spec x l); [subst; tauto|]. destruct (Nat.eqb_spec x e); [subst; tauto|]. split; [reflexivity|]. apply P2. tauto.
  - intros y J. rewrite OQ. apply in_app_or in J. destruct J as [J|[<-|[<-|J]]]; [left; apply in_or_app; now left|left; apply in_or_app; right; now left|now right|left; apply in_or_app; right; now right].
Qed.
Lemma insert_before_ok m Q q l e : INV m Q -> free E Q e -> In l (of Q q) -> exists m', l_insert_before m l e = Ok m' /\ INV m' (set Q q (before l e (of Q q))).
Proof.
  intros V [IE FE] IL. destruct (in_fine m Q q l V IL) as (L & GQ & OQ & (A & B & C & D & G)). rewrite OQ in *. assert (NL : ~ In e L) by (specialize (FE q); now rewrite OQ in FE).
  assert (IlE : In l E) by now apply G. apply in_split in IL. destruct IL as (U & W & ->). pose proof (nd_mid _ _ _ D) as (NU & NW & DUW & DU & _). rewrite before_split by exact NU. pose proof B as B'. apply seg_app in B'. cbn [hd seg] in B'. destruct B' as (B1 & B2 & B3). apply bk_app in C. cbn [bk] in C. destruct C as (C1 & C2 & C3).
  assert (Nle : l <> e) by (intros ->; apply NL, in_or_app; right; now left). assert (NUe : ~ In e U /\ ~ In e W) by (rewrite in_app_iff in NL; cbn [In] in NL; tauto). destruct NUe as [NUe NWe]. assert (GU : incl U E) by (intros y J; apply G, in_or_app; now left).
  unfold l_insert_before. rewrite (prev_ok m l (proj1 V) IlE). cbn [obind]. destruct (set_pv_ok m e (pv_at m l) (proj1 V) IE) as (m1 & -> & H1 & K1 & P1 & N1). cbn [obind]. destruct (set_nx_ok m1 e l K1 IE) as (m2 & -> & H2 & K2 & N2 & P2). cbn [obind]. rewrite (prev_ok m2 l K2 IlE), P2, P1. destruct (Nat.eqb_spec l e) as [|_]; [contradiction|]. rewrite C2. cbn [obind].
  assert (S2 : seg (nx_at m2) U l). { apply (seg_ext (nx_at m)); [|exact B1]. intros x J. rewrite N2, N1. destruct (Nat.eqb_spec x e) as [->|]; [contradiction|reflexivity]. }
  destruct (assign_ok m2 q U l e K2 GU DU S2) as (m3 & -> & K3 & O3 & H3 & S3 & N3 & P3). cbn [obind]. destruct (set_pv_ok m3 l (Next e) K3 IlE) as (m4 & -> & H4 & K4 & P4 & N4). exists m4. split; [reflexivity|].
  assert (PP : forall x, pv_at m4 x = if x =? l then Next e else if x =? e then endof (First q) U else pv_at m x) by (intros x; rewrite P4, P3, P2, P1, C2; reflexivity). assert (NN : forall x, ~ In x U -> nx_at m4 x = if x =? e then l else nx_at m x) by (intros x J; rewrite N4, N3, N2, N1 by exact J; reflexivity).
  apply (rebuild m); [exact V|exact K4| | | |].
  - unfold fine. rewrite H4, H3, H2, H1, A. split; [now destruct U|]. split; [|split; [|split]].
    + apply seg_app. cbn [hd seg]. split; [apply (seg_ext (nx_at m3)); [intros; apply N4|exact S3]|]. rewrite !NN by assumption. rewrite Nat.eqb_refl. split; [reflexivity|]. split; [destruct (Nat.eqb_spec l e); [contradiction|exact B2]|]. apply (seg_ext (nx_at m)); [|exact B3]. intros x J. rewrite NN by (intros J2; exact (DUW x J2 J)). destruct (Nat.eqb_spec x e) as [->|]; [contradiction|reflexivity].
    + apply bk_app. cbn [bk]. rewrite !PP, !Nat.eqb_refl. split; [apply (bk_ext (pv_at m)); [|exact C1]; intros x J; rewrite PP; (destruct (Nat.eqb_spec x l) as [->|]; [contradiction|]); destruct (Nat.eqb_spec x e) as [->|]; [contradiction|reflexivity]|]. split; [destruct (Nat.eqb_spec e l); [congruence|reflexivity]|]. split; [reflexivity|].
      apply (bk_ext (pv_at m)); [|exact C3]. intros x J. rewrite PP. destruct (Nat.eqb_spec x l) as [->|]; [contradiction|]. destruct (Nat.eqb_spec x e) as [->|]; [contradiction|reflexivity].
    + now apply nd_insert.
    + intros y J. apply in_app_or in J. destruct J as [J|[<-|J]]; [apply G, in_or_app; now left|exact IE|apply G, in_or_app; now right].
  - intros p N. now rewrite H4, O3, H2, H1.
  - intros x X1 X2. rewrite in_app_iff in X1. cbn [In] in X1. rewrite NN, PP by tauto. destruct (Nat.eqb_spec x l); [subst; tauto|]. destruct (Nat.eqb_spec x e); [subst; tauto|]. now split.
  - intros y J. rewrite OQ. apply in_app_or in J. destruct J as [J|[<-|J]]; [left; apply in_or_app; now left|now right|left; apply in_or_app; now right].
Qed.
Lemma remove_ok m Q q e : INV m Q -> In e (of Q q) -> exists m', l_remove m e = Ok m' /\ INV m' (set Q q (without e (of Q q))).
Proof.
  intros V IL. destruct (in_fine m Q q e V IL) as (L & GQ & OQ & (A & B & C & D & G)). rewrite OQ in *. assert (IE : In e E) by now apply G. apply in_split in IL. destruct IL as (U & W & ->). pose proof (nd_mid _ _ _ D) as (NU & NW & DUW & DU & DL). rewrite without_split by assumption.
  pose proof B as B'. apply seg_app in B'. cbn [hd seg] in B'. destruct B' as (B1 & B2 & B3). apply bk_app in C. cbn [bk] in C. destruct C as (C1 & C2 & C3). assert (GU : incl U E) by (intros y J; apply G, in_or_app; now left). assert (GW : incl W E) by (intros y J; apply G, in_or_app; right; now right).
  unfold l_remove. rewrite (next_ok m e (proj1 V) IE), (prev_ok m e (proj1 V) IE). cbn [obind]. rewrite B2, C2, (hd0 W GW).
  assert (X : exists m2, (if match W with [] => true | _ => false end then Ok m else set_pv m (hd 0 W) (endof (First q) U)) = Ok m2 /\ heads m2 = heads m /\ kept (heap m2) /\ (forall x, nx_at m2 x = nx_at m x) /\ (forall x, ~ In x W -> pv_at m2 x = pv_at m x) /\ bk (pv_at m2) (endof (First q) U) W).
  { destruct W as [|y W]; [exists m; destruct V; auto 8|]. assert (IY : In y E) by (apply GW; now left). cbn [hd]. destruct (set_pv_ok m y (endof (First q) U) (proj1 V) IY) as (m2 & -> & H2 & K2 & P2 & N2). exists m2. split; [reflexivity|]. split; [congruence|]. split; [exact K2|]. split; [exact N2|].
    assert (NY : ~ In y W). { change (U ++ e :: y :: W) with (U ++ [e] ++ y :: W) in D. rewrite app_assoc in D. apply nd_mid in D. tauto. } split.
    - intros x NX. cbn [In] in NX. rewrite P2. destruct (Nat.eqb_spec x y); [subst; tauto|reflexivity].
    - cbn [bk] in *. rewrite P2, Nat.eqb_refl. split; [reflexivity|]. apply (bk_ext (pv_at m)); [|apply C3]. intros x J. rewrite P2. destruct (Nat.eqb_spec x y) as [->|]; [contradiction|reflexivity]. }
  destruct X as (m2 & -> & H2 & K2 & N2 & P2 & C4). cbn [obind]. rewrite (prev_ok m2 e K2 IE), P2 by exact NW. cbn [obind]. rewrite (next_ok m2 e K2 IE), N2, B2, C2. cbn [obind].
  assert (S2 : seg (nx_at m2) U e) by (apply (seg_ext (nx_at m)); [intros; apply N2|exact B1]). destruct (assign_ok m2 q U e (hd 0 W) K2 GU DU S2) as (m3 & -> & K3 & O3 & H3 & S3 & N3 & P3). exists m3. split; [reflexivity|]. apply (rebuild m); [exact V|exact K3| | | |].
  - unfold fine. rewrite H3, H2, A. split; [now destruct U|]. split; [|split; [|split]].
    + apply seg_app. split; [exact S3|]. apply (seg_ext (nx_at m)); [|exact B3]. intros x J. rewrite N3, N2; [reflexivity|]. intros J2. exact (DUW x J2 J).
    + apply bk_app. split; [|apply (bk_ext (pv_at m2)); [intros; apply P3|exact C4]]. apply (bk_ext (pv_at m)); [|exact C1]. intros x J. rewrite P3. apply P2. intros J2. exact (DUW x J J2).
    + exact DL.
    + intros y J. apply in_app_or in J. destruct J; [now apply GU|now apply GW].
  - intros p N. now rewrite O3, H2.
  - intros x X1 X2. rewrite in_app_iff in X1. rewrite N3, N2, P3 by tauto. split; [reflexivity|]. apply P2. tauto.
  - intros y J. left. rewrite OQ. apply in_or_app. apply in_app_or in J. cbn [In]. tauto.
Qed.
Lemma fits m Q q L : INV m Q -> fine m q L -> length L < fuel.
Proof. intros V (_ & _ & _ & D & G). pose proof (NoDup_incl_length D G). lia. Qed.
Lemma walk_ok m : forall f L, kept (heap m) -> seg (nx_at m) L 0 -> incl L E -> length L < f -> walk f m (hd 0 L) = Ok L.
Proof.
  induction f as [|f IH]; intros L K B G LF; [lia|]. cbn [walk]. rewrite (hd0 L G). destruct L as [|x L]; [reflexivity|]. cbn [hd seg] in *. destruct B as [B1 B2]. rewrite (next_ok m x K) by (apply G; now left). cbn [obind]. rewrite B1, IH; [reflexivity|exact K|exact B2|intros y Y; apply G; now right|cbn [length] in LF; lia].
Qed.
Lemma call_ok m Q c : INV m Q -> allowed E Q c -> exists m', do_call fuel m c = Ok (fst (spec Q c), m') /\ INV m' (snd (spec Q c)).
Proof.
  intros V H. destruct c; cbn [do_call spec fst snd allowed] in *; try (match goal with |- exists m', quiet ?X = _ /\ INV _ ?S => assert (Z : exists m', X = Ok m' /\ INV m' S); [|destruct Z as (m' & -> & Z); exists m'; split; [reflexivity|exact Z]] end).
  - eexists. split; [reflexivity|now apply init_ok].
  - now apply insert_head_ok.
  - now apply insert_after_ok.
  - now apply insert_before_ok.
  - now apply remove_ok.
  - destruct (ready_fine m Q q V H) as (L & _ & -> & (A & _ & _ & _ & G)). rewrite A, (hd0 L G). exists m. split; [now destruct L|exact V].
  - destruct (ready_fine m Q q V H) as (L & _ & -> & (A & _)). rewrite A. exists m. now split.
  - destruct (in_fine m Q q e V H) as (L & _ & OQ & (A & B & C & D & G)). rewrite OQ in *. rewrite (next_ok m e (proj1 V)) by now apply G. cbn [obind]. exists m. split; [|exact V]. apply in_split in H. destruct H as (U & W & ->). apply nd_mid in D. rewrite next_in_split by tauto. apply seg_app in B. cbn [seg] in B. destruct B as (_ & -> & _). reflexivity.
  - destruct (ready_fine m Q q V H) as (L & _ & -> & F). pose proof (fits m Q q L V F). destruct F as (A & B & C & D & G). rewrite A, walk_ok; [|apply V|exact B|exact G|assumption]. exists m. now split.
Qed.
Lemma calls_ok : forall l m Q, INV m Q -> history E Q l -> exists m', calls fuel m l = Ok (fst (answers Q l), m') /\ INV m' (snd (answers Q l)).
Proof.
  induction l as [|c l IH]; intros m Q V H; cbn [calls answers history] in *; [exists m; now split|]. destruct H as [H1 H2]. destruct (call_ok m Q c V H1) as (m1 & -> & V1). cbn [obind]. destruct (spec Q c) as [a Q1]. cbn [fst snd] in *. destruct (IH m1 Q1 V1 H2) as (m2 & -> & V2). cbn [obind]. destruct (answers Q1 l) as [o Q2]. cbn [fst snd] in *. exists m2. now split.
Qed.
Lemma inv0 : INV m0 (fun _ => None).
Proof. split; [|split; [discriminate|split; [intros p q e []|reflexivity]]]. intros x. destruct (look (heap m0) x); [|exact I]. split; [reflexivity|now right]. Qed.
End P.
