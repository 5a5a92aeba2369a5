From Verif Require Import Prelude HeapModel AmemModel AmemProofs CircleqModel CircleqSpec.
Local Open Scope nat_scope.

Lemma aget_aput {A} (l : list (nat * A)) x v y : aget (aput l x v) y = if y =? x then (match aget l x with Some _ => Some v | None => None end) else aget l y.
Proof.
  unfold aput. induction l as [|[z w] l IH]; cbn [map aget fst]; [now destruct (y =? x)|]. destruct (Nat.eqb_spec z x) as [->|N]; cbn [aget].
  - destruct (Nat.eqb_spec x y) as [->|N2]; [now rewrite Nat.eqb_refl|]. rewrite IH. destruct (Nat.eqb_spec y x) as [e|]; [congruence|reflexivity].
  - destruct (Nat.eqb_spec z y) as [->|N2]; [now destruct (Nat.eqb_spec y x)|]. exact IH.
Qed.
Definition look (h : hp node) (x : nat) : option node := aget (blocks h) x.
Definition nx_at (m : mem) (x : nat) : ptr := match look (heap m) x with Some c => nx c | None => Hd 0 end.
Definition pv_at (m : mem) (x : nat) : ptr := match look (heap m) x with Some c => pv c | None => Hd 0 end.

(** links in one direction, the last one to d *)
Fixpoint lk (f : nat -> ptr) (d : ptr) (L : list nat) : Prop := match L with [] => True | x :: L => f x = start d L /\ lk f d L end.
Lemma lk_app f d : forall A B, lk f d (A ++ B) <-> lk f (start d B) A /\ lk f d B.
Proof. induction A as [|x A IH]; intros B; cbn [app lk]; [tauto|]. rewrite IH. destruct A; cbn [app start]; tauto. Qed.
Lemma lk_ext f g d : forall L, (forall x, In x L -> g x = f x) -> lk f d L -> lk g d L.
Proof. induction L as [|x L IH]; intros H; cbn [lk]; [tauto|]. intros [A B]. split; [rewrite H by (now left); exact A|]. apply IH; [intros y I; apply H; now right|exact B]. Qed.
Lemma nd_mid (A : list nat) x B : NoDup (A ++ x :: B) -> ~ In x A /\ ~ In x B /\ (forall z, In z A -> In z B -> False) /\ NoDup A /\ NoDup B /\ NoDup (A ++ B).
Proof.
  intros D. apply NoDup_remove in D. destruct D as [D N]. rewrite in_app_iff in N. split; [tauto|]. split; [tauto|]. clear N. assert (X : (forall z, In z A -> In z B -> False) /\ NoDup A /\ NoDup B); [|tauto].
  induction A as [|y A IH]; [split; [intros z []|split; [constructor|exact D]]|]. cbn [app] in D. inversion D as [|? ? D1 D2]; subst. destruct (IH D2) as (X & Y & Z). rewrite in_app_iff in D1. split; [|split; [|exact Z]].
  - intros z [<-|I] J; [tauto|now apply (X z)].
  - constructor; [tauto|exact Y].
Qed.
Lemma start_app d A B : start d (A ++ B) = start (start d B) A.
Proof. now destruct A. Qed.

Section P.
Variable fuel : nat.
Variable E : list nat.
Variable m0 : mem.
Hypothesis blocks0 : forall e, In e E -> look (heap m0) e <> None.
Hypothesis enough : length E < fuel.
(* what the queues never write *)
Definition kept (h : hp node) : Prop := forall x, match look (heap m0) x, look h x with Some c, Some c' => data c' = data c /\ (In x E \/ c' = c) | None, None => True | _, _ => False end.
Lemma kept_block m e : kept (heap m) -> In e E -> exists c, look (heap m) e = Some c /\ nx_at m e = nx c /\ pv_at m e = pv c.
Proof. intros K I. specialize (K e). pose proof (blocks0 e I) as B. unfold nx_at, pv_at. destruct (look (heap m0) e); [|congruence]. destruct (look (heap m) e) as [c'|]; [|contradiction]. now exists c'. Qed.
Lemma next_ok m e : kept (heap m) -> In e E -> next_of m (Elm e) = Ok (nx_at m e).
Proof. intros K I. destruct (kept_block m e K I) as (c & G & N & _). unfold next_of, cell, hget. unfold look in G. rewrite G. cbn [obind]. now rewrite N. Qed.
Lemma prev_ok m e : kept (heap m) -> In e E -> prev_of m (Elm e) = Ok (pv_at m e).
Proof. intros K I. destruct (kept_block m e K I) as (c & G & _ & N). unfold prev_of, cell, hget. unfold look in G. rewrite G. cbn [obind]. now rewrite N. Qed.
Lemma put_kept m e c c' : kept (heap m) -> In e E -> look (heap m) e = Some c -> data c' = data c -> kept (hput (heap m) e c').
Proof.
  intros K I G D x. specialize (K x). unfold look in *. cbn [hput blocks]. rewrite aget_aput, G. destruct (Nat.eqb_spec x e) as [->|]; [|exact K]. rewrite G in K. destruct (aget (blocks (heap m0)) e); [|contradiction]. rewrite D. tauto.
Qed.
Lemma set_nx_ok m e n : kept (heap m) -> In e E -> exists m', set_nx m (Elm e) n = Ok m' /\ heads m' = heads m /\ kept (heap m') /\ (forall x, nx_at m' x = if x =? e then n else nx_at m x) /\ (forall x, pv_at m' x = pv_at m x).
Proof.
  intros K I. destruct (kept_block m e K I) as (c & G & N). unfold set_nx, cell, hget. pose proof G as G'. unfold look in G'. rewrite G'. cbn [obind put]. eexists. split; [reflexivity|]. split; [reflexivity|]. split; [now apply (put_kept m e c)|].
  split; intros x; unfold nx_at, pv_at, look; cbn [heap hput blocks]; rewrite aget_aput, G'; destruct (Nat.eqb_spec x e) as [->|]; try reflexivity. cbn [pv]. now rewrite G'.
Qed.
Lemma set_pv_ok m e n : kept (heap m) -> In e E -> exists m', set_pv m (Elm e) n = Ok m' /\ heads m' = heads m /\ kept (heap m') /\ (forall x, pv_at m' x = if x =? e then n else pv_at m x) /\ (forall x, nx_at m' x = nx_at m x).
Proof.
  intros K I. destruct (kept_block m e K I) as (c & G & N). unfold set_pv, cell, hget. pose proof G as G'. unfold look in G'. rewrite G'. cbn [obind put]. eexists. split; [reflexivity|]. split; [reflexivity|]. split; [now apply (put_kept m e c)|].
  split; intros x; unfold nx_at, pv_at, look; cbn [heap hput blocks]; rewrite aget_aput, G'; destruct (Nat.eqb_spec x e) as [->|]; try reflexivity. cbn [nx]. now rewrite G'.
Qed.
Definition fine (m : mem) (q : nat) (L : list nat) : Prop := heads m q = (start (Hd q) L, start (Hd q) (rev L)) /\ lk (nx_at m) (Hd q) L /\ lk (pv_at m) (Hd q) (rev L) /\ NoDup L /\ incl L E.
Definition apart (Q : state) : Prop := forall p q e, In e (of Q p) -> In e (of Q q) -> p = q.
Definition INV (m : mem) (Q : state) : Prop := kept (heap m) /\ (forall q L, Q q = Some L -> fine m q L) /\ apart Q /\ (forall q, Q q = None -> heads m q = heads m0 q).
Lemma of_set Q q L p : of (set Q q L) p = if p =? q then L else of Q p.
Proof. unfold of, set. now destruct (p =? q). Qed.
Lemma apart_set Q q L : apart Q -> (forall e, In e L -> In e (of Q q) \/ forall p, ~ In e (of Q p)) -> apart (set Q q L).
Proof.
  intros D H p r e I J. rewrite of_set in I, J. destruct (Nat.eqb_spec p q) as [->|Np], (Nat.eqb_spec r q) as [->|Nr]; [reflexivity| | |exact (D _ _ _ I J)].
  - destruct (H e I) as [X|X]; [exact (D _ _ _ X J)|]. now apply X in J.
  - destruct (H e J) as [X|X]; [exact (D _ _ _ I X)|]. now apply X in I.
Qed.
(** one queue is replaced *)
Lemma rebuild m Q m' q L : INV m Q -> kept (heap m') -> fine m' q L -> (forall p, p <> q -> heads m' p = heads m p) ->
  (forall x, ~ In x L -> ~ In x (of Q q) -> nx_at m' x = nx_at m x /\ pv_at m' x = pv_at m x) ->
  (forall e, In e L -> In e (of Q q) \/ forall p, ~ In e (of Q p)) -> INV m' (set Q q L).
Proof.
  intros (K & F & D & N) K' F' H1 H2 H3. split; [exact K'|]. split; [|split; [now apply apart_set|]].
  - intros p M. unfold set. destruct (Nat.eqb_spec p q) as [->|Np]; [congruence|]. intros G. destruct (F p M G) as (A & B & C & U).
    assert (X : forall x, In x M -> nx_at m' x = nx_at m x /\ pv_at m' x = pv_at m x). { intros x I. assert (IP : In x (of Q p)) by (unfold of; now rewrite G). apply H2; [|intros J; apply Np; exact (D p q x IP J)]. intros J. destruct (H3 x J) as [J2|J2]; [apply Np; exact (D p q x IP J2)|now apply J2 in IP]. }
    split; [now rewrite H1|]. split; [apply (lk_ext (nx_at m)); [apply X|exact B]|]. split; [apply (lk_ext (pv_at m)); [intros x I; apply X; now apply in_rev|exact C]|exact U].
  - intros p. unfold set. destruct (Nat.eqb_spec p q) as [->|Np]; [discriminate|]. intros G. rewrite H1 by exact Np. now apply N.
Qed.
Lemma head_other m q h p : p <> q -> heads (set_head m q h) p = heads m p.
Proof. intros N. cbn [set_head heads]. destruct (Nat.eqb_spec p q); [contradiction|reflexivity]. Qed.
Lemma head_same m q h : heads (set_head m q h) q = h.
Proof. cbn [set_head heads]. now rewrite Nat.eqb_refl. Qed.
Lemma ready_fine m Q q : INV m Q -> ready Q q -> exists L, Q q = Some L /\ of Q q = L /\ fine m q L.
Proof. intros (_ & F & _) R. unfold ready in R. unfold of. destruct (Q q) as [L|] eqn:G; [|congruence]. exists L. auto. Qed.
Lemma in_fine m Q q e : INV m Q -> In e (of Q q) -> exists L, Q q = Some L /\ of Q q = L /\ fine m q L.
Proof. intros I J. apply (ready_fine m); [exact I|]. unfold ready, of in *. destruct (Q q); [discriminate|contradiction]. Qed.
Lemma is_hd_start q L : is_hd q (start (Hd q) L) = match L with [] => true | _ => false end.
Proof. destruct L; cbn [start is_hd]; [apply Nat.eqb_refl|reflexivity]. Qed.
(** what follows A in one direction is made to follow v: the pointer that has to be changed is in the last of A or in the head *)
Lemma step_nx m q A d v : kept (heap m) -> incl A E -> NoDup A -> lk (nx_at m) d A -> exists m',
  (if match rev A with [] => true | _ => false end then Ok (set_first m q v) else set_nx m (start (Hd q) (rev A)) v) = Ok m' /\ kept (heap m') /\ (forall p, p <> q -> heads m' p = heads m p) /\
  heads m' q = (match A with [] => v | _ => fst (heads m q) end, snd (heads m q)) /\ lk (nx_at m') v A /\ (forall x, ~ In x A -> nx_at m' x = nx_at m x) /\ (forall x, pv_at m' x = pv_at m x).
Proof.
  intros K G D B. destruct A as [|z A _] using rev_ind.
  - cbn [rev]. eexists. split; [reflexivity|]. split; [exact K|]. split; [intros p N; unfold set_first; now rewrite head_other|]. unfold set_first. rewrite head_same. repeat split.
  - rewrite rev_app_distr. cbn [rev app start]. assert (IZ : In z E) by (apply G, in_or_app; right; now left). destruct (set_nx_ok m z v K IZ) as (m1 & -> & H1 & K1 & N1 & P1). exists m1. split; [reflexivity|]. split; [exact K1|]. split; [intros; now rewrite H1|]. split; [rewrite H1; destruct A; apply surjective_pairing|]. apply nd_mid in D. destruct D as (D & _). split; [|split; [|exact P1]].
    + apply lk_app in B. apply lk_app. cbn [start lk] in *. rewrite N1, Nat.eqb_refl. split; [|tauto]. apply (lk_ext (nx_at m)); [|tauto]. intros x J. rewrite N1. destruct (Nat.eqb_spec x z) as [->|]; [contradiction|reflexivity].
    + intros x J. rewrite N1. destruct (Nat.eqb_spec x z) as [->|]; [|reflexivity]. exfalso. apply J, in_or_app. right. now left.
Qed.
Lemma step_pv m q A d v : kept (heap m) -> incl A E -> NoDup A -> lk (pv_at m) d (rev A) -> exists m',
  (if match A with [] => true | _ => false end then Ok (set_last m q v) else set_pv m (start (Hd q) A) v) = Ok m' /\ kept (heap m') /\ (forall p, p <> q -> heads m' p = heads m p) /\
  heads m' q = (fst (heads m q), match A with [] => v | _ => snd (heads m q) end) /\ lk (pv_at m') v (rev A) /\ (forall x, ~ In x A -> pv_at m' x = pv_at m x) /\ (forall x, nx_at m' x = nx_at m x).
Proof.
  intros K G D B. destruct A as [|z A].
  - eexists. split; [reflexivity|]. split; [exact K|]. split; [intros p N; unfold set_last; now rewrite head_other|]. unfold set_last. rewrite head_same. repeat split.
  - cbn [rev start] in *. assert (IZ : In z E) by (apply G; now left). destruct (set_pv_ok m z v K IZ) as (m1 & -> & H1 & K1 & P1 & N1). exists m1. split; [reflexivity|]. split; [exact K1|]. split; [intros; now rewrite H1|]. split; [rewrite H1; apply surjective_pairing|]. apply (nd_mid []) in D. destruct D as (_ & D & _). split; [|split; [|exact N1]].
    + apply lk_app in B. apply lk_app. cbn [start lk] in *. rewrite P1, Nat.eqb_refl. split; [|tauto]. apply (lk_ext (pv_at m)); [|tauto]. intros x J. rewrite P1. destruct (Nat.eqb_spec x z) as [->|]; [apply in_rev in J; contradiction|reflexivity].
    + intros x J. cbn [In] in J. rewrite P1. destruct (Nat.eqb_spec x z) as [->|]; [|reflexivity]. tauto.
Qed.
Lemma init_ok m Q q : INV m Q -> INV (c_init m q) (set Q q []).
Proof.
  intros V. apply (rebuild m); [exact V|apply V| | | |intros e []].
  - unfold fine, c_init, set_last, set_first. rewrite !head_same. repeat split; [constructor|intros x []].
  - intros p N. unfold c_init, set_last, set_first. now rewrite !head_other.
  - now split.
Qed.
Lemma after_split l e : forall A B, ~ In l A -> after l e (A ++ l :: B) = A ++ l :: e :: B.
Proof. induction A as [|x A IH]; intros B N; cbn [app after]; [now rewrite Nat.eqb_refl|]. destruct (Nat.eqb_spec x l) as [->|]; [exfalso; apply N; now left|]. rewrite IH; [reflexivity|]. intros J. apply N. now right. Qed.
Lemma before_split l e : forall A B, ~ In l A -> before l e (A ++ l :: B) = A ++ e :: l :: B.
Proof. induction A as [|x A IH]; intros B N; cbn [app before]; [now rewrite Nat.eqb_refl|]. destruct (Nat.eqb_spec x l) as [->|]; [exfalso; apply N; now left|]. rewrite IH; [reflexivity|]. intros J. apply N. now right. Qed.
Lemma without_split e : forall A B, ~ In e A -> ~ In e B -> without e (A ++ e :: B) = A ++ B.
Proof.
  intros A B NA NB. unfold without. rewrite filter_app. cbn [filter]. rewrite Nat.eqb_refl. cbn [negb]. f_equal.
  - clear NB. induction A as [|x A IH]; cbn [filter]; [reflexivity|]. destruct (Nat.eqb_spec x e) as [->|]; [exfalso; apply NA; now left|]. cbn [negb]. rewrite IH; [reflexivity|]. intros J. apply NA. now right.
  - clear NA. induction B as [|x B IH]; cbn [filter]; [reflexivity|]. destruct (Nat.eqb_spec x e) as [->|]; [exfalso; apply NB; now left|]. cbn [negb]. rewrite IH; [reflexivity|]. intros J. apply NB. now right.
Qed.
Lemma next_in_split d e : forall A B, ~ In e A -> next_in d e (A ++ e :: B) = start d B.
Proof. induction A as [|x A IH]; intros B N; cbn [app next_in]; [now rewrite Nat.eqb_refl|]. destruct (Nat.eqb_spec x e) as [->|]; [exfalso; apply N; now left|]. apply IH. intros J. apply N. now right. Qed.
Lemma nd_insert (U : list nat) e W : NoDup (U ++ W) -> ~ In e (U ++ W) -> NoDup (U ++ e :: W).
Proof. intros D N. apply (Permutation.Permutation_NoDup (Permutation.Permutation_middle U W e)). now constructor. Qed.
(** e put between U and W: what the four insertions come to *)
Lemma between m m' Q q U W e : INV m Q -> of Q q = U ++ W -> fine m q (U ++ W) -> free E Q e -> kept (heap m') -> (forall p, p <> q -> heads m' p = heads m p) ->
  heads m' q = (match U with [] => Elm e | _ => fst (heads m q) end, match W with [] => Elm e | _ => snd (heads m q) end) ->
  lk (nx_at m') (Elm e) U -> nx_at m' e = start (Hd q) W -> lk (nx_at m') (Hd q) W ->
  lk (pv_at m') (Hd q) (rev U) -> pv_at m' e = start (Hd q) (rev U) -> lk (pv_at m') (Elm e) (rev W) ->
  (forall x, x <> e -> ~ In x (U ++ W) -> nx_at m' x = nx_at m x /\ pv_at m' x = pv_at m x) -> INV m' (set Q q (U ++ e :: W)).
Proof.
  intros V OQ (A & B & C & D & G) [IE FE] K H1 H2 N1 N2 N3 P1 P2 P3 O. assert (NL : ~ In e (U ++ W)) by (specialize (FE q); now rewrite OQ in FE). apply (rebuild m); [exact V|exact K| |exact H1| |].
  - unfold fine. rewrite H2, A. cbn [fst snd]. split; [|split; [|split; [|split]]].
    + f_equal; [now destruct U|]. destruct W as [|y W]; [now rewrite rev_app_distr|]. rewrite !rev_app_distr. cbn [rev app]. rewrite <- !app_assoc. now destruct (rev W).
    + apply lk_app. cbn [start lk]. auto.
    + rewrite rev_app_distr. cbn [rev]. rewrite <- app_assoc. cbn [app]. apply lk_app. cbn [start lk]. auto.
    + now apply nd_insert.
    + intros y J. apply in_app_or in J. destruct J as [J|[<-|J]]; [apply G, in_or_app; now left|exact IE|apply G, in_or_app; now right].
  - intros x X1 X2. apply O; [|now rewrite <- OQ]. intros ->. apply X1, in_or_app. right. now left.
  - intros y J. rewrite OQ. apply in_app_or in J. destruct J as [J|[<-|J]]; [left; apply in_or_app; now left|now right|left; apply in_or_app; now right].
Qed.
(** e with its two links set, and the links of the others *)
Lemma links m e n p : kept (heap m) -> In e E -> exists m1 m2, set_nx m (Elm e) n = Ok m1 /\ set_pv m1 (Elm e) p = Ok m2 /\ heads m1 = heads m /\ heads m2 = heads m /\ kept (heap m1) /\ kept (heap m2) /\
  (forall x, x <> e -> nx_at m1 x = nx_at m x /\ pv_at m1 x = pv_at m x) /\ (forall x, x <> e -> nx_at m2 x = nx_at m x /\ pv_at m2 x = pv_at m x) /\ nx_at m2 e = n /\ pv_at m2 e = p.
Proof.
  intros K I. destruct (set_nx_ok m e n K I) as (m1 & E1 & H1 & K1 & N1 & P1). destruct (set_pv_ok m1 e p K1 I) as (m2 & E2 & H2 & K2 & P2 & N2). exists m1, m2. split; [exact E1|]. split; [exact E2|]. split; [exact H1|]. split; [congruence|]. split; [exact K1|]. split; [exact K2|].
  split; [|split; [|split]]; [intros x Nx; rewrite N1, P1|intros x Nx; rewrite N2, P2, N1, P1| |]; try (destruct (Nat.eqb_spec x e); [contradiction|now split]); [rewrite N2, N1|rewrite P2]; now rewrite Nat.eqb_refl.
Qed.
Lemma fine_split m q U W : fine m q (U ++ W) -> lk (nx_at m) (start (Hd q) W) U /\ lk (nx_at m) (Hd q) W /\ lk (pv_at m) (Hd q) (rev U) /\ lk (pv_at m) (start (Hd q) (rev U)) (rev W) /\ incl U E /\ incl W E.
Proof.
  intros (_ & B & C & _ & G). apply lk_app in B. rewrite rev_app_distr in C. apply lk_app in C. repeat split; try tauto; intros x J; apply G, in_or_app; tauto.
Qed.
Lemma insert_head_ok m Q q e : INV m Q -> ready Q q -> free E Q e -> exists m', c_insert_head m q e = Ok m' /\ INV m' (set Q q (e :: of Q q)).
Proof.
  intros V R F. destruct (ready_fine m Q q V R) as (L & GQ & OQ & Fi). rewrite OQ. assert (NL : ~ In e L) by (destruct F as [_ F]; specialize (F q); now rewrite OQ in F). pose proof (fine_split m q [] L Fi) as (_ & BN & _ & BP & _ & GL). pose proof Fi as (A & _ & _ & D & _).
  unfold c_insert_head. destruct (links m e (fst (heads m q)) (Hd q) (proj1 V) (proj1 F)) as (m1 & m2 & -> & E2 & H1 & H2 & K1 & K2 & O1 & O2 & Ne & Pe). cbn [obind]. rewrite E2. cbn [obind]. rewrite H2. assert (X : is_hd q (snd (heads m q)) = match L with [] => true | _ => false end). { rewrite A. cbn [snd]. rewrite is_hd_start. destruct L as [|x L]; [reflexivity|]. cbn [rev]. now destruct (rev L). } rewrite X. clear X.
  assert (B2 : lk (pv_at m2) (start (Hd q) (rev [])) (rev L)). { apply (lk_ext (pv_at m)); [|exact BP]. intros x J. apply O2. intros ->. apply NL. now apply in_rev. }
  replace (fst (heads m q)) with (start (Hd q) L) by now rewrite A. destruct (step_pv m2 q L _ (Elm e) K2 GL D B2) as (m3 & -> & K3 & H3 & Hq & P3 & PO & N3). cbn [obind]. eexists. split; [reflexivity|].
  apply (between m _ Q q [] L e V OQ Fi F); cbn [app rev lk start] in *; try exact I.
  - exact K3.
  - intros p Np. unfold set_first. rewrite head_other, H3, H2 by exact Np. reflexivity.
  - unfold set_first. rewrite head_same, Hq, H2. reflexivity.
  - change (nx_at m3 e = start (Hd q) L). rewrite N3, Ne, A. reflexivity.
  - change (lk (nx_at m3) (Hd q) L). apply (lk_ext (nx_at m)); [|exact BN]. intros x J. rewrite N3. apply O2. intros ->. contradiction.
  - change (pv_at m3 e = Hd q). now rewrite PO.
  - exact P3.
  - intros x Nx Lx. change (nx_at m3 x = nx_at m x /\ pv_at m3 x = pv_at m x). rewrite N3, PO by exact Lx. now apply O2.
Qed.
Lemma insert_tail_ok m Q q e : INV m Q -> ready Q q -> free E Q e -> exists m', c_insert_tail m q e = Ok m' /\ INV m' (set Q q (of Q q ++ [e])).
Proof.
  intros V R F. destruct (ready_fine m Q q V R) as (L & GQ & OQ & Fi). rewrite OQ. assert (NL : ~ In e L) by (destruct F as [_ F]; specialize (F q); now rewrite OQ in F). assert (Fi' : fine m q (L ++ [])) by now rewrite app_nil_r. assert (OQ' : of Q q = L ++ []) by now rewrite app_nil_r. pose proof (fine_split m q L [] Fi') as (BN & _ & BP & _ & GL & _). pose proof Fi as (A & _ & _ & D & _).
  unfold c_insert_tail. destruct (links m e (Hd q) (snd (heads m q)) (proj1 V) (proj1 F)) as (m1 & m2 & -> & E2 & H1 & H2 & K1 & K2 & O1 & O2 & Ne & Pe). cbn [obind]. rewrite H1, E2. cbn [obind]. rewrite H2. assert (X : is_hd q (fst (heads m q)) = match rev L with [] => true | _ => false end). { rewrite A. cbn [fst]. rewrite is_hd_start. destruct L as [|x L]; [reflexivity|]. cbn [rev]. now destruct (rev L). } rewrite X. clear X.
  assert (B2 : lk (nx_at m2) (start (Hd q) []) L). { apply (lk_ext (nx_at m)); [|exact BN]. intros x J. apply O2. intros ->. contradiction. }
  replace (snd (heads m q)) with (start (Hd q) (rev L)) by now rewrite A. destruct (step_nx m2 q L _ (Elm e) K2 GL D B2) as (m3 & -> & K3 & H3 & Hq & N3 & NO & P3). cbn [obind]. eexists. split; [reflexivity|].
  apply (between m _ Q q L [] e V OQ' Fi' F); cbn [rev lk start] in *; try exact I.
  - exact K3.
  - intros p Np. unfold set_last. rewrite head_other, H3, H2 by exact Np. reflexivity.
  - unfold set_last. rewrite head_same, Hq, H2. reflexivity.
  - exact N3.
  - change (nx_at m3 e = Hd q). now rewrite NO.
  - change (lk (pv_at m3) (Hd q) (rev L)). apply (lk_ext (pv_at m)); [|exact BP]. intros x J. rewrite P3. apply O2. intros ->. apply in_rev in J. contradiction.
  - change (pv_at m3 e = start (Hd q) (rev L)). rewrite P3, Pe, A. reflexivity.
  - intros x Nx Lx. rewrite app_nil_r in Lx. change (nx_at m3 x = nx_at m x /\ pv_at m3 x = pv_at m x). rewrite P3, NO by exact Lx. now apply O2.
Qed.
Lemma insert_after_ok m Q q l e : INV m Q -> free E Q e -> In l (of Q q) -> exists m', c_insert_after m q l e = Ok m' /\ INV m' (set Q q (after l e (of Q q))).
Proof.
  intros V F IL. destruct (in_fine m Q q l V IL) as (L & GQ & OQ & Fi). rewrite OQ in *. assert (NL : ~ In e L) by (destruct F as [_ F]; specialize (F q); now rewrite OQ in F). pose proof Fi as (A & _ & _ & D & G). assert (IlE : In l E) by now apply G.
  apply in_split in IL. destruct IL as (U & W & ->). pose proof (nd_mid _ _ _ D) as (NU & NW & DUW & DU & DW & _). rewrite after_split by exact NU. assert (Nle : l <> e) by (intros ->; apply NL, in_or_app; right; now left).
  change (U ++ l :: W) with (U ++ [l] ++ W) in *. change (U ++ l :: e :: W) with (U ++ [l] ++ e :: W). rewrite !app_assoc in *. pose proof (fine_split m q (U ++ [l]) W Fi) as (BN & BW & BP & BR & GU & GW).
  assert (NUe : ~ In e (U ++ [l]) /\ ~ In e W) by (rewrite in_app_iff in NL; tauto). destruct NUe as [NUe NWe].
  unfold c_insert_after. rewrite (next_ok m l (proj1 V) IlE). cbn [obind]. pose proof BN as BN'. apply lk_app in BN'. cbn [start lk] in BN'. destruct BN' as (BU & Bl & _). rewrite Bl.
  destruct (links m e (start (Hd q) W) (Elm l) (proj1 V) (proj1 F)) as (m1 & m2 & -> & E2 & H1 & H2 & K1 & K2 & O1 & O2 & Ne & Pe). cbn [obind]. rewrite E2. cbn [obind]. rewrite (next_ok m2 l K2 IlE), (proj1 (O2 l Nle)), Bl. cbn [obind]. rewrite is_hd_start.
  assert (B2 : lk (pv_at m2) (start (Hd q) (rev (U ++ [l]))) (rev W)). { apply (lk_ext (pv_at m)); [|exact BR]. intros x J. apply O2. intros ->. apply NWe. now apply in_rev. }
  destruct (step_pv m2 q W _ (Elm e) K2 GW DW B2) as (m3 & -> & K3 & H3 & Hq & P3 & PO & N3). cbn [obind]. destruct (set_nx_ok m3 l (Elm e) K3 IlE) as (m4 & -> & H4 & K4 & N4 & P4). exists m4. split; [reflexivity|].
  assert (NN : forall x, x <> l -> nx_at m4 x = nx_at m2 x) by (intros x Nx; rewrite N4, N3; destruct (Nat.eqb_spec x l); [contradiction|reflexivity]).
  assert (NlW : ~ In l W) by exact NW.
  apply (between m m4 Q q (U ++ [l]) W e V OQ Fi F).
  - exact K4.
  - intros p Np. now rewrite H4, H3, H2.
  - rewrite H4, Hq, H2. now destruct U.
  - apply lk_app. cbn [start lk]. rewrite N4, Nat.eqb_refl. split; [|auto]. apply (lk_ext (nx_at m)); [|exact BU]. intros x J. rewrite NN by (intros ->; contradiction). apply O2. intros ->. apply NUe, in_or_app. now left.
  - rewrite NN by congruence. exact Ne.
  - apply (lk_ext (nx_at m)); [|exact BW]. intros x J. rewrite NN by (intros ->; contradiction). apply O2. intros ->. contradiction.
  - apply (lk_ext (pv_at m)); [|exact BP]. intros x J. apply in_rev in J. rewrite P4, PO; [apply O2; intros ->; contradiction|]. intros J2. apply in_app_or in J. destruct J as [J|[<-|[]]]; [exact (DUW x J J2)|contradiction].
  - rewrite P4, PO, Pe by exact NWe. now rewrite rev_app_distr.
  - apply (lk_ext (pv_at m3)); [intros; apply P4|exact P3].
  - intros x Nx Lx. rewrite in_app_iff in Lx. rewrite P4, PO by tauto. rewrite NN; [now apply O2|]. intros ->. apply Lx. left. apply in_or_app. right. now left.
Qed.
Lemma insert_before_ok m Q q l e : INV m Q -> free E Q e -> In l (of Q q) -> exists m', c_insert_before m q l e = Ok m' /\ INV m' (set Q q (before l e (of Q q))).
Proof.
  intros V F IL. destruct (in_fine m Q q l V IL) as (L & GQ & OQ & Fi). rewrite OQ in *. assert (NL : ~ In e L) by (destruct F as [_ F]; specialize (F q); now rewrite OQ in F). pose proof Fi as (A & _ & _ & D & G). assert (IlE : In l E) by now apply G.
  apply in_split in IL. destruct IL as (U & W & ->). pose proof (nd_mid _ _ _ D) as (NU & NW & DUW & DU & DW & _). rewrite before_split by exact NU. assert (Nle : l <> e) by (intros ->; apply NL, in_or_app; right; now left).
  pose proof (fine_split m q U (l :: W) Fi) as (BN & BW & BP & BR & GU & GW). assert (NUe : ~ In e U /\ ~ In e (l :: W)) by (rewrite in_app_iff in NL; tauto). destruct NUe as [NUe NWe].
  cbn [rev] in BR. pose proof BR as BR'. apply lk_app in BR'. cbn [start lk] in BR'. destruct BR' as (BRW & Bl & _).
  unfold c_insert_before. destruct (links m e (Elm l) (start (Hd q) (rev U)) (proj1 V) (proj1 F)) as (m1 & m2 & -> & E2 & H1 & H2 & K1 & K2 & O1 & O2 & Ne & Pe). cbn [obind]. rewrite (prev_ok m1 l K1 IlE), (proj2 (O1 l Nle)), Bl. cbn [obind]. rewrite E2. cbn [obind]. rewrite (prev_ok m2 l K2 IlE), (proj2 (O2 l Nle)), Bl. cbn [obind]. rewrite is_hd_start.
  assert (B2 : lk (nx_at m2) (start (Hd q) (l :: W)) U). { apply (lk_ext (nx_at m)); [|exact BN]. intros x J. apply O2. intros ->. contradiction. }
  destruct (step_nx m2 q U _ (Elm e) K2 GU DU B2) as (m3 & -> & K3 & H3 & Hq & N3 & NO & P3). cbn [obind]. destruct (set_pv_ok m3 l (Elm e) K3 IlE) as (m4 & -> & H4 & K4 & P4 & N4). exists m4. split; [reflexivity|].
  assert (PP : forall x, x <> l -> pv_at m4 x = pv_at m2 x) by (intros x Nx; rewrite P4, P3; destruct (Nat.eqb_spec x l); [contradiction|reflexivity]).
  apply (between m m4 Q q U (l :: W) e V OQ Fi F).
  - exact K4.
  - intros p Np. now rewrite H4, H3, H2.
  - rewrite H4, Hq, H2. reflexivity.
  - apply (lk_ext (nx_at m3)); [intros; apply N4|exact N3].
  - rewrite N4, NO, Ne by exact NUe. reflexivity.
  - apply (lk_ext (nx_at m)); [|exact BW]. intros x J. rewrite N4, NO; [apply O2; intros ->; contradiction|]. intros J2. destruct J as [<-|J]; [contradiction|exact (DUW x J2 J)].
  - apply (lk_ext (pv_at m)); [|exact BP]. intros x J. apply in_rev in J. rewrite PP by (intros ->; contradiction). apply O2. intros ->. contradiction.
  - rewrite PP by congruence. exact Pe.
  - cbn [rev]. apply lk_app. cbn [start lk]. rewrite P4, Nat.eqb_refl. split; [|auto]. apply (lk_ext (pv_at m)); [|exact BRW]. intros x J. apply in_rev in J. rewrite PP by (intros ->; contradiction). apply O2. intros ->. apply NWe. now right.
  - intros x Nx Lx. rewrite in_app_iff in Lx. cbn [In] in Lx. rewrite N4, NO by tauto. rewrite PP; [now apply O2|]. intros ->. tauto.
Qed.
Lemma remove_ok m Q q e : INV m Q -> In e (of Q q) -> exists m', c_remove m q e = Ok m' /\ INV m' (set Q q (without e (of Q q))).
Proof.
  intros V IL. destruct (in_fine m Q q e V IL) as (L & GQ & OQ & Fi). rewrite OQ in *. pose proof Fi as (A & _ & _ & D & G). assert (IE : In e E) by now apply G.
  apply in_split in IL. destruct IL as (U & W & ->). pose proof (nd_mid _ _ _ D) as (NU & NW & DUW & DU & DW & DL). rewrite without_split by assumption.
  pose proof (fine_split m q U (e :: W) Fi) as (BN & BW & BP & BR & GU & GW). cbn [rev start lk] in BN, BW, BR. apply lk_app in BR. cbn [start lk] in BR. destruct BW as (Be & BW), BR as (BRW & Bp & _). assert (GW' : incl W E) by (intros y J; apply GW; now right).
  unfold c_remove. rewrite (next_ok m e (proj1 V) IE), (prev_ok m e (proj1 V) IE). cbn [obind]. rewrite Be, Bp, is_hd_start.
  destruct (step_pv m q W _ (start (Hd q) (rev U)) (proj1 V) GW' DW BRW) as (m3 & -> & K3 & H3 & Hq & P3 & PO & N3). cbn [obind]. rewrite (prev_ok m3 e K3 IE), (next_ok m3 e K3 IE), N3, PO by exact NW. cbn [obind]. rewrite Be, Bp, is_hd_start.
  assert (B2 : lk (nx_at m3) (Elm e) U) by (apply (lk_ext (nx_at m)); [intros; apply N3|exact BN]).
  destruct (step_nx m3 q U _ (start (Hd q) W) K3 GU DU B2) as (m4 & -> & K4 & H4 & Hq4 & N4 & NO & P4). exists m4. split; [reflexivity|]. apply (rebuild m); [exact V|exact K4| | | |].
  - unfold fine. rewrite Hq4, Hq, A. cbn [fst snd]. split; [|split; [|split; [|split]]].
    + f_equal; [now destruct U|]. rewrite !rev_app_distr. cbn [rev]. destruct W as [|y W]; [reflexivity|]. cbn [rev]. rewrite <- !app_assoc. now destruct (rev W).
    + apply lk_app. split; [exact N4|]. apply (lk_ext (nx_at m)); [|exact BW]. intros x J. rewrite NO; [apply N3|]. intros J2. exact (DUW x J2 J).
    + rewrite rev_app_distr. apply lk_app. split; [apply (lk_ext (pv_at m3)); [intros; apply P4|exact P3]|]. apply (lk_ext (pv_at m)); [|exact BP]. intros x J. apply in_rev in J. rewrite P4. apply PO. intros J2. exact (DUW x J J2).
    + exact DL.
    + intros y J. apply in_app_or in J. destruct J; [now apply GU|now apply GW'].
  - intros p Np. now rewrite H4, H3.
  - intros x X1 X2. rewrite in_app_iff in X1. rewrite NO, N3, P4, PO by tauto. now split.
  - intros y J. left. rewrite OQ. apply in_or_app. apply in_app_or in J. cbn [In]. tauto.
Qed.
Lemma fits m Q q L : INV m Q -> fine m q L -> length L < fuel.
Proof. intros V (_ & _ & _ & D & G). pose proof (NoDup_incl_length D G). lia. Qed.
Lemma walk_ok m q step f : (forall e, In e E -> step m (Elm e) = Ok (f e)) -> forall n L, lk f (Hd q) L -> incl L E -> length L < n -> walk step n m q (start (Hd q) L) = Ok (map Elm L).
Proof.
  intros S. induction n as [|n IH]; intros L B G LF; [lia|]. cbn [walk]. rewrite is_hd_start. destruct L as [|x L]; [reflexivity|]. cbn [start lk map] in *. destruct B as [B1 B2]. rewrite S by (apply G; now left). cbn [obind]. rewrite B1, IH; [reflexivity|exact B2|intros y Y; apply G; now right|cbn [length] in LF; lia].
Qed.
Lemma at_elm f d L e : NoDup L -> In e L -> lk f d L -> f e = next_in d e L.
Proof. intros D I B. apply in_split in I. destruct I as (U & W & ->). apply nd_mid in D. rewrite next_in_split by tauto. apply lk_app in B. cbn [lk] in B. tauto. Qed.
Lemma loop_elm q L e d : In e L -> NoDup L -> (if is_hd q (next_in (Hd q) e L) then d else next_in (Hd q) e L) = next_in d e L.
Proof. intros I D. apply in_split in I. destruct I as (U & W & ->). apply nd_mid in D. rewrite !next_in_split by tauto. rewrite is_hd_start. now destruct W. Qed.
Lemma call_ok m Q c : INV m Q -> allowed E Q c -> exists m', do_call fuel m c = Ok (fst (spec Q c), m') /\ INV m' (snd (spec Q c)).
Proof.
  intros V H. destruct c; cbn [do_call spec fst snd allowed] in *; try (match goal with |- exists m', quiet ?X = _ /\ INV _ ?S => assert (Z : exists m', X = Ok m' /\ INV m' S); [|destruct Z as (m' & -> & Z); exists m'; split; [reflexivity|exact Z]] end).
  - eexists. split; [reflexivity|now apply init_ok].
  - now apply insert_head_ok.
  - now apply insert_tail_ok.
  - now apply insert_after_ok.
  - now apply insert_before_ok.
  - now apply remove_ok.
  - destruct (ready_fine m Q q V H) as (L & _ & -> & (A & _)). rewrite A. cbn [fst]. rewrite is_hd_start. exists m. now split.
  - destruct (ready_fine m Q q V H) as (L & _ & -> & (A & _)). rewrite A. exists m. now split.
  - destruct (ready_fine m Q q V H) as (L & _ & -> & (A & _)). rewrite A. exists m. now split.
  - destruct (in_fine m Q q e V H) as (L & _ & OQ & (A & B & C & D & G)). rewrite OQ in *. rewrite (next_ok m e (proj1 V)) by now apply G. cbn [obind]. exists m. split; [|exact V]. now rewrite (at_elm _ _ _ _ D H B).
  - destruct (in_fine m Q q e V H) as (L & _ & OQ & (A & B & C & D & G)). rewrite OQ in *. rewrite (prev_ok m e (proj1 V)) by now apply G. cbn [obind]. exists m. split; [|exact V]. apply in_rev in H. now rewrite (at_elm _ _ _ _ (NoDup_rev D) H C).
  - destruct (in_fine m Q q e V H) as (L & _ & OQ & (A & B & C & D & G)). rewrite OQ in *. rewrite (next_ok m e (proj1 V)) by now apply G. cbn [obind]. exists m. split; [|exact V]. rewrite A. cbn [fst]. rewrite (at_elm _ _ _ _ D H B). now rewrite loop_elm.
  - destruct (in_fine m Q q e V H) as (L & _ & OQ & (A & B & C & D & G)). rewrite OQ in *. rewrite (prev_ok m e (proj1 V)) by now apply G. cbn [obind]. exists m. split; [|exact V]. rewrite A. cbn [snd]. apply in_rev in H. rewrite (at_elm _ _ _ _ (NoDup_rev D) H C). rewrite loop_elm; [reflexivity|exact H|now apply NoDup_rev].
  - destruct (ready_fine m Q q V H) as (L & _ & -> & F). pose proof (fits m Q q L V F). destruct F as (A & B & C & D & G). rewrite A. cbn [fst]. rewrite (walk_ok m q next_of (nx_at m)); [|intros e; apply next_ok, V|exact B|exact G|assumption]. exists m. now split.
  - destruct (ready_fine m Q q V H) as (L & _ & -> & F). pose proof (fits m Q q L V F). destruct F as (A & B & C & D & G). rewrite A. cbn [snd]. rewrite (walk_ok m q prev_of (pv_at m)); [|intros e; apply prev_ok, V|exact C|intros x J; apply G; now apply in_rev|now rewrite rev_length]. exists m. now split.
Qed.
Lemma calls_ok : forall l m Q, INV m Q -> history E Q l -> exists m', calls fuel m l = Ok (fst (answers Q l), m') /\ INV m' (snd (answers Q l)).
Proof.
  induction l as [|c l IH]; intros m Q V H; cbn [calls answers history] in *; [exists m; now split|]. destruct H as [H1 H2]. destruct (call_ok m Q c V H1) as (m1 & -> & V1). cbn [obind]. destruct (spec Q c) as [a Q1]. cbn [fst snd] in *. destruct (IH m1 Q1 V1 H2) as (m2 & -> & V2). cbn [obind]. destruct (answers Q1 l) as [o Q2]. cbn [fst snd] in *. exists m2. now split.
Qed.
Lemma inv0 : INV m0 (fun _ => None).
Proof. split; [|split; [discriminate|split; [intros p q e []|reflexivity]]]. intros x. destruct (look (heap m0) x); [|exact I]. split; [reflexivity|now right]. Qed.
End P.
