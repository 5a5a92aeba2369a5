(** Proofs about EzModel.v: the heap holds a forest of pools in first-child/next-sibling form. *)
From Verif Require Import Prelude Heap Sep EzModel.
From Coq Require Import Permutation.

Inductive pt := Nil | P (a : nat) (cs : list (nat * nat * cb)) (subs next : pt).
Definition rt (t : pt) : nat := match t with Nil => 0 | P a _ _ _ => a end.
Definition chead (cs : list (nat * nat * cb)) : nat := match cs with [] => 0 | (x, _, _) :: _ => x end.
Definition own (d : nat) (f : cb) : list (nat * cell) := match f with User _ => [] | _ => [(d, Block)] end.
Fixpoint ccells (cs : list (nat * nat * cb)) : list (nat * cell) :=
  match cs with [] => [] | (x, d, f) :: r => (x, Chunk d (chead r) f) :: own d f ++ ccells r end.
Fixpoint pcells (t : pt) (par : nat) : list (nat * cell) :=
  match t with Nil => [] | P a cs s n => (a, Pool (chead cs) (rt s) (rt n) par) :: ccells cs ++ pcells s a ++ pcells n par end.
Definition cdrops (cs : list (nat * nat * cb)) : list (cb * nat) := map (fun e => (snd e, snd (fst e))) cs.
(** the destructor calls: the chunks of a pool, then its sub-pools in order *)
Fixpoint drops (t : pt) : list (cb * nat) := match t with Nil => [] | P _ cs s n => (cdrops cs ++ drops s) ++ drops n end.
Fixpoint sz (t : pt) : nat := match t with Nil => 1 | P _ cs s n => 3 + length cs + sz s + sz n end.
Fixpoint addrs (t : pt) : list nat := match t with Nil => [] | P a _ s n => a :: addrs s ++ addrs n end.
Fixpoint regs (t : pt) : list (nat * (cb * nat)) := match t with Nil => [] | P a cs s n => map (pair a) (cdrops cs) ++ regs s ++ regs n end.
Fixpoint headers (t : pt) : list nat := match t with Nil => [] | P a cs s n => map (fun e => fst (fst e)) cs ++ headers s ++ headers n end.

Definition keeps (h h' : eheap) (X : list nat) : Prop := fresh h' = fresh h /\ (forall b, ~ In b X -> cells h' b = cells h b).
Definition gone (h' : eheap) (L : list (nat * cell)) : Prop := forall b, In b (map fst L) -> cells h' b = None.
Lemma keeps_trans h h1 h2 X Y : keeps h h1 X -> keeps h1 h2 Y -> keeps h h2 (X ++ Y).
Proof. intros [A B] [C D]. split; [congruence|]. intros b N. rewrite D, B; [reflexivity| |]; intros I; apply N, in_or_app; auto. Qed.
Lemma keeps_sub h h' X Y : keeps h h' X -> incl X Y -> keeps h h' Y.
Proof. intros [A B] I. split; [exact A|]. intros b N. apply B. intros J. now apply N, I. Qed.
Lemma gone_later h h' L X : gone h L -> keeps h h' X -> (forall b, In b (map fst L) -> ~ In b X) -> gone h' L.
Proof. intros G [_ K] D b I. rewrite K by now apply D. now apply G. Qed.
Lemma gone_app h L M : gone h L -> gone h M -> gone h (L ++ M).
Proof. intros A B b I. rewrite map_app in I. apply in_app_or in I. destruct I; auto. Qed.
Lemma holds_disj {C} (h : heap C) L M : holds h (L ++ M) -> forall b, In b (map fst L) -> ~ In b (map fst M).
Proof.
  intros [D _] b I J. rewrite map_app in D. apply in_split in I. destruct I as (u & v & E). rewrite E in D. rewrite <- app_assoc in D. apply NoDup_remove_2 in D. apply D. apply in_or_app. right. apply in_or_app. now right.
Qed.

Lemma drop_ok h d f F : holds h (own d f ++ F) -> exists h', drop h d f = Ok h' /\ holds h' F /\ gone h' (own d f) /\ keeps h h' (map fst (own d f)).
Proof.
  assert (W : holds h ((d, Block) :: F) -> exists h', (if d =? 0 then Ok h else c <- load h d ;; match c with Block => release h d | _ => UB end) = Ok h' /\ holds h' F /\ gone h' [(d, Block)] /\ keeps h h' [d]).
  { intros H. destruct (holds_head _ _ _ _ H) as [N L]. rewrite (proj2 (Nat.eqb_neq _ _) N), L. cbn [obind]. destruct (holds_release _ _ _ _ H) as (h' & R & H' & G & K & Fr). exists h'. split; [exact R|]. split; [exact H'|]. split; [intros b [<-|[]]; exact G|]. split; [exact Fr|]. intros b NI. apply K. intros ->. apply NI. now left. }
  intros H. destruct f as [| |k]; cbn [own app map fst] in *; [exact (W H)|exact (W H)|]. exists h. cbn [drop]. split; [reflexivity|]. split; [exact H|]. split; [intros b []|]. now split.
Qed.
Lemma free_chunks_ok : forall cs fuel h F, length cs < fuel -> holds h (ccells cs ++ F) ->
  exists h', free_chunks fuel h (chead cs) = Ok (h', cdrops cs) /\ holds h' F /\ gone h' (ccells cs) /\ keeps h h' (map fst (ccells cs)).
Proof.
  induction cs as [|[[x d] f] cs IH]; intros [|fuel] h F L H; cbn [length] in L; try lia.
  - cbn [chead free_chunks Nat.eqb]. exists h. split; [reflexivity|]. split; [exact H|]. split; [intros b []|]. now split.
  - cbn [chead free_chunks ccells app] in *. destruct (holds_head _ _ _ _ H) as [N LD]. rewrite (proj2 (Nat.eqb_neq _ _) N). unfold load_chunk. rewrite LD. cbn [obind].
    assert (H1 : holds h (own d f ++ ((x, Chunk d (chead cs) f) :: ccells cs ++ F))) by (revert H; apply holds_perm; permutes).
    destruct (drop_ok _ _ _ _ H1) as (h1 & E1 & H1' & G1 & K1). rewrite E1. cbn [obind].
    destruct (holds_release _ _ _ _ H1') as (h2 & E2 & H2 & G2 & K2 & Fr2). rewrite E2. cbn [obind].
    destruct (IH fuel h2 F ltac:(lia) H2) as (h3 & E3 & H3 & G3 & K3). rewrite E3. cbn [obind]. exists h3. split; [reflexivity|]. split; [exact H3|].
    assert (K2' : keeps h1 h2 [x]) by (split; [exact Fr2|]; intros b NI; apply K2; intros ->; apply NI; now left).
    split.
    + change ((x, Chunk d (chead cs) f) :: own d f ++ ccells cs) with ([(x, Chunk d (chead cs) f)] ++ own d f ++ ccells cs). apply gone_app; [|apply gone_app; [|exact G3]].
      * apply (gone_later h2 h3 _ (map fst (ccells cs))); [intros b [<-|[]]; exact G2|exact K3|]. intros b I. cbn [map fst In] in I. destruct I as [<-|[]]. pose proof (holds_notin _ _ _ _ H) as NI. intros I. apply NI. rewrite !map_app, !in_app_iff. tauto.
      * apply (gone_later h1 h3 _ ([x] ++ map fst (ccells cs))); [exact G1|exact (keeps_trans _ _ _ _ _ K2' K3)|]. intros b I. pose proof (holds_disj _ _ _ H1 b I) as NI. intros J. apply NI. destruct J as [<-|J]; [now left|]. right. rewrite map_app. apply in_or_app. now left.
    + eapply keeps_sub; [exact (keeps_trans _ _ _ _ _ (keeps_trans _ _ _ _ _ K1 K2') K3)|]. cbn [map fst]. rewrite map_app. intros b I. rewrite !in_app_iff in I. cbn [In] in *. rewrite in_app_iff. tauto.
Qed.

Lemma chain_ok : forall t par pc ps pn pp F h fuel, sz t <= fuel -> par <> 0 -> holds h ((par, Pool pc ps pn pp) :: pcells t par ++ F) ->
  exists h' ps', chain fuel h (rt t) = Ok (h', drops t) /\ holds h' ((par, Pool pc ps' pn pp) :: F) /\ gone h' (pcells t par) /\ keeps h h' (par :: map fst (pcells t par)).
Proof.
  induction t as [|a cs s IHs n IHn]; intros par pc ps pn pp F h [|fuel] L NP H; cbn [sz] in L; try lia.
  - cbn [rt chain Nat.eqb pcells app drops] in *. exists h, ps. split; [reflexivity|]. split; [exact H|]. split; [intros b []|]. now split.
  - cbn [rt chain pcells drops] in *.
    assert (Ha : holds h ((a, Pool (chead cs) (rt s) (rt n) par) :: (par, Pool pc ps pn pp) :: ccells cs ++ pcells s a ++ pcells n par ++ F)) by (revert H; apply holds_perm; permutes).
    destruct (holds_head _ _ _ _ Ha) as [Na La]. rewrite (proj2 (Nat.eqb_neq _ _) Na). unfold load_pool at 1. rewrite La. cbn [obind].
    destruct fuel as [|fuel]; [lia|]. cbn [destroy]. unfold load_pool at 1. rewrite La. cbn [obind]. rewrite (proj2 (Nat.eqb_neq _ _) NP).
    destruct (holds_head _ _ _ _ H) as [_ Lp]. unfold load_pool at 1. rewrite Lp. cbn [obind].
    destruct (holds_store _ _ _ (Pool pc 0 pn pp) _ H) as (h1 & E1 & H1 & K1 & Fr1). rewrite E1. cbn [obind].
    assert (K1' : keeps h h1 [par]) by (split; [exact Fr1|]; intros b NI; apply K1; intros ->; apply NI; now left).
    set (pa := (par, Pool pc 0 pn pp)) in *. set (xa := (a, Pool (chead cs) (rt s) (rt n) par)) in *.
    assert (H1' : holds h1 (ccells cs ++ (xa :: pa :: pcells s a ++ pcells n par ++ F))) by (revert H1; apply holds_perm; permutes).
    destruct (free_chunks_ok cs fuel h1 _ ltac:(lia) H1') as (h2 & E2 & H2 & G2 & K2). rewrite E2. cbn [obind].
    assert (H2' : holds h2 (xa :: pcells s a ++ (pa :: pcells n par ++ F))) by (revert H2; apply holds_perm; permutes).
    destruct (IHs a (chead cs) (rt s) (rt n) par _ h2 fuel ltac:(lia) Na H2') as (h3 & s' & E3 & H3 & G3 & K3). rewrite E3. cbn [obind].
    destruct (holds_release _ _ _ _ H3) as (h4 & E4 & H4 & G4 & K4 & Fr4). rewrite E4. cbn [obind].
    assert (K4' : keeps h3 h4 [a]) by (split; [exact Fr4|]; intros b NI; apply K4; intros ->; apply NI; now left).
    destruct (IHn par pc 0 pn pp F h4 (S fuel) ltac:(lia) NP H4) as (h5 & ps' & E5 & H5 & G5 & K5). rewrite E5. cbn [obind].
    exists h5, ps'. split; [reflexivity|]. split; [exact H5|].
    assert (D1 : forall b, In b (map fst (ccells cs)) -> ~ In b (a :: par :: map fst (pcells s a ++ pcells n par ++ F))).
    { intros b I. exact (holds_disj _ _ _ H1' b I). }
    assert (D2 : forall b, In b (map fst (pcells s a)) -> ~ In b (a :: par :: map fst (pcells n par ++ F))).
    { assert (X : holds h2 (pcells s a ++ (xa :: pa :: pcells n par ++ F))) by (revert H2'; apply holds_perm; permutes). intros b I. exact (holds_disj _ _ _ X b I). }
    assert (D3 : ~ In a (par :: map fst (pcells n par ++ F))) by exact (holds_notin _ _ _ _ H3).
    assert (M : forall b (X Y : list (nat * cell)), In b (map fst (X ++ Y)) <-> In b (map fst X) \/ In b (map fst Y)) by (intros; rewrite map_app; apply in_app_iff).
    split.
    + change (xa :: ccells cs ++ pcells s a ++ pcells n par) with ([xa] ++ ccells cs ++ pcells s a ++ pcells n par). apply gone_app; [|apply gone_app; [|apply gone_app; [|exact G5]]].
      * apply (gone_later h4 h5 _ (par :: map fst (pcells n par))); [intros b [<-|[]]; exact G4|exact K5|]. intros b [<-|[]] I. apply D3. cbn [fst xa] in I. destruct I as [<-|I]; [now left|right]. apply M. now left.
      * apply (gone_later h2 h5 _ ((a :: map fst (pcells s a)) ++ [a] ++ par :: map fst (pcells n par))); [exact G2|exact (keeps_trans _ _ _ _ _ K3 (keeps_trans _ _ _ _ _ K4' K5))|]. intros b I J. apply (D1 b I). cbn [In]. rewrite !M. rewrite !in_app_iff in J. cbn [In] in J. tauto.
      * apply (gone_later h3 h5 _ ([a] ++ par :: map fst (pcells n par))); [exact G3|exact (keeps_trans _ _ _ _ _ K4' K5)|]. intros b I J. apply (D2 b I). cbn [In]. rewrite !M. rewrite !in_app_iff in J. cbn [In] in J. tauto.
    + eapply keeps_sub; [exact (keeps_trans _ _ _ _ _ K1' (keeps_trans _ _ _ _ _ K2 (keeps_trans _ _ _ _ _ K3 (keeps_trans _ _ _ _ _ K4' K5))))|]. intros b I. cbn [map fst xa]. rewrite !in_app_iff in I. cbn [In] in *. rewrite !M. tauto.
Qed.

Theorem destroy_ok : forall a cs s F h fuel, sz (P a cs s Nil) <= fuel -> holds h (pcells (P a cs s Nil) 0 ++ F) ->
  exists h', destroy fuel h a = Ok (h', drops (P a cs s Nil)) /\ holds h' F /\ gone h' (pcells (P a cs s Nil) 0) /\ keeps h h' (map fst (pcells (P a cs s Nil) 0)).
Proof.
  intros a cs s F h [|fuel] L H; cbn [sz] in L; [lia|]. cbn [pcells rt drops] in *. set (xa := (a, Pool (chead cs) (rt s) 0 0)) in *. cbn [app] in H.
  cbn [destroy]. destruct (holds_head _ _ _ _ H) as [Na La]. unfold load_pool. rewrite La. cbn [obind Nat.eqb].
  assert (H1 : holds h (ccells cs ++ (xa :: pcells s a ++ F))) by (revert H; apply holds_perm; permutes).
  destruct (free_chunks_ok cs fuel h _ ltac:(lia) H1) as (h2 & E2 & H2 & G2 & K2). rewrite E2. cbn [obind].
  destruct (chain_ok s a (chead cs) (rt s) 0 0 F h2 fuel ltac:(lia) Na H2) as (h3 & s' & E3 & H3 & G3 & K3). rewrite E3. cbn [obind].
  destruct (holds_release _ _ _ _ H3) as (h4 & E4 & H4 & G4 & K4 & Fr4). rewrite E4. cbn [obind].
  assert (K4' : keeps h3 h4 [a]) by (split; [exact Fr4|]; intros b NI; apply K4; intros ->; apply NI; now left).
  exists h4. rewrite app_nil_r. split; [reflexivity|]. split; [exact H4|].
  assert (M : forall b (X Y : list (nat * cell)), In b (map fst (X ++ Y)) <-> In b (map fst X) \/ In b (map fst Y)) by (intros; rewrite map_app; apply in_app_iff).
  rewrite app_nil_r. split.
  - change (xa :: ccells cs ++ pcells s a) with ([xa] ++ ccells cs ++ pcells s a). apply gone_app; [|apply gone_app].
    + intros b [<-|[]]. exact G4.
    + apply (gone_later h2 h4 _ ((a :: map fst (pcells s a)) ++ [a])); [exact G2|exact (keeps_trans _ _ _ _ _ K3 K4')|]. intros b I J. apply (holds_disj _ _ _ H1 b I). cbn [map fst xa In]. rewrite !M. rewrite !in_app_iff in J. cbn [In] in J. tauto.
    + apply (gone_later h3 h4 _ [a]); [exact G3|exact K4'|]. intros b I [<-|[]].
      assert (X : holds h2 (pcells s a ++ (xa :: F))) by (revert H2; apply holds_perm; permutes). apply (holds_disj _ _ _ X a I). now left.
  - eapply keeps_sub; [exact (keeps_trans _ _ _ _ _ K2 (keeps_trans _ _ _ _ _ K3 K4'))|]. intros b I. cbn [map fst xa]. rewrite !in_app_iff in I. cbn [In] in *. rewrite !M. tauto.
Qed.

Definition shape (t : pt) : nat := match t with Nil => 0 | P _ _ _ Nil => 1 | _ => 2 end.
Lemma shape_next b cs s t b' cs' s' t' : shape t' = shape t -> shape (P b' cs' s' t') = shape (P b cs s t).
Proof. destruct t as [|? ? ? []], t' as [|? ? ? []]; cbn; intros; congruence. Qed.
(** locating a pool in a tree *)
Lemma at_pool : forall t a par, In a (addrs t) -> exists cs s n p R,
  Permutation (pcells t par) ((a, Pool (chead cs) s n p) :: R) /\
  (forall x d f, exists t', rt t' = rt t /\ shape t' = shape t /\ addrs t' = addrs t /\ Permutation (regs t') ((a, (f, d)) :: regs t) /\ Permutation (headers t') (x :: headers t) /\
     Permutation (pcells t' par) ((a, Pool x s n p) :: (x, Chunk d (chead cs) f) :: own d f ++ R)) /\
  (forall x, exists t', rt t' = rt t /\ shape t' = shape t /\ Permutation (addrs t') (x :: addrs t) /\ Permutation (regs t') (regs t) /\ Permutation (headers t') (headers t) /\
     Permutation (pcells t' par) ((a, Pool (chead cs) x n p) :: (x, Pool 0 0 s a) :: R)).
Proof.
  induction t as [|b cs s IHs n IHn]; intros a par I; cbn [addrs In] in I; [contradiction|]. rewrite in_app_iff in I. destruct I as [->|[I|I]].
  - exists cs, (rt s), (rt n), par, (ccells cs ++ pcells s a ++ pcells n par). split; [reflexivity|]. split.
    + intros x d f. exists (P a ((x, d, f) :: cs) s n). cbn [rt addrs regs headers pcells chead ccells cdrops map fst snd]. split; [reflexivity|]. split; [reflexivity|]. split; [reflexivity|]. split; [reflexivity|]. split; [reflexivity|]. permutes.
    + intros x. exists (P a cs (P x [] Nil s) n). cbn [rt addrs regs headers pcells chead ccells cdrops map fst snd app]. split; [reflexivity|]. split; [reflexivity|]. split; [permutes|]. split; [permutes|]. split; [permutes|]. permutes.
  - destruct (IHs a b I) as (cs0 & s0 & n0 & p0 & R & E & C1 & C2). exists cs0, s0, n0, p0, ((b, Pool (chead cs) (rt s) (rt n) par) :: ccells cs ++ R ++ pcells n par). split.
    + cbn [pcells]. rewrite E. permutes.
    + split.
      * intros x d f. destruct (C1 x d f) as (t' & A1 & _ & A2 & A3 & A4 & A5). exists (P b cs t' n). cbn [rt addrs regs headers pcells]. rewrite A1, A2. split; [reflexivity|]. split; [reflexivity|]. split; [reflexivity|]. split; [rewrite A3; permutes|]. split; [rewrite A4; permutes|]. rewrite A5. permutes.
      * intros x. destruct (C2 x) as (t' & A1 & _ & A2 & A3 & A4 & A5). exists (P b cs t' n). cbn [rt addrs regs headers pcells]. rewrite A1, A2. split; [reflexivity|]. split; [reflexivity|]. split; [permutes|]. split; [rewrite A3; permutes|]. split; [rewrite A4; permutes|]. rewrite A5. permutes.
  - destruct (IHn a par I) as (cs0 & s0 & n0 & p0 & R & E & C1 & C2). exists cs0, s0, n0, p0, ((b, Pool (chead cs) (rt s) (rt n) par) :: ccells cs ++ pcells s b ++ R). split.
    + cbn [pcells]. rewrite E. permutes.
    + split.
      * intros x d f. destruct (C1 x d f) as (t' & A1 & A0 & A2 & A3 & A4 & A5). exists (P b cs s t'). cbn [rt addrs regs headers pcells]. rewrite A1, A2. split; [reflexivity|]. split; [now apply shape_next|]. split; [reflexivity|]. split; [rewrite A3; permutes|]. split; [rewrite A4; permutes|]. rewrite A5. permutes.
      * intros x. destruct (C2 x) as (t' & A1 & A0 & A2 & A3 & A4 & A5). exists (P b cs s t'). cbn [rt addrs regs headers pcells]. rewrite A1, A2. split; [reflexivity|]. split; [now apply shape_next|]. split; [permutes|]. split; [rewrite A3; permutes|]. split; [rewrite A4; permutes|]. rewrite A5. permutes.
Qed.
