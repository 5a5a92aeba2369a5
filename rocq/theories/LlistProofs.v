(** Lists on the heap and the correctness of zt_llist.h. *)
From Verif Require Import Prelude Heap LlistModel.
From Coq Require Import Permutation Sorted.

(** [chain m p l]: following the links from p visits exactly the cells l (address, item), then NULL. *)
Fixpoint chain (m : mem) (p : nat) (l : list (nat * Z)) : Prop :=
  match l with
  | [] => p = 0
  | (a, v) :: r => p = a /\ a <> 0 /\ exists t, cells m a = Some (mkpair v t) /\ chain m t r
  end.
Definition addrs (l : list (nat * Z)) := map fst l.
Definition items (l : list (nat * Z)) := map snd l.
(** [m'] agrees with [m] outside the addresses [A] *)
Definition same_outside (A : list nat) (m m' : mem) := forall a, ~ In a A -> cells m' a = cells m a.

Lemma so_refl A m : same_outside A m m.
Proof. intros a _. reflexivity. Qed.
Lemma so_trans A m1 m2 m3 : same_outside A m1 m2 -> same_outside A m2 m3 -> same_outside A m1 m3.
Proof. intros H1 H2 a Ha. rewrite H2, H1; auto. Qed.
Lemma so_incl A B m m' : (forall a, In a A -> In a B) -> same_outside A m m' -> same_outside B m m'.
Proof. intros H S a Ha. apply S. auto. Qed.
Lemma so_upd A m a c : In a A -> same_outside A m (hupd m a c).
Proof. intros H b Hb. apply hupd_other. intros ->. auto. Qed.

Lemma chain_frame m m' l : forall p, chain m p l -> (forall a, In a (addrs l) -> cells m' a = cells m a) -> chain m' p l.
Proof.
  induction l as [|[a v] r IH]; intros p H F; cbn in *; [assumption|].
  destruct H as (-> & Ha & t & E & C). repeat split; auto. exists t. split.
  - rewrite F; auto.
  - apply IH; auto.
Qed.
Lemma chain_outside A m m' l p : chain m p l -> same_outside A m m' -> (forall a, In a (addrs l) -> ~ In a A) -> chain m' p l.
Proof. intros H S D. apply (chain_frame m); auto. Qed.

Lemma chain_null m l : chain m 0 l -> l = [].
Proof. destruct l as [|[a v] r]; [reflexivity|]. cbn. intros (-> & H & _). congruence. Qed.
Lemma chain_nz m p a v r : chain m p ((a, v) :: r) -> Nat.eqb p 0 = false.
Proof. cbn. intros (-> & H & _). now apply Nat.eqb_neq. Qed.
Lemma chain_live m l : forall p a, chain m p l -> In a (addrs l) -> exists c, cells m a = Some c.
Proof.
  induction l as [|[b v] r IH]; intros p a H I; cbn in *; [contradiction|].
  destruct H as (-> & Hb & t & E & C). destruct I as [<-|I]; eauto.
Qed.

Lemma NoDup_drop_mid {A} (a b c : list A) : NoDup (a ++ b ++ c) -> NoDup (a ++ c).
Proof.
  intros N. assert (P : Permutation (a ++ b ++ c) (b ++ a ++ c)).
  { rewrite !app_assoc. apply Permutation_app_tail, Permutation_app_comm. }
  apply (Permutation_NoDup P) in N. clear P. induction b as [|z b IH]; cbn in N; [auto|]. inversion N; auto.
Qed.

Lemma NoDup_app_l {A} (a b : list A) : NoDup (a ++ b) -> NoDup a.
Proof. intros N. rewrite <- (app_nil_r a). apply (NoDup_drop_mid a b []). now rewrite app_nil_r. Qed.
Lemma NoDup_app_r {A} (a b : list A) : NoDup (a ++ b) -> NoDup b.
Proof. exact (NoDup_drop_mid [] a b). Qed.

(** ppush of the first cell of a list onto another one *)
Lemma ppush_ok m p a v r q l : chain m p ((a, v) :: r) -> chain m q l -> NoDup (a :: addrs r ++ addrs l) ->
  exists m' t, llist_ppop m p = Ok (a, t) /\ llist_ppush m a q = Ok (a, m') /\ chain m' t r /\ chain m' a ((a, v) :: l) /\
    same_outside [a] m m' /\ fresh m' = fresh m.
Proof.
  intros H1 H2 N. pose proof (chain_nz _ _ _ _ _ H1) as NZ. cbn in H1. destruct H1 as (-> & Ha & t & E & C).
  inversion N as [|x y N1 N2]; subst. rewrite in_app_iff in N1.
  exists (hupd m a (mkpair v q)), t. unfold llist_ppop, llist_ppush. rewrite NZ, (load_ok _ _ _ E). cbn [obind head tail].
  rewrite (store_ok _ _ _ _ E). cbn [obind]. split; [reflexivity|]. split; [reflexivity|].
  split; [|split; [|split; [|reflexivity]]].
  - apply (chain_outside [a] m); auto; [apply so_upd; now left|]. intros b Hb [->|[]]; tauto.
  - cbn. repeat split; auto. exists q. rewrite Nat.eqb_refl. split; [reflexivity|].
    apply (chain_outside [a] m); auto; [apply so_upd; now left|]. intros b Hb [->|[]]; tauto.
  - apply so_upd. now left.
Qed.

Lemma drain_ok : forall l m p q r fuel, chain m p l -> chain m q r -> NoDup (addrs l ++ addrs r) -> length l < fuel ->
  exists q' m', drain fuel m p q = Ok (q', m') /\ chain m' q' (rev l ++ r) /\ same_outside (addrs l) m m' /\ fresh m' = fresh m.
Proof.
  induction l as [|[a v] l IH]; intros m p q r fuel Hp Hq N F; (destruct fuel as [|f]; [cbn in F; lia|]).
  - cbn in Hp. subst p. cbn. exists q, m. auto using so_refl.
  - cbn [drain]. rewrite (chain_nz _ _ _ _ _ Hp). cbn [addrs map fst app] in N.
    destruct (ppush_ok m p a v l q r Hp Hq N) as (m1 & t & E1 & E2 & C1 & C2 & S & Fr).
    rewrite E1. cbn [obind]. rewrite E2. cbn [obind].
    destruct (IH m1 t a ((a, v) :: r) f C1 C2) as (q' & m' & E & C & S' & Fr').
    + cbn [addrs map fst]. apply (Permutation_NoDup (l := a :: addrs l ++ addrs r)); [|exact N].
      apply Permutation_middle.
    + cbn in F. lia.
    + exists q', m'. split; [exact E|]. split; [|split].
      * cbn [rev]. rewrite <- app_assoc. exact C.
      * apply (so_trans _ _ m1); (eapply so_incl; [|eassumption]); cbn; tauto.
      * congruence.
Qed.

Lemma nreverse_ok l m p fuel : chain m p l -> NoDup (addrs l) -> length l < fuel ->
  exists q m', llist_nreverse fuel m p = Ok (q, m') /\ chain m' q (rev l) /\ same_outside (addrs l) m m' /\ fresh m' = fresh m.
Proof.
  intros H N F. destruct (drain_ok l m p 0 [] fuel H) as (q & m' & E & C & S); auto.
  - reflexivity.
  - cbn [addrs map]. now rewrite app_nil_r.
  - exists q, m'. rewrite app_nil_r in C. auto.
Qed.

(** the abstract merge of zt_llist_nmerge *)
Section Merge.
Variable cmp : Z -> Z -> Z.
Fixpoint merge (l1 l2 : list (nat * Z)) {struct l1} : list (nat * Z) :=
  match l1 with
  | [] => l2
  | x :: r1 => (fix inner l2 := match l2 with
      | [] => l1
      | y :: r2 => if negb (cmp (snd y) (snd x) =? 0)%Z then x :: merge r1 l2 else y :: inner r2 end) l2
  end.
Lemma merge_nil_r l : merge l [] = l.
Proof. destruct l; reflexivity. Qed.
Lemma merge_cons x r1 y r2 : merge (x :: r1) (y :: r2) =
  if negb (cmp (snd y) (snd x) =? 0)%Z then x :: merge r1 (y :: r2) else y :: merge (x :: r1) r2.
Proof. reflexivity. Qed.

Lemma merge_perm : forall l1 l2, Permutation (merge l1 l2) (l1 ++ l2).
Proof.
  induction l1 as [|x r1 IH1]; intros l2; [apply Permutation_refl|].
  induction l2 as [|y r2 IH2]; [rewrite app_nil_r; apply Permutation_refl|].
  rewrite merge_cons. destruct (negb _).
  - cbn [app]. constructor. apply IH1.
  - etransitivity; [apply perm_skip, IH2|]. apply (Permutation_middle (x :: r1) r2 y).
Qed.

Lemma mergeloop_ok : forall n l1 l2 m p1 p2 q r fuel, length l1 + length l2 <= n ->
  chain m p1 l1 -> chain m p2 l2 -> chain m q r -> NoDup (addrs l1 ++ addrs l2 ++ addrs r) -> n < fuel ->
  exists p1' p2' q' m' l1' l2' r', mergeloop fuel cmp m p1 p2 q = Ok (p1', p2', q', m') /\
    chain m' p1' l1' /\ chain m' p2' l2' /\ chain m' q' r' /\ (l1' = [] \/ l2' = []) /\
    rev r' ++ l1' ++ l2' = rev r ++ merge l1 l2 /\ NoDup (addrs l1' ++ addrs l2' ++ addrs r') /\
    length l1' <= length l1 /\ length l2' <= length l2 /\
    Permutation (l1' ++ l2' ++ r') (l1 ++ l2 ++ r) /\
    same_outside (addrs l1 ++ addrs l2) m m' /\ fresh m' = fresh m.
Proof.
  induction n as [|n IH]; intros l1 l2 m p1 p2 q r fuel L C1 C2 C3 N F; (destruct fuel as [|f]; [lia|]); cbn [mergeloop].
  - destruct l1; [|cbn in L; lia]. destruct l2; [|cbn in L; lia]. cbn in C1, C2. subst.
    cbn [Nat.eqb orb]. exists 0, 0, q, m, [], [], r. cbn. repeat split; auto using so_refl.
  - destruct l1 as [|[a1 v1] r1].
    { cbn in C1. subst. cbn [Nat.eqb orb]. exists 0, p2, q, m, [], l2, r. cbn. repeat split; auto using so_refl. }
    destruct l2 as [|[a2 v2] r2].
    { cbn in C2. subst. cbn [Nat.eqb]. rewrite orb_true_r. exists p1, 0, q, m, ((a1,v1)::r1), [], r. rewrite merge_nil_r, app_nil_r.
      cbn [chain]. repeat split; auto using so_refl; try apply C1. }
    rewrite (chain_nz _ _ _ _ _ C1), (chain_nz _ _ _ _ _ C2). cbn [orb].
    assert (C1' := C1). assert (C2' := C2).
    cbn in C1'. destruct C1' as (-> & Ha1 & t1 & E1 & _). cbn in C2'. destruct C2' as (-> & Ha2 & t2 & E2 & _).
    rewrite (load_ok _ _ _ E1), (load_ok _ _ _ E2). cbn [obind head]. rewrite merge_cons. cbn [snd].
    destruct (negb (cmp v2 v1 =? 0)%Z).
    + destruct (ppush_ok m a1 a1 v1 r1 q r C1 C3) as (m1 & t & X1 & X2 & D1 & D2 & S & Fr).
      { cbn [addrs map fst app] in N. inversion N as [|x y N1 N2]; subst. constructor.
        - rewrite !in_app_iff in *. cbn in N1. rewrite !in_app_iff in N1. tauto.
        - exact (NoDup_drop_mid (addrs r1) (a2 :: addrs r2) (addrs r) N2). }
      rewrite X1. cbn [obind]. rewrite X2. cbn [obind].
      assert (C2m : chain m1 a2 ((a2, v2) :: r2)).
      { apply (chain_outside [a1] m); auto. intros b Hb [<-|[]]. cbn [addrs map fst app] in N.
        inversion N as [|x y N1 N2]; subst. apply N1. apply in_app_iff. right.
        change (In a1 ((a2 :: map fst r2) ++ map fst r)). apply in_app_iff. left. exact Hb. }
      destruct (IH r1 ((a2,v2)::r2) m1 t a2 a1 ((a1,v1)::r) f) as (p1' & p2' & q' & m' & l1' & l2' & r' & R); auto.
      { cbn in L |- *. lia. }
      { refine (Permutation_NoDup _ N). unfold addrs. cbn [map fst].
        change ((a1 :: map fst r1) ++ (a2 :: map fst r2) ++ map fst r) with (a1 :: map fst r1 ++ (a2 :: map fst r2) ++ map fst r).
        rewrite !app_assoc. apply Permutation_middle. }
      { lia. }
      destruct R as (R1 & R2 & R3 & R4 & R5 & R6 & R7 & R8 & R9 & R10 & R11 & R12).
      exists p1', p2', q', m', l1', l2', r'. repeat split; auto.
      * rewrite R6. cbn [rev]. now rewrite <- app_assoc.
      * cbn [length]. lia.
      * etransitivity; [exact R10|]. cbn [app].
        change (r1 ++ (a2, v2) :: r2 ++ (a1, v1) :: r) with (r1 ++ ((a2, v2) :: r2) ++ (a1, v1) :: r).
        rewrite app_assoc. etransitivity; [symmetry; apply Permutation_middle|]. now rewrite <- app_assoc.
      * apply (so_trans _ _ m1); (eapply so_incl; [|eassumption]); cbn; intros; rewrite ?in_app_iff in *; cbn in *; tauto.
      * congruence.
    + destruct (ppush_ok m a2 a2 v2 r2 q r C2 C3) as (m1 & t & X1 & X2 & D1 & D2 & S & Fr).
      { revert N. cbn [addrs map fst]. generalize (a1 :: map fst r1). intros k.
        change (map fst r2) with (addrs r2). cbn [app].
        induction k as [|z k IHk]; cbn; [auto|]. inversion 1; auto. }
      rewrite X1. cbn [obind]. rewrite X2. cbn [obind].
      assert (C1m : chain m1 a1 ((a1, v1) :: r1)).
      { apply (chain_outside [a2] m); auto. intros b Hb [<-|[]]. revert N Hb. cbn [addrs map fst]. generalize (a1 :: map fst r1).
        clear. intros k N Hb. apply NoDup_remove_2 in N. rewrite in_app_iff in N. tauto. }
      destruct (IH ((a1,v1)::r1) r2 m1 a1 t a2 ((a2,v2)::r) f) as (p1' & p2' & q' & m' & l1' & l2' & r' & R); auto.
      { cbn in L |- *. lia. }
      { revert N. cbn [addrs map fst]. generalize (a1 :: map fst r1). intros k N.
        refine (Permutation_NoDup _ N). apply Permutation_app_head. cbn [app]. apply Permutation_middle. }
      { lia. }
      destruct R as (R1 & R2 & R3 & R4 & R5 & R6 & R7 & R8 & R9 & R10 & R11 & R12).
      exists p1', p2', q', m', l1', l2', r'. repeat split; auto.
      * rewrite R6. cbn [rev]. now rewrite <- app_assoc.
      * cbn [length]. lia.
      * etransitivity; [exact R10|]. apply Permutation_app_head. cbn [app]. symmetry. apply Permutation_middle.
      * apply (so_trans _ _ m1); (eapply so_incl; [|eassumption]); cbn; intros; rewrite ?in_app_iff in *; cbn in *; tauto.
      * congruence.
Qed.
End Merge.

Lemma addrs_perm l l' : Permutation l l' -> Permutation (addrs l) (addrs l').
Proof. apply Permutation_map. Qed.
Lemma addrs_app l l' : addrs (l ++ l') = addrs l ++ addrs l'.
Proof. apply map_app. Qed.

Lemma nmerge_ok cmp l1 l2 m p1 p2 fuel : chain m p1 l1 -> chain m p2 l2 -> NoDup (addrs l1 ++ addrs l2) ->
  length l1 + length l2 < fuel ->
  exists q m', llist_nmerge fuel cmp m p1 p2 = Ok (q, m') /\ chain m' q (merge cmp l1 l2) /\
    same_outside (addrs l1 ++ addrs l2) m m' /\ fresh m' = fresh m.
Proof.
  intros C1 C2 N F.
  destruct (mergeloop_ok cmp (length l1 + length l2) l1 l2 m p1 p2 0 [] fuel) as
    (p1' & p2' & q' & m1 & l1' & l2' & r' & R1 & R2 & R3 & R4 & R5 & R6 & R7 & R8 & R9 & R10 & R11 & R12); auto.
  { reflexivity. }
  { cbn [addrs map]. now rewrite app_nil_r. }
  rewrite app_nil_r in R10. cbn [rev app] in R6.
  assert (A : forall x, In x (addrs l1' ++ addrs l2' ++ addrs r') -> In x (addrs l1 ++ addrs l2)).
  { intros x. rewrite <- !addrs_app. apply Permutation_in. now apply addrs_perm. }
  unfold llist_nmerge. rewrite R1. cbn [obind].
  destruct (drain_ok l1' m1 p1' q' r' fuel R2 R4) as (q1 & m2 & D1 & D2 & D3 & D4).
  { exact (NoDup_drop_mid _ _ _ R7). }
  { lia. }
  rewrite D1. cbn [obind].
  assert (N1 : NoDup (addrs l2' ++ addrs (rev l1' ++ r'))).
  { refine (Permutation_NoDup _ R7). rewrite <- !addrs_app. apply addrs_perm.
    etransitivity; [|apply Permutation_app_head, Permutation_app_tail, Permutation_rev].
    rewrite !app_assoc. apply Permutation_app_tail, Permutation_app_comm. }
  destruct (drain_ok l2' m2 p2' q1 (rev l1' ++ r') fuel) as (q2 & m3 & E1 & E2 & E3 & E4); auto.
  { apply (chain_outside (addrs l1') m1); auto. intros a Ha Hb. revert R7 Ha Hb. clear. intros N Ha Hb.
    apply in_split in Hb. destruct Hb as (u & v & E). rewrite E in N. rewrite <- app_assoc in N. cbn [app] in N.
    apply NoDup_remove_2 in N. rewrite !in_app_iff in N. tauto. }
  { lia. }
  rewrite E1. cbn [obind].
  destruct (nreverse_ok (rev l2' ++ rev l1' ++ r') m3 q2 fuel) as (q3 & m4 & G1 & G2 & G3 & G4); auto.
  { refine (Permutation_NoDup _ N1). rewrite <- addrs_app. apply addrs_perm, Permutation_app_tail, Permutation_rev. }
  { rewrite !app_length, !rev_length. apply Permutation_length in R10. rewrite !app_length in R10. lia. }
  exists q3, m4. split; [exact G1|]. split; [|split; [|congruence]].
  - rewrite !rev_app_distr, !rev_involutive in G2. rewrite <- R6.
    replace (rev r' ++ l1' ++ l2') with ((rev r' ++ l1') ++ l2') by now rewrite app_assoc. exact G2.
  - apply (so_trans _ _ m1); [exact R11|]. apply (so_trans _ _ m2).
    { eapply so_incl; [|exact D3]. intros a Ha. apply A. rewrite !in_app_iff. tauto. }
    apply (so_trans _ _ m3).
    { eapply so_incl; [|exact E3]. intros a Ha. apply A. rewrite !in_app_iff. tauto. }
    eapply so_incl; [|exact G3]. intros a Ha. apply A. unfold addrs in Ha |- *.
    rewrite !map_app, !map_rev, !in_app_iff, <- !in_rev in Ha. rewrite !in_app_iff. tauto.
Qed.

(** split *)
Lemma splitloop_ok : forall n m x A B p t fuel, length B <= n -> chain m p (x :: A) -> chain m t B ->
  length B <= length A -> A <> [] -> n < fuel ->
  exists A1 y A2, x :: A = A1 ++ y :: A2 /\ A2 <> [] /\ splitloop fuel m p t = Ok (fst y).
Proof.
  induction n as [|n IH]; intros m x A B p t fuel L C1 C2 LE NE F; (destruct fuel as [|f]; [lia|]); cbn [splitloop];
    (assert (Hp : p = fst x) by (destruct x; apply C1)).
  - destruct B; [|cbn in L; lia]. cbn in C2. subst t. cbn [Nat.eqb]. exists [], x, A. now rewrite Hp.
  - destruct B as [|[b v] B].
    { cbn in C2. subst t. cbn [Nat.eqb]. exists [], x, A. now rewrite Hp. }
    rewrite (chain_nz _ _ _ _ _ C2). cbn in C2. destruct C2 as (-> & Hb & t' & E & C2).
    rewrite (load_ok _ _ _ E). cbn [obind tail].
    destruct B as [|[b2 v2] B].
    { cbn in C2. subst t'. cbn [Nat.eqb]. exists [], x, A. now rewrite Hp. }
    rewrite (chain_nz _ _ _ _ _ C2). cbn in C2. destruct C2 as (-> & Hb2 & t2 & E2 & C2).
    destruct x as [a w]. cbn in C1. destruct C1 as (Hpa & Ha & ta & E1 & C1). subst p.
    rewrite (load_ok _ _ _ E1), (load_ok _ _ _ E2). cbn [obind tail].
    destruct A as [|x' A']; [congruence|].
    destruct (IH m x' A' B ta t2 f) as (A1 & y & A2 & H1 & H2 & H3); auto.
    + cbn [length] in L. lia.
    + cbn [length] in LE. lia.
    + intros ->. cbn in LE. lia.
    + lia.
    + exists ((a, w) :: A1), y, A2. cbn [app]. rewrite H1. auto.
Qed.

(** cutting after y *)
Lemma chain_cut m : forall A1 p y A2, chain m p (A1 ++ y :: A2) -> NoDup (addrs (A1 ++ y :: A2)) ->
  exists t, cells m (fst y) = Some (mkpair (snd y) t) /\ chain m t A2 /\
    chain (hupd m (fst y) (mkpair (snd y) 0)) p (A1 ++ [y]) /\
    chain (hupd m (fst y) (mkpair (snd y) 0)) t A2.
Proof.
  induction A1 as [|[a v] A1 IH]; intros p y A2 H N.
  - destruct y as [b w]. cbn in H. destruct H as (-> & Hb & t & E & C). exists t. cbn [fst snd].
    split; [exact E|]. split; [exact C|]. split.
    + cbn. repeat split; auto. exists 0. rewrite Nat.eqb_refl. auto.
    + apply (chain_frame m); auto. intros c Hc. apply hupd_other. cbn in N. inversion N; subst. intros ->. auto.
  - cbn in H. destruct H as (-> & Ha & t & E & C). cbn in N. inversion N as [|x z N1 N2]; subst.
    destruct (IH t y A2 C N2) as (t' & X1 & X2 & X3 & X4). exists t'. repeat split; auto.
    exists t. split; auto. rewrite hupd_other; auto. intros ->. apply N1. rewrite map_app, in_app_iff. cbn. auto.
Qed.

Lemma split_ok_gen m p x A fuel : chain m p (x :: A) -> A <> [] -> NoDup (addrs (x :: A)) -> length A < fuel ->
  exists L R t m', llist_split fuel m p = Ok (t, m') /\ x :: A = L ++ R /\ L <> [] /\ R <> [] /\
    chain m' p L /\ chain m' t R /\ same_outside (addrs L) m m' /\ fresh m' = fresh m.
Proof.
  intros C NE N F. pose proof C as C0. unfold llist_split. destruct x as [a v]. rewrite (chain_nz _ _ _ _ _ C).
  cbn in C. destruct C as (-> & Ha & t & E & C). rewrite (load_ok _ _ _ E). cbn [obind tail].
  destruct A as [|[b w] A]; [congruence|]. rewrite (chain_nz _ _ _ _ _ C).
  destruct (splitloop_ok (length ((b,w)::A)) m (a,v) ((b,w)::A) ((b,w)::A) a t fuel) as (A1 & y & A2 & H1 & H2 & H3); auto.
  rewrite H3. cbn [obind]. rewrite H1 in C0, N. destruct (chain_cut m A1 a y A2 C0 N) as (t' & X1 & X2 & X3 & X4).
  rewrite (load_ok _ _ _ X1). cbn [obind head tail]. rewrite (store_ok _ _ _ _ X1). cbn [obind].
  exists (A1 ++ [y]), A2, t', (hupd m (fst y) (mkpair (snd y) 0)).
  split; [reflexivity|]. split; [now rewrite <- app_assoc|]. split; [destruct A1; discriminate|].
  repeat split; auto. apply so_upd. rewrite addrs_app. apply in_app_iff. cbn. auto.
Qed.

(** sort = repeated merging of two contiguous pieces *)
Inductive msort (cmp : Z -> Z -> Z) : list (nat * Z) -> list (nat * Z) -> Prop :=
| ms_nil : msort cmp [] []
| ms_one x : msort cmp [x] [x]
| ms_merge L R L' R' : L <> [] -> R <> [] -> msort cmp L L' -> msort cmp R R' -> msort cmp (L ++ R) (merge cmp L' R').

Lemma msort_perm cmp l l' : msort cmp l l' -> Permutation l l'.
Proof.
  induction 1; auto. etransitivity; [|symmetry; apply merge_perm]. apply Permutation_app; assumption.
Qed.

Lemma sort_msort cmp : forall fuel l m p, chain m p l -> NoDup (addrs l) -> length l < fuel ->
  exists q m' l', llist_sort fuel cmp m p = Ok (q, m') /\ chain m' q l' /\ msort cmp l l' /\
    same_outside (addrs l) m m' /\ fresh m' = fresh m.
Proof.
  induction fuel as [|f IH]; intros l m p C N F; [lia|]. cbn [llist_sort].
  destruct l as [|[a v] A].
  { cbn in C. subst p. exists 0, m, []. cbn. repeat split; auto using so_refl. constructor. }
  rewrite (chain_nz _ _ _ _ _ C). pose proof C as C0. cbn in C. destruct C as (-> & Ha & t & E & C).
  rewrite (load_ok _ _ _ E). cbn [obind tail].
  destruct A as [|[b w] A].
  { cbn in C. subst t. exists a, m, [(a,v)]. cbn [Nat.eqb]. split; [reflexivity|]. split; [exact C0|]. split; [constructor|].
    auto using so_refl. }
  rewrite (chain_nz _ _ _ _ _ C).
  destruct (split_ok_gen m a (a,v) ((b,w)::A) (S f) C0) as (L & R & t' & m1 & S1 & S2 & S3 & S4 & S5 & S6 & S7 & S8); auto.
  { discriminate. }
  { cbn [length] in *. lia. }
  rewrite S1. cbn [obind]. rewrite S2 in *. clear S2. rewrite app_length in F.
  assert (length L <> 0) by (destruct L; [congruence|discriminate]).
  assert (length R <> 0) by (destruct R; [congruence|discriminate]).
  rewrite addrs_app in N.
  assert (DJ : forall x, In x (addrs R) -> ~ In x (addrs L)).
  { intros x H1 H2. revert N. apply in_split in H2. destruct H2 as (u & v0 & ->). rewrite <- app_assoc. cbn [app]. intros N.
    apply NoDup_remove_2 in N. rewrite !in_app_iff in N. tauto. }
  destruct (IH L m1 a) as (q1 & m2 & L' & A1 & A2 & A3 & A4 & A5); auto.
  { exact (NoDup_app_l _ _ N). }
  { lia. }
  rewrite A1. cbn [obind].
  destruct (IH R m2 t') as (q2 & m3 & R' & B1 & B2 & B3 & B4 & B5).
  { apply (chain_outside (addrs L) m1); auto. }
  { exact (NoDup_app_r _ _ N). }
  { lia. }
  rewrite B1. cbn [obind].
  pose proof (msort_perm _ _ _ A3) as PL. pose proof (msort_perm _ _ _ B3) as PR.
  destruct (nmerge_ok cmp L' R' m3 q1 q2 (S f)) as (q & m4 & M1 & M2 & M3 & M4); auto.
  { apply (chain_outside (addrs R) m2); auto. intros x Hx Hy. apply (DJ x Hy). eapply Permutation_in; [|exact Hx].
    symmetry. now apply addrs_perm. }
  { refine (Permutation_NoDup _ N). apply Permutation_app; now apply addrs_perm. }
  { apply Permutation_length in PL, PR. lia. }
  exists q, m4, (merge cmp L' R'). split; [exact M1|]. split; [exact M2|]. split; [now constructor|]. split; [|congruence].
  rewrite addrs_app. apply (so_trans _ _ m1); [eapply so_incl; [|exact S7]; intros; rewrite in_app_iff; tauto|].
  apply (so_trans _ _ m2); [eapply so_incl; [|exact A4]; intros; rewrite in_app_iff; tauto|].
  apply (so_trans _ _ m3); [eapply so_incl; [|exact B4]; intros; rewrite in_app_iff; tauto|].
  eapply so_incl; [|exact M3]. intros x. rewrite !in_app_iff.
  intros [Hx|Hx]; [left|right]; (eapply Permutation_in; [|exact Hx]); symmetry; now apply addrs_perm.
Qed.

(** order *)
Section Order.
Variables (cmp : Z -> Z -> Z) (R : Z -> Z -> Prop).
Hypothesis Rtrans : forall a b c, R a b -> R b c -> R a c.
Hypothesis cmp_yes : forall a b, cmp b a <> 0%Z -> R a b.
Hypothesis cmp_no : forall a b, cmp b a = 0%Z -> R b a.
Let RR (x y : nat * Z) := R (snd x) (snd y).

Lemma merge_sorted : forall l1 l2, StronglySorted RR l1 -> StronglySorted RR l2 -> StronglySorted RR (merge cmp l1 l2).
Proof.
  induction l1 as [|x r1 IH1]; intros l2 S1 S2; [exact S2|].
  induction l2 as [|y r2 IH2]; [exact S1|].
  rewrite merge_cons. inversion S1 as [|? ? S1a S1b]; inversion S2 as [|? ? S2a S2b]; subst.
  destruct (cmp (snd y) (snd x) =? 0)%Z eqn:E; cbn [negb].
  - apply Z.eqb_eq in E. apply cmp_no in E. constructor; [apply IH2; auto|].
    apply (Permutation_Forall (Permutation_sym (merge_perm cmp (x :: r1) r2))).
    apply Forall_app. split; [constructor; [exact E|]|exact S2b].
    eapply Forall_impl; [|exact S1b]. intros z Hz. unfold RR in *. eauto.
  - apply Z.eqb_neq in E. apply cmp_yes in E. constructor; [apply IH1; auto|].
    apply (Permutation_Forall (Permutation_sym (merge_perm cmp r1 (y :: r2)))).
    apply Forall_app. split; [exact S1b|]. constructor; [exact E|].
    eapply Forall_impl; [|exact S2b]. intros z Hz. unfold RR in *. eauto.
Qed.
Lemma msort_sorted l l' : msort cmp l l' -> StronglySorted RR l'.
Proof. induction 1; [constructor|repeat constructor|now apply merge_sorted]. Qed.
End Order.

(** stability: elements equivalent to v keep their relative order *)
Section Stable.
Variables (cmp : Z -> Z -> Z) (R : Z -> Z -> bool).
Hypothesis Rtrans : forall a b c, R a b = true -> R b c = true -> R a c = true.
Hypothesis cmp_R : forall a b, cmp b a <> 0%Z <-> R a b = true.
Hypothesis Rtotal : forall a b, R a b = true \/ R b a = true.
Let eqv (v : Z) (x : nat * Z) := R v (snd x) && R (snd x) v.

Lemma merge_stable v : forall l1 l2, StronglySorted (fun x y => R (snd x) (snd y) = true) l1 ->
  StronglySorted (fun x y => R (snd x) (snd y) = true) l2 ->
  filter (eqv v) (merge cmp l1 l2) = filter (eqv v) l1 ++ filter (eqv v) l2.
Proof.
  induction l1 as [|x r1 IH1]; intros l2 S1 S2; [reflexivity|].
  induction l2 as [|y r2 IH2]; [rewrite merge_nil_r; cbn [filter]; now rewrite app_nil_r|].
  rewrite merge_cons. inversion S1 as [|? ? S1a S1b]; inversion S2 as [|? ? S2a S2b]; subst.
  destruct (cmp (snd y) (snd x) =? 0)%Z eqn:E; cbn [negb].
  - apply Z.eqb_eq in E.
    assert (X : R (snd x) (snd y) = false).
    { destruct (R (snd x) (snd y)) eqn:G; [|reflexivity]. apply cmp_R in G. congruence. }
    change (filter (eqv v) (y :: merge cmp (x :: r1) r2)) with
      (if eqv v y then y :: filter (eqv v) (merge cmp (x :: r1) r2) else filter (eqv v) (merge cmp (x :: r1) r2)).
    rewrite IH2 by assumption. change (filter (eqv v) (y :: r2)) with (if eqv v y then y :: filter (eqv v) r2 else filter (eqv v) r2).
    destruct (eqv v y) eqn:Y; [|reflexivity].
    assert (Z0 : filter (eqv v) (x :: r1) = []).
    { apply andb_true_iff in Y. destruct Y as [Y1 Y2].
      assert (G : forall z, R (snd x) (snd z) = true -> eqv v z = false).
      { intros z Hz. unfold eqv. destruct (R (snd z) v) eqn:G; [|apply andb_false_r].
        assert (R (snd x) (snd y) = true) by eauto. congruence. }
      assert (H1 : R (snd x) (snd x) = true) by (destruct (Rtotal (snd x) (snd x)); assumption).
      clear IH1 IH2 S1 S1a. cbn [filter]. rewrite (G x H1).
      induction r1 as [|z r1 IHr]; [reflexivity|]. inversion S1b; subst. cbn [filter]. rewrite (G z); auto. }
    rewrite Z0. reflexivity.
  - cbn [filter]. rewrite IH1 by assumption. cbn [filter]. destruct (eqv v x); reflexivity.
Qed.
Lemma msort_stable v l l' : msort cmp l l' -> filter (eqv v) l' = filter (eqv v) l.
Proof.
  induction 1 as [| |L Q L' Q' NL NQ H1 I1 H2 I2]; auto.
  assert (Y : forall a b, cmp b a <> 0%Z -> R a b = true) by (intros; now apply cmp_R).
  assert (NO : forall a b, cmp b a = 0%Z -> R b a = true).
  { intros a b E. destruct (Rtotal a b) as [G|G]; [apply cmp_R in G; congruence|exact G]. }
  rewrite merge_stable, filter_app, I1, I2; [reflexivity| |].
  - eapply (msort_sorted cmp (fun a b => R a b = true)); eauto.
  - eapply (msort_sorted cmp (fun a b => R a b = true)); eauto.
Qed.
End Stable.

(** nth, nthtail, free, reverse, pop, push *)
Lemma walk_ok m : forall l p k fuel, chain m p l -> length l < fuel -> (0 <= k)%Z ->
  exists q, walk fuel m p k = Ok q /\ chain m q (skipn (Z.to_nat k) l).
Proof.
  induction l as [|[a v] l IH]; intros p k fuel C F K; (destruct fuel as [|f]; [lia|]); cbn [walk].
  - cbn in C. subst. exists 0. rewrite skipn_nil. split; reflexivity.
  - rewrite (chain_nz _ _ _ _ _ C). pose proof C as C0. cbn in C. destruct C as (-> & Ha & t & E & C).
    destruct (k >? 0)%Z eqn:G.
    + rewrite (load_ok _ _ _ E). cbn [obind tail]. destruct (IH t (k-1)%Z f C) as (q & H1 & H2).
      * cbn in F. lia.
      * lia.
      * exists q. split; [exact H1|]. replace (Z.to_nat k) with (S (Z.to_nat (k - 1))) by lia. exact H2.
    + exists a. split; [reflexivity|]. replace (Z.to_nat k) with 0 by lia. exact C0.
Qed.

Lemma nth_ok m l p k fuel : chain m p l -> length l < fuel -> (0 <= k)%Z ->
  llist_nth fuel m p k = match nth_error (items l) (Z.to_nat k) with Some v => Ok v | None => Abort end.
Proof.
  intros C F K. destruct (walk_ok m l p k fuel C F K) as (q & H1 & H2). unfold llist_nth. rewrite H1. cbn [obind].
  unfold items. rewrite nth_error_map. destruct (nth_error l (Z.to_nat k)) as [[a v]|] eqn:E; cbn [option_map].
  - apply nth_error_split in E. destruct E as (u & w & -> & L). rewrite <- L in H2.
    rewrite skipn_app, Nat.sub_diag, skipn_all in H2. cbn [app skipn] in H2.
    rewrite (chain_nz _ _ _ _ _ H2). cbn in H2. destruct H2 as (-> & _ & t & E & _). cbn [negb guard obind].
    now rewrite (load_ok _ _ _ E).
  - apply nth_error_None in E. rewrite skipn_all2 in H2 by assumption. cbn in H2. now subst q.
Qed.
Lemma nthtail_ok m l p k fuel : chain m p l -> length l < fuel -> (0 <= k)%Z ->
  if (Z.to_nat k <? length l) then exists t, llist_nthtail fuel m p k = Ok t /\ chain m t (skipn (S (Z.to_nat k)) l)
  else llist_nthtail fuel m p k = Abort.
Proof.
  intros C F K. destruct (walk_ok m l p k fuel C F K) as (q & H1 & H2). unfold llist_nthtail. rewrite H1. cbn [obind].
  destruct (Nat.ltb_spec (Z.to_nat k) (length l)) as [L|L].
  - apply nth_error_Some in L. destruct (nth_error l (Z.to_nat k)) as [[a v]|] eqn:E; [|congruence].
    apply nth_error_split in E. destruct E as (u & w & -> & L'). rewrite <- L' in *.
    rewrite skipn_app, Nat.sub_diag, skipn_all in H2. cbn [app skipn] in H2.
    rewrite (chain_nz _ _ _ _ _ H2). cbn in H2. destruct H2 as (-> & _ & t & E & C'). cbn [negb guard obind].
    rewrite (load_ok _ _ _ E). cbn [obind tail]. exists t. split; [reflexivity|].
    rewrite skipn_app, skipn_all2 by lia. replace (S (length u) - length u) with 1 by lia. exact C'.
  - rewrite skipn_all2 in H2 by assumption. cbn in H2. now subst q.
Qed.

Lemma free_ok : forall l m p fuel, chain m p l -> NoDup (addrs l) -> length l < fuel ->
  exists m', llist_free fuel m p = Ok m' /\ (forall a, In a (addrs l) -> cells m' a = None) /\
    same_outside (addrs l) m m'.
Proof.
  induction l as [|[a v] l IH]; intros m p fuel C N F; (destruct fuel as [|f]; [lia|]); cbn [llist_free].
  - cbn in C. subst. exists m. repeat split; auto using so_refl. contradiction.
  - rewrite (chain_nz _ _ _ _ _ C). cbn in C. destruct C as (-> & Ha & t & E & C).
    rewrite (load_ok _ _ _ E). cbn [obind tail]. destruct (release_ok m a _ E) as (m1 & R1 & R2 & R3 & R4).
    rewrite R1. cbn [obind]. cbn in N. inversion N as [|x y N1 N2]; subst.
    destruct (IH m1 t f) as (m' & H1 & H2 & H3); auto.
    + apply (chain_frame m); auto. intros b Hb. apply R3. intros ->. auto.
    + cbn in F. lia.
    + exists m'. split; [exact H1|]. split.
      * intros b [<-|Hb]; [|auto]. cbn [fst]. rewrite H3; auto.
      * intros b Hb. cbn in Hb. rewrite H3 by tauto. apply R3. intros ->. tauto.
Qed.

Lemma cons_ok m v p l : wf m -> chain m p l -> exists m', llist_cons m v p = Ok (fresh m, m') /\
  chain m' (fresh m) ((fresh m, v) :: l) /\ ~ In (fresh m) (addrs l) /\ same_outside [fresh m] m m' /\ wf m' /\ fresh m' = S (fresh m).
Proof.
  intros W C. exists (snd (alloc m (mkpair v p))). split; [reflexivity|].
  assert (NI : ~ In (fresh m) (addrs l)).
  { intros H. destruct (chain_live _ _ _ _ C H) as (c & E). rewrite (wf_fresh _ W) in E. discriminate. }
  split; [|split; [exact NI|split; [|split; [exact (wf_alloc m _ W)|reflexivity]]]].
  - cbn [chain]. split; [reflexivity|]. split; [destruct W as (_ & W & _); lia|]. exists p. split; [apply alloc_same|].
    apply (chain_frame m); auto. intros a Ha. apply alloc_other. intros ->. auto.
  - intros a Ha. apply alloc_other. intros ->. apply Ha. now left.
Qed.

Lemma copyrev_ok : forall l m p q r fuel, wf m -> chain m p l -> chain m q r -> length l < fuel ->
  exists q' m' r', copyrev fuel m p q = Ok (q', m') /\ chain m' q' (r' ++ r) /\ items r' = rev (items l) /\
    (forall a, a < fresh m -> cells m' a = cells m a) /\ Forall (fun a => fresh m <= a) (addrs r') /\ NoDup (addrs r') /\
    (forall a, cells m a = None -> ~ In a (addrs r') -> cells m' a = None) /\ wf m'.
Proof.
  induction l as [|[a v] l IH]; intros m p q r fuel W Cp Cq F; (destruct fuel as [|f]; [lia|]); cbn [copyrev].
  - cbn in Cp. subst. exists q, m, []. split; [reflexivity|]. split; [exact Cq|]. split; [reflexivity|]. split; [reflexivity|].
    split; [constructor|]. split; [constructor|]. auto.
  - rewrite (chain_nz _ _ _ _ _ Cp). cbn in Cp. destruct Cp as (-> & Ha & t & E & C).
    rewrite (load_ok _ _ _ E). cbn [obind head]. destruct (cons_ok m v q r W Cq) as (m1 & X1 & X2 & X3 & X4 & X5 & X6).
    rewrite X1. cbn [obind]. destruct (wf_live _ _ _ W E) as [_ La].
    assert (E1 : cells m1 a = Some (mkpair v t)). { rewrite X4; [exact E|]. intros [H|[]]. lia. }
    rewrite (load_ok _ _ _ E1). cbn [obind tail].
    destruct (IH m1 t (fresh m) ((fresh m, v) :: r) f X5) as (q' & m' & r' & H1 & H2 & H3 & H4 & H5 & H6 & H7 & H8); auto.
    + apply (chain_frame m); auto. intros b Hb. apply X4. intros [<-|[]].
      destruct (chain_live _ _ _ _ C Hb) as (c & G). destruct (wf_live _ _ _ W G). lia.
    + cbn in F. lia.
    + exists q', m', (r' ++ [(fresh m, v)]). split; [exact H1|]. split; [now rewrite <- app_assoc|].
      rewrite X6 in H4, H5. split; [|split; [|split; [|split; [|split]]]].
      * unfold items in *. rewrite map_app, H3. reflexivity.
      * intros b Hb. rewrite H4 by lia. apply X4. intros [H|[]]. lia.
      * rewrite addrs_app. apply Forall_app. split; [eapply Forall_impl; [|exact H5]; cbn; lia|]. repeat constructor.
      * rewrite addrs_app. cbn. apply (Permutation_NoDup (Permutation_cons_append _ _)). constructor; [|exact H6].
        intros H. rewrite Forall_forall in H5. apply H5 in H. lia.
      * intros b Hb Hn. rewrite addrs_app, in_app_iff in Hn. cbn in Hn. apply H7; [|tauto]. rewrite X4; [exact Hb|].
        cbn. tauto.
      * exact H8.
Qed.
Lemma reverse_ok_heap l m p fuel : wf m -> chain m p l -> length l < fuel ->
  exists q m' r, llist_reverse fuel m p = Ok (q, m') /\ chain m' q r /\ items r = rev (items l) /\ chain m' p l /\
    (forall a, a < fresh m -> cells m' a = cells m a) /\ Forall (fun a => fresh m <= a) (addrs r) /\ NoDup (addrs r) /\ wf m'.
Proof.
  intros W C F. destruct (copyrev_ok l m p 0 [] fuel W C) as (q & m' & r & H1 & H2 & H3 & H4 & H5 & H6 & H7 & H8); auto.
  { reflexivity. }
  rewrite app_nil_r in H2. exists q, m', r. split; [exact H1|]. split; [exact H2|]. split; [exact H3|]. split; [|auto].
  apply (chain_frame m); auto. intros a Ha. apply H4. destruct (chain_live _ _ _ _ C Ha) as (c & E).
  now destruct (wf_live _ _ _ W E).
Qed.

Lemma pop_ok m p l : chain m p l -> NoDup (addrs l) ->
  match l with
  | [] => llist_pop m p = Ok (0%Z, 0, m)
  | (a, v) :: r => exists q m', llist_pop m p = Ok (v, q, m') /\ chain m' q r /\ cells m' a = None /\ same_outside [a] m m'
  end.
Proof.
  destruct l as [|[a v] r]; intros C N.
  - cbn in C. subst. reflexivity.
  - unfold llist_pop, llist_ppop. rewrite (chain_nz _ _ _ _ _ C). cbn in C. destruct C as (-> & Ha & t & E & C).
    rewrite (load_ok _ _ _ E). cbn [obind tail]. apply Nat.eqb_neq in Ha. rewrite Ha.
    rewrite (load_ok _ _ _ E). cbn [obind head]. destruct (release_ok m a _ E) as (m1 & R1 & R2 & R3 & R4).
    rewrite R1. cbn [obind]. exists t, m1. split; [reflexivity|]. cbn in N. inversion N as [|x y N1 N2]; subst.
    split; [|split; [exact R2|]].
    + apply (chain_frame m); auto. intros b Hb. apply R3. intros ->. auto.
    + intros b Hb. apply R3. intros ->. apply Hb. now left.
Qed.
