(** Rings and the correctness of zt_list.h / zt_stack.h / zt_queue.h. *)
From Verif Require Import Prelude Heap ElistModel.
From Coq Require Import Permutation.

Definition nx (m : lmem) a := option_map next (cells m a).
Definition pv (m : lmem) a := option_map prev (cells m a).
(** consecutive elements of s are linked both ways *)
Fixpoint links (m : lmem) (s : list nat) : Prop :=
  match s with
  | x :: ((y :: _) as r) => nx m x = Some y /\ pv m y = Some x /\ links m r
  | _ => True
  end.
(** the ring with head h and elements l (in [next] order) *)
Definition ring (m : lmem) (h : nat) (l : list nat) : Prop := NoDup (h :: l) /\ links m (h :: l ++ [h]).

Lemma links_app m : forall A x B, links m (A ++ x :: B) <-> links m (A ++ [x]) /\ links m (x :: B).
Proof.
  induction A as [|a A IH]; intros x B.
  - cbn [app]. split; [intros H; split; [exact I|exact H]|tauto].
  - destruct A as [|a' A].
    + cbn [app]. change (links m (a :: x :: B)) with (nx m a = Some x /\ pv m x = Some a /\ links m (x :: B)).
      change (links m [a; x]) with (nx m a = Some x /\ pv m x = Some a /\ True). tauto.
    + specialize (IH x B). cbn [app] in *.
      change (links m (a :: a' :: A ++ x :: B)) with (nx m a = Some a' /\ pv m a' = Some a /\ links m (a' :: A ++ x :: B)).
      change (links m (a :: a' :: A ++ [x])) with (nx m a = Some a' /\ pv m a' = Some a /\ links m (a' :: A ++ [x])). tauto.
Qed.

Lemma links_frame m m' s : links m s -> (forall z, In z (removelast s) -> nx m' z = nx m z) ->
  (forall z, In z (tl s) -> pv m' z = pv m z) -> links m' s.
Proof.
  induction s as [|x s IH]; intros H N P; [exact I|]. destruct s as [|y s]; [exact I|].
  destruct H as (H1 & H2 & H3). split; [|split].
  - rewrite N; [exact H1|]. now left.
  - rewrite P; [exact H2|]. now left.
  - apply IH; [exact H3| |].
    + intros z Hz. apply N. cbn [removelast]. right. exact Hz.
    + intros z Hz. apply P. right. exact Hz.
Qed.

Lemma set_next_ok m p v c : cells m p = Some c ->
  exists m', set_next m p v = Ok m' /\ fresh m' = fresh m /\ cells m' p = Some (mklink (prev c) v) /\
    (forall a, a <> p -> cells m' a = cells m a).
Proof.
  intros E. unfold set_next. rewrite (load_ok _ _ _ E). cbn [obind]. rewrite (store_ok _ _ _ _ E). eexists.
  split; [reflexivity|]. split; [reflexivity|]. split; [apply hupd_same|]. intros a Ha. now apply hupd_other.
Qed.
Lemma set_prev_ok m p v c : cells m p = Some c ->
  exists m', set_prev m p v = Ok m' /\ fresh m' = fresh m /\ cells m' p = Some (mklink v (next c)) /\
    (forall a, a <> p -> cells m' a = cells m a).
Proof.
  intros E. unfold set_prev. rewrite (load_ok _ _ _ E). cbn [obind]. rewrite (store_ok _ _ _ _ E). eexists.
  split; [reflexivity|]. split; [reflexivity|]. split; [apply hupd_same|]. intros a Ha. now apply hupd_other.
Qed.

(** the effect of the two assignments on the two "views" of memory *)
Definition live (m : lmem) a := exists c, cells m a = Some c.
Lemma set_next_view m p v : live m p -> exists m', set_next m p v = Ok m' /\ fresh m' = fresh m /\
  (forall a, live m' a <-> live m a) /\ (forall a, pv m' a = pv m a) /\
  (forall a, nx m' a = if Nat.eqb a p then Some v else nx m a) /\ (forall a, a <> p -> cells m' a = cells m a).
Proof.
  intros (c & E). destruct (set_next_ok m p v c E) as (m' & H1 & H2 & H3 & H4). exists m'. split; [exact H1|].
  split; [exact H2|]. split; [|split; [|split; [|exact H4]]]; intros a; unfold live, pv, nx;
    destruct (Nat.eq_dec a p) as [->|N]; rewrite ?H3, ?E, ?Nat.eqb_refl; cbn; try reflexivity.
  - split; eauto.
  - now rewrite H4.
  - now rewrite H4.
  - rewrite H4 by assumption. apply Nat.eqb_neq in N. now rewrite N.
Qed.
Lemma set_prev_view m p v : live m p -> exists m', set_prev m p v = Ok m' /\ fresh m' = fresh m /\
  (forall a, live m' a <-> live m a) /\ (forall a, nx m' a = nx m a) /\
  (forall a, pv m' a = if Nat.eqb a p then Some v else pv m a) /\ (forall a, a <> p -> cells m' a = cells m a).
Proof.
  intros (c & E). destruct (set_prev_ok m p v c E) as (m' & H1 & H2 & H3 & H4). exists m'. split; [exact H1|].
  split; [exact H2|]. split; [|split; [|split; [|exact H4]]]; intros a; unfold live, pv, nx;
    destruct (Nat.eq_dec a p) as [->|N]; rewrite ?H3, ?E, ?Nat.eqb_refl; cbn; try reflexivity.
  - split; eauto.
  - now rewrite H4.
  - now rewrite H4.
  - rewrite H4 by assumption. apply Nat.eqb_neq in N. now rewrite N.
Qed.
Lemma get_next_ok m p v : nx m p = Some v -> get_next m p = Ok v.
Proof. unfold nx, get_next, load. destruct (cells m p); cbn; congruence. Qed.
Lemma get_prev_ok m p v : pv m p = Some v -> get_prev m p = Ok v.
Proof. unfold pv, get_prev, load. destruct (cells m p); cbn; congruence. Qed.
Lemma nx_live m p v : nx m p = Some v -> live m p.
Proof. unfold nx, live. destruct (cells m p); cbn; [eauto|discriminate]. Qed.
Lemma pv_live m p v : pv m p = Some v -> live m p.
Proof. unfold pv, live. destruct (cells m p); cbn; [eauto|discriminate]. Qed.

(** remove2 / add2 as view updates *)
Lemma remove2_view m p n : live m p -> live m n -> exists m', elist_remove2 m p n = Ok m' /\ fresh m' = fresh m /\
  (forall a, live m' a <-> live m a) /\
  (forall a, nx m' a = if Nat.eqb a p then Some n else nx m a) /\
  (forall a, pv m' a = if Nat.eqb a n then Some p else pv m a) /\
  (forall a, a <> p -> a <> n -> cells m' a = cells m a).
Proof.
  intros Lp Ln. unfold elist_remove2. destruct (set_prev_view m n p Ln) as (m1 & A1 & A2 & A3 & A4 & A5 & A6).
  rewrite A1. cbn [obind]. apply (A3 p) in Lp. destruct (set_next_view m1 p n Lp) as (m2 & B1 & B2 & B3 & B4 & B5 & B6).
  exists m2. split; [exact B1|]. split; [congruence|]. split; [intros a; rewrite B3; apply A3|]. repeat split; intros.
  - rewrite B5, A4. reflexivity.
  - rewrite B4. apply A5.
  - rewrite B6, A6; auto.
Qed.
Lemma add2_view m e p n : live m e -> live m p -> live m n -> e <> p -> e <> n ->
  exists m', elist_add2 m e p n = Ok m' /\ fresh m' = fresh m /\
  (forall a, live m' a <-> live m a) /\
  (forall a, nx m' a = if Nat.eqb a p then Some e else if Nat.eqb a e then Some n else nx m a) /\
  (forall a, pv m' a = if Nat.eqb a e then Some p else if Nat.eqb a n then Some e else pv m a) /\
  (forall a, a <> e -> a <> p -> a <> n -> cells m' a = cells m a).
Proof.
  intros Le Lp Ln N1 N2. unfold elist_add2.
  destruct (set_prev_view m n e Ln) as (m1 & A1 & A2 & A3 & A4 & A5 & A6). rewrite A1. cbn [obind].
  apply (A3 e) in Le. apply (A3 p) in Lp.
  destruct (set_next_view m1 e n Le) as (m2 & B1 & B2 & B3 & B4 & B5 & B6). rewrite B1. cbn [obind].
  apply (B3 e) in Le. apply (B3 p) in Lp.
  destruct (set_prev_view m2 e p Le) as (m3 & C1 & C2 & C3 & C4 & C5 & C6). rewrite C1. cbn [obind].
  apply (C3 p) in Lp.
  destruct (set_next_view m3 p e Lp) as (m4 & D1 & D2 & D3 & D4 & D5 & D6).
  exists m4. split; [exact D1|]. split; [congruence|]. split; [intros a; rewrite D3, C3, B3; apply A3|]. repeat split; intros.
  - rewrite D5, C4, B5, A4. reflexivity.
  - rewrite D4, C5, B4, A5. reflexivity.
  - rewrite D6, C6, B6, A6; auto.
Qed.

(** splicing: replace the middle of a doubly linked run *)
Lemma in_removelast {A} (z : A) l : In z (removelast l) -> In z l.
Proof.
  induction l as [|x l IH]; cbn; [auto|]. destruct l; [cbn; tauto|]. intros [->|H]; [now left|right; auto].
Qed.
Lemma removelast_snoc {A} (l : list A) x : removelast (l ++ [x]) = l.
Proof. rewrite removelast_app by discriminate. cbn. apply app_nil_r. Qed.

Lemma run_end {A} (x : A) l : exists B y, x :: l = B ++ [y].
Proof. destruct (exists_last (l := x :: l)) as (B & y & E); [discriminate|]. eauto. Qed.

Lemma NoDup_mid {A} (l1 : list A) a l2 : NoDup (l1 ++ a :: l2) <-> NoDup (l1 ++ l2) /\ ~ In a (l1 ++ l2).
Proof.
  split.
  - intros H. split; [eapply NoDup_remove_1; eauto|eapply NoDup_remove_2; eauto].
  - intros [H1 H2]. apply (Permutation_NoDup (Permutation_middle l1 l2 a)). now constructor.
Qed.

(** remove an element *)
Lemma ring_remove m h l1 e l2 : ring m h (l1 ++ e :: l2) ->
  exists m', elist_remove m e = Ok m' /\ ring m' h (l1 ++ l2) /\ fresh m' = fresh m /\
    (forall a, live m' a <-> live m a) /\ (forall a, ~ In a (h :: l1 ++ l2) -> cells m' a = cells m a).
Proof.
  intros [N L].
  destruct (run_end h l1) as (A & p & EA).
  destruct (l2 ++ [h]) as [|n B] eqn:EB; [destruct l2; discriminate|].
  assert (ES : h :: (l1 ++ e :: l2) ++ [h] = A ++ p :: e :: n :: B).
  { rewrite <- app_assoc. cbn [app]. rewrite EB. change (h :: l1 ++ e :: n :: B) with ((h :: l1) ++ e :: n :: B). rewrite EA.
    now rewrite <- app_assoc. }
  rewrite ES in L. apply links_app in L. destruct L as [LA (L1 & L2 & L3 & L4 & LB)].
  destruct (remove2_view m p n (nx_live _ _ _ L1) (pv_live _ _ _ L4)) as (m' & R1 & R2 & R3 & R4 & R5 & R6).
  exists m'. unfold elist_remove. rewrite (get_prev_ok _ _ _ L2). cbn [obind]. rewrite (get_next_ok _ _ _ L3). cbn [obind].
  split; [exact R1|].
  assert (N' : NoDup (h :: l1 ++ l2)).
  { change (h :: l1 ++ e :: l2) with ((h :: l1) ++ e :: l2) in N. apply NoDup_mid in N. apply N. }
  assert (Ip : In p (h :: l1)) by (rewrite EA; apply in_app_iff; cbn; auto).
  assert (In_ : In n (l2 ++ [h])) by (rewrite EB; cbn; auto).
  split; [split; [exact N'|]|].
  - replace (h :: (l1 ++ l2) ++ [h]) with (A ++ p :: n :: B).
    2: { rewrite <- app_assoc, EB. change (h :: l1 ++ n :: B) with ((h :: l1) ++ n :: B). rewrite EA. now rewrite <- app_assoc. }
    assert (NA : NoDup (A ++ [p])) by (rewrite <- EA; apply (NoDup_mid [] h) in N'; cbn in N';
       change (h :: l1 ++ l2) with ((h :: l1) ++ l2) in *; destruct N' as [N1 N2];
       constructor; [intros X; apply N2; rewrite in_app_iff; auto|];
       clear - N1; induction l1; cbn in *; [constructor|]; inversion N1; subst; constructor; auto; rewrite in_app_iff in *; tauto).
    assert (Nt : NoDup (l1 ++ l2 ++ [h])).
    { rewrite app_assoc. apply NoDup_mid. rewrite app_nil_r. apply (NoDup_mid [] h) in N'. cbn in N'. tauto. }
    apply links_app. split; [|split; [|split]].
    + apply (links_frame m); auto.
      * intros z Hz. rewrite removelast_snoc in Hz. rewrite R4. destruct (Nat.eqb_spec z p); [|reflexivity]. subst.
        exfalso. apply NoDup_mid in NA. rewrite app_nil_r in NA. tauto.
      * intros z Hz. rewrite R5. destruct (Nat.eqb_spec z n); [|reflexivity]. subst. exfalso.
        rewrite <- EA in Hz. cbn [tl] in Hz. rewrite EB in Nt. apply NoDup_mid in Nt. apply (proj2 Nt). rewrite in_app_iff. auto.
    + rewrite R4, Nat.eqb_refl. reflexivity.
    + rewrite R5, Nat.eqb_refl. reflexivity.
    + apply (links_frame m); auto.
      * intros z Hz. rewrite R4. destruct (Nat.eqb_spec z p); [|reflexivity]. subst. exfalso.
        rewrite <- EB in Hz. rewrite removelast_snoc in Hz.
        change (h :: l1 ++ l2) with ((h :: l1) ++ l2) in N'. rewrite EA, <- app_assoc in N'. cbn [app] in N'. apply NoDup_mid in N'.
        apply (proj2 N'). rewrite in_app_iff. auto.
      * intros z Hz. cbn [tl] in Hz. rewrite R5. destruct (Nat.eqb_spec z n); [|reflexivity]. subst. exfalso.
        rewrite EB in Nt. apply NoDup_mid in Nt. apply (proj2 Nt). rewrite in_app_iff. auto.
  - split; [exact R2|]. split; [exact R3|]. intros a Ha. apply R6; intros ->; apply Ha.
    + cbn in Ip |- *. rewrite in_app_iff. tauto.
    + rewrite in_app_iff in In_. cbn in In_ |- *. rewrite in_app_iff. tauto.
Qed.

(** insert between two neighbours *)
Lemma ring_add2 m h l1 l2 e A p n B : ring m h (l1 ++ l2) -> live m e -> ~ In e (h :: l1 ++ l2) ->
  h :: l1 = A ++ [p] -> l2 ++ [h] = n :: B ->
  exists m', elist_add2 m e p n = Ok m' /\ ring m' h (l1 ++ e :: l2) /\ fresh m' = fresh m /\
    (forall a, live m' a <-> live m a) /\ (forall a, ~ In a (h :: l1 ++ e :: l2) -> cells m' a = cells m a).
Proof.
  intros [N L] Le Ne EA EB.
  assert (Ip : In p (h :: l1)) by (rewrite EA; apply in_app_iff; cbn; auto).
  assert (In_ : In n (l2 ++ [h])) by (rewrite EB; cbn; auto).
  assert (ES : h :: (l1 ++ l2) ++ [h] = A ++ p :: n :: B).
  { rewrite <- app_assoc, EB. change (h :: l1 ++ n :: B) with ((h :: l1) ++ n :: B). rewrite EA. now rewrite <- app_assoc. }
  rewrite ES in L. apply links_app in L. destruct L as [LA (L1 & L2 & LB)].
  assert (D1 : e <> p). { intros ->. apply Ne. cbn in Ip |- *. rewrite in_app_iff. tauto. }
  assert (D2 : e <> n). { intros ->. apply Ne. rewrite in_app_iff in In_. cbn in In_ |- *. rewrite in_app_iff. tauto. }
  destruct (add2_view m e p n Le (nx_live _ _ _ L1) (pv_live _ _ _ L2) D1 D2) as (m' & R1 & R2 & R3 & R4 & R5 & R6).
  exists m'. split; [exact R1|]. split; [split|].
  - change (h :: l1 ++ e :: l2) with ((h :: l1) ++ e :: l2). apply NoDup_mid. split; [exact N|exact Ne].
  - replace (h :: (l1 ++ e :: l2) ++ [h]) with (A ++ p :: e :: n :: B).
    2: { rewrite <- app_assoc. cbn [app]. rewrite EB. change (h :: l1 ++ e :: n :: B) with ((h :: l1) ++ e :: n :: B). rewrite EA.
         now rewrite <- app_assoc. }
    assert (Nt : NoDup (l1 ++ l2 ++ [h])).
    { rewrite app_assoc. apply NoDup_mid. rewrite app_nil_r. apply (NoDup_mid [] h) in N. cbn in N. tauto. }
    change (h :: l1 ++ l2) with ((h :: l1) ++ l2) in N. rewrite EA, <- app_assoc in N. cbn [app] in N.
    apply NoDup_mid in N. destruct N as [N1 N2].
    assert (Nn : ~ In n (l1 ++ B)). { rewrite EB in Nt. apply NoDup_mid in Nt. apply Nt. }
    apply links_app. split; [|split; [|split; [|split; [|split]]]].
    + apply (links_frame m); auto.
      * intros z Hz. rewrite removelast_snoc in Hz. rewrite R4. destruct (Nat.eqb_spec z p).
        { subst. exfalso. apply N2. rewrite in_app_iff. auto. }
        destruct (Nat.eqb_spec z e); [|reflexivity]. subst. exfalso. apply Ne.
        change (h :: l1 ++ l2) with ((h :: l1) ++ l2). rewrite EA. rewrite !in_app_iff. auto.
      * intros z Hz. rewrite <- EA in Hz. cbn [tl] in Hz. rewrite R5. destruct (Nat.eqb_spec z e).
        { subst. exfalso. apply Ne. cbn. rewrite in_app_iff. auto. }
        destruct (Nat.eqb_spec z n); [|reflexivity]. subst. exfalso. apply Nn. rewrite in_app_iff. auto.
    + rewrite R4, Nat.eqb_refl. reflexivity.
    + rewrite R5, Nat.eqb_refl. reflexivity.
    + rewrite R4. apply Nat.eqb_neq in D1. now rewrite D1, Nat.eqb_refl.
    + rewrite R5. destruct (Nat.eqb_spec n e); [congruence|]. now rewrite Nat.eqb_refl.
    + apply (links_frame m); auto.
      * intros z Hz. rewrite <- EB, removelast_snoc in Hz. rewrite R4. destruct (Nat.eqb_spec z p).
        { subst. exfalso. apply N2. rewrite in_app_iff. auto. }
        destruct (Nat.eqb_spec z e); [|reflexivity]. subst. exfalso. apply Ne. cbn. rewrite in_app_iff. auto.
      * intros z Hz. cbn [tl] in Hz. rewrite R5. destruct (Nat.eqb_spec z e).
        { subst. exfalso. assert (X : In e (n :: B)) by (now right). rewrite <- EB, in_app_iff in X. apply Ne. cbn in X |- *.
          rewrite in_app_iff. tauto. }
        destruct (Nat.eqb_spec z n); [|reflexivity]. subst. exfalso. apply Nn. rewrite in_app_iff. auto.
  - split; [exact R2|]. split; [exact R3|]. intros a Ha. apply R6; intros ->; apply Ha; cbn in *; rewrite ?in_app_iff in *; cbn in *; tauto.
Qed.

Lemma ring_next m h l : ring m h l -> nx m h = Some (hd h l).
Proof. intros [_ L]. destruct l; cbn in *; tauto. Qed.
Lemma ring_prev m h l : ring m h l -> pv m h = Some (last l h).
Proof.
  intros [_ L]. destruct (run_end h l) as (A & y & E).
  assert (E2 : h :: l ++ [h] = A ++ y :: [h]).
  { change (h :: l ++ [h]) with ((h :: l) ++ [h]). rewrite E. now rewrite <- app_assoc. }
  rewrite E2 in L. apply links_app in L. destruct L as (_ & _ & L & _). rewrite L. f_equal.
  destruct l as [|x l]; [destruct A as [|? [|? ?]]; cbn in E |- *; congruence|].
  replace (last (x :: l) h) with (last (h :: x :: l) h) by reflexivity. rewrite E. now rewrite last_last.
Qed.

Lemma add_ok m h l e : ring m h l -> live m e -> ~ In e (h :: l) ->
  exists m', elist_add m h e = Ok m' /\ ring m' h (e :: l) /\ fresh m' = fresh m /\
    (forall a, live m' a <-> live m a) /\ (forall a, ~ In a (h :: e :: l) -> cells m' a = cells m a).
Proof.
  intros R Le Ne. unfold elist_add. rewrite (get_next_ok _ _ _ (ring_next _ _ _ R)). cbn [obind].
  destruct (l ++ [h]) as [|n B] eqn:EB; [destruct l; discriminate|].
  assert (n = hd h l) by (destruct l; cbn in *; congruence). subst n.
  exact (ring_add2 m h [] l e [] h (hd h l) B R Le Ne eq_refl EB).
Qed.
Lemma add_tail_ok m h l e : ring m h l -> live m e -> ~ In e (h :: l) ->
  exists m', elist_add_tail m h e = Ok m' /\ ring m' h (l ++ [e]) /\ fresh m' = fresh m /\
    (forall a, live m' a <-> live m a) /\ (forall a, ~ In a (h :: l ++ [e]) -> cells m' a = cells m a).
Proof.
  intros R Le Ne. unfold elist_add_tail. rewrite (get_prev_ok _ _ _ (ring_prev _ _ _ R)). cbn [obind].
  destruct (run_end h l) as (A & p & EA).
  assert (p = last l h).
  { destruct l as [|x l]; [destruct A as [|? [|? ?]]; cbn in EA |- *; congruence|].
    replace (last (x :: l) h) with (last (h :: x :: l) h) by reflexivity. rewrite EA. now rewrite last_last. }
  subst p. apply (ring_add2 m h l [] e A (last l h) h []); auto; now rewrite app_nil_r.
Qed.
Lemma reset_ok m h : live m h -> exists m', elist_reset m h = Ok m' /\ ring m' h [] /\ fresh m' = fresh m /\
  (forall a, live m' a <-> live m a) /\ (forall a, a <> h -> cells m' a = cells m a).
Proof.
  intros L. unfold elist_reset. destruct (set_prev_view m h h L) as (m1 & A1 & A2 & A3 & A4 & A5 & A6). rewrite A1. cbn [obind].
  apply (A3 h) in L. destruct (set_next_view m1 h h L) as (m2 & B1 & B2 & B3 & B4 & B5 & B6).
  exists m2. split; [exact B1|]. split; [split|].
  - repeat constructor. auto.
  - cbn. rewrite B5, B4, A5, Nat.eqb_refl. auto.
  - split; [congruence|]. split; [intros; rewrite B3; apply A3|]. intros a Ha. rewrite B6, A6; auto.
Qed.
Lemma empty_ok m h l : ring m h l -> elist_empty m h = Ok (match l with [] => true | _ => false end).
Proof.
  intros R. unfold elist_empty. rewrite (get_next_ok _ _ _ (ring_next _ _ _ R)). cbn [obind].
  destruct l as [|x l]; cbn [hd]; [now rewrite Nat.eqb_refl|]. destruct R as [N _].
  inversion N as [|? ? N1 _]; subst. destruct (Nat.eqb_spec x h); [|reflexivity]. subst. exfalso. apply N1. now left.
Qed.

Lemma links_live m : forall s, links m s -> (2 <= length s) -> forall a, In a s -> live m a.
Proof.
  induction s as [|x s IH]; intros H L a Ha; [destruct Ha|]. destruct s as [|y s]; [cbn in L; lia|].
  destruct H as (H1 & H2 & H3). destruct Ha as [<-|Ha]; [eapply nx_live; eauto|].
  destruct Ha as [<-|Ha]; [eapply pv_live; eauto|]. destruct s as [|z s]; [destruct Ha|]. apply IH; auto; cbn; auto. lia.
Qed.
Lemma ring_live m h l a : ring m h l -> In a (h :: l) -> live m a.
Proof.
  intros [_ L] Ha. apply (links_live m _ L).
  - cbn. rewrite app_length. cbn. lia.
  - cbn in *. rewrite in_app_iff. tauto.
Qed.

(** the ring, seen only through the cells of its members *)
Lemma ring_frame m m' h l : ring m h l -> (forall a, In a (h :: l) -> cells m' a = cells m a) -> ring m' h l.
Proof.
  intros [N L] F. split; [exact N|]. apply (links_frame m); auto; intros z Hz; unfold nx, pv; rewrite F; auto.
  - change (h :: l ++ [h]) with ((h :: l) ++ [h]) in Hz. now rewrite removelast_snoc in Hz.
  - cbn in Hz |- *. rewrite in_app_iff in Hz. cbn in Hz. tauto.
Qed.

(** join *)
Lemma join_ok m h l g k : ring m h l -> ring m g k -> k <> [] -> (forall a, In a (h :: l) -> ~ In a (g :: k)) ->
  exists m', elist_join m h g = Ok m' /\ ring m' h (k ++ l) /\ fresh m' = fresh m /\
    (forall a, live m' a <-> live m a) /\ (forall a, ~ In a (h :: l ++ k) -> cells m' a = cells m a).
Proof.
  intros R G K D. unfold elist_join. rewrite (get_next_ok _ _ _ (ring_next _ _ _ G)). cbn [obind].
  rewrite (get_prev_ok _ _ _ (ring_prev _ _ _ G)). cbn [obind]. rewrite (get_next_ok _ _ _ (ring_next _ _ _ R)). cbn [obind].
  destruct k as [|f k0] eqn:Ek; [congruence|]. rewrite <- Ek in *. clear K.
  destruct (exists_last (l := k)) as (kB & t & Ekt); [rewrite Ek; discriminate|].
  assert (Hf : hd g k = f) by now rewrite Ek. assert (Ht : last k g = t) by (rewrite Ekt; apply last_last).
  rewrite Hf, Ht. set (a := hd h l).
  assert (Ha : In a (h :: l)) by (subst a; destruct l; cbn; auto).
  assert (Ifk : In f k) by (rewrite Ek; now left). assert (Itk : In t k) by (rewrite Ekt; apply in_app_iff; cbn; auto).
  assert (Lf : live m f) by (apply (ring_live m g k); [exact G|now right]).
  assert (Lt : live m t) by (apply (ring_live m g k); [exact G|now right]).
  assert (Lh : live m h) by (apply (ring_live m h l); [exact R|now left]).
  assert (La : live m a) by (apply (ring_live m h l); assumption).
  destruct (set_prev_view m f h Lf) as (m1 & A1 & A2 & A3 & A4 & A5 & A6). rewrite A1. cbn [obind].
  apply (A3 h) in Lh. destruct (set_next_view m1 h f Lh) as (m2 & B1 & B2 & B3 & B4 & B5 & B6). rewrite B1. cbn [obind].
  apply (A3 t) in Lt. apply (B3 t) in Lt. destruct (set_next_view m2 t a Lt) as (m3 & C1 & C2 & C3 & C4 & C5 & C6). rewrite C1. cbn [obind].
  apply (A3 a) in La. apply (B3 a) in La. apply (C3 a) in La.
  destruct (set_prev_view m3 a t La) as (m4 & D1 & D2 & D3 & D4 & D5 & D6).
  exists m4. split; [exact D1|].
  assert (NX : forall z, nx m4 z = if Nat.eqb z t then Some a else if Nat.eqb z h then Some f else nx m z).
  { intros z. rewrite D4, C5, B5, A4. reflexivity. }
  assert (PV : forall z, pv m4 z = if Nat.eqb z a then Some t else if Nat.eqb z f then Some h else pv m z).
  { intros z. rewrite D5, C4, B4, A5. reflexivity. }
  destruct R as [NR LR]. destruct G as [NG LG].
  inversion NR as [|? ? NR1 NR2]; subst x l0. inversion NG as [|? ? NG1 NG2]; subst x l0.
  assert (DD : forall z, In z k -> ~ In z (h :: l)). { intros z Hz Hy. apply (D z Hy). now right. }
  split; [split|].
  - constructor.
    + rewrite in_app_iff. intros [H|H]; [|tauto]. apply (DD h H). now left.
    + clear - NR2 NG2 DD. induction k as [|z k IH]; [exact NR2|]. inversion NG2; subst. cbn [app]. constructor.
      * rewrite in_app_iff. intros [X|X]; [tauto|]. apply (DD z); [now left|now right].
      * apply IH; auto. intros y Hy. apply DD. now right.
  - destruct (l ++ [h]) as [|n B] eqn:EB; [destruct l; discriminate|].
    assert (n = a) by (subst a; destruct l; cbn in *; congruence). subst n.
    assert (E1 : h :: (k ++ l) ++ [h] = (h :: k) ++ a :: B) by (cbn [app]; rewrite <- app_assoc, EB; reflexivity).
    rewrite E1, Ekt. replace ((h :: kB ++ [t]) ++ a :: B) with ((h :: kB) ++ t :: a :: B) by (cbn; now rewrite <- app_assoc).
    apply links_app. split; [|split; [|split]].
    + replace ((h :: kB) ++ [t]) with (h :: k) by now rewrite Ekt. rewrite Ek.
      assert (Lk : links m k).
      { assert (E2 : g :: k ++ [g] = (g :: kB) ++ t :: [g]) by (rewrite Ekt; cbn; now rewrite <- app_assoc).
        rewrite E2 in LG. apply links_app in LG. destruct LG as [LG _]. 
        replace ((g :: kB) ++ [t]) with (g :: k) in LG by now rewrite Ekt. rewrite Ek in LG. destruct LG as (_ & _ & LG).
        rewrite Ek. exact LG. }
      split; [|split].
      * rewrite NX. destruct (Nat.eqb_spec h t) as [Q|Q]; [exfalso; apply (DD t Itk); left; exact Q|]. now rewrite Nat.eqb_refl.
      * rewrite PV. destruct (Nat.eqb_spec f a) as [Q|Q]; [exfalso; apply (DD f Ifk); rewrite Q; exact Ha|]. now rewrite Nat.eqb_refl.
      * rewrite Ek in Lk. apply (links_frame m); auto; rewrite <- Ek.
        { intros z Hz. rewrite NX. rewrite Ekt, removelast_snoc in Hz. destruct (Nat.eqb_spec z t).
          { subst z. exfalso. rewrite Ekt in NG2. apply NoDup_mid in NG2. rewrite app_nil_r in NG2. tauto. }
          destruct (Nat.eqb_spec z h); [|reflexivity]. subst z. exfalso. apply (DD h); [rewrite Ekt; apply in_app_iff; auto|now left]. }
        { intros z Hz. rewrite PV. rewrite Ek in Hz. cbn [tl] in Hz.
          destruct (Nat.eqb_spec z a); [subst z; exfalso; apply (DD a); [rewrite Ek; now right|exact Ha]|].
          destruct (Nat.eqb_spec z f); [|reflexivity]. subst z. exfalso. rewrite Ek in NG2. inversion NG2. tauto. }
    + rewrite NX, Nat.eqb_refl. reflexivity.
    + rewrite PV, Nat.eqb_refl. reflexivity.
    + assert (LaB : links m (a :: B)). { apply LR. }
      apply (links_frame m); auto.
      * intros z Hz. rewrite <- EB, removelast_snoc in Hz. rewrite NX.
        destruct (Nat.eqb_spec z t); [subst z; exfalso; apply (DD t Itk); now right|].
        destruct (Nat.eqb_spec z h); [subst z; tauto|reflexivity].
      * intros z Hz. cbn [tl] in Hz. rewrite PV.
        assert (Nt : NoDup (a :: B)). { rewrite <- EB. apply NoDup_mid. now rewrite app_nil_r. }
        inversion Nt as [|? ? Nt1 Nt2]; subst x l0.
        destruct (Nat.eqb_spec z a); [subst z; tauto|].
        destruct (Nat.eqb_spec z f); [|reflexivity]. subst z. exfalso. apply (DD f Ifk).
        assert (X : In f (a :: B)) by now right. rewrite <- EB, in_app_iff in X. cbn in X |- *. tauto.
  - split; [congruence|]. split; [intros z; rewrite D3, C3, B3; apply A3|].
    intros z Hz. assert (z <> h) by (intros ->; apply Hz; now left).
    assert (z <> f /\ z <> t) as [? ?].
    { split; intros ->; apply Hz; right; apply in_app_iff; auto. }
    assert (z <> a). { intros ->. apply Hz. cbn in Ha |- *. rewrite in_app_iff. tauto. }
    rewrite D6, C6, B6, A6; auto.
Qed.

(** joining an empty list does not leave the ring alone: the empty list's head becomes an element *)
Lemma join_empty m h l g : ring m h l -> ring m g [] -> ~ In g (h :: l) ->
  exists m', elist_join m h g = Ok m' /\ ring m' h (g :: l).
Proof.
  intros R G Ng. pose proof (ring_live m g [] g G (or_introl eq_refl)) as Lg.
  pose proof (ring_live m h l h R (or_introl eq_refl)) as Lh.
  destruct (add_ok m h l g R Lg Ng) as (m'' & E & R'' & _).
  unfold elist_add in E. unfold elist_join. rewrite (get_next_ok _ _ _ (ring_next _ _ _ G)), (get_prev_ok _ _ _ (ring_prev _ _ _ G)).
  rewrite (get_next_ok _ _ _ (ring_next _ _ _ R)) in *. cbn [obind hd last] in *.
  set (a := hd h l) in *. assert (Ha : In a (h :: l)) by (subst a; destruct l; cbn; auto).
  pose proof (ring_live m h l a R Ha) as La.
  assert (D1 : g <> h) by (intros ->; apply Ng; now left). assert (D2 : g <> a) by (intros ->; auto).
  destruct (add2_view m g h a Lg Lh La D1 D2) as (mx & X1 & _ & _ & X4 & X5 & _).
  assert (mx = m'') by congruence. subst mx.
  destruct (set_prev_view m g h Lg) as (m1 & A1 & A2 & A3 & A4 & A5 & A6). rewrite A1. cbn [obind].
  apply (A3 h) in Lh. destruct (set_next_view m1 h g Lh) as (m2 & B1 & B2 & B3 & B4 & B5 & B6). rewrite B1. cbn [obind].
  apply (A3 g) in Lg. apply (B3 g) in Lg. destruct (set_next_view m2 g a Lg) as (m3 & C1 & C2 & C3 & C4 & C5 & C6). rewrite C1. cbn [obind].
  apply (A3 a) in La. apply (B3 a) in La. apply (C3 a) in La.
  destruct (set_prev_view m3 a g La) as (m4 & D1' & D2' & D3 & D4 & D5 & D6).
  exists m4. split; [exact D1'|]. destruct R'' as [N L]. split; [exact N|]. apply (links_frame m''); auto; intros z _.
  - rewrite D4, C5, B5, A4, X4. destruct (Nat.eqb_spec z g), (Nat.eqb_spec z h); congruence.
  - rewrite D5, C4, B4, A5, X5. destruct (Nat.eqb_spec z g), (Nat.eqb_spec z a); congruence.
Qed.

(** removing the head of an empty ring changes nothing *)
Lemma remove_self m h : ring m h [] -> exists m', elist_remove m h = Ok m' /\ ring m' h [] /\
  (forall a, live m' a <-> live m a) /\ (forall a, a <> h -> cells m' a = cells m a).
Proof.
  intros R. pose proof (ring_live m h [] h R (or_introl eq_refl)) as Lh. unfold elist_remove.
  rewrite (get_prev_ok _ _ _ (ring_prev _ _ _ R)), (get_next_ok _ _ _ (ring_next _ _ _ R)). cbn [obind hd last].
  destruct (remove2_view m h h Lh Lh) as (m' & R1 & R2 & R3 & R4 & R5 & R6). exists m'. split; [exact R1|].
  split; [split; [repeat constructor; auto|]|].
  - cbn. rewrite R4, R5, Nat.eqb_refl. auto.
  - split; [exact R3|]. auto.
Qed.

(** traversal *)
Lemma for_each_run m h : forall s x fuel, links m (x :: s ++ [h]) -> ~ In h (x :: s) -> S (length s) < fuel ->
  for_each_loop fuel m h x = Ok (x :: s).
Proof.
  induction s as [|y s IH]; intros x fuel L N F; (destruct fuel as [|f]; [lia|]); cbn [for_each_loop].
  - destruct (Nat.eqb_spec x h); [exfalso; apply N; now left|]. cbn in L. rewrite (get_next_ok _ _ _ (proj1 L)). cbn [obind].
    destruct f; [cbn in F; lia|]. cbn [for_each_loop]. now rewrite Nat.eqb_refl.
  - destruct (Nat.eqb_spec x h); [exfalso; apply N; now left|]. cbn [app] in L. destruct L as (L1 & L2 & L3).
    rewrite (get_next_ok _ _ _ L1). cbn [obind]. rewrite IH; [reflexivity|exact L3| |cbn in F; lia].
    intros H. apply N. now right.
Qed.
Lemma for_each_ok m h l fuel : ring m h l -> length l < fuel -> elist_for_each fuel m h = Ok l.
Proof.
  intros R F. unfold elist_for_each. rewrite (get_next_ok _ _ _ (ring_next _ _ _ R)). cbn [obind].
  destruct l as [|x l]; cbn [hd].
  - destruct fuel; [lia|]. cbn. now rewrite Nat.eqb_refl.
  - destruct R as [N L]. apply for_each_run; [apply L| |exact F]. now inversion N.
Qed.

Definition drop_if (f : nat -> bool) (m : lmem) (p : nat) : outcome lmem := if f p then elist_remove m p else Ok m.
Lemma ring_nx_mid m h l1 x l2 : ring m h (l1 ++ x :: l2) -> nx m x = Some (hd h l2).
Proof.
  intros [_ L]. rewrite <- app_assoc in L. change (h :: l1 ++ (x :: l2) ++ [h]) with ((h :: l1) ++ x :: (l2 ++ [h])) in L.
  apply links_app in L. destruct L as [_ L]. destruct l2; apply L.
Qed.
Lemma for_each_safe_run f h : forall l m done fuel, ring m h (done ++ l) -> length l < fuel ->
  exists n m', nx m (hd h l) = Some n /\
    for_each_safe_loop fuel (drop_if f) m h (hd h l) n = Ok (l, m') /\ ring m' h (done ++ filter (fun x => negb (f x)) l) /\
    (forall a, ~ In a (h :: done ++ l) -> cells m' a = cells m a).
Proof.
  induction l as [|x l IH]; intros m done fuel R F; (destruct fuel as [|fu]; [lia|]).
  - rewrite app_nil_r in R. exists (hd h done), m. split; [apply ring_next; exact R|]. cbn. rewrite Nat.eqb_refl, app_nil_r. auto.
  - exists (hd h l). cbn [hd]. pose proof (ring_nx_mid _ _ _ _ _ R) as Nx. cbn [for_each_safe_loop].
    destruct (Nat.eqb_spec x h) as [->|_].
    { exfalso. destruct R as [N _]. inversion N as [|? ? N1 _]. apply N1. apply in_app_iff. right. now left. }
    unfold drop_if at 1. cbn [filter].
    assert (ST : exists m1 done', (if f x then elist_remove m x else Ok m) = Ok m1 /\ ring m1 h (done' ++ l) /\
       done' = (if f x then done else done ++ [x]) /\ (forall a, ~ In a (h :: done ++ x :: l) -> cells m1 a = cells m a)).
    { destruct (f x).
      - destruct (ring_remove m h done x l R) as (m1 & H1 & H2 & _ & _ & H3). exists m1, done. split; [exact H1|]. split; [exact H2|].
        split; [reflexivity|]. intros a Ha. apply H3. intros X. apply Ha. cbn in *. rewrite in_app_iff in *. cbn. tauto.
      - exists m, (done ++ [x]). rewrite <- app_assoc. auto. }
    destruct ST as (m1 & done' & E1 & R1 & E2 & Fr). rewrite E1. cbn [obind].
    destruct (IH m1 done' fu R1) as (n' & m' & H1 & H2 & H3 & H4); [cbn in F; lia|].
    rewrite (get_next_ok _ _ _ H1). cbn [obind]. rewrite H2. cbn [obind]. exists m'. split; [exact Nx|]. split; [reflexivity|].
    split.
    + subst done'. destruct (f x); cbn [negb]; [exact H3|]. now rewrite <- app_assoc in H3.
    + intros a Ha. rewrite H4, Fr; auto. intros X. apply Ha. subst done'.
      destruct (f x); cbn in *; rewrite ?in_app_iff in *; cbn in *; tauto.
Qed.
Lemma for_each_safe_ok f m h l fuel : ring m h l -> length l < fuel ->
  exists m', elist_for_each_safe fuel (drop_if f) m h = Ok (l, m') /\ ring m' h (filter (fun x => negb (f x)) l).
Proof.
  intros R F. destruct (for_each_safe_run f h l m [] fuel R F) as (n & m' & H1 & H2 & H3 & _).
  exists m'. unfold elist_for_each_safe. rewrite (get_next_ok _ _ _ (ring_next _ _ _ R)). cbn [obind].
  rewrite (get_next_ok _ _ _ H1). cbn [obind]. auto.
Qed.

(** operation sequences *)
Inductive op := Put (e : nat) | Take.
(** what is allowed: the element put must be a live cell which is neither the head nor already in the container *)
Fixpoint valid (m : lmem) (h : nat) (fate : list nat -> list nat) (put : list nat -> nat -> list nat) (l : list nat) (ops : list op) : Prop :=
  match ops with
  | [] => True
  | Put e :: r => live m e /\ e <> h /\ ~ In e l /\ valid m h fate put (put l e) r
  | Take :: r => valid m h fate put (fate l) r
  end.

(** stack: spec list has the top first *)
Fixpoint stack_run (m : lmem) (s : nat) (ops : list op) : outcome (list nat * lmem) :=
  match ops with
  | [] => Ok ([], m)
  | Put e :: r => m1 <- stack_push m s e ;; stack_run m1 s r
  | Take :: r => ' (e, m1) <- stack_pop m s ;; ' (es, m2) <- stack_run m1 s r ;; Ok (e :: es, m2)
  end.
Fixpoint lifo (l : list nat) (ops : list op) : list nat * list nat :=
  match ops with
  | [] => ([], l)
  | Put e :: r => lifo (e :: l) r
  | Take :: r => let '(es, l') := lifo (tl l) r in (hd 0 l :: es, l')
  end.
Definition valid_stack m s := valid m s (@tl nat) (fun l e => e :: l).

Lemma valid_ext m m' h ft pt : (forall a, live m' a <-> live m a) -> forall ops l, valid m h ft pt l ops -> valid m' h ft pt l ops.
Proof.
  intros E. induction ops as [|[e|] r IH]; intros l H; [exact I| |].
  - destruct H as (H1 & H2 & H3 & H4). cbn. rewrite E. auto.
  - cbn in *. auto.
Qed.
Lemma stack_pop_ok m s l : ring m s l -> exists m', stack_pop m s = Ok (hd 0 l, m') /\ ring m' s (tl l) /\ (forall a, live m' a <-> live m a).
Proof.
  intros R. unfold stack_pop, stack_empty. rewrite (empty_ok m s l R). cbn [obind]. destruct l as [|x l].
  - exists m. repeat split; auto; apply R.
  - rewrite (get_next_ok _ _ _ (ring_next _ _ _ R)). cbn [obind hd]. destruct (ring_remove m s [] x l R) as (m' & H1 & H2 & _ & H3 & _).
    rewrite H1. cbn [obind]. exists m'. auto.
Qed.
Lemma stack_lifo : forall ops m s l, ring m s l -> valid_stack m s l ops ->
  exists m', stack_run m s ops = Ok (fst (lifo l ops), m') /\ ring m' s (snd (lifo l ops)).
Proof.
  induction ops as [|[e|] r IH]; intros m s l R V.
  - exists m. auto.
  - cbn in V. destruct V as (V1 & V2 & V3 & V4). destruct (add_ok m s l e R V1) as (m1 & H1 & H2 & _ & H3 & _).
    { intros [H|H]; congruence. }
    cbn [stack_run lifo]. unfold stack_push. rewrite H1. cbn [obind]. apply IH; auto. eapply valid_ext; eauto.
  - cbn in V. destruct (stack_pop_ok m s l R) as (m1 & H1 & H2 & H3). cbn [stack_run lifo]. rewrite H1. cbn [obind].
    destruct (IH m1 s (tl l) H2) as (m2 & H4 & H5); [eapply valid_ext; eauto|]. rewrite H4. cbn [obind].
    destruct (lifo (tl l) r) as [es l']. exists m2. auto.
Qed.

(** queue: spec list has the oldest element first; dequeue on the empty queue yields the queue head q itself *)
Fixpoint queue_run (m : lmem) (q : nat) (ops : list op) : outcome (list nat * lmem) :=
  match ops with
  | [] => Ok ([], m)
  | Put e :: r => m1 <- queue_enqueue m q e ;; queue_run m1 q r
  | Take :: r => ' (e, m1) <- queue_dequeue m q ;; ' (es, m2) <- queue_run m1 q r ;; Ok (e :: es, m2)
  end.
Fixpoint fifo (q : nat) (l : list nat) (ops : list op) : list nat * list nat :=
  match ops with
  | [] => ([], l)
  | Put e :: r => fifo q (l ++ [e]) r
  | Take :: r => let '(es, l') := fifo q (tl l) r in (hd q l :: es, l')
  end.
Definition valid_queue m q := valid m q (@tl nat) (fun l e => l ++ [e]).
Lemma queue_dequeue_ok m q l : ring m q (rev l) ->
  exists m', queue_dequeue m q = Ok (hd q l, m') /\ ring m' q (rev (tl l)) /\ (forall a, live m' a <-> live m a).
Proof.
  intros R. unfold queue_dequeue. rewrite (get_prev_ok _ _ _ (ring_prev _ _ _ R)). cbn [obind]. destruct l as [|x l].
  - cbn [rev last hd tl] in *. destruct (remove_self m q R) as (m' & H1 & H2 & H3 & _). rewrite H1. cbn [obind]. exists m'. auto.
  - cbn [rev hd tl] in *. rewrite last_last. destruct (ring_remove m q (rev l) x [] R) as (m' & H1 & H2 & _ & H3 & _).
    rewrite H1. cbn [obind]. rewrite app_nil_r in H2. exists m'. auto.
Qed.
Lemma queue_fifo : forall ops m q l, ring m q (rev l) -> valid_queue m q l ops ->
  exists m', queue_run m q ops = Ok (fst (fifo q l ops), m') /\ ring m' q (rev (snd (fifo q l ops))).
Proof.
  induction ops as [|[e|] r IH]; intros m q l R V.
  - exists m. auto.
  - cbn in V. destruct V as (V1 & V2 & V3 & V4). destruct (add_ok m q (rev l) e R V1) as (m1 & H1 & H2 & _ & H3 & _).
    { intros [H|H]; [congruence|]. apply in_rev in H. tauto. }
    cbn [queue_run fifo]. unfold queue_enqueue. rewrite H1. cbn [obind]. apply IH.
    + rewrite rev_app_distr. exact H2.
    + eapply valid_ext; eauto.
  - cbn in V. destruct (queue_dequeue_ok m q l R) as (m1 & H1 & H2 & H3). cbn [queue_run fifo]. rewrite H1. cbn [obind].
    destruct (IH m1 q (tl l) H2) as (m2 & H4 & H5); [eapply valid_ext; eauto|]. rewrite H4. cbn [obind].
    destruct (fifo q (tl l) r) as [es l']. exists m2. auto.
Qed.
