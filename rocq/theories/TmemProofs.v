(** The memory of tables: lemmas about pools in the list of all pools. *)
From Verif Require Import Prelude HashModel TableModel MemModel MemProofs MemPool RegModel RegSpec PropReg PropFigures TmemModel.
From Coq Require Import Permutation.
Open Scope Z_scope.

Lemma pool_ok_perm p o1 o2 : Permutation o1 o2 -> pool_ok p o1 -> pool_ok p o2.
Proof. intros P [A B C D E F G H]. constructor; auto. rewrite <- D. apply Permutation_app_head. now symmetry. Qed.
Lemma new_page_size m p p' : new_page m p = Ok p' -> elt_size p' = elt_size p.
Proof.
  unfold new_page, page_alloc. destruct m; cbn [negb]; [|discriminate]. destruct (safe _); cbn [obind]; try discriminate. intros E. assert (X : elt_size p' = elt_size p) by (injection E as <-; reflexivity). exact X.
Qed.
Lemma alloc_size m p p' e : pool_alloc m p = Ok (p', e) -> elt_size p' = elt_size p.
Proof.
  unfold pool_alloc. intros H. apply obind_ok in H. destruct H as (q & Q & H). assert (S : elt_size q = elt_size p) by (destruct (frees p); [now apply (new_page_size m)|congruence]).
  destruct (frees q); [discriminate|]. destruct (num_free _ _); [|discriminate]. injection H as <- <-. exact S.
Qed.
Lemma page_destroy_size p id p' : page_destroy p id = Ok p' -> elt_size p' = elt_size p.
Proof. unfold page_destroy. destruct (num_free _ _); [|discriminate]. destruct (_ <? _); intros H; injection H as <-; reflexivity. Qed.
Lemma release_size p e p' : pool_release p e = Ok p' -> elt_size p' = elt_size p.
Proof.
  unfold pool_release. destruct (num_free _ _) as [n|]; [|discriminate]. set (q := set_lists _ _ _ _ _ _ _ _). assert (S : elt_size q = elt_size p) by reflexivity. cbv zeta. clearbody q.
  destruct (_ =? _); [|intros H; injection H as <-; exact S]. destruct (test _ _ _ _ _); [|intros H; injection H as <-; exact S].
  intros H. apply obind_ok in H. destruct H as (q' & Q & H). injection H as <-. cbn [elt_size set_lists]. now rewrite (page_destroy_size _ _ _ Q).
Qed.
Lemma destroy_pages_size : forall ids p p' rc, destroy_pages ids p = Ok (rc, Some p') -> elt_size p' = elt_size p.
Proof.
  induction ids as [|i ids IH]; intros p p' rc; cbn [destroy_pages]; [discriminate|]. destruct (num_free _ _); [|discriminate]. destruct (_ <? _); [intros H; injection H as _ <-; reflexivity|].
  intros H. apply obind_ok in H. destruct H as (q & Q & H). rewrite (IH _ _ _ H). now apply (page_destroy_size _ i).
Qed.

(** what does not change when a pool is used: addresses, names and element sizes *)
Definition shape1 (e : entry) : nat * option text * Z := (addr e, name e, elt_size (body e)).
Definition shape (r : reg) := map shape1 (plist r).
Record state (r : reg) (H : nat -> list elt) : Prop := mkst {
  s_nodup : NoDup (map addr (plist r));
  s_ok : forall e, In e (plist r) -> pool_ok (body e) (H (addr e)) /\ name e <> None }.
Lemma shape_addr r : map (fun x => fst (fst x)) (shape r) = map addr (plist r).
Proof. unfold shape. rewrite map_map. reflexivity. Qed.
Lemma get_shape n r1 r2 : map fst (shape r1) = map fst (shape r2) -> get r1 (Some n) = get r2 (Some n).
Proof.
  unfold shape. cbn [get]. generalize (plist r1) (plist r2). intros l1 l2. revert l2. induction l1 as [|e l1 IH]; intros [|f l2] E; cbn [map] in E; try discriminate; [reflexivity|].
  unfold shape1 in E at 1. unfold shape1 in E at 2. cbn [fst] in E. injection E as E1 E2 E3. cbn [get_loop]. rewrite E1, E2. now rewrite (IH l2 E3).
Qed.
Lemma in_shape r a n s : In (a, n, s) (shape r) -> exists e, In e (plist r) /\ addr e = a /\ name e = n /\ elt_size (body e) = s.
Proof. unfold shape. rewrite in_map_iff. intros (e & E & I). exists e. unfold shape1 in E. split; [exact I|]. split; [congruence|]. split; congruence. Qed.
Lemma find_shape r H a n s : state r H -> In (a, n, s) (shape r) -> exists e, find (plist r) a = Some e /\ addr e = a /\ name e = n /\ elt_size (body e) = s /\ pool_ok (body e) (H a) /\ name e <> None.
Proof.
  intros [ND K] I. destruct (in_shape r a n s I) as (e & Ie & A & N & S). exists e. split; [rewrite <- A; now apply find_in|]. split; [exact A|]. split; [exact N|]. split; [exact S|]. destruct (K e Ie). rewrite A in *. auto.
Qed.
Lemma shape_inj r H a n1 s1 n2 s2 : state r H -> In (a, n1, s1) (shape r) -> In (a, n2, s2) (shape r) -> n1 = n2 /\ s1 = s2.
Proof.
  intros St I1 I2. destruct (find_shape r H a n1 s1 St I1) as (e & F & _ & N & S & _). destruct (find_shape r H a n2 s2 St I2) as (f & F' & _ & N' & S' & _). assert (e = f) by congruence. subst f. split; congruence.
Qed.
Lemma put_shape l a e p : NoDup (map addr l) -> find l a = Some e -> elt_size p = elt_size (body e) -> map shape1 (put l a p) = map shape1 l.
Proof.
  intros ND F S. destruct (find_some _ _ _ F) as [I A]. unfold put. rewrite map_map. apply map_ext_in. intros x Ix. destruct (Nat.eqb_spec (addr x) a) as [E|E]; [|reflexivity].
  assert (x = e). { pose proof (find_in l x ND Ix) as Fx. rewrite E, F in Fx. congruence. } subst x. unfold shape1. cbn [addr name body]. now rewrite S.
Qed.
Lemma put_state r H a e p out : state r H -> find (plist r) a = Some e -> pool_ok p out -> state (mkreg (put (plist r) a p) (hooks r)) (held_now H a out).
Proof.
  intros [ND K] F P. constructor; cbn [plist]; [now rewrite put_addr|]. intros x Ix. apply in_put in Ix. unfold held_now. destruct Ix as [(B & Ix)|(B & B2 & y & Iy & _ & Ny)].
  - replace (addr x =? a)%nat with false by (symmetry; now apply Nat.eqb_neq). now apply K.
  - rewrite B, Nat.eqb_refl, B2, <- Ny. split; [exact P|]. now apply K.
Qed.

Lemma alloc_in_ok r H a n s : state r H -> In (a, n, s) (shape r) -> exists r' x, alloc_in r a = Ok (r', x) /\ state r' (held_now H a (x :: H a)) /\ shape r' = shape r /\ hooks r' = hooks r /\ ~ In x (H a).
Proof.
  intros St I. destruct (find_shape r H a n s St I) as (e & F & A & _ & S & K & _). destruct (alloc_ok true (body e) (H a) K (or_introl eq_refl)) as (p & x & E & K' & NI & _).
  unfold alloc_in. rewrite F, E. cbn [obind]. eexists _, x. split; [reflexivity|]. split; [now apply (put_state r H a e)|]. split; [|split; [reflexivity|exact NI]].
  unfold shape. cbn [plist]. apply (put_shape _ _ e); [apply St|exact F|]. now apply (alloc_size true _ _ x).
Qed.
Lemma release_in_ok r H a n s x rest : state r H -> In (a, n, s) (shape r) -> Permutation (H a) (x :: rest) -> exists r', release_in r a x = Ok r' /\ state r' (held_now H a rest) /\ shape r' = shape r /\ hooks r' = hooks r.
Proof.
  intros St I P. destruct (find_shape r H a n s St I) as (e & F & A & _ & S & K & _). pose proof (pool_ok_perm _ _ _ P K) as K1. destruct (release_ok (body e) [] x rest K1) as (p & E & K' & _).
  unfold release_in. rewrite F, E. cbn [obind]. eexists. split; [reflexivity|]. split; [now apply (put_state r H a e)|]. split; [|reflexivity].
  unfold shape. cbn [plist]. apply (put_shape _ _ e); [apply St|exact F|]. now apply (release_size _ x).
Qed.
Lemma init_in_ok sys r H a n elts size : 4096 <= sys < 2 ^ 63 -> 0 <= elts < 2 ^ 63 -> 0 <= size -> Z.max 1 elts * (24 + size) + 32 < 2 ^ 64 -> state r H -> ~ In a (map addr (plist r)) ->
  exists r', init sys r a true true true (Some n) elts size None 0 = Ok (Some a, r') /\ state r' (held_now H a []) /\ shape r' = shape r ++ [(a, Some n, size)] /\ hooks r' <> 0%nat.
Proof.
  intros S F1 F2 F3 [ND K] NI. destruct (pool_init_ok sys elts size None 0 S F1 F2 F3) as (p & E & KP & SZ & _).
  assert (C : exists c, calculate sys (if elts =? 0 then 1 else elts) size = Ok c). { pose proof E as E'. unfold pool_init in E'. apply obind_ok in E'. destruct E' as (c & E' & _). now exists c. }
  destruct C as (c & C). unfold init. rewrite C. cbn [obind negb]. rewrite E. cbn [obind]. eexists. split; [reflexivity|]. split; [|split].
  - constructor; cbn [plist].
    + rewrite map_app. cbn [map addr]. apply (Permutation_NoDup (l := a :: map addr (plist r))); [apply Permutation_cons_append|]. now constructor.
    + intros e I. apply in_app_or in I. unfold held_now. destruct I as [I|[<-|[]]].
      * replace (addr e =? a)%nat with false; [now apply K|]. symmetry. apply Nat.eqb_neq. intros <-. apply NI. now apply in_map.
      * cbn [addr body name]. rewrite Nat.eqb_refl. split; [exact KP|discriminate].
  - unfold shape. cbn [plist]. rewrite map_app. cbn [map]. f_equal. f_equal. unfold shape1. cbn [addr name body strdup_name]. now rewrite SZ.
  - cbn [hooks]. destruct (hooks r); lia.
Qed.
Lemma destroy_in_ok r H a n s : state r H -> In (a, n, s) (shape r) ->
  exists r', (H a = [] -> destroy r a = Ok (0, r') /\ shape r' = filter (fun x => negb (fst (fst x) =? a)%nat) (shape r) /\ state r' H) /\
    (H a <> [] -> destroy r a = Ok (-1, r') /\ shape r' = shape r /\ state r' H) /\ hooks r' = hooks r.
Proof.
  intros St I. destruct (find_shape r H a n s St I) as (e & F & A & _ & S & K & _). destruct St as [ND KK]. destruct (destroy_ok r H a e ND F K) as [D1 D2]. destruct (H a) as [|x l] eqn:HA.
  - exists (mkreg (remove (plist r) a) (hooks r)). split; [|split; [congruence|reflexivity]]. intros _. split; [now apply D1|]. split.
    + unfold shape, remove. cbn [plist]. clear. induction (plist r) as [|x l IH]; [reflexivity|]. cbn [filter map]. unfold shape1 at 2. cbn [fst]. destruct (addr x =? a)%nat; cbn [negb map]; now rewrite IH.
    + constructor; cbn [plist]; [rewrite remove_addr; now apply NoDup_filter|]. intros y Iy. apply filter_In in Iy. now apply KK.
  - destruct D2 as (p & E & K'); [discriminate|]. exists (mkreg (put (plist r) a p) (hooks r)). split; [discriminate|]. split; [|reflexivity]. intros _. split; [exact E|]. split.
    + unfold shape. cbn [plist]. apply (put_shape _ _ e); [exact ND|exact F|]. unfold destroy in E. rewrite F in E. apply obind_ok in E. destruct E as ((rc, q) & Q & E). destruct q as [q|].
      * unfold pool_destroy in Q. rewrite <- (destroy_pages_size _ _ _ _ Q). clear - E F ND. assert (X : put (plist r) a q = put (plist r) a p) by congruence. destruct (find_some _ _ _ F) as [I A].
        assert (J : In (mkentry (addr e) (name e) q) (put (plist r) a p)). { rewrite <- X. unfold put. apply in_map_iff. exists e. rewrite A, Nat.eqb_refl. auto. }
        apply in_put in J. cbn [addr body] in J. destruct J as [(J & _)|(_ & J & _)]; [congruence|now rewrite J].
      * exfalso. assert (X : map addr (remove (plist r) a) = map addr (put (plist r) a p)) by congruence. rewrite put_addr, remove_addr in X. destruct (find_some _ _ _ F) as [Ie Ae].
        assert (J : In a (map addr (plist r))) by (rewrite <- Ae; now apply in_map). rewrite <- X in J. apply filter_In in J. rewrite Nat.eqb_refl in J. now destruct J.
    + constructor; cbn [plist]; [now rewrite put_addr|]. intros y Iy. apply in_put in Iy. destruct Iy as [(_ & Iy)|(B & B2 & z & Iz & Az & Nz)]; [now apply KK|]. rewrite B, B2, <- Nz, HA. split; [exact K'|]. now apply KK.
Qed.
Lemma release_all_ok r a n s : forall l H rest, state r H -> In (a, n, s) (shape r) -> Permutation (H a) (l ++ rest) ->
  exists r' H', release_all r a l = Ok r' /\ state r' H' /\ Permutation (H' a) rest /\ (forall b, b <> a -> H' b = H b) /\ shape r' = shape r /\ hooks r' = hooks r.
Proof.
  intros l. revert r. induction l as [|x l IH]; intros r H rest St I P; cbn [release_all app] in *; [exists r, H; auto 10|].
  destruct (release_in_ok r H a n s x (l ++ rest) St I P) as (r1 & E1 & S1 & Sh1 & H1). rewrite E1. cbn [obind]. destruct (IH r1 _ rest S1) as (r2 & H2 & E2 & S2 & P2 & O2 & Sh2 & K2).
  - now rewrite Sh1.
  - unfold held_now. now rewrite Nat.eqb_refl.
  - exists r2, H2. split; [exact E2|]. split; [exact S2|]. split; [exact P2|]. split; [|split; congruence]. intros b Nb. rewrite (O2 b Nb). unfold held_now. now replace (b =? a)%nat with false by (symmetry; now apply Nat.eqb_neq).
Qed.

(** the elements of a pool that are in use: those of its pages that are not on its free list *)
Definition eqe (x y : elt) : bool := (fst x =? fst y)%nat && (snd x =? snd y)%nat.
Definition in_use (p : pool) : list elt := filter (fun x => negb (existsb (eqe x) (frees p))) (elements p).
Lemma eqe_iff x y : eqe x y = true <-> x = y.
Proof. unfold eqe. rewrite andb_true_iff, !Nat.eqb_eq. destruct x, y; cbn [fst snd]. split; [intros [-> ->]; reflexivity|intros E; split; congruence]. Qed.
Lemma in_use_ok p out : pool_ok p out -> Permutation (in_use p) out.
Proof.
  intros K. unfold in_use. pose proof (ok_nodup _ _ K) as ND. rewrite <- (filter_perm _ _ _ (ok_all _ _ K)). rewrite filter_app.
  assert (A : filter (fun x => negb (existsb (eqe x) (frees p))) (frees p) = []).
  { assert (G : forall l, incl l (frees p) -> filter (fun x => negb (existsb (eqe x) (frees p))) l = []).
    { induction l as [|x l IH]; intros IC; [reflexivity|]. cbn [filter]. replace (existsb (eqe x) (frees p)) with true; [cbn [negb]; apply IH; intros y I; apply IC; now right|].
      symmetry. apply existsb_exists. exists x. split; [apply IC; now left|now apply eqe_iff]. }
    apply G, incl_refl. }
  rewrite A. cbn [app]. rewrite (filter_id (fun x => negb (existsb (eqe x) (frees p)))); [reflexivity|]. intros x I. apply negb_true_iff. apply not_true_iff_false. intros E. apply existsb_exists in E. destruct E as (y & Iy & E). apply eqe_iff in E. subst y.
  clear - ND I Iy. induction (frees p) as [|z l IH]; [destruct Iy|]. cbn [app] in ND. inversion ND as [|? ? N1 N2]; subst. destruct Iy as [->|Iy]; [apply N1, in_or_app; now right|now apply IH].
Qed.
