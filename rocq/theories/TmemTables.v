(** The memory of tables: the invariant of a program that uses tables. *)
From Verif Require Import Prelude HashModel TableModel MemModel MemProofs MemPool RegModel RegSpec PropReg PropFigures TmemModel TmemProofs TmemSpec.
From Coq Require Import Permutation.
Open Scope Z_scope.

(** the first entry with the name *)
Fixpoint first_named (n : text) (l : list (nat * option text * Z)) : option nat :=
  match l with [] => None | (a, m, _) :: l => match m with Some m => if list_eq_dec Z.eq_dec m n then Some a else first_named n l | None => first_named n l end end.
Lemma get_first r H n : state r H -> get r (Some n) = Ok (first_named n (shape r)).
Proof.
  intros [ND K]. cbn [get]. rewrite get_loop_ok by (intros e I; now apply K). f_equal. unfold shape. assert (KN : forall e, In e (plist r) -> name e <> None) by (intros e I; now apply K). clear ND K.
  induction (plist r) as [|e l IH]; [reflexivity|]. cbn [map oldest first_named]. unfold shape1 at 1. unfold pair_of at 1. pose proof (KN e (or_introl eq_refl)) as N. destruct (name e) as [o|]; [|congruence].
  rewrite IH by (intros x I; apply KN; now right). reflexivity.
Qed.
Lemma first_app n l1 l2 : first_named n (l1 ++ l2) = match first_named n l1 with Some a => Some a | None => first_named n l2 end.
Proof. induction l1 as [|[[a m] s] l1 IH]; [reflexivity|]. cbn [app first_named]. rewrite IH. destruct m as [m|]; [|reflexivity]. now destruct (list_eq_dec _ _ _). Qed.
Lemma first_filter n a l : (forall m s, In (a, m, s) l -> m <> Some n) -> first_named n (filter (fun x => negb (fst (fst x) =? a)%nat) l) = first_named n l.
Proof.
  induction l as [|[[b m] s] l IH]; intros N; [reflexivity|]. cbn [filter fst]. assert (IH' := IH (fun m s I => N m s (or_intror I))). destruct (Nat.eqb_spec b a) as [->|NE]; cbn [negb first_named].
  - rewrite IH'. destruct m as [m|]; [|reflexivity]. destruct (list_eq_dec _ _ _) as [->|]; [|reflexivity]. exfalso. now apply (N (Some n) s (or_introl eq_refl)).
  - now rewrite IH'.
Qed.

Lemma node_name_other n : node_pool_name n <> table_pool.
Proof. intros E. apply (f_equal (@length Z)) in E. unfold node_pool_name in E. rewrite firstn_length, app_length in E. cbn [length table_pool] in E. lia. Qed.

(** tables *)
Section T.
Variable K D : Type.
Variable hash : K -> Z.
Variable cmp : K -> K -> bool.
Notation tab := (table K (D * elt)).
Notation chain := (list (node K (D * elt))).
Definition els (c : chain) : list elt := map (fun n => snd (ndatum n)) c.
Lemma nodes_split (t : tab) l1 c l2 : tbuckets t = l1 ++ c :: l2 -> nodes t = els (concat l1) ++ els c ++ els (concat l2).
Proof. intros E. unfold nodes, all_nodes, els. rewrite E, concat_app, !map_app. cbn [concat]. now rewrite map_app. Qed.
Lemma chain_split (t : tab) k c : chain_at K (D * elt) hash t k = Ok c -> exists l1 l2, tbuckets t = l1 ++ c :: l2 /\ length l1 = slot K (D * elt) hash t k.
Proof. unfold chain_at. destruct (nth_error _ _) eqn:E; [|discriminate]. intros H. assert (l = c) by congruence. subst l. apply nth_error_split in E. destruct E as (l1 & l2 & E1 & E2). now exists l1, l2. Qed.
Lemma change_nodes (t : tab) k c c' t' : chain_at K (D * elt) hash t k = Ok c -> t' = mktable (tbits t) (tdup t) (upd (tbuckets t) (slot K (D * elt) hash t k) c') ->
  exists rest, Permutation (nodes t) (els c ++ rest) /\ Permutation (nodes t') (els c' ++ rest).
Proof.
  intros C ->. destruct (chain_split t k c C) as (l1 & l2 & E & L). exists (els (concat l1) ++ els (concat l2)). split.
  - rewrite (nodes_split t l1 c l2 E). apply Permutation_app_swap_app.
  - rewrite (nodes_split _ l1 c' l2). { apply Permutation_app_swap_app. }
    cbn [tbuckets]. rewrite E, <- L. rewrite upd_app_r by lia. now rewrite Nat.sub_diag.
Qed.

(** a node added *)
Lemma set_nodes (t t' : tab) k d x : table_set K (D * elt) hash cmp t k (d, x) = Ok (0, t') -> Permutation (nodes t') (x :: nodes t).
Proof.
  unfold table_set. intros H. apply obind_ok in H. destruct H as (c & C & H). destruct (if tdup t then None else _); [discriminate|].
  assert (E : t' = mktable (tbits t) (tdup t) (upd (tbuckets t) (slot K (D * elt) hash t k) (mknode k (d, x) (hash k) :: c))) by congruence.
  destruct (change_nodes t k c _ t' C E) as (rest & P1 & P2). rewrite P2, P1. reflexivity.
Qed.
Lemma depth_S c n k : hit K (D * elt) hash cmp n k = false -> depth K D hash cmp (n :: c) k = match depth K D hash cmp c k with Some j => Some (S j) | None => None end.
Proof. intros E. cbn [depth]. now rewrite E. Qed.
Lemma del_loop_els first : forall c k d x c', del_loop K (D * elt) hash cmp first c k = Some ((d, x), c') -> exists j lost, depth K D hash cmp c k = Some j /\ els (first :: c) = els [first] ++ lost ++ x :: els (tl c') /\ length lost = j /\ c' = first :: tl c'.
Proof.
  induction c as [|n c IH]; intros k d x c' H; cbn [del_loop] in H; [discriminate|]. destruct (hit K (D * elt) hash cmp n k) eqn:E.
  - exists 0%nat, []. cbn [depth]. rewrite E. assert (c' = first :: c) by congruence. subst c'. assert (X : ndatum n = (d, x)) by congruence. split; [reflexivity|]. split; [|now split]. cbn [els map tl app]. now rewrite X.
  - destruct (IH k d x c' H) as (j & lost & E1 & E2 & E3 & E4). exists (S j), (snd (ndatum n) :: lost). rewrite (depth_S _ _ _ E), E1. split; [reflexivity|]. split; [|split; [cbn [length]; lia|exact E4]].
    cbn [els map app] in E2 |- *. assert (X : map (fun n : node K (D * elt) => snd (ndatum n)) c = lost ++ x :: els (tl c')) by congruence. now rewrite X.
Qed.
Lemma del_loop_none first : forall c k, del_loop K (D * elt) hash cmp first c k = None <-> depth K D hash cmp c k = None.
Proof.
  induction c as [|n c IH]; intros k; cbn [del_loop depth]; [tauto|]. destruct (hit K (D * elt) hash cmp n k); [split; discriminate|]. rewrite IH. destruct (depth K D hash cmp c k); [split; discriminate|tauto].
Qed.
Lemma del_nodes (t t' : tab) k d x c : chain_at K (D * elt) hash t k = Ok c -> table_del K (D * elt) hash cmp t k = Ok (Some (d, x), t') ->
  exists j lost, depth K D hash cmp c k = Some j /\ Permutation (nodes t) (x :: nodes t' ++ lost) /\ length lost = (j - 1)%nat.
Proof.
  unfold table_del. intros C H. rewrite C in H. cbn [obind] in H. destruct (del_chain K (D * elt) hash cmp c k) as [[d' c']|] eqn:E; [|discriminate]. assert (X : d' = (d, x)) by congruence. subst d'.
  assert (E' : t' = mktable (tbits t) (tdup t) (upd (tbuckets t) (slot K (D * elt) hash t k) c')) by congruence. destruct (change_nodes t k c c' t' C E') as (rest & P1 & P2). clear H E'.
  destruct c as [|n c]; cbn [del_chain] in E; [discriminate|]. destruct (hit K (D * elt) hash cmp n k) eqn:Hn.
  - exists 0%nat, []. cbn [depth]. rewrite Hn. split; [reflexivity|]. split; [|reflexivity]. assert (c' = c) by congruence. subst c'. assert (X : ndatum n = (d, x)) by congruence. rewrite P1, P2, app_nil_r. cbn [els map app]. rewrite X. reflexivity.
  - destruct (del_loop_els n c k d x c' E) as (j & lost & E1 & E2 & E3 & E4). exists (S j), lost. rewrite (depth_S _ _ _ Hn), E1. split; [reflexivity|]. split; [|lia]. rewrite P1, P2, E2, E4. cbn [els map app tl].
    set (a := snd (ndatum n)). set (q := map _ (tl c')). clear. transitivity (a :: x :: (lost ++ q ++ rest)).
    + constructor. rewrite <- app_assoc. cbn [app]. symmetry. apply Permutation_middle.
    + rewrite perm_swap. constructor. constructor. apply Permutation_app_comm.
Qed.
Lemma del_none (t t' : tab) k c x : chain_at K (D * elt) hash t k = Ok c -> table_del K (D * elt) hash cmp t k = Ok (x, t') -> (x = None <-> depth K D hash cmp c k = None).
Proof.
  unfold table_del. intros C H. rewrite C in H. cbn [obind] in H. destruct c as [|n c]; cbn [del_chain depth] in *; [split; congruence|]. destruct (hit K (D * elt) hash cmp n k); [split; congruence|].
  pose proof (del_loop_none n c k) as N. destruct (del_loop K (D * elt) hash cmp n c k) as [[dd c']|]; destruct (depth K D hash cmp c k); split; try congruence; intros _; try (now assert (None = Some n0) by (apply N; reflexivity)).
  all: try (destruct N as [N1 N2]; specialize (N2 eq_refl); congruence). all: try (destruct N as [N1 N2]; specialize (N1 eq_refl); congruence).
Qed.
End T.

Lemma buckets_range uh hint : 0 <= hint < 2 ^ 56 -> 0 <= num_buckets uh hint <= 2 ^ 56.
Proof.
  intros Hh. unfold num_buckets. destruct uh; [lia|]. assert (G : forall l, (forall x, In x l -> 0 <= x <= 2 ^ 56) -> 0 <= pick_size l hint <= 2 ^ 56).
  { induction l as [|x l IH]; intros A; cbn [pick_size]; [lia|]. destruct (x >? hint); [apply A; now left|apply IH; intros y I; apply A; now right]. }
  apply G. unfold powers_of_2. intros x I. repeat (destruct I as [<-|I]; [lia|]). destruct I.
Qed.
Lemma room_ok r H a n s z : state r H -> In (a, n, s) (shape r) -> z <= s -> room r a z = true.
Proof. intros St I L. destruct (find_shape r H a n s St I) as (e & F & _ & _ & S & _). unfold room. rewrite F, S. now apply Z.leb_le. Qed.
Lemma held_same H a l : held_now H a l a = l.
Proof. unfold held_now. now rewrite Nat.eqb_refl. Qed.
Lemma held_other H a l b : b <> a -> held_now H a l b = H b.
Proof. intros N. unfold held_now. now replace (b =? a)%nat with false by (symmetry; now apply Nat.eqb_neq). Qed.
Lemma in_addr r a n s : In (a, n, s) (shape r) -> In a (map addr (plist r)).
Proof. intros I. rewrite <- shape_addr. change a with (fst (fst (a, n, s))). now apply (in_map (fun x => fst (fst x))). Qed.

Section Inv.
Variable K D : Type.
Variable hash : K -> Z.
Variable cmp : K -> K -> bool.
Definition bounded (t : mtable K D) : Prop := forall k, (slot K (D * elt) hash (m_tab t) k < length (tbuckets (m_tab t)))%nat.
Record inv (r : reg) (tabs : list (mtable K D)) (H : nat -> list elt) : Prop := mkinv {
  v_state : state r H;
  v_home : match first_named table_pool (shape r) with
           | Some tp => In (tp, Some table_pool, 80) (shape r) /\ (forall t, In t tabs -> m_home t = tp) /\ Permutation (H tp) (map m_self tabs)
           | None => tabs = [] end;
  v_tab : forall t, In t tabs -> (exists nm, In (m_pool t, Some nm, 48) (shape r) /\ nm <> table_pool) /\ (exists lost, Permutation (H (m_pool t)) (nodes (m_tab t) ++ lost)) /\ bounded t;
  v_nodup : NoDup (map m_pool tabs);
  v_hooks : hooks r = 0%nat -> shape r = [] }.
(** nothing is lost *)
Record tight (r : reg) (tabs : list (mtable K D)) (H : nat -> list elt) : Prop := mktight {
  g_tab : forall t, In t tabs -> Permutation (H (m_pool t)) (nodes (m_tab t));
  g_pools : forall a n s, In (a, n, s) (shape r) -> first_named table_pool (shape r) = Some a \/ In a (map m_pool tabs) }.
Lemma inv0 : inv reg0 [] (fun _ => []) /\ tight reg0 [] (fun _ => []).
Proof. split; constructor; cbn; try tauto; constructor; cbn; try constructor; tauto. Qed.
Lemma pool_ne_home r tabs H t tp : inv r tabs H -> In t tabs -> first_named table_pool (shape r) = Some tp -> m_pool t <> tp.
Proof.
  intros V I F E. destruct (v_tab _ _ _ V t I) as ((nm & Inm & N) & _). pose proof (v_home _ _ _ V) as Hm. rewrite F in Hm. destruct Hm as (Itp & _). rewrite E in Inm. destruct (shape_inj r H tp _ _ _ _ (v_state _ _ _ V) Inm Itp). congruence.
Qed.

(** zt_table_init *)
Lemma tinit_ok sys r tabs H a1 a2 n uh dup hint : 4096 <= sys < 2 ^ 63 -> 0 <= hint < 2 ^ 56 -> (forall k, (slot K (D * elt) hash (table_init K (D * elt) uh dup hint) k < length (tbuckets (table_init K (D * elt) uh dup hint)))%nat) ->
  inv r tabs H -> ~ In a1 (map addr (plist r)) -> ~ In a2 (map addr (plist r)) -> a1 <> a2 ->
  exists t r' H', tinit sys r a1 a2 n uh dup hint = Ok (t, r') /\ inv r' (tabs ++ [t]) H' /\ (tight r tabs H -> tight r' (tabs ++ [t]) H') /\ m_tab t = table_init K (D * elt) uh dup hint /\ m_pool t = a2 /\ ~ In (m_self t) (map m_self tabs).
Proof.
  intros S Hh B V N1 N2 N12. destruct V as [St Hm Tb ND HK0]. unfold tinit. rewrite (get_first r H table_pool St). cbn [obind].
  (* the pool of tables *)
  assert (ST1 : exists tp r1 H1, (match first_named table_pool (shape r) with Some a => Ok (a, r) | None => ' (y, r) <- init sys r a1 true true true (Some table_pool) 2 SIZEOF_TABLE None 0 ;; match y with Some a => Ok (a, r) | None => UB end end) = Ok (tp, r1) /\
            state r1 H1 /\ first_named table_pool (shape r1) = Some tp /\ In (tp, Some table_pool, 80) (shape r1) /\ (forall t, In t tabs -> m_home t = tp) /\ Permutation (H1 tp) (map m_self tabs) /\
            (forall b, b <> a1 -> H1 b = H b) /\ incl (shape r) (shape r1) /\ ~ In a2 (map addr (plist r1)) /\ (forall x, In x (shape r1) -> In x (shape r) \/ fst (fst x) = tp)).
  { destruct (first_named table_pool (shape r)) as [tp|] eqn:F.
    - destruct Hm as (I & HH & P). exists tp, r, H. split; [reflexivity|]. split; [exact St|]. split; [exact F|]. split; [exact I|]. split; [exact HH|]. split; [exact P|]. split; [reflexivity|]. split; [apply incl_refl|]. split; [exact N2|]. now left.
    - subst tabs. unfold SIZEOF_TABLE. destruct (init_in_ok sys r H a1 table_pool 2 80 S) as (r1 & E & S1 & Sh & _); [lia|lia|cbn; lia|exact St|exact N1|]. rewrite E. cbn [obind]. exists a1, r1, (held_now H a1 []). split; [reflexivity|]. split; [exact S1|].
      split; [rewrite Sh, first_app, F; cbn [first_named]; now destruct (list_eq_dec _ _ _)|]. rewrite Sh. split; [apply in_or_app; right; now left|]. split; [intros t []|]. split; [rewrite held_same; constructor|]. split; [intros b Nb; now apply held_other|].
      split; [apply incl_appl, incl_refl|]. split.
      + rewrite <- shape_addr, Sh, map_app, shape_addr. intros I. apply in_app_or in I. destruct I as [I|[I|[]]]; [contradiction|]. cbn [fst] in I. congruence.
      + intros x I. apply in_app_or in I. destruct I as [I|[<-|[]]]; [now left|now right]. }
  destruct ST1 as (tp & r1 & H1 & E1 & S1 & F1 & I1 & HM & P1 & O1 & IC & N2' & SH1). rewrite E1. cbn [obind].
  destruct (alloc_in_ok r1 H1 tp _ _ S1 I1) as (r2 & self & E2 & S2 & Sh2 & _ & NS). rewrite E2. cbn [obind]. rewrite (room_ok r2 _ tp (Some table_pool) 80 SIZEOF_TABLE S2); [|now rewrite Sh2|unfold SIZEOF_TABLE; lia]. cbn [safe obind].
  pose proof (buckets_range uh hint Hh) as NB. destruct (init_in_ok sys r2 (held_now H1 tp (self :: H1 tp)) a2 (node_pool_name n) (num_buckets uh hint) SIZEOF_NODE S) as (r3 & E3 & S3 & Sh3 & HK3).
  - lia.
  - unfold SIZEOF_NODE; lia.
  - unfold SIZEOF_NODE. assert (Z.max 1 (num_buckets uh hint) * (24 + 48) <= 2 ^ 56 * 72) by nia. lia.
  - exact S2.
  - rewrite <- shape_addr, Sh2, shape_addr. exact N2'.
  - rewrite E3. cbn [obind]. assert (TP2 : tp <> a2) by (intros ->; apply N2'; now apply (in_addr r1 a2 (Some table_pool) 80)).
    assert (PA : forall t, In t tabs -> m_pool t <> a1 /\ m_pool t <> a2 /\ m_pool t <> tp).
    { intros t It. destruct (Tb t It) as ((nm & Inm & NN) & _). split; [|split]; intros E; rewrite E in Inm.
      - apply N1. now apply (in_addr r a1 (Some nm) 48).
      - apply N2. now apply (in_addr r a2 (Some nm) 48).
      - destruct (shape_inj r1 H1 tp _ _ _ _ S1 (IC _ Inm) I1). congruence. }
    assert (HK : forall t, In t tabs -> held_now (held_now H1 tp (self :: H1 tp)) a2 [] (m_pool t) = H (m_pool t)). { intros t It. destruct (PA t It) as (A & B' & C). rewrite !held_other by assumption. now apply O1. }
    eexists _, r3, _. split; [reflexivity|]. assert (F3 : first_named table_pool (shape r3) = Some tp) by (rewrite Sh3, Sh2, first_app, F1; reflexivity). split; [|split; [|split; [reflexivity|split; [reflexivity|]]]].
    + constructor.
      * exact S3.
      * rewrite F3. split; [rewrite Sh3, Sh2; apply in_or_app; now left|]. split.
        -- intros t It. apply in_app_or in It. destruct It as [It|[<-|[]]]; [now apply HM|reflexivity].
        -- rewrite held_other by exact TP2. rewrite held_same, map_app. cbn [map m_self]. rewrite P1. apply Permutation_cons_append.
      * intros t It. apply in_app_or in It. destruct It as [It|[<-|[]]].
        -- destruct (Tb t It) as ((nm & Inm & NN) & (lost & PL) & BT). split; [exists nm; split; [|exact NN]; rewrite Sh3, Sh2; apply in_or_app; left; now apply IC|]. split; [|exact BT]. exists lost. now rewrite HK.
        -- cbn [m_pool m_tab]. split; [exists (node_pool_name n); split; [rewrite Sh3; apply in_or_app; right; now left|apply node_name_other]|]. split; [|exact B].
           exists []. rewrite held_same, app_nil_r. unfold nodes, all_nodes, table_init. cbn [tbuckets]. clear. induction (Z.to_nat _) as [|m IH]; cbn [repeat concat app map]; [constructor|exact IH].
      * rewrite map_app. cbn [map m_pool]. apply (Permutation_NoDup (l := a2 :: map m_pool tabs)); [apply Permutation_cons_append|]. constructor; [|exact ND]. intros I. apply in_map_iff in I. destruct I as (t & E & It). now destruct (PA t It) as (_ & ? & _).
      * contradiction.
    + intros [G1 G2]. constructor.
      * intros t It. apply in_app_or in It. destruct It as [It|[<-|[]]]; [rewrite HK by exact It; now apply G1|]. cbn [m_pool m_tab]. rewrite held_same. unfold nodes, all_nodes, table_init. cbn [tbuckets]. clear. induction (Z.to_nat _) as [|m IH]; cbn [repeat concat app map]; [constructor|exact IH].
      * intros a nn s I. rewrite F3. rewrite map_app. cbn [map m_pool]. rewrite Sh3, Sh2 in I. apply in_app_or in I. destruct I as [I|[I|[]]].
        -- destruct (SH1 _ I) as [I'|I']; [|cbn [fst] in I'; left; congruence]. destruct (G2 _ _ _ I') as [F|J]; [left|right; apply in_or_app; now left]. rewrite F in Hm. rewrite <- F1. rewrite F in E1. congruence.
        -- right. apply in_or_app. right. left. congruence.
    + cbn [m_self]. intros I. apply NS. now apply (Permutation_in _ (Permutation_sym P1)).
Qed.

(** replacing one table by another state of it, its node pool's elements by others *)
Lemma inv_change r r' l1 t l2 H t' l' : inv r (l1 ++ t :: l2) H -> hooks r' = hooks r -> state r' (held_now H (m_pool t) l') -> shape r' = shape r -> m_home t' = m_home t -> m_self t' = m_self t -> m_pool t' = m_pool t -> bounded t' ->
  (exists lost, Permutation l' (nodes (m_tab t') ++ lost)) -> inv r' (l1 ++ t' :: l2) (held_now H (m_pool t) l').
Proof.
  intros V HK S' Sh E1 E2 E3 B P. pose proof (fun tp => pool_ne_home r (l1 ++ t :: l2) H t tp V) as NH. destruct V as [St Hm Tb ND HK0]. constructor.
  - exact S'.
  - rewrite Sh. destruct (first_named table_pool (shape r)) as [tp|] eqn:F; [|now destruct l1]. destruct Hm as (I & HM & PM). split; [exact I|]. split.
    + intros x Ix. apply in_app_or in Ix. destruct Ix as [Ix|[<-|Ix]]; [apply HM, in_or_app; now left|rewrite E1; apply HM, in_or_app; right; now left|apply HM, in_or_app; right; now right].
    + rewrite held_other by (intros E; apply (NH tp); [apply in_or_app; right; now left|reflexivity|congruence]). rewrite PM, !map_app. cbn [map]. now rewrite E2.
  - intros x Ix. rewrite Sh. rewrite map_app in ND. cbn [map] in ND. apply NoDup_remove_2 in ND.
    assert (O : forall y, In y (l1 ++ l2) -> m_pool y <> m_pool t). { intros y Iy E. apply ND. rewrite <- map_app, <- E. now apply in_map. }
    apply in_app_or in Ix. destruct Ix as [Ix|[<-|Ix]].
    + rewrite held_other by (apply O, in_or_app; now left). apply Tb, in_or_app. now left.
    + rewrite E3, held_same. split; [apply Tb, in_or_app; right; now left|]. split; [exact P|exact B].
    + rewrite held_other by (apply O, in_or_app; now right). apply Tb, in_or_app. right; now right.
  - rewrite map_app in ND |- *. cbn [map] in ND |- *. now rewrite E3.
  - rewrite HK, Sh. exact HK0.
Qed.
Lemma tight_change r r' l1 t l2 H t' l' : inv r (l1 ++ t :: l2) H -> tight r (l1 ++ t :: l2) H -> shape r' = shape r -> m_pool t' = m_pool t -> Permutation l' (nodes (m_tab t')) -> tight r' (l1 ++ t' :: l2) (held_now H (m_pool t) l').
Proof.
  intros V [G1 G2] Sh E3 P. destruct V as [_ _ _ ND _]. constructor.
  - intros x Ix. rewrite map_app in ND. cbn [map] in ND. apply NoDup_remove_2 in ND.
    assert (O : forall y, In y (l1 ++ l2) -> m_pool y <> m_pool t). { intros y Iy E. apply ND. rewrite <- map_app, <- E. now apply in_map. }
    apply in_app_or in Ix. destruct Ix as [Ix|[<-|Ix]].
    + rewrite held_other by (apply O, in_or_app; now left). apply G1, in_or_app. now left.
    + now rewrite E3, held_same.
    + rewrite held_other by (apply O, in_or_app; now right). apply G1, in_or_app. right; now right.
  - intros a n s I. rewrite Sh in *. destruct (G2 a n s I) as [?|J]; [now left|right]. rewrite map_app in *. cbn [map] in *. now rewrite E3.
Qed.
Lemma bounded_upd (t : mtable K D) tb : bounded t -> tbits tb = tbits (m_tab t) -> length (tbuckets tb) = length (tbuckets (m_tab t)) -> bounded (mkmtable (m_home t) (m_self t) (m_pool t) tb).
Proof. unfold bounded, slot. intros B E1 E2 k. cbn [m_tab]. rewrite E1, E2. apply B. Qed.
Lemma chain_ok t k : bounded t -> exists c, chain_at K (D * elt) hash (m_tab t) k = Ok c.
Proof. intros B. unfold chain_at. specialize (B k). apply nth_error_Some in B. destruct (nth_error _ _) as [c|]; [now exists c|congruence]. Qed.

(** zt_table_set *)
Lemma tset_ok r l1 t l2 H k d : inv r (l1 ++ t :: l2) H -> exists rc t' r' H', tset hash cmp r t k d = Ok (rc, t', r') /\ inv r' (l1 ++ t' :: l2) H' /\ shape r' = shape r /\
  (rc <> 0 -> r' = r /\ t' = t /\ H' = H) /\
  (rc = 0 -> exists x, H' = held_now H (m_pool t) (x :: H (m_pool t)) /\ ~ In x (H (m_pool t)) /\ Permutation (nodes (m_tab t')) (x :: nodes (m_tab t)) /\ m_pool t' = m_pool t) /\
  (tight r (l1 ++ t :: l2) H -> tight r' (l1 ++ t' :: l2) H') /\ (rc = 0 \/ rc = 1) /\
  (exists c, chain_at K (D * elt) hash (m_tab t) k = Ok c /\ (rc = 1 <-> tdup (m_tab t) = false /\ find_node K (D * elt) hash cmp c k <> None)).
Proof.
  intros V. destruct (v_tab _ _ _ V t) as ((nm & I & NN) & (lost & P) & B); [apply in_or_app; right; now left|]. destruct (chain_ok t k B) as (c & C). unfold tset. rewrite C. cbn [obind].
  destruct (if tdup (m_tab t) then None else find_node K (D * elt) hash cmp c k) as [nd|] eqn:F.
  { exists 1, t, r, H. split; [reflexivity|]. split; [exact V|]. split; [reflexivity|]. split; [auto|]. split; [discriminate|]. split; [auto|]. split; [now right|]. exists c. split; [reflexivity|]. split; [|auto]. intros _. destruct (tdup (m_tab t)); [discriminate|]. split; [reflexivity|congruence]. }
  destruct (alloc_in_ok r H (m_pool t) _ _ (v_state _ _ _ V) I) as (r1 & x & E1 & S1 & Sh1 & HK1 & NI). rewrite E1. cbn [obind]. rewrite (room_ok r1 _ (m_pool t) (Some nm) 48 SIZEOF_NODE S1); [|now rewrite Sh1|unfold SIZEOF_NODE; lia]. cbn [safe obind].
  destruct (table_set K (D * elt) hash cmp (m_tab t) k (d, x)) as [[rc tb]| | |] eqn:E2; try (unfold table_set in E2; rewrite C in E2; cbn [obind] in E2; rewrite F in E2; discriminate). cbn [obind].
  assert (E2' := E2). unfold table_set in E2'. rewrite C in E2'. cbn [obind] in E2'. rewrite F in E2'. assert (RC : rc = 0) by congruence. assert (TB : tb = mktable (tbits (m_tab t)) (tdup (m_tab t)) (upd (tbuckets (m_tab t)) (slot K (D * elt) hash (m_tab t) k) (mknode k (d, x) (hash k) :: c))) by congruence. subst rc.
  pose proof (set_nodes _ _ _ _ _ _ _ _ _ E2) as PN. exists 0, (mkmtable (m_home t) (m_self t) (m_pool t) tb), r1, (held_now H (m_pool t) (x :: H (m_pool t))). split; [reflexivity|]. split; [|split; [exact Sh1|split; [congruence|split; [|split; [|split; [now left|]]]]]].
  - apply (inv_change r r1 l1 t l2 H); try reflexivity; auto.
    + apply bounded_upd; [exact B|now rewrite TB|]. rewrite TB. cbn [tbuckets]. apply upd_length.
    + cbn [m_tab]. exists lost. rewrite PN, P. reflexivity.
  - intros _. exists x. cbn [m_tab m_pool]. auto.
  - intros G. apply (tight_change r r1 l1 t l2 H); try reflexivity; auto. cbn [m_tab]. rewrite PN. constructor. apply (g_tab _ _ _ G), in_or_app. right; now left.
  - exists c. split; [reflexivity|]. split; [discriminate|]. intros [Z1 Z2]. rewrite Z1 in F. contradiction.
Qed.
(** zt_table_del *)
Lemma tdel_ok r l1 t l2 H k : inv r (l1 ++ t :: l2) H -> exists c x t' r' H', chain_at K (D * elt) hash (m_tab t) k = Ok c /\ tdel hash cmp r t k = Ok (x, t', r') /\ inv r' (l1 ++ t' :: l2) H' /\ shape r' = shape r /\ m_pool t' = m_pool t /\
  match depth K D hash cmp c k with
  | None => x = None /\ r' = r /\ t' = t /\ H' = H
  | Some j => x <> None /\ exists e lost rest, Permutation (nodes (m_tab t)) (e :: nodes (m_tab t') ++ lost) /\ length lost = (j - 1)%nat /\ Permutation (H (m_pool t)) (e :: rest) /\ H' = held_now H (m_pool t) rest
  end /\ (forall j, depth K D hash cmp c k = Some j -> (j <= 1)%nat -> tight r (l1 ++ t :: l2) H -> tight r' (l1 ++ t' :: l2) H').
Proof.
  intros V. destruct (v_tab _ _ _ V t) as ((nm & I & NN) & (lost & P) & B); [apply in_or_app; right; now left|]. destruct (chain_ok t k B) as (c & C). exists c. unfold tdel.
  assert (TD : exists x tb, table_del K (D * elt) hash cmp (m_tab t) k = Ok (x, tb)). { unfold table_del. rewrite C. cbn [obind]. destruct (del_chain _ _ _ _ _ _) as [[? ?]|]; eauto. }
  destruct TD as (x & tb & TD). rewrite TD. cbn [obind]. pose proof (del_none _ _ _ _ _ _ _ _ _ C TD) as DN. destruct x as [[d e]|].
  - destruct (del_nodes _ _ _ _ _ _ _ _ _ _ C TD) as (j & lo & E1 & PN & LL). rewrite E1.
    assert (PH : Permutation (H (m_pool t)) (e :: (nodes tb ++ lo) ++ lost)). { rewrite P, PN. reflexivity. }
    destruct (release_in_ok r H (m_pool t) _ _ e _ (v_state _ _ _ V) I PH) as (r1 & E2 & S1 & Sh1 & HK1). rewrite E2. cbn [obind]. exists (Some d), (mkmtable (m_home t) (m_self t) (m_pool t) tb), r1, (held_now H (m_pool t) ((nodes tb ++ lo) ++ lost)). split; [exact C|]. split; [reflexivity|]. split; [|split; [exact Sh1|split; [reflexivity|split]]].
    + apply (inv_change r r1 l1 t l2 H); try reflexivity; auto.
      * apply bounded_upd; [exact B| |]; unfold table_del in TD; rewrite C in TD; cbn [obind] in TD; destruct (del_chain _ _ _ _ _ _) as [[? c']|]; try discriminate; assert (TB : tb = mktable (tbits (m_tab t)) (tdup (m_tab t)) (upd (tbuckets (m_tab t)) (slot K (D * elt) hash (m_tab t) k) c')) by congruence; rewrite TB; [reflexivity|]. cbn [tbuckets]. apply upd_length.
      * cbn [m_tab]. exists (lo ++ lost). now rewrite app_assoc.
    + split; [discriminate|]. exists e, lo, ((nodes tb ++ lo) ++ lost). cbn [m_tab]. auto.
    + intros j' E' J G. assert (j' = j) by congruence. subst j'. assert (lo = []) by (destruct lo; [reflexivity|cbn [length] in LL; lia]). subst lo.
      apply (tight_change r r1 l1 t l2 H); try reflexivity; auto. cbn [m_tab]. pose proof (g_tab _ _ _ G t) as GT. specialize (GT ltac:(apply in_or_app; right; now left)). rewrite GT, PN, !app_nil_r in PH. apply Permutation_cons_inv in PH. rewrite app_nil_r. now symmetry.
  - rewrite (proj1 DN eq_refl). eexists _, t, r, H. split; [exact C|]. split; [reflexivity|]. split; [exact V|]. split; [reflexivity|]. split; [reflexivity|]. split; [auto|]. discriminate.
Qed.
(** zt_table_destroy *)
Lemma tdestroy_ok r l1 t l2 H : inv r (l1 ++ t :: l2) H -> exists r' H' lost, tdestroy r t = Ok r' /\ inv r' (l1 ++ l2) H' /\ Permutation (H (m_pool t)) (nodes (m_tab t) ++ lost) /\ Permutation (H' (m_pool t)) lost /\
  (forall b, b <> m_pool t -> b <> m_home t -> H' b = H b) /\ Permutation (H (m_home t)) (m_self t :: H' (m_home t)) /\
  (lost = [] -> shape r' = filter (fun x => negb (fst (fst x) =? m_pool t)%nat) (shape r)) /\ (lost <> [] -> shape r' = shape r) /\
  (tight r (l1 ++ t :: l2) H -> tight r' (l1 ++ l2) H').
Proof.
  intros V. pose proof (fun tp => pool_ne_home r (l1 ++ t :: l2) H t tp V) as NH. destruct V as [St Hm Tb ND HK0]. assert (It : In t (l1 ++ t :: l2)) by (apply in_or_app; right; now left). destruct (Tb t It) as ((nm & I & NN) & (lost & P) & B).
  destruct (first_named table_pool (shape r)) as [tp|] eqn:F; [|now destruct l1]. destruct Hm as (Itp & HM & PM). specialize (NH tp It eq_refl). assert (HT : m_home t = tp) by now apply HM. rewrite HT.
  unfold tdestroy. destruct (release_all_ok r (m_pool t) _ _ (nodes (m_tab t)) H lost St I P) as (r1 & H1 & E1 & S1 & P1 & O1 & Sh1 & HK1). rewrite E1. cbn [obind].
  destruct (destroy_in_ok r1 H1 (m_pool t) (Some nm) 48 S1) as (r2 & DA & DB & HK2); [now rewrite Sh1|].
  assert (D2 : exists rc, destroy r1 (m_pool t) = Ok (rc, r2) /\ state r2 H1 /\ (lost = [] -> shape r2 = filter (fun x => negb (fst (fst x) =? m_pool t)%nat) (shape r)) /\ (lost <> [] -> shape r2 = shape r)).
  { rewrite <- Sh1. destruct lost as [|x0 l0].
    - apply Permutation_sym, Permutation_nil in P1. destruct (DA P1) as (A & B' & C). exists 0. split; [exact A|]. split; [exact C|]. split; [auto|congruence].
    - assert (N0 : H1 (m_pool t) <> []) by (intros E; rewrite E in P1; now apply Permutation_nil in P1). destruct (DB N0) as (A & B' & C). exists (-1). split; [exact A|]. split; [exact C|]. split; [discriminate|auto]. }
  destruct D2 as (rc & E2 & S2 & SA & SB). rewrite E2. cbn [obind]. rewrite HT.
  assert (Itp2 : In (tp, Some table_pool, 80) (shape r2)). { destruct lost as [|x0 l0]; [rewrite (SA eq_refl); apply filter_In; split; [exact Itp|]; cbn [fst]; apply negb_true_iff, Nat.eqb_neq; congruence|]. rewrite SB by discriminate. exact Itp. }
  assert (PT : Permutation (H1 tp) (m_self t :: map m_self (l1 ++ l2))). { rewrite (O1 tp) by congruence. rewrite PM, !map_app. cbn [map]. symmetry. apply Permutation_middle. }
  destruct (release_in_ok r2 H1 tp _ _ (m_self t) _ S2 Itp2 PT) as (r3 & E3 & S3 & Sh3 & HK3). rewrite E3.
  assert (F3 : first_named table_pool (shape r3) = Some tp). { rewrite Sh3. destruct lost as [|x0 l0]; [rewrite (SA eq_refl)|rewrite SB by discriminate; exact F]. rewrite first_filter; [exact F|]. intros m s Im E. destruct (shape_inj r H (m_pool t) _ _ _ _ St I Im). congruence. }
  assert (ND' : NoDup (map m_pool (l1 ++ l2)) /\ forall y, In y (l1 ++ l2) -> m_pool y <> m_pool t). { rewrite map_app in ND. cbn [map] in ND. split; [rewrite map_app; now apply NoDup_remove_1 in ND|]. apply NoDup_remove_2 in ND. intros y Iy E. apply ND. rewrite <- map_app, <- E. now apply in_map. }
  destruct ND' as [ND' OT]. assert (IN : forall y, In y (l1 ++ l2) -> In y (l1 ++ t :: l2)) by (intros y Iy; apply in_app_or in Iy; apply in_or_app; destruct Iy; [now left|right; now right]).
  assert (OP : forall y, In y (l1 ++ l2) -> m_pool y <> tp). { intros y Iy E. destruct (Tb y (IN y Iy)) as ((n2 & I2 & N2) & _). rewrite E in I2. destruct (shape_inj r H tp _ _ _ _ St I2 Itp). congruence. }
  exists r3, (held_now H1 tp (map m_self (l1 ++ l2))), lost. split; [reflexivity|]. split; [|split; [exact P|split; [|split; [|split; [|split; [|split]]]]]].
  - constructor; [exact S3| | |exact ND'|intros Z; rewrite HK3, HK2, HK1 in Z; rewrite (HK0 Z) in I; destruct I].
    + rewrite F3, Sh3. split; [exact Itp2|]. split; [intros y Iy; now apply HM, IN|]. now rewrite held_same.
    + intros y Iy. destruct (Tb y (IN y Iy)) as ((n2 & I2 & N2) & (lo & PL) & BY). split; [|split; [|exact BY]].
      * exists n2. split; [|exact N2]. rewrite Sh3. destruct lost as [|x0 l0]; [rewrite (SA eq_refl); apply filter_In; split; [exact I2|]; cbn [fst]; apply negb_true_iff, Nat.eqb_neq; now apply OT|]. rewrite SB by discriminate. exact I2.
      * exists lo. rewrite held_other by now apply OP. now rewrite (O1 _ (OT y Iy)).
  - now rewrite held_other by congruence.
  - intros b B1 B2. rewrite held_other by exact B2. now apply O1.
  - rewrite held_same. rewrite <- PT. now rewrite (O1 tp) by congruence.
  - intros E. rewrite Sh3. auto.
  - intros E. rewrite Sh3. auto.
  - intros [G1 G2]. assert (L0 : lost = []). { pose proof (G1 t It) as X. rewrite P in X. apply Permutation_length in X. rewrite app_length in X. destruct lost; [reflexivity|cbn [length] in X; lia]. } constructor.
    + intros y Iy. rewrite held_other by now apply OP. rewrite (O1 _ (OT y Iy)). now apply G1, IN.
    + intros a n s Ia. rewrite F3. rewrite Sh3, (SA L0) in Ia. apply filter_In in Ia. destruct Ia as [Ia Na]. cbn [fst] in Na. destruct (G2 a n s Ia) as [E|J]; [left; congruence|]. right. apply negb_true_iff, Nat.eqb_neq in Na. rewrite map_app in *. cbn [map] in J. apply in_app_or in J. apply in_or_app. destruct J as [J|[J|J]]; auto. congruence.
Qed.
End Inv.
