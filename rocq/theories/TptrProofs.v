(** zt_table.c with chains in memory: the representation relation and the simulation lemmas. *)
From Verif Require Import Prelude HashModel TableModel TptrModel TptrSpec.
From Coq Require Import Permutation.
Open Scope Z_scope.

Section T.
Variable K D : Type.
Variable hash : K -> Z.
Variable cmp : K -> K -> bool.
Variable pick : nat -> list nat -> nat.
Hypothesis fresh : forall c l, ~ In (pick c l) l.
Notation heap := (heap K D).
Notation nd := (node K D).
Notation an := (nat * nd)%type.
Notation slot := (TableModel.slot K D hash).
Notation hit := (TableModel.hit K D hash cmp).

Lemma look_in (l : list (nat * hnode K D)) x n : look l x = Some n -> In x (map fst l).
Proof. induction l as [|[y m] l IH]; cbn [look map fst]; [discriminate|]. destruct (Nat.eqb_spec y x) as [->|]; [now left|]. intros E. right. now apply IH. Qed.
Lemma look_not (l : list (nat * hnode K D)) x : look l x = None <-> ~ In x (map fst l).
Proof. induction l as [|[y m] l IH]; cbn [look map fst In]; [tauto|]. destruct (Nat.eqb_spec y x) as [->|N]; [split; [discriminate|tauto]|]. rewrite IH. tauto. Qed.
Lemma look_put_same (h : heap) x n m : look (cells h) x = Some m -> look (cells (hput h x n)) x = Some n.
Proof. unfold hput. cbn [cells]. induction (cells h) as [|[y v] l IH]; cbn [look map fst]; [discriminate|]. destruct (Nat.eqb_spec y x) as [->|N]; cbn [look]; [now rewrite Nat.eqb_refl|]. replace (y =? x)%nat with false by (symmetry; now apply Nat.eqb_neq). exact IH. Qed.
Lemma look_put_other (h : heap) x n y : y <> x -> look (cells (hput h x n)) y = look (cells h) y.
Proof. intros N. unfold hput. cbn [cells]. induction (cells h) as [|[z v] l IH]; cbn [look map fst]; [reflexivity|]. destruct (Nat.eqb_spec z x) as [->|N2]; cbn [look]; [replace (x =? y)%nat with false by (symmetry; now apply Nat.eqb_neq, not_eq_sym)|]; now rewrite IH. Qed.
Lemma look_free_other (h : heap) x y : y <> x -> look (cells (hfree h x)) y = look (cells h) y.
Proof.
  intros N. unfold hfree. cbn [cells]. induction (cells h) as [|[z v] l IH]; cbn [look filter fst]; [reflexivity|]. destruct (Nat.eqb_spec z x) as [->|N2]; cbn [look negb]; [replace (x =? y)%nat with false by (symmetry; now apply Nat.eqb_neq, not_eq_sym)|]; now rewrite IH.
Qed.
Lemma put_keys (h : heap) x n : map fst (cells (hput h x n)) = map fst (cells (K := K) (D := D) h).
Proof. unfold hput. cbn [cells]. rewrite map_map. apply map_ext. intros [y v]. cbn [fst]. destruct (Nat.eqb_spec y x) as [->|]; reflexivity. Qed.
Lemma free_keys (h : heap) x : map fst (cells (hfree h x)) = filter (fun y => negb (y =? x)%nat) (map fst (cells h)).
Proof. unfold hfree. cbn [cells]. induction (cells h) as [|[y v] l IH]; [reflexivity|]. cbn [filter map fst]. destruct (y =? x)%nat; cbn [negb map fst]; now rewrite IH. Qed.

Lemma Forall2_len {A B} (R : A -> B -> Prop) l m : Forall2 R l m -> length l = length m.
Proof. induction 1; cbn [length]; congruence. Qed.
Lemma chain_ext (h h' : heap) : forall l p, chain h p l -> (forall x, In x (map fst l) -> look (cells h') x = look (cells h) x) -> chain h' p l.
Proof.
  induction l as [|[x n] l IH]; intros p C E; cbn [chain] in *; [exact C|]. destruct C as (-> & q & Lk & C). split; [reflexivity|]. exists q. split; [rewrite (E x (or_introl eq_refl)); exact Lk|]. apply IH; [exact C|]. intros y I. apply E. now right.
Qed.
Lemma chain_in (h : heap) : forall l p, chain h p l -> incl (map fst l) (map fst (cells h)).
Proof. induction l as [|[x n] l IH]; intros p C; cbn [chain map] in *; [intros x []|]. destruct C as (-> & q & Lk & C). intros y [<-|I]; [now apply (look_in _ _ (cell n q))|now apply (IH q C)]. Qed.
Lemma chains_ext (h h' : heap) bs L : Forall2 (chain h) bs L -> (forall x, In x (map fst (concat L)) -> look (cells h') x = look (cells h) x) -> Forall2 (chain h') bs L.
Proof.
  intros F. induction F as [|p c bs L C F IH]; intros E; [constructor|]. cbn [concat] in E. rewrite map_app in E. constructor; [apply (chain_ext h); [exact C|]; intros x I; apply E, in_or_app; now left|]. apply IH. intros x I. apply E, in_or_app. now right.
Qed.
Lemma chains_in (h : heap) bs L : Forall2 (chain h) bs L -> incl (map fst (concat L)) (map fst (cells h)).
Proof. intros F. induction F as [|p c bs L C F IH]; [intros x []|]. cbn [concat]. rewrite map_app. intros x I. apply in_app_or in I. destruct I as [I|I]; [now apply (chain_in h c p)|now apply IH]. Qed.

(** one bucket *)
Lemma rep_at (h : heap) t L i p : rep h t L -> nth_error (pbuckets t) i = Some p -> exists b1 b2 L1 c L2, pbuckets t = b1 ++ p :: b2 /\ L = L1 ++ c :: L2 /\ length b1 = i /\ length L1 = i /\ chain h p c /\ Forall2 (chain h) b1 L1 /\ Forall2 (chain h) b2 L2.
Proof.
  intros R N. apply nth_error_split in N. destruct N as (b1 & b2 & E & Li). pose proof (r_chains _ _ _ R) as F. rewrite E in F. apply Forall2_app_inv_l in F. destruct F as (L1 & L2' & F1 & F2 & EL). inversion F2 as [|? c ? L2 C F3]; subst. exists b1, b2, L1, c, L2. split; [exact E|]. split; [reflexivity|]. split; [reflexivity|]. split; [|auto]. now rewrite <- (Forall2_len _ _ _ F1).
Qed.
Lemma rep_len (h : heap) t L i p c : rep h t L -> nth_error L i = Some c -> chain h p c -> (length c <= length (cells h))%nat.
Proof.
  intros R N C. apply nth_error_split in N. destruct N as (L1 & L2 & E & _). pose proof (r_apart _ _ _ R) as ND. rewrite E, concat_app in ND. cbn [concat] in ND. rewrite !map_app in ND.
  rewrite <- (map_length fst c), <- (map_length fst (cells h)). apply NoDup_incl_length; [|now apply (chain_in h c p)].
  assert (G : forall (a b d : list nat), NoDup (a ++ b ++ d) -> NoDup b). { induction a as [|x a IH]; intros b d N; cbn [app] in N; [|inversion N; subst; now apply (IH b d)]. induction b as [|x b IHb]; [constructor|]. cbn [app] in N. inversion N as [|? ? N1 N2]; subst. constructor; [intros I; apply N1, in_or_app; now left|now apply IHb]. }
  now apply (G _ _ _ ND).
Qed.
Lemma tab_at t (L : list (list an)) i : nth_error (tbuckets (tab t L)) i = option_map (map snd) (nth_error L i).
Proof. unfold tab. cbn [tbuckets]. revert i. induction L as [|c L IH]; intros [|i]; cbn [map nth_error option_map]; auto. Qed.
Lemma rep_same_len (h : heap) t L : rep h t L -> length (pbuckets t) = length L.
Proof. intros R. apply (Forall2_len _ _ _ (r_chains _ _ _ R)). Qed.

(** looking a key up *)
Lemma pfind_ok (h : heap) k : forall c fuel p, chain h p c -> (length c < fuel)%nat -> exists r, pfind hash cmp fuel h p k = Ok r /\ match find_node K D hash cmp (map snd c) k with None => r = None | Some n => exists q, r = Some (cell n q) end.
Proof.
  induction c as [|[x n] c IH]; intros [|f] p C Lf; cbn [length] in Lf; try lia; cbn [chain] in C.
  - subst p. exists None. now split.
  - destruct C as (-> & q & Lk & C). cbn [pfind map snd find_node]. unfold hget. rewrite Lk. cbn [obind cell hh hk hn]. unfold TableModel.hit. destruct ((nhash n =? hash k) && cmp (nkey n) k).
    + exists (Some (cell n q)). split; [reflexivity|]. now exists q.
    + apply IH; [exact C|lia].
Qed.
Lemma slot_tab t (L : list (list an)) k : slot (tab t L) k = pslot hash t k.
Proof. reflexivity. Qed.
Lemma chain_at_ok (h : heap) t L k c : rep h t L -> chain_at K D hash (tab t L) k = Ok c -> exists p a, head_at t (pslot hash t k) = Ok p /\ nth_error L (pslot hash t k) = Some a /\ chain h p a /\ c = map snd a.
Proof.
  intros R E. unfold chain_at in E. rewrite slot_tab, tab_at in E. destruct (nth_error L (pslot hash t k)) as [a|] eqn:N; cbn [option_map] in E; [|discriminate].
  assert (Hl : (pslot hash t k < length (pbuckets t))%nat) by (rewrite (rep_same_len _ _ _ R); apply nth_error_Some; congruence). apply nth_error_Some in Hl. destruct (nth_error (pbuckets t) (pslot hash t k)) as [p|] eqn:P; [|congruence].
  exists p, a. unfold head_at. rewrite P. split; [reflexivity|]. split; [reflexivity|]. destruct (rep_at h t L _ p R P) as (b1 & b2 & L1 & c' & L2 & _ & EL & _ & Li & C & _). assert (X : a = c'). { rewrite EL, <- Li in N. rewrite nth_error_app2, Nat.sub_diag in N by lia. cbn [nth_error] in N. congruence. } subst a. split; [exact C|congruence].
Qed.

(** replacing the chain of one bucket *)
Lemma rep_change (h h' : heap) t L i p p' c c' : rep h t L -> nth_error (pbuckets t) i = Some p -> nth_error L i = Some c -> chain h' p' c' ->
  (forall x, In x (map fst (concat L)) -> ~ In x (map fst c) -> look (cells h') x = look (cells h) x) -> NoDup (map fst c') -> (forall x, In x (map fst c') -> In x (map fst c) \/ ~ In x (map fst (concat L))) -> NoDup (map fst (cells h')) ->
  rep h' (set_head t i p') (upd L i c').
Proof.
  intros R P N C FR ND' NW NH. destruct (rep_at h t L i p R P) as (b1 & b2 & L1 & c0 & L2 & EB & EL & Lb & Li & C0 & F1 & F2). assert (c0 = c). { rewrite EL, <- Li, nth_error_app2, Nat.sub_diag in N by lia. cbn [nth_error] in N. congruence. } subst c0.
  assert (UB_ : upd (pbuckets t) i p' = b1 ++ p' :: b2) by (rewrite EB, <- Lb, upd_app_r by lia; now rewrite Nat.sub_diag). assert (UL : upd L i c' = L1 ++ c' :: L2) by (rewrite EL, <- Li, upd_app_r by lia; now rewrite Nat.sub_diag).
  pose proof (r_apart _ _ _ R) as ND. rewrite EL, concat_app in ND. cbn [concat] in ND. rewrite !map_app in ND.
  assert (DJ : forall x, In x (map fst (concat L1)) \/ In x (map fst (concat L2)) -> ~ In x (map fst c)).
  { intros x Ix Ic. apply (Permutation_NoDup (Permutation_app_swap_app _ _ _)) in ND. revert ND Ix Ic. generalize (map fst c) (map fst (concat L1)) (map fst (concat L2)). clear. induction l as [|y l IH]; intros l1 l2 ND Ix Ic; [destruct Ic|]. cbn [app] in ND. inversion ND as [|? ? N1 N2]; subst.
    destruct Ic as [->|Ic]; [apply N1, in_or_app; right; apply in_or_app; tauto|]. now apply (IH l1 l2). }
  assert (IL : forall x, In x (map fst (concat L1)) \/ In x (map fst (concat L2)) -> In x (map fst (concat L))). { intros x Ix. rewrite EL, concat_app. cbn [concat]. rewrite !map_app. apply in_or_app. destruct Ix; [now left|right; apply in_or_app; now right]. }
  constructor.
  - unfold set_head. cbn [pbuckets]. rewrite UB_, UL. apply Forall2_app; [apply (chains_ext h); [exact F1|]; intros x I; apply FR; [apply IL|apply DJ]; now left|]. constructor; [exact C|]. apply (chains_ext h); [exact F2|]; intros x I; apply FR; [apply IL|apply DJ]; now right.
  - rewrite UL, concat_app. cbn [concat]. rewrite !map_app. apply (Permutation_NoDup (Permutation_app_swap_app _ _ _)). apply (Permutation_NoDup (Permutation_app_swap_app _ _ _)) in ND.
    assert (G : forall a b d : list nat, NoDup (a ++ d) -> NoDup b -> (forall x, In x b -> ~ In x d) -> NoDup (b ++ d)). { intros a b d N1 N2 N3. induction b as [|y b IH]; cbn [app]; [clear - N1; induction a; [exact N1|cbn [app] in N1; inversion N1; subst; auto]|]. inversion N2; subst. constructor; [intros J; apply in_app_or in J; destruct J as [J|J]; [contradiction|apply (N3 y); [now left|exact J]]|]. apply IH; [assumption|]. intros x Ix. apply N3. now right. }
    apply (G (map fst c)); [exact ND|exact ND'|]. intros x Ix J. apply in_app_or in J. destruct (NW x Ix) as [Ic|Nc]; [now apply (DJ x)|]. apply Nc, IL, J.
  - exact NH.
Qed.
Lemma set_tab t (L : list (list an)) i p' c' : tab (set_head t i p') (upd L i c') = mktable (pbits t) (pdup t) (upd (map (map snd) L) i (map snd c')).
Proof. unfold tab, set_head. cbn [pbits pdup]. f_equal. revert i. induction L as [|a L IH]; intros [|i]; cbn [upd map]; try reflexivity. now rewrite IH. Qed.
Lemma upd_id {A} (l : list A) i x : nth_error l i = Some x -> upd l i x = l.
Proof. revert i. induction l as [|y l IH]; intros [|i] E; cbn [nth_error upd] in *; try discriminate; [congruence|]. f_equal. now apply IH. Qed.
Lemma head_nth t i p : head_at t i = Ok p -> nth_error (pbuckets t) i = Some p.
Proof. unfold head_at. destruct (nth_error _ _); congruence. Qed.

(** zt_table_set *)
Lemma pset_ok (h : heap) t L k d fuel rc T' : rep h t L -> (length (cells h) < fuel)%nat -> table_set K D hash cmp (tab t L) k d = Ok (rc, T') ->
  exists h' t' L', pset hash cmp pick fuel h t k d = Ok (rc, h', t') /\ rep h' t' L' /\ tab t' L' = T' /\ (forall x, In x (map fst (cells h)) -> look (cells h') x = look (cells h) x) /\ incl (map fst (cells h)) (map fst (cells h')) /\
    (rc = 0 -> exists x c, nth_error L (pslot hash t k) = Some c /\ L' = upd L (pslot hash t k) ((x, mknode k d (hash k)) :: c) /\ map fst (cells h') = x :: map fst (cells h) /\ ~ In x (map fst (cells h))) /\ (rc <> 0 -> h' = h /\ t' = t /\ L' = L).
Proof.
  intros R Lf E. unfold table_set in E. apply obind_ok in E. destruct E as (c & C & E). destruct (chain_at_ok h t L k c R C) as (p & a & P & N & Ch & ->). unfold pset. rewrite P. cbn [obind]. pose proof (rep_len h t L _ p a R N Ch) as La.
  assert (X : exists r, (if pdup t then Ok None else pfind hash cmp fuel h p k) = Ok r /\ match (if tdup (tab t L) then None else find_node K D hash cmp (map snd a) k) with None => r = None | Some n => exists q, r = Some (cell n q) end).
  { change (tdup (tab t L)) with (pdup t). destruct (pdup t); [exists None; auto|]. apply pfind_ok; [exact Ch|lia]. }
  destruct X as (r & Er & Xr). rewrite Er. cbn [obind]. destruct (if tdup (tab t L) then None else find_node K D hash cmp (map snd a) k) as [n|].
  - destruct Xr as (q & ->). assert (rc = 1) by congruence. assert (T' = tab t L) by congruence. subst. exists h, t, L. split; [reflexivity|]. split; [exact R|]. split; [reflexivity|]. split; [auto|]. split; [apply incl_refl|]. split; [discriminate|auto].
  - subst r. assert (rc = 0) by congruence. subst rc. cbn [halloc]. set (x := pick (clock h) (map fst (cells h))). assert (NI : ~ In x (map fst (cells h))) by apply fresh.
    eexists _, _, (upd L (pslot hash t k) ((x, mknode k d (hash k)) :: a)). split; [reflexivity|]. assert (LK : forall y, In y (map fst (cells h)) -> look ((x, mkhnode k d (hash k) p) :: cells h) y = look (cells h) y). { intros y Iy. cbn [look]. replace (x =? y)%nat with false; [reflexivity|]. symmetry. apply Nat.eqb_neq. intros ->. contradiction. }
    assert (IC := chains_in _ _ _ (r_chains _ _ _ R)). assert (Ia : incl (map fst a) (map fst (cells h))) by now apply (chain_in h a p).
    split; [|split; [|split; [|split; [|split]]]].
    + apply (rep_change h _ t L _ p _ a).
      * exact R.
      * now apply head_nth.
      * exact N.
      * cbn [chain]. split; [reflexivity|]. exists p. split; [cbn [cells look]; now rewrite Nat.eqb_refl|]. apply (chain_ext h); [exact Ch|]. intros y Iy. cbn [cells]. apply LK. now apply Ia.
      * intros y Iy _. cbn [cells]. now apply LK, IC.
      * cbn [map fst]. constructor; [intros J; now apply NI, Ia|]. apply nth_error_split in N. destruct N as (L1 & L2 & E1 & _). pose proof (r_apart _ _ _ R) as ND. rewrite E1, concat_app in ND. cbn [concat] in ND. rewrite !map_app in ND. apply (Permutation_NoDup (Permutation_app_swap_app _ _ _)) in ND. clear - ND. induction (map fst a) as [|y l IH]; [constructor|]. cbn [app] in ND. inversion ND; subst. constructor; [intros J; apply H1, in_or_app; now left|auto].
      * intros y [<-|Iy]; [right; intros J; now apply NI, IC|now left].
      * cbn [cells map fst]. constructor; [exact NI|apply (r_heap _ _ _ R)].
    + rewrite set_tab. cbn [map snd]. assert (X : Ok (0, mktable (pbits t) (pdup t) (upd (map (map snd) L) (pslot hash t k) (mknode k d (hash k) :: map snd a))) = Ok (0, T')) by exact E. congruence.
    + cbn [cells]. exact LK.
    + cbn [cells map]. apply incl_tl, incl_refl.
    + intros _. exists x, a. auto.
    + congruence.
Qed.
Lemma pget_ok (h : heap) t L k fuel r : rep h t L -> (length (cells h) < fuel)%nat -> table_get K D hash cmp (tab t L) k = Ok r -> pget hash cmp fuel h t k = Ok r.
Proof.
  intros R Lf E. unfold table_get in E. apply obind_ok in E. destruct E as (c & C & E). destruct (chain_at_ok h t L k c R C) as (p & a & P & N & Ch & ->). unfold pget. rewrite P. cbn [obind]. pose proof (rep_len h t L _ p a R N Ch) as La.
  destruct (pfind_ok h k a fuel p Ch ltac:(lia)) as (x & Ex & X). rewrite Ex. cbn [obind]. destruct (find_node K D hash cmp (map snd a) k) as [n|]; [destruct X as (q & ->); cbn [cell hd]; congruence|subst x; congruence].
Qed.

(** zt_table_del *)
Lemma pdel_loop_ok (h : heap) t i x0 n0 q0 k : look (cells h) x0 = Some (cell n0 q0) -> forall c fuel p, chain h p c -> (length c < fuel)%nat -> ~ In x0 (map fst c) ->
  match del_loop K D hash cmp n0 (map snd c) k with
  | None => pdel_loop hash cmp fuel h t i x0 p k = Ok (None, h, t)
  | Some (d, c') => exists c1 x n q c2, c = c1 ++ (x, n) :: c2 /\ d = ndatum n /\ c' = n0 :: map snd c2 /\ chain h q c2 /\ pdel_loop hash cmp fuel h t i x0 p k = Ok (Some d, hfree (hput h x0 (cell n0 q)) x, t)
  end.
Proof.
  intros L0. induction c as [|[x n] c IH]; intros [|f] p C Lf NI; cbn [length] in Lf; try lia; cbn [chain] in C; cbn [map snd del_loop].
  - subst p. reflexivity.
  - destruct C as (-> & q & Lk & C). destruct (hit n k) eqn:Hn.
    + exists [], x, n, q, c. split; [reflexivity|]. split; [reflexivity|]. split; [reflexivity|]. split; [exact C|]. unfold TableModel.hit in Hn. cbn [pdel_loop]. unfold hget. rewrite Lk. cbn [obind cell hh hk hn hd]. rewrite Hn. replace (x0 =? x)%nat with false by (symmetry; apply Nat.eqb_neq; intros ->; apply NI; now left). rewrite L0. reflexivity.
    + assert (ST : pdel_loop hash cmp (S f) h t i x0 (Some x) k = pdel_loop hash cmp f h t i x0 q k). { unfold TableModel.hit in Hn. cbn [pdel_loop]. unfold hget at 1. rewrite Lk. cbn [obind cell hh hk hn hd]. now rewrite Hn. }
      specialize (IH f q C ltac:(lia) ltac:(intros J; apply NI; now right)). destruct (del_loop K D hash cmp n0 (map snd c) k) as [[d c']|]; [|congruence]. destruct IH as (c1 & y & m & q' & c2 & -> & H2 & H3 & H4 & H5). exists ((x, n) :: c1), y, m, q', c2. rewrite ST. auto.
Qed.
Lemma pdel_ok (h : heap) t L k fuel r T' : rep h t L -> (length (cells h) < fuel)%nat -> table_del K D hash cmp (tab t L) k = Ok (r, T') ->
  exists h' t' L', pdel hash cmp fuel h t k = Ok (r, h', t') /\ rep h' t' L' /\ tab t' L' = T' /\ clock h' = clock h /\
    (r = None -> h' = h /\ t' = t /\ L' = L) /\ (r <> None -> exists x, In x (map fst (concat L)) /\ map fst (cells h') = filter (fun y => negb (y =? x)%nat) (map fst (cells h)) /\ (forall y, ~ In y (map fst (concat L)) -> look (cells h') y = look (cells h) y)).
Proof.
  intros R Lf E. unfold table_del in E. apply obind_ok in E. destruct E as (c & C & E). destruct (chain_at_ok h t L k c R C) as (p & a & P & N & Ch & ->). unfold pdel. rewrite P. cbn [obind]. pose proof (rep_len h t L _ p a R N Ch) as La.
  assert (NA : NoDup (map fst a)). { assert (N' := N). apply nth_error_split in N'. destruct N' as (L1 & L2 & E1 & _). pose proof (r_apart _ _ _ R) as ND. rewrite E1, concat_app in ND. cbn [concat] in ND. rewrite !map_app in ND. apply (Permutation_NoDup (Permutation_app_swap_app _ _ _)) in ND. clear - ND. induction (map fst a) as [|y l IH]; [constructor|]. cbn [app] in ND. inversion ND; subst. constructor; [intros J; apply H1, in_or_app; now left|auto]. }
  assert (IA : incl (map fst a) (map fst (concat L))). { apply nth_error_split in N. destruct N as (L1 & L2 & E1 & _). rewrite E1, concat_app. cbn [concat]. rewrite !map_app. intros y Iy. apply in_or_app. right. apply in_or_app. now left. }
  destruct a as [|[x n] a]; cbn [map snd del_chain chain] in *.
  { subst p. exists h, t, L. assert (r = None) by congruence. assert (T' = tab t L) by congruence. subst. split; [reflexivity|]. split; [exact R|]. split; [reflexivity|]. split; [reflexivity|]. split; [auto|congruence]. }
  destruct Ch as (-> & q & Lk & Ch). inversion NA as [|? ? NA1 NA2]; subst. destruct (hit n k) eqn:Hn.
  - (* the first node *)
    assert (r = Some (ndatum n)) by congruence. subst r. destruct fuel as [|f]; [lia|]. cbn [pdel_loop]. unfold hget. rewrite Lk. cbn [obind cell hh hk hn hd]. unfold TableModel.hit in Hn. rewrite Hn, Nat.eqb_refl. cbn [obind].
    exists (hfree h x), (set_head t (pslot hash t k) q), (upd L (pslot hash t k) a). split; [reflexivity|]. split; [|split; [rewrite set_tab; assert (X : Ok (Some (ndatum n), mktable (pbits t) (pdup t) (upd (map (map snd) L) (pslot hash t k) (map snd a))) = Ok (Some (ndatum n), T')) by exact E; congruence|split; [reflexivity|split; [congruence|]]]].
    + apply (rep_change h _ t L _ (Some x) _ ((x, n) :: a)); try assumption.
      * now apply head_nth.
      * apply (chain_ext h); [exact Ch|]. intros y Iy. apply look_free_other. intros ->. contradiction.
      * intros y Iy Ny. apply look_free_other. intros ->. apply Ny. now left.
      * intros y Iy. left. now right.
      * rewrite free_keys. apply NoDup_filter. apply (r_heap _ _ _ R).
    + intros _. exists x. split; [apply IA; now left|]. split; [apply free_keys|]. intros y Ny. apply look_free_other. intros ->. apply Ny, IA. now left.
  - destruct fuel as [|f]; [lia|]. cbn [pdel_loop]. unfold hget at 1. rewrite Lk. cbn [obind cell hh hk hn hd]. unfold TableModel.hit in Hn. rewrite Hn. cbn [length] in La.
    pose proof (pdel_loop_ok h t (pslot hash t k) x n q k Lk a f q Ch ltac:(lia) NA1) as X. destruct (del_loop K D hash cmp n (map snd a) k) as [[d c']|].
    + destruct X as (c1 & y & m & q' & c2 & Ea & -> & -> & C2 & EX). assert (r = Some (ndatum m)) by congruence. subst r. rewrite EX. subst a. rewrite map_app in *. cbn [map fst] in *.
      assert (NY : x <> y) by (intros ->; apply NA1, in_or_app; right; now left). assert (NX2 : ~ In x (map fst c2)) by (intros J; apply NA1, in_or_app; right; now right). assert (NY2 : ~ In y (map fst c2)) by (apply NoDup_remove_2 in NA2; intros J; apply NA2, in_or_app; now right).
      exists (hfree (hput h x (cell n q')) y), t, (upd L (pslot hash t k) ((x, n) :: c2)). split; [reflexivity|]. assert (ST : set_head t (pslot hash t k) (Some x) = t). { unfold set_head. rewrite upd_id by now apply head_nth. now destruct t. }
      assert (ET : T' = mktable (pbits t) (pdup t) (upd (map (map snd) L) (pslot hash t k) (n :: map snd c2))). { assert (X : Ok (Some (ndatum m), mktable (pbits t) (pdup t) (upd (map (map snd) L) (pslot hash t k) (n :: map snd c2))) = Ok (Some (ndatum m), T')) by exact E. congruence. } assert (SB := set_tab t L (pslot hash t k) (Some x) ((x, n) :: c2)). rewrite ST in SB. split; [|split; [rewrite SB; cbn [map snd]; congruence|split; [reflexivity|split; [congruence|]]]].
      * assert (G : rep (hfree (hput h x (cell n q')) y) (set_head t (pslot hash t k) (Some x)) (upd L (pslot hash t k) ((x, n) :: c2))); [|rewrite ST in G; exact G]. apply (rep_change h _ t L _ (Some x) _ ((x, n) :: c1 ++ (y, m) :: c2)); try assumption.
        -- now apply head_nth.
        -- cbn [chain]. split; [reflexivity|]. exists q'. split; [rewrite look_free_other by exact NY; now apply (look_put_same h x _ (cell n q))|]. apply (chain_ext h); [exact C2|]. intros z Iz. rewrite look_free_other, look_put_other; [reflexivity| |]; intros ->; contradiction.
        -- intros z Iz Nz. cbn [map fst] in Nz. rewrite map_app in Nz. cbn [map fst] in Nz. rewrite look_free_other, look_put_other; [reflexivity| |]; intros ->; apply Nz; [now left|right; apply in_or_app; right; now left].
        -- cbn [map fst]. constructor; [exact NX2|]. apply NoDup_remove_1 in NA2. clear - NA2. induction (map fst c1) as [|z l IH]; [exact NA2|]. cbn [app] in NA2. inversion NA2; subst. auto.
        -- cbn [map fst]. rewrite map_app. cbn [map fst]. intros z [<-|Iz]; left; [now left|right; apply in_or_app; right; now right].
        -- rewrite free_keys, put_keys. apply NoDup_filter. apply (r_heap _ _ _ R).
      * intros _. exists y. split; [apply IA; right; apply in_or_app; right; now left|]. split; [rewrite free_keys, put_keys; reflexivity|]. intros z Nz. rewrite look_free_other, look_put_other; [reflexivity| |]; intros ->; apply Nz, IA; [now left|right; apply in_or_app; right; now left].
    + rewrite X. exists h, t, L. assert (r = None) by congruence. assert (T' = tab t L) by congruence. subst. split; [reflexivity|]. split; [exact R|]. split; [reflexivity|]. split; [reflexivity|]. split; [auto|congruence].
Qed.
End T.
