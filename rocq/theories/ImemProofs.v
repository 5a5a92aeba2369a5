From Verif Require Import Prelude MemModel MemProofs RegModel RegSpec PropReg TmemModel TmemProofs ImemModel ImemSpec.
From Verif Require Ipv4Model.
Import Ipv4Model (tbl, rows, tin, tsz, tany, mktbl, nid, naddr, mknode, bitlen, a_addr, netmask, make_addr, tbl_init, add_node, addr_cmp).
From Coq Require Import Permutation Sorted.
Open Scope Z_scope.

(** the elements in use in the pools of a name *)
Notation shp := (nat * option text * Z)%type.
Definition is_ (n : text) (s : shp) : bool := match snd (fst s) with Some m => if list_eq_dec Z.eq_dec m n then true else false | None => false end.
Definition handles (sh : list shp) (H : nat -> list elt) (n : text) : list handle := flat_map (fun s : shp => if is_ n s then map (pair (fst (fst s))) (H (fst (fst s))) else []) sh.
Lemma is_self n a s : is_ n (a, Some n, s) = true.
Proof. unfold is_. cbn [fst snd]. destruct (list_eq_dec Z.eq_dec n n); [reflexivity|contradiction]. Qed.
Lemma is_other n m a s : m <> n -> is_ n (a, Some m, s) = false.
Proof. intros D. unfold is_. cbn [fst snd]. destruct (list_eq_dec Z.eq_dec m n); [contradiction|reflexivity]. Qed.
Lemma is_true n s : is_ n s = true -> snd (fst s) = Some n.
Proof. unfold is_. destruct (snd (fst s)) as [m|]; [|discriminate]. destruct (list_eq_dec Z.eq_dec m n); [now subst|discriminate]. Qed.
Lemma handles_in sh H n a x : In (a, x) (handles sh H n) <-> exists s, In (a, Some n, s) sh /\ In x (H a).
Proof.
  unfold handles. rewrite in_flat_map. split.
  - intros ([[b m] s] & I & J). cbn [fst snd] in J. destruct (is_ n (b, m, s)) eqn:E; [|destruct J]. apply is_true in E. cbn [fst snd] in E. subst m. apply in_map_iff in J. destruct J as (y & Ey & Iy). exists s. assert (b = a /\ y = x) as (-> & ->) by (split; congruence). auto.
  - intros (s & I & J). exists (a, Some n, s). split; [exact I|]. rewrite is_self. cbn [fst snd]. now apply in_map.
Qed.
Lemma handles_same sh H H' n : (forall a m s, In (a, m, s) sh -> H a = H' a) -> handles sh H n = handles sh H' n.
Proof. intros E. unfold handles. induction sh as [|[[a m] s] sh IH]; [reflexivity|]. cbn [flat_map fst]. rewrite (E a m s (or_introl eq_refl)), IH; [reflexivity|]. intros b k t I. apply (E b k t). now right. Qed.
Lemma handles_app s1 s2 H n : handles (s1 ++ s2) H n = handles s1 H n ++ handles s2 H n.
Proof. apply flat_map_app. Qed.
Lemma handles_one a n s H : handles [(a, Some n, s)] H n = map (pair a) (H a).
Proof. unfold handles. cbn [flat_map]. rewrite is_self. cbn [fst]. apply app_nil_r. Qed.
Lemma handles_put sh H a n s out m : NoDup (map (fun x : shp => fst (fst x)) sh) -> In (a, Some n, s) sh ->
  (m <> n -> handles sh (held_now H a out) m = handles sh H m) /\
  (forall out0, Permutation (H a) out0 -> exists rest, Permutation (handles sh H n) (map (pair a) out0 ++ rest) /\ Permutation (handles sh (held_now H a out) n) (map (pair a) out ++ rest)).
Proof.
  intros ND I. apply in_split in I. destruct I as (l1 & l2 & ->). rewrite map_app in ND. cbn [map fst] in ND. apply NoDup_remove_2 in ND. assert (N1 : forall b k t, In (b, k, t) l1 -> (b =? a)%nat = false). { intros b k t J. apply Nat.eqb_neq. intros ->. apply ND, in_or_app. left. change a with (fst (fst (a, k, t))). now apply in_map with (f := fun x : shp => fst (fst x)). }
  assert (N2 : forall b k t, In (b, k, t) l2 -> (b =? a)%nat = false). { intros b k t J. apply Nat.eqb_neq. intros ->. apply ND, in_or_app. right. change a with (fst (fst (a, k, t))). now apply in_map with (f := fun x : shp => fst (fst x)). }
  assert (S1 : forall q, handles l1 (held_now H a out) q = handles l1 H q) by (intros q; apply handles_same; intros b k t J; unfold held_now; now rewrite (N1 _ _ _ J)).
  assert (S2 : forall q, handles l2 (held_now H a out) q = handles l2 H q) by (intros q; apply handles_same; intros b k t J; unfold held_now; now rewrite (N2 _ _ _ J)).
  change ((a, Some n, s) :: l2) with ([(a, Some n, s)] ++ l2). split.
  - intros D. rewrite !handles_app, S1, S2. f_equal. f_equal. unfold handles. cbn [flat_map]. rewrite is_other by congruence. reflexivity.
  - intros out0 P. exists (handles l1 H n ++ handles l2 H n). rewrite !handles_app, S1, S2. rewrite !handles_one. replace (held_now H a out a) with out by (unfold held_now; now rewrite Nat.eqb_refl). split; [|apply Permutation_app_swap_app]. rewrite P. apply Permutation_app_swap_app.
Qed.
Lemma shape_nodup r H : state r H -> NoDup (map (fun x : shp => fst (fst x)) (shape r)).
Proof. intros St. rewrite shape_addr. apply St. Qed.
Lemma used_handles r H n : state r H -> used r n = length (handles (shape r) H n).
Proof.
  intros [_ K]. unfold used, shape. induction (plist r) as [|e l IH]; [reflexivity|]. cbn [fold_right map]. change (shape1 e :: map shape1 l) with ([shape1 e] ++ map shape1 l). rewrite handles_app, app_length, <- IH by (intros x I; apply K; now right). f_equal. destruct (K e (or_introl eq_refl)) as [P _]. unfold handles. cbn [flat_map]. rewrite app_nil_r. unfold called, is_, shape1. cbn [fst snd]. destruct (name e) as [m|]; [|reflexivity]. destruct (list_eq_dec Z.eq_dec m n); [|reflexivity]. rewrite map_length. apply Permutation_length, in_use_ok, P.
Qed.
Lemma alive_held r H a n s x : state r H -> In (a, n, s) (shape r) -> In x (H a) -> alive r (a, x) = true.
Proof.
  intros St I J. destruct (find_shape r H a n s St I) as (e & F & _ & _ & _ & K & _). unfold alive. cbn [fst snd]. rewrite F. assert (Ie : In x (elements (body e))) by (apply (Permutation_in _ (ok_all _ _ K)), in_or_app; now right). apply in_elements in Ie. destruct Ie as [I1 I2]. rewrite !andb_true_iff. split; [split|].
  - apply existsb_exists. apply in_map_iff in I1. destruct I1 as (pg & E & I1). exists pg. split; [exact I1|]. now apply Nat.eqb_eq.
  - now apply Z.ltb_lt.
  - apply negb_true_iff, not_true_iff_false. intros E. apply existsb_exists in E. destruct E as (y & Iy & E). apply andb_true_iff in E. destruct E as [E1 E2]. apply Nat.eqb_eq in E1, E2. assert (y = x) by (destruct x, y; cbn [fst snd] in *; congruence). subst y. pose proof (ok_nodup _ _ K) as ND. apply in_split in Iy. destruct Iy as (f1 & f2 & Ef). rewrite Ef, <- app_assoc in ND. cbn [app] in ND. apply NoDup_remove_2 in ND. apply ND, in_or_app. right. apply in_or_app. now right.
Qed.
Lemma alive_handle r H n h : state r H -> In h (handles (shape r) H n) -> alive r h = true.
Proof. intros St I. destruct h as [a x]. apply handles_in in I. destruct I as (s & I & J). now apply (alive_held r H a (Some n) s). Qed.
Lemma room_ok r H a n s k : state r H -> In (a, n, s) (shape r) -> k <= s -> room r a k = true.
Proof. intros St I L. destruct (find_shape r H a n s St I) as (e & F & _ & _ & S & _). unfold room. rewrite F. apply Z.leb_le. lia. Qed.

(** the pool found by a name is the oldest one *)
Lemma get_first r H n a s : state r H -> In (a, Some n, s) (shape r) -> exists l1 a0 s0 l2, shape r = l1 ++ (a0, Some n, s0) :: l2 /\ (forall x, In x l1 -> is_ n x = false) /\ get r (Some n) = Ok (Some a0).
Proof.
  intros [_ K]. unfold shape. cbn [get]. assert (N : forall e, In e (plist r) -> name e <> None) by (intros e I; now apply K). clear K. induction (plist r) as [|e l IH]; [intros []|]. cbn [map]. intros I. cbn [get_loop]. pose proof (N e (or_introl eq_refl)) as Ne. destruct (name e) as [o|] eqn:En; [|contradiction]. destruct (list_eq_dec Z.eq_dec o n) as [->|D].
  - exists [], (addr e), (elt_size (body e)), (map shape1 l). split; [cbn [app]; f_equal; unfold shape1; now rewrite En|]. split; [intros x []|]. rewrite Nat.eqb_refl. assert (X : strncmp_eq (length n) n n = true) by now apply strncmp_same. rewrite X. reflexivity.
  - destruct IH as (l1 & a0 & s0 & l2 & E & F & G); [intros x J; apply N; now right|destruct I as [I|I]; [exfalso; unfold shape1 in I; rewrite En in I; congruence|exact I]|]. exists (shape1 e :: l1), a0, s0, l2. split; [cbn [app]; now rewrite E|]. split; [intros x [<-|J]; [|now apply F]|].
    + unfold shape1. rewrite En. now apply is_other.
    + assert (X : (length o =? length n)%nat && strncmp_eq (length n) n o = false). { apply not_true_iff_false. intros X. apply andb_true_iff in X. destruct X as [X1 X2]. apply Nat.eqb_eq in X1. apply strncmp_same in X2; [contradiction|exact X1]. } rewrite X. exact G.
Qed.

(** taking an element *)
Lemma take r H n a s : state r H -> In (a, Some n, s) (shape r) -> exists r' x H', alloc_in r a = Ok (r', x) /\ state r' H' /\ shape r' = shape r /\ Permutation (handles (shape r) H' n) ((a, x) :: handles (shape r) H n) /\ (forall m, m <> n -> handles (shape r) H' m = handles (shape r) H m).
Proof.
  intros St I. destruct (alloc_in_ok r H a (Some n) s St I) as (r' & x & E & S' & Sh & _ & _). exists r', x, (held_now H a (x :: H a)). split; [exact E|]. split; [exact S'|]. split; [exact Sh|]. destruct (handles_put (shape r) H a n s (x :: H a) n (shape_nodup _ _ St) I) as [_ P]. destruct (P (H a) (Permutation_refl _)) as (rest & P1 & P2). split.
  - rewrite P2, P1. reflexivity.
  - intros m D. destruct (handles_put (shape r) H a n s (x :: H a) m (shape_nodup _ _ St) I) as [Q _]. now apply Q.
Qed.
(** giving one back *)
Lemma give r H n a x L : state r H -> Permutation (handles (shape r) H n) ((a, x) :: L) -> exists r' H', release_in r a x = Ok r' /\ state r' H' /\ shape r' = shape r /\ Permutation (handles (shape r) H' n) L /\ (forall m, m <> n -> handles (shape r) H' m = handles (shape r) H m).
Proof.
  intros St P. assert (I : In (a, x) (handles (shape r) H n)) by (apply (Permutation_in _ (Permutation_sym P)); now left). apply handles_in in I. destruct I as (s & I & J). apply in_split in J. destruct J as (o1 & o2 & EH). assert (PH : Permutation (H a) (x :: o1 ++ o2)) by (rewrite EH; symmetry; apply Permutation_middle).
  destruct (release_in_ok r H a (Some n) s x (o1 ++ o2) St I PH) as (r' & E & S' & Sh & _). exists r', (held_now H a (o1 ++ o2)). split; [exact E|]. split; [exact S'|]. split; [exact Sh|]. destruct (handles_put (shape r) H a n s (o1 ++ o2) n (shape_nodup _ _ St) I) as [_ Q]. destruct (Q _ PH) as (rest & P1 & P2). split.
  - rewrite P2. apply (Permutation_cons_inv (a := (a, x))). rewrite <- P, P1. reflexivity.
  - intros m D. destruct (handles_put (shape r) H a n s (o1 ++ o2) m (shape_nodup _ _ St) I) as [W _]. now apply W.
Qed.
Lemma names : hash_pool <> node_pool /\ hash_pool <> addr_pool /\ node_pool <> addr_pool.
Proof. repeat split; discriminate. Qed.

(** a node made from a text *)
Definition sized (last : Z) (sh : list shp) : Prop := forall a n s, In (a, n, s) sh -> (n = Some hash_pool /\ 8 * last <= s) \/ (n = Some node_pool /\ s = 16) \/ (n = Some addr_pool /\ s = 16).
Lemma sized_node last sh a s : sized last sh -> In (a, Some node_pool, s) sh -> s = 16.
Proof. intros S I. destruct (S _ _ _ I) as [(E & _)|[(_ & E)|(E & _)]]; [discriminate|exact E|discriminate]. Qed.
Lemma sized_addr last sh a s : sized last sh -> In (a, Some addr_pool, s) sh -> s = 16.
Proof. intros S I. destruct (S _ _ _ I) as [(E & _)|[(E & _)|(_ & E)]]; [discriminate|discriminate|exact E]. Qed.
Lemma inode_ok r H last a2 s2 a3 s3 net : state r H -> sized last (shape r) -> In (a2, Some node_pool, s2) (shape r) -> In (a3, Some addr_pool, s3) (shape r) ->
  match net with
  | None => exists r' hn H', inode r net = Ok (None, r') /\ state r' H' /\ shape r' = shape r /\ handles (shape r) H' hash_pool = handles (shape r) H hash_pool /\ Permutation (handles (shape r) H' node_pool) (hn :: handles (shape r) H node_pool) /\ handles (shape r) H' addr_pool = handles (shape r) H addr_pool
  | Some (ip, b) => forall v, make_addr ip b = Ok v -> exists r' hn ha H', inode r net = Ok (Some (hn, ha, v), r') /\ state r' H' /\ shape r' = shape r /\ handles (shape r) H' hash_pool = handles (shape r) H hash_pool
      /\ Permutation (handles (shape r) H' node_pool) (hn :: handles (shape r) H node_pool) /\ Permutation (handles (shape r) H' addr_pool) (ha :: handles (shape r) H addr_pool)
  end.
Proof.
  intros St Sz I2 I3. destruct names as (D1 & D2 & D3). destruct (get_first r H node_pool a2 s2 St I2) as (l1 & b2 & t2 & l2 & Es & _ & G). assert (J2 : In (b2, Some node_pool, t2) (shape r)) by (rewrite Es; apply in_or_app; right; now left). destruct (take r H node_pool b2 t2 St J2) as (r1 & x & H1 & E1 & S1 & Sh1 & P1 & Q1).
  destruct (get_first r1 H1 addr_pool a3 s3 S1) as (k1 & b3 & t3 & k2 & Es3 & _ & G3); [now rewrite Sh1|]. assert (J3 : In (b3, Some addr_pool, t3) (shape r1)) by (rewrite Es3; apply in_or_app; right; now left).
  destruct net as [[ip b]|].
  - intros v Ev. destruct (take r1 H1 addr_pool b3 t3 S1 J3) as (r2 & y & H2 & E2 & S2 & Sh2 & P2 & Q2). unfold inode. rewrite G. cbn [obind]. rewrite E1. cbn [obind]. unfold iaddr. rewrite G3. cbn [obind]. rewrite E2. cbn [obind]. assert (R3 : room r2 b3 SIZEOF_ADDR = true). { apply (room_ok r2 H2 b3 (Some addr_pool) t3 _ S2); [now rewrite Sh2|]. rewrite (sized_addr last (shape r1) b3 t3); [unfold SIZEOF_ADDR; lia|now rewrite Sh1|exact J3]. } rewrite R3. cbn [safe obind]. rewrite Ev. cbn [obind].
    assert (R2 : room r2 b2 SIZEOF_NODE = true). { apply (room_ok r2 H2 b2 (Some node_pool) t2 _ S2); [now rewrite Sh2, Sh1|]. rewrite (sized_node last (shape r) b2 t2) by assumption. unfold SIZEOF_NODE. lia. } rewrite R2. cbn [safe obind]. exists r2, (b2, x), (b3, y), H2. rewrite Sh1 in *. split; [reflexivity|]. split; [exact S2|]. split; [exact Sh2|]. split; [rewrite Q2, Q1 by congruence; reflexivity|]. split; [rewrite Q2 by congruence; exact P1|]. rewrite P2, Q1 by congruence. reflexivity.
  - unfold inode. rewrite G. cbn [obind]. rewrite E1. cbn [obind]. unfold iaddr. rewrite G3. cbn [obind]. exists r1, (b2, x), H1. split; [reflexivity|]. split; [exact S1|]. split; [exact Sh1|]. split; [apply Q1; congruence|]. split; [exact P1|]. apply Q1. congruence.
Qed.
