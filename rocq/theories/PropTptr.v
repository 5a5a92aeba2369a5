(** C62: tables in memory, and tables that change while they are iterated over. *)
From Verif Require Import Prelude HashModel TableModel TptrModel TptrSpec TptrProofs TptrEach TptrSelf.
From Coq Require Import Permutation.
Open Scope Z_scope.

Section P.
Variable K D : Type.
Variable hash : K -> Z.
Variable cmp : K -> K -> bool.
Variable pick : nat -> list nat -> nat.
Hypothesis fresh : forall c l, ~ In (pick c l) l.
Notation heap := (heap K D).
Notation an := (nat * node K D)%type.
Notation slot := (TableModel.slot K D hash).

Lemma set_shape (T : table K D) k d rc T' : table_set K D hash cmp T k d = Ok (rc, T') -> tbits T' = tbits T /\ tdup T' = tdup T /\ length (tbuckets T') = length (tbuckets T) /\ (placed hash T -> placed hash T').
Proof.
  unfold table_set, chain_at. destruct (nth_error (tbuckets T) (slot T k)) as [c|] eqn:N; [|discriminate]. cbn [obind]. destruct (if tdup T then None else _); intros E.
  - assert (T' = T) by congruence. subst T'. auto.
  - assert (X : T' = mktable (tbits T) (tdup T) (upd (tbuckets T) (slot T k) (mknode k d (hash k) :: c))) by congruence. subst T'. cbn [tbits tdup tbuckets]. split; [reflexivity|]. split; [reflexivity|]. split; [apply upd_length|].
    intros PL i c' n Ni In_. cbn [tbuckets] in Ni. rewrite upd_nth_error in Ni. change (slot (mktable (tbits T) (tdup T) (upd (tbuckets T) (slot T k) (mknode k d (hash k) :: c))) (nkey n)) with (slot T (nkey n)). destruct (Nat.eqb_spec i (slot T k)) as [->|NE]; [|now apply (PL i c')].
    destruct (_ <? _)%nat; [|discriminate]. assert (c' = mknode k d (hash k) :: c) by congruence. subst c'. destruct In_ as [<-|In_]; [now split|]. now apply (PL _ c).
Qed.
Lemma del_shape (T : table K D) k r T' : table_del K D hash cmp T k = Ok (r, T') -> tbits T' = tbits T /\ tdup T' = tdup T /\ length (tbuckets T') = length (tbuckets T) /\ (placed hash T -> placed hash T').
Proof.
  unfold table_del, chain_at. destruct (nth_error (tbuckets T) (slot T k)) as [c|] eqn:N; [|discriminate]. cbn [obind]. destruct (del_chain K D hash cmp c k) as [[d c']|] eqn:Dc; intros E.
  - assert (X : T' = mktable (tbits T) (tdup T) (upd (tbuckets T) (slot T k) c')) by congruence. subst T'. cbn [tbits tdup tbuckets]. split; [reflexivity|]. split; [reflexivity|]. split; [apply upd_length|].
    assert (IC : incl c' c). { destruct c as [|n c]; cbn [del_chain] in Dc; [discriminate|]. destruct (hit K D hash cmp n k); [assert (c' = c) by congruence; subst; apply incl_tl, incl_refl|]. assert (G : forall l, del_loop K D hash cmp n l k = Some (d, c') -> incl c' (n :: l)). { induction l as [|m l IH]; cbn [del_loop]; [discriminate|]. destruct (hit K D hash cmp m k). - intros X. assert (c' = n :: l) by congruence. subst. intros y [<-|I]; [now left|right; now right]. - intros X y I. destruct (IH X y I) as [<-|J]; [now left|right; now right]. } now apply G. }
    intros PL i c0 n Ni In_. cbn [tbuckets] in Ni. rewrite upd_nth_error in Ni. change (slot (mktable (tbits T) (tdup T) (upd (tbuckets T) (slot T k) c')) (nkey n)) with (slot T (nkey n)). destruct (Nat.eqb_spec i (slot T k)) as [->|NE]; [|now apply (PL i c0)].
    destruct (_ <? _)%nat; [|discriminate]. assert (c0 = c') by congruence. subst c0. now apply (PL _ c), IC.
  - assert (T' = T) by congruence. subst T'. auto.
Qed.

(** C62, the representation.  The functions of zt_table.c on nodes in memory do what TableModel.v (C19, C20) says they do on lists: same answers, and the memory afterwards represents the table
    afterwards; set leaves the nodes in use alone and takes one that was not, del takes one away. *)
Theorem C62_set : forall h t T k d rc T' fuel, represents h t T -> (length (cells h) < fuel)%nat -> table_set K D hash cmp T k d = Ok (rc, T') ->
  exists h' t', pset hash cmp pick fuel h t k d = Ok (rc, h', t') /\ represents h' t' T' /\ (forall x, In x (map fst (cells h)) -> look (cells h') x = look (cells h) x) /\ length (cells h') = (length (cells h) + (if (rc =? 0)%Z then 1 else 0))%nat.
Proof.
  intros h t T k d rc T' fuel (L & R & ->) Lf E. destruct (pset_ok K D hash cmp pick fresh h t L k d fuel rc T' R Lf E) as (h' & t' & L' & E' & R' & ET & LK & _ & R0 & RN). exists h', t'. split; [exact E'|]. split; [now exists L'|]. split; [exact LK|].
  destruct (Z.eqb_spec rc 0) as [Z|Z]; [destruct (R0 Z) as (x & c & _ & _ & EC & _); rewrite <- (map_length fst (cells h')), EC; cbn [length]; rewrite map_length; lia|]. destruct (RN Z) as (-> & _). lia.
Qed.
Theorem C62_get : forall h t T k r fuel, represents h t T -> (length (cells h) < fuel)%nat -> table_get K D hash cmp T k = Ok r -> pget hash cmp fuel h t k = Ok r.
Proof. intros h t T k r fuel (L & R & ->) Lf E. now apply (pget_ok K D hash cmp pick fresh h t L). Qed.
Theorem C62_del : forall h t T k r T' fuel, represents h t T -> (length (cells h) < fuel)%nat -> table_del K D hash cmp T k = Ok (r, T') ->
  exists h' t', pdel hash cmp fuel h t k = Ok (r, h', t') /\ represents h' t' T' /\ length (cells h) = (length (cells h') + (match r with Some _ => 1 | None => 0 end))%nat.
Proof.
  intros h t T k r T' fuel (L & R & ->) Lf E. destruct (pdel_ok K D hash cmp pick fresh h t L k fuel r T' R Lf E) as (h' & t' & L' & E' & R' & ET & _ & RN & RS). exists h', t'. split; [exact E'|]. split; [now exists L'|]. destruct r as [d|]; [|destruct (RN eq_refl) as (-> & _); lia].
  destruct RS as (x & Ix & EC & _); [discriminate|]. assert (J : In x (map fst (cells h))) by now apply (chains_in K D h _ _ (r_chains _ _ _ R)). rewrite <- (map_length fst (cells h')), EC, <- (map_length fst (cells h)). pose proof (r_heap _ _ _ R) as ND. clear - J ND. revert J ND. generalize (map fst (cells h)).
  induction l as [|y l IH]; intros J ND; [destruct J|]. inversion ND as [|? ? N1 N2]; subst. cbn [filter]. destruct (Nat.eqb_spec y x) as [->|NE]; cbn [negb length].
  - assert (X : forall m, ~ In x m -> filter (fun y => negb (y =? x)%nat) m = m). { induction m as [|z m IHm]; cbn [filter In]; intros NI; [reflexivity|]. replace (z =? x)%nat with false by (symmetry; apply Nat.eqb_neq; tauto). cbn [negb]. rewrite IHm by tauto. reflexivity. } rewrite X by exact N1. lia.
  - destruct J as [->|J]; [contradiction|]. specialize (IH J N2). lia.
Qed.
(** whole programs: the answers of any program are those of TableModel's table, and memory represents it all along *)
Lemma step_sim (h : heap) t (T : table K D) o : represents h t T -> bounded hash T -> exists a h' t' (T' : table K D), pstep hash cmp pick h t o = Ok (a, h', t') /\ lstep hash cmp T o = Ok (a, T') /\ represents h' t' T' /\ bounded hash T' /\ (placed hash T -> placed hash T').
Proof.
  intros R B. assert (BT : forall T' : table K D, tbits T' = tbits T -> length (tbuckets T') = length (tbuckets T) -> bounded hash T'). { intros T' E1 E2 k. unfold TableModel.slot. rewrite E1, E2. apply B. }
  assert (CA : forall k, exists c, chain_at K D hash T k = Ok c). { intros k. unfold chain_at. specialize (B k). apply nth_error_Some in B. destruct (nth_error _ _) as [c|]; [now exists c|congruence]. }
  destruct o as [k d|k|k]; destruct (CA k) as (c & C); cbn [pstep lstep].
  - assert (X : exists rc T', table_set K D hash cmp T k d = Ok (rc, T')) by (unfold table_set; rewrite C; cbn [obind]; destruct (if tdup T then None else _); eauto). destruct X as (rc & T' & E). destruct (C62_set h t T k d rc T' _ R (Nat.lt_succ_diag_r _) E) as (h' & t' & E' & R' & _). destruct (set_shape _ _ _ _ _ E) as (S1 & S2 & S3 & S4).
    rewrite E', E. cbn [obind]. exists (ASet rc), h', t', T'. repeat (split; [solve [auto]|]). auto.
  - assert (X : exists r, table_get K D hash cmp T k = Ok r) by (unfold table_get; rewrite C; cbn [obind]; eauto). destruct X as (r & E). rewrite (C62_get h t T k r _ R (Nat.lt_succ_diag_r _) E), E. cbn [obind]. exists (AGet r), h, t, T. repeat (split; [solve [auto]|]). auto.
  - assert (X : exists r T', table_del K D hash cmp T k = Ok (r, T')) by (unfold table_del; rewrite C; cbn [obind]; destruct (del_chain _ _ _ _ _ _) as [[? ?]|]; eauto). destruct X as (r & T' & E). destruct (C62_del h t T k r T' _ R (Nat.lt_succ_diag_r _) E) as (h' & t' & E' & R' & _). destruct (del_shape _ _ _ _ E) as (S1 & S2 & S3 & S4).
    rewrite E', E. cbn [obind]. exists (ADel r), h', t', T'. repeat (split; [solve [auto]|]). auto.
Qed.
Lemma run_sim : forall os (h : heap) t (T : table K D), represents h t T -> bounded hash T -> exists l h' t' (T' : table K D), prun hash cmp pick h t os = Ok (l, h', t') /\ lrun hash cmp T os = Ok (l, T') /\ represents h' t' T' /\ bounded hash T' /\ (placed hash T -> placed hash T').
Proof.
  induction os as [|o os IH]; intros h t T R B; cbn [prun lrun]; [exists [], h, t, T; auto|]. destruct (step_sim h t T o R B) as (a & h1 & t1 & T1 & E1 & F1 & R1 & B1 & P1). rewrite E1, F1. cbn [obind]. destruct (IH h1 t1 T1 R1 B1) as (l & h2 & t2 & T2 & E2 & F2 & R2 & B2 & P2). rewrite E2, F2. cbn [obind]. exists (a :: l), h2, t2, T2. auto 10.
Qed.
Lemma init_rep (h : heap) uh dup hint : NoDup (map fst (cells h)) -> represents h (pinit uh dup hint) (table_init K D uh dup hint) /\ placed hash (table_init K D uh dup hint).
Proof.
  intros ND. split.
  - exists (repeat [] (Z.to_nat (num_buckets uh hint))). split.
    + unfold pinit. constructor; cbn [pbuckets]; [clear; induction (Z.to_nat _); constructor; auto; reflexivity| |exact ND]. replace (concat (repeat (@nil an) (Z.to_nat (num_buckets uh hint)))) with (@nil an); [constructor|]. clear. induction (Z.to_nat _); cbn [repeat concat app]; auto.
    + unfold tab, pinit, table_init. cbn [pbits pdup]. f_equal. clear. induction (Z.to_nat _); cbn [repeat map]; [reflexivity|]. now rewrite <- IHn.
  - intros i c n N In_. exfalso. unfold table_init in N. cbn [tbuckets] in N. apply nth_error_In, repeat_spec in N. subst c. destruct In_.
Qed.
Theorem C62_history : forall uh dup hint (h : heap) os, NoDup (map fst (cells h)) -> bounded hash (table_init K D uh dup hint) -> exists l h' t' (T' : table K D),
  prun hash cmp pick h (pinit uh dup hint) os = Ok (l, h', t') /\ lrun hash cmp (table_init K D uh dup hint) os = Ok (l, T') /\ represents h' t' T' /\ bounded hash T' /\ placed hash T'.
Proof.
  intros uh dup hint h os ND B. destruct (init_rep h uh dup hint ND) as [R0 P0]. destruct (run_sim os h _ _ R0 B) as (l & h' & t' & T' & E & F & R & B' & P). exists l, h', t', T'. auto 10.
Qed.

(** C62, iteration.  A callback that only looks sees what C20 says *)
Theorem C62_each_look : forall V (g : V -> K -> D -> Z * V) h t T v fuel, represents h t T -> (length (cells h) < fuel)%nat ->
  peach (looking g) fuel h t v = let '(r, v') := table_for_each T g v in Ok (r, h, t, v').
Proof.
  intros V g h t T v fuel (L & R & ->) Lf. unfold peach. rewrite (rep_same_len K D h t L R). rewrite (each_loop_look K D pick fresh g h t L fuel R Lf (seq 0 (length L)) 0 v); [|f_equal; lia|lia]. cbn [skipn]. unfold table_for_each, all_nodes, tab. cbn [tbuckets]. now rewrite concat_map.
Qed.
(** A callback that adds whatever it likes, wherever it likes: nothing is undefined behaviour, the iteration ends, and what it is shown is, bucket by bucket, possibly some of what it added, followed by
    all the bindings that were there at the start, in their order; if it stops the iteration, a part of that.  The bindings from the start are all still there. *)
Theorem C62_each_insert : forall V (g : V -> K -> D -> Z * V * list (K * D)) h t T v, represents h t T -> bounded hash T ->
  exists fuel0 r h' t' T' v' seen put, (forall fuel, (fuel0 <= fuel)%nat -> peach (inserting hash cmp pick g) fuel h t (v, [], []) = Ok (r, h', t', (v', seen, put))) /\ represents h' t' T' /\
    (exists added rest, length added = length (tbuckets T) /\ seen ++ rest = concat (map (fun x => fst x ++ map binding (snd x)) (combine added (tbuckets T))) /\ (forall b, In b (concat added) -> In b put) /\ (r = 0 -> rest = [])) /\
    Forall2 (fun c c' => exists i, c' = i ++ c /\ Forall (fun n => In (binding n) put) i) (tbuckets T) (tbuckets T').
Proof.
  intros V g h t T v (L & R & ->) B. destruct (each_loop_ins K D hash cmp pick fresh V g L (seq 0 (length L)) 0 h t v [] [] L []) as (f0 & r & h' & t' & v' & ops & s & L' & E & R' & G & PB & PD & ins & rest & LI & ES & IN & Z); auto.
  { f_equal. lia. } { lia. } { apply grows_refl. } { intros x []. }
  exists f0, r, h', t', (tab t' L'), v', s, ops. split; [intros fuel Hf; unfold peach; rewrite (rep_same_len K D h t L R); now apply E|]. split; [now exists L'|]. split.
  - exists ins, rest. unfold tab. cbn [tbuckets]. rewrite map_length. split; [lia|]. split; [|split; [exact IN|exact Z]]. rewrite ES. cbn [skipn]. f_equal. clear. revert L. induction ins as [|i ins IH]; intros [|c L]; cbn [combine map]; try reflexivity. cbn [fst snd]. rewrite IH. f_equal. f_equal. unfold bl. now rewrite map_map.
  - unfold tab. cbn [tbuckets]. cbn [app] in G. clear - G. induction G as [|c c' L L' (i & -> & F) G IH]; cbn [map]; constructor; [|exact IH]. exists (map snd i). split; [apply map_app|]. apply Forall_map. exact F.
Qed.
(** A callback that deletes the key it is called for: it is shown every binding of the table, in order, until it stops; what is left is exactly what it was not shown; one node is released per call *)
Theorem C62_each_delete : forall V (g : V -> K -> D -> Z * V) h t T v fuel, (forall k, cmp k k = true) -> represents h t T -> placed hash T -> (length (cells h) < fuel)%nat ->
  exists r h' t' T' v' seen, peach (deleting hash cmp g) fuel h t (v, []) = Ok (r, h', t', (v', seen)) /\ represents h' t' T' /\ placed hash T' /\ seen ++ bindings T' = bindings T /\ (r = 0 -> bindings T' = []) /\ (length (cells h') + length seen = length (cells h))%nat.
Proof.
  intros V g h t T v fuel RF (L & R & ->) PL Lf.
  assert (HM : forall j c, nth_error L j = Some c -> homed K D hash t j c). { intros j c N. apply Forall_forall. intros a Ia. apply (PL j (map snd c) (snd a)); [unfold tab; cbn [tbuckets]; now apply map_nth_error|now apply in_map]. }
  destruct (each_loop_del K D hash cmp pick fresh V g RF fuel (seq 0 (length L)) 0 h t v [] L) as (r & h' & t' & v' & s & L' & E & R' & PB & PD & LL & ES & Z & LC & HM'); auto.
  { f_equal. lia. } { lia. }
  assert (BB : forall t0 (L0 : list (list an)), bindings (tab t0 L0) = bl K D (concat L0)). { intros t0 L0. unfold bindings, tab, bl. cbn [tbuckets]. rewrite <- concat_map, map_map. reflexivity. }
  exists r, h', t', (tab t' L'), v', s. split; [unfold peach; now rewrite (rep_same_len K D h t L R)|]. split; [now exists L'|]. split.
  - intros i c n N In_. unfold tab in N. cbn [tbuckets] in N. rewrite nth_error_map in N. destruct (nth_error L' i) as [c0|] eqn:N0; [|discriminate]. cbn [option_map] in N. assert (c = map snd c0) by congruence. subst c. apply in_map_iff in In_. destruct In_ as (a & <- & Ia). specialize (HM' i c0 N0). unfold homed in HM'. rewrite Forall_forall in HM'. now apply (HM' a).
  - rewrite !BB. split; [exact ES|]. split; [|exact LC]. intros Zr. now rewrite (Z Zr).
Qed.
(** zt_table_copy of a table onto itself.  A table whose keys cannot be added twice is left exactly as it was, and so is memory; in one that takes duplicate keys, every binding is there twice afterwards:
    each chain is preceded by its own bindings the other way round *)
Theorem C62_copy_itself_once : forall (h : heap) t (T : table K D) fuel, (forall k, cmp k k = true) -> represents h t T -> placed hash T -> tdup T = false -> (length (cells h) < fuel)%nat -> pself_copy hash cmp pick fuel h t = Ok (h, t).
Proof.
  intros h t T fuel RF (L & R & ->) PL ND Lf. unfold pself_copy. apply (self_loop_once K D hash cmp pick fresh fuel h t L); auto.
  - intros j c N. apply Forall_forall. intros a Ia. apply (PL j (map snd c) (snd a)); [unfold tab; cbn [tbuckets]; now apply map_nth_error|now apply in_map].
  - intros i Ii. apply in_seq in Ii. rewrite <- (rep_same_len K D h t L R). lia.
Qed.
Theorem C62_copy_itself_dup : forall (h : heap) t (T : table K D) fuel, represents h t T -> placed hash T -> tdup T = true -> (2 * length (cells h) < fuel)%nat ->
  exists h' t' (T' : table K D), pself_copy hash cmp pick fuel h t = Ok (h', t') /\ represents h' t' T' /\ tbuckets T' = map (fun c => rev c ++ c) (tbuckets T) /\ tdup T' = true /\ tbits T' = tbits T /\ length (cells h') = (length (cells h) + length (bindings T))%nat.
Proof.
  intros h t T fuel (L & R & ->) PL DU Lf.
  assert (LC : (length (concat L) <= length (cells h))%nat). { rewrite <- (map_length fst (concat L)), <- (map_length fst (cells h)). apply NoDup_incl_length; [exact (r_apart _ _ _ R)|]. apply (chains_in K D h _ _ (r_chains _ _ _ R)). }
  destruct (self_loop_dup K D hash cmp pick fresh fuel (seq 0 (length L)) 0 h t L) as (h' & t' & L' & E & R' & PD & PB & _ & M & LN); auto.
  { f_equal. lia. } { lia. } { cbn [skipn]. lia. }
  { intros j c _ N. apply Forall_forall. intros a Ia. apply (PL j (map snd c) (snd a)); [unfold tab; cbn [tbuckets]; now apply map_nth_error|now apply in_map]. }
  cbn [firstn skipn map app] in M. exists h', t', (tab t' L'). unfold pself_copy. rewrite (rep_same_len K D h t L R). split; [exact E|]. split; [now exists L'|]. split; [exact M|]. split; [exact PD|]. split; [exact PB|]. rewrite LN. unfold bindings, tab. cbn [tbuckets skipn]. now rewrite <- concat_map, !map_length.
Qed.
End P.

(** What must not be done.  One bucket chain, integer keys; the allocator takes the next address. *)
Definition flat (k : Z) : Z := 0.
Definition next_free (_ : nat) (l : list nat) : nat := S (list_max l).
Lemma next_free_fresh : forall c l, ~ In (next_free c l) l.
Proof. intros c l I. unfold next_free in I. assert (X := proj1 (list_max_le l (list_max l)) (le_n _)). rewrite Forall_forall in X. specialize (X _ I). lia. Qed.
Definition three (dup : bool) : outcome (list pans * heap Z Z * ptable) := prun flat Z.eqb next_free (mkheap [] 0) (pinit true dup 4) [PSet 1 10; PSet 2 20; PSet 3 30].
(** the three nodes are in one chain, 3 first *)
Example three_is : exists l h t T, three false = Ok (l, h, t) /\ represents h t T /\ bounded flat T /\ placed flat T /\ bindings T = [(3, 30); (2, 20); (1, 10)] /\ l = [ASet 0; ASet 0; ASet 0].
Proof.
  destruct (C62_history Z Z flat Z.eqb next_free next_free_fresh true false 4 (mkheap [] 0) [PSet 1 10; PSet 2 20; PSet 3 30]) as (l & h & t & T & E & F & R & B & P); [constructor|intros k; vm_compute; lia|].
  exists l, h, t, T. split; [exact E|]. split; [exact R|]. split; [exact B|]. split; [exact P|]. vm_compute in F. injection F as <- <-. now split.
Qed.
Definition each_of (dup : bool) {U} (cb : heap Z Z -> ptable -> U -> Z -> Z -> outcome (Z * heap Z Z * ptable * U)) (u : U) : outcome (Z * U * option Z * nat) :=
  ' (_, h, t) <- three dup ;; ' (r, h, t, u) <- peach cb 100 h t u ;; d <- pget flat Z.eqb 100 h t 2 ;; Ok (r, u, d, length (cells h)).
(** the callbacks of the theorems, run: deleting each key leaves nothing; adding one key each time shows the three old bindings *)
Example deleting_runs : each_of false (deleting flat Z.eqb (fun (v : Z) k d => (0, v + d))) (0, []) = Ok (0, (60, [(3, 30); (2, 20); (1, 10)]), None, 0%nat).
Proof. vm_compute. reflexivity. Qed.
Example inserting_runs : each_of false (inserting flat Z.eqb next_free (fun (v : Z) k d => (0, v + 1, [(k + 10, d)]))) (0, [], []) = Ok (0, (3, [(3, 30); (2, 20); (1, 10)], [(13, 30); (12, 20); (11, 10)]), Some 20, 6%nat).
Proof. vm_compute. reflexivity. Qed.
Example copy_itself_runs : exists l h t h' t', three true = Ok (l, h, t) /\ pself_copy flat Z.eqb next_free 100 h t = Ok (h', t') /\ length (cells h') = 6%nat.
Proof. do 5 eexists. split; [vm_compute; reflexivity|]. split; [vm_compute; reflexivity|]. reflexivity. Qed.
(** C62 refuted: the callback may delete from the table it iterates over.  Deleting a key other than the one it was given: the iteration reads a released node *)
Definition delete_key (dead : Z -> option Z) (h : heap Z Z) (t : ptable) (u : list Z) (k d : Z) : outcome (Z * heap Z Z * ptable * list Z) :=
  match dead k with None => Ok (0, h, t, u ++ [k]) | Some x => ' (_, h, t) <- pdel flat Z.eqb 100 h t x ;; Ok (0, h, t, u ++ [k]) end.
Theorem C62_delete_other_refuted : exists dead : Z -> option Z, each_of false (delete_key dead) [] = UB.
Proof. exists (fun k => if k =? 3 then Some 2 else None). vm_compute. reflexivity. Qed.
(** and even if it deletes only the key it was given, but not every key: the node between is lost from the table, although it was never deleted, and still in use *)
Theorem C62_delete_some_refuted : exists dead : Z -> option Z, (forall k x, dead k = Some x -> x = k) /\ dead 2 = None /\ each_of false (delete_key dead) [] = Ok (0, [3; 2; 1], None, 2%nat).
Proof. exists (fun k => if k =? 1 then Some 1 else None). split; [intros k x; destruct (Z.eqb_spec k 1); congruence|]. split; [reflexivity|]. vm_compute. reflexivity. Qed.

Print Assumptions C62_set. Print Assumptions C62_get. Print Assumptions C62_del. Print Assumptions C62_history. Print Assumptions C62_each_look. Print Assumptions C62_each_insert. Print Assumptions C62_each_delete.
Print Assumptions C62_copy_itself_once. Print Assumptions C62_copy_itself_dup. Print Assumptions C62_delete_other_refuted. Print Assumptions C62_delete_some_refuted.
