(** C61: the memory of tables. *)
From Verif Require Import Prelude HashModel TableModel MemModel MemProofs MemPool RegModel RegSpec PropReg PropFigures LogSpec TmemModel TmemProofs TmemSpec TmemTables.
From Coq Require Import Permutation Ascii String.
Open Scope Z_scope.

Section P.
Variable K D : Type.
Variable hash : K -> Z.
Variable cmp : K -> K -> bool.
Notation inv := (inv K D hash).
Notation tight := (tight K D).
Notation trun := (trun K D hash cmp).
Notation tstep := (tstep K D hash cmp).
Notation thint := (thint K D hash).
Notation treachable := (treachable K D hash cmp).
Notation stray := (@stray K D).
Notation depth := (depth K D hash cmp).

Lemma split_at (l : list (mtable K D)) i t : nth_error l i = Some t -> exists l1 l2, l = l1 ++ t :: l2 /\ List.length l1 = i /\ (forall t', upd l i t' = l1 ++ t' :: l2) /\ firstn i l ++ skipn (S i) l = l1 ++ l2.
Proof.
  intros E. apply nth_error_split in E. destruct E as (l1 & l2 & -> & L). exists l1, l2. split; [reflexivity|]. split; [exact L|]. split.
  - intros t'. rewrite <- L, upd_app_r by lia. now rewrite Nat.sub_diag.
  - rewrite <- L. rewrite firstn_app, Nat.sub_diag, firstn_all. cbn [firstn]. rewrite app_nil_r. f_equal. rewrite skipn_app. rewrite skipn_all2 by lia. replace (S (List.length l1) - List.length l1)%nat with 1%nat by lia. reflexivity.
Qed.
Lemma live_iff r a : live r a = false <-> ~ In a (map addr (plist r)).
Proof.
  unfold live. split.
  - intros E I. assert (X : existsb (Nat.eqb a) (map addr (plist r)) = true) by (apply existsb_exists; exists a; split; [exact I|apply Nat.eqb_refl]). congruence.
  - intros N. apply not_true_iff_false. intros E. apply existsb_exists in E. destruct E as (b & I & E). apply Nat.eqb_eq in E. now subst b.
Qed.
Lemma step_inv sys w H o : 4096 <= sys < 2 ^ 63 -> thint o -> inv (tw_reg w) (tw_tabs w) H ->
  exists w' H', tstep sys w o = Ok w' /\ inv (tw_reg w') (tw_tabs w') H' /\ (gentle_step K D hash cmp w o -> tight (tw_reg w) (tw_tabs w) H -> tight (tw_reg w') (tw_tabs w') H').
Proof.
  intros S Th V. destruct o as [a1 a2 n uh dup hint|i k d|i k|i]; cbn [TmemSpec.tstep].
  - destruct (live (tw_reg w) a1 || live (tw_reg w) a2 || (a1 =? a2)%nat) eqn:E; [exists w, H; auto|]. apply orb_false_iff in E. destruct E as [E E3]. apply orb_false_iff in E. destruct E as [E1 E2]. apply live_iff in E1, E2. apply Nat.eqb_neq in E3. destruct Th as [Th1 Th2].
    destruct (tinit_ok K D hash sys (tw_reg w) (tw_tabs w) H a1 a2 n uh dup hint S Th1 Th2 V E1 E2 E3) as (t & r' & H' & E & V' & G & _). rewrite E. cbn [obind]. exists (mktw r' (tw_tabs w ++ [t])), H'. auto.
  - destruct (nth_error (tw_tabs w) i) as [t|] eqn:N; [|exists w, H; auto]. destruct (split_at _ _ _ N) as (l1 & l2 & E & L & U & _). rewrite E in V.
    destruct (tset_ok K D hash cmp (tw_reg w) l1 t l2 H k d V) as (rc & t' & r' & H' & E' & V' & _ & _ & _ & G & _). rewrite E'. cbn [obind]. rewrite U. exists (mktw r' (l1 ++ t' :: l2)), H'. split; [reflexivity|]. split; [exact V'|]. intros _. rewrite E. exact G.
  - destruct (nth_error (tw_tabs w) i) as [t|] eqn:N; [|exists w, H; auto]. destruct (split_at _ _ _ N) as (l1 & l2 & E & L & U & _). rewrite E in V.
    destruct (tdel_ok K D hash cmp (tw_reg w) l1 t l2 H k V) as (c & x & t' & r' & H' & C & E' & V' & _ & _ & DD & G). rewrite E'. cbn [obind]. rewrite U. exists (mktw r' (l1 ++ t' :: l2)), H'. split; [reflexivity|]. split; [exact V'|]. intros GS. rewrite E. intros T.
    destruct (depth c k) as [j|] eqn:Dj; [apply (G j eq_refl); [now apply (GS t c j)|exact T]|]. destruct DD as (_ & -> & -> & ->). exact T.
  - destruct (nth_error (tw_tabs w) i) as [t|] eqn:N; [|exists w, H; auto]. destruct (split_at _ _ _ N) as (l1 & l2 & E & L & _ & U). rewrite E in V.
    destruct (tdestroy_ok K D hash (tw_reg w) l1 t l2 H V) as (r' & H' & lost & E' & V' & _ & _ & _ & _ & _ & _ & G). rewrite E'. cbn [obind]. rewrite U. exists (mktw r' (l1 ++ l2)), H'. split; [reflexivity|]. split; [exact V'|]. intros _. rewrite E. exact G.
Qed.
Lemma run_inv sys : 4096 <= sys < 2 ^ 63 -> forall os w H, Forall thint os -> inv (tw_reg w) (tw_tabs w) H ->
  exists w' H', trun sys w os = Ok w' /\ inv (tw_reg w') (tw_tabs w') H' /\ (gentle K D hash cmp sys w os -> tight (tw_reg w) (tw_tabs w) H -> tight (tw_reg w') (tw_tabs w') H').
Proof.
  intros S. induction os as [|o os IH]; intros w H F V; [exists w, H; auto|]. inversion F as [|? ? F1 F2]; subst. cbn [TmemSpec.trun]. destruct (step_inv sys w H o S F1 V) as (w1 & H1 & E1 & V1 & G1). rewrite E1. cbn [obind].
  destruct (IH w1 H1 F2 V1) as (w2 & H2 & E2 & V2 & G2). exists w2, H2. split; [exact E2|]. split; [exact V2|]. cbn [gentle]. intros [GA GB] T. apply G2; [now apply GB|now apply G1].
Qed.
Lemma reach_inv sys w : 4096 <= sys < 2 ^ 63 -> treachable sys w -> exists H, inv (tw_reg w) (tw_tabs w) H.
Proof.
  intros S (os & F & E). destruct (run_inv sys S os tworld0 (fun _ => []) F (proj1 (inv0 K D hash))) as (w' & H' & E' & V & _). exists H'. assert (w' = w) by congruence. now subst w'.
Qed.
Lemma NoDup_app_l {A} (l m : list A) : NoDup (l ++ m) -> NoDup l.
Proof. induction l as [|x l IH]; cbn [app]; intros N; [constructor|]. inversion N; subst. constructor; [intros I; apply H1, in_or_app; now left|now apply IH]. Qed.
Lemma nodup_out p out : pool_ok p out -> NoDup out.
Proof. intros V. pose proof (ok_nodup _ _ V) as N. apply (Permutation_NoDup (Permutation_app_comm _ _)) in N. now apply NoDup_app_l in N. Qed.

(** C61. Whatever a program does with any number of tables, nothing is undefined behaviour.  Every table lives in an element of one pool, of 80-byte elements, that is in use for no other table;
    its nodes live in different elements, all in use, of a pool of 48-byte elements that belongs to no other table. *)
Theorem C61_history : forall sys os, 4096 <= sys < 2 ^ 63 -> Forall thint os -> exists w, trun sys tworld0 os = Ok w /\
  NoDup (map m_pool (tw_tabs w)) /\
  (forall t, In t (tw_tabs w) -> exists e, find (plist (tw_reg w)) (m_pool t) = Some e /\ elt_size (body e) = 48 /\ NoDup (nodes (m_tab t)) /\ incl (nodes (m_tab t)) (in_use (body e))) /\
  (tw_tabs w <> [] -> exists a e, RegModel.get (tw_reg w) (Some (str "zt.table.pool")) = Ok (Some a) /\ find (plist (tw_reg w)) a = Some e /\ elt_size (body e) = 80 /\
     NoDup (map m_self (tw_tabs w)) /\ Permutation (in_use (body e)) (map m_self (tw_tabs w)) /\ forall t, In t (tw_tabs w) -> m_home t = a /\ m_pool t <> a).
Proof.
  intros sys os S F. destruct (run_inv sys S os tworld0 (fun _ => []) F (proj1 (inv0 K D hash))) as (w & H & E & V & _). exists w. split; [exact E|]. split; [apply (v_nodup _ _ _ _ _ _ V)|]. split.
  - intros t It. destruct (v_tab _ _ _ _ _ _ V t It) as ((nm & I & _) & (lost & P) & _). destruct (find_shape _ _ _ _ _ (v_state _ _ _ _ _ _ V) I) as (e & Fe & _ & _ & Se & Ke & _). exists e. split; [exact Fe|]. split; [exact Se|]. split.
    + pose proof (nodup_out _ _ Ke) as N. apply (Permutation_NoDup P) in N. now apply NoDup_app_l in N.
    + intros x Ix. apply (Permutation_in _ (Permutation_sym (in_use_ok _ _ Ke))). apply (Permutation_in _ (Permutation_sym P)). apply in_or_app. now left.
  - intros NE. change (str "zt.table.pool") with table_pool. rewrite (get_first _ _ _ (v_state _ _ _ _ _ _ V)). pose proof (v_home _ _ _ _ _ _ V) as Hm. pose proof (fun t tp => pool_ne_home _ _ _ _ _ _ t tp V) as NH. destruct (first_named table_pool (shape (tw_reg w))) as [tp|]; [|contradiction].
    destruct Hm as (I & HM & P). destruct (find_shape _ _ _ _ _ (v_state _ _ _ _ _ _ V) I) as (e & Fe & _ & _ & Se & Ke & _). exists tp, e. split; [reflexivity|]. split; [exact Fe|]. split; [exact Se|]. split; [apply (Permutation_NoDup P); now apply (nodup_out _ _ Ke)|].
    split; [rewrite <- P; now apply in_use_ok|]. intros t It. split; [now apply HM|now apply NH].
Qed.

(** a table is made in a pool that did not exist, which is called after it *)
Theorem C61_new : forall sys w a1 a2 n uh dup hint, 4096 <= sys < 2 ^ 63 -> treachable sys w -> thint (TNew K D a1 a2 n uh dup hint) ->
  ~ In a1 (map addr (plist (tw_reg w))) -> ~ In a2 (map addr (plist (tw_reg w))) -> a1 <> a2 -> (List.length (match n with Some n => n | None => str "(null)" end) <= 1000)%nat ->
  exists t r', tinit sys (tw_reg w) a1 a2 n uh dup hint = Ok (t, r') /\ m_pool t = a2 /\ stray r' t 0 /\ nodes (m_tab t) = [] /\ ~ In (m_self t) (map m_self (tw_tabs w)) /\
    exists e, find (plist r') a2 = Some e /\ name e = Some ((match n with Some n => n | None => str "(null)" end) ++ str " (table node pool)") /\ in_use (body e) = [].
Proof.
  intros sys w a1 a2 n uh dup hint S R [Th1 Th2] N1 N2 N12 L. destruct (reach_inv sys w S R) as (H & V). destruct (tinit_ok K D hash sys (tw_reg w) (tw_tabs w) H a1 a2 n uh dup hint S Th1 Th2 V N1 N2 N12) as (t & r' & H' & E & V' & _ & MT & MP & NS).
  exists t, r'. split; [exact E|]. split; [exact MP|]. assert (NN : nodes (m_tab t) = []). { rewrite MT. unfold nodes, all_nodes, table_init. cbn [tbuckets]. clear. induction (Z.to_nat _) as [|m IH]; cbn [repeat List.concat app map]; [reflexivity|exact IH]. }
  assert (X : exists e, find (plist r') a2 = Some e /\ name e = Some (node_pool_name n) /\ in_use (body e) = []).
  { unfold tinit in E. apply obind_ok in E. destruct E as (g & _ & E). apply obind_ok in E. destruct E as ((home & r1) & _ & E). apply obind_ok in E. destruct E as ((r2 & self) & _ & E). apply obind_ok in E. destruct E as (u & _ & E). cbv zeta in E. apply obind_ok in E. destruct E as ((y & r3) & E3 & E). destruct y as [y|]; [|discriminate].
    assert (Y : y = a2) by (rewrite <- MP; assert (X : mkmtable home self y (table_init K (D * elt) uh dup hint) = t) by congruence; rewrite <- X; reflexivity). assert (r3 = r') by congruence. subst r3 y.
    unfold init in E3. apply obind_ok in E3. destruct E3 as (cc & _ & E3). cbv zeta in E3. cbn [negb] in E3. apply obind_ok in E3. destruct E3 as (p & EP & E3). assert (R3 : r' = mkreg (plist r2 ++ [mkentry a2 (strdup_name true (Some (node_pool_name n))) p]) (match hooks r2 with O => 1%nat | h => h end)) by congruence.
    assert (IE : In (mkentry a2 (strdup_name true (Some (node_pool_name n))) p) (plist r')) by (rewrite R3; cbn [plist]; apply in_or_app; right; now left).
    pose proof (find_in (plist r') _ (s_nodup _ _ (v_state _ _ _ _ _ _ V')) IE) as FI. cbn [addr] in FI. eexists. split; [exact FI|]. split; [reflexivity|]. cbn [body].
    destruct (pool_init_ok sys (num_buckets uh hint) SIZEOF_NODE None 0 S) as (q & EQ & KQ & _); [pose proof (buckets_range uh hint Th1); lia|unfold SIZEOF_NODE; lia| |].
    { pose proof (buckets_range uh hint Th1). unfold SIZEOF_NODE. assert (Z.max 1 (num_buckets uh hint) * (24 + 48) <= 2 ^ 56 * 72) by nia. unfold ELT, PAGE. lia. }
    assert (q = p) by congruence. subst q. pose proof (in_use_ok _ _ KQ) as PI. now apply Permutation_sym, Permutation_nil in PI. }
  destruct X as (e & Fe & Ne & Ue). split; [exists e; rewrite MP; split; [exact Fe|]; rewrite Ue, NN; reflexivity|]. split; [exact NN|]. split; [exact NS|]. exists e. split; [exact Fe|]. split; [|exact Ue]. rewrite Ne. unfold node_pool_name. f_equal. apply firstn_all2. rewrite app_length. destruct n as [n|]; cbv iota in L |- *; change (List.length (str " (table node pool)")) with 18%nat; [|change (List.length (str "(null)")) with 6%nat]; lia.
Qed.

(** what the operations on a table leave alone: every pool but that of its nodes (and, when it is destroyed, that of the tables) *)
Lemma find_put_other l a b p : b <> a -> find (put l a p) b = find l b.
Proof. intros N. induction l as [|e l IH]; [reflexivity|]. cbn [put map find]. destruct (Nat.eqb_spec (addr e) a) as [E|E]; cbn [addr]; destruct (Nat.eqb_spec (addr e) b); try congruence; exact IH. Qed.
Lemma find_remove_other l a b : b <> a -> find (remove l a) b = find l b.
Proof. intros N. induction l as [|e l IH]; [reflexivity|]. cbn [remove filter find]. destruct (Nat.eqb_spec (addr e) a) as [E|E]; cbn [negb find]; destruct (Nat.eqb_spec (addr e) b); try congruence; exact IH. Qed.
Lemma alloc_in_frame r a r' x b : alloc_in r a = Ok (r', x) -> b <> a -> find (plist r') b = find (plist r) b.
Proof. unfold alloc_in. destruct (find (plist r) a) as [e|]; [|discriminate]. intros E N. apply obind_ok in E. destruct E as ((p & y) & _ & E). assert (X : r' = mkreg (put (plist r) a p) (hooks r)) by congruence. rewrite X. cbn [plist]. now apply find_put_other. Qed.
Lemma release_in_frame r a r' x b : release_in r a x = Ok r' -> b <> a -> find (plist r') b = find (plist r) b.
Proof. unfold release_in. destruct (find (plist r) a) as [e|]; [|discriminate]. intros E N. apply obind_ok in E. destruct E as (p & _ & E). assert (X : r' = mkreg (put (plist r) a p) (hooks r)) by congruence. rewrite X. cbn [plist]. now apply find_put_other. Qed.
Lemma release_all_frame a b : b <> a -> forall l r r', release_all r a l = Ok r' -> find (plist r') b = find (plist r) b.
Proof. intros N. induction l as [|x l IH]; intros r r' E; cbn [release_all] in E; [now assert (r' = r) as -> by congruence|]. apply obind_ok in E. destruct E as (r1 & E1 & E). rewrite (IH _ _ E). now apply (release_in_frame _ a _ x). Qed.
Lemma destroy_frame r a rc r' b : destroy r a = Ok (rc, r') -> b <> a -> find (plist r') b = find (plist r) b.
Proof.
  unfold destroy. destruct (find (plist r) a) as [e|]; [|discriminate]. intros E N. apply obind_ok in E. destruct E as ((c & q) & _ & E). destruct q as [q|].
  - assert (X : r' = mkreg (put (plist r) a q) (hooks r)) by congruence. rewrite X. cbn [plist]. now apply find_put_other.
  - assert (X : r' = mkreg (remove (plist r) a) (hooks r)) by congruence. rewrite X. cbn [plist]. now apply find_remove_other.
Qed.
Theorem C61_apart : forall r (t : mtable K D) b, b <> m_pool t ->
  (forall k d rc t' r', tset hash cmp r t k d = Ok (rc, t', r') -> find (plist r') b = find (plist r) b) /\
  (forall k x t' r', tdel hash cmp r t k = Ok (x, t', r') -> find (plist r') b = find (plist r) b) /\
  (b <> m_home t -> forall r', tdestroy r t = Ok r' -> find (plist r') b = find (plist r) b).
Proof.
  intros r t b N. split; [|split].
  - intros k d rc t' r' E. unfold tset in E. apply obind_ok in E. destruct E as (c & _ & E). destruct (if tdup (m_tab t) then None else _); [now assert (r' = r) as -> by congruence|].
    apply obind_ok in E. destruct E as ((r1 & x) & E1 & E). apply obind_ok in E. destruct E as (u & _ & E). apply obind_ok in E. destruct E as ((rc1 & tb) & _ & E). assert (r' = r1) as -> by congruence. now apply (alloc_in_frame _ _ _ _ _ E1).
  - intros k x t' r' E. unfold tdel in E. apply obind_ok in E. destruct E as ((y & tb) & _ & E). destruct y as [[d y]|]; [|now assert (r' = r) as -> by congruence]. apply obind_ok in E. destruct E as (r1 & E1 & E). assert (r' = r1) as -> by congruence. now apply (release_in_frame _ _ _ _ _ E1).
  - intros N2 r' E. unfold tdestroy in E. apply obind_ok in E. destruct E as (r1 & E1 & E). apply obind_ok in E. destruct E as ((rc & r2) & E2 & E). rewrite (release_in_frame _ _ _ _ _ E N2), (destroy_frame _ _ _ _ _ E2 N). now apply (release_all_frame _ _ N _ _ _ E1).
Qed.

(** the number of stray elements, from the invariant *)
Lemma stray_lost r tabs H t n : inv r tabs H -> In t tabs -> forall lost, Permutation (H (m_pool t)) (nodes (m_tab t) ++ lost) -> (stray r t n <-> List.length lost = n).
Proof.
  intros V It lost P. destruct (v_tab _ _ _ _ _ _ V t It) as ((nm & I & _) & _). destruct (find_shape _ _ _ _ _ (v_state _ _ _ _ _ _ V) I) as (e & Fe & _ & _ & _ & Ke & _).
  assert (L : List.length (in_use (body e)) = (List.length (nodes (m_tab t)) + List.length lost)%nat) by (rewrite (Permutation_length (in_use_ok _ _ Ke)), (Permutation_length P), app_length; reflexivity).
  split; [intros (e' & F' & L'); assert (e' = e) by congruence; subst e'; lia|intros <-; now exists e].
Qed.

(** C61, one step.  zt_table_set takes one new element of the table's own pool for its node, or nothing when the key is there and duplicates are not allowed;
    zt_table_del gives the key's own element back, but when the key is in place j of its chain (counting from 0), the j - 1 nodes between it and the first are dropped
    from the table with it, and their elements stay in use *)
Theorem C61_set : forall sys w i t k d n, 4096 <= sys < 2 ^ 63 -> treachable sys w -> nth_error (tw_tabs w) i = Some t -> stray (tw_reg w) t n ->
  exists rc t' r', tset hash cmp (tw_reg w) t k d = Ok (rc, t', r') /\ m_pool t' = m_pool t /\ stray r' t' n /\
    ((rc = 0 /\ exists x, Permutation (nodes (m_tab t')) (x :: nodes (m_tab t)) /\ ~ In x (nodes (m_tab t))) \/ (rc = 1 /\ tdup (m_tab t) = false /\ t' = t /\ r' = tw_reg w)).
Proof.
  intros sys w i t k d n S R N St. destruct (reach_inv sys w S R) as (H & V). destruct (split_at _ _ _ N) as (l1 & l2 & E & L & _). rewrite E in V. assert (It : forall x : mtable K D, In x (l1 ++ x :: l2)) by (intros x; apply in_or_app; right; now left).
  destruct (v_tab _ _ _ _ _ _ V t (It t)) as (_ & (lost & P) & _). apply (stray_lost _ _ _ _ _ V (It t) lost P) in St.
  destruct (tset_ok K D hash cmp (tw_reg w) l1 t l2 H k d V) as (rc & t' & r' & H' & E' & V' & Sh & R1 & R0 & _ & RC & c & _ & RC1). exists rc, t', r'. split; [exact E'|]. destruct RC as [RC|RC].
  - destruct (R0 RC) as (x & -> & NI & PN & MP). split; [exact MP|]. split.
    + apply (stray_lost _ _ _ _ _ V' (It t') lost); [|exact St]. rewrite MP, held_same, PN, P. reflexivity.
    + left. split; [exact RC|]. exists x. split; [exact PN|]. intros I. apply NI. apply (Permutation_in _ (Permutation_sym P)). apply in_or_app. now left.
  - destruct R1 as (-> & -> & ->); [lia|]. split; [reflexivity|]. split; [now apply (stray_lost _ _ _ _ _ V (It t) lost P)|]. right. destruct (proj1 RC1 RC). auto.
Qed.
Theorem C61_del : forall sys w i t k n, 4096 <= sys < 2 ^ 63 -> treachable sys w -> nth_error (tw_tabs w) i = Some t -> stray (tw_reg w) t n ->
  exists c x t' r', chain_at K (D * elt) hash (m_tab t) k = Ok c /\ tdel hash cmp (tw_reg w) t k = Ok (x, t', r') /\ m_pool t' = m_pool t /\
    match depth c k with
    | None => x = None /\ t' = t /\ r' = tw_reg w
    | Some j => x <> None /\ stray r' t' (n + (j - 1)) /\ (List.length (nodes (m_tab t')) + 1 + (j - 1) = List.length (nodes (m_tab t)))%nat /\ exists e e', find (plist (tw_reg w)) (m_pool t) = Some e /\ find (plist r') (m_pool t) = Some e' /\ List.length (in_use (body e)) = S (List.length (in_use (body e')))
    end.
Proof.
  intros sys w i t k n S R N St. destruct (reach_inv sys w S R) as (H & V). destruct (split_at _ _ _ N) as (l1 & l2 & E & L & _). rewrite E in V. assert (It : forall x : mtable K D, In x (l1 ++ x :: l2)) by (intros x; apply in_or_app; right; now left).
  destruct (v_tab _ _ _ _ _ _ V t (It t)) as (_ & (lost & P) & _). assert (St' := St). apply (stray_lost _ _ _ _ _ V (It t) lost P) in St.
  destruct (tdel_ok K D hash cmp (tw_reg w) l1 t l2 H k V) as (c & x & t' & r' & H' & C & E' & V' & Sh & MP & DD & _). exists c, x, t', r'. split; [exact C|]. split; [exact E'|]. split; [exact MP|]. destruct (depth c k) as [j|]; [|tauto].
  destruct DD as (X & e & lo & rest & PN & LL & PR & ->). split; [exact X|]. assert (PL : Permutation rest (nodes (m_tab t') ++ lo ++ lost)). { apply (Permutation_cons_inv (a := e)). rewrite <- PR, P, PN. cbn [app]. now rewrite <- app_assoc. }
  assert (S2 : stray r' t' (n + (j - 1))). { apply (stray_lost _ _ _ _ _ V' (It t') (lo ++ lost)); [rewrite MP, held_same; exact PL|]. rewrite app_length. lia. }
  split; [exact S2|]. split; [apply Permutation_length in PN; cbn [List.length] in PN; rewrite app_length in PN; lia|].
  destruct St' as (e1 & F1 & L1), S2 as (e2 & F2 & L2). exists e1, e2. split; [exact F1|]. rewrite MP in F2. split; [exact F2|]. apply Permutation_length in PN. cbn [List.length] in PN. rewrite app_length in PN. lia.
Qed.
(** destroying a table gives its own element back to the pool of tables; its node pool goes with it exactly when it has no stray elements, otherwise the pool stays, with these in use *)
Theorem C61_destroy : forall sys w i t n, 4096 <= sys < 2 ^ 63 -> treachable sys w -> nth_error (tw_tabs w) i = Some t -> stray (tw_reg w) t n ->
  exists r', tdestroy (tw_reg w) t = Ok r' /\ (n = 0%nat -> find (plist r') (m_pool t) = None) /\ (n <> 0%nat -> exists e, find (plist r') (m_pool t) = Some e /\ List.length (in_use (body e)) = n) /\
    exists e e', find (plist (tw_reg w)) (m_home t) = Some e /\ find (plist r') (m_home t) = Some e' /\ Permutation (in_use (body e)) (m_self t :: in_use (body e')).
Proof.
  intros sys w i t n S R N St. destruct (reach_inv sys w S R) as (H & V). destruct (split_at _ _ _ N) as (l1 & l2 & E & L & _). rewrite E in V. assert (It : In t (l1 ++ t :: l2)) by (apply in_or_app; right; now left).
  destruct (tdestroy_ok K D hash (tw_reg w) l1 t l2 H V) as (r' & H' & lost & E' & V' & P & P' & _ & PH & SA & SB & _). apply (stray_lost _ _ _ _ _ V It lost P) in St. exists r'. split; [exact E'|].
  assert (S' := v_state _ _ _ _ _ _ V'). destruct (v_tab _ _ _ _ _ _ V t It) as ((nm & I & NN) & _). pose proof (fun tp => pool_ne_home _ _ _ _ _ _ t tp V It) as NH. split; [|split].
  - intros ->. assert (lost = []) by (destruct lost; [reflexivity|discriminate]). apply find_none. rewrite <- shape_addr, (SA H0). intros J. apply in_map_iff in J. destruct J as (x & Ex & Jx). apply filter_In in Jx. destruct Jx as [_ Jx]. rewrite Ex, Nat.eqb_refl in Jx. discriminate.
  - intros N0. assert (NL : lost <> []) by (intros ->; cbn [List.length] in St; lia). rewrite <- (SB NL) in I. destruct (find_shape _ _ _ _ _ S' I) as (e & Fe & _ & _ & _ & Ke & _). exists e. split; [exact Fe|]. now rewrite (Permutation_length (in_use_ok _ _ Ke)), (Permutation_length P').
  - assert (Hm := v_home _ _ _ _ _ _ V). destruct (first_named table_pool (shape (tw_reg w))) as [tp|] eqn:F; [|now destruct l1]. destruct Hm as (Itp & HM & _). rewrite <- (HM t It) in Itp. specialize (NH tp eq_refl). rewrite <- (HM t It) in NH.
    destruct (find_shape _ _ _ _ _ (v_state _ _ _ _ _ _ V) Itp) as (e & Fe & _ & _ & _ & Ke & _). assert (Itp' : In (m_home t, Some table_pool, 80) (shape r')). { destruct lost as [|x l]; [rewrite (SA eq_refl); apply filter_In; split; [exact Itp|]; cbn [fst]; apply negb_true_iff, Nat.eqb_neq; congruence|]. rewrite SB by discriminate. exact Itp. }
    destruct (find_shape _ _ _ _ _ S' Itp') as (e' & Fe' & _ & _ & _ & Ke' & _). exists e, e'. split; [exact Fe|]. split; [exact Fe'|]. rewrite (in_use_ok _ _ Ke), (in_use_ok _ _ Ke'). exact PH.
Qed.
(** a program that never deletes a key from behind the second place of a chain leaks nothing: no table has stray elements, the only pools are those of the tables there are and that of the tables;
    and when it has destroyed its tables, nothing is left after the exit handler *)
Theorem C61_gentle : forall sys os w, 4096 <= sys < 2 ^ 63 -> Forall thint os -> gentle K D hash cmp sys tworld0 os -> trun sys tworld0 os = Ok w ->
  (forall t, In t (tw_tabs w) -> stray (tw_reg w) t 0) /\
  (forall e, In e (plist (tw_reg w)) -> name e = Some (str "zt.table.pool") \/ exists t, In t (tw_tabs w) /\ addr e = m_pool t) /\
  (tw_tabs w = [] -> exists r, at_exit (tw_reg w) = Ok r /\ plist r = []).
Proof.
  intros sys os w S F G E. destruct (run_inv sys S os tworld0 (fun _ => []) F (proj1 (inv0 K D hash))) as (w' & H & E' & V & T). assert (w' = w) by congruence. subst w'. specialize (T G (proj2 (inv0 K D hash))). clear E E' G F. split; [|split].
  - intros t It. apply (stray_lost _ _ _ _ _ V It []); [|reflexivity]. rewrite app_nil_r. now apply (g_tab _ _ _ _ _ T).
  - intros e I. assert (IS : In (addr e, name e, elt_size (body e)) (shape (tw_reg w))) by (unfold shape; apply in_map_iff; now exists e). destruct (g_pools _ _ _ _ _ T _ _ _ IS) as [F|J].
    + left. assert (Hm := v_home _ _ _ _ _ _ V). rewrite F in Hm. destruct Hm as (I2 & _). now destruct (shape_inj _ _ _ _ _ _ _ (v_state _ _ _ _ _ _ V) IS I2).
    + right. apply in_map_iff in J. destruct J as (t & Et & It). exists t. auto.
  - intros E0. unfold at_exit. destruct (Nat.eqb_spec (hooks (tw_reg w)) 0) as [Z|Z].
    { exists (tw_reg w). split; [reflexivity|]. pose proof (v_hooks _ _ _ _ _ _ V Z) as Z'. unfold shape in Z'. now apply map_eq_nil in Z'. }
    destruct (release_loop_ok H (map addr (plist (tw_reg w))) (tw_reg w)) as (r & Er & M & _); [apply (v_state _ _ _ _ _ _ V)|apply (v_state _ _ _ _ _ _ V)|apply incl_refl|intros e I; now apply (s_ok _ _ (v_state _ _ _ _ _ _ V))|].
    exists r. split; [exact Er|]. apply map_eq_nil with (f := addr). rewrite M. clear M Er.
    assert (A : forall a, In a (map addr (plist (tw_reg w))) -> H a = []).
    { intros a Ia. rewrite <- shape_addr in Ia. apply in_map_iff in Ia. destruct Ia as (((b & nn) & s) & Eb & Ib). cbn [fst] in Eb. subst b. destruct (g_pools _ _ _ _ _ T _ _ _ Ib) as [F|J]; [|rewrite E0 in J; destruct J].
      assert (Hm := v_home _ _ _ _ _ _ V). rewrite F in Hm. destruct Hm as (_ & _ & P). rewrite E0 in P. cbn [map] in P. now apply Permutation_sym, Permutation_nil in P. }
    assert (B : forall l, incl l (map addr (plist (tw_reg w))) -> filter (fun a => negb (existsb (Nat.eqb a) (map addr (plist (tw_reg w)))) || negb (match H a with [] => true | _ => false end)) l = []).
    { induction l as [|a l IH]; intros IC; [reflexivity|]. cbn [filter]. rewrite (A a) by (apply IC; now left). replace (existsb (Nat.eqb a) (map addr (plist (tw_reg w)))) with true; [cbn [negb orb]; apply IH; intros y Iy; apply IC; now right|].
      symmetry. apply existsb_exists. exists a. split; [apply IC; now left|apply Nat.eqb_refl]. }
    apply B, incl_refl.
Qed.
End P.
Print Assumptions C61_history.
Print Assumptions C61_new.
Print Assumptions C61_apart.
Print Assumptions C61_set.
Print Assumptions C61_del.
Print Assumptions C61_destroy.
Print Assumptions C61_gentle.

(** C61, where it fails.  Deleting the last of three keys of a chain drops the middle one without giving its element back: the table's node pool survives the table, and the exit handler *)
Definition leak_prog : list (top Z Z) := [TNew Z Z 0 1 (Some (str "t")) false false 4; TSet Z Z 0 1 10; TSet Z Z 0 2 20; TSet Z Z 0 3 30; TDel Z Z 0 1; TFree Z Z 0].
Theorem C61_leak_refuted : exists os w r, Forall (thint Z Z (fun _ => 0)) os /\ trun Z Z (fun _ => 0) Z.eqb 4096 tworld0 os = Ok w /\ tw_tabs w = [] /\ at_exit (tw_reg w) = Ok r /\
  exists e, plist r = [e] /\ name e = Some (str "t (table node pool)") /\ List.length (in_use (body e)) = 1%nat.
Proof.
  destruct (trun Z Z (fun _ => 0) Z.eqb 4096 tworld0 leak_prog) as [w| | |] eqn:E; vm_compute in E; try discriminate. exists leak_prog, w.
  destruct (at_exit (tw_reg w)) as [r| | |] eqn:E2; assert (W : w = ltac:(match type of E with Ok ?x = Ok _ => exact x end)) by congruence; rewrite W in E2 |- *; vm_compute in E2; try discriminate.
  exists r. split; [|split; [vm_compute; reflexivity|split; [reflexivity|split; [vm_compute; now rewrite <- E2|]]]].
  - repeat constructor. all: cbn; lia.
  - assert (R : r = ltac:(match type of E2 with Ok ?x = Ok _ => exact x end)) by congruence. rewrite R. eexists. split; [reflexivity|]. split; vm_compute; reflexivity.
Qed.
Print Assumptions C61_leak_refuted.
(** a program that makes a pool called zt.table.pool of its own, of smaller elements, gets its tables written over the end of them *)
Theorem C61_foreign_pool_refuted : exists r, init 4096 reg0 0 true true true (Some (str "zt.table.pool")) 4 8 None 0 = Ok (Some 0%nat, r) /\ tinit (K := Z) (D := Z) 4096 r 1 2 (Some (str "t")) false false 4 = UB.
Proof.
  destruct (init 4096 reg0 0 true true true (Some (str "zt.table.pool")) 4 8 None 0) as [[x r]| | |] eqn:E; vm_compute in E; try discriminate. exists r.
  assert (X : x = Some 0%nat) by congruence. subst x. split; [vm_compute; now rewrite <- E|]. assert (R : r = ltac:(match type of E with Ok (_, ?x) = Ok _ => exact x end)) by congruence. rewrite R. vm_compute. reflexivity.
Qed.
Print Assumptions C61_foreign_pool_refuted.

(** two tables, one destroyed: the hypotheses can be met, and nothing is lost when the keys are deleted from the front *)
Definition tidy_prog : list (top Z Z) := [TNew Z Z 0 1 (Some (str "t")) false false 4; TNew Z Z 7 2 None true true 8; TSet Z Z 0 1 10; TSet Z Z 1 2 20; TSet Z Z 0 3 30; TDel Z Z 0 1; TFree Z Z 0].
Example C61_history_ex : Forall (thint Z Z (fun _ => 0)) tidy_prog /\ gentle Z Z (fun _ => 0) Z.eqb 4096 tworld0 tidy_prog /\
  exists w, trun Z Z (fun _ => 0) Z.eqb 4096 tworld0 tidy_prog = Ok w /\ map addr (plist (tw_reg w)) = [0; 2]%nat /\ List.length (tw_tabs w) = 1%nat.
Proof.
  split; [repeat constructor; cbn; lia|]. split.
  - unfold tidy_prog. repeat (cbn [gentle]; split; [cbn [gentle_step]; try exact I|let w := fresh "w" in let E := fresh "E" in intros w E; vm_compute in E; assert (W : w = ltac:(match type of E with Ok ?x = Ok _ => exact x end)) by congruence; clear E; subst w]); [|exact I].
    intros t c j E1 E2 E3. vm_compute in E1. assert (W : t = ltac:(match type of E1 with Some ?x = _ => exact x end)) by congruence. subst t. vm_compute in E2. assert (W : c = ltac:(match type of E2 with Ok ?x = _ => exact x end)) by congruence. subst c. vm_compute in E3. assert (j = 1%nat) by congruence. lia.
  - eexists. split; [vm_compute; reflexivity|]. split; vm_compute; reflexivity.
Qed.
Example C61_del_ex : exists w t e, trun Z Z (fun _ => 0) Z.eqb 4096 tworld0 (firstn 5 leak_prog) = Ok w /\ nth_error (tw_tabs w) 0 = Some t /\ find (plist (tw_reg w)) (m_pool t) = Some e /\
  List.length (nodes (m_tab t)) = 1%nat /\ List.length (in_use (body e)) = 2%nat.
Proof. eexists _, _, _. split; [vm_compute; reflexivity|]. split; [reflexivity|]. split; [reflexivity|]. split; vm_compute; reflexivity. Qed.
