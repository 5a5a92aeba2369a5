(** zt_table_for_each and zt_table_copy on chains in memory, with callbacks that change the table. *)
From Verif Require Import Prelude HashModel TableModel TptrModel TptrSpec TptrProofs.
From Coq Require Import Permutation.
Open Scope Z_scope.

Section E.
Variable K D : Type.
Variable hash : K -> Z.
Variable cmp : K -> K -> bool.
Variable pick : nat -> list nat -> nat.
Hypothesis fresh : forall c l, ~ In (pick c l) l.
Notation heap := (heap K D).
Notation nd := (node K D).
Notation an := (nat * nd)%type.
Notation slot := (TableModel.slot K D hash).

(** chains that got longer at the front, by bindings from a list *)
Definition grown (P : list (K * D)) (c c' : list an) : Prop := exists i, c' = i ++ c /\ Forall (fun a => In (binding (snd a)) P) i.
Definition grows (P : list (K * D)) (L L' : list (list an)) : Prop := Forall2 (grown P) L L'.
Lemma grown_refl P c : grown P c c.
Proof. exists []. split; [reflexivity|constructor]. Qed.
Lemma grows_refl P L : grows P L L.
Proof. induction L; constructor; [apply grown_refl|assumption]. Qed.
Lemma grown_trans P Q R c1 c2 c3 : incl P R -> incl Q R -> grown P c1 c2 -> grown Q c2 c3 -> grown R c1 c3.
Proof.
  intros PR QR (i & -> & F) (j & -> & G). exists (j ++ i). split; [now rewrite app_assoc|]. apply Forall_app. split; [apply (Forall_impl _ (fun a H => QR _ H) G)|apply (Forall_impl _ (fun a H => PR _ H) F)].
Qed.
Lemma grows_trans P Q R L1 L2 L3 : incl P R -> incl Q R -> grows P L1 L2 -> grows Q L2 L3 -> grows R L1 L3.
Proof. intros PR QR G1. revert L3. induction G1 as [|c1 c2 L1 L2 G F IH]; intros L3 G2; inversion G2; subst; constructor; [now apply (grown_trans P Q R c1 c2)|now apply IH]. Qed.
Lemma grows_upd P L i c x : nth_error L i = Some c -> In (binding (snd x)) P -> grows P L (upd L i (x :: c)).
Proof.
  revert i. induction L as [|a L IH]; intros [|i] E I; cbn [nth_error upd] in *; try discriminate.
  - assert (a = c) by congruence. subst a. constructor; [|apply grows_refl]. exists [x]. split; [reflexivity|]. now repeat constructor.
  - constructor; [apply grown_refl|now apply IH].
Qed.
Lemma grows_len P L L' : grows P L L' -> length L' = length L.
Proof. intros G. symmetry. apply (Forall2_len _ _ _ G). Qed.
Lemma grows_nth P L L' i c : grows P L L' -> nth_error L i = Some c -> exists c', nth_error L' i = Some c' /\ grown P c c'.
Proof. intros G. revert i. induction G as [|a a' L L' Ga G IH]; intros [|i] E; cbn [nth_error] in *; try discriminate; [exists a'; split; [reflexivity|congruence]|now apply IH]. Qed.

Lemma psets_ok : forall ops h t L, rep h t L -> bounded hash (tab t L) ->
  exists h' t' L', psets hash cmp pick h t ops = Ok (h', t') /\ rep h' t' L' /\ grows ops L L' /\ pbits t' = pbits t /\ pdup t' = pdup t /\ (forall x, In x (map fst (cells h)) -> look (cells h') x = look (cells h) x) /\ incl (map fst (cells h)) (map fst (cells h')).
Proof.
  induction ops as [|[k d] ops IH]; intros h t L R B; cbn [psets].
  { exists h, t, L. split; [reflexivity|]. split; [exact R|]. split; [apply grows_refl|]. split; [reflexivity|]. split; [reflexivity|]. split; [auto|apply incl_refl]. }
  assert (TS : exists rc T', table_set K D hash cmp (tab t L) k d = Ok (rc, T')). { unfold table_set, chain_at. pose proof (B k) as Bk. apply nth_error_Some in Bk. destruct (nth_error _ _); [|congruence]. cbn [obind]. destruct (if tdup (tab t L) then None else _); eauto. }
  destruct TS as (rc & T' & TS). destruct (pset_ok K D hash cmp pick fresh h t L k d (S (length (cells h))) rc T' R ltac:(lia) TS) as (h1 & t1 & L1 & E1 & R1 & ET & LK1 & IC1 & R0 & RN). rewrite E1. cbn [obind].
  assert (X : grows [(k, d)] L L1 /\ pbits t1 = pbits t /\ pdup t1 = pdup t).
  { destruct (Z.eq_dec rc 0) as [->|NZ]; [|destruct (RN NZ) as (-> & -> & ->); split; [apply grows_refl|auto]]. destruct (R0 eq_refl) as (x & c & N & -> & _). split; [apply grows_upd; [exact N|now left]|].
    unfold table_set in TS. apply obind_ok in TS. destruct TS as (c0 & _ & TS). destruct (if tdup (tab t L) then None else _); [discriminate|]. assert (X : mktable (pbits t1) (pdup t1) (map (map snd) (upd L (pslot hash t k) ((x, mknode k d (hash k)) :: c))) = mktable (pbits t) (pdup t) (upd (tbuckets (tab t L)) (slot (tab t L) k) (mknode k d (hash k) :: c0))). { change (tab t1 (upd L (pslot hash t k) ((x, mknode k d (hash k)) :: c)) = mktable (pbits t) (pdup t) (upd (tbuckets (tab t L)) (slot (tab t L) k) (mknode k d (hash k) :: c0))). rewrite ET. unfold tab in TS at 1 2. cbn [tbits tdup] in TS. congruence. }
    split; congruence. }
  destruct X as (G1 & PB & PD). assert (B1 : bounded hash (tab t1 L1)). { intros k'. pose proof (B k') as Bk. unfold TableModel.slot, tab in *. cbn [tbits tbuckets] in *. rewrite map_length in *. rewrite PB, (grows_len _ _ _ G1). exact Bk. }
  destruct (IH h1 t1 L1 R1 B1) as (h2 & t2 & L2 & E2 & R2 & G2 & PB2 & PD2 & LK2 & IC2). exists h2, t2, L2. split; [exact E2|]. split; [exact R2|]. split; [apply (grows_trans [(k, d)] ops ((k, d) :: ops) L L1); auto|].
  { intros x [<-|[]]. now left. } { intros x I. now right. }
  split; [congruence|]. split; [congruence|]. split; [intros x I; rewrite (LK2 x (IC1 x I)); now apply LK1|]. intros x I. now apply IC2, IC1.
Qed.

Section Ins.
Variable V : Type.
Variable g : V -> K -> D -> Z * V * list (K * D).
Notation cb := (inserting hash cmp pick g).
Lemma each_chain_ins : forall c h t v seen put p L, rep h t L -> bounded hash (tab t L) -> chain h p c ->
  exists r h' t' v' ops s L', (forall fuel, (length c < fuel)%nat -> peach_chain cb fuel h t (v, seen, put) p = Ok (r, h', t', (v', seen ++ s, put ++ ops))) /\ rep h' t' L' /\ grows ops L L' /\ pbits t' = pbits t /\ pdup t' = pdup t /\
    (exists rest, s ++ rest = map (fun a => binding (snd a)) c /\ (r = 0 -> rest = [])).
Proof.
  induction c as [|[x n] c IH]; intros h t v seen put p L R B C; cbn [chain] in C.
  - subst p. exists 0, h, t, v, [], [], L. split; [intros [|f] Lf; cbn [length] in Lf; [lia|]; cbn [peach_chain]; now rewrite !app_nil_r|]. split; [exact R|]. split; [apply grows_refl|]. split; [reflexivity|]. split; [reflexivity|]. exists []. auto.
  - destruct C as (-> & q & Lk & C). destruct (g v (nkey n) (ndatum n)) as [[r1 v1] ops1] eqn:G. destruct (psets_ok ops1 h t L R B) as (h1 & t1 & L1 & E1 & R1 & G1 & PB & PD & LK1 & IC1).
    assert (ST : forall f, peach_chain cb (S f) h t (v, seen, put) (Some x) = if r1 =? 0 then peach_chain cb f h1 t1 (v1, seen ++ [(nkey n, ndatum n)], put ++ ops1) q else Ok (r1, h1, t1, (v1, seen ++ [(nkey n, ndatum n)], put ++ ops1))).
    { intros f. cbn [peach_chain]. unfold hget. rewrite Lk. cbn [obind cell hk hd hn]. unfold inserting at 1. rewrite G, E1. cbn [obind]. reflexivity. }
    assert (B1 : bounded hash (tab t1 L1)). { intros k'. pose proof (B k') as Bk. unfold TableModel.slot, tab in *. cbn [tbits tbuckets] in *. rewrite map_length in *. rewrite PB, (grows_len _ _ _ G1). exact Bk. }
    destruct (Z.eqb_spec r1 0) as [Z|Z].
    + assert (C1 : chain h1 q c). { apply (chain_ext K D h h1 c q C). intros y Iy. apply LK1. now apply (chain_in K D h c q C). }
      destruct (IH h1 t1 v1 (seen ++ [(nkey n, ndatum n)]) (put ++ ops1) q L1 R1 B1 C1) as (r & h2 & t2 & v2 & ops2 & s & L2 & E2 & R2 & G2 & PB2 & PD2 & rest & ER & Z2).
      exists r, h2, t2, v2, (ops1 ++ ops2), ((nkey n, ndatum n) :: s), L2. split; [intros [|f] Lf; cbn [length] in Lf; [lia|]; rewrite ST, E2 by lia; now rewrite <- !app_assoc|]. split; [exact R2|]. split; [apply (grows_trans ops1 ops2 (ops1 ++ ops2) L L1); auto; [apply incl_appl|apply incl_appr]; apply incl_refl|]. split; [congruence|]. split; [congruence|].
      exists rest. split; [|exact Z2]. cbn [map snd app]. now rewrite <- ER.
    + exists r1, h1, t1, v1, ops1, [(nkey n, ndatum n)], L1. split; [intros [|f] Lf; cbn [length] in Lf; [lia|]; now rewrite ST|]. split; [exact R1|]. split; [exact G1|]. split; [exact PB|]. split; [exact PD|]. exists (map (fun a => binding (snd a)) c). split; [reflexivity|]. intros E. contradiction.
Qed.
(** a chain as bindings *)
Definition bl (c : list an) : list (K * D) := map (fun a => binding (snd a)) c.
Lemma each_loop_ins L0 : forall is i h t v seen put L P, is = seq i (length L0 - i) -> (i <= length L0)%nat -> rep h t L -> bounded hash (tab t L) -> grows P L0 L -> incl P put ->
  exists fuel0 r h' t' v' ops s L', (forall fuel, (fuel0 <= fuel)%nat -> peach_loop cb fuel h t (v, seen, put) is = Ok (r, h', t', (v', seen ++ s, put ++ ops))) /\ rep h' t' L' /\ grows (P ++ ops) L0 L' /\ pbits t' = pbits t /\ pdup t' = pdup t /\
    (exists ins rest, length ins = (length L0 - i)%nat /\ s ++ rest = concat (map (fun x => fst x ++ bl (snd x)) (combine ins (skipn i L0))) /\ (forall b, In b (concat ins) -> In b (put ++ ops)) /\ (r = 0 -> rest = [])).
Proof.
  induction is as [|j is IH]; intros i h t v seen put L P Eis Hi R B G IP.
  - assert (length L0 - i = 0)%nat by (destruct (length L0 - i)%nat; [reflexivity|discriminate]). exists 0%nat, 0, h, t, v, [], [], L. split; [intros fuel _; cbn [peach_loop]; now rewrite !app_nil_r|]. split; [exact R|]. rewrite !app_nil_r. split; [exact G|]. split; [reflexivity|]. split; [reflexivity|].
    exists [], []. rewrite H. split; [reflexivity|]. split; [reflexivity|]. split; [intros b []|reflexivity].
  - destruct (length L0 - i)%nat as [|m] eqn:Em; [discriminate|]. cbn [seq] in Eis. injection Eis as -> ->. assert (Hi' : (i < length L0)%nat) by lia.
    assert (Nc : exists c, nth_error L0 i = Some c) by (apply nth_error_Some in Hi'; destruct (nth_error L0 i) as [c|]; [now exists c|congruence]). destruct Nc as (c & Nc). destruct (grows_nth P L0 L i c G Nc) as (c' & Nc' & (inn & -> & Finn)).
    assert (Hp : exists p, nth_error (pbuckets t) i = Some p). { assert (X : (i < length (pbuckets t))%nat) by (rewrite (rep_same_len K D h t L R), (grows_len _ _ _ G); lia). apply nth_error_Some in X. destruct (nth_error (pbuckets t) i) as [p|]; [now exists p|congruence]. } destruct Hp as (p & Hp).
    assert (Cp : chain h p (inn ++ c)). { destruct (rep_at K D h t L i p R Hp) as (b1 & b2 & L1 & c0 & L2 & _ & EL & _ & Li & C & _). rewrite EL, <- Li, nth_error_app2, Nat.sub_diag in Nc' by lia. cbn [nth_error] in Nc'. assert (c0 = inn ++ c) by congruence. now subst c0. }
    destruct (each_chain_ins (inn ++ c) h t v seen put p L R B Cp) as (r1 & h1 & t1 & v1 & ops1 & s1 & L1 & E1 & R1 & G1 & PB1 & PD1 & rest1 & ER1 & Z1).
    assert (SK : skipn i L0 = c :: skipn (S i) L0). { clear - Nc. revert i Nc. induction L0 as [|a l IHl]; intros [|i] E; cbn [nth_error] in E; try discriminate; [cbn [skipn]; congruence|]. cbn [skipn]. rewrite (IHl i E). reflexivity. }
    assert (GG : grows (P ++ ops1) L0 L1) by (apply (grows_trans P ops1 (P ++ ops1) L0 L); auto; [apply incl_appl|apply incl_appr]; apply incl_refl).
    assert (INN : forall b, In b (bl inn) -> In b put). { intros b I. unfold bl in I. apply in_map_iff in I. destruct I as (a & <- & Ia). rewrite Forall_forall in Finn. now apply IP, Finn. }
    destruct (Z.eq_dec r1 0) as [Zr|Zr].
    + assert (B1 : bounded hash (tab t1 L1)). { intros k'. pose proof (B k') as Bk. unfold TableModel.slot, tab in *. cbn [tbits tbuckets] in *. rewrite map_length in *. rewrite PB1, (grows_len _ _ _ G1). exact Bk. }
      destruct (IH (S i) h1 t1 v1 (seen ++ s1) (put ++ ops1) L1 (P ++ ops1)) as (f0 & r2 & h2 & t2 & v2 & ops2 & s2 & L2 & E2 & R2 & G2 & PB2 & PD2 & ins2 & rest2 & LI & ER2 & IN2 & Z2); auto.
      { f_equal. lia. }
      { apply incl_app; [intros x I; apply in_or_app; left; now apply IP|apply incl_appr, incl_refl]. }
      exists (Nat.max (S (length (inn ++ c))) f0), r2, h2, t2, v2, (ops1 ++ ops2), (s1 ++ s2), L2. split; [|split; [exact R2|split; [now rewrite app_assoc|split; [congruence|split; [congruence|]]]]].
      * intros fuel Hf. cbn [peach_loop]. unfold head_at. rewrite Hp. cbn [obind]. rewrite E1 by lia. cbn [obind]. rewrite Zr. change (0 =? 0) with true. cbv iota. rewrite E2 by lia. now rewrite <- !app_assoc.
      * exists (bl inn :: ins2), rest2. split; [cbn [length]; lia|]. split; [|split; [|exact Z2]].
        -- rewrite SK. cbn [combine map concat fst snd]. rewrite <- ER2. rewrite (Z1 Zr), app_nil_r in ER1. rewrite ER1. unfold bl. rewrite map_app, <- !app_assoc. reflexivity.
        -- cbn [concat]. intros b I. apply in_app_or in I. destruct I as [I|I]; [apply in_or_app; left; now apply INN|]. rewrite app_assoc. now apply IN2.
    + exists (S (length (inn ++ c))), r1, h1, t1, v1, ops1, s1, L1. split; [|split; [exact R1|split; [exact GG|split; [exact PB1|split; [exact PD1|]]]]].
      * intros fuel Hf. cbn [peach_loop]. unfold head_at. rewrite Hp. cbn [obind]. rewrite E1 by lia. cbn [obind]. destruct (Z.eqb_spec r1 0); [contradiction|reflexivity].
      * exists (bl inn :: repeat [] m), (rest1 ++ concat (map bl (skipn (S i) L0))). split; [cbn [length]; now rewrite repeat_length|]. split; [|split; [|intros E; contradiction]].
        -- rewrite SK. cbn [combine map concat fst snd]. rewrite app_assoc, ER1. unfold bl at 3. rewrite map_app. f_equal. f_equal. assert (LS : length (skipn (S i) L0) = m) by (rewrite skipn_length; lia). rewrite <- LS. clear. induction (skipn (S i) L0) as [|a l IHl]; [reflexivity|]. cbn [length repeat combine map fst snd app]. now rewrite IHl.
        -- cbn [concat]. intros b I. apply in_or_app. left. apply in_app_or in I. destruct I as [I|I]; [now apply INN|]. exfalso. clear - I. induction m as [|m IHm]; [destruct I|]. cbn [repeat concat app] in I. auto.
Qed.
End Ins.

(** a callback that only looks *)
Lemma each_chain_look {V} (g : V -> K -> D -> Z * V) h t : forall c p v fuel, chain h p c -> (length c < fuel)%nat ->
  peach_chain (looking g) fuel h t v p = let '(r, v) := visit g (map snd c) v in Ok (r, h, t, v).
Proof.
  induction c as [|[x n] c IH]; intros p v [|f] C Lf; cbn [length] in Lf; try lia; cbn [chain] in C.
  - subst p. reflexivity.
  - destruct C as (-> & q & Lk & C). cbn [peach_chain map snd visit]. unfold hget. rewrite Lk. cbn [obind cell hk hd hn]. unfold looking at 1. destruct (g v (nkey n) (ndatum n)) as [r v']. cbn [obind]. destruct (Z.eqb_spec r 0) as [->|NZ]; [|reflexivity]. apply IH; [exact C|lia].
Qed.
Lemma visit_app {V} (g : V -> K -> D -> Z * V) : forall l1 l2 v, visit g (l1 ++ l2) v = let '(r, v') := visit g l1 v in if r =? 0 then visit g l2 v' else (r, v').
Proof. induction l1 as [|n l1 IH]; intros l2 v; cbn [app visit]; [reflexivity|]. destruct (g v (nkey n) (ndatum n)) as [r v']. destruct (r =? 0) eqn:E; [apply IH|]. now rewrite E. Qed.
Lemma each_loop_look {V} (g : V -> K -> D -> Z * V) h t L fuel : rep h t L -> (length (cells h) < fuel)%nat -> forall is i v, is = seq i (length L - i) -> (i <= length L)%nat ->
  peach_loop (looking g) fuel h t v is = let '(r, v) := visit g (map snd (concat (skipn i L))) v in Ok (r, h, t, v).
Proof.
  intros R Lf. induction is as [|j is IH]; intros i v E Hi.
  - assert (length L - i = 0)%nat by (destruct (length L - i)%nat; [reflexivity|discriminate]). rewrite skipn_all2 by lia. reflexivity.
  - destruct (length L - i)%nat as [|m] eqn:Em; [discriminate|]. cbn [seq] in E. injection E as -> ->. assert (Hi' : (i < length L)%nat) by lia. assert (Hi2 := Hi'). apply nth_error_Some in Hi'. destruct (nth_error L i) as [c|] eqn:Nc; [|congruence].
    assert (Hp : exists p, nth_error (pbuckets t) i = Some p). { assert (X : (i < length (pbuckets t))%nat) by (rewrite (rep_same_len K D h t L R); lia). apply nth_error_Some in X. destruct (nth_error (pbuckets t) i) as [p|]; [now exists p|congruence]. } destruct Hp as (p & Hp).
    assert (Cp : chain h p c). { destruct (rep_at K D h t L i p R Hp) as (b1 & b2 & L1 & c0 & L2 & _ & EL & _ & Li & C & _). rewrite EL, <- Li, nth_error_app2, Nat.sub_diag in Nc by lia. cbn [nth_error] in Nc. assert (c0 = c) by congruence. now subst c0. }
    assert (SK : skipn i L = c :: skipn (S i) L). { clear - Nc. revert i Nc. induction L as [|a l IHl]; intros [|i] E; cbn [nth_error] in E; try discriminate; [cbn [skipn]; congruence|]. cbn [skipn]. rewrite (IHl i E). reflexivity. }
    pose proof (rep_len K D h t L i p c R Nc Cp) as Lc. cbn [peach_loop]. unfold head_at. rewrite Hp. cbn [obind]. rewrite (each_chain_look g h t c p v fuel Cp) by lia. rewrite SK. cbn [concat]. rewrite map_app, visit_app. destruct (visit g (map snd c) v) as [r v'].
    cbn [obind]. destruct (r =? 0); [|reflexivity]. apply IH; [f_equal; lia|lia].
Qed.

(** deleting the first node of a chain *)
Lemma pdel_first h t L k x n q c fuel : rep h t L -> nth_error L (pslot hash t k) = Some ((x, n) :: c) -> nth_error (pbuckets t) (pslot hash t k) = Some (Some x) -> look (cells h) x = Some (cell n q) -> chain h q c -> TableModel.hit K D hash cmp n k = true -> (0 < fuel)%nat ->
  pdel hash cmp fuel h t k = Ok (Some (ndatum n), hfree h x, set_head t (pslot hash t k) q) /\ rep (hfree h x) (set_head t (pslot hash t k) q) (upd L (pslot hash t k) c) /\ chain (hfree h x) q c.
Proof.
  intros R N P Lk C Hn Hf. unfold pdel, head_at. rewrite P. cbn [obind]. destruct fuel as [|f]; [lia|].
  assert (NA : NoDup (map fst ((x, n) :: c))). { assert (N' := N). apply nth_error_split in N'. destruct N' as (L1 & L2 & E1 & _). pose proof (r_apart _ _ _ R) as ND. rewrite E1, concat_app in ND. cbn [concat] in ND. rewrite !map_app in ND. apply (Permutation_NoDup (Permutation_app_swap_app _ _ _)) in ND. clear - ND. induction (map fst ((x, n) :: c)) as [|y l IH]; [constructor|]. cbn [app] in ND. inversion ND; subst. constructor; [intros J; apply H1, in_or_app; now left|auto]. }
  cbn [map fst] in NA. inversion NA as [|? ? NA1 NA2]; subst. assert (C' : chain (hfree h x) q c). { apply (chain_ext K D h); [exact C|]. intros y Iy. apply look_free_other. intros ->. contradiction. }
  split; [|split; [|exact C']].
  - cbn [pdel_loop]. unfold hget. rewrite Lk. cbn [obind cell hh hk hn hd]. unfold TableModel.hit in Hn. rewrite Hn, Nat.eqb_refl. reflexivity.
  - apply (rep_change K D pick fresh h _ t L _ (Some x) _ ((x, n) :: c)); try assumption.
    + intros y Iy Ny. apply look_free_other. intros ->. apply Ny. now left.
    + intros y Iy. left. now right.
    + rewrite free_keys. apply NoDup_filter. apply (r_heap _ _ _ R).
Qed.
Lemma free_len (h : heap) x n : NoDup (map fst (cells h)) -> look (cells h) x = Some n -> length (cells h) = S (length (cells (hfree h x))).
Proof.
  unfold hfree. cbn [cells]. induction (cells h) as [|[y m] l IH]; cbn [look map fst filter]; [discriminate|]. intros ND Lk. inversion ND as [|? ? N1 N2]; subst. destruct (Nat.eqb_spec y x) as [->|NE]; cbn [negb length].
  - f_equal. assert (X : forall l0, ~ In x (map fst l0) -> filter (fun c : nat * hnode K D => negb (fst c =? x)%nat) l0 = l0). { induction l0 as [|[z v] l0 IH0]; cbn [map fst filter In]; intros NI; [reflexivity|]. replace (z =? x)%nat with false by (symmetry; apply Nat.eqb_neq; tauto). cbn [negb]. rewrite IH0 by tauto. reflexivity. } now rewrite X.
  - now rewrite <- (IH N2 Lk).
Qed.
Section Del.
Variable V : Type.
Variable g : V -> K -> D -> Z * V.
Hypothesis refl : forall k, cmp k k = true.
Notation cb := (deleting hash cmp g).
Definition homed (t : ptable) (i : nat) (c : list an) : Prop := Forall (fun a => nhash (snd a) = hash (nkey (snd a)) /\ pslot hash t (nkey (snd a)) = i) c.
Lemma each_chain_del i : forall c h t v seen p L fuel, rep h t L -> nth_error L i = Some c -> nth_error (pbuckets t) i = Some p -> chain h p c -> homed t i c -> (length c < fuel)%nat ->
  exists r h' t' v' s c', peach_chain cb fuel h t (v, seen) p = Ok (r, h', t', (v', seen ++ s)) /\ rep h' t' (upd L i c') /\ pbits t' = pbits t /\ pdup t' = pdup t /\ s ++ bl c' = bl c /\ (r = 0 -> c' = []) /\ (length (cells h') + length s = length (cells h))%nat /\ (exists c0, c = c0 ++ c').
Proof.
  induction c as [|[x n] c IH]; intros h t v seen p L fuel R N P C HM Lf; cbn [chain] in C; (destruct fuel as [|f]; [cbn [length] in Lf; lia|]).
  - subst p. exists 0, h, t, v, [], []. cbn [peach_chain]. rewrite app_nil_r. split; [reflexivity|]. rewrite (upd_id _ _ _ N). split; [exact R|]. split; [reflexivity|]. split; [reflexivity|]. split; [reflexivity|]. split; [reflexivity|]. split; [cbn [length]; lia|]. now exists [].
  - destruct C as (-> & q & Lk & C). destruct (Forall_inv HM) as [H1 H2]. pose proof (Forall_inv_tail HM) as HM'. cbn [snd] in H1, H2. rewrite <- H2 in N, P.
    assert (HT : TableModel.hit K D hash cmp n (nkey n) = true) by (unfold TableModel.hit; rewrite H1, Z.eqb_refl, refl; reflexivity).
    destruct (pdel_first h t L (nkey n) x n q c (S (length (cells h))) R N P Lk C HT ltac:(lia)) as (E1 & R1 & C1). rewrite H2 in E1, R1, N, P.
    pose proof (free_len h x _ (r_heap _ _ _ R) Lk) as LC. destruct (g v (nkey n) (ndatum n)) as [r1 v1] eqn:G.
    assert (ST : peach_chain cb (S f) h t (v, seen) (Some x) = if r1 =? 0 then peach_chain cb f (hfree h x) (set_head t i q) (v1, seen ++ [(nkey n, ndatum n)]) q else Ok (r1, hfree h x, set_head t i q, (v1, seen ++ [(nkey n, ndatum n)]))).
    { cbn [peach_chain]. unfold hget. rewrite Lk. cbn [obind cell hk hd hn]. unfold deleting at 1. rewrite E1. cbn [obind]. rewrite G. cbn [obind]. reflexivity. }
    assert (Hi : (i < length L)%nat) by (apply nth_error_Some; congruence). assert (Hb : (i < length (pbuckets t))%nat) by (apply nth_error_Some; congruence).
    destruct (Z.eqb_spec r1 0) as [Z|Z].
    + destruct (IH (hfree h x) (set_head t i q) v1 (seen ++ [(nkey n, ndatum n)]) q (upd L i c) f R1) as (r & h' & t' & v' & s & c' & E2 & R2 & PB & PD & ES & ZZ & LL & c0 & EC).
      * rewrite upd_nth_error, Nat.eqb_refl. now apply Nat.ltb_lt in Hi as ->.
      * unfold set_head. cbn [pbuckets]. rewrite upd_nth_error, Nat.eqb_refl. now apply Nat.ltb_lt in Hb as ->.
      * exact C1.
      * exact HM'.
      * cbn [length] in Lf. lia.
      * exists r, h', t', v', ((nkey n, ndatum n) :: s), c'. rewrite ST, E2, <- app_assoc. split; [reflexivity|]. split; [|split; [exact PB|split; [exact PD|split; [|split; [exact ZZ|split]]]]].
        -- replace (upd L i c') with (upd (upd L i c) i c'); [exact R2|]. clear. generalize i. induction L as [|a l IHl]; intros [|j]; cbn [upd]; try reflexivity. now rewrite IHl.
        -- cbn [app]. rewrite ES. reflexivity.
        -- cbn [length]. lia.
        -- exists ((x, n) :: c0). cbn [app]. now rewrite <- EC.
    + exists r1, (hfree h x), (set_head t i q), v1, [(nkey n, ndatum n)], c. rewrite ST. split; [reflexivity|]. split; [exact R1|]. split; [reflexivity|]. split; [reflexivity|]. split; [reflexivity|]. split; [intros E; contradiction|]. split; [cbn [length]; lia|]. now exists [(x, n)].
Qed.
Lemma each_loop_del fuel : forall is i h t v seen L, is = seq i (length L - i) -> (i <= length L)%nat -> rep h t L -> (length (cells h) < fuel)%nat -> (forall j c, nth_error L j = Some c -> homed t j c) -> concat (firstn i L) = [] ->
  exists r h' t' v' s L', peach_loop cb fuel h t (v, seen) is = Ok (r, h', t', (v', seen ++ s)) /\ rep h' t' L' /\ pbits t' = pbits t /\ pdup t' = pdup t /\ length L' = length L /\ s ++ bl (concat L') = bl (concat L) /\ (r = 0 -> concat L' = []) /\ (length (cells h') + length s = length (cells h))%nat /\ (forall j c, nth_error L' j = Some c -> homed t' j c).
Proof.
  induction is as [|j is IH]; intros i h t v seen L Eis Hi R Lf HM EF.
  - assert (length L - i = 0)%nat by (destruct (length L - i)%nat; [reflexivity|discriminate]). exists 0, h, t, v, [], L. cbn [peach_loop]. rewrite app_nil_r. split; [reflexivity|]. split; [exact R|]. split; [reflexivity|]. split; [reflexivity|]. split; [reflexivity|]. split; [reflexivity|]. split; [intros _; now rewrite firstn_all2 in EF by lia|]. split; [cbn [length]; lia|exact HM].
  - destruct (length L - i)%nat as [|m] eqn:Em; [discriminate|]. cbn [seq] in Eis. injection Eis as -> ->. assert (Hi' : (i < length L)%nat) by lia. assert (Hi2 := Hi'). apply nth_error_Some in Hi'. destruct (nth_error L i) as [c|] eqn:Nc; [|congruence].
    assert (Hp : exists p, nth_error (pbuckets t) i = Some p). { assert (X : (i < length (pbuckets t))%nat) by (rewrite (rep_same_len K D h t L R); lia). apply nth_error_Some in X. destruct (nth_error (pbuckets t) i) as [p|]; [now exists p|congruence]. } destruct Hp as (p & Hp).
    assert (Cp : chain h p c). { destruct (rep_at K D h t L i p R Hp) as (b1 & b2 & L1 & c0 & L2 & _ & EL & _ & Li & C & _). rewrite EL, <- Li, nth_error_app2, Nat.sub_diag in Nc by lia. cbn [nth_error] in Nc. assert (c0 = c) by congruence. now subst c0. }
    pose proof (rep_len K D h t L i p c R Nc Cp) as Lc. destruct (each_chain_del i c h t v seen p L fuel R Nc Hp Cp (HM i c Nc) ltac:(lia)) as (r1 & h1 & t1 & v1 & s1 & c1 & E1 & R1 & PB1 & PD1 & ES1 & Z1 & LL1 & c0 & EC).
    apply nth_error_split in Nc. destruct Nc as (A & B & EL & LA). assert (UL : upd L i c1 = A ++ c1 :: B) by (rewrite EL, <- LA, upd_app_r by lia; now rewrite Nat.sub_diag). assert (FA : concat A = []) by (rewrite EL, firstn_app, <- LA, firstn_all, Nat.sub_diag in EF; cbn [firstn] in EF; now rewrite app_nil_r in EF).
    assert (HM1 : forall j d, nth_error (upd L i c1) j = Some d -> homed t1 j d).
    { intros j d Nd. unfold homed, pslot. rewrite PB1. rewrite upd_nth_error in Nd. destruct (Nat.eqb_spec j i) as [->|]; [|now apply HM]. apply Nat.ltb_lt in Hi2. rewrite Hi2 in Nd. assert (d = c1) by congruence. subst d. specialize (HM i c). rewrite EL in HM. rewrite <- LA in HM at 1. rewrite nth_error_app2, Nat.sub_diag in HM by lia. specialize (HM eq_refl). unfold homed, pslot in HM. rewrite EC in HM. apply Forall_app in HM. apply HM. }
    destruct (Z.eq_dec r1 0) as [Zr|Zr].
    + rewrite (Z1 Zr) in *. cbn [bl map] in ES1. rewrite app_nil_r in ES1. destruct (IH (S i) h1 t1 v1 (seen ++ s1) (upd L i [])) as (r2 & h2 & t2 & v2 & s2 & L2 & E2 & R2 & PB2 & PD2 & LL & ES2 & Z2 & LC2 & HM2).
      * rewrite upd_length. f_equal. lia.
      * rewrite upd_length. lia.
      * exact R1.
      * lia.
      * exact HM1.
      * rewrite UL, firstn_app. rewrite firstn_all2 by lia. replace (S i - length A)%nat with 1%nat by lia. cbn [firstn]. rewrite concat_app, FA. reflexivity.
      * exists r2, h2, t2, v2, (s1 ++ s2), L2. cbn [peach_loop]. unfold head_at. rewrite Hp. cbn [obind]. rewrite E1. cbn [obind]. rewrite Zr. change (0 =? 0) with true. cbv iota. rewrite E2, <- app_assoc. split; [reflexivity|]. split; [exact R2|]. split; [congruence|]. split; [congruence|]. split; [rewrite LL; apply upd_length|]. split; [|split; [exact Z2|split; [rewrite app_length; lia|exact HM2]]].
        rewrite <- app_assoc, ES2, ES1, UL, EL, !concat_app, FA. cbn [concat app]. unfold bl. now rewrite map_app.
    + exists r1, h1, t1, v1, s1, (upd L i c1). cbn [peach_loop]. unfold head_at. rewrite Hp. cbn [obind]. rewrite E1. cbn [obind]. destruct (Z.eqb_spec r1 0); [contradiction|]. split; [reflexivity|]. split; [exact R1|]. split; [exact PB1|]. split; [exact PD1|]. split; [apply upd_length|]. split; [|split; [intros E; contradiction|split; [exact LL1|exact HM1]]].
      rewrite UL, EL, !concat_app, FA. cbn [concat app]. unfold bl in *. rewrite !map_app, app_assoc, ES1. reflexivity.
Qed.
End Del.
End E.
