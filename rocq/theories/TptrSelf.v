(** Proofs about zt_table_copy of a table onto itself, in memory. *)
From Verif Require Import Prelude HashModel TableModel TptrModel TptrSpec TptrProofs TptrEach.
Open Scope Z_scope.

Section F.
Variable K D : Type.
Variable hash : K -> Z.
Variable cmp : K -> K -> bool.
Variable pick : nat -> list nat -> nat.
Hypothesis fresh : forall c l, ~ In (pick c l) l.
Notation heap := (heap K D).
Notation an := (nat * node K D)%type.
Notation homed := (homed K D hash).

Lemma bucket_of (h : heap) t L i c : rep h t L -> nth_error L i = Some c -> exists p, nth_error (pbuckets t) i = Some p /\ chain h p c.
Proof.
  intros R N. assert (X : (i < length (pbuckets t))%nat) by (rewrite (rep_same_len K D h t L R); apply nth_error_Some; congruence). apply nth_error_Some in X. destruct (nth_error (pbuckets t) i) as [p|] eqn:Hp; [|congruence]. exists p. split; [reflexivity|].
  destruct (rep_at K D h t L i p R Hp) as (b1 & b2 & L1 & c0 & L2 & _ & EL & _ & Li & C & _). rewrite EL, <- Li, nth_error_app2, Nat.sub_diag in N by lia. cbn [nth_error] in N. assert (c0 = c) by congruence. now subst c0.
Qed.

(** nothing can be added twice *)
Lemma find_self : forall (c : list (node K D)) n, (forall k, cmp k k = true) -> In n c -> nhash n = hash (nkey n) -> exists m, find_node K D hash cmp c (nkey n) = Some m.
Proof.
  induction c as [|m c IH]; intros n RF In_ Hn; [destruct In_|]. destruct In_ as [<-|In_]; cbn [find_node]; unfold TableModel.hit.
  - rewrite Hn, Z.eqb_refl, RF. now exists m.
  - destruct (_ && _); [now exists m|]. now apply IH.
Qed.
Lemma self_chain_once i fuel0 (h : heap) t L : (forall k, cmp k k = true) -> rep h t L -> pdup t = false -> (length (cells h) < fuel0)%nat -> forall l, nth_error L i = Some l -> homed t i l ->
  forall c p fuel, chain h p c -> incl c l -> (length c < fuel)%nat -> pself_chain hash cmp pick fuel0 fuel h t p = Ok (h, t).
Proof.
  intros RF R ND Lf l N HM. induction c as [|[x n] c IH]; intros p [|f] C IC Lc; cbn [length] in Lc; try lia; cbn [chain] in C; [now subst p|]. destruct C as (-> & q & Lk & C). cbn [pself_chain]. unfold hget at 1. rewrite Lk. cbn [obind cell hk hd].
  assert (In_ : In (x, n) l) by (apply IC; now left). unfold TptrEach.homed in HM. rewrite Forall_forall in HM. destruct (HM _ In_) as (Hn & Hs). cbn [snd] in Hn, Hs.
  assert (ST : table_set K D hash cmp (tab t L) (nkey n) (ndatum n) = Ok (1, tab t L)). { unfold table_set, chain_at. change (TableModel.slot K D hash (tab t L) (nkey n)) with (pslot hash t (nkey n)). rewrite tab_at, Hs, N. cbn [option_map obind]. change (tdup (tab t L)) with (pdup t). rewrite ND. destruct (find_self (map snd l) n RF (in_map snd _ _ In_) Hn) as (m & ->). reflexivity. }
  destruct (pset_ok K D hash cmp pick fresh h t L _ _ fuel0 _ _ R Lf ST) as (h' & t' & L' & E & _ & _ & _ & _ & _ & RN). destruct RN as (-> & -> & _); [discriminate|]. rewrite E. cbn [obind]. unfold hget. rewrite Lk. cbn [obind cell hn]. apply IH; [exact C|intros y Iy; apply IC; now right|lia].
Qed.
Lemma self_loop_once fuel (h : heap) t L : (forall k, cmp k k = true) -> rep h t L -> pdup t = false -> (length (cells h) < fuel)%nat -> (forall j c, nth_error L j = Some c -> homed t j c) ->
  forall is, (forall i, In i is -> (i < length L)%nat) -> pself_loop hash cmp pick fuel h t is = Ok (h, t).
Proof.
  intros RF R ND Lf HM. induction is as [|i is IH]; intros B; cbn [pself_loop]; [reflexivity|]. assert (Hi := B i (or_introl eq_refl)). apply nth_error_Some in Hi. destruct (nth_error L i) as [c|] eqn:N; [|congruence]. destruct (bucket_of h t L i c R N) as (p & Hp & C).
  unfold head_at. rewrite Hp. cbn [obind]. rewrite (self_chain_once i fuel h t L RF R ND Lf c N (HM i c N) c p fuel C (incl_refl _)); [|pose proof (rep_len K D h t L i p c R N C); lia]. cbn [obind]. apply IH. intros j Ij. apply B. now right.
Qed.

(** every binding is added again, in front *)
Lemma self_chain_dup i fuel0 : forall c (h : heap) t L l p fuel, rep h t L -> pdup t = true -> nth_error L i = Some l -> chain h p c -> homed t i c -> (length c < fuel)%nat -> (length (cells h) + length c <= fuel0)%nat ->
  exists h' t' l', pself_chain hash cmp pick fuel0 fuel h t p = Ok (h', t') /\ rep h' t' (upd L i l') /\ pdup t' = true /\ pbits t' = pbits t /\ map snd l' = rev (map snd c) ++ map snd l /\ length (cells h') = (length (cells h) + length c)%nat.
Proof.
  induction c as [|[x n] c IH]; intros h t L l p [|f] R DU N C HM Lc Lf; cbn [length] in Lc, Lf; try lia; cbn [chain] in C.
  - subst p. exists h, t, l. cbn [pself_chain map rev app length]. rewrite (upd_id L i l N). split; [reflexivity|]. split; [exact R|]. split; [exact DU|]. split; [reflexivity|]. split; [reflexivity|lia].
  - destruct C as (-> & q & Lk & C). cbn [pself_chain]. unfold hget at 1. rewrite Lk. cbn [obind cell hk hd]. inversion HM as [|? ? H1 H2]; subst. destruct H1 as (Hn & Hs). cbn [snd] in Hn, Hs.
    assert (EN : mknode (nkey n) (ndatum n) (hash (nkey n)) = n) by (rewrite <- Hn; now destruct n).
    assert (ST : table_set K D hash cmp (tab t L) (nkey n) (ndatum n) = Ok (0, mktable (pbits t) (pdup t) (upd (tbuckets (tab t L)) i (n :: map snd l)))). { unfold table_set, chain_at. change (TableModel.slot K D hash (tab t L) (nkey n)) with (pslot hash t (nkey n)). rewrite tab_at, Hs, N. cbn [option_map obind]. change (tdup (tab t L)) with (pdup t). rewrite DU, EN. reflexivity. }
    destruct (pset_ok K D hash cmp pick fresh h t L _ _ fuel0 _ _ R ltac:(lia) ST) as (h1 & t1 & L1 & E & R1 & T1 & LK & _ & R0 & _). destruct (R0 eq_refl) as (y & c1 & N1 & -> & EC & _). rewrite Hs, N in N1. assert (c1 = l) by congruence. subst c1. rewrite EN, Hs in *.
    assert (PD1 : pdup t1 = true) by (change (tdup (tab t1 (upd L i ((y, n) :: l))) = true); rewrite T1; exact DU). assert (PB1 : pbits t1 = pbits t) by (change (tbits (tab t1 (upd L i ((y, n) :: l))) = pbits t); now rewrite T1).
    assert (LC : length (cells h1) = S (length (cells h))) by (rewrite <- (map_length fst), EC; cbn [length]; now rewrite map_length).
    rewrite E. cbn [obind]. unfold hget. rewrite LK by now apply (look_in K D _ _ (cell n q)). rewrite Lk. cbn [obind cell hn].
    assert (Hi : (i < length L)%nat) by (apply nth_error_Some; congruence).
    destruct (IH h1 t1 (upd L i ((y, n) :: l)) ((y, n) :: l) q f) as (h2 & t2 & l2 & E2 & R2 & PD2 & PB2 & M2 & LC2); [exact R1|exact PD1|rewrite upd_nth_error, Nat.eqb_refl; now apply Nat.ltb_lt in Hi as ->| |unfold TptrEach.homed, pslot; rewrite PB1; exact H2|lia|lia|].
    { apply (chain_ext K D h); [exact C|]. intros z Iz. apply LK. now apply (chain_in K D h c q). }
    exists h2, t2, l2. split; [exact E2|]. assert (UU : upd (upd L i ((y, n) :: l)) i l2 = upd L i l2). { clear. revert i. induction L as [|a L IH]; intros [|i]; cbn [upd]; try reflexivity. now rewrite IH. }
    rewrite UU in R2. split; [exact R2|]. split; [exact PD2|]. split; [congruence|]. split; [|cbn [length]; lia]. rewrite M2. cbn [map snd rev]. now rewrite <- app_assoc.
Qed.
Lemma self_loop_dup fuel : forall is i (h : heap) t L, is = seq i (length L - i) -> (i <= length L)%nat -> rep h t L -> pdup t = true -> (length (cells h) + length (concat (skipn i L)) < fuel)%nat -> (forall j c, (i <= j)%nat -> nth_error L j = Some c -> homed t j c) ->
  exists h' t' L', pself_loop hash cmp pick fuel h t is = Ok (h', t') /\ rep h' t' L' /\ pdup t' = true /\ pbits t' = pbits t /\ length L' = length L /\ map (map snd) L' = map (map snd) (firstn i L) ++ map (fun c => rev c ++ c) (map (map snd) (skipn i L)) /\
    length (cells h') = (length (cells h) + length (concat (skipn i L)))%nat.
Proof.
  induction is as [|j is IH]; intros i h t L Eis Hi R DU Lf HM.
  - assert (length L - i = 0)%nat by (destruct (length L - i)%nat; [reflexivity|discriminate]). exists h, t, L. rewrite firstn_all2, skipn_all2 by lia. cbn [map concat length pself_loop]. rewrite app_nil_r. repeat (split; [reflexivity || assumption|]). lia.
  - destruct (length L - i)%nat as [|m] eqn:Em; [discriminate|]. cbn [seq] in Eis. injection Eis as -> ->. assert (Hi' : (i < length L)%nat) by lia. assert (Hi2 := Hi'). apply nth_error_Some in Hi'. destruct (nth_error L i) as [c|] eqn:N; [|congruence]. destruct (bucket_of h t L i c R N) as (p & Hp & C). pose proof (rep_len K D h t L i p c R N C) as Lc.
    assert (SK : skipn i L = c :: skipn (S i) L). { clear - N. revert i N. induction L as [|a L IH]; intros [|i] N; cbn [nth_error] in N; try discriminate; [cbn [skipn]; congruence|]. cbn [skipn]. rewrite (IH i N). reflexivity. }
    rewrite SK in Lf |- *. cbn [concat] in Lf |- *. rewrite app_length in Lf. destruct (self_chain_dup i fuel c h t L c p fuel R DU N C (HM i c (le_n _) N) ltac:(lia) ltac:(lia)) as (h1 & t1 & l1 & E1 & R1 & PD1 & PB1 & M1 & LC1).
    assert (SU : forall v, skipn (S i) (upd L i v) = skipn (S i) L). { intros v. clear. revert i. induction L as [|a L IH]; intros [|i]; cbn [upd skipn]; try reflexivity. apply IH. }
    assert (FU : firstn (S i) (upd L i l1) = firstn i L ++ [l1]). { clear - N. revert i N. induction L as [|a L IH]; intros [|i] N; cbn [nth_error] in N; try discriminate; [reflexivity|]. cbn [upd firstn app]. f_equal. now apply IH. }
    destruct (IH (S i) h1 t1 (upd L i l1)) as (h2 & t2 & L2 & E2 & R2 & PD2 & PB2 & LL2 & M2 & LC2).
    + rewrite upd_length. f_equal. lia.
    + rewrite upd_length. lia.
    + exact R1.
    + exact PD1.
    + rewrite SU. lia.
    + intros j d Hj Nd. rewrite upd_nth_error in Nd. destruct (Nat.eqb_spec j i) as [->|]; [lia|]. unfold TptrEach.homed, pslot. rewrite PB1. apply (HM j d); [lia|exact Nd].
    + exists h2, t2, L2. cbn [pself_loop]. unfold head_at. rewrite Hp. cbn [obind]. rewrite E1. cbn [obind]. split; [exact E2|]. split; [exact R2|]. split; [exact PD2|]. split; [congruence|]. split; [rewrite LL2; apply upd_length|]. rewrite M2, SU, FU, app_length, map_app, <- app_assoc. cbn [map app]. rewrite M1. split; [reflexivity|]. rewrite LC2, SU. lia.
Qed.
End F.
