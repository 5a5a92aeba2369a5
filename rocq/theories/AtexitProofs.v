(** Proofs about zt_atexit.c. *)
From Verif Require Import Prelude Heap ElistModel ElistProofs AtexitModel AtexitSpec.

Lemma replay_app : forall l1 l2 stk, replay stk (l1 ++ l2) = match replay stk l1 with Some s => replay s l2 | None => None end.
Proof.
  induction l1 as [|[fn data|fn data] l1 IH]; intros l2 stk; cbn [app replay]; auto.
  destruct stk as [|[f d] stk]; [reflexivity|]. destruct ((f =? fn) && (d =? data)); [apply IH|reflexivity].
Qed.

(** the stack of live callbacks, top first, is the list of addresses l, whose fields are c; [extra] is the callback being run, already popped and not yet freed *)
Record inv (extra : list nat) (s : state) (l : list nat) (c : list (nat * nat)) : Prop := {
  iv_ring : ring (mem s) cb_stack l;
  iv_wf : wf (mem s);
  iv_cbs : Forall2 (fun a v => cbs s a = Some v) l c;
  iv_only : forall a, cbs s a <> None <-> In a (l ++ extra);
  iv_live : forall a, live (mem s) a <-> a = cb_stack \/ In a (l ++ extra);
  iv_fn : Forall (fun v => fst v <> 0) c;
  iv_pend : pending (log s) = Some c }.

Lemma start_inv : inv [] start [] [].
Proof.
  constructor; try constructor.
  - constructor; [intros []|constructor].
  - cbn. split; [reflexivity|split; [reflexivity|exact I]].
  - cbn. reflexivity.
  - cbn. split; [lia|]. intros a H. destruct (Nat.eqb_spec a 1); [lia|reflexivity].
  - intros H. now elim H.
  - intros [].
  - intros [c H]. cbn in H. destruct (Nat.eqb_spec a 1); [left; exact e|discriminate].
  - intros [->|[]]. eexists. reflexivity.
Qed.

Lemma zatexit_inv s l c x fn data : inv x s l c -> fn <> 0 ->
  exists s' a, zt_atexit s fn data = Ok s' /\ inv x s' (a :: l) ((fn, data) :: c) /\
    libc s' = (match l with [] => Hzt :: libc s | _ => libc s end) /\ log s' = log s ++ [Reg fn data] /\ ~ In a x.
Proof.
  intros V Hf. unfold zt_atexit. apply Nat.eqb_neq in Hf. rewrite Hf. cbn [negb guard obind].
  destruct (alloc (mem s) (mklink 0 0)) as [cb m] eqn:EA. unfold alloc in EA.
  assert (cb = fresh (mem s)) by congruence.
  pose proof (iv_wf _ _ _ _ V) as W.
  assert (Hm : m = snd (alloc (mem s) (mklink 0 0))) by (unfold alloc; cbn; congruence).
  assert (Wm : wf m) by (subst m; now apply wf_alloc).
  assert (Hn : cells (mem s) cb = None) by (subst cb; now apply wf_fresh).
  assert (Nl : ~ live (mem s) cb) by (intros [d Hd]; congruence).
  assert (Hcb : ~ In cb (cb_stack :: l ++ x)).
  { intros H1. apply Nl. apply (iv_live _ _ _ _ V). destruct H1 as [<-|H1]; auto. }
  assert (Rm : ring m cb_stack l).
  { apply (ring_frame (mem s)); [apply V|]. intros a Ha. rewrite Hm. apply alloc_other. intros ->. apply Hcb. rewrite <- H in *.
    destruct Ha as [<-|Ha]; [now left|right]. apply in_or_app. now left. }
  unfold stack_empty. rewrite (empty_ok m cb_stack l Rm). cbn [obind].
  destruct (add_ok m cb_stack l cb Rm) as (m1 & H1 & H2 & H3 & H4 & H5).
  { exists (mklink 0 0). rewrite Hm, H. apply alloc_same. }
  { intros H1. apply Hcb. destruct H1 as [<-|H1]; [now left|right; apply in_or_app; now left]. }
  unfold stack_push. rewrite H1. cbn [obind]. eexists _, cb. split; [reflexivity|].
  assert (Lm : forall a, live m a <-> a = cb \/ live (mem s) a).
  { intros a. unfold live. destruct (Nat.eq_dec a cb) as [->|Ne].
    - split; [now left|]. intros _. rewrite Hm, H, alloc_same. eauto.
    - rewrite Hm, alloc_other by congruence. split; [now right|]. intros [E|E]; [congruence|exact E]. }
  split; [|split; [|split]]; cbn [mem cbs libc log].
  - constructor; cbn [mem cbs libc log].
    + exact H2.
    + destruct Wm as (W0 & W1 & W2). assert (live m1 = live m1) by reflexivity.
      split; [|split].
      * destruct (cells m1 0) as [d|] eqn:E; [|reflexivity]. assert (L0 : live m 0) by (apply H4; eexists; exact E). destruct L0 as [d' Hd']. congruence.
      * lia.
      * intros a Ha. destruct (cells m1 a) as [d|] eqn:E; [|reflexivity].
        assert (L0 : live m a) by (apply H4; eexists; exact E). destruct L0 as [d' Hd']. rewrite W2 in Hd' by lia. discriminate.
    + constructor; [unfold setc; now rewrite Nat.eqb_refl|].
      assert (Hni : ~ In cb l) by (intros Hi; apply Hcb; right; apply in_or_app; now left).
      assert (F := iv_cbs _ _ _ _ V). clear - F Hni. induction F as [|a v l c E F IH]; constructor.
      * unfold setc. destruct (Nat.eqb_spec a cb); [exfalso; apply Hni; left; congruence|exact E].
      * apply IH. intros Hi. apply Hni. now right.
    + intros a. unfold setc. destruct (Nat.eqb_spec a cb) as [->|Ne].
      * split; [intros _; now left|intros _; discriminate].
      * rewrite (iv_only _ _ _ _ V a). cbn [app In]. split; [now right|]. intros [E|E]; [congruence|exact E].
    + intros a. rewrite H4, Lm, (iv_live _ _ _ _ V a). cbn [app In]. split.
      * intros [->|[->|Hi]]; auto.
      * intros [->|[->|Hi]]; auto.
    + constructor; [|apply V]. cbn. now apply Nat.eqb_neq.
    + unfold pending. rewrite replay_app. pose proof (iv_pend _ _ _ _ V) as P. unfold pending in P. rewrite P. reflexivity.
  - destruct l; reflexivity.
  - reflexivity.
  - intros Hi. apply Hcb. right. apply in_or_app. now right.
Qed.

(** [ready s]: if callbacks are waiting, _atexit_call is (known to the library or about to go on) *)
Definition ready (now : bool) (s : state) (l : list nat) : Prop := l <> [] -> now = true \/ In Hzt (libc s).

(** weights of actions, of waiting callbacks and of handlers, for the termination argument *)
Definition sum (l : list nat) : nat := fold_right Nat.add 0 l.
Definition wcb (W : action -> nat) (v : nat * nat) : nat := pred (W (Zatexit (fst v) (snd v))).
Definition wh (W : action -> nat) (h : handler) : nat := match h with Hzt => 1 | Huser k => W (Catexit k) end.
Definition meas (W : action -> nat) (s : state) (c : list (nat * nat)) : nat := sum (map (wcb W) c) + sum (map (wh W) (libc s)).

Lemma acts_inv (W : action -> nat) (HW : forall f d, 0 < W (Zatexit f d)) x now : forall as_ s l c, inv x s l c -> ready now s l -> Forall nonnull as_ ->
  exists s' l' c', acts s as_ = Ok s' /\ inv x s' (l' ++ l) (c' ++ c) /\ ready now s' (l' ++ l) /\ (forall a, In a l' -> ~ In a x) /\
    meas W s' (c' ++ c) <= meas W s c + sum (map W as_).
Proof.
  induction as_ as [|a as_ IH]; intros s l c V Rd N.
  - exists s, [], []. split; [reflexivity|]. split; [exact V|]. split; [exact Rd|]. split; [intros a []|]. cbn [app map]. change (sum []) with 0. lia.
  - apply Forall_cons_iff in N. destruct N as [N1 N2]. cbn [acts]. destruct a as [fn data|k]; cbn [act].
    + destruct (zatexit_inv s l c x fn data V N1) as (s1 & a & E & V1 & L1 & G1 & Na). rewrite E. cbn [obind].
      destruct (IH s1 (a :: l) ((fn, data) :: c) V1) as (s2 & l2 & c2 & E2 & V2 & R2 & N3 & C2).
      * intros _. destruct l as [|b l]; [right; rewrite L1; now left|]. destruct (Rd ltac:(discriminate)) as [H|H]; [now left|right]. rewrite L1. exact H.
      * exact N2.
      * exists s2, (l2 ++ [a]), (c2 ++ [(fn, data)]). rewrite <- !app_assoc. cbn [app]. split; [exact E2|]. split; [exact V2|]. split; [exact R2|].
        split.
        -- intros b Hb. apply in_app_or in Hb. destruct Hb as [Hb|[<-|[]]]; auto.
        -- eapply Nat.le_trans; [exact C2|]. unfold meas. rewrite L1. cbn [map sum fold_right]. unfold wcb at 1. cbn [fst snd]. specialize (HW fn data).
           destruct l; cbn [map sum fold_right wh]; unfold sum; lia.
    + cbn [obind]. destruct (IH (mkstate (mem s) (cbs s) (Huser k :: libc s) (log s)) l c) as (s2 & l2 & c2 & E2 & V2 & R2 & N3 & C2); auto.
      * destruct V. constructor; assumption.
      * intros H. destruct (Rd H) as [H1|H1]; [now left|right]. cbn. now right.
      * exists s2, l2, c2. split; [exact E2|]. split; [exact V2|]. split; [exact R2|]. split; [exact N3|].
        eapply Nat.le_trans; [exact C2|]. unfold meas. cbn [libc map sum fold_right wh]. unfold sum. lia.
Qed.

Lemma pop_frame m s l a : ring m s (a :: l) -> exists m', stack_pop m s = Ok (a, m') /\ ring m' s l /\ fresh m' = fresh m /\ (forall b, live m' b <-> live m b).
Proof.
  intros R. unfold stack_pop, stack_empty. rewrite (empty_ok m s (a :: l) R). cbn [obind].
  rewrite (get_next_ok _ _ _ (ring_next _ _ _ R)). cbn [obind hd]. destruct (ring_remove m s [] a l R) as (m' & H1 & H2 & H3 & H4 & _).
  rewrite H1. cbn [obind]. exists m'. auto.
Qed.
Lemma wf_same m m' : wf m -> fresh m' = fresh m -> (forall b, live m' b <-> live m b) -> wf m'.
Proof.
  intros (W0 & W1 & W2) F L. split; [|split].
  - destruct (cells m' 0) as [d|] eqn:E; [|reflexivity]. assert (L0 : live m 0) by (apply L; eexists; exact E). destruct L0 as [d' Hd']. congruence.
  - lia.
  - intros a Ha. destruct (cells m' a) as [d|] eqn:E; [|reflexivity].
    assert (L0 : live m a) by (apply L; eexists; exact E). destruct L0 as [d' Hd']. rewrite W2 in Hd' by lia. discriminate.
Qed.

Section world.
Variable does : nat -> nat -> list action.
Variable huser : nat -> list action.
Hypothesis does_ok : forall f d, Forall nonnull (does f d).
Hypothesis huser_ok : forall k, Forall nonnull (huser k).

(** one turn of the loop of _atexit_call *)
Variable W : action -> nat.
Hypothesis WZ' : forall f d, 0 < W (Zatexit f d).
(** every action outweighs all it leads to *)
Definition descends : Prop := (forall f d, W (Zatexit f d) >= 2 + sum (map W (does f d))) /\ (forall k, W (Catexit k) >= 1 + sum (map W (huser k))).
Lemma turn s l c : inv [] s l c -> l <> [] ->
  exists s' l' c', (forall fuel, atexit_call (S fuel) does s = atexit_call fuel does s') /\ inv [] s' l' c' /\ (descends -> meas W s' c' < meas W s c).
Proof.
  intros V Hl. destruct l as [|a l]; [congruence|]. pose proof (iv_cbs _ _ _ _ V) as F. inversion F as [|a' v l0 c0 Ea F' El Ec]. subst a' l0 c.
  destruct v as [fn data].
    destruct (pop_frame _ _ _ _ (iv_ring _ _ _ _ V)) as (m & E & R & Fr & Lv).
  pose proof (iv_fn _ _ _ _ V) as Fn. apply Forall_cons_iff in Fn. destruct Fn as [Fn1 Fn2]. cbn [fst] in Fn1.
  assert (Hla : live (mem s) a) by (apply (iv_live _ _ _ _ V); right; now left).
  assert (Ha0 : a <> 0). { destruct Hla as [d Hd]. eapply wf_live; [apply (iv_wf _ _ _ _ V)|exact Hd]. }
  apply Nat.eqb_neq in Fn1. apply Nat.eqb_neq in Ha0.   assert (NI : ~ In a (cb_stack :: l)).
  { destruct (iv_ring _ _ _ _ V) as [Nd _]. apply NoDup_cons_iff in Nd. destruct Nd as [Nd1 Nd2]. apply NoDup_cons_iff in Nd2. destruct Nd2 as [Nd2 _].
    intros [H|H]; [apply Nd1; now left|now apply Nd2]. }
  assert (V1 : inv [a] (mkstate m (cbs s) (libc s) (log s ++ [Call fn data])) l c0).
  { constructor; cbn [mem cbs libc log].
    - exact R.
    - now apply (wf_same (mem s)); [apply (iv_wf _ _ _ _ V)| |].
    - exact F'.
    - intros b. rewrite (iv_only _ _ _ _ V b). rewrite app_nil_r. cbn [In]. rewrite in_app_iff. cbn [In]. tauto.
    - intros b. rewrite Lv, (iv_live _ _ _ _ V b). rewrite app_nil_r. cbn [In]. rewrite in_app_iff. cbn [In]. tauto.
    - exact Fn2.
    - unfold pending. rewrite replay_app. pose proof (iv_pend _ _ _ _ V) as P. unfold pending in P. rewrite P. cbn [replay]. now rewrite !Nat.eqb_refl. }
  destruct (acts_inv W WZ' [a] true (does fn data) _ l c0 V1) as (s2 & l2 & c2 & E2 & V2 & _ & N2 & C2); [intros _; now left|apply does_ok|].
  assert (Hla2 : live (mem s2) a) by (apply (iv_live _ _ _ _ V2); right; apply in_or_app; right; now left).
  destruct Hla2 as [d Hd]. destruct (release_ok _ _ _ Hd) as (m3 & E3 & M1 & M2 & M3).
  assert (NI2 : ~ In a (cb_stack :: l2 ++ l)).
  { intros [H|H]; [apply NI; now left|]. apply in_app_or in H. destruct H as [H|H]; [apply (N2 _ H); now left|apply NI; now right]. }
  exists (mkstate m3 (setc (cbs s2) a None) (libc s2) (log s2)), (l2 ++ l), (c2 ++ c0). split; [|split].
  { intros fuel. cbn [atexit_call]. unfold stack_empty at 1. rewrite (empty_ok _ _ _ (iv_ring _ _ _ _ V)). cbn [obind]. rewrite E. cbn [obind]. rewrite Ea.
    rewrite Fn1, Ha0. cbn [negb andb mem cbs libc log]. rewrite E2. cbn [obind]. rewrite E3. reflexivity. }
  2: { intros [WZ _]. specialize (WZ fn data). unfold meas in *. cbn [libc map sum fold_right] in *. unfold wcb at 2. cbn [fst snd]. unfold sum in *. lia. }
  constructor; cbn [mem cbs libc log].
  - apply (ring_frame (mem s2)); [apply V2|]. intros b Hb. apply M2. congruence.
  - now apply (wf_release (mem s2) m3 a); [apply (iv_wf _ _ _ _ V2)|].
  - assert (F2 := iv_cbs _ _ _ _ V2). assert (NI3 : ~ In a (l2 ++ l)) by (intros H; apply NI2; now right).
    revert F2 NI3. generalize (l2 ++ l) (c2 ++ c0). clear. intros l c F. induction F as [|b v l c E F IH]; intros N; constructor.
    + unfold setc. destruct (Nat.eqb_spec b a); [exfalso; apply N; left; congruence|exact E].
    + apply IH. intros H. apply N. now right.
  - intros b. unfold setc. rewrite app_nil_r. destruct (Nat.eqb_spec b a) as [->|Ne].
    + split; [intros H; now elim H|]. intros H. exfalso. apply NI2. now right.
    + rewrite (iv_only _ _ _ _ V2 b). rewrite (in_app_iff (l2 ++ l)). cbn [In]. split; [intros [H|[H|[]]]; [exact H|congruence]|now left].
  - intros b. rewrite app_nil_r. unfold live. destruct (Nat.eq_dec b a) as [->|Ne].
    + split; [intros [d' Hd']; congruence|]. intros [H|H]; exfalso; apply NI2; [left; congruence|now right].
    + rewrite M2 by exact Ne. rewrite (iv_live _ _ _ _ V2 b). rewrite (in_app_iff (l2 ++ l)). cbn [In]. split.
      * intros [H|[H|[H|[]]]]; [now left|now right|congruence].
      * intros [H|H]; [now left|right; now left].
  - apply V2.
  - apply V2.
Qed.

(** the loop, whenever it ends, ends with no callback left and never misbehaves *)
Lemma call_inv : forall fuel s l c, inv [] s l c -> atexit_call fuel does s = Loop /\ (descends -> fuel <= meas W s c) \/
  exists s', atexit_call fuel does s = Ok s' /\ inv [] s' [] [] /\ (descends -> meas W s' [] <= meas W s c).
Proof.
  induction fuel as [|fuel IH]; intros s l c V; [left; split; [reflexivity|lia]|]. destruct l as [|a l].
  - right. cbn [atexit_call]. unfold stack_empty. rewrite (empty_ok _ _ _ (iv_ring _ _ _ _ V)). cbn [obind]. exists s. split; [reflexivity|].
    pose proof (iv_cbs _ _ _ _ V) as F. inversion F. subst c. split; [exact V|lia].
  - destruct (turn s (a :: l) c V ltac:(discriminate)) as (s' & l' & c' & E & V' & M). rewrite E.
    destruct (IH s' l' c' V') as [[H1 H2]|(s2 & H1 & H2 & H3)]; [left; split; [exact H1|intros D; specialize (H2 D); try specialize (M D); try specialize (L D); try specialize (proj2 D k) as WC; lia]|right]. exists s2. split; [exact H1|]. split; [exact H2|]. intros D; specialize (H3 D); specialize (M D). lia.
Qed.

Lemma exit_inv : forall fuel s l c, inv [] s l c -> ready false s l -> exit_run fuel does huser s = Loop /\ (descends -> fuel <= meas W s c) \/
  exists s', exit_run fuel does huser s = Ok s' /\ inv [] s' [] [] /\ libc s' = [].
Proof.
  induction fuel as [|fuel IH]; intros s l c V Rd; [left; split; [reflexivity|lia]|]. cbn [exit_run]. destruct (libc s) as [|h r] eqn:EL.
  - right. exists s. split; [reflexivity|]. split; [|exact EL]. destruct l as [|a l].
    + pose proof (iv_cbs _ _ _ _ V) as F. inversion F. subst c. exact V.
    + destruct (Rd ltac:(discriminate)) as [H|H]; [discriminate|]. rewrite EL in H. destruct H.
  - assert (V0 : inv [] (mkstate (mem s) (cbs s) r (log s)) l c) by (destruct V; constructor; assumption).
    assert (M0 : meas W s c = wh W h + meas W (mkstate (mem s) (cbs s) r (log s)) c).
    { unfold meas. rewrite EL. cbn [libc map sum fold_right]. unfold sum. lia. }
    destruct h as [|k]; cbn [wh] in M0.
    + destruct (call_inv fuel _ l c V0) as [[E L]|(s' & E & V' & L)]; rewrite E; cbn [obind]; [left; split; [reflexivity|intros D; specialize (L D); lia]|].
      destruct (IH s' [] [] V') as [[H1 H2]|H1]; [intros H; now elim H|left; split; [exact H1|intros D; specialize (H2 D); try specialize (M D); try specialize (L D); try specialize (proj2 D k) as WC; lia]|right; exact H1].
    + destruct (acts_inv W WZ' [] false (huser k) _ l c V0) as (s2 & l2 & c2 & E2 & V2 & R2 & _ & M2); [|apply huser_ok|].
      * intros H. destruct (Rd H) as [H1|H1]; [discriminate|]. rewrite EL in H1. destruct H1 as [H1|H1]; [discriminate|now right].
      * rewrite E2. cbn [obind]. destruct (IH s2 _ _ V2 R2) as [[H1 H2]|H1]; [left; split; [exact H1|intros D; specialize (H2 D); try specialize (M D); try specialize (L D); try specialize (proj2 D k) as WC; lia]|right; exact H1].
Qed.
End world.
