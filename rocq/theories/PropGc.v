(** C41: the garbage collector. *)
From Verif Require Import Prelude Sep GcModel GcProofs GcSpec GcHistory.
From Coq Require Import Permutation.

Lemma does_det w o w1 w2 : does w o w1 -> does w o w2 -> w1 = w2.
Proof. intros [N1 A] [N2 B]. specialize (A (N1 + N2) ltac:(lia)). specialize (B (N1 + N2) ltac:(lia)). congruence. Qed.
Lemma history_inv m a k w : history m a k w -> winv w.
Proof.
  induction 1 as [|w o w' H IH AL D].
  - constructor; cbn [wg kids unp prot gc_init grey pb enabled]; [|lia|cbn; tauto]. exists [], []. split; [|left; repeat split]. constructor; cbn; try tauto; [constructor].
  - destruct (step_ok w o IH AL) as (w2 & D2 & W2 & _). now rewrite (does_det _ _ _ _ D D2).
Qed.

(** Whatever the object graph, the parameters and the history of calls, the collector never fails: every call a careful user makes terminates. *)
Theorem C41_calls : forall m a k w o, history m a k w -> allowed w o -> exists w', does w o w' /\ history m a k w'.
Proof. intros m a k w o H AL. destruct (step_ok w o (history_inv _ _ _ _ H) AL) as (w' & D & _). exists w'. split; [exact D|]. exact (Call _ _ _ _ _ _ H AL D). Qed.
Print Assumptions C41_calls.
(** Each call releases objects it held, each once, none of them protected; the objects it holds afterwards are exactly the others. *)
Theorem C41_released_once : forall m a k w o w', history m a k w -> allowed w o -> does w o w' -> exists r, log (wg w') = log (wg w) ++ r /\ NoDup r /\
  (forall y, In y r -> (live w y \/ o = Register y) /\ ~ In y (prot w)) /\
  (forall y, live w' y <-> (live w y \/ o = Register y \/ o = Protect y) /\ o <> Unregister y /\ ~ In y r).
Proof. intros m a k w o w' H AL D. destruct (step_ok w o (history_inv _ _ _ _ H) AL) as (w2 & D2 & _ & E). now rewrite (does_det _ _ _ _ D D2). Qed.
Print Assumptions C41_released_once.
(** Safety: at any point of a history, also half-way through an incremental collection, nothing that can be reached from an object that is held has been released; protected objects are held. *)
Theorem C41_safety : forall m a k w x y, history m a k w -> live w x -> reach (kids w) [x] y -> live w y.
Proof.
  intros m a k w x y H L R. apply history_inv in H. destruct H as [(pre & post & T & _) _ _]. rewrite live_tracked in *. revert R. apply reach_closed; [intros z [<-|[]]; exact L|]. apply (t_closed _ _ _ _ _ T).
Qed.
Print Assumptions C41_safety.
Theorem C41_protected_held : forall m a k w x, history m a k w -> In x (prot w) -> live w x.
Proof. intros m a k w x H I. apply history_inv in H. destruct H as [_ _ P]. apply P in I. apply live_tracked. unfold tracked. rewrite !in_app_iff. tauto. Qed.
Print Assumptions C41_protected_held.

(** What zt_gc_for_each reports: every object once, the protected ones as grey (1), black (0) only while a collection has stopped half-way, and never a colour outside 0..2. *)
Theorem C41_reported : forall m a k w, history m a k w -> NoDup (map fst (gc_for_each (wg w))) /\
  (forall x c, In (x, c) (gc_for_each (wg w)) -> (0 <= c <= 2)%Z) /\ (forall x, In x (prot w) -> In (x, 1%Z) (gc_for_each (wg w))) /\
  (idle w -> forall x, ~ In (x, 0%Z) (gc_for_each (wg w))).
Proof.
  intros m a k w H. apply history_inv in H. destruct H as [G _ P]. pose proof G as (pre & post & T & _). split; [|split; [|split]].
  - unfold gc_for_each. rewrite !map_app, !map_map. cbn [fst]. rewrite !map_id. exact (t_nd _ _ _ _ _ T).
  - intros x c J. unfold gc_for_each in J. rewrite !in_app_iff, !in_map_iff in J. destruct J as [(y & E & _)|[(y & E & _)|(y & E & _)]]; assert (X : snd (x, c) = c) by reflexivity; rewrite <- E in X; cbn [snd] in X; lia.
  - intros x J. apply P in J. unfold gc_for_each. rewrite !in_app_iff, !in_map_iff. right. left. exists x. tauto.
  - intros I x J. destruct (idle_inv _ _ _ G I) as [_ B]. unfold gc_for_each in J. rewrite B in J. cbn [map app] in J. rewrite in_app_iff, !in_map_iff in J. destruct J as [(y & E & _)|(y & E & _)]; discriminate E.
Qed.
Print Assumptions C41_reported.
(** Black means scanned: what a black object points to is black or grey; and when a collection that starts stops half-way, the first of the objects that were grey is black, unless it is protected. *)
Lemma for_each_0 g x : In (x, 0%Z) (gc_for_each g) <-> In x (black g).
Proof.
  unfold gc_for_each. rewrite !in_app_iff, !in_map_iff. split; [intros [(y & E & J)|[(y & E & J)|(y & E & J)]]; [|discriminate E|discriminate E]; assert (y = x) as <- by congruence; exact J|]. intros J. left. exists x. tauto.
Qed.
Lemma for_each_1 g x : In (x, 1%Z) (gc_for_each g) <-> In x (grey g).
Proof.
  unfold gc_for_each. rewrite !in_app_iff, !in_map_iff. split; [intros [(y & E & J)|[(y & E & J)|(y & E & J)]]; [discriminate E| |discriminate E]; assert (y = x) as <- by congruence; exact J|]. intros J. right. left. exists x. tauto.
Qed.
Theorem C41_black : forall m a k w, history m a k w -> (forall x y, In (x, 0%Z) (gc_for_each (wg w)) -> In y (kids w x) -> In (y, 0%Z) (gc_for_each (wg w)) \/ In (y, 1%Z) (gc_for_each (wg w))) /\
  (forall full w' x r, idle w -> map fst (filter (fun e => (snd e =? 1)%Z) (gc_for_each (wg w))) = x :: r -> ~ In x (prot w) -> does w (Collect full) w' -> ~ idle w' -> In (x, 0%Z) (gc_for_each (wg w'))).
Proof.
  intros m a k w H. apply history_inv in H. destruct H as [G _ P]. split.
  - intros x y J K. destruct G as (pre & post & T & _). rewrite for_each_0 in *. rewrite for_each_1. assert (X : In y (black (wg w) ++ grey (wg w))) by (apply (t_edge _ _ _ _ _ T x); [apply in_or_app; now left|exact K]). now apply in_app_iff in X.
  - intros full w' x r I F NP D NI. destruct (idle_inv _ _ _ G I) as [_ B]. destruct (collect_ok _ _ full _ _ G (Nat.lt_succ_diag_r _)) as (g' & C & _ & _ & _ & _ & _ & _ & _ & K).
    assert (w' = mkw g' (kids w) (unp w) (prot w)) as ->.
    { apply (does_det w (Collect full)); [exact D|]. exists (S (length (tracked (wg w)))). intros fuel LE. cbn [step]. now rewrite (collect_mono _ _ _ _ _ _ LE C). }
    cbn [wg]. unfold idle in NI. cbn [wg] in NI. apply for_each_0.
    assert (FG : map fst (filter (fun e : nat * Z => (snd e =? 1)%Z) (gc_for_each (wg w))) = grey (wg w)).
    { unfold gc_for_each. rewrite B. cbn [map app]. rewrite filter_app, map_app.
      assert (A1 : forall (l : list nat), map fst (filter (fun e : nat * Z => (snd e =? 1)%Z) (map (fun y => (y, 1%Z)) l)) = l) by (induction l as [|z l IH]; [reflexivity|]; cbn; now rewrite IH).
      assert (A2 : forall (l : list nat), filter (fun e : nat * Z => (snd e =? 1)%Z) (map (fun y => (y, 2%Z)) l) = []) by (induction l as [|z l IH]; [reflexivity|]; exact IH). rewrite A1, A2. apply app_nil_r. }
    rewrite FG in F. apply (K I NI x r F). destruct (pb (wg w) x) eqn:PB; [|reflexivity]. exfalso. apply NP, P. split; [rewrite F; now left|exact PB].
Qed.
Print Assumptions C41_black.

Lemma full_step m a k w w' : history m a k w -> enabled (wg w) = 0%Z -> does w (Collect true) w' ->
  kids w' = kids w /\ unp w' = unp w /\ prot w' = prot w /\ enabled (wg w') = 0%Z /\ scan (wg w') = 0 /\ (forall x, In x (tracked (wg w')) <-> reach (kids w) (black (wg w) ++ grey (wg w)) x) /\ (scan (wg w) = 0 -> forall x, In x (grey (wg w')) -> pb (wg w) x = true) /\ (forall x, pb (wg w') x = pb (wg w) x).
Proof.
  intros H E D. apply history_inv in H. destruct H as [G _ _]. destruct (collect_ok _ _ true _ _ G (Nat.lt_succ_diag_r _)) as (g' & C & G' & _ & Een & _ & _ & Ep & F & _). destruct (F eq_refl ltac:(lia)) as (F1 & F2 & F3). assert (w' = mkw g' (kids w) (unp w) (prot w)) as ->.
  { apply (does_det w (Collect true)); [exact D|]. exists (S (length (tracked (wg w)))). intros fuel LE. cbn [step]. now rewrite (collect_mono _ _ _ _ _ _ LE C). }
  cbn [kids unp prot wg]. split; [reflexivity|]. split; [reflexivity|]. split; [reflexivity|]. split; [congruence|]. split; [exact F1|]. split; [exact F2|]. split; [exact F3|exact Ep].
Qed.
(** A full collection keeps exactly the objects reachable from those that zt_gc_for_each reports as black (0) or grey (1), and leaves no collection half-way. *)
Theorem C41_full_exact : forall m a k w w', history m a k w -> enabled (wg w) = 0%Z -> does w (Collect true) w' -> idle w' /\
  forall x, live w' x <-> reach (kids w) (map fst (filter (fun e => (snd e <? 2)%Z) (gc_for_each (wg w)))) x.
Proof.
  intros m a k w w' H E D. destruct (full_step _ _ _ _ _ H E D) as (_ & _ & _ & _ & S & R & _). split; [exact S|]. intros x. rewrite live_tracked, R.
  assert (Q : map fst (filter (fun e => (snd e <? 2)%Z) (gc_for_each (wg w))) = black (wg w) ++ grey (wg w)).
  { unfold gc_for_each. rewrite !filter_app, !map_app. assert (A : forall n (l : list nat), (n <? 2)%Z = true -> map fst (filter (fun e : nat * Z => (snd e <? 2)%Z) (map (fun y => (y, n)) l)) = l) by (intros n l B; induction l as [|z l IH]; [reflexivity|]; cbn [map filter snd]; rewrite B; cbn [map fst]; now rewrite IH).
    assert (A2 : forall (l : list nat), filter (fun e : nat * Z => (snd e <? 2)%Z) (map (fun y => (y, 2%Z)) l) = []) by (induction l as [|z l IH]; [reflexivity|]; exact IH). rewrite !A by reflexivity. rewrite A2. cbn [map]. now rewrite app_nil_r. }
  now rewrite Q.
Qed.
Print Assumptions C41_full_exact.
(** Completeness: three full collections in a row leave exactly the objects reachable from the protected ones (two, when no incremental collection had stopped half-way). *)
Theorem C41_complete : forall m a k w w1 w2 w3, history m a k w -> enabled (wg w) = 0%Z -> does w (Collect true) w1 -> does w1 (Collect true) w2 -> does w2 (Collect true) w3 -> forall x, live w3 x <-> reach (kids w) (prot w) x.
Proof.
  intros m a k w w1 w2 w3 H E D1 D2 D3. pose proof (Call _ _ _ _ _ _ H (I : allowed w (Collect true)) D1) as H1. pose proof (Call _ _ _ _ _ _ H1 (I : allowed w1 (Collect true)) D2) as H2.
  destruct (full_step _ _ _ _ _ H E D1) as (K1 & _ & P1 & E1 & S1 & _). destruct (full_step _ _ _ _ _ H1 E1 D2) as (K2 & _ & P2 & E2 & S2 & _ & Y2 & B2). destruct (full_step _ _ _ _ _ H2 E2 D3) as (_ & _ & _ & _ & _ & R3 & _).
  intros x. rewrite live_tracked, R3. destruct (history_inv _ _ _ _ H2) as [G2 _ Q2]. destruct (idle_inv _ _ _ G2 S2) as [_ BB]. rewrite BB. cbn [app]. rewrite K2, K1. rewrite <- P1, <- P2. split; apply reach_incl; intros y J; apply reach_root.
  - apply Q2. split; [exact J|]. rewrite B2. now apply Y2.
  - now apply Q2.
Qed.
Print Assumptions C41_complete.
Theorem C41_complete_idle : forall m a k w w1 w2, history m a k w -> enabled (wg w) = 0%Z -> idle w -> does w (Collect true) w1 -> does w1 (Collect true) w2 -> forall x, live w2 x <-> reach (kids w) (prot w) x.
Proof.
  intros m a k w w1 w2 H E ID D1 D2. pose proof (Call _ _ _ _ _ _ H (I : allowed w (Collect true)) D1) as H1.
  destruct (full_step _ _ _ _ _ H E D1) as (K1 & _ & P1 & E1 & S1 & _ & Y1 & B1). destruct (full_step _ _ _ _ _ H1 E1 D2) as (_ & _ & _ & _ & _ & R2 & _).
  intros x. rewrite live_tracked, R2. destruct (history_inv _ _ _ _ H1) as [G1 _ Q1]. destruct (idle_inv _ _ _ G1 S1) as [_ BB]. rewrite BB. cbn [app]. rewrite K1, <- P1. split; apply reach_incl; intros y J; apply reach_root.
  - apply Q1. split; [exact J|]. rewrite B1. now apply Y1.
  - now apply Q1.
Qed.
Print Assumptions C41_complete_idle.
(** zt_gc_destroy releases every object that is held, once *)
Theorem C41_destroy : forall m a k w, history m a k w -> exists g' r, (exists N, forall fuel, N <= fuel -> gc_destroy fuel (kids w) (wg w) = Ok g') /\ log g' = log (wg w) ++ r /\ NoDup r /\ (forall x, In x r <-> live w x) /\ gc_for_each g' = [].
Proof.
  intros m a k w H. apply history_inv in H. destruct H as [G _ _]. set (g0 := if (enabled (wg w) =? 0)%Z then wg w else set_en (wg w) 0 (allocs (wg w))).
  assert (G0 : ginv (kids w) (unp w) g0) by (unfold g0; destruct (_ =? _)%Z; [exact G|now apply ginv_en]).
  assert (T0 : tracked g0 = tracked (wg w) /\ log g0 = log (wg w)) by (unfold g0; destruct (_ =? _)%Z; split; reflexivity).
  destruct (collect_ok _ _ true _ _ G0 (Nat.lt_succ_diag_r _)) as (g1 & C & _ & (r & L & PM & _) & _).
  eexists _, (r ++ white g1 ++ grey g1 ++ black g1). split; [exists (S (length (tracked g0))); intros fuel LE; unfold gc_destroy; cbv zeta; fold g0; rewrite (collect_mono _ _ _ _ _ _ LE C); cbn [obind]; reflexivity|]. cbn [log gc_for_each black grey white map app].
  assert (PM' : Permutation (r ++ white g1 ++ grey g1 ++ black g1) (tracked (wg w))) by (rewrite <- (proj1 T0), PM; unfold tracked; permutes).
  split; [rewrite L, <- app_assoc; now rewrite (proj2 T0)|]. split; [|split; [|reflexivity]].
  - destruct G as (pre & post & T & _). eapply Permutation_NoDup; [symmetry; exact PM'|exact (t_nd _ _ _ _ _ T)].
  - intros x. rewrite live_tracked. split; apply Permutation_in; [exact PM'|now symmetry].
Qed.
Print Assumptions C41_destroy.
(** a disabled collector releases nothing *)
Theorem C41_disabled : forall fuel k g full, (enabled g < 0)%Z -> gc_collect fuel k g full = Ok g.
Proof. intros fuel k g full E. unfold gc_collect. now rewrite (proj2 (Z.ltb_lt _ _) E). Qed.
Print Assumptions C41_disabled.

(** What careful means is needed.  [runs] makes calls in a row. *)
Fixpoint runs (fuel : nat) (w : world) (ops : list op) : outcome world := match ops with [] => Ok w | o :: r => w <- step fuel w o ;; runs fuel w r end.
Definition graph (x : nat) : list nat := match x with 1 => [5; 3] | 3 => [2] | _ => [] end.
Definition w0 (marks al : Z) : world := mkw (gc_init marks al) graph [] [].
Definition view (x : outcome world) : option (list nat * list (nat * Z) * list nat * nat) := match x with Ok w => Some (log (wg w), gc_for_each (wg w), prot w, scan (wg w)) | _ => None end.
(* protecting object 3 while a collection has stopped half-way puts it behind the scan: object 2, to which 3 points, is released *)
Theorem C41_protect_refuted : exists w, runs 9 (w0 1 0) [Disable; Register 2; Register 3; Register 5; Protect 1; Enable; Collect true; Collect false; Protect 3; Collect false] = Ok w /\ In 3 (prot w) /\ In 2 (kids w 3) /\ In 2 (log (wg w)) /\ live w 3.
Proof.
  assert (X : view (runs 9 (w0 1 0) [Disable; Register 2; Register 3; Register 5; Protect 1; Enable; Collect true; Collect false; Protect 3; Collect false]) = Some ([2], [(3, 1%Z); (1, 1%Z); (5, 2%Z)], [3; 1], 0)) by (vm_compute; reflexivity).
  assert (KK : forall w, runs 9 (w0 1 0) [Disable; Register 2; Register 3; Register 5; Protect 1; Enable; Collect true; Collect false; Protect 3; Collect false] = Ok w -> kids w = graph).
  { intros w E. assert (Y : match runs 9 (w0 1 0) [Disable; Register 2; Register 3; Register 5; Protect 1; Enable; Collect true; Collect false; Protect 3; Collect false] with Ok w => kids w | _ => graph end = graph) by (vm_compute; reflexivity). now rewrite E in Y. }
  destruct (runs 9 (w0 1 0) _) as [w| | |]; try discriminate X. exists w. cbn [view] in X. assert (A : (log (wg w), gc_for_each (wg w), prot w, scan (wg w)) = ([2], [(3, 1%Z); (1, 1%Z); (5, 2%Z)], [3; 1], 0)) by congruence. clear X. assert (A1 : log (wg w) = [2]) by congruence. assert (A2 : gc_for_each (wg w) = [(3, 1%Z); (1, 1%Z); (5, 2%Z)]) by congruence. assert (A3 : prot w = [3; 1]) by congruence.
  unfold live. rewrite A1, A2, A3, (KK w eq_refl). cbn. tauto.
Qed.
Print Assumptions C41_protect_refuted.
(* marking (as a write barrier does) an unprotected object at which a collection has stopped makes the scan skip the rest of the grey list: object 2, to which the protected object 3 points, is released *)
Theorem C41_mark_refuted : exists w, runs 9 (w0 1 0) [Disable; Register 2; Protect 3; Protect 4; Protect 6; Enable; Collect true; Unprotect 4; Collect false; Write 7 [4]; Collect false] = Ok w /\ In 3 (prot w) /\ In 2 (kids w 3) /\ In 2 (log (wg w)) /\ live w 3.
Proof.
  set (ops := [Disable; Register 2; Protect 3; Protect 4; Protect 6; Enable; Collect true; Unprotect 4; Collect false; Write 7 [4]; Collect false]).
  assert (X : view (runs 9 (w0 1 0) ops) = Some ([2], [(6, 1%Z); (3, 1%Z); (4, 2%Z)], [6; 3], 0)) by (vm_compute; reflexivity).
  assert (KK : forall w, runs 9 (w0 1 0) ops = Ok w -> kids w 3 = [2]).
  { intros w E. assert (Y : match runs 9 (w0 1 0) ops with Ok w => kids w 3 | _ => [] end = [2]) by (vm_compute; reflexivity). now rewrite E in Y. }
  destruct (runs 9 (w0 1 0) ops) as [w| | |]; try discriminate X. exists w. cbn [view] in X. assert (A1 : log (wg w) = [2]) by congruence. assert (A2 : gc_for_each (wg w) = [(6, 1%Z); (3, 1%Z); (4, 2%Z)]) by congruence. assert (A3 : prot w = [6; 3]) by congruence.
  unfold live. rewrite A1, A2, A3, (KK w eq_refl). cbn. tauto.
Qed.
Print Assumptions C41_mark_refuted.
(* unregistering the object at which a collection has stopped leaves the scan on an object that is on no list *)
Theorem C41_unregister_refuted : runs 9 (w0 1 0) [Disable; Protect 4; Protect 6; Enable; Unregister 4; Collect false] = UB.
Proof. vm_compute. reflexivity. Qed.
Print Assumptions C41_unregister_refuted.
(* zt_gc_unregister counts towards the next collection but never starts one *)
Theorem C41_unregister_never_collects_refuted : forall fuel k g x, exists g', gc_unregister fuel k g x = Ok g' /\ log g' = log g /\ allocs g' = (allocs g + 1)%Z.
Proof.
  intros fuel k g x. unfold gc_unregister. cbv zeta. destruct (allocs _ <? before _)%Z eqn:C; [|eexists; repeat split]. unfold gc_collect. rewrite C. cbn [negb andb]. rewrite orb_true_r. eexists. repeat split.
Qed.
Print Assumptions C41_unregister_never_collects_refuted.

(** non-vacuity: the graph with root 1 -> 5, 3 -> 2, garbage 8 and 9, incremental collections *)
Definition liveb (w : world) (x : nat) : bool := existsb (Nat.eqb x) (map fst (gc_for_each (wg w))).
Lemma liveb_ok w x : liveb w x = true <-> live w x.
Proof. unfold liveb, live. rewrite existsb_exists. split; [intros (y & J & E); apply Nat.eqb_eq in E; now subst|]. intros J. exists x. split; [exact J|apply Nat.eqb_refl]. Qed.
Definition allowedb (w : world) (o : op) : bool :=
  match o with
  | Register x => negb (x =? 0) && negb (liveb w x) && forallb (fun y => (y =? x) || liveb w y) (kids w x) && negb (pb (wg w) x)
  | Protect x => negb (x =? 0) && forallb (fun y => (y =? x) || liveb w y) (kids w x) && ((scan (wg w) =? 0) || match kids w x with [] => true | _ => false end)
  | Unprotect x => negb (x =? 0)
  | Write x ks => forallb (liveb w) ks && ((scan (wg w) =? 0) || forallb (fun y => negb (existsb (Nat.eqb y) (unp w))) ks)
  | Forget x ks => forallb (fun y => existsb (Nat.eqb y) (kids w x)) ks
  | Enable => (enabled (wg w) <? 0)%Z
  | Collect _ | Disable => true
  | Unregister x => (scan (wg w) =? 0) && forallb (fun z => (z =? x) || negb (existsb (Nat.eqb x) (kids w z))) (map fst (gc_for_each (wg w)))
  end.
Lemma existsb_eq x l : existsb (Nat.eqb x) l = true <-> In x l.
Proof. rewrite existsb_exists. split; [intros (y & J & E); apply Nat.eqb_eq in E; now subst|]. intros J. exists x. split; [exact J|apply Nat.eqb_refl]. Qed.
Lemma allowedb_ok w o : allowedb w o = true -> allowed w o.
Proof.
  assert (KL : forall x l, forallb (fun y => (y =? x) || liveb w y) l = true -> forall y, In y l -> y = x \/ live w y).
  { intros x l E y J. rewrite forallb_forall in E. specialize (E y J). apply orb_true_iff in E. destruct E as [E|E]; [left; now apply Nat.eqb_eq|right; now apply liveb_ok]. }
  destruct o; cbn [allowedb allowed]; intros E; try exact I.
  - apply andb_true_iff in E. destruct E as [E E4]. apply andb_true_iff in E. destruct E as [E E3]. apply andb_true_iff in E. destruct E as [E1 E2]. apply negb_true_iff in E1. apply Nat.eqb_neq in E1. split; [exact E1|]. split; [rewrite <- liveb_ok; now destruct (liveb w x)|]. split; [now apply KL|now apply negb_true_iff].
  - apply andb_true_iff in E. destruct E as [E1 E2]. split; [now apply Nat.eqb_eq|]. intros z L N J. rewrite forallb_forall in E2. specialize (E2 z L). apply orb_true_iff in E2. destruct E2 as [E2|E2]; [apply Nat.eqb_eq in E2; contradiction|]. apply existsb_eq in J. now rewrite J in E2.
  - apply andb_true_iff in E. destruct E as [E E3]. apply andb_true_iff in E. destruct E as [E1 E2]. apply negb_true_iff in E1. apply Nat.eqb_neq in E1. split; [exact E1|]. split; [now apply KL|]. apply orb_true_iff in E3. destruct E3 as [E3|E3]; [left; now apply Nat.eqb_eq|right; now destruct (kids w x)].
  - apply negb_true_iff in E. now apply Nat.eqb_neq.
  - apply andb_true_iff in E. destruct E as [E1 E2]. rewrite forallb_forall in E1. split; [intros y J; now apply liveb_ok, E1|]. apply orb_true_iff in E2. destruct E2 as [E2|E2]; [left; now apply Nat.eqb_eq|right]. rewrite forallb_forall in E2. intros y J K. specialize (E2 y J). apply existsb_eq in K. now rewrite K in E2.
  - rewrite forallb_forall in E. intros y J. now apply existsb_eq, E.
  - now apply Z.ltb_lt.
Qed.
Fixpoint prog (w : world) (ops : list op) : option world := match ops with [] => Some w | o :: r => if allowedb w o then match step 20 w o with Ok w => prog w r | _ => None end else None end.
Lemma prog_ok m a k : forall ops w w', history m a k w -> prog w ops = Some w' -> history m a k w'.
Proof.
  induction ops as [|o ops IH]; intros w w' H; cbn [prog]; [intros E; assert (w = w') as <- by congruence; exact H|]. destruct (allowedb w o) eqn:A; [|discriminate]. destruct (step 20 w o) as [w1| | |] eqn:E; try discriminate. apply IH. apply (Call _ _ _ w o); [exact H|now apply allowedb_ok|]. exists 20. intros fuel L. exact (step_mono o 20 fuel _ _ L E).
Qed.
Definition case : list op := [Disable; Register 2; Register 3; Register 5; Register 8; Register 9; Protect 1; Enable; Collect false; Collect true].
Definition seen (x : option world) : option (list nat * list (nat * Z) * nat) := match x with Some w => Some (log (wg w), gc_for_each (wg w), scan (wg w)) | None => None end.
Example history_case : seen (prog (w0 2 2) case) = Some ([], [(1, 1%Z); (9, 2%Z); (8, 2%Z); (5, 2%Z); (3, 2%Z); (2, 2%Z)], 0) /\
  seen (prog (w0 2 2) (case ++ [Collect true])) = Some ([9; 8], [(1, 1%Z); (2, 2%Z); (3, 2%Z); (5, 2%Z)], 0) /\
  seen (prog (w0 2 2) (case ++ [Collect true; Register 8; Register 9])) = Some ([9; 8], [(8, 0%Z); (1, 1%Z); (9, 1%Z); (5, 1%Z); (3, 1%Z); (2, 2%Z)], 9) /\
  seen (prog (w0 2 2) (case ++ [Collect true; Register 8; Register 9; Write 8 [2]; Forget 3 []; Collect true; Forget 1 [5]; Collect true])) = Some ([9; 8; 2; 3; 9; 8], [(1, 1%Z); (5, 2%Z)], 0).
Proof. split; [|split; [|split]]; vm_compute; reflexivity. Qed.
