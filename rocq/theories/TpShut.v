(** Thread pool: wake-ups, shutdown phases, termination measure. *)
From Coq Require Import List ZArith Bool Arith Lia Permutation.
From Verif Require Import Prelude TpModel TpSpec TpProofs.
Import ListNotations.

(** ** No wake-up for a job is lost *)
Definition sig (x : side) (p : pc) : nat :=
  match p with PSig y _ => b2n (side_eqb x y) | _ => 0 end.
(** a pool thread of x that will look at its queue again *)
Definition active (x : side) (p : pc) : nat :=
  match role_of p with
  | RClient => 0
  | RPool y => if side_eqb x y then
      match p with LWait _ | LDone _ | LExit _ | LToWait _ => 0 | _ => 1 end else 0
  end.
Definition asleep (x : side) (p : pc) : nat := b2n (waits x p).

Definition wake_inv (s : st) : Prop := forall x,
  queue x s = [] \/ tot (sig x) (s_thr s) + tot (active x) (s_thr s) <> 0
  \/ tot (asleep x) (s_thr s) = 0.

Lemma no_waiter : forall x l, existsb (waits x) l = false -> tot (asleep x) l = 0.
Proof.
  intros x l; induction l; intros H; [reflexivity|]. cbn [existsb] in H.
  apply orb_false_iff in H as [A B]. cbn [tot]. unfold asleep at 1. rewrite A, (IHl B). reflexivity.
Qed.

Lemma wake_step : forall c t ch s s', step c t ch s = Some s' ->
  park_inv s -> wake_inv s -> wake_inv s'.
Proof.
  intros c t ch s s' H P Inv x. pose proof (Inv x) as F. pose proof (P x) as Px. clear Inv P.
  step_case t H.
  all: sides.
  all: try (match goal with |- context [tot _ (upd _ _ ?p')] =>
     pose proof (tot_ge (parked I_) _ _ _ Hp) as GI; pose proof (tot_ge (parked O_) _ _ _ Hp) as GO end;
     cbn in GI, GO; sumall; intuition lia).
  all: try match goal with B : existsb (waits _) _ = false |- _ => apply no_waiter in B end.
  all: try match goal with E : h_q ?h = _ :: _ |- _ =>
         assert (h_q h <> []) by (rewrite E; discriminate) end.
  all: sumall; intuition lia.
Qed.

(** ** Phases of the shutdown *)
Definition nb (x : side) (l : list event) : nat :=
  length (flat_map (fun ev => match ev with EBcast y => only x y tt | _ => [] end) l).
Definition nk (l : list event) : nat :=
  length (flat_map (fun ev => match ev with EKilled => [tt] | _ => [] end) l).
Definition at_set (p : pc) : nat := match p with KSet => 1 | _ => 0 end.
Definition at_bi (p : pc) : nat := match p with KBc I_ => 1 | _ => 0 end.
Definition at_bo (p : pc) : nat := match p with KBc O_ => 1 | _ => 0 end.
Definition at_join (p : pc) : nat := match p with KJoin _ => 1 | _ => 0 end.
Definition leaving (p : pc) : nat := match p with LExit _ | LDone _ => 1 | _ => 0 end.

Definition kill_inv (s : st) : Prop :=
  tot at_join (s_thr s) + nk (s_log s) = nb O_ (s_log s) /\
  tot at_bo (s_thr s) + nb O_ (s_log s) = nb I_ (s_log s) /\
  tot at_bi (s_thr s) + nb I_ (s_log s) = b2n (s_kill s) /\
  tot at_set (s_thr s) + b2n (s_kill s) = b2n (s_shut s) /\
  (tot leaving (s_thr s) <> 0 -> s_kill s = true).

Lemma kill_step : forall c t ch s s', step c t ch s = Some s' -> kill_inv s -> kill_inv s'.
Proof.
  intros c t ch s s' H (F1 & F2 & F3 & F4 & F5). unfold kill_inv.
  step_case t H.
  all: sides; unfold nb, nk in *; rewrite ?flat_map_app, ?app_length in *;
       cbn [flat_map only side_eqb app length] in *.
  all: sumall.
  all: destruct (s_kill s) eqn:K; destruct (s_shut s) eqn:Sh; cbn [b2n] in *; try congruence.
  all: split; [lia|split; [lia|split; [lia|split; [lia|]]]].
  all: try reflexivity.
  all: intros Nz; try discriminate; apply F5; lia.
Qed.

(** ** After a broadcast that caught nobody between its test and its wait *)
Definition napping (x : side) (p : pc) : nat :=
  match p with LToWait y => b2n (side_eqb x y) | _ => 0 end.

Definition calm_inv (s : st) : Prop := forall x,
  nb x (s_log s) <> 0 -> tot (napping x) (s_thr s) + tot (asleep x) (s_thr s) = 0.

Lemma not_napping : forall x s, caught_napping x s = false -> tot (napping x) (s_thr s) = 0.
Proof.
  intros x s. unfold caught_napping. induction (s_thr s) as [|p l IH]; intros H; [reflexivity|].
  cbn [existsb] in H. apply orb_false_iff in H as [A B]. cbn [tot]. rewrite (IH B).
  destruct p; cbn in *; try reflexivity. rewrite A. reflexivity.
Qed.

Lemma calm_inv_step : forall c t ch s s', step c t ch s = Some s' -> calm_step t s ->
  kill_inv s -> calm_inv s -> calm_inv s'.
Proof.
  intros c t ch s s' H C (F1 & F2 & F3 & F4 & F5) Inv x. pose proof (Inv x) as F. clear Inv.
  unfold calm_step in C.
  step_case t H.
  all: sides; unfold nb, nk in *; rewrite ?flat_map_app, ?app_length in *;
       cbn [flat_map only side_eqb app length] in *; intros Nz.
  all: try (match goal with Hp : nth_error _ _ = Some (KBc ?y) |- _ =>
       pose proof (not_napping _ _ (C _ eq_refl));
       change (fun p : pc => b2n (waits y p)) with (asleep y) in T end).
  all: sumall; try lia.
  all: try (cbn in F3; lia).
Qed.

(** ** A pool thread leaves only when its queue is empty *)
Definition drain_inv (s : st) : Prop := forall a b t x,
  s_log s = a ++ EExit t x :: b -> puts x a = takes x a.

Lemma snoc_split : forall {A} (l a b : list A) v w, l ++ [v] = a ++ w :: b ->
  (b = [] /\ l = a /\ v = w) \/ exists b', b = b' ++ [v] /\ l = a ++ w :: b'.
Proof.
  intros A l a b v w H. destruct b as [|b0 b] using rev_ind.
  - left. apply app_inj_tail in H as [-> ->]. auto.
  - right. clear IHb. exists b. change (a ++ w :: b ++ [b0]) with (a ++ (w :: b) ++ [b0]) in H.
    rewrite app_assoc in H. apply app_inj_tail in H as [-> ->]. auto.
Qed.

Lemma drain_emit : forall s ev, drain_inv s -> (forall t x, ev <> EExit t x) -> drain_inv (emit ev s).
Proof.
  intros s ev D N a b t x H. cbn [emit s_log] in H.
  apply snoc_split in H as [(_ & _ & H)|(b' & _ & H)]; [exfalso; exact (N _ _ H)|exact (D _ _ _ _ H)].
Qed.

Lemma drain_same : forall s s', s_log s' = s_log s -> drain_inv s -> drain_inv s'.
Proof. intros s s' E D a b t x H. rewrite E in H. exact (D _ _ _ _ H). Qed.

Lemma drain_step : forall c t ch s s', step c t ch s = Some s' ->
  park_inv s -> fifo_inv s -> drain_inv s -> drain_inv s'.
Proof.
  intros c t ch s s' H P F D.
  step_case t H; clear T.
  all: repeat (apply drain_emit; [|intros; discriminate]).
  all: try (eapply drain_same; [|exact D]; sides; reflexivity).
  intros a b u y H. cbn [emit s_log] in H.
  assert (L : s_log (goto t (LDone x) (unlock x s)) = s_log s) by (sides; reflexivity).
  rewrite L in H.
  apply snoc_split in H as [(_ & <- & H)|(b' & _ & H)]; [|exact (D _ _ _ _ H)].
  assert (y = x) by congruence. subst y.
  assert (Q : queue x s = []).
  { apply P. pose proof (tot_ge (parked x) _ _ _ Hp) as G. cbn in G. rewrite side_eqb_refl in G.
    cbn in G. lia. }
  pose proof (F x) as Fx. rewrite Q, app_nil_r in Fx. exact Fx.
Qed.

(** ** Every internal step makes progress *)
Definition qw (x : side) : nat := match x with I_ => 21 | O_ => 6 end.

Definition weight (n len : nat) (p : pc) : nat :=
  match p with
  | LWait _ | LDone _ | Idle => 0
  | LExit _ | LToWait _ => 1
  | LLocked _ => 2 | LTop _ => 3 | LReacq _ => 4 | LWoken _ => 5
  | LFree _ _ => 4
  | LIn O_ _ => 5 | LRun O_ _ => 6 | LGot O_ _ => 7
  | LIn I_ _ => 20 | LRun I_ _ => 21 | LGot I_ _ => 22
  | PUnl _ _ => 5 | PSig _ _ => 11
  | PEnq x _ _ => 12 + qw x | PLock x _ _ => 13 + qw x
  | GRet _ => 1 | GUnl _ => 2 | GDeq => 3 | GLock => 4
  | KJoin j => 2 * n + 1 - j
  | KBc O_ => 5 * len + 2 * n + 2
  | KBc I_ => 5 * len + 5 * len + 2 * n + 3
  | KSet => 5 * len + 5 * len + 2 * n + 4
  end.

(** an upper bound on the number of steps before the pool is at rest *)
Definition budget (s : st) : nat :=
  21 * length (queue I_ s) + 6 * length (queue O_ s)
  + tot (weight (s_n s) (length (s_thr s))) (s_thr s).

Lemma tot_len : forall g l, (forall p, g p <= 1) -> tot g l <= length l.
Proof. intros g l H; induction l; cbn [tot length]; [lia|]. specialize (H a). lia. Qed.

Lemma budget_step : forall c t ch s s', step c t ch s = Some s' -> internal ch = true ->
  role_inv s -> budget s' < budget s.
Proof.
  intros c t ch s s' H In [_ R]. unfold budget.
  assert (W : forall y, tot (fun p : pc => b2n (waits y p)) (s_thr s) <= length (s_thr s))
    by (intros y; apply tot_len; intros p; destruct (waits y p); cbn; lia).
  pose proof (W I_) as WI. pose proof (W O_) as WO. clear W.
  step_case t H; try discriminate In.
  all: sides; rewrite ?upd_length, ?wake_len, ?app_length; cbn [length];
       try match goal with E : h_q _ = _ |- _ => rewrite E end; cbn [length].
  all: try (destruct (R _ _ Hp) as [_ R1]; cbn in R1).
  all: sumall.
  all: lia.
Qed.

Lemma spurious_step : forall c t s s', step c t Spurious s = Some s' -> budget s' = budget s + 5.
Proof.
  intros c t s s' H. unfold budget.
  step_case t H. all: sides; rewrite ?upd_length; sumall; lia.
Qed.

Definition spurious (ch : choice) : bool := match ch with Spurious => true | _ => false end.
Definition count_moves (f : choice -> bool) (l : list (nat * choice)) : nat :=
  length (filter (fun m => f (snd m)) l).

(** ** All of it, over executions *)
Record inv (s : st) : Prop := {
  v_mutex : mutex_inv s; v_park : park_inv s; v_fifo : fifo_inv s; v_taken : taken_inv s;
  v_free : free_inv s; v_return : return_inv s; v_output : output_inv s; v_ids : ids_inv s;
  v_role : role_inv s; v_wake : wake_inv s; v_kill : kill_inv s; v_drain : drain_inv s }.

Lemma inv_step : forall c t ch s s', step c t ch s = Some s' -> inv s -> inv s'.
Proof.
  intros c t ch s s' H []. constructor.
  - eapply mutex_step; eassumption.
  - eapply park_step; eassumption.
  - eapply fifo_step; eassumption.
  - eapply taken_step; eassumption.
  - eapply free_step; eassumption.
  - eapply return_step; eassumption.
  - eapply output_step; eassumption.
  - eapply ids_step; eassumption.
  - eapply role_step; eassumption.
  - eapply wake_step; eassumption.
  - eapply kill_step; eassumption.
  - eapply drain_step; eassumption.
Qed.

Lemma tot_repeat : forall g p n, tot g (repeat p n) = n * g p.
Proof. induction n; cbn [repeat tot]; [reflexivity|]. rewrite IHn. lia. Qed.

Lemma tot_start : forall g n m, tot g (s_thr (start n m)) = n * g (LTop I_) + (n * g (LTop O_) + m * g Idle).
Proof. intros. cbn [start s_thr]. rewrite !tot_app, !tot_repeat. reflexivity. Qed.

Lemma inv_start : forall n m, inv (start n m).
Proof.
  intros n m. constructor.
  - intros x. rewrite tot_start. destruct x; cbn; lia.
  - intros x. destruct x; reflexivity.
  - intros x. destruct x; reflexivity.
  - intros x e. rewrite !tot_start. destruct x; cbn; lia.
  - intros e. rewrite !tot_start. cbn; lia.
  - intros x e. rewrite !tot_start. destruct x; cbn; lia.
  - intros e. rewrite !tot_start. cbn; lia.
  - intros i. rewrite !tot_start. cbn; lia.
  - split; [cbn [start s_n s_thr]; rewrite !app_length, !repeat_length; lia|].
    intros t p H. cbn [start s_n s_thr] in *. unfold role_at.
    destruct (Nat.ltb_spec t n) as [L|L].
    + rewrite nth_error_app1 in H by (rewrite repeat_length; lia).
      apply nth_error_In, repeat_spec in H. subst. split; [reflexivity|exact Logic.I].
    + rewrite nth_error_app2 in H by (rewrite repeat_length; lia). rewrite repeat_length in H.
      destruct (Nat.ltb_spec t (2 * n)) as [L2|L2].
      * rewrite nth_error_app1 in H by (rewrite repeat_length; lia).
        apply nth_error_In, repeat_spec in H. subst. split; [reflexivity|exact Logic.I].
      * rewrite nth_error_app2 in H by (rewrite repeat_length; lia).
        apply nth_error_In, repeat_spec in H. subst. split; [reflexivity|exact Logic.I].
  - intros x. left. destruct x; reflexivity.
  - unfold kill_inv. rewrite !tot_start. cbn. rewrite !Nat.mul_0_r. repeat split; try reflexivity.
    intros H; exfalso; apply H; reflexivity.
  - intros a b t x H. destruct a; discriminate H.
Qed.

Lemma inv_run : forall c l s s', run c l s = Some s' -> inv s -> inv s'.
Proof.
  intros c l; induction l as [|[t ch] r IH]; intros s s' H V; cbn [run] in H.
  - assert (s = s') by congruence. subst. exact V.
  - destruct (step c t ch s) as [s1|] eqn:E; [|discriminate].
    exact (IH _ _ H (inv_step _ _ _ _ _ E V)).
Qed.

Lemma reachable_inv : forall c s, reachable c s -> inv s.
Proof. intros c s (n & m & l & H). exact (inv_run _ _ _ _ H (inv_start n m)). Qed.

Lemma n_step : forall c t ch s s', step c t ch s = Some s' ->
  s_n s' = s_n s /\ length (s_thr s') = length (s_thr s).
Proof.
  intros c t ch s s' H. step_case t H; clear T.
  all: sides; split; cbn [s_n s_thr]; rewrite ?upd_length, ?wake_len; rewrite ?upd_length; reflexivity.
Qed.

Lemma n_run : forall c l s s', run c l s = Some s' ->
  s_n s' = s_n s /\ length (s_thr s') = length (s_thr s).
Proof.
  intros c l; induction l as [|[t ch] r IH]; intros s s' H; cbn [run] in H.
  - assert (s = s') by congruence. subst. auto.
  - destruct (step c t ch s) as [s1|] eqn:E; [|discriminate].
    destruct (IH _ _ H) as [A B]. destruct (n_step _ _ _ _ _ E) as [C D]. split; congruence.
Qed.

Lemma calm_run : forall c l s s', run c l s = Some s' -> calm c l s -> inv s -> calm_inv s -> calm_inv s'.
Proof.
  intros c l; induction l as [|[t ch] r IH]; intros s s' H K V C; cbn [run calm] in *.
  - assert (s = s') by congruence. subst. exact C.
  - destruct K as [K1 K2]. destruct (step c t ch s) as [s1|] eqn:E; [|discriminate].
    apply (IH _ _ H K2 (inv_step _ _ _ _ _ E V)).
    exact (calm_inv_step _ _ _ _ _ E K1 (v_kill _ V) C).
Qed.

Lemma calm_start : forall n m, calm_inv (start n m).
Proof. intros n m x H. exfalso. apply H. reflexivity. Qed.

Lemma budget_run : forall c l s s', run c l s = Some s' -> inv s ->
  Forall (fun m => internal (snd m) || spurious (snd m) = true) l ->
  count_moves internal l + budget s' <= budget s + 5 * count_moves spurious l.
Proof.
  intros c l; induction l as [|[t ch] r IH]; intros s s' H V F; cbn [run] in H.
  - assert (s = s') by congruence. subst. cbn. lia.
  - destruct (step c t ch s) as [s1|] eqn:E; [|discriminate].
    inversion F as [|? ? F1 F2]; subst. cbn [snd] in F1.
    specialize (IH _ _ H (inv_step _ _ _ _ _ E V) F2).
    unfold count_moves in *. cbn [filter snd].
    destruct ch; cbn [internal spurious orb] in *; try discriminate F1; cbn [length].
    all: try (pose proof (budget_step _ _ _ _ _ E eq_refl (v_role _ V)); lia).
    pose proof (spurious_step _ _ _ _ E). lia.
Qed.

(** ** Rest states *)
Lemma rest_points : forall c s, inv s -> at_rest c s ->
  forall t p, nth_error (s_thr s) t = Some p ->
  match p with LWait _ | LDone _ | Idle | KJoin _ => True | _ => False end.
Proof.
  intros c s V A.
  assert (Cr : forall x t p, nth_error (s_thr s) t = Some p -> in_critical x p = false).
  { intros x t p Hp. destruct (in_critical x p) eqn:B; [exfalso|reflexivity].
    pose proof (A t Go eq_refl) as G.
    destruct p; cbn in B; try discriminate.
    all: unfold step in G; rewrite Hp in G.
    all: try discriminate G.
    - destruct (h_q (hf x0 s)); [destruct (s_kill s)|]; discriminate G.
    - destruct (existsb (waits x0) (s_thr s)) eqn:Ex; [|discriminate G].
      apply existsb_exists in Ex as (q & Hin & W). apply In_nth_error in Hin as [w Hw].
      pose proof (A t (Pick w) eq_refl) as G2. unfold step in G2. rewrite Hp, Hw, W in G2. discriminate G2.
    - destruct (h_q (hf O_ s)); discriminate G. }
  assert (Ow : forall x, h_owner (hf x s) = None).
  { intros x. pose proof (v_mutex _ V x) as M.
    assert (Z : tot (crit x) (s_thr s) = 0).
    { apply tot_zero. intros t p Hp. unfold crit. rewrite (Cr x t p Hp). reflexivity. }
    rewrite Z in M. destruct (h_owner (hf x s)); [discriminate M|reflexivity]. }
  intros t p Hp.
  pose proof (A t Go eq_refl) as G. unfold step in G. rewrite Hp in G.
  destruct p; try exact Logic.I; try discriminate G.
  all: try (unfold lock in G; rewrite Ow in G; discriminate G).
  all: try (pose proof (Cr x t _ Hp) as B; cbn in B; rewrite side_eqb_refl in B; discriminate B).
  - destruct (has_worker c x); discriminate G.
  - pose proof (A t (Ret None) eq_refl) as G2. unfold step in G2. rewrite Hp in G2.
    destruct x; discriminate G2.
  - pose proof (Cr O_ t _ Hp) as B. discriminate B.
  - destruct r; discriminate G.
Qed.

Lemma rest_sums : forall c s (g : pc -> nat), inv s -> at_rest c s ->
  (forall x, g (LWait x) = 0) -> (forall x, g (LDone x) = 0) -> g Idle = 0 -> (forall j, g (KJoin j) = 0) ->
  tot g (s_thr s) = 0.
Proof.
  intros c s g V A G1 G2 G3 G4. apply tot_zero. intros t p Hp.
  pose proof (rest_points _ _ V A t p Hp). destruct p; try contradiction; auto.
Qed.

Lemma rest_queue : forall c s x, inv s -> at_rest c s -> queue x s <> [] ->
  tot (asleep x) (s_thr s) = 0.
Proof.
  intros c s x V A Q. destruct (v_wake _ V x) as [E|[E|E]]; [contradiction| |exact E].
  exfalso. apply E.
  rewrite (rest_sums c s (sig x) V A), (rest_sums c s (active x) V A);
    try reflexivity; intros; try reflexivity; unfold active; cbn [role_of];
    destruct (side_eqb _ _); reflexivity.
Qed.

(** at rest, a pool thread is asleep or gone *)
Lemma rest_pool : forall c s x t, inv s -> at_rest c s -> pool_thread x s t ->
  nth_error (s_thr s) t = Some (LWait x) \/ nth_error (s_thr s) t = Some (LDone x).
Proof.
  intros c s x t V A P. destruct (v_role _ V) as [L R].
  destruct (nth_error (s_thr s) t) as [p|] eqn:Hp.
  2:{ apply nth_error_None in Hp. destruct x; cbn in P; lia. }
  destruct (R _ _ Hp) as [Ro _]. pose proof (rest_points _ _ V A t p Hp) as K.
  assert (Ra : role_at (s_n s) t = RPool x).
  { unfold role_at. destruct x; cbn in P.
    - destruct (Nat.ltb_spec t (s_n s)); [reflexivity|lia].
    - destruct (Nat.ltb_spec t (s_n s)); [lia|]. destruct (Nat.ltb_spec t (2 * s_n s)); [reflexivity|lia]. }
  rewrite Ra in Ro. destruct p; try contradiction; cbn in Ro; try discriminate Ro.
  - left. congruence.
  - right. congruence.
Qed.
