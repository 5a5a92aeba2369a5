(** C38: shutting a thread pool down (zt_threadpool_kill), and examples for C37. *)
From Coq Require Import List ZArith Bool Arith Lia Permutation.
From Verif Require Import Prelude TpModel TpSpec TpProofs TpShut PropTp.
Import ListNotations.

(** ** Join *)
Lemma done_step : forall c t ch s s' u x, step c t ch s = Some s' ->
  nth_error (s_thr s) u = Some (LDone x) -> nth_error (s_thr s') u = Some (LDone x).
Proof.
  intros c t ch s s' u x H D.
  assert (U : forall p q l, nth_error (s_thr s) t = Some p -> (forall y, p <> LDone y) ->
            nth_error l u = Some (LDone x) -> nth_error (upd l t q) u = Some (LDone x)).
  { intros p q l Hp Np Hl. rewrite upd_nth_error. destruct (Nat.eqb_spec u t) as [->|]; [|exact Hl].
    exfalso. rewrite D in Hp. injection Hp as Hp. exact (Np x (eq_sym Hp)). }
  step_case t H; clear T.
  all: try (sides; (apply (U _ _ _ eq_refl); [intros; discriminate|exact D]); fail).
  - assert (E : nth_error (upd (s_thr s) w (LWoken x0)) u = Some (LDone x)).
    { rewrite upd_nth_error. destruct (Nat.eqb_spec u w); [congruence|exact D]. }
    sides; (apply (U _ _ _ eq_refl); [intros; discriminate|exact E]).
  - assert (E : nth_error (wake_all I_ (s_thr s)) u = Some (LDone x)) by (rewrite wake_all_nth, D; reflexivity).
    sides; (apply (U _ _ _ eq_refl); [intros; discriminate|exact E]).
  - assert (E : nth_error (wake_all O_ (s_thr s)) u = Some (LDone x)) by (rewrite wake_all_nth, D; reflexivity).
    sides; (apply (U _ _ _ eq_refl); [intros; discriminate|exact E]).
Qed.

Definition gone (s : st) (u : nat) : Prop := exists x, nth_error (s_thr s) u = Some (LDone x).

Definition join_inv (s : st) : Prop :=
  (forall t j, nth_error (s_thr s) t = Some (KJoin j) -> forall i, i < j -> gone s (joined (s_n s) i)) /\
  (In EKilled (s_log s) -> forall i, i < 2 * s_n s -> gone s (joined (s_n s) i)).

Lemma gone_step : forall c t ch s s' u, step c t ch s = Some s' -> gone s u -> gone s' u.
Proof. intros c t ch s s' u H [x D]. exists x. exact (done_step _ _ _ _ _ _ _ H D). Qed.

(** the only step that enters a join or ends one *)
Lemma join_new : forall c t ch s s' u j, step c t ch s = Some s' ->
  nth_error (s_thr s') u = Some (KJoin j) ->
  nth_error (s_thr s) u = Some (KJoin j) \/ j = 0 \/
  (exists i, j = S i /\ nth_error (s_thr s) u = Some (KJoin i) /\ gone s (joined (s_n s) i)).
Proof.
  intros c t ch s s' u j H.
  assert (U : forall l p, nth_error (upd l t p) u = Some (KJoin j) -> p <> KJoin j ->
     nth_error l u = Some (KJoin j)).
  { intros l p E Np. rewrite upd_nth_error in E. destruct (Nat.eqb u t); [|exact E].
    destruct (t <? length l); [congruence|discriminate]. }
  step_case t H; clear T; intros E.
  all: try (sides; (left; apply (U _ _ E); discriminate); fail).
  - assert (G : nth_error (upd (s_thr s) w (LWoken x)) u = Some (KJoin j)).
    { apply (U _ (PUnl x k)); [sides; exact E|discriminate]. }
    left. rewrite upd_nth_error in G. destruct (Nat.eqb u w); [|exact G].
    destruct (w <? length (s_thr s)); [discriminate G|discriminate G].
  - assert (G : nth_error (wake_all I_ (s_thr s)) u = Some (KJoin j)) by (apply (U _ _ E); discriminate).
    left. rewrite wake_all_nth in G. destruct (nth_error (s_thr s) u) as [q|]; [|discriminate G].
    cbn [option_map] in G. destruct (waits I_ q); [discriminate G|exact G].
  - destruct (Nat.eq_dec j 0) as [->|Nj]; [right; left; reflexivity|].
    assert (G : nth_error (wake_all O_ (s_thr s)) u = Some (KJoin j)) by (apply (U _ _ E); congruence).
    left. rewrite wake_all_nth in G. destruct (nth_error (s_thr s) u) as [q|]; [|discriminate G].
    cbn [option_map] in G. destruct (waits O_ q); [discriminate G|exact G].
  - destruct (Nat.eq_dec j (S j0)) as [->|Nj].
    + destruct (Nat.eq_dec u t) as [->|Nu].
      * right; right. exists j0. split; [reflexivity|]. split; [exact Hp|]. eexists; exact Hw.
      * left. cbn [goto set_thr s_thr] in E. rewrite upd_nth_error in E.
        destruct (Nat.eqb_spec u t); [contradiction|exact E].
    + left. apply (U _ _ E). congruence.
Qed.

Lemma join_end : forall c t ch s s', step c t ch s = Some s' -> In EKilled (s_log s') ->
  In EKilled (s_log s) \/ nth_error (s_thr s) t = Some (KJoin (2 * s_n s)).
Proof.
  intros c t ch s s' H.
  step_case t H; clear T.
  all: sides; intros E; try (left; exact E).
  all: repeat (apply in_app_or in E as [E|[E|[]]]; try discriminate E).
  all: try (left; exact E).
  all: right; apply Nat.eqb_eq in Hb; subst j; reflexivity.
Qed.

Lemma join_step : forall c t ch s s', step c t ch s = Some s' -> join_inv s -> join_inv s'.
Proof.
  intros c t ch s s' H [A B]. destruct (n_step _ _ _ _ _ H) as [N _]. split.
  - intros u j Hu i Hi. rewrite N. apply (gone_step _ _ _ _ _ _ H).
    destruct (join_new _ _ _ _ _ _ _ H Hu) as [E|[->|(i' & -> & E & G)]].
    + exact (A _ _ E _ Hi).
    + lia.
    + destruct (Nat.eq_dec i i') as [->|Ni]; [exact G|]. apply (A _ _ E). lia.
  - intros E i Hi. rewrite N in *. apply (gone_step _ _ _ _ _ _ H).
    destruct (join_end _ _ _ _ _ H E) as [G|G].
    + exact (B G _ Hi).
    + exact (A _ _ G _ Hi).
Qed.

Lemma join_start : forall n m, join_inv (start n m).
Proof.
  intros n m. split; [|intros []].
  intros t j H. exfalso. apply nth_error_In in H. cbn [start s_thr] in H.
  apply in_app_or in H as [H|H]; [|apply in_app_or in H as [H|H]]; apply repeat_spec in H; discriminate.
Qed.

Lemma join_run : forall c l s s', run c l s = Some s' -> join_inv s -> join_inv s'.
Proof.
  intros c l; induction l as [|[t ch] r IH]; intros s s' H V; cbn [run] in H.
  - assert (s = s') by congruence. subst. exact V.
  - destruct (step c t ch s) as [s1|] eqn:E; [|discriminate].
    exact (IH _ _ H (join_step _ _ _ _ _ E V)).
Qed.

Lemma joined_all : forall n t, t < 2 * n -> exists i, i < 2 * n /\ joined n i = t.
Proof.
  intros n t H. destruct (Nat.lt_ge_cases t n) as [L|L].
  - exists (2 * t). split; [lia|]. unfold joined.
    assert (E : Nat.even (2 * t) = true) by (apply Nat.even_spec; exists t; reflexivity).
    rewrite E. apply Nat.div2_double.
  - exists (S (2 * (t - n))). split; [lia|]. unfold joined.
    assert (E : Nat.even (S (2 * (t - n))) = false).
    { rewrite Nat.even_succ, <- Nat.negb_even.
      assert (E : Nat.even (2 * (t - n)) = true) by (apply Nat.even_spec; exists (t - n); reflexivity).
      rewrite E. reflexivity. }
    rewrite E, Nat.div2_succ_double. lia.
Qed.

Lemma gone_role : forall s x t, inv s -> gone s t -> pool_thread x s t ->
  nth_error (s_thr s) t = Some (LDone x).
Proof.
  intros s x t V [y D] P. destruct (v_role _ V) as [_ R]. destruct (R _ _ D) as [Ro _].
  cbn in Ro. unfold role_at in Ro. destruct x; cbn in P.
  - destruct (Nat.ltb_spec t (s_n s)); [congruence|lia].
  - destruct (Nat.ltb_spec t (s_n s)); [lia|]. destruct (Nat.ltb_spec t (2 * s_n s)); [congruence|lia].
Qed.

(** ** C38 *)
(** zt_threadpool_kill returns only once every pool thread has exited. *)
Theorem C38_kill_returns_last : forall c s, reachable c s -> In EKilled (s_log s) ->
  forall x t, pool_thread x s t -> nth_error (s_thr s) t = Some (LDone x).
Proof.
  intros c s Re K x t P. pose proof (reachable_inv _ _ Re) as V.
  destruct Re as (n & m & l & H).
  destruct (join_run _ _ _ _ H (join_start n m)) as [_ J].
  assert (T : t < 2 * s_n s) by (destruct x; cbn in P; lia).
  destruct (joined_all _ _ T) as (i & Hi & Ei).
  pose proof (J K i Hi) as G. rewrite Ei in G. exact (gone_role _ _ _ V G P).
Qed.
Print Assumptions C38_kill_returns_last.

(** A pool thread exits only when its queue is empty: everything put before was
    taken before. *)
Theorem C38_drain_before_exit : forall c s a b t x, reachable c s ->
  s_log s = a ++ EExit t x :: b -> puts x a = takes x a.
Proof. intros c s a b t x H E. exact (v_drain _ (reachable_inv _ _ H) _ _ _ _ E). Qed.
Print Assumptions C38_drain_before_exit.

(** Termination: if no broadcast of the shutdown hits its side while a thread of
    that side is between its look at the flag and its wait, then whatever the
    schedule, once nothing can move any more every pool thread has exited and
    zt_threadpool_kill has returned.  (That the pool does stop moving is
    [C38_comes_to_rest].) *)
Lemma in_nk : forall l, nk l <> 0 -> In EKilled l.
Proof.
  induction l as [|ev l IH]; intros H; [exfalso; apply H; reflexivity|].
  unfold nk in H. cbn [flat_map] in H. destruct ev; cbn [app] in H; try (right; apply IH; exact H).
  left. reflexivity.
Qed.

Theorem C38_shutdown_completes : forall c n m l s,
  run c l (start n m) = Some s -> calm c l (start n m) -> s_shut s = true -> at_rest c s ->
  In EKilled (s_log s) /\
  forall x t, pool_thread x s t -> nth_error (s_thr s) t = Some (LDone x).
Proof.
  intros c n m l s H Cm Sh A.
  assert (Re : reachable c s) by (exists n, m, l; exact H).
  pose proof (reachable_inv _ _ Re) as V.
  pose proof (calm_run _ _ _ _ H Cm (inv_start n m) (calm_start n m)) as Ci.
  destruct (v_kill _ V) as (K1 & K2 & K3 & K4 & K5).
  rewrite (rest_sums c s at_set V A) in K4; try (intros; reflexivity).
  rewrite (rest_sums c s at_bi V A) in K3; try (intros; reflexivity).
  rewrite (rest_sums c s at_bo V A) in K2; try (intros; reflexivity).
  rewrite Sh in K4. cbn [b2n] in K4.
  assert (D : forall x t, pool_thread x s t -> nth_error (s_thr s) t = Some (LDone x)).
  { intros x t P. destruct (rest_pool c s x t V A P) as [W|D]; [exfalso|exact D].
    pose proof (tot_ge (asleep x) _ _ _ W) as G. unfold asleep at 1 in G. cbn in G.
    rewrite side_eqb_refl in G. cbn in G.
    assert (Nb : nb x (s_log s) <> 0) by (destruct x; lia).
    pose proof (Ci x Nb). lia. }
  split; [|exact D].
  assert (J : tot at_join (s_thr s) = 0).
  { apply tot_zero. intros t p Hp. destruct p; try reflexivity. exfalso.
    pose proof (A t Go eq_refl) as G. unfold step in G. rewrite Hp in G.
    destruct (Nat.eqb_spec j (2 * s_n s)) as [E|E]; [discriminate G|].
    destruct (v_role _ V) as [_ R]. destruct (R _ _ Hp) as [_ Sj]. cbn in Sj.
    assert (Lt : joined (s_n s) j < 2 * s_n s).
    { unfold joined. pose proof (Nat.div2_odd j) as Dj. rewrite <- Nat.negb_even in Dj.
      destruct (Nat.even j); cbn [negb Nat.b2n] in Dj; lia. }
    assert (Ex : exists x, nth_error (s_thr s) (joined (s_n s) j) = Some (LDone x)).
    { destruct (Nat.lt_ge_cases (joined (s_n s) j) (s_n s)).
      - exists I_. apply D. cbn. lia.
      - exists O_. apply D. cbn. lia. }
    destruct Ex as [x Ex]. rewrite Ex in G. discriminate G. }
  apply in_nk. lia.
Qed.
Print Assumptions C38_shutdown_completes.

Theorem C38_comes_to_rest : forall c s, reachable c s -> s_shut s = true ->
  forall l s', run c l s = Some s' ->
  Forall (fun m => internal (snd m) || spurious (snd m) = true) l ->
  count_moves internal l <= budget s + 5 * count_moves spurious l.
Proof. intros c s H _ l s' R F. exact (C37_comes_to_rest c s H l s' R F). Qed.
Print Assumptions C38_comes_to_rest.

(** ** Jobs accepted before the shutdown are finished before it returns *)
Definition nkill (l : list event) : nat :=
  length (flat_map (fun ev => match ev with EKill => [tt] | _ => [] end) l).

Definition exit_inv (s : st) : Prop :=
  nkill (s_log s) = b2n (s_kill s) /\
  (forall t x, nth_error (s_thr s) t = Some (LDone x) -> In (EExit t x) (s_log s)) /\
  (forall a b t x, s_log s = a ++ EExit t x :: b -> nkill a <> 0).

Lemma nkill_app : forall a b, nkill (a ++ b) = nkill a + nkill b.
Proof. intros. unfold nkill. rewrite flat_map_app, app_length. reflexivity. Qed.


Lemma role_holding : forall p, role_of p <> RPool I_ -> holding I_ p = [].
Proof.
  intros p H. destruct p; try reflexivity; cbn in *; destruct x; try reflexivity; exfalso; apply H; reflexivity.
Qed.

Lemma nkill_step : forall c t ch s s', step c t ch s = Some s' -> kill_inv s ->
  nkill (s_log s) = b2n (s_kill s) -> nkill (s_log s') = b2n (s_kill s').
Proof.
  intros c t ch s s' H (_ & _ & _ & K & _) E. unfold nkill in *.
  step_case t H.
  all: sides; rewrite ?flat_map_app, ?app_length; cbn [flat_map app length s_kill]; rewrite ?Nat.add_0_r; try exact E.
  all: clear T; try (rewrite Hb; exact E).
  all: pose proof (tot_ge at_set _ _ _ Hp) as G; cbn in G.
  all: destruct (s_kill s), (s_shut s); cbn in *; lia.
Qed.

Lemma exit_new : forall c t ch s s' u x, step c t ch s = Some s' ->
  nth_error (s_thr s') u = Some (LDone x) ->
  nth_error (s_thr s) u = Some (LDone x) \/ s_log s' = s_log s ++ [EExit u x].
Proof.
  intros c t ch s s' u x H.
  assert (U : forall l p, nth_error (upd l t p) u = Some (LDone x) -> (forall y, p <> LDone y) ->
     nth_error l u = Some (LDone x)).
  { intros l p E Np. rewrite upd_nth_error in E. destruct (Nat.eqb u t); [|exact E].
    destruct (t <? length l); [|discriminate]. exfalso. injection E as E. exact (Np _ E). }
  step_case t H; clear T; intros E.
  all: try (sides; (left; apply (U _ _ E); discriminate); fail).
  - destruct (Nat.eq_dec u t) as [->|Nu].
    + right. cbn [emit goto set_thr s_thr] in E. rewrite (nth_same _ t (LExit x0)) in E.
      * injection E as <-. sides; reflexivity.
      * sides; exact Hp.
    + left. cbn [emit goto set_thr s_thr] in E. rewrite upd_nth_error in E.
      destruct (Nat.eqb_spec u t); [contradiction|]. sides; exact E.
  - assert (G : nth_error (upd (s_thr s) w (LWoken x0)) u = Some (LDone x)).
    { apply (U _ (PUnl x0 k)); [sides; exact E|discriminate]. }
    left. rewrite upd_nth_error in G. destruct (Nat.eqb u w); [|exact G].
    destruct (w <? length (s_thr s)); [discriminate G|discriminate G].
  - assert (G : nth_error (wake_all I_ (s_thr s)) u = Some (LDone x)) by (apply (U _ _ E); discriminate).
    left. rewrite wake_all_nth in G. destruct (nth_error (s_thr s) u) as [q|]; [|discriminate G].
    cbn [option_map] in G. destruct (waits I_ q); [discriminate G|exact G].
  - assert (G : nth_error (wake_all O_ (s_thr s)) u = Some (LDone x)) by (apply (U _ _ E); discriminate).
    left. rewrite wake_all_nth in G. destruct (nth_error (s_thr s) u) as [q|]; [|discriminate G].
    cbn [option_map] in G. destruct (waits O_ q); [discriminate G|exact G].
Qed.

Lemma log_grows : forall c t ch s s', step c t ch s = Some s' ->
  exists new, s_log s' = s_log s ++ new /\
  ((forall u x, ~ In (EExit u x) new) \/
   exists u x, new = [EExit u x] /\ nth_error (s_thr s) u = Some (LExit x)).
Proof.
  intros c t ch s s' H. step_case t H; clear T.
  all: sides.
  all: rewrite <- ?app_assoc; cbn [app].
  all: try (exists []; split; [symmetry; apply app_nil_r|left; intros ? ? []]; fail).
  all: eexists; split; [reflexivity|].
  all: try (left; cbn; intuition discriminate).
  all: right; eexists; eexists; split; [reflexivity|exact Hp].
Qed.

Lemma app_cut : forall {A} (l new a b : list A) v, l ++ new = a ++ v :: b ->
  (exists b1, l = a ++ v :: b1) \/ (exists n1 n2, new = n1 ++ v :: n2 /\ a = l ++ n1).
Proof.
  intros A l; induction l as [|h l IH]; intros new a b v E; cbn [app] in E.
  - right. exists a, b. split; [exact E|reflexivity].
  - destruct a as [|h2 a]; cbn [app] in E.
    + left. exists l. assert (h = v) by congruence. subst. reflexivity.
    + assert (h = h2) by congruence. subst h2. assert (E2 : l ++ new = a ++ v :: b) by congruence.
      destruct (IH _ _ _ _ E2) as [[b1 ->]|(n1 & n2 & -> & ->)].
      * left. exists b1. reflexivity.
      * right. exists n1, n2. split; reflexivity.
Qed.

Lemma exit_step : forall c t ch s s', step c t ch s = Some s' -> kill_inv s -> exit_inv s -> exit_inv s'.
Proof.
  intros c t ch s s' H K (A & B & C). split; [|split].
  - exact (nkill_step _ _ _ _ _ H K A).
  - intros u x D. destruct (log_grows _ _ _ _ _ H) as (new & L & _).
    destruct (exit_new _ _ _ _ _ _ _ H D) as [E|E].
    + rewrite L. apply in_or_app. left. exact (B _ _ E).
    + rewrite E. apply in_or_app. right. left. reflexivity.
  - intros a b u x E. destruct (log_grows _ _ _ _ _ H) as (new & L & N). rewrite L in E.
    destruct (app_cut _ _ _ _ _ E) as [[b1 E1]|(n1 & n2 & E1 & E2)].
    + exact (C _ _ _ _ E1).
    + destruct N as [N|(u' & x' & N & Hx)].
      * exfalso. apply (N u x). rewrite E1. apply in_elt.
      * rewrite N in E1. destruct n1 as [|? n1]; [|destruct n1; discriminate E1].
        rewrite app_nil_r in E2. subst a. rewrite A.
        destruct K as (_ & _ & _ & _ & K). rewrite K; [cbn; lia|].
        pose proof (tot_ge leaving _ _ _ Hx) as G. cbn in G. lia.
Qed.

Lemma exit_start : forall n m, exit_inv (start n m).
Proof.
  intros n m. split; [reflexivity|split].
  - intros t x H. exfalso. apply nth_error_In in H. cbn [start s_thr] in H.
    apply in_app_or in H as [H|H]; [|apply in_app_or in H as [H|H]]; apply repeat_spec in H; discriminate.
  - intros a b t x H. destruct a; discriminate H.
Qed.

Lemma exit_run : forall c l s s', run c l s = Some s' -> inv s -> exit_inv s -> exit_inv s'.
Proof.
  intros c l; induction l as [|[t ch] r IH]; intros s s' H V X; cbn [run] in H.
  - assert (s = s') by congruence. subst. exact X.
  - destruct (step c t ch s) as [s1|] eqn:E; [|discriminate].
    exact (IH _ _ H (inv_step _ _ _ _ _ E V) (exit_step _ _ _ _ _ E (v_kill _ V) X)).
Qed.

(** Every job put in the input queue before the shutdown flag was set has been
    handed to a worker, which returned, by the time zt_threadpool_kill returns
    (whether or not the schedule was calm). *)
Theorem C38_accepted_jobs_are_finished : forall c s a b e, reachable c s ->
  c_iw c = true -> 0 < s_n s -> In EKilled (s_log s) -> s_log s = a ++ EKill :: b ->
  In e (puts I_ a) -> In e (calls I_ (s_log s)) /\ In e (returns I_ (s_log s)).
Proof.
  intros c s a b e Re W Np K E Pe. pose proof (reachable_inv _ _ Re) as V.
  pose proof (C38_kill_returns_last c s Re K) as D.
  assert (Hd : forall g, (forall p, role_of p <> RPool I_ -> g p = 0) -> g (LDone I_) = 0 -> tot g (s_thr s) = 0).
  { intros g G1 G2. apply tot_zero. intros t p Hp. destruct (v_role _ V) as [_ R].
    destruct (R _ _ Hp) as [Ro _]. unfold role_at in Ro.
    destruct (Nat.ltb_spec t (s_n s)) as [Lt|Lt].
    - rewrite (D I_ t Lt) in Hp. injection Hp as <-. exact G2.
    - apply G1. rewrite Ro. destruct (t <? 2 * s_n s); discriminate. }
  destruct (C37_exactly_once c s Re) as (_ & _ & _ & Dr).
  assert (Re' := Re). destruct Re' as (n & m & l & H).
  destruct (exit_run _ _ _ _ H (inv_start n m) (exit_start n m)) as (X1 & X2 & X3).
  assert (Ex : In (EExit 0 I_) (s_log s)).
  { apply X2. apply D. cbn. exact Np. }
  apply in_split in Ex as (a' & b' & E').
  pose proof (X3 _ _ _ _ E') as N1. pose proof (v_drain _ V _ _ _ _ E') as Q.
  assert (Pre : exists a2, a' = a ++ a2).
  { rewrite E in E'. destruct (app_cut _ _ _ _ _ (eq_sym E')) as [[b1 C1]|(n1 & n2 & C1 & C2)].
    - exists (EKill :: b1). exact C1.
    - exfalso. assert (L : nkill (s_log s) >= 2).
      { rewrite E. rewrite C2. rewrite <- app_assoc, nkill_app.
        change (n1 ++ EKill :: b) with (n1 ++ [EKill] ++ b). rewrite !nkill_app.
        change (nkill [EKill]) with 1. lia. }
      rewrite X1 in L. destruct (s_kill s); cbn in L; lia. }
  destruct Pre as [a2 ->].
  assert (Te : In e (takes I_ (s_log s))).
  { rewrite E'. unfold takes. rewrite flat_map_app. apply in_or_app. left.
    change (In e (takes I_ (a ++ a2))). rewrite <- Q. unfold puts. rewrite flat_map_app.
    apply in_or_app. left. exact Pe. }
  rewrite cnt_in in Te. rewrite (v_taken _ V I_ e), (Dr I_ W) in Te. cbn [fetched fetch] in Te.
  rewrite (Hd (fun p => cnt (holding I_ p) e)) in Te.
  2:{ intros p Rp. rewrite role_holding by exact Rp. reflexivity. }
  2:{ reflexivity. }
  rewrite (Hd (fun _ => cnt [] e)) in Te; [|reflexivity|reflexivity].
  cbn [cnt count_occ] in Te.
  assert (Ce : In e (calls I_ (s_log s))) by (rewrite cnt_in; lia).
  split; [exact Ce|].
  rewrite cnt_in in *. rewrite (v_return _ V I_ e) in Ce.
  rewrite (Hd (fun p => cnt (inside I_ p) e)) in Ce; [lia| |reflexivity].
  intros p Rp. destruct p; try reflexivity. destruct x; [exfalso; apply Rp; reflexivity|reflexivity].
Qed.
Print Assumptions C38_accepted_jobs_are_finished.

(** ** What does not hold *)
Definition restb (s : st) : bool :=
  forallb (fun p => match p with
    | LWait _ | LDone _ | Idle => true
    | KJoin j => negb (Nat.eqb j (2 * s_n s)) &&
        match nth_error (s_thr s) (joined (s_n s) j) with Some (LDone _) => false | _ => true end
    | _ => false end) (s_thr s).

Lemma restb_ok : forall c s, restb s = true -> at_rest c s.
Proof.
  intros c s B t ch In. unfold step. destruct (nth_error (s_thr s) t) as [p|] eqn:Hp; [|reflexivity].
  unfold restb in B. rewrite forallb_forall in B. specialize (B p (nth_error_In _ _ Hp)).
  destruct p; try discriminate B; destruct ch; try discriminate In; try reflexivity.
  apply andb_true_iff in B as [B1 B2]. apply negb_true_iff in B1. rewrite B1.
  destruct (nth_error (s_thr s) (joined (s_n s) j)) as [q|]; [|reflexivity].
  destruct q; try reflexivity. discriminate B2.
Qed.

Fixpoint calmb (c : cfg) (l : list (nat * choice)) (s : st) : bool :=
  match l with
  | [] => true
  | (t, ch) :: r =>
      match nth_error (s_thr s) t with Some (KBc x) => negb (caught_napping x s) | _ => true end &&
      match step c t ch s with Some s1 => calmb c r s1 | None => true end
  end.

Lemma calmb_ok : forall c l s, calmb c l s = true -> calm c l s.
Proof.
  intros c l; induction l as [|[t ch] r IH]; intros s H; cbn [calmb calm] in *; [exact Logic.I|].
  apply andb_true_iff in H as [A B]. split.
  - intros x Hx. rewrite Hx in A. apply negb_true_iff in A. exact A.
  - destruct (step c t ch s); [exact (IH _ B)|exact Logic.I].
Qed.

Definition all_cb : cfg := mkcfg true true true.
Definition go (t k : nat) : list (nat * choice) := repeat (t, Go) k.

(** Lost wake-up: the input thread looks at the flag, the shutdown sets it and
    broadcasts, then the thread goes to sleep; zt_threadpool_kill waits for it
    for ever. *)
Definition hang : list (nat * choice) :=
  go 0 2 ++ [(2, CallKill)] ++ go 2 3 ++ go 0 1 ++ go 1 3.

Theorem C38_shutdown_terminates_refuted : exists c n m l s,
  run c l (start n m) = Some s /\ s_shut s = true /\ at_rest c s /\
  ~ In EKilled (s_log s) /\ nth_error (s_thr s) 0 = Some (LWait I_).
Proof.
  exists all_cb, 1, 1, hang.
  destruct (run all_cb hang (start 1 1)) as [s|] eqn:E; [|vm_compute in E; discriminate].
  assert (Es : Some s = run all_cb hang (start 1 1)) by (symmetry; exact E).
  vm_compute in Es. injection Es as ->. eexists. split; [reflexivity|].
  split; [reflexivity|]. split; [apply restb_ok; reflexivity|]. split; [|reflexivity].
  cbn. intuition discriminate.
Qed.
Print Assumptions C38_shutdown_terminates_refuted.

(** An output produced while the pool is being shut down can stay in the output
    queue for ever: the output threads may all exit before the last job ends. *)
Definition left_over : list (nat * choice) :=
  [(2, CallInsert I_ 7%Z)] ++ go 2 4 ++ go 0 4 ++
  [(2, CallKill)] ++ go 2 3 ++ go 1 3 ++ [(0, Ret (Some 8%Z))] ++ go 0 5 ++ go 0 3 ++ go 2 3.

Theorem C38_outputs_delivered_refuted : exists c n m l s,
  run c l (start n m) = Some s /\ calm c l (start n m) /\
  In EKilled (s_log s) /\ at_rest c s /\
  produced (s_log s) <> [] /\ calls O_ (s_log s) = [] /\ queue O_ s <> [].
Proof.
  exists all_cb, 1, 1, left_over.
  destruct (run all_cb left_over (start 1 1)) as [s|] eqn:E; [|vm_compute in E; discriminate].
  assert (Es : Some s = run all_cb left_over (start 1 1)) by (symmetry; exact E).
  vm_compute in Es. injection Es as ->. eexists. split; [reflexivity|].
  split; [apply calmb_ok; vm_compute; reflexivity|].
  split; [cbn; tauto|]. split; [apply restb_ok; reflexivity|].
  cbn. split; [discriminate|split; [reflexivity|discriminate]].
Qed.
Print Assumptions C38_outputs_delivered_refuted.

(** ** Examples: the hypotheses are met by real executions *)
(** two jobs, two workers per side, both go to sleep first; 7 yields output 8,
    which an output worker handles; 9 yields none. *)
Definition work : list (nat * choice) :=
  go 0 3 ++ go 2 3 ++ [(4, CallInsert I_ 7%Z)] ++ go 4 2 ++ [(4, Pick 0)] ++ go 4 1 ++
  [(4, CallInsert I_ 9%Z)] ++ go 4 4 ++
  go 0 6 ++ go 1 4 ++ [(1, Ret None)] ++ [(0, Ret (Some 8%Z))] ++ go 0 2 ++ [(0, Pick 2)] ++ go 0 2 ++
  go 0 3 ++ go 1 4 ++ go 2 6 ++ [(2, Ret None)] ++ go 2 4 ++ go 3 3.
Definition quit : list (nat * choice) :=
  [(4, CallKill)] ++ go 4 3 ++ go 0 5 ++ go 1 5 ++ go 2 5 ++ go 3 5 ++ go 4 5.
Definition data (l : list entry) : list Z := map e_data l.

(** at rest after both jobs, not shut down: meets C37_rest_means_done *)
Example pool_works : exists s, run all_cb work (start 2 1) = Some s /\ reachable all_cb s /\
  at_rest all_cb s /\ s_shut s = false /\ 0 < s_n s /\
  data (puts I_ (s_log s)) = [7; 9]%Z /\ data (calls I_ (s_log s)) = [7; 9]%Z /\
  data (puts O_ (s_log s)) = [8]%Z /\ data (calls O_ (s_log s)) = [8]%Z.
Proof.
  destruct (run all_cb work (start 2 1)) as [s|] eqn:E; [|vm_compute in E; discriminate].
  exists s. split; [reflexivity|]. split; [exists 2, 1, work; exact E|].
  assert (Es : Some s = run all_cb work (start 2 1)) by (symmetry; exact E).
  clear E. vm_compute in Es. injection Es as ->.
  split; [apply restb_ok; reflexivity|]. repeat split; cbn; lia || reflexivity.
Qed.

(** and a calm shutdown that completes *)
Example pool_quits : exists s, run all_cb (work ++ quit) (start 2 1) = Some s /\
  calm all_cb (work ++ quit) (start 2 1) /\ s_shut s = true /\ at_rest all_cb s /\
  In EKilled (s_log s).
Proof.
  destruct (run all_cb (work ++ quit) (start 2 1)) as [s|] eqn:E; [|vm_compute in E; discriminate].
  exists s. split; [reflexivity|].
  split; [apply calmb_ok; vm_compute; reflexivity|].
  assert (Es : Some s = run all_cb (work ++ quit) (start 2 1)) by (symmetry; exact E).
  clear E. vm_compute in Es. injection Es as ->.
  split; [reflexivity|]. split; [apply restb_ok; reflexivity|]. cbn. tauto.
Qed.

(** one input thread: two jobs, calls in the order of the puts; the second is
    still queued while the first runs *)
Definition two_jobs : list (nat * choice) :=
  [(2, CallInsert I_ 7%Z)] ++ go 2 4 ++ [(2, CallInsert I_ 9%Z)] ++ go 2 4 ++ go 0 4.

Example pool_in_order : exists s, run all_cb two_jobs (start 1 1) = Some s /\
  data (puts I_ (s_log s)) = [7; 9]%Z /\ data (calls I_ (s_log s)) = [7]%Z /\ data (queue I_ s) = [9]%Z.
Proof.
  destruct (run all_cb two_jobs (start 1 1)) as [s|] eqn:E; [|vm_compute in E; discriminate].
  exists s. split; [reflexivity|].
  assert (Es : Some s = run all_cb two_jobs (start 1 1)) by (symmetry; exact E).
  clear E. vm_compute in Es. injection Es as ->. repeat split; reflexivity.
Qed.

(** a job accepted before the shutdown flag is set, taken after it *)
Definition late_job : list (nat * choice) :=
  [(2, CallInsert I_ 7%Z)] ++ go 2 4 ++ [(2, CallKill)] ++ go 2 3 ++
      go 0 4 ++ [(0, Ret None)] ++ go 0 4 ++ go 1 3 ++ go 2 3.

Example pool_accepted :
  exists s, run all_cb late_job (start 1 1) = Some s /\ 0 < s_n s /\
  In EKilled (s_log s) /\
  s_log s = firstn 1 (s_log s) ++ EKill :: skipn 2 (s_log s) /\
  data (puts I_ (firstn 1 (s_log s))) = [7]%Z.
Proof.
  destruct (run all_cb late_job (start 1 1)) as [s|] eqn:E; [|vm_compute in E; discriminate].
  exists s. split; [reflexivity|].
  assert (Es : Some s = run all_cb late_job (start 1 1)) by (symmetry; exact E).
  clear E. vm_compute in Es. injection Es as ->.
  split; [cbn; lia|]. split; [cbn; tauto|]. split; reflexivity.
Qed.
