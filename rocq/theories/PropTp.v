(** C37, C38: the thread pool (src/libzt/zt_threads.c), for every number of
    threads, every number of clients, every schedule and every behaviour of the
    callbacks.  Vocabulary: TpSpec.v. *)
From Coq Require Import List ZArith Bool Arith Lia Permutation.
From Verif Require Import Prelude TpModel TpSpec TpProofs TpShut.
Import ListNotations.

(** ** Helpers: from counts to lists *)
Lemma perm_counts : forall l1 l2 : list entry, (forall e, cnt l1 e = cnt l2 e) -> Permutation l1 l2.
Proof. intros. apply (Permutation_count_occ entry_dec). assumption. Qed.

Lemma cnt_app : forall a b e, cnt (a ++ b) e = cnt a e + cnt b e.
Proof. intros. apply count_occ_app. Qed.

Lemma cnt_flat : forall f l e, cnt (flat_map f l) e = tot (fun p => cnt (f p) e) l.
Proof. intros. apply count_flat. Qed.

Lemma idc_app : forall a b e, idc (a ++ b) e = idc a e + idc b e.
Proof. intros. unfold idc. rewrite map_app. apply count_occ_app. Qed.

Lemma NoDup_app_remove_r : forall {A} (a b : list A), NoDup (a ++ b) -> NoDup a.
Proof.
  intros A a b; induction a; intros H; [constructor|]. cbn in H. inversion H; subst.
  constructor; [intros X; apply H2; apply in_or_app; left; exact X|auto].
Qed.

Lemma NoDup_app_remove_l : forall {A} (a b : list A), NoDup (a ++ b) -> NoDup b.
Proof. intros A a b; induction a; intros H; [exact H|]. cbn in H. inversion H; subst. auto. Qed.

(** ** C37: order *)
(** In every reachable state the entries put so far, in order, are those taken
    so far, in order, followed by those still queued: strictly first in first
    out, nothing lost, nothing duplicated, nothing invented. *)
Theorem C37_fifo : forall c s x, reachable c s ->
  puts x (s_log s) = takes x (s_log s) ++ queue x s.
Proof. intros c s x H. exact (v_fifo _ (reachable_inv _ _ H) x). Qed.
Print Assumptions C37_fifo.

(** ** C37: exactly once *)
Lemma drops_step : forall c t ch s s' x, step c t ch s = Some s' -> has_worker c x = true ->
  drops x (s_log s) = [] -> drops x (s_log s') = [].
Proof.
  intros c t ch s s' x H W D. step_case t H; clear T.
  all: try (sides; logs; exact D).
  all: sides; cbn in *; try congruence; logs; exact D.
Qed.

Lemma drops_run : forall c l s s' x, run c l s = Some s' -> has_worker c x = true ->
  drops x (s_log s) = [] -> drops x (s_log s') = [].
Proof.
  intros c l; induction l as [|[t ch] r IH]; intros s s' x H W D; cbn [run] in H.
  - assert (s = s') by congruence. subst. exact D.
  - destruct (step c t ch s) as [s1|] eqn:E; [|discriminate].
    exact (IH _ _ _ H W (drops_step _ _ _ _ _ _ E W D)).
Qed.

(** Every entry ever put is a distinct node, and is right now in exactly one
    place: queued, held by one thread that has not handed it over, handed over
    to a worker once, or (outputs only) on its way out of, or already returned
    by, zt_threadpool_get_oput once.  Entries are only thrown away when no
    worker callback was set for that side. *)
Theorem C37_exactly_once : forall c s, reachable c s ->
  NoDup (map e_id (puts I_ (s_log s) ++ puts O_ (s_log s))) /\
  Permutation (puts I_ (s_log s))
    (queue I_ s ++ held I_ s ++ calls I_ (s_log s) ++ drops I_ (s_log s)) /\
  Permutation (puts O_ (s_log s))
    (queue O_ s ++ held O_ s ++ calls O_ (s_log s) ++ drops O_ (s_log s)
     ++ flat_map fetching (s_thr s) ++ gets (s_log s)) /\
  (forall x, has_worker c x = true -> drops x (s_log s) = []).
Proof.
  intros c s H. pose proof (reachable_inv _ _ H) as V. split; [|split; [|split]].
  - apply (NoDup_count_occ Nat.eq_dec). intros i. pose proof (v_ids _ V i) as D.
    change (idc (puts I_ (s_log s) ++ puts O_ (s_log s)) i <= 1). rewrite idc_app.
    destruct (i <? s_next s); lia.
  - apply perm_counts. intros e. rewrite (v_fifo _ V I_), !cnt_app. unfold held.
    rewrite cnt_flat, (v_taken _ V I_ e). cbn [fetched fetch].
    assert (Z : tot (fun _ => cnt [] e) (s_thr s) = 0) by (apply tot_zero; reflexivity).
    rewrite Z. cbn. lia.
  - apply perm_counts. intros e. rewrite (v_fifo _ V O_), !cnt_app. unfold held.
    rewrite !cnt_flat, (v_taken _ V O_ e). cbn [fetched fetch]. lia.
  - intros x W. destruct H as (n & m & l & R). exact (drops_run _ _ _ _ x R W eq_refl).
Qed.
Print Assumptions C37_exactly_once.

(** In particular no job is handed to two workers, and no output is delivered
    twice, be it to two output workers, to an output worker and a caller of
    zt_threadpool_get_oput, or to two callers. *)
Theorem C37_never_twice : forall c s, reachable c s ->
  NoDup (map e_id (calls I_ (s_log s))) /\
  NoDup (map e_id (calls O_ (s_log s) ++ gets (s_log s))).
Proof.
  intros c s H. destruct (C37_exactly_once c s H) as (N & PI & PO & _).
  rewrite map_app in N.
  assert (NI : NoDup (map e_id (puts I_ (s_log s)))) by (eapply NoDup_app_remove_r; exact N).
  assert (NO : NoDup (map e_id (puts O_ (s_log s)))) by (eapply NoDup_app_remove_l; exact N).
  split.
  - apply (Permutation_NoDup (Permutation_map e_id PI)) in NI.
    rewrite !map_app in NI. apply NoDup_app_remove_l, NoDup_app_remove_l, NoDup_app_remove_r in NI.
    exact NI.
  - apply (Permutation_NoDup (Permutation_map e_id PO)) in NO.
    rewrite !map_app in NO. apply NoDup_app_remove_l, NoDup_app_remove_l in NO.
    rewrite map_app.
    apply (Permutation_NoDup (l' := (map e_id (calls O_ (s_log s)) ++ map e_id (gets (s_log s)))
       ++ (map e_id (drops O_ (s_log s)) ++ map e_id (flat_map fetching (s_thr s))))) in NO.
    + apply NoDup_app_remove_r in NO. exact NO.
    + rewrite <- !app_assoc. apply Permutation_app_head.
      rewrite (app_assoc (map e_id (drops O_ (s_log s)))). apply Permutation_app_comm.
Qed.
Print Assumptions C37_never_twice.

(** What an input worker returns (if not NULL) enters the output queue exactly
    once, carrying that value, as the output of that job. *)
Theorem C37_outputs : forall c s, reachable c s ->
  Permutation (produced (s_log s)) (published (s_log s) ++ flat_map publishing (s_thr s)).
Proof.
  intros c s H. pose proof (reachable_inv _ _ H) as V.
  apply (Permutation_count_occ job_dec). intros j. rewrite count_occ_app, count_flat.
  exact (v_output _ V j).
Qed.
Print Assumptions C37_outputs.

(** The queue of a side is only touched by one thread at a time. *)
Theorem C37_mutual_exclusion : forall c s x t u p q, reachable c s ->
  nth_error (s_thr s) t = Some p -> nth_error (s_thr s) u = Some q ->
  in_critical x p = true -> in_critical x q = true -> t = u.
Proof.
  intros c s x t u p q H Hp Hq Cp Cq. pose proof (v_mutex _ (reachable_inv _ _ H) x) as M.
  destruct (Nat.eq_dec t u) as [E|E]; [exact E|exfalso].
  pose proof (tot_two (crit x) _ _ _ _ _ E Hp Hq) as G. unfold crit in G at 1 2.
  rewrite Cp, Cq in G. cbn in G. destruct (h_owner (hf x s)); lia.
Qed.
Print Assumptions C37_mutual_exclusion.

(** Memory: an entry is freed at most once, and neither a queued entry nor one
    whose callback is about to run, runs, or publishes has been freed. *)
Lemma cnt_in : forall l e, In e l <-> cnt l e >= 1.
Proof. intros. unfold cnt. rewrite (count_occ_In entry_dec). lia. Qed.

Theorem C37_memory_safe : forall c s, reachable c s ->
  NoDup (frees (s_log s)) /\
  (forall x e, In e (queue x s) -> ~ In e (frees (s_log s))) /\
  (forall t p e, nth_error (s_thr s) t = Some p -> In e (owning p) -> ~ In e (frees (s_log s))).
Proof.
  intros c s H. pose proof (reachable_inv _ _ H) as V.
  assert (U : forall e, cnt (takes I_ (s_log s)) e + cnt (queue I_ s) e
              + cnt (takes O_ (s_log s)) e + cnt (queue O_ s) e <= 1).
  { intros e. destruct (C37_exactly_once c s H) as (N & _).
    apply NoDup_map_inv in N. rewrite (NoDup_count_occ entry_dec) in N. specialize (N e).
    change (cnt (puts I_ (s_log s) ++ puts O_ (s_log s)) e <= 1) in N.
    rewrite (v_fifo _ V I_), (v_fifo _ V O_), !cnt_app in N. lia. }
  split; [|split].
  - apply (NoDup_count_occ entry_dec). intros e. change (cnt (frees (s_log s)) e <= 1).
    pose proof (U e). pose proof (v_free _ V e). lia.
  - intros x e Q F. rewrite cnt_in in Q, F. pose proof (U e). pose proof (v_free _ V e).
    destruct x; lia.
  - intros t p e Hp O F. rewrite cnt_in in O, F. pose proof (U e). pose proof (v_free _ V e).
    pose proof (tot_ge (fun p => cnt (owning p) e) _ _ _ Hp) as G. cbn beta in G. lia.
Qed.
Print Assumptions C37_memory_safe.

(** ** C37: nothing is forgotten *)
(** Progress: whatever the schedule, once the clients stop calling, the pool
    comes to rest: the number of steps is bounded by a number that depends on
    the state only, plus five for each spurious wake-up. *)
Theorem C37_comes_to_rest : forall c s, reachable c s ->
  forall l s', run c l s = Some s' ->
  Forall (fun m => internal (snd m) || spurious (snd m) = true) l ->
  count_moves internal l <= budget s + 5 * count_moves spurious l.
Proof.
  intros c s H l s' R F. pose proof (budget_run _ _ _ _ R (reachable_inv _ _ H) F). lia.
Qed.
Print Assumptions C37_comes_to_rest.

(** ... and as long as the pool is not being shut down, at rest every job was
    handed to a worker, which returned, every output produced was published and
    was handed on. (No wake-up is lost.) *)
Theorem C37_rest_means_done : forall c s, reachable c s -> at_rest c s ->
  s_shut s = false -> 0 < s_n s -> c_iw c = true -> c_ow c = true ->
  queue I_ s = [] /\ queue O_ s = [] /\
  Permutation (puts I_ (s_log s)) (calls I_ (s_log s)) /\
  Permutation (puts I_ (s_log s)) (returns I_ (s_log s)) /\
  Permutation (produced (s_log s)) (published (s_log s)) /\
  Permutation (puts O_ (s_log s)) (calls O_ (s_log s) ++ gets (s_log s)).
Proof.
  intros c s H A Sh Np Wi Wo. pose proof (reachable_inv _ _ H) as V.
  assert (K : s_kill s = false).
  { destruct (v_kill _ V) as (_ & _ & _ & F & _). rewrite Sh in F. destruct (s_kill s); [cbn in F; lia|reflexivity]. }
  assert (Q : forall x, queue x s = []).
  { intros x. destruct (queue x s) as [|e r] eqn:E; [reflexivity|exfalso].
    assert (Ne : queue x s <> []) by (rewrite E; discriminate).
    pose proof (rest_queue c s x V A Ne) as Zs.
    assert (P : exists t, pool_thread x s t).
    { destruct x; [exists 0|exists (s_n s)]; cbn; lia. }
    destruct P as [t P]. destruct (rest_pool c s x t V A P) as [W|D].
    - pose proof (tot_ge (asleep x) _ _ _ W) as G. unfold asleep at 1 in G. cbn in G.
      rewrite side_eqb_refl in G. cbn in G. lia.
    - destruct (v_kill _ V) as (_ & _ & _ & _ & F).
      pose proof (tot_ge leaving _ _ _ D) as G. cbn in G. rewrite F in K by lia. discriminate K. }
  destruct (C37_exactly_once c s H) as (_ & PI & PO & D).
  assert (Hh : forall x, held x s = []).
  { intros x. unfold held. destruct (flat_map (holding x) (s_thr s)) as [|e r] eqn:E; [reflexivity|exfalso].
    assert (In e (flat_map (holding x) (s_thr s))) as Hin by (rewrite E; left; reflexivity).
    apply in_flat_map in Hin as (p & Hp & He). apply In_nth_error in Hp as [t Hp].
    pose proof (rest_points _ _ V A _ _ Hp). destruct p; try contradiction; destruct He. }
  assert (Hf : flat_map fetching (s_thr s) = []).
  { destruct (flat_map fetching (s_thr s)) as [|e r] eqn:E; [reflexivity|exfalso].
    assert (In e (flat_map fetching (s_thr s))) as Hin by (rewrite E; left; reflexivity).
    apply in_flat_map in Hin as (p & Hp & He). apply In_nth_error in Hp as [t Hp].
    pose proof (rest_points _ _ V A _ _ Hp). destruct p; try contradiction; destruct He. }
  assert (Hb : flat_map publishing (s_thr s) = []).
  { destruct (flat_map publishing (s_thr s)) as [|e r] eqn:E; [reflexivity|exfalso].
    assert (In e (flat_map publishing (s_thr s))) as Hin by (rewrite E; left; reflexivity).
    apply in_flat_map in Hin as (p & Hp & He). apply In_nth_error in Hp as [t Hp].
    pose proof (rest_points _ _ V A _ _ Hp). destruct p; try contradiction; destruct He. }
  rewrite Q, Hh, (D I_ Wi), app_nil_r in PI. rewrite Q, Hh, (D O_ Wo), Hf in PO.
  cbn [app] in PI, PO.
  split; [apply Q|split; [apply Q|split; [exact PI|split; [|split; [|exact PO]]]]].
  - etransitivity; [exact PI|]. apply perm_counts. intros e. rewrite (v_return _ V I_ e).
    rewrite (rest_sums c s (fun p => cnt (inside I_ p) e) V A); intros; reflexivity || (cbn; lia).
  - pose proof (C37_outputs c s H) as P. rewrite Hb, app_nil_r in P. exact P.
Qed.
Print Assumptions C37_rest_means_done.

(** ** C37: order of processing *)
(** what thread u took from queue x / handed to the worker of x, in order *)
Definition takes_by (u : nat) (x : side) (l : list event) : list entry :=
  flat_map (fun ev => match ev with ETake v y e => if v =? u then only x y e else [] | _ => [] end) l.
Definition calls_by (u : nat) (x : side) (l : list event) : list entry :=
  flat_map (fun ev => match ev with ECall v y e => if v =? u then only x y e else [] | _ => [] end) l.

Lemma nth_same : forall (l : list pc) t p q, nth_error l t = Some p -> nth_error (upd l t q) t = Some q.
Proof.
  intros l t p q H. rewrite upd_nth_error, Nat.eqb_refl.
  destruct (Nat.ltb_spec t (length l)); [reflexivity|].
  apply nth_error_None in H0. congruence.
Qed.

Definition pool_takes (u : nat) (x : side) (p : pc) (l : list event) : Prop :=
  match role_of p with RPool _ => takes_by u x l = calls_by u x l ++ holding x p | RClient => True end.

Ltac plogs := unfold takes_by, calls_by in *; rewrite ?flat_map_app in *;
  cbn [flat_map app] in *; rewrite ?Nat.eqb_refl in *; cbn [only side_eqb] in *;
  rewrite ?app_nil_r in *.

Lemma order_own : forall c t ch s s' x, step c t ch s = Some s' -> has_worker c x = true ->
  (forall p, nth_error (s_thr s) t = Some p -> pool_takes t x p (s_log s)) ->
  forall p, nth_error (s_thr s') t = Some p -> pool_takes t x p (s_log s').
Proof.
  intros c t ch s s' x H W Inv.
  step_case t H; clear T.
  all: specialize (Inv _ eq_refl); sides; intros p0; cbn [has_worker] in *; try congruence.
  all: first [ rewrite (nth_same _ _ _ _ Hp)
             | erewrite nth_same by (rewrite wake_all_nth, Hp; reflexivity)
             | erewrite nth_same by (rewrite upd_nth_error; destruct (Nat.eqb_spec t w); [congruence|exact Hp]) ].
  all: intros E0; injection E0 as <-.
  all: unfold pool_takes in *; cbn [role_of] in *; try exact Logic.I.
  all: plogs; cbn [holding only side_eqb] in *; rewrite ?app_nil_r in *; try exact Inv.
  all: try (rewrite Inv; reflexivity).
Qed.

Lemma order_frame : forall c t ch s s' x u, step c t ch s = Some s' -> u <> t ->
  takes_by u x (s_log s') = takes_by u x (s_log s) /\
  calls_by u x (s_log s') = calls_by u x (s_log s) /\
  forall p', nth_error (s_thr s') u = Some p' -> exists p, nth_error (s_thr s) u = Some p /\
    role_of p = role_of p' /\ holding x p = holding x p'.
Proof.
  intros c t ch s s' x u H Ne.
  assert (Nb : (t =? u) = false) by (apply Nat.eqb_neq; congruence).
  step_case t H; clear T.
  all: sides; plogs; rewrite ?Nb; cbn [app]; rewrite ?app_nil_r; cbn [s_log s_thr].
  all: split; [reflexivity|split; [reflexivity|]].
  all: intros p' E; rewrite upd_nth_error in E; destruct (Nat.eqb_spec u t); [congruence|].
  all: try (exists p'; split; [exact E|split; reflexivity]).
  all: first
    [ rewrite wake_all_nth in E; destruct (nth_error (s_thr s) u) as [q|]; [|discriminate];
      cbn [option_map] in E; exists q; split; [reflexivity|];
      match type of E with Some (if waits ?y q then _ else _) = _ => destruct (waits y q) eqn:Wq end;
      [apply waits_spec in Wq; subst q|];
      injection E as <-;
      split; reflexivity
    | rewrite upd_nth_error in E; destruct (Nat.eqb_spec u w) as [->|];
      [destruct (w <? length (s_thr s)); [|discriminate];
       injection E as <-;
       rewrite Hw; eexists; split; [reflexivity|split; reflexivity]
      |exists p'; split; [exact E|split; reflexivity]] ].
Qed.

Lemma order_run : forall c l s s' x, run c l s = Some s' -> has_worker c x = true ->
  (forall t p, nth_error (s_thr s) t = Some p -> pool_takes t x p (s_log s)) ->
  (forall t p, nth_error (s_thr s') t = Some p -> pool_takes t x p (s_log s')).
Proof.
  intros c l; induction l as [|[t ch] r IH]; intros s s' x H W Inv; cbn [run] in H.
  - assert (s = s') by congruence. subst. exact Inv.
  - destruct (step c t ch s) as [s1|] eqn:E; [|discriminate].
    refine (IH _ _ _ H W _). intros u p Hp.
    destruct (Nat.eq_dec u t) as [->|Ne].
    + exact (order_own _ _ _ _ _ _ E W (Inv t) _ Hp).
    + destruct (order_frame _ _ _ _ _ x _ E Ne) as (A & B & C).
      destruct (C _ Hp) as (q & Hq & Rq & Hh). specialize (Inv _ _ Hq). unfold pool_takes in *.
      rewrite <- Rq, A, B, <- Hh. exact Inv.
Qed.

(** Each pool thread hands entries to its worker in the order it took them. *)
Theorem C37_thread_order : forall c s x t, reachable c s -> has_worker c x = true ->
  pool_thread x s t ->
  exists later, takes_by t x (s_log s) = calls_by t x (s_log s) ++ later /\
    forall p, nth_error (s_thr s) t = Some p -> later = holding x p.
Proof.
  intros c s x t H W P. pose proof (reachable_inv _ _ H) as V. destruct (v_role _ V) as [L R].
  destruct H as (n & m & l & H).
  destruct (nth_error (s_thr s) t) as [p|] eqn:Hp.
  2:{ apply nth_error_None in Hp. destruct x; cbn in P; lia. }
  exists (holding x p). split; [|congruence].
  assert (I0 : forall t p, nth_error (s_thr (start n m)) t = Some p -> pool_takes t x p (s_log (start n m))).
  { intros u q Hq. apply nth_error_In in Hq. cbn [start s_thr] in Hq.
    apply in_app_or in Hq as [Hq|Hq]; [|apply in_app_or in Hq as [Hq|Hq]];
      apply repeat_spec in Hq; subst q; unfold pool_takes; cbn; auto. }
  pose proof (order_run _ _ _ _ _ H W I0 _ _ Hp) as O. unfold pool_takes in O.
  destruct (R _ _ Hp) as [Ro _]. unfold role_at in Ro. destruct x; cbn in P.
  - destruct (Nat.ltb_spec t (s_n s)); [|lia]. rewrite Ro in O. exact O.
  - destruct (Nat.ltb_spec t (s_n s)); [lia|]. destruct (Nat.ltb_spec t (2 * s_n s)); [|lia].
    rewrite Ro in O. exact O.
Qed.
Print Assumptions C37_thread_order.

(** with a single input thread, whoever takes or calls is thread 0 *)
Lemma solo_step : forall c t ch s s', step c t ch s = Some s' -> role_inv s -> s_n s = 1 ->
  takes_by 0 I_ (s_log s) = takes I_ (s_log s) /\ calls_by 0 I_ (s_log s) = calls I_ (s_log s) ->
  takes_by 0 I_ (s_log s') = takes I_ (s_log s') /\ calls_by 0 I_ (s_log s') = calls I_ (s_log s').
Proof.
  intros c t ch s s' H [_ R] N [A B].
  assert (Rt : forall p, nth_error (s_thr s) t = Some p -> role_of p = RPool I_ -> t = 0).
  { intros p Hp Rp. destruct (R _ _ Hp) as [Q _]. rewrite N, Rp in Q. unfold role_at in Q.
    destruct (Nat.ltb_spec t 1); [lia|]. destruct (t <? 2 * 1); discriminate Q. }
  step_case t H; clear T.
  all: specialize (Rt _ eq_refl); cbn [role_of] in Rt.
  all: sides; plogs; logs; cbn [s_log] in *; try (split; assumption).
  all: try (rewrite (Rt eq_refl) in *; cbn [Nat.eqb]; split; congruence).
  all: destruct (t =? 0); split; rewrite ?app_nil_r; congruence.
Qed.

Theorem C37_one_thread_in_order : forall c n m l s, run c l (start n m) = Some s -> n = 1 ->
  c_iw c = true ->
  exists later, puts I_ (s_log s) = calls I_ (s_log s) ++ later.
Proof.
  intros c n m l s H -> W.
  assert (Re : reachable c s) by (exists 1, m, l; exact H).
  assert (S0 : takes_by 0 I_ (s_log s) = takes I_ (s_log s) /\ calls_by 0 I_ (s_log s) = calls I_ (s_log s)).
  { revert H. assert (V : inv (start 1 m)) by apply inv_start.
    assert (N : s_n (start 1 m) = 1) by reflexivity.
    assert (Z : takes_by 0 I_ (s_log (start 1 m)) = takes I_ (s_log (start 1 m)) /\
                calls_by 0 I_ (s_log (start 1 m)) = calls I_ (s_log (start 1 m))) by (split; reflexivity).
    clear Re. revert V N Z. generalize (start 1 m). induction l as [|[t ch] r IH]; intros s0 V N Z H; cbn [run] in H.
    - assert (s0 = s) by congruence. subst. exact Z.
    - destruct (step c t ch s0) as [s1|] eqn:E; [|discriminate].
      apply (IH s1); [exact (inv_step _ _ _ _ _ E V)|destruct (n_step _ _ _ _ _ E); congruence| |exact H].
      exact (solo_step _ _ _ _ _ E (v_role _ V) N Z). }
  destruct (n_run _ _ _ _ H) as [Nn _].
  destruct (C37_thread_order c s I_ 0 Re W) as (later & E & _).
  { cbn. rewrite Nn. cbn. lia. }
  exists (later ++ queue I_ s). destruct S0 as [A B].
  rewrite (C37_fifo c s I_ Re), <- A, E, B, app_assoc. reflexivity.
Qed.
Print Assumptions C37_one_thread_in_order.
