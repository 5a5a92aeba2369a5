(** C37, possibility: the pool is never wedged.  C37_comes_to_rest bounds the length of every execution and C37_rest_means_done says what holds at its end;
    here: from every reachable state such an execution exists, and without a shutdown it completes every job handed over. *)
From Coq Require Import List ZArith Bool Arith Lia Permutation.
From Verif Require Import Prelude TpModel TpSpec TpProofs TpShut PropTp.
Import ListNotations.

(** the choices that matter for one thread *)
Definition options (s : st) : list choice := Go :: Ret None :: map Pick (seq 0 (length (s_thr s))).

Lemma stuck_rest : forall c s,
  (forall t ch, (t < length (s_thr s))%nat -> In ch (options s) -> step c t ch s = None) -> at_rest c s.
Proof.
  intros c s H t ch I.
  destruct (Nat.lt_ge_cases t (length (s_thr s))) as [L|G].
  2:{ unfold step. now rewrite (proj2 (nth_error_None _ _) G). }
  destruct ch; try discriminate I.
  - apply H; [exact L|left; reflexivity].
  - assert (R : step c t (Ret None) s = None) by (apply H; [exact L|right; left; reflexivity]).
    unfold step in *. destruct (nth_error (s_thr s) t) as [p|]; [|reflexivity].
    destruct p; try exact R; try reflexivity. destruct x; discriminate R.
  - destruct (Nat.lt_ge_cases w (length (s_thr s))) as [Lw|Gw].
    + apply H; [exact L|]. right; right. apply in_map. apply in_seq. lia.
    + unfold step. destruct (nth_error (s_thr s) t) as [p|]; [|reflexivity].
      destruct p; try reflexivity; [destruct x; reflexivity|]. now rewrite (proj2 (nth_error_None _ _) Gw).
Qed.

Lemma find_move : forall c s, at_rest c s \/ exists t ch s', internal ch = true /\ step c t ch s = Some s'.
Proof.
  intros c s.
  assert (D : forall l, (forall t ch, In (t, ch) l -> step c t ch s = None) \/ exists t ch s', In (t, ch) l /\ step c t ch s = Some s').
  { induction l as [|[t ch] l [A|(t' & ch' & s' & I & E)]].
    - left. intros ? ? [].
    - destruct (step c t ch s) as [s'|] eqn:E.
      + right. exists t, ch, s'. split; [now left|exact E].
      + left. intros t' ch' [X|X]; [|now apply A]. assert (t' = t /\ ch' = ch) as [-> ->] by (split; congruence). exact E.
    - right. exists t', ch', s'. split; [now right|exact E]. }
  destruct (D (list_prod (seq 0 (length (s_thr s))) (options s))) as [A|(t & ch & s' & I & E)].
  - left. apply stuck_rest. intros t ch L I. apply A. apply in_prod; [apply in_seq; lia|exact I].
  - right. exists t, ch, s'. split; [|exact E]. apply in_prod_iff in I as [_ I].
    destruct I as [<-|[<-|I]]; try reflexivity. apply in_map_iff in I as (w & <- & _). reflexivity.
Qed.

Lemma run_app : forall c l1 l2 s s1, run c l1 s = Some s1 -> run c (l1 ++ l2) s = run c l2 s1.
Proof.
  intros c l1; induction l1 as [|[t ch] r IH]; intros l2 s s1 H; cbn [run app] in *; [congruence|].
  destruct (step c t ch s) as [s2|]; [|discriminate]. now apply IH.
Qed.

(** From every reachable state the threads can carry on by themselves until nothing is left to do. *)
Theorem C37_never_wedged : forall c s, reachable c s ->
  exists l s', run c l s = Some s' /\ Forall (fun m => internal (snd m) = true) l /\ at_rest c s'.
Proof.
  intros c s Re. pose proof (reachable_inv _ _ Re) as V. clear Re.
  remember (budget s) as b eqn:B. revert s V B.
  induction b as [b IH] using lt_wf_ind. intros s V B.
  destruct (find_move c s) as [A|(t & ch & s1 & I & E)].
  - exists [], s. split; [reflexivity|]. split; [constructor|exact A].
  - pose proof (budget_step _ _ _ _ _ E I (v_role _ V)) as D.
    destruct (IH (budget s1) ltac:(lia) s1 (inv_step _ _ _ _ _ E V) eq_refl) as (l & s' & R & F & A).
    exists ((t, ch) :: l), s'. split; [cbn [run]; now rewrite E|]. split; [constructor; [exact I|exact F]|exact A].
Qed.
Print Assumptions C37_never_wedged.

Lemma shut_run : forall c l s s', run c l s = Some s' -> Forall (fun m => internal (snd m) = true) l ->
  s_shut s' = s_shut s /\ s_n s' = s_n s.
Proof.
  intros c l; induction l as [|[t ch] r IH]; intros s s' H F; cbn [run] in H.
  - assert (s' = s) by congruence. subst. auto.
  - destruct (step c t ch s) as [s1|] eqn:E; [|discriminate]. inversion F as [|? ? F1 F2]; subst. cbn [snd] in F1.
    destruct (IH _ _ H F2) as [A B]. rewrite A, B. clear - E F1. step_case t E; try discriminate F1; sides; auto.
Qed.

Lemma puts_grow : forall c l s s' x e, run c l s = Some s' -> In e (puts x (s_log s)) -> In e (puts x (s_log s')).
Proof.
  intros c l; induction l as [|[t ch] r IH]; intros s s' x e H I; cbn [run] in H.
  - assert (s' = s) by congruence. now subst.
  - destruct (step c t ch s) as [s1|] eqn:E; [|discriminate]. apply (IH s1 s' x e H). clear - E I.
    assert (G : exists m, s_log s1 = s_log s ++ m).
    { step_case t E; sides; rewrite <- ?app_assoc; try (eexists; reflexivity); exists []; now rewrite app_nil_r. }
    destruct G as (m & ->). unfold puts. rewrite flat_map_app. apply in_or_app. left. exact I.
Qed.

(** ... and, the pool not being shut down and both workers being set, every job handed over so far is then done: its callback was entered and left, and every
    output it produced has been handled or fetched. *)
Theorem C37_jobs_can_finish : forall c s, reachable c s -> s_shut s = false -> 0 < s_n s -> c_iw c = true -> c_ow c = true ->
  exists l s', run c l s = Some s' /\ Forall (fun m => internal (snd m) = true) l /\ at_rest c s' /\
    (forall e, In e (puts I_ (s_log s)) -> In e (calls I_ (s_log s')) /\ In e (returns I_ (s_log s'))) /\
    (forall e, In e (puts O_ (s_log s')) -> In e (calls O_ (s_log s') ++ gets (s_log s'))).
Proof.
  intros c s Re Sh N Wi Wo. destruct (C37_never_wedged c s Re) as (l & s' & R & F & A). exists l, s'.
  split; [exact R|]. split; [exact F|]. split; [exact A|].
  destruct (shut_run _ _ _ _ R F) as [S1 S2].
  assert (Re' : reachable c s').
  { destruct Re as (n & m & l0 & H0). exists n, m, (l0 ++ l). now rewrite (run_app _ _ _ _ _ H0). }
  destruct (C37_rest_means_done c s' Re' A ltac:(congruence) ltac:(lia) Wi Wo) as (_ & _ & P1 & P2 & _ & P4).
  split.
  - intros e I. pose proof (puts_grow _ _ _ _ _ _ R I) as I'. split; [exact (Permutation_in _ P1 I')|exact (Permutation_in _ P2 I')].
  - intros e I. exact (Permutation_in _ P4 I).
Qed.
Print Assumptions C37_jobs_can_finish.

(** non-vacuity: one worker per side, a job 5 just handed over *)
Example live_case : exists s, run (mkcfg true true true) [(2, CallInsert I_ 5%Z); (2, Go); (2, Go); (2, Go); (2, Go)] (start 1 1) = Some s /\
  puts I_ (s_log s) = [mkentry 0 5%Z] /\ s_shut s = false /\ s_n s = 1.
Proof. eexists. split; [vm_compute; reflexivity|]. auto. Qed.
