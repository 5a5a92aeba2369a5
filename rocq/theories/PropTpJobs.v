(** C37, continued: what the clients asked for is what enters the queues, and the finalize callback. *)
From Coq Require Import List ZArith Bool Arith Lia Permutation.
From Verif Require Import Prelude TpModel TpSpec TpProofs TpShut.
Import ListNotations.

(** (queue, data) of every zt_threadpool_insert_iput / insert_oput call of the clients, in a schedule *)
Definition asked (l : list (nat * choice)) : list (side * Z) :=
  flat_map (fun m => match snd m with CallInsert x d => [(x, d)] | _ => [] end) l.
(** (queue, data) of every entry linked by a client *)
Definition linked (l : list event) : list (side * Z) :=
  flat_map (fun ev => match ev with EPut _ x e ToClient => [(x, e_data e)] | _ => [] end) l.
(** the insert call a client is in, before the entry is linked *)
Definition inserting (p : pc) : list (side * Z) :=
  match p with PLock x e ToClient | PEnq x e ToClient => [(x, e_data e)] | _ => [] end.

(** results of the output worker that are not NULL, oldest first; what finalize was given *)
Definition results (l : list event) : list (nat * Z) :=
  flat_map (fun ev => match ev with ERet t O_ _ (Some d) => [(t, d)] | _ => [] end) l.
Definition finals (l : list event) : list (nat * Z) :=
  flat_map (fun ev => match ev with EFinal t d => [(t, d)] | _ => [] end) l.

Definition sd_dec (x y : side * Z) : {x = y} + {x <> y}.
Proof. decide equality; [apply Z.eq_dec|decide equality]. Defined.
Definition scnt (l : list (side * Z)) (j : side * Z) : nat := count_occ sd_dec l j.

Lemma asked_step : forall c t ch s s' j, step c t ch s = Some s' ->
  scnt (linked (s_log s')) j + tot (fun p => scnt (inserting p) j) (s_thr s') =
  scnt (linked (s_log s)) j + tot (fun p => scnt (inserting p) j) (s_thr s) + scnt (asked [(t, ch)]) j.
Proof.
  intros c t ch s s' j H.
  step_case t H.
  all: sides; unfold scnt, linked, asked in *; logs.
  all: cbn [flat_map snd app].
  all: sumall.
  all: (cbn [count_occ] in *; decs; try congruence; lia).
Qed.

Lemma asked_run : forall c l s s' j, run c l s = Some s' ->
  scnt (linked (s_log s')) j + tot (fun p => scnt (inserting p) j) (s_thr s') =
  scnt (linked (s_log s)) j + tot (fun p => scnt (inserting p) j) (s_thr s) + scnt (asked l) j.
Proof.
  intros c l; induction l as [|[t ch] r IH]; intros s s' j H; cbn [run] in H.
  - assert (s = s') by congruence. subst. unfold scnt, asked. cbn. lia.
  - destruct (step c t ch s) as [s1|] eqn:E; [|discriminate].
    rewrite (IH _ _ _ H), (asked_step _ _ _ _ _ j E).
    unfold scnt, asked. cbn [flat_map snd]. rewrite app_nil_r, count_occ_app. lia.
Qed.

(** Whatever the schedule, the entries that clients link into the two queues carry exactly the data
    of their insert calls, each call once; the only calls missing are those still under way. *)
Theorem C37_inserted : forall c n m l s, run c l (start n m) = Some s ->
  Permutation (asked l) (linked (s_log s) ++ flat_map inserting (s_thr s)).
Proof.
  intros c n m l s H. apply (Permutation_count_occ sd_dec). intros j.
  rewrite count_occ_app, count_flat. pose proof (asked_run _ _ _ _ j H) as E. unfold scnt in E.
  change (s_log (start n m)) with (@nil event) in E.
  assert (Z0 : tot (fun p => count_occ sd_dec (inserting p) j) (s_thr (start n m)) = 0).
  { cbn [start s_thr]. rewrite !tot_app. rewrite !tot_repeat. cbn [inserting count_occ]. lia. }
  rewrite Z0 in E. cbn [linked flat_map count_occ] in E. lia.
Qed.
Print Assumptions C37_inserted.

Lemma finals_step : forall c t ch s s', step c t ch s = Some s' ->
  finals (s_log s) = (if c_fin c then results (s_log s) else []) ->
  finals (s_log s') = (if c_fin c then results (s_log s') else []).
Proof.
  intros c t ch s s' H F.
  step_case t H; clear T.
  all: sides; unfold finals, results in *; logs; cbn [flat_map app] in *; rewrite ?app_nil_r, ?F; try exact F.
  all: repeat match goal with E : c_fin _ = _ |- _ => rewrite E in *; clear E end; rewrite ?flat_map_app; cbn [flat_map app]; rewrite ?app_nil_r; try reflexivity; try congruence.
  all: try match goal with |- context [if c_fin ?k then _ else _] => destruct (c_fin k) end; rewrite ?flat_map_app; cbn [flat_map app]; rewrite ?app_nil_r; try reflexivity; congruence.
Qed.

(** finalize, when set, is called with every non-NULL result of the output worker, by the thread that got it,
    once each and in the order of the results; it is called with nothing else. *)
Theorem C37_finalize : forall c s, reachable c s ->
  finals (s_log s) = (if c_fin c then results (s_log s) else []).
Proof.
  intros c s (n & m & l & H).
  assert (F0 : finals (s_log (start n m)) = (if c_fin c then results (s_log (start n m)) else [])) by (cbn; now destruct (c_fin c)).
  revert F0 H. generalize (start n m). induction l as [|[t ch] r IH]; intros s0 F0 H; cbn [run] in H.
  - assert (s0 = s) by congruence. now subst.
  - destruct (step c t ch s0) as [s1|] eqn:E; [|discriminate]. exact (IH s1 (finals_step _ _ _ _ _ E F0) H).
Qed.
Print Assumptions C37_finalize.

(** one job: inserted by client 2 with data 7, the worker answers 8, the output worker 9, which finalize gets *)
Example C37_jobs_case : exists l s, run (mkcfg true true true) l (start 1 1) = Some s /\
  asked l = [(I_, 7%Z)] /\ linked (s_log s) = [(I_, 7%Z)] /\ finals (s_log s) = [(1, 9%Z)].
Proof.
  exists [(2, CallInsert I_ 7%Z); (2, Go); (2, Go); (2, Go); (2, Go);
          (0, Go); (0, Go); (0, Go); (0, Go); (0, Ret (Some 8%Z)); (0, Go); (0, Go); (0, Go); (0, Go);
          (1, Go); (1, Go); (1, Go); (1, Go); (1, Ret (Some 9%Z))].
  eexists. vm_compute. repeat split.
Qed.
