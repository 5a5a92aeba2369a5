(** C76: zt_atexit called by several threads, whose callback stack no lock protects (zt_atexit.c:31 FIXME). *)
From Coq Require Import Permutation.
From Verif Require Import Prelude Heap ElistModel AtexitModel AraceModel AraceSpec AraceProofs.

(** every call of zt_atexit has returned *)
Definition done (w : world) : Prop := forall t, In t (ths w) -> todo t = [].
(** no two threads are ever inside zt_atexit at once: after no prefix of the schedule are there two *)
Definition inside (t : thread) : Prop := at_ t <> Idle.
Definition apart (ps : list (list (nat * nat))) (sched : list nat) : Prop :=
  forall k w i j t u, run (begin ps) (firstn k sched) = Ok w -> nth_error (ths w) i = Some t -> nth_error (ths w) j = Some u -> inside t -> inside u -> i = j.
(** no callback is NULL *)
Definition real (ps : list (list (nat * nat))) : Prop := forall p v, In p ps -> In v p -> fst v <> 0.

Lemma reg_called vals cs : registered (map ev (rev vals) ++ map (fun v => Call (fst v) (snd v)) cs) = rev vals /\ called (map ev (rev vals) ++ map (fun v => Call (fst v) (snd v)) cs) = cs.
Proof.
  assert (A : forall l, registered (map ev l) = l /\ called (map ev l) = []) by (induction l as [|[f d] l (I1 & I2)]; [split; reflexivity|]; cbn; fold (registered (map ev l)); fold (called (map ev l)); now rewrite I1, I2).
  assert (B : forall l, registered (map (fun v : nat * nat => Call (fst v) (snd v)) l) = [] /\ called (map (fun v : nat * nat => Call (fst v) (snd v)) l) = l)
    by (induction l as [|[f d] l (I1 & I2)]; [split; reflexivity|]; cbn; fold (registered (map (fun v : nat * nat => Call (fst v) (snd v)) l)); fold (called (map (fun v : nat * nat => Call (fst v) (snd v)) l)); now rewrite I1, I2).
  unfold registered, called. rewrite !flat_map_app. fold (registered (map ev (rev vals))). fold (called (map ev (rev vals))). destruct (A (rev vals)) as (-> & ->). destruct (B cs) as (B1 & B2). unfold registered, called in B1, B2. rewrite B1, B2. now rewrite app_nil_r.
Qed.
Lemma real_forall ps : real ps -> Forall (Forall (fun v : nat * nat => fst v <> 0)) ps.
Proof. intros H. apply Forall_forall. intros p I. apply Forall_forall. intros v J. eapply H; eassumption. Qed.

(** However the threads interleave, no thread misuses memory. Once every call of zt_atexit has returned, all of the callbacks have been registered exactly once and exit() runs safely to its end;
    it calls some of them, each at most once and later registered ones first, and the one registered last is among these and is the first to be called. *)
Theorem C76_threads : forall ps sched, real ps -> exists w, run (begin ps) sched = Ok w /\
  (done w -> exists bound, forall fuel, bound <= fuel -> exists s, exits fuel (st w) = Ok s /\ libc s = [] /\
     Permutation (registered (log s)) (concat ps) /\
     sub (called (log s)) (rev (registered (log s))) /\
     hd_error (called (log s)) = hd_error (rev (registered (log s)))).
Proof.
  intros ps sched Re. destruct (run_inv false ps sched (begin ps) [] [] (begin_inv false ps (real_forall ps Re))) as (w & pub & vals & E & V); [discriminate|].
  exists w. split; [exact E|]. intros D. exists (length pub + length (libc (st w)) + 2). intros fuel Lf. apply Forall_forall in D.
  destruct (exits_ok false ps w pub vals V D fuel) as (s & cs & X & Lg & Sb & Pm & Hh & _ & Lb); [lia|]. exists s. rewrite Lg. destruct (reg_called vals cs) as (-> & ->). rewrite rev_involutive.
  repeat split; try assumption. rewrite <- Permutation_rev. exact Pm.
Qed.

(** When no two calls overlap, nothing is lost: at exit all of the callbacks are called, the last registered first. *)
Lemma apart_few ps sched : apart ps sched -> real ps -> forall k w, run (begin ps) (firstn k sched) = Ok w -> few (ths w).
Proof.
  intros A Re k w E. unfold few. assert (N : forall i j t u, nth_error (ths w) i = Some t -> nth_error (ths w) j = Some u -> inside t -> inside u -> i = j) by (intros; eapply A; eassumption). clear A E.
  induction (ths w) as [|t l IH]; [cbn; lia|]. cbn [flat_map]. rewrite app_length. assert (IHl : length (flat_map nodes l) <= 1). { apply IH. intros i j a b Hi Hj Ia Ib. assert (X : Datatypes.S i = Datatypes.S j) by (eapply N; cbn [nth_error]; eassumption). congruence. }
  destruct (at_ t) eqn:AT.
  1: unfold nodes at 1; rewrite AT; cbn [length]; lia.
  all: assert (Z : flat_map nodes l = []); [|rewrite Z; unfold nodes at 1; rewrite AT; cbn [length]; lia].
  all: destruct (flat_map nodes l) as [|y q] eqn:F; [reflexivity|exfalso]; assert (J : In y (flat_map nodes l)) by (rewrite F; now left); apply in_flat_map in J; destruct J as (u & Iu & Iy); apply In_nth_error in Iu; destruct Iu as (j & Hj).
  all: assert (X : 0 = Datatypes.S j); [|discriminate]; apply (N 0 (Datatypes.S j) t u); [reflexivity|exact Hj|unfold inside; rewrite AT; discriminate|unfold inside; unfold nodes in Iy; destruct (at_ u); [destruct Iy|..]; discriminate].
Qed.
Theorem C76_apart : forall ps sched, real ps -> apart ps sched -> exists w, run (begin ps) sched = Ok w /\
  (done w -> exists bound, forall fuel, bound <= fuel -> exists s, exits fuel (st w) = Ok s /\ Permutation (registered (log s)) (concat ps) /\ called (log s) = rev (registered (log s))).
Proof.
  intros ps sched Re A. destruct (run_inv true ps sched (begin ps) [] [] (begin_inv true ps (real_forall ps Re))) as (w & pub & vals & E & V); [intros k w' _ Rn; eapply apart_few; eassumption|].
  exists w. split; [exact E|]. intros D. exists (length pub + length (libc (st w)) + 2). intros fuel Lf. apply Forall_forall in D.
  destruct (exits_ok true ps w pub vals V D fuel) as (s & cs & X & Lg & Sb & Pm & Hh & Al & Lb); [lia|]. exists s. rewrite Lg. destruct (reg_called vals cs) as (-> & ->). rewrite rev_involutive.
  split; [exact X|]. split; [rewrite <- Permutation_rev; exact Pm|]. now apply Al.
Qed.

(** No thread waits for another: when each has had eight turns for every call it makes, every call has returned. *)
Theorem C76_returns : forall ps sched w, run (begin ps) sched = Ok w -> (forall i p, nth_error ps i = Some p -> 8 * length p <= count_occ Nat.eq_dec sched i) -> done w.
Proof.
  intros ps sched w E H t I. destruct (left_run _ _ _ E) as (L & K). apply In_nth_error in I. destruct I as (i & N).
  assert (B : i < length ps). { assert (X : i < length (ths w)) by (apply nth_error_Some; congruence). unfold begin in L. cbn [ths] in L. rewrite map_length in L. lia. }
  destruct (nth_error ps i) as [p|] eqn:P; [|apply nth_error_None in P; lia]. specialize (H i p P).
  destruct (K i (mkthread p Idle)) as (t' & N' & Z); [unfold begin; cbn [ths]; now rewrite nth_error_map, P|]. assert (t' = t) by congruence. subst t'. unfold left_ in Z. cbn [todo at_ rank] in Z.
  destruct (todo t) as [|v r] eqn:Et; [reflexivity|exfalso]. cbn [length] in Z. assert (rank (at_ t) <= 7) by (destruct (at_ t); cbn; lia). destruct p; cbn [length] in *; lia.
Qed.

(** The claim as a user has it — that a registered callback is called at exit — fails: of two threads one reads the top of the stack, the other registers its callback, the first goes on: the other callback is off the stack and
    never called. *)
Definition lost_ps : list (list (nat * nat)) := [[(5, 50)]; [(7, 70)]].
Definition got (o : outcome world) : world := match o with Ok w => w | _ => mkworld start [] end.
Lemma got_ok o : match o with Ok _ => True | _ => False end -> o = Ok (got o).
Proof. destruct o; tauto. Qed.
Lemma lost_real : real lost_ps.
Proof. intros p v [<-|[<-|[]]] [<-|[]]; discriminate. Qed.
Theorem C76_lost_refuted : exists ps sched w, real ps /\ run (begin ps) sched = Ok w /\ done w /\
  forall fuel s, exits fuel (st w) = Ok s -> In (7, 70) (registered (log s)) /\ ~ In (7, 70) (called (log s)).
Proof.
  set (sched := [0; 0; 0; 0] ++ [1; 1; 1; 1; 1; 1; 1; 1] ++ [0; 0; 0; 0]). exists lost_ps, sched, (got (run (begin lost_ps) sched)). split; [exact lost_real|]. split; [|split].
  - apply got_ok. vm_compute. exact Logic.I.
  - intros t. vm_compute. intros [<-|[<-|[]]]; reflexivity.
  - intros fuel s E.
    assert (H : forall f, match exits (4 + f) (st (got (run (begin lost_ps) sched))) with Ok s => registered (log s) = [(7, 70); (5, 50)] /\ called (log s) = [(5, 50)] | _ => False end) by (intros f; vm_compute; split; reflexivity).
    assert (Z : forall f, f < 4 -> match exits f (st (got (run (begin lost_ps) sched))) with Ok s => registered (log s) = [(7, 70); (5, 50)] /\ called (log s) = [(5, 50)] | _ => True end) by (intros f Lf; destruct f as [|[|[|[|f]]]]; try lia; vm_compute; try split; trivial).
    assert (K : registered (log s) = [(7, 70); (5, 50)] /\ called (log s) = [(5, 50)]).
    { destruct (Nat.lt_ge_cases fuel 4) as [L|L]; [specialize (Z fuel L); rewrite E in Z; exact Z|]. specialize (H (fuel - 4)). replace (4 + (fuel - 4)) with fuel in H by lia. rewrite E in H. exact H. }
    destruct K as (-> & ->). split; [now left|]. intros [X|[]]. discriminate.
Qed.
(** A thread that calls exit() while another is inside zt_atexit reads a callback after it was freed: the other has pointed the top callback's prev at its own, so that removing the top leaves it on the stack. *)
Theorem C76_exit_refuted : exists ps sched w, real ps /\ run (begin ps) sched = Ok w /\ forall fuel, 3 <= fuel -> exits fuel (st w) = UB.
Proof.
  set (sched := [0; 0; 0; 0; 0; 0; 0; 0] ++ [1; 1; 1; 1]). exists lost_ps, sched, (got (run (begin lost_ps) sched)). split; [exact lost_real|]. split.
  - apply got_ok. vm_compute. exact Logic.I.
  - intros fuel L. destruct fuel as [|[|[|fuel]]]; try lia. vm_compute. reflexivity.
Qed.

(** Non-vacuity: threads whose calls interleave and all return, and an apart schedule. *)
Example C76_threads_ex : match run (begin [[(5, 50); (6, 60)]; [(7, 70)]]) [0; 1; 0; 1; 0; 0; 1; 1; 0; 1; 0; 1; 0; 1; 0; 1; 0; 0; 0; 0; 0; 0; 0; 0] with
  | Ok w => (forall t, In t (ths w) -> todo t = []) /\ match exits 9 (st w) with Ok s => called (log s) = [(6, 60); (7, 70)] /\ registered (log s) = [(5, 50); (7, 70); (6, 60)] | _ => False end
  | _ => False end.
Proof. vm_compute. split; [intros t [<-|[<-|[]]]; reflexivity|]. split; reflexivity. Qed.
Lemma apart_check ps sched : forallb (fun k => match run (begin ps) (firstn k sched) with Ok w => Nat.leb (length (filter (fun t => match at_ t with Idle => false | _ => true end) (ths w))) 1 | _ => false end) (seq 0 (length sched + 1)) = true -> apart ps sched.
Proof.
  intros F k w i j t u E Hi Hj It Iu.
  assert (B : length (filter (fun t => match at_ t with Idle => false | _ => true end) (ths w)) <= 1).
  { rewrite forallb_forall in F. apply Nat.leb_le. destruct (Nat.le_gt_cases k (length sched)) as [L|L].
    - specialize (F k). rewrite E in F. apply F. apply in_seq. lia.
    - specialize (F (length sched)). rewrite firstn_all in F. rewrite firstn_all2 in E by lia. rewrite E in F. apply F. apply in_seq. lia. }
  assert (K : forall l i t, nth_error l i = Some t -> inside t -> 1 <= length (filter (fun t => match at_ t with Idle => false | _ => true end) l)).
  { intros l a x H X. apply nth_error_In in H. assert (J : In x (filter (fun t => match at_ t with Idle => false | _ => true end) l)) by (apply filter_In; split; [exact H|]; unfold inside in X; destruct (at_ x); congruence). destruct (filter _ l); [destruct J|cbn; lia]. }
  revert i j Hi Hj B. induction (ths w) as [|a l IH]; intros [|i] [|j] Hi Hj B; cbn [nth_error] in Hi, Hj; try discriminate; try reflexivity.
  - assert (a = t) by congruence. subst a. specialize (K l j u Hj Iu). cbn [filter] in B. unfold inside in It. destruct (at_ t); [congruence|..]; cbn [length] in B; lia.
  - assert (a = u) by congruence. subst a. specialize (K l i t Hi It). cbn [filter] in B. unfold inside in Iu. destruct (at_ u); [congruence|..]; cbn [length] in B; lia.
  - f_equal. apply IH; try assumption. cbn [filter] in B. destruct (at_ a); [exact B|..]; cbn [length] in B; lia.
Qed.
Example C76_apart_ex : apart [[(5, 50); (6, 60)]; [(7, 70)]] ([0; 0; 0; 0; 0; 0; 0; 0] ++ [1; 1; 1; 1; 1; 1; 1] ++ [0; 0; 0; 0; 0; 0; 0]) /\
  match run (begin [[(5, 50); (6, 60)]; [(7, 70)]]) ([0; 0; 0; 0; 0; 0; 0; 0] ++ [1; 1; 1; 1; 1; 1; 1] ++ [0; 0; 0; 0; 0; 0; 0]) with
  | Ok w => (forall t, In t (ths w) -> todo t = []) /\ match exits 9 (st w) with Ok s => called (log s) = [(6, 60); (7, 70); (5, 50)] | _ => False end
  | _ => False end.
Proof.
  split; [apply apart_check; vm_compute; reflexivity|].
  vm_compute. split; [intros t [<-|[<-|[]]]; reflexivity|reflexivity].
Qed.

Print Assumptions C76_threads.
Print Assumptions C76_apart.
Print Assumptions C76_returns.
Print Assumptions C76_lost_refuted.
Print Assumptions C76_exit_refuted.
