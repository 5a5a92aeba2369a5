(** C78: tail queues and the queues of a pool. *)
From Coq Require Import Permutation.
From Verif Require Import Prelude AmemModel HeapModel Perm TailqModel TailqSpec TailqProofs TailqMany TailqPool.
Local Open Scope nat_scope.

Lemma start pick vs N hs : good pick -> exists E, inv N E (inits N (mkmem (snd (entries pick (mkhp [] 0) vs)) hs)) empty /\ Permutation E (combine (fst (entries pick (mkhp [] 0) vs)) vs) /\ length (fst (entries pick (mkhp [] 0) vs)) = length vs.
Proof.
  intros G. destruct (entries_ok pick G vs _ [] owns_nil) as (B & O & D & LE). rewrite app_nil_r in O. exists (dmap B). split; [now apply inv_start|]. split; [|exact LE]. rewrite D. apply Permutation_sym, Permutation_rev.
Qed.
Lemma does_perm N E E' Q o Q' : (forall e, In e E <-> In e E') -> does N E Q o Q' -> does N E' Q o Q'.
Proof.
  intros X D. assert (Y : forall Q e, idle N E Q e -> idle N E' Q e). { intros Q0 e [J H]. split; [now apply X|exact H]. }
  inversion D; subst; econstructor; eauto.
Qed.
Lemma history_perm N E E' l : (forall e, In e E <-> In e E') -> forall Q Q', history N E Q l Q' -> history N E' Q l Q'.
Proof. intros X. induction l as [|o l IH]; intros Q Q' H; inversion H; subst; [constructor|]. econstructor; [eapply does_perm; eauto|]. now apply IH. Qed.
Lemma combine_fst {A B} (a : list A) : forall b : list B, length a = length b -> map fst (combine a b) = a.
Proof. induction a as [|x a IH]; intros [|y b] L; try discriminate; [reflexivity|]. cbn [combine map fst]. f_equal. apply IH. now injection L. Qed.

(** Any number of queues and any allowed history of insertions at either end, before or after an entry, removals and concatenations: every call is safe, and at the end each queue shows its list in both directions; entries keep their data and no memory is taken or given back. *)
Theorem C78_queues : forall pick vs N hs ops Q, good pick ->
  history N (fst (entries pick (mkhp [] 0) vs)) empty ops Q ->
  exists m, execs (inits N (mkmem (snd (entries pick (mkhp [] 0) vs)) hs)) ops = Ok m /\
    (forall q, q < N -> shows m q (Q q)) /\
    (forall i e v, nth_error (fst (entries pick (mkhp [] 0) vs)) i = Some e -> nth_error vs i = Some v -> exists c, get m e = Ok c /\ data c = v) /\
    length (blocks (heap m)) = length vs.
Proof.
  intros pick vs N hs ops Q G H. destruct (start pick vs N hs G) as (E & V & P & LE). destruct (entries pick (mkhp [] 0) vs) as [es h]. cbn [fst snd] in *.
  assert (X : forall e, In e es <-> In e (map fst E)). { intros e. rewrite <- (combine_fst es vs LE) at 1. split; intros J; eapply Permutation_in; try exact J; apply Permutation_map; [now apply Permutation_sym|exact P]. }
  apply (history_perm N es (map fst E) ops X) in H. destruct (steps N E ops _ _ _ V H) as (m & E1 & V1). exists m. split; [exact E1|]. split; [intros q B; now apply (inv_shows N E)|]. split.
  - intros i e v Ie Iv. apply (inv_data N E m Q e v V1). apply (Permutation_in _ (Permutation_sym P)). clear - Ie Iv. revert vs i Ie Iv. induction es as [|x es IH]; intros [|y vs] [|i] Ie Iv; cbn [nth_error] in *; try discriminate; [left; congruence|right; eauto].
  - rewrite (inv_size N E m Q V1), (Permutation_length P). etransitivity; [apply combine_length|]. rewrite LE. lia.
Qed.

(** The queues of a pool: whatever the calls on the two queues, each queue gives back what was put in, in order, and "empty" when there is nothing; the memory in use is one block for each entry still queued. *)
Theorem C78_pool : forall pick l, good pick -> Forall two l ->
  exists m, calls pick pool_start l = Ok (fst (fifo [] [] l), m) /\
    length (blocks (heap m)) = length (fst (snd (fifo [] [] l))) + length (snd (snd (fifo [] [] l))).
Proof. intros pick l G T. destruct (calls_ok pick G l pool_start [] [] T) as (m & E & P); [apply (pool_ext _ _ _ pool_init); intros [|q] _; reflexivity|]. exists m. split; [exact E|]. now rewrite (pool_size _ _ P). Qed.

(** The condition on the entry inserted is needed: an entry inserted at the tail of the queue whose only entry it is makes the walk endless. *)
Lemma endless (m : mem) e : e <> 0 -> tq_next m e = Ok e -> forall fuel, tq_foreach fuel m e = Loop.
Proof. intros NZ H. induction fuel as [|f IH]; [reflexivity|]. cbn [tq_foreach]. apply Nat.eqb_neq in NZ. rewrite NZ, H. cbn [obind]. now rewrite IH. Qed.
Theorem C78_twice_refuted : exists m, execs (inits 1 (mkmem (snd (entries next (mkhp [] 0) [7%Z])) (fun _ => (0, First 0)))) [InsTail 0 1; InsTail 0 1] = Ok m /\
  forall fuel, tq_foreach fuel m (tq_first m 0) = Loop.
Proof. eexists. split; [vm_compute; reflexivity|]. intros fuel. apply endless; [discriminate|reflexivity]. Qed.
(** and so is the condition on the queues of a concatenation: a queue joined to itself is empty afterwards, its entries are lost. *)
Theorem C78_self_refuted : exists m m', execs (inits 1 (mkmem (snd (entries next (mkhp [] 0) [7%Z; 8%Z])) (fun _ => (0, First 0)))) [InsTail 0 1; InsTail 0 2] = Ok m /\ shows m 0 [1; 2] /\
  tq_concat m 0 0 = Ok m' /\ tq_empty m' 0 = true /\ tq_foreach 1 m' (tq_first m' 0) = Ok [].
Proof.
  assert (H : history 1 (fst (entries next (mkhp [] 0) [7%Z; 8%Z])) empty [InsTail 0 1; InsTail 0 2] (set (set empty 0 (empty 0 ++ [1])) 0 (set empty 0 (empty 0 ++ [1]) 0 ++ [2]))).
  { econstructor; [constructor; [lia|]|econstructor; [constructor; [lia|]|constructor]]; (split; [vm_compute; tauto|]); intros q _; unfold set, empty; destruct (q =? 0); cbn; intuition lia. }
  destruct (C78_queues next _ 1 (fun _ => (0, First 0)) _ _ next_good H) as (m & E & S & _). exists m. assert (L : 0 < 1) by lia. apply (S 0) in L. vm_compute in E. assert (X : m = match execs (inits 1 (mkmem (snd (entries next (mkhp [] 0) [7%Z; 8%Z])) (fun _ => (0, First 0)))) [InsTail 0 1; InsTail 0 2] with Ok m => m | _ => m end) by (vm_compute; congruence).
  eexists. split; [rewrite X; reflexivity|]. split; [exact L|]. rewrite X. split; [vm_compute; reflexivity|]. split; reflexivity.
Qed.

(** Non-vacuity: two queues, three entries, every macro once *)
Definition prog : list op := [InsTail 0 1; InsHead 0 2; InsAfter 0 2 3; Remove 0 1; InsTail 1 1; Remove 0 3; InsBefore 1 3; Concat 0 1].
Example C78_hist_ex : exists Q, history 2 (fst (entries next (mkhp [] 0) [7%Z; 8%Z; 9%Z])) empty prog Q /\ Q 0 = [2; 3; 1] /\ Q 1 = [].
Proof.
  eexists. split; [|split].
  - unfold prog. econstructor; [apply d_tail; [lia|split; [vm_compute; tauto|intros q B; vm_compute; destruct q; intuition lia]]|].
    econstructor; [apply d_head; [lia|split; [vm_compute; tauto|intros [|[|q]] B; vm_compute; intuition lia]]|].
    econstructor; [apply (d_after _ _ _ _ _ _ [] [1]); [lia|split; [vm_compute; tauto|intros [|[|q]] B; vm_compute; intuition lia]|reflexivity]|].
    econstructor; [apply (d_remove _ _ _ _ _ [2; 3] []); [lia|reflexivity]|].
    econstructor; [apply d_tail; [lia|split; [vm_compute; tauto|intros [|[|q]] B; vm_compute; intuition lia]]|].
    econstructor; [apply (d_remove _ _ _ _ _ [2] []); [lia|reflexivity]|].
    econstructor; [apply (d_before _ _ _ 1 _ _ [] []); [lia|split; [vm_compute; tauto|intros [|[|q]] B; vm_compute; intuition lia]|reflexivity]|].
    econstructor; [apply d_concat; lia|constructor].
  - reflexivity.
  - reflexivity.
Qed.
Example C78_pool_ex : Forall two [Insert 0 5; Insert 1 6; Insert 0 7; Take 0; Take 1; Take 1; Take 0] /\ fifo [] [] [Insert 0 5; Insert 1 6; Insert 0 7; Take 0; Take 1; Take 1] = ([Some 5%Z; Some 6%Z; None], ([7%Z], [])).
Proof. split; [repeat (apply Forall_cons; [cbn [two]; lia|]); constructor|reflexivity]. Qed.
Print Assumptions C78_queues. Print Assumptions C78_pool. Print Assumptions C78_twice_refuted. Print Assumptions C78_self_refuted.
