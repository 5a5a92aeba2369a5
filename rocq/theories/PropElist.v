(** C24, C25: zt_list.h, zt_stack.h, zt_queue.h.  [ring m h l]: in memory m the circular list with head h has
    exactly the elements l: h -> l1 -> ... -> ln -> h by [next], the same links backwards by [prev], all distinct.
    [live m a]: a is an allocated cell. *)
From Verif Require Import Prelude Heap ElistModel ElistProofs.

Theorem C24_reset : forall m h, live m h -> exists m', elist_reset m h = Ok m' /\ ring m' h [] /\ fresh m' = fresh m /\
  (forall a, live m' a <-> live m a) /\ (forall a, a <> h -> cells m' a = cells m a).
Proof. exact reset_ok. Qed.
Print Assumptions C24_reset.
Theorem C24_add : forall m h l e, ring m h l -> live m e -> ~ In e (h :: l) ->
  exists m', elist_add m h e = Ok m' /\ ring m' h (e :: l) /\ fresh m' = fresh m /\
    (forall a, live m' a <-> live m a) /\ (forall a, ~ In a (h :: e :: l) -> cells m' a = cells m a).
Proof. exact add_ok. Qed.
Print Assumptions C24_add.
Theorem C24_add_tail : forall m h l e, ring m h l -> live m e -> ~ In e (h :: l) ->
  exists m', elist_add_tail m h e = Ok m' /\ ring m' h (l ++ [e]) /\ fresh m' = fresh m /\
    (forall a, live m' a <-> live m a) /\ (forall a, ~ In a (h :: l ++ [e]) -> cells m' a = cells m a).
Proof. exact add_tail_ok. Qed.
Print Assumptions C24_add_tail.
Theorem C24_remove : forall m h l1 e l2, ring m h (l1 ++ e :: l2) ->
  exists m', elist_remove m e = Ok m' /\ ring m' h (l1 ++ l2) /\ fresh m' = fresh m /\
    (forall a, live m' a <-> live m a) /\ (forall a, ~ In a (h :: l1 ++ l2) -> cells m' a = cells m a).
Proof. exact ring_remove. Qed.
Print Assumptions C24_remove.
(** remove undoes insertion, at either end *)
Theorem C24_remove_undoes_add : forall m h l e, ring m h l -> live m e -> ~ In e (h :: l) ->
  (exists m1 m2, elist_add m h e = Ok m1 /\ elist_remove m1 e = Ok m2 /\ ring m2 h l) /\
  (exists m1 m2, elist_add_tail m h e = Ok m1 /\ elist_remove m1 e = Ok m2 /\ ring m2 h l).
Proof.
  intros m h l e R L N. split.
  - destruct (add_ok m h l e R L N) as (m1 & H1 & H2 & _). destruct (ring_remove m1 h [] e l H2) as (m2 & H3 & H4 & _).
    exists m1, m2. auto.
  - destruct (add_tail_ok m h l e R L N) as (m1 & H1 & H2 & _). destruct (ring_remove m1 h l e [] H2) as (m2 & H3 & H4 & _).
    rewrite app_nil_r in H4. exists m1, m2. auto.
Qed.
Print Assumptions C24_remove_undoes_add.
(** join with a non-empty list puts its elements in front *)
Theorem C24_join_partial : forall m h l g k, ring m h l -> ring m g k -> k <> [] -> (forall a, In a (h :: l) -> ~ In a (g :: k)) ->
  exists m', elist_join m h g = Ok m' /\ ring m' h (k ++ l) /\ fresh m' = fresh m /\
    (forall a, live m' a <-> live m a) /\ (forall a, ~ In a (h :: l ++ k) -> cells m' a = cells m a).
Proof. exact join_ok. Qed.
Print Assumptions C24_join_partial.
(** join with an empty list: its head becomes an element of the ring, for every such call *)
Theorem C24_join_empty_refuted : forall m h l g, ring m h l -> ring m g [] -> ~ In g (h :: l) ->
  exists m', elist_join m h g = Ok m' /\ ring m' h (g :: l).
Proof. exact join_empty. Qed.
Print Assumptions C24_join_empty_refuted.
Theorem C24_empty : forall m h l, ring m h l -> elist_empty m h = Ok (match l with [] => true | _ => false end).
Proof. exact empty_ok. Qed.
Print Assumptions C24_empty.
Theorem C24_for_each : forall m h l fuel, ring m h l -> length l < fuel -> elist_for_each fuel m h = Ok l.
Proof. exact for_each_ok. Qed.
Print Assumptions C24_for_each.
(** for_each_safe visits every element in order even if the body unlinks the current one *)
Theorem C24_for_each_safe : forall f m h l fuel, ring m h l -> length l < fuel ->
  exists m', elist_for_each_safe fuel (drop_if f) m h = Ok (l, m') /\ ring m' h (filter (fun x => negb (f x)) l).
Proof. exact for_each_safe_ok. Qed.
Print Assumptions C24_for_each_safe.
(** operations on one ring do not disturb a disjoint one *)
Theorem C24_disjoint_rings : forall m m' h l, ring m h l -> (forall a, In a (h :: l) -> cells m' a = cells m a) -> ring m' h l.
Proof. exact ring_frame. Qed.
Print Assumptions C24_disjoint_rings.

(** ** C25.  [lifo l ops] / [fifo q l ops]: results of the Takes and final contents of an abstract stack / queue. *)
Theorem C25_stack_lifo : forall ops m s l, ring m s l -> valid_stack m s l ops ->
  exists m', stack_run m s ops = Ok (fst (lifo l ops), m') /\ ring m' s (snd (lifo l ops)).
Proof. exact stack_lifo. Qed.
Print Assumptions C25_stack_lifo.
Theorem C25_queue_fifo : forall ops m q l, ring m q (rev l) -> valid_queue m q l ops ->
  exists m', queue_run m q ops = Ok (fst (fifo q l ops), m') /\ ring m' q (rev (snd (fifo q l ops))).
Proof. exact queue_fifo. Qed.
Print Assumptions C25_queue_fifo.
Theorem C25_empty : forall m h l, ring m h l ->
  stack_empty m h = Ok (match l with [] => true | _ => false end) /\ queue_empty m h = Ok (match l with [] => true | _ => false end).
Proof. intros m h l R. split; exact (empty_ok m h l R). Qed.
Print Assumptions C25_empty.
Theorem C25_peek : forall m h l, ring m h l -> stack_peek m h = Ok (hd h l) /\ queue_peek m h = Ok (last l h).
Proof. intros m h l R. split; [exact (get_next_ok _ _ _ (ring_next _ _ _ R))|exact (get_prev_ok _ _ _ (ring_prev _ _ _ R))]. Qed.
Print Assumptions C25_peek.
(** Unlike pop (which returns NULL), dequeue on an empty queue hands out the queue head as if it were an element. *)
Theorem C25_dequeue_empty_refuted : forall m q, ring m q [] -> exists m', queue_dequeue m q = Ok (q, m').
Proof. intros m q R. destruct (queue_dequeue_ok m q [] R) as (m' & H & _). eauto. Qed.
Print Assumptions C25_dequeue_empty_refuted.

(** non-vacuity: head 1, loose cells 2..4 *)
Definition m4 : lmem := mkheap (fun a => match a with 1 => Some (mklink 1 1) | 2 | 3 | 4 => Some (mklink 0 0) | _ => None end) 5.
Example C24_ex : ring m4 1 [] /\ live m4 2 /\ exists m1 m2 m3, elist_add m4 1 2 = Ok m1 /\ elist_add_tail m1 1 3 = Ok m2 /\
  elist_for_each 3 m2 1 = Ok [2;3] /\ elist_remove m2 2 = Ok m3 /\ elist_for_each 3 m3 1 = Ok [3].
Proof.
  split; [split; [repeat constructor; auto|cbn; auto]|]. split; [eexists; reflexivity|].
  do 3 eexists. split; [vm_compute; reflexivity|]. split; [vm_compute; reflexivity|]. split; [vm_compute; reflexivity|].
  split; vm_compute; reflexivity.
Qed.
Example C25_ex : valid_stack m4 1 [] [Put 2; Put 3; Take; Take; Take] /\ lifo [] [Put 2; Put 3; Take; Take; Take] = ([3;2;0], []) /\
  valid_queue m4 1 [] [Put 2; Put 3; Take; Put 4; Take] /\ fifo 1 [] [Put 2; Put 3; Take; Put 4; Take] = ([2;3], [4]).
Proof.
  split; [|split; [reflexivity|split; [|reflexivity]]].
  - cbn. repeat (split; [eexists; reflexivity|split; [discriminate|split; [cbn; intuition discriminate|]]]). exact I.
  - cbn. repeat (split; [eexists; reflexivity|split; [discriminate|split; [cbn; intuition discriminate|]]]). exact I.
Qed.
