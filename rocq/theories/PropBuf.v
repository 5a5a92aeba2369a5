(** C16: zt_buf.c.  [contains b s]: the buffer holds the byte string s.  [represents b x]: additionally [consumed x]
    bytes were partially drained since the block was allocated and the block has [room x] bytes. *)
From Verif Require Import Prelude Blocks BufModel BufProofs.
Open Scope Z_scope.

Theorem C16_new : represents buf_new (mkspec [] 0 0).
Proof. split; [exact new_ok|]. split; reflexivity. Qed.
Print Assumptions C16_new.
(** Any history of add/drain/remove/reserve/get gives exactly the results of the byte string, memory safely, provided that
    after a partial drain the buffer is not grown beyond its current block ([spre_run], in terms of the abstract state). *)
Theorem C16_history_partial : forall ops b x, represents b x -> spre_run x ops ->
  exists b', brun b ops = Ok (fst (srun x ops), b') /\ represents b' (snd (srun x ops)).
Proof. exact brun_ok. Qed.
Print Assumptions C16_history_partial.
(** reading side alone: any sequence of drains and removes is right from any state *)
Theorem C16_drain : forall b s n, contains b s -> 0 <= n ->
  exists b', buf_drain b n = (if n =? 0 then 0 else Z.of_nat (length s - Z.to_nat n), b') /\ contains b' (skipn (Z.to_nat n) s) /\
    blk b' = blk b /\ off b' = (if n <? Z.of_nat (length s) then off b + n else off b).
Proof. exact drain_ok. Qed.
Print Assumptions C16_drain.
Theorem C16_remove : forall b s n, contains b s -> 0 <= n ->
  exists b', buf_remove b n = Ok (firstn (Z.to_nat n) s, Z.min n (Z.of_nat (length s)), b') /\ contains b' (skipn (Z.to_nat n) s) /\
   blk b' = blk b /\ off b' = (if n <? Z.of_nat (length s) then off b + n else off b).
Proof. exact remove_ok. Qed.
Print Assumptions C16_remove.
Theorem C16_add_buf_partial : forall a b s t, contains a s -> contains b t -> can_grow a s (Z.of_nat (length t)) ->
  exists a' b', buf_add_buf a b = Ok (a', b') /\ contains a' (s ++ t) /\ contains b' [].
Proof. exact add_buf_ok. Qed.
Print Assumptions C16_add_buf_partial.
Theorem C16_iov_add_partial : forall b s v, contains b s -> can_grow b s (Z.of_nat (length (concat v))) ->
  exists b', buf_iov_add b v = Ok b' /\ contains b' (s ++ concat v).
Proof. exact iov_add_ok. Qed.
Print Assumptions C16_iov_add_partial.
Theorem C16_length : forall b s, contains b s -> buf_length b = Z.of_nat (length s) /\ off b + buf_length b <= cap b.
Proof. intros b s H. split; [apply H|exact (contains_room b s H)]. Qed.
Print Assumptions C16_length.

(** Violations: after a partial drain the capacity is wrong; adding may overrun the heap block ... *)
Theorem C16_add_after_drain_refuted : exists d1 d2, brun buf_new [Badd d1; Bdrain 1; Badd d2] = UB.
Proof. exists (repeat 7 1024), [7]. vm_compute. reflexivity. Qed.
Print Assumptions C16_add_after_drain_refuted.
(** ... and growing reallocates a pointer into the middle of the block. *)
Theorem C16_grow_after_drain_refuted : exists d1, brun buf_new [Badd d1; Bdrain 1; Breserve 2000] = UB.
Proof. exists [7;8]. vm_compute. reflexivity. Qed.
Print Assumptions C16_grow_after_drain_refuted.
(** every partial drain followed by an addition that needs more room than reported is undefined *)
Theorem C16_grow_after_drain_general_refuted : forall b s n, contains b s -> 0 < off b -> buf_unused b < n -> buf_reserve b n = UB.
Proof.
  intros b s n H O U. unfold buf_reserve. replace (n >? buf_unused b) with true by lia. unfold buf_expand, realloc.
  destruct (blk b) eqn:E; [|destruct H as (_ & _ & _ & X & _); specialize (X E); lia].
  now replace (off b =? 0) with false by lia.
Qed.
Print Assumptions C16_grow_after_drain_general_refuted.

Example C16_ex : spre_run (mkspec [] 0 0) [Badd [1;2;3]; Bdrain 1; Badd [4]; Bremove 2; Bget; Breserve 5] /\
  fst (srun (mkspec [] 0 0) [Badd [1;2;3]; Bdrain 1; Badd [4]; Bremove 2; Bget; Breserve 5]) = [[]; [2]; []; [2;3]; [4]; []].
Proof.
  split; [|vm_compute; reflexivity].
  split; [right; vm_compute; split; congruence|]. split; [vm_compute; congruence|]. split; [left; vm_compute; congruence|].
  split; [vm_compute; congruence|]. split; [exact I|]. split; [split; [lia|left; vm_compute; congruence]|exact I].
Qed.
