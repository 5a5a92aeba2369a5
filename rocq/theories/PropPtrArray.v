(** C15: zt_ptr_array.c.  [holds a l]: a is a well formed array whose members are exactly l (in order), none NULL. *)
From Verif Require Import Prelude PtrArrayModel PtrArrayProofs PtrDel.
From Coq Require Import Permutation.
Open Scope Z_scope.

Theorem C15_init : forall c, holds (pa_init c) [].
Proof. exact init_ok. Qed.
Print Assumptions C15_init.
(** Every history of add / del / get / move on an abstract list: same results, same contents.
    [pre] only asks that a deleted value is not duplicated, indices are in range and sizes fit int32. *)
Theorem C15_history_partial : forall ops a l, holds a l -> pre_run l ops ->
  exists a', run a ops = Ok (fst (spec_run l ops), a') /\ holds a' (snd (spec_run l ops)).
Proof. exact run_ok. Qed.
Print Assumptions C15_history_partial.
Theorem C15_capacity : forall a l, holds a l -> count a <= size a /\ count a = Z.of_nat (length l).
Proof. intros a l H. split; [exact (holds_le a l H)|apply H]. Qed.
Print Assumptions C15_capacity.
Theorem C15_resize : forall a l e, holds a l -> 0 <= e -> size a + (if e =? 0 then 32 else e) <= 2147483647 ->
  exists a', pa_resize a e = Ok (0, a') /\ holds a' l /\ size a' = size a + (if e =? 0 then 32 else e) /\ cb a' = cb a.
Proof. exact resize_ok. Qed.
Print Assumptions C15_resize.
Theorem C15_resize_negative : forall a e, e < 0 -> size a + e <= 2147483647 -> pa_resize a e = Ok (-1, a).
Proof. exact resize_negative. Qed.
Print Assumptions C15_resize_negative.
(** deleting a value present once removes exactly it (the last member takes its place) and calls the callback once *)
Theorem C15_del : forall a l1 d l2 fuel, holds a (l1 ++ d :: l2) -> ~ In d l1 -> ~ In d l2 -> (length (l1 ++ d :: l2) < fuel)%nat ->
  exists a' l', pa_del fuel a d = Ok (-1, a', if cb a then [d] else []) /\ holds a' l' /\ Permutation l' (l1 ++ l2) /\
    firstn (length l1) l' = l1.
Proof.
  intros a l1 d l2 fuel H N1 N2 F. destruct (del_ok a l1 d l2 fuel H N1 N2 F) as (a' & E & H' & _).
  exists a', (fill l1 l2). repeat split; auto; try apply H'; [apply fill_perm|].
  unfold fill. destruct l2; [apply firstn_all|]. rewrite firstn_app, Nat.sub_diag, firstn_all. apply app_nil_r.
Qed.
Print Assumptions C15_del.
Theorem C15_del_absent : forall a l d fuel, holds a l -> ~ In d l -> (length l < fuel)%nat -> pa_del fuel a d = Ok (-1, a, []).
Proof. exact del_absent. Qed.
Print Assumptions C15_del_absent.
(** Deleting from any array, duplicates or not: going through the array once, every d found is replaced by the then last member, which is not looked at again.  So only copies of d go, the callback is told of each that goes, the others all stay; at least half of the copies go, and the only one if there is one. *)
Theorem C15_del_exact : forall a l d fuel, holds a l -> d <> 0 -> (length l < fuel)%nat ->
  exists a' l' k, pa_del fuel a d = Ok (-1, a', if cb a then repeat d k else []) /\ holds a' l' /\ cb a' = cb a /\ size a' = size a /\ swept d l l' k /\
    Permutation l (repeat d k ++ l') /\ (count_occ Z.eq_dec l' d <= k)%nat /\ (In d l -> (0 < k)%nat) /\ (count_occ Z.eq_dec l d = 1%nat -> ~ In d l').
Proof.
  intros a l d fuel H N F. destruct (del_exact fuel a l d H N F) as (a' & l' & k & E & H' & S & C & Sz). exists a', l', k. pose proof (swept_perm _ _ _ _ S) as P. pose proof (swept_half _ _ _ _ S) as Hf. pose proof (swept_some _ _ _ _ S) as Hs. repeat (split; [assumption|]).
  intros O1 I. assert (I2 : In d l) by (apply (Permutation_in _ (Permutation_sym P)); apply in_or_app; now right). specialize (Hs I2). apply (Permutation_count_occ Z.eq_dec) with (x := d) in P. rewrite O1, count_occ_app in P. apply (count_occ_In Z.eq_dec) in I. destruct k; [lia|]. cbn [repeat count_occ] in P. destruct (Z.eq_dec d d); [lia|congruence].
Qed.
Print Assumptions C15_del_exact.
Example C15_del_exact_case : swept 7 [7; 1; 7; 2; 7] [7; 1; 2] 2.
Proof. apply (sw_fill 7 7 [1; 7; 2]). apply sw_keep; [discriminate|]. apply (sw_fill 7 2 []). apply sw_nil. Qed.
Theorem C15_get_last_partial : forall a l, holds a l -> l <> [] -> pa_get a (-1) = Ok (last l 0).
Proof. exact get_last. Qed.
Print Assumptions C15_get_last_partial.
Theorem C15_copy_data : forall a l dst, holds a l -> (length l <= length dst)%nat ->
  pa_copy_data a dst = Ok (map Some l ++ skipn (length l) dst).
Proof. exact copy_data_ok. Qed.
Print Assumptions C15_copy_data.
Theorem C15_cat_partial : forall fuel dst src l1 l2, holds dst l1 -> holds src l2 -> (length l2 < fuel)%nat ->
  Z.of_nat (length l1 + length l2) + 32 <= 2147483647 -> exists d', pa_cat fuel dst src = Ok (0, d') /\ holds d' (l1 ++ l2).
Proof.
  intros fuel dst src l1 l2 H1 H2 F B. apply (cat_ok fuel dst src l1 l2 0); auto; try lia. cbn. now rewrite app_nil_r.
Qed.
Print Assumptions C15_cat_partial.
(** freeing with members releases each of them exactly once, in order *)
Theorem C15_free : forall a l k, holds a l -> pa_free a k = Ok (if k >? 0 then l else []).
Proof. exact free_ok. Qed.
Print Assumptions C15_free.

(** Violations. *)
(** duplicates: one of two equal neighbours survives a delete *)
Theorem C15_del_duplicates_refuted : exists a d a' fr, holds a [d; d] /\ pa_del 5 a d = Ok (-1, a', fr) /\ holds a' [d].
Proof.
  exists (mkparr 32 2 ([Some 7; Some 7] ++ repeat None 30) false), 7. do 2 eexists.
  split; [|split; [vm_compute; reflexivity|]].
  - split; [exists (repeat None 30); reflexivity|]. unfold I32MAX. cbn. repeat split; auto; try lia. 
  - split; [exists (Some 7 :: repeat None 30); reflexivity|]. unfold I32MAX. cbn. repeat split; auto; try lia.
Qed.
Print Assumptions C15_del_duplicates_refuted.
(** get_idx(-1) on an empty array reads before the block *)
Theorem C15_get_last_empty_refuted : forall c, pa_get (pa_init c) (-1) = UB.
Proof. reflexivity. Qed.
Print Assumptions C15_get_last_empty_refuted.
Theorem C15_get_negative_refuted : forall a l i, holds a l -> i < -1 -> pa_get a i = UB.
Proof.
  intros a l i H I. unfold pa_get, rd. destruct H as (_ & C & _). replace (i =? -1) with false by lia.
  replace (i >=? count a) with false by lia. now replace (0 <=? i) with false by lia.
Qed.
Print Assumptions C15_get_negative_refuted.
(** move accepts the index one past the end, which may be outside the block *)
Theorem C15_move_bound_refuted : exists a l, holds a l /\ pa_move a 0 (count a) = UB.
Proof.
  exists (mkparr 1 1 [Some 7] false), [7]. split; [|reflexivity].
  split; [exists []; reflexivity|]. unfold I32MAX. cbn. repeat split; auto; try lia.
Qed.
Print Assumptions C15_move_bound_refuted.
(** concatenating a non-empty array to itself never stops (as long as int32 has not overflowed) *)
Theorem C15_cat_self_refuted : forall fuel a l, holds a l -> l <> [] -> Z.of_nat (length l) + Z.of_nat fuel + 32 <= 2147483647 ->
  cat_self_loop fuel a 0 = Loop.
Proof. intros fuel a l H NE B. apply (cat_self_loops fuel a l); auto. destruct l; [congruence|cbn [length]; lia]. Qed.
Print Assumptions C15_cat_self_refuted.

Example C15_ex : pre_run [] [Add 5; Add 0; Add 6; Add 7; Del 5; Get 0; Del 9; Move 0 1] /\
  spec_run [] [Add 5; Add 0; Add 6; Add 7; Del 5; Get 0; Del 9; Move 0 1] = ([0;0;0;0;-1;7;-1;0], [7;7]) /\
  run (pa_init false) [Add 5; Add 0; Add 6; Add 7; Del 5; Get 0; Del 9; Move 0 1] =
    Ok ([0;0;0;0;-1;7;-1;0], mkparr 32 2 ([Some 7; Some 7; Some 7] ++ repeat None 29) false).
Proof. split; [|split; reflexivity]. unfold I32MAX. cbn. repeat split; try lia; unfold I32MAX; lia. Qed.
