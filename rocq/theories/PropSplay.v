(** C79: splay trees of compat/sys/tree.h. *)
From Coq Require Import Permutation Sorted.
From Verif Require Import Prelude AmemModel HeapModel Perm SplayModel SplaySpec SplayProofs SplayOps.
Local Open Scope nat_scope.

Lemma keys_nodup pick ks : good pick -> NoDup (map fst (combine (fst (elements pick (mkhp [] 0) ks)) ks)) /\ exists B, owns (snd (elements pick (mkhp [] 0) ks)) B /\ Permutation (dm B) (combine (fst (elements pick (mkhp [] 0) ks)) ks) /\ length (fst (elements pick (mkhp [] 0) ks)) = length ks.
Proof.
  intros G. destruct (elements_ok pick G ks _ [] owns_nil) as (B & O & D & LE). rewrite app_nil_r in O. assert (P : Permutation (dm B) (combine (fst (elements pick (mkhp [] 0) ks)) ks)) by (rewrite D; apply Permutation_sym, Permutation_rev). split.
  - apply (Permutation_NoDup (Permutation_map fst P)). unfold dm. rewrite map_map. cbn [fst]. apply (owns_nodup _ _ O).
  - exists B. auto.
Qed.

(** Any elements, any comparison that is a total preorder, any history of insertions, removals, searches, minimum, maximum, successor and walks: every call ends, touches only elements that exist, and answers as the sorted set does; the set stays sorted without equals, and no memory is taken or lost. *)
Theorem C79_splay : forall pick cmp ks fuel l, good pick -> order cmp -> length ks < fuel ->
  let E := combine (fst (elements pick (mkhp [] 0) ks)) ks in
  history cmp E [] l ->
  exists m, calls pick cmp fuel (snd (elements pick (mkhp [] 0) ks), 0) l = Ok (fst (answers cmp E [] l), m) /\
    sorted cmp (snd (answers cmp E [] l)) /\ length (blocks (fst m)) = length ks /\
    (forall e k, In (e, k) E -> keyof (fst m) e = Ok k).
Proof.
  intros pick cmp ks fuel l G OC F E H. destruct (keys_nodup pick ks G) as (ND & B & O & P & LE). fold E in ND, P. assert (LE' : length E = length ks) by (unfold E; rewrite combine_length; lia).
  destruct (steps pick cmp fuel G OC E l ND) with (m := (snd (elements pick (mkhp [] 0) ks), 0)) (S := @nil el) as (m & E1 & t & R & TR & I1 & P1 & S1).
  - lia.
  - exists SplayProofs.E, B. split; [split; [exact O|reflexivity]|]. split; [reflexivity|]. split; [exact P|constructor].
  - exact H.
  - exists m. split; [exact E1|]. split; [exact S1|]. split.
    + destruct TR as [O1 _]. rewrite (owns_size _ _ O1), <- LE', <- (Permutation_length P1), !app_length. unfold dm. rewrite map_length. pose proof (Permutation_length (dm_tb t)) as X. unfold dm in X. rewrite map_length in X. lia.
    + intros e k J. apply (key_in m t R); [exact TR|]. apply (Permutation_in _ (Permutation_sym P1)). exact J.
Qed.

(** SPLAY_REMOVE answers with the element it was given to compare with, not with the one it took out: a program that frees the answer frees the wrong one *)
Lemma sub_order : order Z.sub. Proof. repeat split; lia. Qed.
Theorem C79_remove_refuted : match calls next Z.sub 9 (snd (elements next (mkhp [] 0) [5%Z; 5%Z]), 0) [Insert 1; Find 1; Remove 2; Find 1] with
  | Ok (a, _) => a = [[0]; [1]; [2]; [0]] | _ => False end.
Proof. vm_compute. reflexivity. Qed.
(** SPLAY_NEXT looks at the links of the element it was given: with an element that compares equal to one in the tree but is not in it, the answer is not the successor *)
Theorem C79_next_refuted : match calls next Z.sub 9 (snd (elements next (mkhp [] 0) [5%Z; 6%Z; 5%Z]), 0) [Insert 1; Insert 2; Find 3; Next 1; Next 3] with
  | Ok (a, _) => a = [[0]; [0]; [1]; [2]; [0]] | _ => False end.
Proof. vm_compute. reflexivity. Qed.

(** Non-vacuity *)
Definition prog : list call := [Find 1; Insert 1; Insert 2; Insert 3; Insert 4; Foreach; Next 3; Min; Max; Remove 1; Find 1; Next 2; Remove 2; Insert 1; Foreach].
Example C79_ex : history Z.sub (combine (fst (elements next (mkhp [] 0) [5%Z; 7%Z; 2%Z; 5%Z])) [5%Z; 7%Z; 2%Z; 5%Z]) [] prog.
Proof. vm_compute. intuition discriminate. Qed.
Example C79_ex_answers : fst (answers Z.sub (combine (fst (elements next (mkhp [] 0) [5%Z; 7%Z; 2%Z; 5%Z])) [5%Z; 7%Z; 2%Z; 5%Z]) [] prog) = [[0]; [0]; [0]; [0]; [1]; [3; 1; 2]; [1]; [3]; [2]; [1]; [0]; [0]; [2]; [0]; [3; 1]].
Proof. reflexivity. Qed.
Example C79_ex_order : order Z.sub /\ good next. Proof. split; [apply sub_order|apply next_good]. Qed.
Print Assumptions C79_splay. Print Assumptions C79_remove_refuted. Print Assumptions C79_next_refuted.
