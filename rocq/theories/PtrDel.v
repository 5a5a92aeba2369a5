(** What zt_ptr_array_del does to an array whatever it holds. *)
From Verif Require Import Prelude PtrArrayModel PtrArrayProofs.
From Coq Require Import Permutation.
Open Scope Z_scope.

(** [swept d l l' k]: the array l is gone through once, every d met is replaced by the then last member, which is not looked at again; l' is left and k of the d are gone *)
Inductive swept (d : Z) : list Z -> list Z -> nat -> Prop :=
| sw_nil : swept d [] [] 0
| sw_keep : forall x l l' k, x <> d -> swept d l l' k -> swept d (x :: l) (x :: l') k
| sw_last : swept d [d] [] 1
| sw_fill : forall y l l' k, swept d l l' k -> swept d (d :: l ++ [y]) (y :: l') (S k).

Lemma holds_drop a l y : holds a (l ++ [y]) -> holds (mkparr (size a) (count a - 1) (slots a) (cb a)) l.
Proof.
  intros ((r & E) & C & S & B & NZ). rewrite app_length in C. cbn [length] in C. split; [|split; [|split; [exact S|split; [exact B|]]]]; cbn [slots count size].
  - exists (Some y :: r). rewrite E, map_app. cbn [map]. now rewrite <- app_assoc.
  - lia.
  - intros X. apply NZ. apply in_or_app. now left.
Qed.
Lemma cb_move a s d r a' : pa_move a s d = Ok (r, a') -> cb a' = cb a /\ size a' = size a /\ count a' = count a.
Proof.
  unfold pa_move. destruct (s >? count a); [intros E; assert (a' = a) by congruence; subst; auto|]. destruct (d >? count a); [intros E; assert (a' = a) by congruence; subst; auto|]. destruct (rd a s) as [v| | |]; cbn [obind]; try discriminate. unfold wr. destruct ((0 <=? d) && (d <? Z.of_nat (length (slots a)))); cbn [obind]; [|discriminate]. intros E. match type of E with Ok (_, ?u) = _ => assert (a' = u) by congruence end. subst a'. auto.
Qed.
Lemma del_swept : forall fuel a pre l d, holds a (pre ++ l) -> (length l < fuel)%nat ->
  exists a' l' k, del_loop fuel a d (Z.of_nat (length pre)) = Ok (a', if cb a then repeat d k else []) /\ holds a' (pre ++ l') /\ swept d l l' k /\ cb a' = cb a /\ size a' = size a.
Proof.
  induction fuel as [|f IH]; intros a pre l d H F; [lia|]. cbn [del_loop]. pose proof H as (_ & C & _). rewrite app_length in C. destruct l as [|x l].
  - cbn [length] in C. replace (Z.of_nat (length pre) <? count a) with false by lia. exists a, [], 0%nat. split; [destruct (cb a); reflexivity|]. split; [exact H|]. split; [constructor|auto].
  - cbn [length] in *. replace (Z.of_nat (length pre) <? count a) with true by lia. rewrite (rd_ok a _ _ H) by (rewrite app_length; cbn [length]; lia). cbn [obind]. rewrite Nat2Z.id, app_nth2, Nat.sub_diag by lia. cbn [nth]. destruct (Z.eqb_spec x d) as [->|Nx].
    + assert (Mv : forall z, nth (Z.to_nat (count a - 1)) (pre ++ d :: l) 0 = z -> exists a1, pa_move a (count a - 1) (Z.of_nat (length pre)) = Ok (0, a1) /\ holds a1 (upd (pre ++ d :: l) (length pre) z) /\ cb a1 = cb a /\ size a1 = size a /\ count a1 = count a).
      { intros z Ez. destruct (move_ok a (pre ++ d :: l) (count a - 1) (Z.of_nat (length pre)) H) as (a1 & E1 & H1); [rewrite app_length; cbn [length]; lia|rewrite app_length; cbn [length]; lia|]. exists a1. split; [exact E1|]. rewrite Nat2Z.id, Ez in H1. split; [exact H1|]. apply (cb_move _ _ _ _ _ E1). }
      destruct (exists_last (l := d :: l)) as (b & y & Eb); [discriminate|]. destruct b as [|x b].
      * assert (y = d /\ l = []) as [-> ->] by (cbn [app] in Eb; split; congruence). destruct (Mv d) as (a1 & E1 & H1 & Cb & Sz & Ct); [rewrite C; cbn [length]; replace (Z.to_nat (Z.of_nat (length pre + 1) - 1)) with (length pre) by lia; rewrite app_nth2, Nat.sub_diag by lia; reflexivity|]. rewrite E1. cbn [obind]. rewrite upd_app_r, Nat.sub_diag in H1 by lia. cbn [upd] in H1.
        pose proof (holds_drop _ _ _ H1) as H2. assert (H3 : holds (mkparr (size a1) (count a1 - 1) (slots a1) (cb a1)) ((pre ++ [d]) ++ []) -> False). { intros (_ & X & _). cbn [count] in X. rewrite !app_length in X. cbn [length] in *. lia. }
        destruct f as [|f]; [cbn [length] in F; lia|]. cbn [del_loop count cb]. replace (Z.of_nat (length pre) + 1 <? count a1 - 1) with false by (cbn [length] in C; lia). cbn [obind]. eexists _, [], 1%nat. split; [reflexivity|]. split; [rewrite app_nil_r; exact H2|]. split; [constructor|cbn [cb size]; auto].
      * assert (x = d /\ l = b ++ [y]) as [-> ->] by (cbn [app] in Eb; split; congruence). destruct (Mv y) as (a1 & E1 & H1 & Cb & Sz & Ct).
        { rewrite C, app_length. cbn [length]. replace (Z.to_nat (Z.of_nat (length pre + S (length b + 1)) - 1)) with (length (pre ++ d :: b)) by (rewrite app_length; cbn [length]; lia). rewrite app_comm_cons, app_assoc, app_nth2, Nat.sub_diag by lia. reflexivity. }
        rewrite E1. cbn [obind]. rewrite upd_app_r, Nat.sub_diag in H1 by lia. cbn [upd] in H1.
        assert (H2 : holds (mkparr (size a1) (count a1 - 1) (slots a1) (cb a1)) ((pre ++ [y]) ++ b)). { apply (holds_drop a1 _ y). rewrite <- !app_assoc. exact H1. }
        destruct (IH _ _ _ d H2) as (a2 & l' & k & E2 & H3 & Sw & Cb2 & Sz2); [rewrite app_length in F; cbn [length] in F; lia|]. replace (Z.of_nat (length (pre ++ [y]))) with (Z.of_nat (length pre) + 1) in E2 by (rewrite app_length; cbn [length]; lia). rewrite E2. cbn [obind cb]. rewrite Cb. cbn [cb size] in *. exists a2, (y :: l'), (S k). split; [destruct (cb a); reflexivity|]. split; [rewrite <- app_assoc in H3; exact H3|]. split; [now constructor|split; congruence].
    + assert (H2 : holds a ((pre ++ [x]) ++ l)) by (rewrite <- app_assoc; exact H). destruct (IH _ _ _ d H2) as (a2 & l' & k & E2 & H3 & Sw & Cb2 & Sz2); [lia|]. replace (Z.of_nat (length (pre ++ [x]))) with (Z.of_nat (length pre) + 1) in E2 by (rewrite app_length; cbn [length]; lia). rewrite E2. exists a2, (x :: l'), k. split; [reflexivity|]. split; [rewrite <- app_assoc in H3; exact H3|]. split; [now constructor|auto].
Qed.
Lemma del_exact fuel a l d : holds a l -> d <> 0 -> (length l < fuel)%nat ->
  exists a' l' k, pa_del fuel a d = Ok (-1, a', if cb a then repeat d k else []) /\ holds a' l' /\ swept d l l' k /\ cb a' = cb a /\ size a' = size a.
Proof. intros H N F. unfold pa_del. replace (d =? 0) with false by lia. destruct (del_swept fuel a [] l d H F) as (a' & l' & k & E & R). cbn [length Z.of_nat] in E. rewrite E. cbn [obind]. exists a', l', k. split; [reflexivity|exact R]. Qed.

(** facts about sweeping *)
Lemma swept_perm d l l' k : swept d l l' k -> Permutation l (repeat d k ++ l').
Proof.
  induction 1 as [|x l l' k N S IH| |y l l' k S IH]; cbn [repeat app]; [constructor|rewrite IH; apply Permutation_middle|constructor; constructor|]. constructor. rewrite IH. rewrite <- Permutation_cons_append. apply Permutation_middle.
Qed.
Lemma swept_some d l l' k : swept d l l' k -> In d l -> (0 < k)%nat.
Proof. induction 1 as [|x l l' k N S IH| |y l l' k S IH]; intros I; try lia; [destruct I|]. destruct I as [E|I]; [congruence|auto]. Qed.
Lemma swept_none d l l' k : swept d l l' k -> ~ In d l -> l' = l /\ k = 0%nat.
Proof. induction 1 as [|x l l' k N S IH| |y l l' k S IH]; intros I; [auto| |exfalso; apply I; now left|exfalso; apply I; now left]. destruct IH as [-> ->]; [intros J; apply I; now right|auto]. Qed.
Lemma swept_once d l l' k : swept d l l' k -> NoDup l -> ~ In d l'.
Proof.
  intros S ND. pose proof (swept_perm _ _ _ _ S) as P. intros I. assert (In d l) by (apply (Permutation_in _ (Permutation_sym P)); apply in_or_app; now right). pose proof (swept_some _ _ _ _ S H). destruct k; [lia|]. apply (Permutation_NoDup P) in ND. cbn [repeat app] in ND. inversion ND; subst. apply H3. apply in_or_app. now right.
Qed.
(** at least half of them, rounded up, are gone: a d that takes a free place stays, so one stays at most per one removed *)
Lemma swept_half d l l' k : swept d l l' k -> (count_occ Z.eq_dec l' d <= k)%nat.
Proof.
  induction 1 as [|x l l' k N S IH| |y l l' k S IH]; cbn [count_occ]; try lia; [destruct (Z.eq_dec x d); [congruence|exact IH]|]. destruct (Z.eq_dec y d); lia.
Qed.
Lemma swept_det d l l1 k1 : swept d l l1 k1 -> forall l2 k2, swept d l l2 k2 -> l1 = l2 /\ k1 = k2.
Proof.
  induction 1 as [|x l l' k N S IH| |y l l' k S IH]; intros l2 k2 S2; inversion S2; subst; try congruence; auto.
  - match goal with H : swept d l _ _ |- _ => destruct (IH _ _ H) as [-> ->] end. auto.
  - match goal with H : _ ++ [_] = [] |- _ => apply app_eq_nil in H; destruct H; discriminate end.
  - match goal with H : [] = _ ++ [_] |- _ => symmetry in H; apply app_eq_nil in H; destruct H; discriminate end.
  - match goal with H : _ ++ [_] = _ ++ [_] |- _ => apply app_inj_tail in H; destruct H; subst end. match goal with H : swept d l _ _ |- _ => destruct (IH _ _ H) as [-> ->] end. auto.
Qed.
