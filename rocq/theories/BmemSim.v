(** Programs on buffers in memory follow the programs on byte strings. *)
From Coq Require Import Permutation.
From Verif Require Import Prelude Perm HeapModel Blocks BufModel BufProofs BmemModel BmemSpec BmemProofs.
Local Open Scope Z_scope.

Section F2.
Context {B C : Type} (R : B -> C -> Prop).
Lemma F2_nth_r : forall l m i y, Forall2 R l m -> nth_error m i = Some y -> exists x, nth_error l i = Some x /\ R x y.
Proof. intros l m i y F. revert i. induction F as [|a b l m Hab F IH]; intros [|i] E; cbn [nth_error] in *; try discriminate; [exists a; split; [reflexivity|congruence]|now apply IH]. Qed.
Lemma F2_upd : forall l m i x y, Forall2 R l m -> R x y -> Forall2 R (upd l i x) (upd m i y).
Proof. intros l m i x y F. revert i. induction F as [|a b l m Hab F IH]; intros [|i] H; cbn [upd]; constructor; auto. Qed.
Lemma F2_snoc : forall l m x y, Forall2 R l m -> R x y -> Forall2 R (l ++ [x]) (m ++ [y]).
Proof. intros l m x y F H. induction F; cbn [app]; auto. Qed.
Lemma F2_len : forall l m, Forall2 R l m -> length l = length m.
Proof. induction 1; cbn [length]; congruence. Qed.
Lemma F2_weak (R' : B -> C -> Prop) : forall l m, (forall x y, R x y -> R' x y) -> Forall2 R l m -> Forall2 R' l m.
Proof. intros l m H F. induction F; constructor; auto. Qed.
End F2.
Lemma map_upd {B C} (g : B -> C) : forall l i x, map g (upd l i x) = upd (map g l) i (g x).
Proof. induction l as [|y l IH]; intros [|i] x; cbn [upd map]; [reflexivity|reflexivity|reflexivity|]. f_equal. apply IH. Qed.
Lemma upd_same {B} : forall (l : list B) i x, nth_error l i = Some x -> upd l i x = l.
Proof. induction l as [|y l IH]; intros [|i] x E; cbn [nth_error upd] in *; try discriminate; [congruence|]. f_equal. now apply IH. Qed.
Lemma upd_upd {B} : forall (l : list B) i x y, upd (upd l i x) i y = upd l i y.
Proof. induction l as [|z l IH]; intros [|i] x y; cbn [upd]; try reflexivity. f_equal. apply IH. Qed.
Lemma upd_at {B} (l : list B) i x y : nth_error l i = Some x -> nth_error (upd l i y) i = Some y.
Proof. intros E. rewrite upd_nth_error, Nat.eqb_refl. assert (L : (i < length l)%nat) by (apply nth_error_Some; congruence). now rewrite (proj2 (Nat.ltb_lt _ _) L). Qed.
Lemma upd_other {B} (l : list B) i j y : j <> i -> nth_error (upd l i y) j = nth_error l j.
Proof. intros N. rewrite upd_nth_error. now rewrite (proj2 (Nat.eqb_neq _ _) N). Qed.
Lemma live_some {B} (l : list (option B)) i t : live l i = Ok t -> nth_error l i = Some (Some t).
Proof. unfold live. destruct (nth_error l i) as [[x|]|]; congruence. Qed.
Lemma some_live {B} (l : list (option B)) i t : nth_error l i = Some (Some t) -> live l i = Ok t.
Proof. unfold live. now intros ->. Qed.

Notation ghost := (option (nat * option nat * buf)).
Definition acell (g : ghost) : list (nat * bcell) := match g with Some (a, p, b) => bcells a p b | None => [] end.
Definition aaddr (g : ghost) : option nat := match g with Some (a, _, _) => Some a | None => None end.
Definition brep (g : ghost) (o : option vb) : Prop := match g, o with Some (_, p, b), Some v => placed p b /\ rep b v /\ (blk b = None <-> vgen v = 0%nat) | None, None => True | _, _ => False end.
Definition all (G : list ghost) : list (nat * bcell) := flat_map acell G.
(** bs is what is at offset o of the block, within what was written *)
Definition shows (b : buf) (o : Z) (bs : list Z) : Prop := o + Z.of_nat (length bs) <= off b + len b /\ exists pre rest, block b = pre ++ map Some bs ++ rest /\ Z.of_nat (length pre) = o.
Definition hrep (G : list ghost) (V : list (option vb)) (q : bptr) (h : option (nat * nat * nat * list Z)) : Prop :=
  match h with
  | None => q = None
  | Some (j, g, e, bs) => (j < length V)%nat /\ forall v, nth_error V j = Some (Some v) -> (g <= vgen v)%nat /\ (e <= vera v)%nat /\
      (vgen v = g -> vera v = e -> exists a d b o, nth_error G j = Some (Some (a, Some d, b)) /\ q = Some (d, o) /\ shows b o bs)
  end.
Record inv (w : bworld) (v : vworld) (G : list ghost) : Prop := mkinv {
  i_own : owns (bm w) (all G);
  i_adr : bbufs w = map aaddr G;
  i_rep : Forall2 brep G (vbufs v);
  i_hand : Forall2 (hrep G (vbufs v)) (bhand w) (vhand v) }.
Lemma split_at G i g : nth_error G i = Some g -> exists R, Permutation (all G) (acell g ++ R) /\ (forall g', Permutation (all (upd G i g')) (acell g' ++ R)) /\ (forall j h, nth_error G j = Some h -> j <> i -> exists R', Permutation R (acell h ++ R')).
Proof.
  unfold all. revert i. induction G as [|z G IH]; intros [|i] E; cbn [nth_error] in E; try discriminate.
  - assert (z = g) by congruence. subst. exists (flat_map acell G). cbn [upd flat_map]. split; [reflexivity|]. split; [reflexivity|]. intros [|j] h Ej N; [congruence|]. cbn [nth_error] in Ej. clear - Ej. revert j Ej. induction G as [|y G IH]; intros [|j] Ej; cbn [nth_error flat_map] in *; try discriminate; [assert (y = h) by congruence; subst; eexists; reflexivity|]. destruct (IH j Ej) as (R' & P). exists (acell y ++ R'). rewrite P. perm.
  - destruct (IH i E) as (R & P1 & P2 & P3). exists (acell z ++ R). cbn [upd flat_map]. split; [rewrite P1; perm|]. split; [intros g'; rewrite P2; perm|]. intros [|j] h Ej N; cbn [nth_error] in Ej.
    + assert (z = h) by congruence. subst. eexists. reflexivity.
    + destruct (P3 j h Ej) as (R' & P); [congruence|]. exists (acell z ++ R'). rewrite P. perm.
Qed.
Lemma get_buf w v G i vv : inv w v G -> live (vbufs v) i = Ok vv -> exists a p b R, nth_error G i = Some (Some (a, p, b)) /\ live (bbufs w) i = Ok a /\ placed p b /\ rep b vv /\ (blk b = None <-> vgen vv = 0%nat) /\ owns (bm w) (bcells a p b ++ R) /\ (forall g', Permutation (all (upd G i g')) (acell g' ++ R)).
Proof.
  intros V E. apply live_some in E. destruct (F2_nth_r _ _ _ _ _ (i_rep _ _ _ V) E) as (g & Eg & Rg). destruct g as [[[a p] b]|]; [|contradiction]. cbn [brep] in Rg. destruct (split_at G i _ Eg) as (R & P1 & P2 & _). exists a, p, b, R. split; [exact Eg|]. split; [apply some_live; rewrite (i_adr _ _ _ V), nth_error_map, Eg; reflexivity|]. destruct Rg as (R1 & R2 & R3). repeat split; try assumption; try apply R1; try apply R3; try apply R2. - apply (owns_perm _ _ _ (i_own _ _ _ V)). exact P1. - apply (i_own _ _ _ V). - apply (i_own _ _ _ V).
Qed.
Lemma own_in w v G i a d b : inv w v G -> nth_error G i = Some (Some (a, Some d, b)) -> In (d, BBlk (block b)) (all G).
Proof. intros V E. unfold all. apply in_flat_map. exists (Some (a, Some d, b)). split; [now apply (nth_error_In _ i)|]. right. now left. Qed.
(** blocks of different buffers are different *)
Lemma own_apart w v G i j a d b a' d' b' : inv w v G -> nth_error G i = Some (Some (a, Some d, b)) -> nth_error G j = Some (Some (a', Some d', b')) -> i <> j -> d <> d'.
Proof.
  intros V Ei Ej N. destruct (split_at G i _ Ei) as (R & P1 & _ & P3). destruct (P3 j _ Ej (not_eq_sym N)) as (R' & P4). pose proof (owns_nodup _ _ (owns_perm _ _ _ (i_own _ _ _ V) P1)) as ND. cbn [acell bcells kcells map fst app] in ND. apply NoDup_cons_iff in ND. destruct ND as [_ ND]. apply NoDup_cons_iff in ND. destruct ND as [ND _]. intros <-. apply ND. apply (Permutation_in _ (Permutation_sym (Permutation_map fst P4))). right. now left.
Qed.
(** a buffer changed *)
Lemma inv_buf w v G i a p b vv m' p' b' vv' R : inv w v G -> nth_error G i = Some (Some (a, p, b)) -> live (vbufs v) i = Ok vv -> (forall g', Permutation (all (upd G i g')) (acell g' ++ R)) -> owns m' (bcells a p' b' ++ R) -> placed p' b' -> rep b' vv' -> (blk b' = None <-> vgen vv' = 0%nat) ->
  (vgen vv <= vgen vv')%nat -> (vera vv <= vera vv')%nat -> (vgen vv' = vgen vv -> vera vv' = vera vv -> p' = p /\ forall o bs, shows b o bs -> shows b' o bs) ->
  inv (mkbw m' (bbufs w) (bhand w)) (vset v i vv') (upd G i (Some (a, p', b'))).
Proof.
  intros V Eg El P H Pl Rp Bn Lg Le K. constructor; cbn [bm bbufs bhand vset vbufs vhand].
  - apply (owns_perm _ _ _ H). now rewrite P.
  - rewrite map_upd, <- (i_adr _ _ _ V). cbn [aaddr]. symmetry. apply upd_same. rewrite (i_adr _ _ _ V), nth_error_map, Eg. reflexivity.
  - apply F2_upd; [exact (i_rep _ _ _ V)|]. cbn [brep]. auto.
  - pose proof (i_hand _ _ _ V) as F. revert F. apply F2_weak. intros q [[[[j g] e] bs]|]; cbn [hrep]; [|auto]. intros [Lj F]. split; [now rewrite upd_length|]. intros u Eu. apply live_some in El. destruct (Nat.eq_dec j i) as [->|N].
    + rewrite (upd_at _ _ _ _ El) in Eu. assert (u = vv') by congruence. subst u. destruct (F vv El) as (F1 & F2 & F3). split; [lia|]. split; [lia|]. intros Eg1 Ee1. destruct (F3 ltac:(lia) ltac:(lia)) as (a0 & d & b0 & o & E1 & E2 & E3). destruct (K ltac:(lia) ltac:(lia)) as [-> Sh]. assert (a0 = a /\ p = Some d /\ b0 = b) as (-> & -> & ->) by (repeat split; congruence). exists a, d, b', o. split; [exact (upd_at _ _ _ _ Eg)|]. split; [exact E2|]. now apply Sh.
    + rewrite upd_other in Eu by exact N. destruct (F u Eu) as (F1 & F2 & F3). split; [exact F1|]. split; [exact F2|]. rewrite upd_other by exact N. exact F3.
Qed.

Lemma shows_put b d b' o bs : buf_put b d = Ok b' -> 0 <= len b -> 0 <= off b -> (exists s, contains b s) -> len b' = len b + Z.of_nat (length d) -> shows b o bs -> shows b' o bs.
Proof.
  intros E L O (s & Hs) Ln (Le & pre & rest & Eb & P). unfold buf_put in E. apply obind_ok in E. destruct E as (l & El & E). match type of E with Ok ?z = _ => assert (b' = z) by congruence end. subst b'. split; [cbn [off]; cbn [off] in Ln; lia|]. unfold block. cbn [blk off]. destruct (blk b) as [l0|] eqn:E0; [|unfold block in Eb; rewrite E0 in Eb; exists pre, rest; split; [exact Eb|exact P]].
  destruct Hs as ((pre2 & rest2 & Eb2 & P2) & L2 & _). assert (El2 := El). rewrite Eb2, app_assoc in El2. replace (Z.to_nat (off b + len b)) with (length (pre2 ++ map Some s)) in El2 by (rewrite app_length, map_length; lia).
  assert (Wl : forall d l1 k l2, wrn l1 k d = Ok l2 -> length l2 = length l1 /\ firstn k l2 = firstn k l1).
  { clear. induction d as [|x d IH]; intros l1 k l2 E; cbn [wrn] in E; [assert (l2 = l1) by congruence; now subst|]. destruct (k <? length l1)%nat eqn:Lk; [|discriminate]. apply IH in E. rewrite upd_length in E. destruct E as [E1 E2]. split; [exact E1|]. apply Nat.ltb_lt in Lk. assert (Q : firstn k l2 = firstn k (firstn (S k) l2)) by (rewrite firstn_firstn; f_equal; lia). rewrite Q, E2, firstn_firstn. replace (Nat.min k (S k)) with k by lia.  clear - Lk. revert k Lk. induction l1 as [|y l1 IH]; intros [|k] Lk; cbn [upd firstn]; try reflexivity. f_equal. apply IH. cbn [length] in Lk. lia. }
  destruct (Wl _ _ _ _ El) as [W1 W2]. exists pre, (skipn (length pre + length bs) l). split; [|exact P]. rewrite <- (firstn_skipn (length pre + length bs) l) at 1. rewrite app_assoc. f_equal. assert (Q : (length pre + length bs <= Z.to_nat (off b + len b))%nat) by lia.
  assert (Q2 : firstn (length pre + length bs) l = firstn (length pre + length bs) (block b)). { rewrite <- (Nat.min_l _ _ Q) at 1. rewrite <- (Nat.min_l _ _ Q) at 2. rewrite <- !firstn_firstn. now rewrite W2. }
  rewrite Q2, Eb, app_assoc. replace (length pre + length bs)%nat with (length (pre ++ map Some bs) + 0)%nat by (rewrite app_length, map_length; lia). rewrite firstn_app_2. cbn [firstn]. now rewrite app_nil_r.
Qed.
