From Verif Require Import Prelude HashModel HashProofs TableModel TableProofs.
From Coq Require Import Permutation.
Open Scope Z_scope.

Section C.
Variable K D : Type.
Variable hash : K -> Z.
Variable cmp : K -> K -> bool.
Let lookup := lookup K D hash cmp.
Let same := same K hash cmp.
Let ref_set := ref_set K D hash cmp.

Definition set_all (dup : bool) (L l : list (K * D)) : list (K * D) := fold_left (fun l e => snd (ref_set dup l (fst e) (snd e))) L l.

Lemma copy_loop_ok : forall ns t l, holds K D hash t l ->
  exists t', copy_loop hash cmp ns t = Ok t' /\ holds K D hash t' (set_all (tdup t) (map (binding K D) ns) l) /\ tdup t' = tdup t.
Proof.
  induction ns as [|n ns IH]; intros t l H; cbn [copy_loop]; [exists t; auto|].
  destruct (set_ok K D hash cmp t l (nkey n) (ndatum n) H) as (t1 & E1 & E2 & E3). rewrite E1. cbn [obind].
  destruct (IH t1 _ E2) as (t2 & R1 & R2 & R3). exists t2. split; [exact R1|]. rewrite E3 in *. split; [exact R2|exact R3].
Qed.

(** cmp is an equivalence *)
Definition equivalence : Prop := (forall a, cmp a a = true) /\ (forall a b, cmp a b = cmp b a) /\ (forall a b c, cmp a b = true -> cmp b c = true -> cmp a c = true).
Lemma same_equiv : equivalence -> forall a b c, same a c = true -> same b c = true -> same b a = true.
Proof.
  intros (R & S & T) a b c. unfold same, TableProofs.same. intros H1 H2. apply andb_prop in H1, H2. destruct H1 as [A1 A2], H2 as [B1 B2].
  apply Z.eqb_eq in A1, B1. rewrite B1, A1, Z.eqb_refl. cbn. apply (T b c a); [exact B2|]. now rewrite S.
Qed.
Lemma same_trans : equivalence -> forall a b c, same a b = true -> same b c = true -> same a c = true.
Proof.
  intros (R & S & T) a b c. unfold same, TableProofs.same. intros H1 H2. apply andb_prop in H1, H2. destruct H1 as [A1 A2], H2 as [B1 B2].
  apply Z.eqb_eq in A1, B1. rewrite A1, B1, Z.eqb_refl. cbn. now apply (T a b c).
Qed.
Lemma lookup_same : equivalence -> forall l a b, same a b = true -> lookup l a = lookup l b.
Proof.
  intros E l a b H. induction l as [|[k d] l IH]; [reflexivity|].
  change (lookup ((k, d) :: l) a) with (if same k a then Some d else lookup l a). change (lookup ((k, d) :: l) b) with (if same k b then Some d else lookup l b).
  destruct (same k a) eqn:A.
  - now rewrite (same_trans E k a b A H).
  - destruct (same k b) eqn:B; [|exact IH]. rewrite (same_equiv E a k b H B) in A. discriminate.
Qed.

Lemma set_all_nodup : equivalence -> forall L l k,
  lookup (set_all false L l) k = match lookup l k with Some d => Some d | None => lookup L k end.
Proof.
  intros E. induction L as [|[k' d'] L IH]; intros l k.
  - cbn. now destruct (lookup l k).
  - change (set_all false ((k', d') :: L) l) with (set_all false L (snd (ref_set false l k' d'))). rewrite IH.
    unfold ref_set, TableProofs.ref_set. fold lookup. change (lookup ((k', d') :: L) k) with (if same k' k then Some d' else lookup L k).
    destruct (lookup l k') as [x|] eqn:Q; cbn [snd].
    + destruct (same k' k) eqn:S; [|reflexivity]. rewrite <- (lookup_same E l k' k S), Q. reflexivity.
    + change (lookup ((k', d') :: l) k) with (if same k' k then Some d' else lookup l k).
      destruct (same k' k) eqn:S; [|reflexivity]. rewrite <- (lookup_same E l k' k S), Q. reflexivity.
Qed.
Lemma set_all_dup : forall L l, set_all true L l = rev L ++ l.
Proof.
  induction L as [|[k' d'] L IH]; intros l; [reflexivity|]. change (set_all true ((k', d') :: L) l) with (set_all true L ((k', d') :: l)).
  rewrite IH. cbn [rev]. now rewrite <- app_assoc.
Qed.

Lemma lookup_nodes t l k : holds K D hash t l -> lookup (map (binding K D) (all_nodes t)) k = lookup l k.
Proof.
  intros H. unfold lookup. rewrite !(lookup_filter K D hash cmp). now rewrite (all_nodes_order K D hash cmp t l k H).
Qed.

Lemma copy_ok t1 l1 t2 l2 : holds K D hash t1 l1 -> holds K D hash t2 l2 ->
  exists t2', table_copy hash cmp t1 t2 = Ok (match l1 with [] => 0 | _ => 1 end, t2') /\
    holds K D hash t2' (set_all (tdup t2) (map (binding K D) (all_nodes t1)) l2).
Proof.
  intros H1 H2. unfold table_copy. destruct (copy_loop_ok (all_nodes t1) t2 l2 H2) as (t' & E1 & E2 & E3). rewrite E1. cbn [obind].
  exists t'. split; [|exact E2]. pose proof (all_nodes_perm K D hash t1 l1 H1) as P.
  destruct (all_nodes t1), l1; auto; cbn in P; [apply Permutation_nil in P; discriminate|].
  apply Permutation_sym, Permutation_nil in P. discriminate.
Qed.
Lemma copy_lookup t1 l1 t2 l2 : equivalence -> holds K D hash t1 l1 -> holds K D hash t2 l2 -> tdup t2 = false ->
  exists r t2', table_copy hash cmp t1 t2 = Ok (r, t2') /\
    forall k, table_get K D hash cmp t2' k = Ok (match lookup l2 k with Some d => Some d | None => lookup l1 k end).
Proof.
  intros E H1 H2 Du. destruct (copy_ok t1 l1 t2 l2 H1 H2) as (t' & E1 & E2). rewrite Du in E2. do 2 eexists. split; [exact E1|].
  intros k. rewrite (get_ok K D hash cmp t' _ k E2). fold lookup. rewrite set_all_nodup by exact E. now rewrite lookup_nodes with (l := l1).
Qed.
Lemma copy_lookup_dup t1 l1 t2 : equivalence -> holds K D hash t1 l1 -> holds K D hash t2 [] -> tdup t2 = true ->
  (forall k, (length (filter (fun e => same (fst e) k) l1) <= 1)%nat) ->
  exists r t2', table_copy hash cmp t1 t2 = Ok (r, t2') /\ forall k, table_get K D hash cmp t2' k = Ok (lookup l1 k).
Proof.
  intros E H1 H2 Du U. destruct (copy_ok t1 l1 t2 [] H1 H2) as (t' & E1 & E2). rewrite Du in E2. do 2 eexists. split; [exact E1|].
  intros k. rewrite (get_ok K D hash cmp t' _ k E2). rewrite set_all_dup, app_nil_r. f_equal.
  unfold lookup. rewrite !(lookup_filter K D hash cmp). fold same.
  assert (R : forall (A : Type) (f : A -> bool) l, filter f (rev l) = rev (filter f l)).
  { clear. intros A f l. induction l as [|x l IH]; [reflexivity|]. cbn [rev filter]. rewrite filter_app, IH. cbn [filter]. destruct (f x); [reflexivity|apply app_nil_r]. }
  rewrite R. pose proof (all_nodes_order K D hash cmp t1 l1 k H1) as O. fold same in O. rewrite O.
  specialize (U k). destruct (filter (fun e => same (fst e) k) l1) as [|e [|]]; [reflexivity|reflexivity|cbn in U; lia].
Qed.
End C.
